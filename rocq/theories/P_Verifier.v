(** Properties C01-C05: the verifier loop. *)
From Coq Require Import Reals QArith Qreals List Bool Arith Lia Lra.
From Verif Require Import M_Syntax M_Certificates M_Verifier S_Verifier L_Holds L_Verifier L_Table.
Import ListNotations.
Local Open Scope nat_scope.

(** * C01: success means every obligation was refuted *)

(** For any SMT solver (any sequence of answers) and any certificate whose
    conditions carry distinct labels: [found = True] implies each condition was
    answered unsat, and then no state satisfies it if unsat answers are right. *)
Theorem C01_found_refutes_every_condition :
  forall solve noise gs,
    distinct_labels gs ->
    v_found (verify (smt_backend solve) noise gs) = true ->
    (forall i j l f, condition_at gs i j l f -> solve (call_number gs i j) f = Unsat) /\
    (unsat_sound solve -> forall g l f, In g gs -> In (l, f) g -> unsatisfiable f).
Proof.
  intros solve noise gs Hnd Hf.
  assert (H : forall i j l f, condition_at gs i j l f -> solve (call_number gs i j) f = Unsat).
  { intros i j l f Hc.
    pose proof (verify_found_unsat (smt_backend solve) noise gs) as H. simpl in H.
    assert (Hu : smt_is_unsat (solve (call_number gs i j) f) = true).
    { apply (H) with (l := l); auto. intros k' f'. destruct (solve k' f'); simpl; congruence. }
    destruct (solve (call_number gs i j) f); simpl in Hu; congruence. }
  split; [exact H|].
  intros Hs g l f Hg Hl.
  apply In_nth_error in Hg. destruct Hg as [i Hi].
  apply In_nth_error in Hl. destruct Hl as [j Hj].
  apply (Hs (call_number gs i j)). apply (H i j l). now exists g.
Qed.

(** Conversely a run in which every answer is unsat reports success. *)
Theorem C01_all_refuted_is_found :
  forall solve noise gs,
    distinct_labels gs ->
    (forall i j l f, condition_at gs i j l f -> solve (call_number gs i j) f = Unsat) ->
    v_found (verify (smt_backend solve) noise gs) = true.
Proof.
  intros solve noise gs Hnd H. apply verify_found_complete; auto.
  intros i j l f Hc. simpl. now rewrite (H i j l f Hc).
Qed.

(** Every certificate except STABLESAFE has distinct labels, whatever its sets and functions. *)
Theorem C01_certificate_labels_distinct :
  forall llo xs d beta V W Vdot Wdot,
    distinct_labels (lyapunov_constraints llo xs d V Vdot) /\
    distinct_labels (roa_constraints llo xs d beta V Vdot) /\
    distinct_labels (barrier_constraints d V Vdot) /\
    distinct_labels (barrier_alt_constraints d V Vdot) /\
    distinct_labels (rws_constraints d V Vdot) /\
    distinct_labels (rar_constraints d V W Vdot Wdot) /\
    ~ distinct_labels (safe_roa_constraints llo xs d beta V W Vdot Wdot).
Proof.
  intros. unfold distinct_labels. simpl.
  repeat split; repeat (constructor; [simpl; intuition discriminate|]); try constructor.
  intros H. inversion H; subst. apply H2. simpl. auto.
Qed.

(** STABLESAFE: a sound solver that answers "unknown" once makes [verify] report
    success although the region-of-attraction condition has a solution. *)
Definition ss_sets : sets := fun l =>
  match l with
  | XI => FCmp CEq (EVar 0) (ENum 0)       (* initial set {0} *)
  | XU => FCmp CGe (EVar 0) (ENum 2)       (* unsafe x >= 2 *)
  | _ => FTrue
  end.
Definition ss_V : expr := EPow (EVar 0) 2.                (* V = x^2 *)
Definition ss_Vdot : expr := EPow (EVar 0) 2.             (* Vdot > 0: V grows *)
Definition ss_B : expr := EBin BSub (EVar 0) (ENum 1).    (* B = x - 1 *)
Definition ss_Bdot : expr := ENum (-1).
Definition ss_groups := safe_roa_constraints false [EVar 0] ss_sets 1 ss_V ss_B ss_Vdot ss_Bdot.
Definition ss_roa : fml := snd (nth 0 (concat ss_groups) (XD, FTrue)).
Definition ss_solver (k : nat) (f : fml) : answer :=
  match k with
  | O => Unknown
  | _ => table (map snd (tl (concat ss_groups))) f
  end.

Lemma ss_barrier_unsat : forall f, In f (map snd (tl (concat ss_groups))) -> unsatisfiable f.
Proof.
  intros f Hin s Hs. simpl in Hin.
  destruct Hin as [<-|[<-|[<-|[]]]]; simpl in Hs; unfold Q2R in Hs; simpl in Hs; lra.
Qed.

Theorem C01_stablesafe_refuted :
  exists solve noise llo xs d beta V B Vdot Bdot,
    let gs := safe_roa_constraints llo xs d beta V B Vdot Bdot in
    unsat_sound solve /\
    v_found (verify (smt_backend solve) noise gs) = true /\
    exists g l f s, In g gs /\ In (l, f) g /\ holds s f.
Proof.
  exists ss_solver, (fun _ _ _ => 0%R), false, [EVar 0], ss_sets, 1%Q, ss_V, ss_B, ss_Vdot, ss_Bdot.
  intros gs. repeat split.
  - intros [|k] f Hf; [discriminate|]. simpl in Hf.
    revert f Hf. apply table_sound. exact ss_barrier_unsat.
  - exists [(XD, ss_roa)], XD, ss_roa, (fun _ => 1%R). simpl.
    split; [now left|]. split; [now left|].
    simpl. unfold Q2R; simpl. right. left. repeat split; try lra.
Qed.

(** Non-vacuity of C01: a concrete run of BARRIER that succeeds. *)
Definition ex_sets : sets := fun l =>
  match l with
  | XI => FCmp CLe (EVar 0) (ENum 0)
  | XU => FCmp CGe (EVar 0) (ENum 2)
  | _ => FTrue
  end.
Definition ex_groups := barrier_constraints ex_sets ss_B ss_Bdot.
Definition ex_solver (k : nat) (f : fml) : answer := table (map snd (concat ex_groups)) f.

Lemma ex_unsat : forall f, In f (map snd (concat ex_groups)) -> unsatisfiable f.
Proof.
  intros f Hin s Hs. simpl in Hin.
  destruct Hin as [<-|[<-|[<-|[]]]]; simpl in Hs; unfold Q2R in Hs; simpl in Hs; lra.
Qed.

Example C01_example :
  distinct_labels ex_groups /\ unsat_sound ex_solver /\
  v_found (verify (smt_backend ex_solver) (fun _ _ _ => 0%R) ex_groups) = true.
Proof.
  split; [|split].
  - exact (proj1 (proj2 (proj2 (C01_certificate_labels_distinct
             false [] ex_sets 0 ss_B ss_B ss_Bdot ss_Bdot)))).
  - intros k f Hf. revert f Hf. apply table_sound. exact ex_unsat.
  - reflexivity.
Qed.

(** * C02: unknown answers are neither success nor counterexample *)
Theorem C02_unknown_is_not_success :
  forall solve noise gs i j l f,
    distinct_labels gs ->
    condition_at gs i j l f ->
    group_reached smt_is_sat solve gs i ->
    solve (call_number gs i j) f = Unknown ->
    v_found (verify (smt_backend solve) noise gs) = false /\
    dlookup l (v_cex (verify (smt_backend solve) noise gs)) = Some [].
Proof.
  intros solve noise gs i j l f Hnd Hc Hre Hu. split.
  - apply verify_not_found with (i := i) (j := j) (l := l) (f := f); auto.
    simpl. now rewrite Hu.
  - rewrite (verify_cex_lookup (smt_backend solve) noise gs i j l f Hnd Hc Hre).
    simpl. rewrite Hu. simpl. now destruct (v_found _).
Qed.

(** Only sat answers give counterexamples. *)
Theorem C02_no_counterexample_unless_sat :
  forall solve noise gs i j l f,
    distinct_labels gs ->
    condition_at gs i j l f ->
    group_reached smt_is_sat solve gs i ->
    (forall m, solve (call_number gs i j) f <> Sat m) ->
    dlookup l (v_cex (verify (smt_backend solve) noise gs)) = Some [].
Proof.
  intros solve noise gs i j l f Hnd Hc Hre Hu.
  rewrite (verify_cex_lookup (smt_backend solve) noise gs i j l f Hnd Hc Hre).
  simpl. destruct (solve (call_number gs i j) f) eqn:E; simpl; try now destruct (v_found _).
  now specialize (Hu m).
Qed.

Example C02_example :
  condition_at ex_groups 0 0 XI (snd (nth 0 (concat ex_groups) (XD, FTrue))) /\
  group_reached smt_is_sat (fun _ _ => Unknown) ex_groups 0.
Proof. split; [eexists; split; reflexivity | intros i' j' l f Hi; lia]. Qed.

(** * C03: counterexamples are genuine and well shaped *)
Theorem C03_counterexample_shape :
  forall solve noise gs i j l f m,
    distinct_labels gs ->
    condition_at gs i j l f ->
    group_reached smt_is_sat solve gs i ->
    solve (call_number gs i j) f = Sat m ->
    v_found (verify (smt_backend solve) noise gs) = false /\
    exists rows,
      dlookup l (v_cex (verify (smt_backend solve) noise gs)) = Some rows /\
      length rows = 21 /\
      (forall row, In row rows -> length row = length m) /\
      nth_error rows 20 = Some m /\
      (forall r c a, r < 20 -> nth_error m c = Some a ->
         exists row, nth_error rows r = Some row /\
                     nth_error row c = Some (a + 5 * / 10000 * noise l r c)%R) /\
      (sat_sound solve -> forall s, agrees s m -> holds s f).
Proof.
  intros solve noise gs i j l f m Hnd Hc Hre Hs.
  assert (Hf : v_found (verify (smt_backend solve) noise gs) = false).
  { apply verify_not_found with (i := i) (j := j) (l := l) (f := f); auto.
    simpl. now rewrite Hs. }
  split; [exact Hf|].
  exists (randomise_counterex (noise l) m).
  rewrite (verify_cex_lookup (smt_backend solve) noise gs i j l f Hnd Hc Hre).
  rewrite Hf. cbn [smt_backend b_solve b_is_sat b_model]. rewrite Hs.
  cbn [smt_is_sat smt_model].
  split; [reflexivity|]. split; [apply randomise_length|]. split.
  { intros row Hin. unfold randomise_counterex in Hin. apply in_app_or in Hin.
    destruct Hin as [Hin|[<-|[]]]; auto.
    apply in_map_iff in Hin. destruct Hin as (q & <- & _). apply perturb_length. }
  split.
  { unfold randomise_counterex. rewrite nth_error_app2; rewrite map_length, seq_length; reflexivity. }
  split.
  { intros r c a Hr Ha. exists (perturb (noise l r) m). split.
    - now apply randomise_row.
    - now apply perturb_nth. }
  intros Hss s Ha. exact (Hss _ _ _ Hs s Ha).
Qed.

(** Keys of the counterexample dictionary are labels of posed conditions. *)
Theorem C03_counterexample_keys :
  forall solve noise gs l rows,
    distinct_labels gs ->
    In (l, rows) (v_cex (verify (smt_backend solve) noise gs)) ->
    exists i j f, condition_at gs i j l f /\ group_reached smt_is_sat solve gs i.
Proof.
  intros solve noise gs l rows Hnd Hin.
  assert (Hk : In l (map fst (v_cex (verify (smt_backend solve) noise gs)))).
  { apply in_map_iff. now exists (l, rows). }
  rewrite verify_cex_keys in Hk.
  destruct (verify_run (smt_backend solve) gs Hnd) as (m & Hm & Hr & H1 & H2).
  rewrite Hr, answers_fst in Hk. apply in_map_iff in Hk.
  destruct Hk as ([l' f] & Hl & Hp). simpl in Hl. subst l'.
  apply In_nth_error in Hp. destruct Hp as [q Hq].
  destruct (concat_nth_split _ _ _ _ Hq) as (i & j & g & Hi & Hg & Hf & _).
  exists i, j, f. split; [now exists g | now apply H1].
Qed.

Example C03_example :
  condition_at ex_groups 0 0 XI (snd (nth 0 (concat ex_groups) (XD, FTrue))) /\
  group_reached smt_is_sat (fun _ _ => Sat [3%R]) ex_groups 0 /\ distinct_labels ex_groups.
Proof.
  split; [eexists; split; reflexivity | split; [intros i' j' l f Hi; lia|]].
  apply C01_example.
Qed.

(** * C04: group-by-group evaluation with early exit *)
Theorem C04_groups_evaluated_in_order :
  forall solve noise gs,
    distinct_labels gs ->
    exists m,
      m <= length gs /\
      map fst (v_cex (verify (smt_backend solve) noise gs)) = map fst (concat (firstn m gs)) /\
      (forall i, i < length gs -> (i < m <-> group_reached smt_is_sat solve gs i)).
Proof.
  intros solve noise gs Hnd.
  destruct (verify_run (smt_backend solve) gs Hnd) as (m & Hm & Hr & H1 & H2).
  exists m. split; [exact Hm|]. split.
  - rewrite verify_cex_keys, Hr. apply answers_fst.
  - intros i Hi. split; [apply H1|].
    intros Hre. now apply reached_evaluated with (be := smt_backend solve) (gs := gs).
Qed.

(** The solver is called once per evaluated condition and never for the others:
    changing its answers to conditions of unreached groups changes nothing. *)
Theorem C04_unreached_groups_irrelevant :
  forall solve solve' noise gs,
    distinct_labels gs ->
    (forall i j l f, condition_at gs i j l f -> group_reached smt_is_sat solve gs i ->
       solve (call_number gs i j) f = solve' (call_number gs i j) f) ->
    verify (smt_backend solve) noise gs = verify (smt_backend solve') noise gs.
Proof.
  intros solve solve' noise gs Hnd Heq.
  destruct (verify_run (smt_backend solve) gs Hnd) as (m & Hm & Hr & H1 & H2).
  destruct (verify_run (smt_backend solve') gs Hnd) as (m' & Hm' & Hr' & H1' & H2').
  cbn [smt_backend b_is_sat b_solve] in H1, H2, H1', H2'.
  assert (Hre : forall i, i <= length gs -> group_reached smt_is_sat solve gs i <->
                          group_reached smt_is_sat solve' gs i).
  { induction i as [|i IH]; intros Hi.
    - split; intros _ i' j' l f Hlt; lia.
    - assert (Hstep : forall sv, group_reached smt_is_sat sv gs (S i) <->
        group_reached smt_is_sat sv gs i /\
        forall j l f, condition_at gs i j l f -> smt_is_sat (sv (call_number gs i j) f) = false).
      { intros sv. split.
        - intros H. split; [intros i' j' l f Hlt; apply H; lia|].
          intros j l f. apply H. lia.
        - intros [Ha Hb] i' j' l f Hlt Hc. destruct (Nat.eq_dec i' i) as [->|].
          + now apply Hb with (l := l).
          + apply (Ha i' j' l f); auto. lia. }
      rewrite !Hstep. rewrite IH by lia. split; intros [Ha Hb]; split; auto; intros j l f Hc.
      + rewrite <- (Heq i j l f Hc); [now apply Hb with (l := l)|]. apply IH; auto; lia.
      + rewrite (Heq i j l f Hc); [now apply Hb with (l := l)|]. apply IH; auto; lia. }
  assert (m = m').
  { destruct (lt_eq_lt_dec m m') as [[Hlt| ->]|Hlt]; auto; exfalso.
    - apply H2; [lia|]. apply Hre; [lia|]. apply H1'. exact Hlt.
    - apply H2'; [lia|]. apply Hre; [lia|]. apply H1. exact Hlt. }
  subst m'.
  assert (Hans : answers (smt_backend solve) 0 (concat (firstn m gs)) =
                 answers (smt_backend solve') 0 (concat (firstn m gs))).
  { assert (Hnth : forall q l f, nth_error (concat (firstn m gs)) q = Some (l, f) ->
              solve q f = solve' q f).
    { intros q l f Hq. destruct (concat_nth_split _ _ _ _ Hq) as (i & j & g & Hi & Hg & Hf & ->).
      apply (Heq i j l f); [now exists g | now apply H1]. }
    revert Hnth. clear. generalize (concat (firstn m gs)) as g. intros g.
    assert (forall k, (forall q l f, nth_error g q = Some (l, f) -> solve (k + q) f = solve' (k + q) f) ->
             answers (smt_backend solve) k g = answers (smt_backend solve') k g).
    { induction g as [|[l c] g IH]; intros k H; simpl; [reflexivity|].
      f_equal.
      - f_equal. specialize (H 0 l c eq_refl). now rewrite Nat.add_0_r in H.
      - apply IH. intros q l' f Hq. specialize (H (S q) l' f Hq).
        now rewrite Nat.add_succ_r in H. }
    intros Hnth. apply H. exact Hnth. }
  unfold verify. rewrite Hr, Hr'.
  change (b_res (smt_backend solve)) with answer. change (b_res (smt_backend solve')) with answer.
  cbn [smt_backend b_is_sat b_is_unsat b_model].
  change (b_res (smt_backend solve)) with answer in Hans.
  rewrite Hans. reflexivity.
Qed.

Example C04_example : distinct_labels ex_groups /\ length ex_groups = 2.
Proof. split; [apply C01_example | reflexivity]. Qed.

(** * C05: the dReal back-end *)

(** dReal's answer [None] ("unsat") is right. *)
Definition dreal_sound (check : nat -> nat -> fml -> option box) : Prop :=
  forall k q f, check k q f = None -> unsatisfiable f.

(** The box answering the second-chance query, in which all variables are
    confined to (-1000,1000), has a midpoint within +-1e300. *)
Definition dreal_boxes_sane (check : nat -> nat -> fml -> option box) (n : nat) : Prop :=
  forall k f b, check k 1 (second_chance (new_vars n) f) = Some b ->
    dreal_within_bounds (Some b) = true.

Lemma second_chance_holds s n f :
  holds s f -> (forall i, i < n -> (-1000 < s i < 1000)%R) ->
  holds s (second_chance (new_vars n) f).
Proof.
  intros Hf Hb. unfold second_chance. apply holds_fand. constructor; [exact Hf|].
  unfold new_vars. rewrite map_map. apply Forall_map_iff, Forall_seq.
  intros i Hi. specialize (Hb i Hi). simpl. unfold Q2R; simpl. repeat split; lra.
Qed.

(** An accepted condition has no solution in the box |x_i| < 1000. *)
Theorem C05_dreal_accepts_only_if_no_bounded_solution :
  forall check n k f,
    dreal_sound check -> dreal_boxes_sane check n ->
    dreal_is_unsat (dreal_solve check (new_vars n) k f) = true ->
    forall s, (forall i, i < n -> (-1000 < s i < 1000)%R) -> ~ holds s f.
Proof.
  intros check n k f Hs Hb Hu s Hbd Hf. unfold dreal_solve in Hu.
  destruct (check k 0 f) as [b|] eqn:E0; [|exact (Hs _ _ _ E0 s Hf)].
  simpl in Hu. destruct (forallb _ b) eqn:Ew; simpl in Hu.
  - unfold dreal_is_unsat in Hu. simpl in Hu. rewrite Ew in Hu. discriminate.
  - destruct (check k 1 (second_chance (new_vars n) f)) as [b'|] eqn:E1.
    + apply Hb in E1. unfold dreal_is_unsat in Hu. rewrite E1 in Hu. discriminate.
    + apply (Hs _ _ _ E1 s). now apply second_chance_holds.
Qed.

(** Hence acceptance is right for conditions that confine the state. *)
Theorem C05_dreal_sound_on_bounded_conditions :
  forall check n k f,
    dreal_sound check -> dreal_boxes_sane check n ->
    (forall s, holds s f -> forall i, i < n -> (-1000 < s i < 1000)%R) ->
    dreal_is_unsat (dreal_solve check (new_vars n) k f) = true ->
    unsatisfiable f.
Proof.
  intros check n k f Hs Hb Hbd Hu s Hf.
  apply (C05_dreal_accepts_only_if_no_bounded_solution check n k f Hs Hb Hu s); auto.
Qed.

(** For an unbounded condition acceptance can be wrong, with a dReal that is
    sound and whose boxes are sane. *)
Definition far : fml := FCmp CGt (EVar 0) (ENum 2000).
Definition far_check (k q : nat) (f : fml) : option box :=
  if fml_dec f (second_chance (new_vars 1) far) then None
  else match q with O => Some [(huge, 3 * huge)%R] | _ => Some [(0, 0)%R] end.

Lemma huge_pos : (0 < huge)%R.
Proof. unfold huge. apply pow_lt. lra. Qed.

Theorem C05_dreal_unbounded_refuted :
  exists check n k f s,
    dreal_sound check /\ dreal_boxes_sane check n /\
    dreal_is_unsat (dreal_solve check (new_vars n) k f) = true /\ holds s f.
Proof.
  exists far_check, 1, 0, far, (fun _ => 3000%R). split; [|split; [|split]].
  - intros k q f. unfold far_check. destruct (fml_dec f _) as [->|]; [|destruct q; discriminate].
    intros _ s Hs. simpl in Hs. unfold Q2R in Hs; simpl in Hs. lra.
  - intros k f b. unfold far_check. destruct (fml_dec _ _); [discriminate|].
    intros H. inversion H; subst. simpl. unfold mid, in_bounds, Rltb. simpl.
    pose proof huge_pos.
    destruct (Rlt_dec (- huge) ((0 + 0) / 2)); [|lra].
    destruct (Rlt_dec ((0 + 0) / 2) huge); [reflexivity|lra].
  - unfold dreal_solve.
    assert (E : far_check 0 0 far = Some [(huge, 3 * huge)%R]).
    { unfold far_check. destruct (fml_dec far _) as [H|]; [discriminate H|reflexivity]. }
    rewrite E.
    assert (W : dreal_within_bounds (Some [(huge, (3 * huge)%R)]) = false).
    { simpl. unfold mid, in_bounds, Rltb. simpl. pose proof huge_pos.
      destruct (Rlt_dec ((huge + 3 * huge) / 2) huge); [lra|]. now rewrite andb_false_r. }
    rewrite W. simpl dreal_is_sat. cbn [andb negb].
    unfold far_check. destruct (fml_dec _ _); [reflexivity|congruence].
  - simpl. unfold Q2R; simpl. lra.
Qed.

Example C05_example : exists check, dreal_sound check /\ dreal_boxes_sane check 1 /\
  dreal_is_unsat (dreal_solve check (new_vars 1) 0 FFalse) = true.
Proof.
  exists (fun _ _ f => match f with FFalse => None | _ => Some [(0, 0)%R] end).
  repeat split.
  - intros k q f. destruct f; try discriminate. intros _ s Hs. exact Hs.
  - intros k f b H. simpl in H. inversion H; subst. simpl. unfold mid, in_bounds, Rltb. simpl.
    pose proof huge_pos.
    destruct (Rlt_dec (- huge) ((0 + 0) / 2)); [|lra].
    destruct (Rlt_dec ((0 + 0) / 2) huge); [reflexivity|lra].
Qed.

Print Assumptions C01_found_refutes_every_condition.
Print Assumptions C01_certificate_labels_distinct.
Print Assumptions C01_stablesafe_refuted.
Print Assumptions C02_unknown_is_not_success.
Print Assumptions C03_counterexample_shape.
Print Assumptions C04_groups_evaluated_in_order.
Print Assumptions C04_unreached_groups_irrelevant.
Print Assumptions C05_dreal_sound_on_bounded_conditions.
Print Assumptions C05_dreal_unbounded_refuted.
