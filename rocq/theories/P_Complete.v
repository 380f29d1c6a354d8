(** C76: with a solver that decides, a run succeeds exactly if it comes to a valid candidate. *)
From Coq Require Import Reals QArith Qreals List Bool Arith ZArith Lra Lia Classical.
From Verif Require Import M_Syntax M_Certificates M_Verifier M_BetaSearch M_Activations M_Network M_Learner M_Cegis M_Fossil M_Double
  S_Verifier S_Certificates S_Success S_Cegis S_Fossil S_Complete L_Verifier P_Verifier P_Certificates P_BetaSearch P_Cegis P_Custom.
Import ListNotations.
Local Open Scope nat_scope.

Lemma answers_decided be f : answers_rightly be f -> forall k,
  (b_is_unsat be (b_solve be k f) = true <-> unsatisfiable f) /\ (b_is_sat be (b_solve be k f) = true <-> ~ unsatisfiable f).
Proof.
  intros H k. destruct (H k) as [A B]. split; [exact A|]. rewrite B. split.
  - intros [s Hs] U. exact (U s Hs).
  - intros U. apply NNPP. intros N. apply U. intros s Hs. apply N. now exists s.
Qed.
Lemma verify_exact be noise gs : Forall (fun g => NoDup (map fst g)) gs -> (forall g l f, In g gs -> In (l, f) g -> answers_rightly be f) ->
  (v_found (verify be noise gs) = true <-> refuted gs).
Proof.
  intros Hn Ha. rewrite verify_found_all, forallb_forall.
  destruct (run_groups_decided be (answers_rightly be) (fun k f Hf => answers_decided be f Hf k) gs Hn Ha 0 []
    (fun e He => match He with end) (fun e He => match He with end)) as [A _].
  exact A.
Qed.

(** ** Any loop: a test that agrees with [good] *)
Section Loop.
  Context {P C : Type} (k : components P C) (p : P) (S : dict) (good : nat -> P -> C -> Prop).
  Hypothesis Hgood : forall it st b st' q c, proposes k p S it q c -> iterate k it st = Some (b, st') ->
    c_learn k it (st_frozen st) (st_params st) (st_S st) (st_Sdot st) = Some q -> c_translate k it q = Some c ->
    (st_found st' = true <-> good it q c).
  Lemma visited_below it st : visited k p S it st -> forall j, j < it -> exists stj stj', visited k p S j stj /\ iterate k j stj = Some (false, stj').
  Proof.
    induction 1 as [|it st st' Hv IH Hi]; intros j Hj; [lia|].
    destruct (Nat.eq_dec j it) as [->|N]; [now exists st, st'|]. apply IH. lia.
  Qed.
  Theorem loop_exact fuel r : solve k fuel p S = Some (Some r) ->
    (r_res r = true <-> exists it q c, proposes k p S it q c /\ good it q c) /\
    (exists it c, r_iters r = it + 1 /\ r_symbolic r = Some c /\ proposes k p S it (r_learned r) c /\ (r_res r = true <-> good it (r_learned r) c)) /\
    (forall it q c, proposes k p S it q c -> it < r_iters r /\ (it + 1 < r_iters r -> ~ good it q c)) /\
    (r_res r = false -> Z.of_nat (r_iters r) = (c_max_iters k + 1)%Z /\ forall it, it < r_iters r -> exists q c, proposes k p S it q c /\ ~ good it q c).
  Proof.
    intros H. unfold solve in H. destruct (loop k fuel 0 (init_state k p S)) as [| |itr st'] eqn:E; try discriminate. injection H as <-.
    destruct (loop_visited k p S _ _ _ _ _ (visited_first k p S) E) as (n & st & Hv & Hi & -> & _).
    pose proof Hi as Hi'. apply iterate_inv in Hi'.
    destruct Hi' as (q & c & found & cex & t & H1 & H2 & H3 & _ & H5 & H6 & _ & _ & _ & Hmax & _).
    cbn [r_res r_iters r_symbolic r_learned make_result]. rewrite H5.
    assert (Last : proposes k p S n q c) by (exists st; auto).
    assert (Gn : st_found st' = true <-> good n q c) by (exact (Hgood _ _ _ _ _ _ Last Hi H1 H2)).
    assert (Up : forall it q c, proposes k p S it q c -> it < n + 1 /\ (it < n -> ~ good it q c) /\ (it = n -> good it q c <-> st_found st' = true)).
    { intros it q' c' Hprop. pose proof Hprop as (sti & Hvi & L1 & L2). assert (Hle : it <= n).
      { destruct (Nat.le_gt_cases it n) as [|Hgt]; [auto|]. destruct (visited_below _ _ Hvi n Hgt) as (s1 & s2 & V1 & I1).
        rewrite (visited_fun k p S n s1 st V1 Hv) in I1. rewrite Hi in I1. discriminate. }
      split; [lia|]. split.
      - intros Hlt G. destruct (visited_below _ _ Hv it Hlt) as (s1 & s2 & V1 & I1). rewrite (visited_fun k p S it s1 sti V1 Hvi) in I1.
        apply (Hgood _ _ _ _ _ _ Hprop I1 L1 L2) in G. apply iterate_inv in I1. destruct I1 as (? & ? & ? & ? & ? & I1). destruct I1 as (_ & _ & _ & _ & _ & _ & _ & _ & _ & _ & _ & F & _).
        rewrite (F eq_refl) in G. discriminate.
      - intros ->. rewrite (visited_fun k p S n sti st Hvi Hv) in L1. rewrite H1 in L1. injection L1 as <-. rewrite H2 in L2. injection L2 as <-. symmetry. exact Gn. }
    split; [|split; [|split]].
    - split.
      + intros F. exists n, q, c. split; [exact Last|now apply Gn].
      + intros (it & q' & c' & Hp & G). destruct (Up it q' c' Hp) as (U1 & U2 & U3). destruct (Nat.eq_dec it n) as [->|Ne]; [now apply U3|]. exfalso. apply U2; [lia|exact G].
    - exists n, c. auto.
    - intros it q' c' Hp. destruct (Up it q' c' Hp) as (U1 & U2 & _). split; [exact U1|]. intros Hlt. apply U2. lia.
    - intros F. pose proof (Hmax eq_refl F (visited_timed_out k p S n st Hv)) as M. split; [lia|].
      intros it Hit. destruct (Nat.eq_dec it n) as [->|Ne].
      + exists q, c. split; [exact Last|]. rewrite <- Gn, F. discriminate.
      + destruct (visited_below _ _ Hv it ltac:(lia)) as (s1 & s2 & V1 & I1). pose proof I1 as I2. apply iterate_inv in I2.
        destruct I2 as (q' & c' & ? & ? & ? & L1 & L2 & _). assert (Hp : proposes k p S it q' c') by (exists s1; auto).
        exists q', c'. split; [exact Hp|]. apply (proj1 (proj2 (Up it q' c' Hp))). lia.
  Qed.
End Loop.

(** ** One certificate *)
Lemma constraints_exact K (pb : problem K) (env : environment K) it noise beta V Vdot gs :
  (forall g l f, In g gs -> In (l, f) g -> answers_rightly (e_solver env it) f) -> fossil_constraints pb beta V Vdot = Some gs ->
  (v_found (verify (e_solver env it) noise gs) = true <->
   match pb_type pb with RSWS => rws_conditions (pb_sets pb) (fun s => eval s V) (fun s => eval s Vdot) | _ => valid pb beta (fun s => eval s V) (fun s => eval s Vdot) end).
Proof.
  intros H E. rewrite verify_exact; [| |exact H].
  - unfold fossil_constraints in E. unfold valid. destruct (pb_type pb); try discriminate E; injection E as <-.
    + apply C08_barrier_obligations. + apply C09_barrier_alt_obligations. + apply C06_lyapunov_obligations. + apply C07_roa_obligations.
    + apply C10_rws_obligations. + apply C10_rws_obligations. + apply C10_rws_obligations. + apply C10_rws_obligations.
  - pose proof (C01_certificate_labels_distinct (pb_llo pb) (new_vars (pb_n pb)) (pb_sets pb) beta V V Vdot Vdot) as D.
    unfold distinct_labels in D. unfold fossil_constraints in E.
    destruct (pb_type pb); try discriminate E; injection E as <-; cbn; repeat (constructor; [repeat (constructor; [cbn; intuition discriminate|]); constructor|]); constructor.
Qed.
Lemma beta_loop_sat be d C Cdot : (forall beta, answers_rightly be (stay_border_condition d C beta) /\ answers_rightly be (stay_lie_condition d C Cdot beta)) ->
  decides_stay be d C Cdot.
Proof.
  intros H beta. destruct (H beta) as [A B].
  assert (G : forall f, answers_rightly be f -> P_BetaSearch.decides be f).
  { intros f Hf k. destruct (answers_decided be f Hf k) as [U S]. destruct (classic (unsatisfiable f)) as [Q|Q].
    - left. split; [now apply U|]. split; [|exact Q]. destruct (b_is_sat be _) eqn:E; [|reflexivity]. exfalso. now apply (proj1 S).
    - right. split; [now apply S|]. split; [|exact Q]. destruct (b_is_unsat be _) eqn:E; [|reflexivity]. exfalso. now apply Q, U. }
  split; now apply G.
Qed.
Lemma beta_false_none be d C Cdot : decides_stay be d C Cdot -> forall fuel k lo up,
  beta_loop be d C Cdot fuel k lo up = Some BetaFalse -> forall beta, ~ stay_conditions d (Q2R beta) (sem C) (sem Cdot).
Proof.
  intros Hd. induction fuel as [|fuel IH]; intros k lo up; cbn [beta_loop]; [discriminate|].
  pose proof (stay_check_cases be d C Cdot k ((up + lo) / 2) Hd) as Hc. cbn zeta in Hc.
  destruct (stay_in_goal_check be d C Cdot k ((up + lo) / 2)); intros H; try discriminate H; try (eapply IH; exact H).
  intros beta S. apply stay_conditions_iff in S. destruct S as [S1 S2]. destruct Hc as [B1 B2].
  destruct (Qlt_le_dec ((up + lo) / 2) beta) as [Hlt|Hle].
  - apply (border_monotone d C ((up + lo) / 2) beta); [apply Qlt_le_weak; exact Hlt|exact B1|exact S1].
  - apply (lie_monotone d C Cdot beta ((up + lo) / 2) Hle); [exact B2|exact S2].
Qed.
Lemma stay_exact K (pb : problem K) (env : environment K) it p c b :
  (forall level, answers_rightly (e_solver env it) (stay_border_condition (pb_sets pb) (fst c) level) /\
       answers_rightly (e_solver env it) (stay_lie_condition (pb_sets pb) (fst c) (snd c) level)) ->
  fossil_stay pb env it p c = Some b ->
  (b = true <-> exists level, stay_conditions (pb_sets pb) (Q2R level) (fun s => eval s (fst c)) (fun s => eval s (snd c))).
Proof.
  intros H E. apply beta_loop_sat in H. unfold fossil_stay in E.
  destruct (beta_search _ _ _ _ _ _) as [[beta| |]|] eqn:Eb; try discriminate E; injection E as <-; unfold beta_search in Eb.
  - split; [|auto]. intros _. exists beta. apply beta_loop_true in Eb. destruct Eb as (k' & H1 & H2). apply stay_conditions_iff.
    destruct (H beta) as [A B]. specialize (A k'). specialize (B (S k')). split; [destruct A as [A|A]|destruct B as [B|B]]; intuition congruence.
  - split; [discriminate|]. intros [level L]. exfalso. revert L. eapply beta_false_none; eassumption.
Qed.

Section One.
  Context {K : Type} (pb : problem K) (env : environment K) (start : learned K) (D : dict).
  Hypothesis Hex : exact_solver pb env start D.
  Definition good1 (it : nat) (p : learned K) (c : expr * expr) : Prop :=
    valid pb (l_beta p) (fun s => eval s (fst c)) (fun s => eval s (snd c)).
  Lemma good1_test it st b st' p c : proposes (fossil pb env) start D it p c -> iterate (fossil pb env) it st = Some (b, st') ->
    c_learn (fossil pb env) it (st_frozen st) (st_params st) (st_S st) (st_Sdot st) = Some p -> c_translate (fossil pb env) it p = Some c ->
    (st_found st' = true <-> good1 it p c).
  Proof.
    intros Hp Hi H1 H2. destruct (Hex it p c Hp) as [Ha Hb]. unfold iterate in Hi. rewrite H1 in Hi. cbn [option_bind] in Hi. rewrite H2 in Hi. cbn [option_bind] in Hi.
    destruct (c_verify (fossil pb env) it p c) as [[found cex]|] eqn:Ev; cbn [option_bind] in Hi; [|discriminate].
    pose proof Ev as Ev'. cbn [c_verify fossil] in Ev'. unfold fossil_verify in Ev'.
    destruct (fossil_constraints pb (l_beta p) (fst c) (snd c)) as [gs|] eqn:Eg; [|discriminate]. cbn [option_bind] in Ev'.
    assert (Ef : found = true <-> match pb_type pb with RSWS => rws_conditions (pb_sets pb) (fun s => eval s (fst c)) (fun s => eval s (snd c)) | _ => valid pb (l_beta p) (fun s => eval s (fst c)) (fun s => eval s (snd c)) end).
    { rewrite <- (constraints_exact K pb env it (e_noise env it) (l_beta p) (fst c) (snd c) gs (fun g l f Hg Hl => Ha gs g l f eq_refl Hg Hl) Eg). assert (found = v_found (verify (e_solver env it) (e_noise env it) gs)) by congruence. now subst found. }
    destruct (consolidator_get _ _ _ _ _) as [t|]; cbn [option_bind] in Hi; [|discriminate]. unfold good1.
    destruct found.
    - unfold process_certificate in Hi. destruct (if cert_eqb _ _ || _ then _ else _); cbn [option_bind] in Hi; [|discriminate].
      cbn [c_type fossil st_params] in Hi. destruct (cert_eqb (pb_type pb) RSWS) eqn:Et.
      + assert (T : pb_type pb = RSWS) by (destruct (pb_type pb); easy). rewrite T in Ef. unfold valid. rewrite T.
        cbn [c_stay fossil] in Hi. destruct (fossil_stay pb env it p c) as [sb|] eqn:Es; cbn [option_bind] in Hi; [|discriminate].
        pose proof (stay_exact K pb env it p c sb (Hb T) Es) as Hs.
        destruct sb; injection Hi as _ <-; cbn [st_found set_found]; tauto.
      + injection Hi as _ <-. cbn [st_found]. destruct (pb_type pb); try discriminate Et; exact Ef.
    - assert (F : st_found st' = false).
      { cbn [st_timed_out] in Hi. destruct (st_timed_out st); [injection Hi as _ <-; reflexivity|].
        destruct (Z.eqb _ _); [injection Hi as _ <-; reflexivity|]. unfold process_cex in Hi. cbn [st_cex st_S st_trajectory st_params st_Sdot st_V st_found st_timed_out st_frozen] in Hi.
        destruct (if c_double _ then _ else _) as [cex'|]; cbn [option_bind] in Hi; [|discriminate].
        destruct (add_ces_to_data _ _ _ _ _) as [[S1 Sd1]|]; cbn [option_bind] in Hi; [|discriminate]. injection Hi as _ <-. reflexivity. }
      rewrite F. unfold valid in Ef |- *. destruct (pb_type pb); (split; [discriminate|]); tauto.
  Qed.
End One.
Definition good2 {K} (pb : problem K) (it : nat) (p : learned2 K) (c : candidate2) : Prop :=
  valid2 pb (d_beta p) (fun s => eval s (fst (fst c))) (fun s => eval s (snd (fst c))) (fun s => eval s (fst (snd c))) (fun s => eval s (snd (snd c))).
Lemma good2_test K (pb : problem K) (env : environment2 K) start D : exact_solver2 pb env start D -> forall it st b st' p c,
  proposes (double pb env) start D it p c -> iterate (double pb env) it st = Some (b, st') ->
  c_learn (double pb env) it (st_frozen st) (st_params st) (st_S st) (st_Sdot st) = Some p -> c_translate (double pb env) it p = Some c ->
  (st_found st' = true <-> good2 pb it p c).
Proof.
  intros Hex it st b st' p c Hp Hi H1 H2. unfold iterate in Hi. rewrite H1 in Hi. cbn [option_bind] in Hi. rewrite H2 in Hi. cbn [option_bind] in Hi.
  destruct (c_verify (double pb env) it p c) as [[found cex]|] eqn:Ev; cbn [option_bind] in Hi; [|discriminate].
  cbn [c_verify double] in Ev. unfold double_verify in Ev.
  destruct (double_constraints pb (d_beta p) c) as [gs|] eqn:Eg; [|discriminate]. cbn [option_bind] in Ev.
  assert (Ef : found = true <-> good2 pb it p c).
  { assert (found = v_found (verify (e2_solver env it) (e2_noise env it) gs)) by congruence. subst found.
    rewrite verify_exact; [| |intros g l f Hg Hl; exact (Hex it p c Hp gs g l f Eg Hg Hl)].
    - unfold good2, valid2. destruct c as [[V Vd] [B Bd]]. unfold double_constraints in Eg. destruct (pb_type pb); try discriminate Eg; injection Eg as <-.
      + apply C12_stablesafe_obligations. + apply C12_rar_obligations.
    - destruct c as [[V Vd] [B Bd]]. unfold double_constraints in Eg. destruct (pb_type pb); try discriminate Eg; injection Eg as <-; cbn;
        repeat (constructor; [repeat (constructor; [cbn; intuition discriminate|]); constructor|]); constructor. }
  rewrite <- Ef. clear Ev.
  assert (T : pb_type pb = STABLESAFE \/ pb_type pb = RAR).
  { destruct c as [[V Vd] [B Bd]]. unfold double_constraints in Eg. destruct (pb_type pb); try discriminate Eg; auto. }
  destruct (consolidator_get _ _ _ _ _) as [t|]; cbn [option_bind] in Hi; [|discriminate].
  destruct found.
  - unfold process_certificate in Hi. cbn [c_type double] in Hi.
    destruct T as [T|T]; rewrite T in Hi; cbn in Hi; injection Hi as _ <-; reflexivity.
  - cbn [st_timed_out] in Hi. destruct (st_timed_out st); [injection Hi as _ <-; reflexivity|].
    destruct (Z.eqb _ _); [injection Hi as _ <-; reflexivity|]. unfold process_cex in Hi. cbn [st_cex st_S st_trajectory st_params st_Sdot st_V st_found st_timed_out st_frozen] in Hi.
    destruct (if c_double _ then _ else _) as [cex'|]; cbn [option_bind] in Hi; [|discriminate].
    destruct (add_ces_to_data _ _ _ _ _) as [[S1 Sd1]|]; cbn [option_bind] in Hi; [|discriminate]. injection Hi as _ <-. reflexivity.
Qed.

(** * C76 *)
Theorem C76_success_iff_valid :
  forall K (pb : problem K) (env : environment K) fuel random ctrl S r, let k := fossil pb env in let start := initial pb random ctrl in
    let good := fun p c => valid pb (l_beta p) (fun s => eval s (fst c)) (fun s => eval s (snd c)) in
    exact_solver pb env start S -> run_fossil pb env fuel random ctrl S = Some (Some r) ->
    (* success: exactly if some iteration had a valid candidate *)
    (r_res r = true <-> exists it p c, proposes k start S it p c /\ good p c) /\
    (* what is returned is the candidate of the last iteration, and the verdict is about it *)
    (exists it c, r_iters r = (it + 1)%nat /\ r_symbolic r = Some c /\ proposes k start S it (r_learned r) c /\ (r_res r = true <-> good (r_learned r) c)) /\
    (* no valid candidate is passed over *)
    (forall it p c, proposes k start S it p c -> (it < r_iters r)%nat /\ ((it + 1 < r_iters r)%nat -> ~ good p c)) /\
    (* failure: all CEGIS_MAX_ITERS + 1 iterations were run, and each had an invalid candidate *)
    (r_res r = false -> Z.of_nat (r_iters r) = (pb_max_iters pb + 1)%Z /\
       forall it, (it < r_iters r)%nat -> exists p c, proposes k start S it p c /\ ~ good p c).
Proof.
  intros K pb env fuel random ctrl S r k start good Hex Hr. unfold run_fossil in Hr.
  exact (loop_exact k start S (fun _ => good) (good1_test pb env start S Hex) fuel r Hr).
Qed.
Theorem C76_success_iff_valid_two :
  forall K (pb : problem K) (env : environment2 K) fuel random1 random2 ctrl S r, let k := double pb env in let start := initial2 pb random1 random2 ctrl in
    let good := fun (p : learned2 K) (c : candidate2) => valid2 pb (d_beta p) (fun s => eval s (fst (fst c))) (fun s => eval s (snd (fst c)))
                                                  (fun s => eval s (fst (snd c))) (fun s => eval s (snd (snd c))) in
    exact_solver2 pb env start S -> run_double pb env fuel random1 random2 ctrl S = Some (Some r) ->
    (r_res r = true <-> exists it p c, proposes k start S it p c /\ good p c) /\
    (exists it c, r_iters r = (it + 1)%nat /\ r_symbolic r = Some c /\ proposes k start S it (r_learned r) c /\ (r_res r = true <-> good (r_learned r) c)) /\
    (forall it p c, proposes k start S it p c -> (it < r_iters r)%nat /\ ((it + 1 < r_iters r)%nat -> ~ good p c)) /\
    (r_res r = false -> Z.of_nat (r_iters r) = (pb_max_iters pb + 1)%Z /\
       forall it, (it < r_iters r)%nat -> exists p c, proposes k start S it p c /\ ~ good p c).
Proof.
  intros K pb env fuel random1 random2 ctrl S r k start good Hex Hr. unfold run_double in Hr. destruct (pb_discrete pb); [discriminate|].
  exact (loop_exact k start S (fun _ => good) (good2_test K pb env start S Hex) fuel r Hr).
Qed.
