(** Non-vacuity of C13-C20: one concrete system, x' = -x on the line (and
    x(k+1) = x(k)/2), with sets built by fossil's own Rectangle, meets every
    hypothesis of the trajectory theorems, including a trajectory. *)
From Coq Require Import Reals QArith Qreals List Bool Arith Lra Lia.
From Coquelicot Require Import Coquelicot.
From Verif Require Import M_Syntax M_Certificates M_Verifier M_BetaSearch M_Domains S_Verifier S_Certificates
  S_Success S_Dynamics S_Domains L_Holds L_Calculus L_Success L_Continuity L_Domains P_Verifier P_Certificates
  P_BetaSearch P_Safety P_Stability P_Domains.
Import ListNotations.
Local Open Scope R_scope.

Definition iv (a b : Q) : fset := Rect [a] [b].
Definition iv_fml (a b : Q) : fml := generate_domain (iv a b) (new_vars 1).
Definition iv_ends (a b : Q) : fml :=
  match generate_boundary (iv a b) (new_vars 1) with Some f => f | None => FFalse end.

Definition ex_sets : sets := fun l =>
  match l with
  | XD => iv_fml (-4) 4
  | XI => iv_fml (-1) 1
  | XU => iv_fml 3 4
  | XS => iv_fml (-2) 2
  | XS_BORDER => iv_ends (-2) 2
  | XG => iv_fml (-1#2) (1#2)
  | XG_BORDER => iv_ends (-1#2) (1#2)
  | XF => iv_fml (-1) 1
  | XNF => generate_complement (iv (-1) 1) (new_vars 1)
  | XR => FTrue
  end.

Lemma iv_holds a b s : holds s (iv_fml a b) <-> Q2R a <= s 0%nat <= Q2R b.
Proof.
  unfold iv_fml. rewrite (C27_formula_denotes_set (iv a b) 1 s) by (simpl; auto). simpl. split.
  - intros H. apply (H 0%nat). lia.
  - intros H i Hi. replace i with 0%nat by lia. exact H.
Qed.
Lemma iv_ends_holds a b s :
  holds s (iv_ends a b) <-> (s 0%nat = Q2R a \/ s 0%nat = Q2R b) /\ Q2R a <= s 0%nat <= Q2R b.
Proof.
  unfold iv_ends. cbn [generate_boundary iv].
  rewrite holds_fand, !Forall_cons_iff, rect_boundary_holds by reflexivity.
  change (generate_domain (Rect [a] [b]) (new_vars 1)) with (iv_fml a b). rewrite iv_holds. split.
  - intros ((i & Hi & H) & Hb & _). replace i with 0%nat in H by lia. unfold qn in H. simpl in H. auto.
  - intros (H & Hb). repeat split; try tauto; [|constructor]. exists 0%nat. split; [lia|exact H].
Qed.
Lemma iv_fence a b : fence 1 (fun s => holds s (iv_fml a b)) (fun s => holds s (iv_ends a b)).
Proof. apply (C30_leaving_crosses_boundary (iv a b) 1); simpl; auto. Qed.

Ltac exnum :=
  unfold inside, ex_sets, sem, generate_complement in *; cbn [holds eval binop_eval unop_eval] in *;
  rewrite ?iv_ends_holds in *; fold (iv_fml (-1) 1) in *; rewrite ?iv_holds in *;
  replace (Q2R (-4)) with (-4) in * by (unfold Q2R; simpl; lra);
  replace (Q2R (-2)) with (-2) in * by (unfold Q2R; simpl; lra);
  replace (Q2R (-1)) with (-1) in * by (unfold Q2R; simpl; lra);
  replace (Q2R (-1#2)) with (-1/2) in * by (unfold Q2R; simpl; lra);
  replace (Q2R (1#2)) with (1/2) in * by (unfold Q2R; simpl; lra);
  replace (Q2R (3#4)) with (3/4) in * by (unfold Q2R; simpl; lra);
  replace (Q2R 4) with 4 in * by (unfold Q2R; simpl; lra);
  replace (Q2R 3) with 3 in * by (unfold Q2R; simpl; lra);
  replace (Q2R 2) with 2 in * by (unfold Q2R; simpl; lra);
  replace (Q2R 1) with 1 in * by (unfold Q2R; simpl; lra);
  replace (Q2R 0) with 0 in * by (unfold Q2R; simpl; lra).

Definition ex_f : vfield := fun s i => - s i.
Definition ex_x : R -> state := fun t _ => exp (- t).
Definition ex_V : expr := EPow (EVar 0) 2.
Definition ex_Vdot : expr := EBin BMul (EBin BMul (ENum 2) (EVar 0)) (EUn UNeg (EVar 0)).
Definition ex_minus (c : Q) : expr := EBin BSub ex_V (ENum c).

Lemma ex_solves : solves_forever 1 ex_f ex_x.
Proof.
  intros t _ i _. unfold ex_x, ex_f. auto_derive; [exact I|ring].
Qed.

Lemma ex_lie_V : lie_derivative 1 ex_f (sem ex_V) (sem ex_Vdot).
Proof.
  intros x t Hx. assert (H := Hx 0%nat ltac:(lia)). unfold ex_f in H. exnum. simpl.
  exnum.
  apply (is_derive_ext (fun u => x u 0%nat * x u 0%nat)); [intros u; simpl; ring|].
  replace (2 * x t 0%nat * - x t 0%nat) with (- x t 0%nat * x t 0%nat + x t 0%nat * - x t 0%nat) by ring.
  apply (is_derive_mult (fun u => x u 0%nat) (fun u => x u 0%nat)); auto. intros ? ?. apply Rmult_comm.
Qed.
Lemma ex_lie_minus c : lie_derivative 1 ex_f (sem (ex_minus c)) (sem ex_Vdot).
Proof.
  intros x t Hx. assert (H := ex_lie_V x t Hx). unfold sem, ex_minus. cbn [eval binop_eval].
  now apply is_derive_sub_const.
Qed.

Lemma ex_start : ex_x 0 0%nat = 1.
Proof. unfold ex_x. rewrite Ropp_0. apply exp_0. Qed.
Lemma ex_range t : 0 <= t -> 0 < ex_x t 0%nat <= 1.
Proof.
  intros Ht. unfold ex_x. split; [apply exp_pos|]. rewrite <- exp_0.
  destruct Ht as [Ht|Ht]; [left; apply exp_increasing; lra|right; f_equal; lra].
Qed.

Lemma ex_cont e p : vars_below 1 e -> (forall q, tame_at q e) -> cont_at 1 (sem e) p.
Proof. intros H1 H2. now apply eval_cont. Qed.
Lemma ex_cont_V p : cont_at 1 (sem ex_V) p.
Proof. apply ex_cont; simpl; repeat split; auto; lia. Qed.
Lemma ex_cont_Vdot p : cont_at 1 (sem ex_Vdot) p.
Proof. apply ex_cont; simpl; repeat split; auto; lia. Qed.

Lemma ex_not_origin s : ~ origin 1 s -> 0 < s 0%nat * s 0%nat.
Proof.
  intros H. assert (s 0%nat <> 0); [|nra]. intros E. apply H. intros i Hi. now replace i with 0%nat by lia.
Qed.

Example C13_example :
  certified (lyapunov_constraints false (new_vars 1) ex_sets ex_V ex_Vdot) /\
  lie_derivative 1 ex_f (sem ex_V) (sem ex_Vdot) /\
  (forall p, cont_at 1 (sem ex_V) p) /\ (forall p, cont_at 1 (sem ex_Vdot) p) /\
  (forall s, origin 1 s -> sem ex_V s = 0) /\
  neighbourhood 1 4 (inside ex_sets XD) /\
  solves_forever 1 ex_f ex_x /\ (forall t, 0 <= t -> inside ex_sets XD (ex_x t) /\ ~ origin 1 (ex_x t)).
Proof.
  split; [|split; [|split; [|split; [|split; [|split; [|split]]]]]].
  - apply refuted_certified;
      [apply (C01_certificate_labels_distinct false (new_vars 1) ex_sets 0 ex_V ex_V ex_Vdot ex_Vdot)|].
    apply C06_lyapunov_obligations. intros s Hs Ho. apply ex_not_origin in Ho. unfold ex_V, ex_Vdot.
    exnum. simpl. split; [intros _|]; lra.
  - exact ex_lie_V.
  - exact ex_cont_V.
  - exact ex_cont_Vdot.
  - intros s H. unfold sem. simpl. rewrite (H 0%nat) by lia. ring.
  - split; [lra|]. intros s H. specialize (H 0%nat ltac:(lia)). apply Rabs_def2 in H. exnum. lra.
  - exact ex_solves.
  - intros t Ht. assert (H := ex_range t Ht). split; [exnum; lra|].
    intros Ho. specialize (Ho 0%nat ltac:(lia)). lra.
Qed.

Definition ex_F : vfield := fun s i => s i / 2.
Definition ex_run : nat -> state := fun k _ => (/ 2) ^ k.
Definition ex_dV : expr := EBin BMul (ENum (-3#4)) (EPow (EVar 0) 2).

Example C14_example :
  certified (lyapunov_constraints false (new_vars 1) ex_sets ex_V ex_dV) /\
  step_difference 1 ex_F (sem ex_V) (sem ex_dV) /\
  (forall p, cont_at 1 (sem ex_V) p) /\ (forall p, cont_at 1 (sem ex_dV) p) /\
  (forall s, origin 1 s -> sem ex_V s = 0) /\
  (forall s, origin 1 s -> forall i, (i < 1)%nat -> ex_F s i = 0) /\
  bounded_by 1 4 (inside ex_sets XD) /\ closed_set 1 (inside ex_sets XD) /\
  run 1 ex_F ex_run /\ (forall k, inside ex_sets XD (ex_run k) /\ ~ origin 1 (ex_run k)).
Proof.
  assert (E : Q2R (-3#4) = -3/4) by (unfold Q2R; simpl; lra).
  split; [|split; [|split; [|split; [|split; [|split; [|split; [|split; [|split]]]]]]]].
  - apply refuted_certified;
      [apply (C01_certificate_labels_distinct false (new_vars 1) ex_sets 0 ex_V ex_V ex_dV ex_dV)|].
    apply C06_lyapunov_obligations. intros s Hs Ho. apply ex_not_origin in Ho. unfold ex_V, ex_dV.
    unfold sem. simpl. rewrite E. split; [intros _|]; lra.
  - intros s s' H. unfold sem, ex_dV, ex_V. simpl. rewrite E, (H 0%nat) by lia. unfold ex_F. field.
  - exact ex_cont_V.
  - intros p. apply ex_cont; simpl; repeat split; auto; lia.
  - intros s H. unfold sem. simpl. rewrite (H 0%nat) by lia. ring.
  - intros s H i Hi. unfold ex_F. rewrite H by lia. lra.
  - split; [lra|]. intros s Hs i Hi. replace i with 0%nat by lia. exnum. lra.
  - intros p Hp. exnum. destruct (Rlt_le_dec (p 0%nat) (-4)).
    + exists (-4 - p 0%nat). split; [lra|]. intros s Hs H. specialize (Hs 0%nat ltac:(lia)).
      apply Rabs_def2 in Hs. exnum. lra.
    + exists (p 0%nat - 4). split; [lra|]. intros s Hs H. specialize (Hs 0%nat ltac:(lia)).
      apply Rabs_def2 in Hs. exnum. lra.
  - intros k i _. unfold ex_run, ex_F. simpl. field.
  - intros k. assert (H : 0 < (/2) ^ k <= 1).
    { induction k as [|k IH]; simpl; lra. }
    split; [exnum; unfold ex_run; lra|]. intros Ho. specialize (Ho 0%nat ltac:(lia)). unfold ex_run in Ho. lra.
Qed.

Definition ex_B : expr := ex_minus 4.
Example C15_example :
  certified (barrier_constraints ex_sets ex_B ex_Vdot) /\
  lie_derivative 1 ex_f (sem ex_B) (sem ex_Vdot) /\
  solves_forever 1 ex_f ex_x /\ inside ex_sets XI (ex_x 0) /\
  (forall t, 0 <= t -> inside ex_sets XD (ex_x t)) /\
  (exists s, inside ex_sets XD s /\ inside ex_sets XU s).
Proof.
  split; [|split; [|split; [|split; [|split]]]].
  - apply refuted_certified;
      [apply (C01_certificate_labels_distinct false (new_vars 1) ex_sets 0 ex_B ex_B ex_Vdot ex_Vdot)|].
    apply C08_barrier_obligations. unfold barrier_conditions, ex_B, ex_minus, ex_V, ex_Vdot.
    exnum. repeat split; intros s; exnum; intros; simpl in *; nra.
  - apply ex_lie_minus.
  - exact ex_solves.
  - exnum. rewrite ex_start. lra.
  - intros t Ht. assert (H := ex_range t Ht). exnum. lra.
  - exists (fun _ => 3). exnum. lra.
Qed.

Example C16_example :
  (certified (barrier_alt_constraints ex_sets ex_B ex_Vdot) /\
   lie_derivative 1 ex_f (sem ex_B) (sem ex_Vdot)) /\
  (certified (barrier_alt_constraints ex_sets ex_B ex_dV) /\
   step_difference 1 ex_F (sem ex_B) (sem ex_dV) /\
   run 1 ex_F ex_run /\ inside ex_sets XI (ex_run 0) /\ (forall k, inside ex_sets XD (ex_run k))).
Proof.
  assert (E : Q2R (-3#4) = -3/4) by (unfold Q2R; simpl; lra).
  split; [split|split; [|split; [|split; [|split]]]].
  - apply refuted_certified;
      [apply (C01_certificate_labels_distinct false (new_vars 1) ex_sets 0 ex_B ex_B ex_Vdot ex_Vdot)|].
    apply C09_barrier_alt_obligations. unfold barrier_alt_conditions, ex_B, ex_minus, ex_V, ex_Vdot.
    exnum. repeat split; intros s; exnum; intros; simpl in *; nra.
  - apply ex_lie_minus.
  - apply refuted_certified;
      [apply (C01_certificate_labels_distinct false (new_vars 1) ex_sets 0 ex_B ex_B ex_dV ex_dV)|].
    apply C09_barrier_alt_obligations. unfold barrier_alt_conditions, ex_B, ex_minus, ex_V, ex_dV.
    exnum. rewrite E. repeat split; intros s; exnum; intros; simpl in *; nra.
  - intros s s' H. unfold sem, ex_dV, ex_B, ex_minus, ex_V. simpl. rewrite E, (H 0%nat) by lia. unfold ex_F. field.
  - intros k i _. unfold ex_run, ex_F. simpl. field.
  - exnum. unfold ex_run. simpl. lra.
  - intros k. assert (H : 0 < (/2) ^ k <= 1).
    { induction k as [|k IH]; simpl; lra. }
    exnum; unfold ex_run; lra.
Qed.

Definition ex_C : expr := ex_minus 3.
Lemma ex_geometry : rws_geometry 1 ex_sets.
Proof.
  split; [|split].
  - intros s Hs. exnum. lra.
  - intros s Hs. exnum. lra.
  - apply (iv_fence (-2) 2).
Qed.
Lemma ex_rws : rws_conditions ex_sets (sem ex_C) (sem ex_Vdot).
Proof.
  unfold rws_conditions, ex_C, ex_minus, ex_V, ex_Vdot. exnum. split; [|split].
  - intros s Hd Hi. simpl. exnum. nra.
  - intros s Hd Hi. simpl. exnum. destruct Hi as [[-> | ->] _]; lra.
  - intros s Hs Hg HC. exnum. simpl in *. destruct (Rlt_le_dec (s 0%nat) (-1/2)); nra.
Qed.
Lemma ex_lower s : -3 <= sem ex_C s.
Proof. unfold ex_C, ex_minus, ex_V. exnum. simpl. nra. Qed.

Example C17_example :
  certified (rws_constraints ex_sets ex_C ex_Vdot) /\
  lie_derivative 1 ex_f (sem ex_C) (sem ex_Vdot) /\
  rws_geometry 1 ex_sets /\ (forall s, inside ex_sets XS s -> -3 <= sem ex_C s) /\
  solves 1 ex_f ex_x 101 /\ inside ex_sets XI (ex_x 0) /\ (sem ex_C (ex_x 0) - -3) / (1/100) < 101.
Proof.
  split; [|split; [|split; [|split; [|split; [|split]]]]].
  - apply refuted_certified;
      [apply (C01_certificate_labels_distinct false (new_vars 1) ex_sets 0 ex_C ex_C ex_Vdot ex_Vdot)|].
    apply C10_rws_obligations. exact ex_rws.
  - apply ex_lie_minus.
  - exact ex_geometry.
  - intros s _. apply ex_lower.
  - apply forever_solves, ex_solves.
  - exnum. rewrite ex_start. lra.
  - unfold ex_C, ex_minus, ex_V. exnum. rewrite ex_start. simpl. lra.
Qed.

(** A solver for the queries of the beta search on this system. *)
Definition ex_stay_solver (_ : nat) (f : fml) : answer :=
  match f with
  | FAnd (FCmp CLe _ (ENum b)) _ => if Qle_bool (-11#4) b then Sat [1/2] else Unsat
  | FAnd (FAnd _ (FAnd (FNot (FAnd _ (FAnd (FCmp CLt _ (ENum b)) _))) _)) _ =>
      if Qle_bool b (-29#10) then Sat [0] else Unsat
  | _ => Unknown
  end.

Lemma ex_stay_sound : stay_sound (smt_backend ex_stay_solver) ex_sets ex_C ex_Vdot.
Proof.
  intros k b. split; simpl; intros H s.
  - destruct (Qle_bool (-11#4) b) eqn:E; [discriminate|].
    assert (Hb : Q2R b < Q2R (-11#4)).
    { apply Qlt_Rlt. apply Qnot_le_lt. intros Hle. apply Qle_bool_iff in Hle. congruence. }
    replace (Q2R (-11#4)) with (-11/4) in Hb by (unfold Q2R; simpl; lra).
    intros (H1 & H2 & _). change (holds s (iv_ends (-1#2) (1#2))) in H2. simpl in H1.
    exnum. destruct H2 as [[E0|E0] _]; rewrite E0 in H1; lra.
  - destruct (Qle_bool b (-29#10)) eqn:E; [discriminate|].
    assert (Hb : Q2R (-29#10) < Q2R b).
    { apply Qlt_Rlt. apply Qnot_le_lt. intros Hle. apply Qle_bool_iff in Hle. congruence. }
    replace (Q2R (-29#10)) with (-29/10) in Hb by (unfold Q2R; simpl; lra).
    intros ((H1 & H2 & _) & H3 & _).
    change (holds s (iv_fml (-1#2) (1#2))) in H1.
    change (~ (holds s (iv_fml (-2) 2) /\ sem ex_C s < Q2R b /\ True)) in H2.
    change (sem ex_Vdot s + Q2R gamma > Q2R 0) in H3.
    unfold ex_C, ex_minus, ex_V, ex_Vdot in *. rewrite Q2R_gamma in H3. exnum. simpl in *.
    assert (1/10 <= s 0%nat * s 0%nat); [|nra].
    apply Rnot_lt_le. intros Hlt. apply H2. repeat split; nra.
Qed.

Example C18_example :
  certified (rws_constraints ex_sets ex_C ex_Vdot) /\
  stay_sound (smt_backend ex_stay_solver) ex_sets ex_C ex_Vdot /\
  (exists beta, beta_search (smt_backend ex_stay_solver) ex_sets ex_C ex_Vdot 40 0 = Some (BetaTrue beta)) /\
  rsws_geometry 1 ex_sets /\ solves_forever 1 ex_f ex_x.
Proof.
  split; [apply C17_example|]. split; [exact ex_stay_sound|]. split; [|split].
  - eexists. vm_compute. reflexivity.
  - split; [exact ex_geometry|]. split.
    + intros s Hs. exnum. lra.
    + apply (iv_fence (-1#2) (1#2)).
  - exact ex_solves.
Qed.

Example C19_example :
  certified (roa_constraints true (new_vars 1) ex_sets 1 ex_V ex_Vdot) /\
  certified (roa_constraints false (new_vars 1) ex_sets 1 ex_V ex_Vdot) /\
  lie_derivative 1 ex_f (sem ex_V) (sem ex_Vdot) /\
  bounded_by 1 2 (fun s => sem ex_V s <= 11/10 * Q2R 1) /\
  solves_forever 1 ex_f ex_x /\ inside ex_sets XI (ex_x 0) /\ sem ex_V (ex_x 0) < 11/10 * Q2R 1 /\
  (forall t, 0 <= t <= 1 -> outside_ball 1 (1/100) (ex_x t)).
Proof.
  assert (Hroa : forall llo, certified (roa_constraints llo (new_vars 1) ex_sets 1 ex_V ex_Vdot)).
  { intros llo. apply refuted_certified;
      [apply (C01_certificate_labels_distinct llo (new_vars 1) ex_sets 1 ex_V ex_V ex_Vdot ex_Vdot)|].
    apply C07_roa_obligations. unfold roa_conditions, ex_V, ex_Vdot. exnum. simpl. split.
    - intros s Hs. exnum. nra.
    - intros s Hs Hn. simpl in *. destruct llo; nra. }
  split; [apply Hroa|]. split; [apply Hroa|]. split; [exact ex_lie_V|].
  split; [split; [lra|]|split; [exact ex_solves|split; [|split]]].
  - intros s Hs i Hi. replace i with 0%nat by lia. unfold ex_V in Hs. exnum. simpl in Hs. split; nra.
  - exnum. rewrite ex_start. lra.
  - unfold ex_V. exnum. rewrite ex_start. simpl. lra.
  - intros t Ht. unfold outside_ball. simpl.
    assert (H : / 4 <= ex_x t 0%nat).
    { unfold ex_x. rewrite exp_Ropp. apply Rinv_le_contravar; [apply exp_pos|].
      apply Rle_trans with (exp 1); [|generalize exp_le_3; lra].
      destruct (proj2 Ht) as [H|H]; [left; apply exp_increasing; lra|right; f_equal; auto]. }
    nra.
Qed.

Definition ex_BF : expr := ex_minus (3#4).
Example C20_example :
  certified (rar_constraints ex_sets ex_C ex_BF ex_Vdot ex_Vdot) /\
  lie_derivative 1 ex_f (sem ex_C) (sem ex_Vdot) /\ lie_derivative 1 ex_f (sem ex_BF) (sem ex_Vdot) /\
  rws_geometry 1 ex_sets /\ solves_forever 1 ex_f ex_x /\ inside ex_sets XI (ex_x 0) /\
  (exists a, 0 <= a /\ inside ex_sets XG (ex_x a)) /\
  (forall t, 0 <= t -> inside ex_sets XD (ex_x t)) /\
  (forall s, inside ex_sets XD s -> inside ex_sets XF s \/ inside ex_sets XNF s).
Proof.
  split; [|split; [|split; [|split; [|split; [|split; [|split; [|split]]]]]]].
  - apply refuted_certified;
      [apply (C01_certificate_labels_distinct false (new_vars 1) ex_sets 0 ex_C ex_BF ex_Vdot ex_Vdot)|].
    apply C12_rar_obligations. split; [exact ex_rws|].
    unfold barrier_conditions, ex_BF, ex_minus, ex_V, ex_Vdot. split; [|split]; intros s Hd Hs; exnum; simpl in *.
    + nra.
    + assert (~ (-1 <= s 0%nat <= 1)) by exact Hs. destruct (Rlt_le_dec (s 0%nat) (-1)); nra.
    + nra.
  - apply ex_lie_minus.
  - apply ex_lie_minus.
  - exact ex_geometry.
  - exact ex_solves.
  - exnum. rewrite ex_start. lra.
  - exists 1. split; [lra|]. exnum. unfold ex_x. assert (H := exp_pos (- (1))).
    assert (exp (-(1)) <= 1/2); [|lra].
    rewrite exp_Ropp. replace (1/2) with (/2) by lra. apply Rinv_le_contravar; [lra|].
    left. assert (Hi := exp_ineq1 1 ltac:(lra)). lra.
  - intros t Ht. assert (H := ex_range t Ht). exnum. lra.
  - intros s Hs. exnum. lra.
Qed.
