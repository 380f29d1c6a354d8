(** C77: a run in which the counterexample is respected, and runs in which it comes back for ever. *)
From Coq Require Import Reals QArith Qreals Qabs List Bool Arith ZArith Lra Lia.
From Verif Require Import M_Syntax M_Certificates M_Verifier M_Activations M_Domains M_Network M_Learner M_Cegis M_Fossil M_Learning M_Gradient
  S_Verifier S_Certificates S_Success S_Domains S_Network S_Learner S_Cegis S_Fossil S_Loops S_Learning S_Labels S_Start S_Progress
  L_Verifier L_Holds L_Domains L_Network L_Learner L_Demo P_Certificates P_Translator P_Learning P_Gradient P_Cegis P_Start P_Examples P_TranslatorBugs P_FossilExamples P_CompleteExamples P_Progress.
Import ListNotations.
Local Open Scope nat_scope.

(** x' = -x, a Lyapunov function a x^2; one sample to begin with. *)
Definition shrink_pb (rounding : Z) : problem unit :=
  {| pb_type := LYAPUNOV; pb_n := 1; pb_llo := false; pb_quad := false; pb_discrete := false; pb_rounding := rounding;
     pb_max_iters := 10; pb_control := false; pb_symb := SZ3; pb_sets := P_Examples.ex_sets; pb_xdot := fun _ => Some minus_x;
     pb_f := fun _ x => map (eval (state_of x)) minus_x |}.
(** The optimiser does nothing in the first iteration and makes the last layer non-negative in the others; the solver always finds 1. *)
Definition shrink_env (rounding : Z) : environment unit :=
  {| e_perfect := fun _ _ S Sdot _ net =>
       match option_bind (lyapunov_batch (value_at (shrink_pb rounding) net) (derivative_at (shrink_pb rounding) net) None S Sdot) (lyapunov_ok (fun v => v) false) with
       | Some b => b | None => false end;
     e_step := fun it _ _ _ _ net => if (it =? 0)%nat then net else make_final_layer_positive net;
     e_ctrl := fun _ p _ _ => l_ctrl p; e_beta := fun _ _ _ _ => 0%Q; e_simp := fun e => e;
     e_solver := fun _ => smt_backend (fun _ _ => Sat [1%R]); e_noise := fun _ _ _ _ => 0%R;
     e_stay_fuel := fun _ => 0; e_stay_calls := fun _ => 0;
     e_trajectory := fun _ _ _ _ => Some []; e_estimate_beta := fun _ _ => Some tt |}.
Definition data0 : dict := [(XD, [])].
Lemma shrink_tests r : tests (shrink_pb r) (shrink_env r).
Proof.
  intros it p S Sdot t net H. cbn [e_perfect shrink_env] in H. exists (fun v => v).
  destruct (lyapunov_batch _ _ _ _ _) as [b|]; cbn [option_bind] in H; [|discriminate]. exists b. split; [reflexivity|].
  cbn [pb_llo shrink_pb]. destruct (lyapunov_ok _ _ _) as [b'|]; [now subst b'|discriminate].
Qed.
Lemma shrink_lawful r : lawful (shrink_pb r) (shrink_env r).
Proof.
  intros it p S Sdot t net. cbn [e_step shrink_env]. destruct (it =? 0)%nat; (split; [|intros H; try reflexivity]).
  - apply same_shape_refl.
  - apply set_last_shape.
  - discriminate.
Qed.
Lemma shrink_system r : without_controller (shrink_pb r) minus_x.
Proof. repeat split. Qed.
Lemma shrink_sampled r : sampled (pb_type (shrink_pb r)) data0.
Proof. intros l. cbn. intuition congruence. Qed.
Lemma parabola_wf a : wf_net (parabola a).
Proof.
  exists 1%nat. cbn. unfold wf_layer. cbn. repeat split; auto; repeat constructor; try discriminate.
Qed.

Definition seen : list point := repeat [1%R] 21.
Definition start (r : Z) (a : Q) : learned unit := initial (shrink_pb r) (parabola a) tt.
Lemma perturb_one : perturb (fun _ => 0%R) [1%R] = [1%R].
Proof. cbn. f_equal. lra. Qed.
Definition pair0 (r : Z) (a : Q) : expr * expr :=
  match fossil_translate (shrink_pb r) (shrink_env r) 0 {| l_net := parabola a; l_ctrl := tt; l_beta := 0 |} with Some c => c | None => (ENum 0, ENum 0) end.
Lemma first_learn r a S Sdot : fossil_learn (shrink_pb r) (shrink_env r) 0 false (start r a) S Sdot = Some {| l_net := parabola a; l_ctrl := tt; l_beta := 0 |}.
Proof.
  unfold fossil_learn. f_equal. cbn [l_ctrl e_ctrl e_beta shrink_env start initial l_net]. f_equal. unfold learn_network.
  cbn [pb_type shrink_pb pb_llo]. unfold learn. change (take_abs false (init_learner false (parabola a))) with false.
  change (e_step (shrink_env r) 0 (start r a) S Sdot) with (fun (_ : nat) (n : network) => n). apply learn_loop_id.
Qed.
Lemma randomised : randomise_counterex (fun _ _ => 0%R) [1%R] = seen.
Proof. unfold randomise_counterex. rewrite (map_ext _ (fun _ => [1%R]) (fun _ => perturb_one)). reflexivity. Qed.
Lemma first_iteration r a : (r = -1 \/ r = 3)%Z -> a = (-1)%Q \/ a = (1 # 2500)%Q \/ a = 0%Q ->
  fossil_translate (shrink_pb r) (shrink_env r) 0 {| l_net := parabola a; l_ctrl := tt; l_beta := 0 |} = Some (pair0 r a) /\
  fossil_verify (shrink_pb r) (shrink_env r) 0 {| l_net := parabola a; l_ctrl := tt; l_beta := 0 |} (pair0 r a) = Some (false, [(XD, seen)]).
Proof.
  intros Hr Ha. split.
  - destruct Hr as [-> | ->], Ha as [-> |[-> | ->]]; reflexivity.
  - rewrite <- randomised. reflexivity.
Qed.
Lemma second_state r a : (r = -1 \/ r = 3)%Z -> a = (-1)%Q \/ a = (1 # 2500)%Q \/ a = 0%Q ->
  exists st, visited (fossil (shrink_pb r) (shrink_env r)) (start r a) data0 1 st /\ st_S st = [(XD, seen)] /\ st_Sdot st = [(XD, map (fun x => map (eval (state_of x)) minus_x) seen)] /\
    st_params st = {| l_net := parabola a; l_ctrl := tt; l_beta := 0 |} /\ st_frozen st = false.
Proof.
  intros Hr Ha. destruct (first_iteration r a Hr Ha) as [T1 T2].
  assert (E : exists st, iterate (fossil (shrink_pb r) (shrink_env r)) 0 (init_state (fossil (shrink_pb r) (shrink_env r)) (start r a) data0) = Some (false, st) /\
     st_S st = [(XD, seen)] /\ st_Sdot st = [(XD, map (fun x => map (eval (state_of x)) minus_x) seen)] /\
    st_params st = {| l_net := parabola a; l_ctrl := tt; l_beta := 0 |} /\ st_frozen st = false).
  { unfold iterate. cbn [c_learn c_translate c_verify fossil init_state st_params st_S st_Sdot st_frozen]. rewrite first_learn. cbn [option_bind].
    rewrite T1. cbn [option_bind]. rewrite T2. cbn [option_bind]. eexists. split; [reflexivity|]. repeat split. }
  destruct E as (st & E & R). exists st. split; [|exact R]. exact (visited_next _ _ _ 0 _ _ (visited_first _ _ _) E).
Qed.
Lemma at_one r b : (0 <= Q2R b)%R -> value_at (shrink_pb r) (parabola b) [1%R] = Q2R b /\
  derivative_at (shrink_pb r) (parabola b) [1%R] (map (eval (state_of [1%R])) minus_x) = (- 2 * Q2R b)%R.
Proof. intros _. split; [unfold value_at, learner_value; cbn -[Q2R]|cbn -[Q2R]]; unfold Rsum; cbn -[Q2R]; q2r; lra. Qed.
Lemma second_perfect r p b t : (0 <= Q2R b)%R ->
  e_perfect (shrink_env r) 1 p [(XD, seen)] [(XD, map (fun x => map (eval (state_of x)) minus_x) seen)] t (parabola b) = true.
Proof.
  intros Hb. cbn [e_perfect shrink_env].
  set (S := [(XD, seen)]). set (Sdot := [(XD, _)]).
  assert (Him : images_of (fun x => map (eval (state_of x)) minus_x) None S Sdot) by (right; split; reflexivity).
  assert (Hd : dlookup XD S = Some seen) by reflexivity.
  rewrite (C40_lyapunov_roa _ _ _ None S Sdot seen Him Hd). cbn [option_bind].
  rewrite (proj2 (C41_lyapunov_roa_samples (fun v => v) false (value_at (shrink_pb r) (parabola b)) (derivative_at (shrink_pb r) (parabola b))
    (fun x => map (eval (state_of x)) minus_x) None S Sdot seen _ Him Hd ltac:(discriminate) (C40_lyapunov_roa _ _ _ None S Sdot seen Him Hd))); [reflexivity|].
  intros x Hx. apply repeat_spec in Hx. subst x. destruct (at_one r b Hb) as [-> ->]. split; [lra|intros _; exact Hb].
Qed.
Lemma second_learn r p a : (0 <= Q2R (Qabs a))%R -> l_net p = parabola a ->
  learn_network (shrink_pb r) (e_perfect (shrink_env r) 1 p [(XD, seen)] [(XD, map (fun x => map (eval (state_of x)) minus_x) seen)])
     (e_step (shrink_env r) 1 p [(XD, seen)] [(XD, map (fun x => map (eval (state_of x)) minus_x) seen)]) (parabola a) = parabola (Qabs a).
Proof.
  intros Ha Hp. set (test := e_perfect _ _ _ _ _). set (step := e_step _ _ _ _ _).
  destruct (P_Loops.C60_lyapunov_roa unit (shrink_pb r) test step (parabola a) (or_introl eq_refl)) as (k & _ & E & Hno & Hdone). cbn zeta in *.
  change (take_abs (pb_llo (shrink_pb r)) (parabola a)) with false in *. cbn match in *.
  assert (E1 : after step (parabola a) 1 = parabola (Qabs a)) by reflexivity.
  assert (D1 : test 1 (after step (parabola a) 1) = true) by (rewrite E1; now apply second_perfect).
  assert (k = 1).
  { destruct (Nat.lt_trichotomy k 1) as [L|[L|L]]; [|exact L|].
    - destruct (Hdone ltac:(lia)) as [G _]. lia.
    - exfalso. apply (Hno 1 L). split; [lia|exact D1]. }
  subst k. rewrite E. exact E1.
Qed.
Definition pair1 (r : Z) (a : Q) : expr * expr :=
  match fossil_translate (shrink_pb r) (shrink_env r) 1 {| l_net := parabola (Qabs a); l_ctrl := tt; l_beta := 0 |} with Some c => c | None => (ENum 0, ENum 0) end.
Lemma second_iteration r a : (r = -1 \/ r = 3)%Z -> a = (-1)%Q \/ a = (1 # 2500)%Q \/ a = 0%Q ->
  exists st, let p := {| l_net := parabola (Qabs a); l_ctrl := tt; l_beta := 0 |} in
    trained (shrink_pb r) (shrink_env r) (start r a) data0 1 st p (pair1 r a) /\ passed (shrink_env r) 1 st p /\
    reported (shrink_pb r) (shrink_env r) (start r a) data0 0 XD [1%R].
Proof.
  intros Hr Ha. destruct (second_state r a Hr Ha) as (st & Hv & E1 & E2 & E3 & E4). exists st.
  assert (Hpos : (0 <= Q2R (Qabs a))%R) by (destruct Ha as [-> |[-> | ->]]; unfold Q2R; cbn; lra).
  destruct (first_iteration r a Hr Ha) as [T1 T2]. cbn zeta. split; [|split].
  - split; [exact Hv|]. rewrite E1, E2, E3, E4. cbn [c_learn c_translate fossil]. split.
    + unfold fossil_learn. f_equal. cbn [l_net l_ctrl e_ctrl e_beta shrink_env]. f_equal. now apply second_learn.
    + destruct Hr as [-> | ->], Ha as [-> |[-> | ->]]; reflexivity.
  - exists 1. rewrite E1, E2. cbn [l_net]. now apply second_perfect.
  - eexists _, {| l_net := parabola a; l_ctrl := tt; l_beta := 0 |}, (pair0 r a), [(XD, seen)]. split; [|split; [exact T2|now left]].
    split; [apply visited_first|]. cbn [c_learn c_translate fossil init_state st_params st_S st_Sdot st_frozen]. split; [apply first_learn|exact T1].
Qed.
Lemma candidate_at r a : (r = -1 \/ r = 3)%Z -> a = (-1)%Q \/ a = (1 # 2500)%Q \/ a = 0%Q -> 
  eval (state_of [1%R]) (fst (pair1 r a)) = (if (r =? -1)%Z then Q2R (Qabs a) else if Qeq_bool a (-1) then 1 else 0)%R /\
  eval (state_of [1%R]) (snd (pair1 r a)) = (if (r =? -1)%Z then - 2 * Q2R (Qabs a) else if Qeq_bool a (-1) then -2 else 0)%R.
Proof.
  intros [-> | ->] [-> |[-> | ->]].
  all: match goal with |- context [pair1 ?r ?a] => let v := eval vm_compute in (pair1 r a) in change (pair1 r a) with v end.
  all: split; cbn; q2r; unfold Q2R; cbn; lra.
Qed.
Lemma violated_at r p c : violates (shrink_pb r) p c XD [1%R] <-> (eval (state_of [1%R]) (fst c) <= 0 \/ eval (state_of [1%R]) (snd c) >= 0)%R.
Proof.
  assert (Z0 : eval (state_of [1%R]) E0 = 0%R) by (cbn; apply Q2R_0).
  assert (X1 : eval (state_of [1%R]) (EVar 0) = 1%R) by reflexivity.
  split.
  - intros (gs & g & f & Eg & Hg & Hl & Hh). injection Eg as <-. destruct Hg as [<-|[]]. destruct Hl as [Hl|[]]. injection Hl as <-.
    cbn [holds cmp_holds fand for_ fold_right pb_llo shrink_pb] in Hh. rewrite Z0 in Hh. intuition.
  - intros H. eexists _, _, _. split; [reflexivity|]. split; [left; reflexivity|]. split; [left; reflexivity|].
    cbn [holds cmp_holds fand for_ fold_right pb_llo shrink_pb map new_vars seq pb_n]. rewrite Z0. repeat split.
    + cbn -[Q2R]. q2r. lra.
    + cbn -[Q2R]. q2r. lra.
    + tauto.
    + intros [H1 _]. cbn in H1. lra.
Qed.

(** ** The hypotheses of the theorems are met, and the counterexample is gone. *)
Example C77_example : exists st p c,
  without_controller (shrink_pb (-1)) minus_x /\ lawful (shrink_pb (-1)) (shrink_env (-1)) /\ wf_net (parabola (-1)) /\ tests (shrink_pb (-1)) (shrink_env (-1)) /\
  sampled (pb_type (shrink_pb (-1))) data0 /\ NoDup (keys data0) /\
  reported (shrink_pb (-1)) (shrink_env (-1)) (initial (shrink_pb (-1)) (parabola (-1)) tt) data0 0 XD [1%R] /\
  trained (shrink_pb (-1)) (shrink_env (-1)) (initial (shrink_pb (-1)) (parabola (-1)) tt) data0 1 st p c /\ passed (shrink_env (-1)) 1 st p /\
  softplus_ok (l_net p) (state_of [1%R]) /\ ~ violates (shrink_pb (-1)) p c XD [1%R].
Proof.
  destruct (second_iteration (-1) (-1) ltac:(auto) ltac:(auto)) as (st & T & P & R). eexists st, _, (pair1 (-1) (-1)).
  split; [apply shrink_system|]. split; [apply shrink_lawful|]. split; [apply parabola_wf|]. split; [apply shrink_tests|]. split; [apply shrink_sampled|].
  split; [repeat constructor; intros []|]. split; [exact R|]. split; [exact T|]. split; [exact P|]. split; [cbn; tauto|].
  rewrite violated_at. destruct (candidate_at (-1) (-1) ltac:(auto) ltac:(auto)) as [-> ->]. cbn -[Q2R]. q2r. lra.
Qed.
(** ** With rounding the same counterexample is found again although training succeeded strictly at that very sample. *)
Theorem C77_rounding_refuted : exists st p c,
  without_controller (shrink_pb 3) minus_x /\ lawful (shrink_pb 3) (shrink_env 3) /\ wf_net (parabola (1 # 2500)) /\ tests (shrink_pb 3) (shrink_env 3) /\
  sampled (pb_type (shrink_pb 3)) data0 /\ NoDup (keys data0) /\
  reported (shrink_pb 3) (shrink_env 3) (initial (shrink_pb 3) (parabola (1 # 2500)) tt) data0 0 XD [1%R] /\
  trained (shrink_pb 3) (shrink_env 3) (initial (shrink_pb 3) (parabola (1 # 2500)) tt) data0 1 st p c /\ passed (shrink_env 3) 1 st p /\
  (0 < value_at (shrink_pb 3) (l_net p) [1%R])%R /\ (derivative_at (shrink_pb 3) (l_net p) [1%R] (map (eval (state_of [1%R])) minus_x) < 0)%R /\
  violates (shrink_pb 3) p c XD [1%R].
Proof.
  destruct (second_iteration 3 (1 # 2500) ltac:(auto) ltac:(auto)) as (st & T & P & R). eexists st, _, (pair1 3 (1 # 2500)).
  split; [apply shrink_system|]. split; [apply shrink_lawful|]. split; [apply parabola_wf|]. split; [apply shrink_tests|]. split; [apply shrink_sampled|].
  split; [repeat constructor; intros []|]. split; [exact R|]. split; [exact T|]. split; [exact P|].
  assert (Hq : (Q2R (Qabs (1 # 2500)) = 1 / 2500)%R) by (unfold Q2R; cbn; lra).
  cbn [l_net]. destruct (at_one 3 (Qabs (1 # 2500))) as [-> ->]; [rewrite Hq; lra|]. rewrite Hq. split; [lra|]. split; [lra|].
  rewrite violated_at. destruct (candidate_at 3 (1 # 2500) ltac:(auto) ltac:(auto)) as [-> ->]. cbn. lra.
Qed.
(** ** Without rounding: the zero network passes the test, and its counterexample comes back.  The excused cases do occur. *)
Theorem C77_equality_refuted : exists st p c,
  without_controller (shrink_pb (-1)) minus_x /\ lawful (shrink_pb (-1)) (shrink_env (-1)) /\ wf_net (parabola 0) /\ tests (shrink_pb (-1)) (shrink_env (-1)) /\
  sampled (pb_type (shrink_pb (-1))) data0 /\ NoDup (keys data0) /\
  reported (shrink_pb (-1)) (shrink_env (-1)) (initial (shrink_pb (-1)) (parabola 0) tt) data0 0 XD [1%R] /\
  trained (shrink_pb (-1)) (shrink_env (-1)) (initial (shrink_pb (-1)) (parabola 0) tt) data0 1 st p c /\ passed (shrink_env (-1)) 1 st p /\
  violates (shrink_pb (-1)) p c XD [1%R].
Proof.
  destruct (second_iteration (-1) 0 ltac:(auto) ltac:(auto)) as (st & T & P & R). eexists st, _, (pair1 (-1) 0).
  split; [apply shrink_system|]. split; [apply shrink_lawful|]. split; [apply parabola_wf|]. split; [apply shrink_tests|]. split; [apply shrink_sampled|].
  split; [repeat constructor; intros []|]. split; [exact R|]. split; [exact T|]. split; [exact P|].
  rewrite violated_at. destruct (candidate_at (-1) 0 ltac:(auto) ltac:(auto)) as [-> ->]. cbn. unfold Q2R. cbn. lra.
Qed.
