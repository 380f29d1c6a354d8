(** C78: a run that meets the hypotheses, and why each of them is needed. *)
From Coq Require Import Reals QArith Qreals Qabs List Bool Arith ZArith Lra Lia.
From Verif Require Import M_Syntax M_Certificates M_Verifier M_Activations M_Domains M_Network M_Learner M_Cegis M_Fossil M_Learning M_Gradient
  S_Verifier S_Certificates S_Success S_Domains S_Network S_Learner S_Cegis S_Fossil S_Loops S_Learning S_Labels S_Start S_Progress S_Terminates
  L_Verifier L_Holds L_Domains L_Network L_Learner L_Demo P_Certificates P_Translator P_Learning P_Gradient P_Cegis P_Start P_Examples P_TranslatorBugs P_FossilExamples P_CompleteExamples P_Progress P_ProgressExamples P_Terminates.
Import ListNotations.
Local Open Scope nat_scope.

(** x' = -x and V = (x + b)^2; there is no limit on the iterations. *)
Definition bowl_pb : problem unit :=
  {| pb_type := LYAPUNOV; pb_n := 1; pb_llo := false; pb_quad := false; pb_discrete := false; pb_rounding := (-1)%Z;
     pb_max_iters := (-1)%Z; pb_control := false; pb_symb := SZ3; pb_sets := P_Examples.ex_sets; pb_xdot := fun _ => Some minus_x;
     pb_f := fun _ x => map (eval (state_of x)) minus_x |}.
Definition bowl (b : Q) : network :=
  {| in_size := 1; hidden := [({| weight := [[1]]%Q; bias := Some [b]%Q |}, ASquare)]; last := {| weight := [[1]]%Q; bias := None |} |}.
Definition no_bias (net : network) : network :=
  {| in_size := in_size net; hidden := map (fun la => ({| weight := weight (fst la); bias := option_map (map (fun _ => 0%Q)) (bias (fst la)) |}, snd la)) (hidden net); last := last net |}.
Definition half : point := [(- (1/2))%R].
(** From the second iteration on, the optimiser removes the bias.  The solver rejects the first candidate at -1/2. *)
Definition bowl_env : environment unit :=
  {| e_perfect := fun _ _ S Sdot _ net =>
       match option_bind (lyapunov_batch (value_at bowl_pb net) (derivative_at bowl_pb net) None S Sdot) (lyapunov_ok (fun v => v) false) with
       | Some b => b | None => false end;
     e_step := fun it _ _ _ _ net => if (it =? 0)%nat then net else no_bias net;
     e_ctrl := fun _ p _ _ => l_ctrl p; e_beta := fun _ _ _ _ => 0%Q; e_simp := fun e => e;
     e_solver := fun it => smt_backend (fun _ _ => if (it =? 0)%nat then Sat half else Unsat); e_noise := fun _ _ _ _ => 0%R;
     e_stay_fuel := fun _ => 0; e_stay_calls := fun _ => 0;
     e_trajectory := fun _ _ _ _ => Some []; e_estimate_beta := fun _ _ => Some tt |}.
Definition one_sample : dict := [(XD, [[1%R]])].
Definition pool1 : list (label * point) := [(XD, half)].
Definition bowl_start : learned unit := initial bowl_pb (bowl 1) tt.
Definition samples1 : list point := [1%R] :: repeat half 21.
Definition images (d : list point) : list point := map (fun x => map (eval (state_of x)) minus_x) d.

Lemma bowl_tests : tests bowl_pb bowl_env.
Proof.
  intros it p S Sdot t net H. cbn [e_perfect bowl_env] in H. exists (fun v => v).
  destruct (lyapunov_batch _ _ _ _ _) as [b|]; cbn [option_bind] in H; [|discriminate]. exists b. split; [reflexivity|].
  cbn [pb_llo bowl_pb]. destruct (lyapunov_ok _ _ _) as [b'|]; [now subst b'|discriminate].
Qed.
Lemma no_bias_shape net : same_shape net (no_bias net).
Proof.
  split; [reflexivity|]. split; [|split; reflexivity]. cbn [no_bias hidden]. rewrite map_map. apply map_ext. intros [l a]. cbn. f_equal. f_equal.
  destruct (bias l) as [b|]; [cbn; now rewrite map_length|reflexivity].
Qed.
Lemma bowl_lawful : lawful bowl_pb bowl_env.
Proof.
  intros it p S Sdot t net. cbn [e_step bowl_env]. destruct (it =? 0)%nat; (split; [|intros H; reflexivity]).
  - apply same_shape_refl.
  - apply no_bias_shape.
Qed.
Lemma bowl_system : without_controller bowl_pb minus_x.
Proof. repeat split. Qed.
Lemma bowl_sampled : sampled (pb_type bowl_pb) one_sample.
Proof. intros l. cbn. intuition congruence. Qed.
Lemma bowl_wf b : wf_net (bowl b).
Proof. exists 1%nat. cbn. unfold wf_layer. cbn. repeat split; auto; repeat constructor; intros ? [= <-]; reflexivity. Qed.
Lemma half_noise : randomise_counterex (fun _ _ => 0%R) half = repeat half 21.
Proof.
  assert (E : perturb (fun _ => 0%R) half = half) by (unfold half; cbn; f_equal; lra).
  unfold randomise_counterex. rewrite (map_ext _ (fun _ => half) (fun _ => E)). reflexivity.
Qed.
Lemma bowl_at b x : (value_at bowl_pb (bowl b) [x] = (x + Q2R b) * (x + Q2R b))%R /\
  derivative_at bowl_pb (bowl b) [x] (map (eval (state_of [x])) minus_x) = (- 2 * x * (x + Q2R b))%R.
Proof. split; [unfold value_at, learner_value; cbn -[Q2R]|cbn -[Q2R]]; unfold Rsum; cbn -[Q2R]; q2r; lra. Qed.
Lemma bowl_perfect it p t b sd : sd <> [] -> (forall x, In x sd -> exists a, x = [a] /\ (0 <= a * (a + Q2R b))%R) ->
  e_perfect bowl_env it p [(XD, sd)] [(XD, images sd)] t (bowl b) = true.
Proof.
  intros Hne Hb. cbn [e_perfect bowl_env].
  set (S := [(XD, sd)]). set (Sdot := [(XD, _)]).
  assert (Him : images_of (fun x => map (eval (state_of x)) minus_x) None S Sdot) by (right; split; reflexivity).
  assert (Hd : dlookup XD S = Some sd) by reflexivity.
  rewrite (C40_lyapunov_roa _ _ _ None S Sdot sd Him Hd). cbn [option_bind].
  rewrite (proj2 (C41_lyapunov_roa_samples (fun v => v) false (value_at bowl_pb (bowl b)) (derivative_at bowl_pb (bowl b))
    (fun x => map (eval (state_of x)) minus_x) None S Sdot sd _ Him Hd Hne (C40_lyapunov_roa _ _ _ None S Sdot sd Him Hd))); [reflexivity|].
  intros x Hx. destruct (Hb x Hx) as (a & -> & Ha). destruct (bowl_at b a) as [-> ->]. split; [nra|intros _; apply Rle_0_sqr].
Qed.
Definition learned0 : learned unit := {| l_net := bowl 1; l_ctrl := tt; l_beta := 0 |}.
Definition learned1 : learned unit := {| l_net := bowl 0; l_ctrl := tt; l_beta := 0 |}.
Definition cand (it : nat) (p : learned unit) : expr * expr := match fossil_translate bowl_pb bowl_env it p with Some c => c | None => (ENum 0, ENum 0) end.
Lemma bowl_learn0 S Sdot : fossil_learn bowl_pb bowl_env 0 false bowl_start S Sdot = Some learned0.
Proof.
  unfold fossil_learn. f_equal. cbn [l_ctrl e_ctrl e_beta bowl_env bowl_start initial l_net]. unfold learned0. f_equal. unfold learn_network.
  cbn [pb_type bowl_pb pb_llo]. unfold learn. change (take_abs false (init_learner false (bowl 1))) with false.
  change (e_step bowl_env 0 bowl_start S Sdot) with (fun (_ : nat) (n : network) => n). apply learn_loop_id.
Qed.
Lemma bowl_translate0 : fossil_translate bowl_pb bowl_env 0 learned0 = Some (cand 0 learned0).
Proof. reflexivity. Qed.
Lemma bowl_translate1 : fossil_translate bowl_pb bowl_env 1 learned1 = Some (cand 1 learned1).
Proof. reflexivity. Qed.
Lemma bowl_verify0 : fossil_verify bowl_pb bowl_env 0 learned0 (cand 0 learned0) = Some (false, [(XD, repeat half 21)]).
Proof. rewrite <- half_noise. reflexivity. Qed.
Lemma bowl_iterate0 : exists st, iterate (fossil bowl_pb bowl_env) 0 (init_state (fossil bowl_pb bowl_env) bowl_start one_sample) = Some (false, st) /\
  st_S st = [(XD, samples1)] /\ st_Sdot st = [(XD, images samples1)] /\ st_params st = learned0 /\ st_frozen st = false.
Proof.
  unfold iterate. cbn [c_learn c_translate c_verify fossil init_state st_params st_S st_Sdot st_frozen]. rewrite bowl_learn0. cbn [option_bind].
  rewrite bowl_translate0. cbn [option_bind]. rewrite bowl_verify0. cbn [option_bind]. eexists. split; [reflexivity|]. repeat split.
Qed.
Lemma samples1_ok x : In x samples1 -> exists a, x = [a] /\ (0 <= a * (a + Q2R 0))%R.
Proof.
  intros [<-|H]; [exists 1%R; split; [reflexivity|q2r; lra]|]. apply repeat_spec in H. subst x. exists (-(1/2))%R. split; [reflexivity|]. q2r. lra.
Qed.
Lemma bowl_perfect1 p t : e_perfect bowl_env 1 p [(XD, samples1)] [(XD, images samples1)] t (bowl 0) = true.
Proof. apply bowl_perfect; [discriminate|exact samples1_ok]. Qed.
Lemma bowl_learn1 : fossil_learn bowl_pb bowl_env 1 false learned0 [(XD, samples1)] [(XD, images samples1)] = Some learned1.
Proof.
  unfold fossil_learn. f_equal. cbn [l_ctrl e_ctrl e_beta bowl_env learned0 l_net]. unfold learned1. f_equal.
  set (test := e_perfect _ _ _ _ _). set (step := e_step _ _ _ _ _).
  destruct (P_Loops.C60_lyapunov_roa unit bowl_pb test step (bowl 1) (or_introl eq_refl)) as (k & _ & E & Hno & Hdone). cbn zeta in *.
  change (take_abs (pb_llo bowl_pb) (bowl 1)) with false in *. cbn match in *.
  assert (E1 : after step (bowl 1) 1 = bowl 0) by reflexivity.
  assert (D1 : test 1 (after step (bowl 1) 1) = true) by (rewrite E1; apply bowl_perfect1).
  assert (k = 1).
  { destruct (Nat.lt_trichotomy k 1) as [L|[L|L]]; [|exact L|].
    - destruct (Hdone ltac:(lia)) as [G _]. lia.
    - exfalso. apply (Hno 1 L). split; [lia|exact D1]. }
  subst k. exact (eq_trans E E1).
Qed.
Lemma bowl_visited1 st : visited (fossil bowl_pb bowl_env) bowl_start one_sample 1 st ->
  st_S st = [(XD, samples1)] /\ st_Sdot st = [(XD, images samples1)] /\ st_params st = learned0 /\ st_frozen st = false.
Proof.
  intros H. destruct bowl_iterate0 as (st1 & E & R). rewrite (visited_fun _ _ _ 1 st st1 H (visited_next _ _ _ 0 _ _ (visited_first _ _ _) E)). exact R.
Qed.
Lemma bowl_stops st : visited (fossil bowl_pb bowl_env) bowl_start one_sample 1 st -> exists st', iterate (fossil bowl_pb bowl_env) 1 st = Some (true, st') /\ st_found st' = true.
Proof.
  intros H. destruct (bowl_visited1 st H) as (E1 & E2 & E3 & E4). unfold iterate. rewrite E1, E2, E3, E4. cbn [c_learn c_translate c_verify fossil].
  rewrite bowl_learn1. cbn [option_bind]. rewrite bowl_translate1. cbn [option_bind]. eexists. split; reflexivity.
Qed.
Lemma bowl_below it st : visited (fossil bowl_pb bowl_env) bowl_start one_sample it st -> it = 0 \/ it = 1.
Proof.
  intros H. destruct (Nat.le_gt_cases it 1) as [|L]; [lia|]. exfalso.
  destruct (P_Complete.visited_below _ _ _ _ _ H 1 L) as (s1 & s2 & V1 & I1). destruct (bowl_stops s1 V1) as (s3 & E & _). rewrite E in I1. discriminate.
Qed.
Lemma bowl_trained it st p c : trained bowl_pb bowl_env bowl_start one_sample it st p c ->
  (it = 0 /\ st = init_state (fossil bowl_pb bowl_env) bowl_start one_sample /\ p = learned0 /\ c = cand 0 learned0) \/
  (it = 1 /\ st_S st = [(XD, samples1)] /\ st_Sdot st = [(XD, images samples1)] /\ p = learned1 /\ c = cand 1 learned1).
Proof.
  intros (Hv & Hl & Ht). destruct (bowl_below it st Hv) as [-> | ->].
  - left. assert (E : st = init_state (fossil bowl_pb bowl_env) bowl_start one_sample) by (apply (visited_fun _ _ _ 0 _ _ Hv (visited_first _ _ _))). subst st.
    cbn [c_learn fossil init_state st_params st_S st_Sdot st_frozen] in Hl. rewrite bowl_learn0 in Hl. injection Hl as <-.
    cbn [c_translate fossil] in Ht. rewrite bowl_translate0 in Ht. injection Ht as <-. auto.
  - right. destruct (bowl_visited1 st Hv) as (E1 & E2 & E3 & E4). rewrite E1, E2, E3, E4 in Hl. cbn [c_learn fossil] in Hl. rewrite bowl_learn1 in Hl. injection Hl as <-.
    cbn [c_translate fossil] in Ht. rewrite bowl_translate1 in Ht. injection Ht as <-. auto.
Qed.
Lemma cand_at it p b x : it = 0 /\ p = learned0 /\ b = 1%Q \/ it = 1 /\ p = learned1 /\ b = 0%Q ->
  eval (state_of [x]) (fst (cand it p)) = ((x + Q2R b) * (x + Q2R b))%R /\ eval (state_of [x]) (snd (cand it p)) = (- 2 * x * (x + Q2R b))%R.
Proof.
  intros [(-> & -> & ->)|(-> & -> & ->)].
  all: match goal with |- context [cand ?r ?a] => let v := eval vm_compute in (cand r a) in change (cand r a) with v end.
  all: split; cbn -[Q2R]; q2r; lra.
Qed.
Lemma bowl_answers : answers_from bowl_pb bowl_env bowl_start one_sample pool1.
Proof.
  intros it st p c gs g l f n Ht Eg Hg Hl. destruct (bowl_trained it st p c Ht) as [(-> & _ & -> & ->)|(-> & _ & _ & -> & ->)]; [right|left; reflexivity].
  injection Eg as <-. destruct Hg as [<-|[]]. destruct Hl as [Hl|[]]. injection Hl as <- <-. split; [reflexivity|]. split; [|split; [reflexivity|now left]].
  change (holds (state_of half) (fand [ex_sets XD; fand [for_ [FCmp CLe (fst (cand 0 learned0)) E0; FCmp CGe (snd (cand 0 learned0)) E0]; FNot (fand (map (fun xi => FCmp CEq xi E0) (new_vars 1)))]])).
  destruct (cand_at 0 learned0 1%Q (-(1/2))%R ltac:(auto)) as [E1 E2]. assert (Z0 : eval (state_of half) E0 = 0%R) by (cbn; apply Q2R_0).
  cbn [holds cmp_holds fand for_ fold_right map new_vars seq]. fold half in E1, E2. rewrite E1, E2, Z0. repeat split.
  - cbn -[Q2R]. q2r. lra.
  - cbn -[Q2R]. q2r. lra.
  - right. left. q2r. lra.
  - intros [H1 _]. cbn in H1. lra.
Qed.
Lemma bowl_trains : trains bowl_pb bowl_env bowl_start minus_x one_sample pool1.
Proof.
  intros it st p c Ht. destruct (bowl_trained it st p c Ht) as [(-> & -> & -> & ->)|(-> & E1 & E2 & -> & ->)].
  - split; [|split; [intros H; now contradiction H|]].
    + exists 0. cbn [init_state st_S st_Sdot st_params l_net learned0]. apply (bowl_perfect 0 _ 0 1 [[1%R]]); [discriminate|]. intros x [<-|[]]. exists 1%R. split; [reflexivity|]. q2r. lra.
    + intros l x [[= <- <-]|[]] [Hx|[]]. exfalso. unfold half in Hx. injection Hx as Hx. lra.
  - split; [|split; [intros H; now contradiction H|]].
    + exists 0. rewrite E1, E2. apply bowl_perfect1.
    + intros l x [[= <- <-]|[]] _. split; [cbn; tauto|]. split; [discriminate|].
      unfold half. destruct (cand_at 1 learned1 0%Q (-(1/2))%R ltac:(auto)) as [-> ->]. split; [unfold excused; cbn [pb_type pb_llo bowl_pb]; q2r; intros [H|[_ H]]; lra|]. unfold left_out. cbn [pb_type bowl_pb]. tauto.
Qed.
(** All hypotheses of C78_terminates are met without a limit on the iterations; the run takes two iterations, the bound. *)
Example C78_example :
  without_controller bowl_pb minus_x /\ lawful bowl_pb bowl_env /\ wf_net (bowl 1) /\ tests bowl_pb bowl_env /\
  sampled (pb_type bowl_pb) one_sample /\ NoDup (keys one_sample) /\
  answers_from bowl_pb bowl_env bowl_start one_sample pool1 /\ trains bowl_pb bowl_env bowl_start minus_x one_sample pool1 /\
  exists r, run_fossil bowl_pb bowl_env 2 (bowl 1) tt one_sample = Some (Some r) /\ r_res r = true /\ r_iters r = length pool1 + 1.
Proof.
  split; [apply bowl_system|]. split; [apply bowl_lawful|]. split; [apply bowl_wf|]. split; [apply bowl_tests|]. split; [apply bowl_sampled|].
  split; [repeat constructor; intros []|]. split; [apply bowl_answers|]. split; [apply bowl_trains|].
  destruct bowl_iterate0 as (st & E & _). destruct (bowl_stops st (visited_next _ _ _ 0 _ _ (visited_first _ _ _) E)) as (st' & E' & F).
  unfold run_fossil, solve. cbn [loop]. fold bowl_start. rewrite E. change (0 + 1) with 1. rewrite E'. eexists. split; [reflexivity|]. split; [exact F|reflexivity].
Qed.

(** ** With rounding the loop need not end.
    One point in the pool, the network is right (strictly) at all samples from the beginning, and still the same counterexample is found for ever. *)
Definition stall_pb : problem unit :=
  {| pb_type := LYAPUNOV; pb_n := 1; pb_llo := false; pb_quad := false; pb_discrete := false; pb_rounding := 3%Z;
     pb_max_iters := (-1)%Z; pb_control := false; pb_symb := SZ3; pb_sets := P_Examples.ex_sets; pb_xdot := fun _ => Some minus_x;
     pb_f := fun _ x => map (eval (state_of x)) minus_x |}.
Definition stall_env : environment unit :=
  {| e_perfect := fun _ _ S Sdot _ net =>
       match option_bind (lyapunov_batch (value_at stall_pb net) (derivative_at stall_pb net) None S Sdot) (lyapunov_ok (fun v => v) false) with
       | Some b => b | None => false end;
     e_step := fun _ _ _ _ _ net => net;
     e_ctrl := fun _ p _ _ => l_ctrl p; e_beta := fun _ _ _ _ => 0%Q; e_simp := fun e => e;
     e_solver := fun _ => smt_backend (fun _ _ => Sat [1%R]); e_noise := fun _ _ _ _ => 0%R;
     e_stay_fuel := fun _ => 0; e_stay_calls := fun _ => 0;
     e_trajectory := fun _ _ _ _ => Some []; e_estimate_beta := fun _ _ => Some tt |}.
Definition tiny : network := parabola (1 # 2500).
Definition stall_learned : learned unit := {| l_net := tiny; l_ctrl := tt; l_beta := 0 |}.
Definition stall_pair : expr * expr := match fossil_translate stall_pb stall_env 0 stall_learned with Some c => c | None => (ENum 0, ENum 0) end.
Lemma stall_learn it S Sdot : fossil_learn stall_pb stall_env it false stall_learned S Sdot = Some stall_learned.
Proof.
  unfold fossil_learn. f_equal. cbn [l_ctrl e_ctrl e_beta stall_env stall_learned l_net]. unfold stall_learned. f_equal. unfold learn_network.
  cbn [pb_type stall_pb pb_llo]. unfold learn. change (take_abs false tiny) with false. apply learn_loop_id.
Qed.
Lemma stall_translate it : fossil_translate stall_pb stall_env it stall_learned = Some stall_pair.
Proof. reflexivity. Qed.
Lemma stall_verify it : fossil_verify stall_pb stall_env it stall_learned stall_pair = Some (false, [(XD, seen)]).
Proof. rewrite <- randomised. reflexivity. Qed.
Lemma no_limit it : (c_max_iters (fossil stall_pb stall_env) =? Z.of_nat it)%Z = false.
Proof. apply Z.eqb_neq. cbn. lia. Qed.
Lemma stall_visited it st : visited (fossil stall_pb stall_env) (initial stall_pb tiny tt) one_sample it st ->
  exists n, st_S st = [(XD, repeat [1%R] (1 + n))] /\ st_Sdot st = [(XD, images (repeat [1%R] (1 + n)))] /\ st_params st = stall_learned /\ st_frozen st = false /\ st_timed_out st = false.
Proof.
  induction 1 as [|it st st' Hv IH Hi].
  - exists 0. repeat split.
  - destruct IH as (n & E1 & E2 & E3 & E4 & E5). exists (n + 21). unfold iterate in Hi. rewrite E1, E2, E3, E4, E5 in Hi. cbn [c_learn c_translate c_verify fossil] in Hi.
    rewrite stall_learn in Hi. cbn [option_bind] in Hi. rewrite stall_translate in Hi. cbn [option_bind] in Hi. rewrite stall_verify in Hi. cbn [option_bind] in Hi.
    replace (repeat [1%R] (1 + (n + 21))) with (repeat [1%R] (1 + n) ++ seen) by (unfold seen; rewrite <- repeat_app; f_equal; lia).
    cbn [st_timed_out] in Hi. rewrite no_limit in Hi. cbn in Hi. apply P_Activations.Some_eq' in Hi. apply (f_equal snd) in Hi. cbn [snd] in Hi. subst st'. repeat split.
Qed.
Lemma stall_loop : forall fuel it st, visited (fossil stall_pb stall_env) (initial stall_pb tiny tt) one_sample it st -> loop (fossil stall_pb stall_env) fuel it st = Running.
Proof.
  induction fuel as [|fuel IH]; intros it st Hv; [reflexivity|]. cbn [loop].
  assert (E : exists st', iterate (fossil stall_pb stall_env) it st = Some (false, st')).
  { destruct (stall_visited it st Hv) as (n & E1 & E2 & E3 & E4 & E5). unfold iterate. rewrite E1, E2, E3, E4, E5. cbn [c_learn c_translate c_verify fossil].
    rewrite stall_learn. cbn [option_bind]. rewrite stall_translate. cbn [option_bind]. rewrite stall_verify. cbn [option_bind].
    cbn [st_timed_out]. rewrite no_limit. cbn. eexists. reflexivity. }
  destruct E as (st' & E). rewrite E. apply IH. now apply (visited_next _ _ _ it st).
Qed.
Theorem C78_rounding_refuted :
  without_controller stall_pb minus_x /\ lawful stall_pb stall_env /\ wf_net tiny /\ tests stall_pb stall_env /\
  sampled (pb_type stall_pb) one_sample /\ NoDup (keys one_sample) /\
  answers_from stall_pb stall_env (initial stall_pb tiny tt) one_sample [(XD, [1%R])] /\
  (forall it st p c, trained stall_pb stall_env (initial stall_pb tiny tt) one_sample it st p c -> passed stall_env it st p /\
     forall x, In x (rows XD (st_S st)) -> (0 < value_at stall_pb (l_net p) x)%R /\ (derivative_at stall_pb (l_net p) x (map (eval (state_of x)) minus_x) < 0)%R) /\
  forall fuel, run_fossil stall_pb stall_env fuel tiny tt one_sample = None.
Proof.
  assert (At : (value_at stall_pb tiny [1%R] = 1 / 2500)%R /\ (derivative_at stall_pb tiny [1%R] (map (eval (state_of [1%R])) minus_x) = - 2 / 2500)%R).
  { split; [unfold value_at, learner_value; cbn -[Q2R]|cbn -[Q2R]]; unfold Rsum; cbn -[Q2R]; q2r; lra. }
  assert (Tr : forall it st p c, trained stall_pb stall_env (initial stall_pb tiny tt) one_sample it st p c ->
     p = stall_learned /\ c = stall_pair /\ exists n, st_S st = [(XD, repeat [1%R] (1 + n))] /\ st_Sdot st = [(XD, images (repeat [1%R] (1 + n)))]).
  { intros it st p c (Hv & Hl & Ht). destruct (stall_visited it st Hv) as (n & E1 & E2 & E3 & E4 & E5). rewrite E1, E2, E3, E4 in Hl. cbn [c_learn fossil] in Hl.
    rewrite stall_learn in Hl. injection Hl as <-. cbn [c_translate fossil] in Ht. rewrite stall_translate in Ht. injection Ht as <-. split; [reflexivity|]. split; [reflexivity|]. now exists n. }
  split; [repeat split|]. split; [intros it p S Sdot t net; split; [apply same_shape_refl|reflexivity]|]. split; [apply parabola_wf|]. split.
  { intros it p S Sdot t net H. cbn [e_perfect stall_env] in H. exists (fun v => v).
    destruct (lyapunov_batch _ _ _ _ _) as [b|]; cbn [option_bind] in H; [|discriminate]. exists b. split; [reflexivity|].
    cbn [pb_llo stall_pb]. destruct (lyapunov_ok _ _ _) as [b'|]; [now subst b'|discriminate]. }
  split; [apply bowl_sampled|]. split; [repeat constructor; intros []|]. split.
  { intros it st p c gs g l f m Ht Eg Hg Hl. destruct (Tr it st p c Ht) as (-> & -> & _). right.
    assert (E : eval (state_of [1%R]) (fst stall_pair) = 0%R).
    { match goal with |- context [stall_pair] => let v := eval vm_compute in stall_pair in change stall_pair with v end. cbn; q2r; unfold Q2R; cbn; lra. }
    injection Eg as <-. destruct Hg as [<-|[]]. destruct Hl as [Hl|[]]. injection Hl as <- <-. split; [reflexivity|]. split; [|split; [reflexivity|now left]].
    change (holds (state_of [1%R]) (fand [ex_sets XD; fand [for_ [FCmp CLe (fst stall_pair) E0; FCmp CGe (snd stall_pair) E0]; FNot (fand (map (fun xi => FCmp CEq xi E0) (new_vars 1)))]])).
    assert (Z0 : eval (state_of [1%R]) E0 = 0%R) by (cbn; apply Q2R_0).
    cbn [holds cmp_holds fand for_ fold_right map new_vars seq]. rewrite E, Z0. repeat split.
    - cbn -[Q2R]. q2r. lra.
    - cbn -[Q2R]. q2r. lra.
    - left. lra.
    - intros [H1 _]. cbn in H1. lra. }
  split.
  { intros it st p c Ht. destruct (Tr it st p c Ht) as (-> & _ & n & E1 & E2). rewrite E1. split.
    - exists 0. rewrite E1, E2. cbn [e_perfect stall_env stall_learned l_net].
      set (sd := repeat [1%R] (1 + n)). set (S := [(XD, sd)]). set (Sdot := [(XD, images sd)]).
      assert (Him : images_of (fun x => map (eval (state_of x)) minus_x) None S Sdot) by (right; split; reflexivity).
      assert (Hd : dlookup XD S = Some sd) by reflexivity.
      rewrite (C40_lyapunov_roa _ _ _ None S Sdot sd Him Hd). cbn [option_bind].
      rewrite (proj2 (C41_lyapunov_roa_samples (fun v => v) false (value_at stall_pb tiny) (derivative_at stall_pb tiny)
        (fun x => map (eval (state_of x)) minus_x) None S Sdot sd _ Him Hd ltac:(discriminate) (C40_lyapunov_roa _ _ _ None S Sdot sd Him Hd))); [reflexivity|].
      intros x Hx. apply repeat_spec in Hx. subst x. destruct At as [-> ->]. lra.
    - intros x Hx. apply repeat_spec in Hx. subst x. cbn [stall_learned l_net]. destruct At as [-> ->]. lra. }
  intros fuel. unfold run_fossil, solve. change (initial stall_pb tiny tt) with stall_learned.
  rewrite (stall_loop fuel 0); [reflexivity|]. apply visited_first.
Qed.
