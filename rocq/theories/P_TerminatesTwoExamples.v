(** C77 and C78, certificates with two functions: runs that meet the hypotheses. *)
From Coq Require Import Reals QArith Qreals Qabs List Bool Arith ZArith Lra Lia.
From Verif Require Import M_Syntax M_Certificates M_Verifier M_Activations M_Domains M_Network M_Learner M_Cegis M_Fossil M_Double M_Learning M_Gradient
  S_Verifier S_Certificates S_Success S_Domains S_Network S_Learner S_Cegis S_Fossil S_Double S_Loops S_Learning S_Labels S_Start S_Progress S_Terminates S_ProgressTwo
  L_Verifier L_Holds L_Domains L_Network L_Learner L_Table L_Demo P_Certificates P_Translator P_Learning P_Gradient P_Cegis P_Start P_Examples P_TranslatorBugs P_FossilExamples P_DoubleExamples P_CompleteExamples
  P_Progress P_ProgressExamples P_Terminates P_TerminatesExamples P_ProgressTwo P_TerminatesTwo.
Import ListNotations.
Local Open Scope nat_scope.

(** x' = -x, V = x^2 - 2 and B = x^2 + b; there is no limit on the iterations. *)
Definition pair_pb (ty : cert_type) : problem unit :=
  {| pb_type := ty; pb_n := 1; pb_llo := true; pb_quad := false; pb_discrete := false; pb_rounding := (-1)%Z;
     pb_max_iters := (-1)%Z; pb_control := false; pb_symb := SZ3; pb_sets := P_Examples.ex_sets; pb_xdot := fun _ => Some minus_x;
     pb_f := fun _ x => map (eval (state_of x)) minus_x |}.
Definition net_b (b : Q) : network :=
  {| in_size := 1; hidden := [({| weight := [[1]]%Q; bias := None |}, ASquare)]; last := {| weight := [[1]]%Q; bias := Some [b]%Q |} |}.
Definition lower (net : network) : network :=
  {| in_size := in_size net; hidden := hidden net; last := {| weight := weight (last net); bias := option_map (map (fun _ => -1#2)%Q) (bias (last net)) |} |}.
Definition quarter : point := [(1/4)%R].
Definition where_ (ty : cert_type) : label := match ty with RAR => XG | _ => XI end.
(** The candidate of [B = x^2] and the query it fails. *)
Definition pair_at (ty : cert_type) (b : Q) : learned2 unit := {| d_lyap := net_b (-2); d_barr := net_b b; d_ctrl := tt; d_beta := 1%Q |}.
Definition cand2 (ty : cert_type) (b : Q) : candidate2 :=
  match double_translate (pair_pb ty) (demo2_env (fun _ _ => Unknown) 1) 0 (pair_at ty b) with Some c => c | None => ((ENum 0, ENum 0), (ENum 0, ENum 0)) end.
Definition failing (ty : cert_type) : fml :=
  let B := fst (snd (cand2 ty 0)) in
  match ty with RAR => snd (nth 0 (nth 0 (barrier_constraints (goal_final_sets ex_sets) B B) []) (XD, FTrue)) | _ => snd (nth 0 (nth 0 (barrier_constraints ex_sets B B) []) (XD, FTrue)) end.
Definition pair_test (ty : cert_type) (S Sdot : dict) (nets : network * network) : option bool :=
  let v1 := value_at (pair_pb ty) (fst nets) in let v2 := value_at (pair_pb ty) (snd nets) in
  let l1 := derivative_at (pair_pb ty) (fst nets) in let l2 := derivative_at (pair_pb ty) (snd nets) in
  match ty with
  | STABLESAFE => option_bind (safe_roa_batch v1 v2 l1 l2 None S Sdot) (fun b =>
      option_bind (lyapunov_ok (fun v => v) true (fst b)) (fun b1 => option_bind (barrier_ok (fun v => v) false (snd b)) (fun b2 => Some (b1 && b2))))
  | RAR => option_bind (rar_batch v1 v2 l2 (learner_grad false (fst nets)) None S Sdot) (rar_ok false)
  | _ => None
  end.
(** From the second iteration on, the optimiser lowers the second function.  The solver rejects the first candidate at 1/4. *)
Definition pair_env (ty : cert_type) : environment2 unit :=
  {| e2_perfect := fun _ _ S Sdot _ nets => match pair_test ty S Sdot nets with Some b => b | None => false end;
     e2_step := fun it _ _ _ _ nets => if (it =? 0)%nat then nets else (fst nets, lower (snd nets));
     e2_ctrl := fun _ p _ _ => d_ctrl p; e2_beta := fun _ _ _ _ => 1%Q; e2_simp := fun e => e;
     e2_solver := fun it => smt_backend (fun _ f => if (it =? 0)%nat then (if fml_dec f (failing ty) then Sat quarter else Unsat) else Unsat);
     e2_noise := fun _ _ _ _ => 0%R;
     e2_trajectory := fun _ _ _ _ => Some [] |}.
Definition pair_data (ty : cert_type) : dict :=
  [(XD, [[1%R]]); (XI, [[0%R]]); (XU, [[3%R]])] ++ match ty with RAR => [(XG, [[0%R]]); (XF, [[0%R]]); (XNF, [[2%R]])] | _ => [] end.
(** The data after the first iteration. *)
Definition pair_data1 (ty : cert_type) : dict :=
  match ty with
  | RAR => [(XD, [[1%R]]); (XI, [[0%R]]); (XU, [[3%R]]); (XG, [0%R] :: repeat quarter 21); (XF, [[0%R]]); (XNF, [[2%R]])]
  | _ => [(XD, [[1%R]]); (XI, [0%R] :: repeat quarter 21); (XU, [[3%R]])]
  end.
Definition dict_images (S : dict) : dict := map (fun e => (fst e, images (snd e))) S.
Definition pair_pool (ty : cert_type) : list (label * point) := [(where_ ty, quarter)].

Lemma pair_tests ty : tests2 (pair_pb ty) (pair_env ty).
Proof.
  intros it p S Sdot t nets H. cbn [e2_perfect pair_env] in H. unfold training_test2. cbn [pb_type pair_pb pb_llo pb_quad].
  destruct ty; try discriminate H; cbn [pair_test] in H.
  - exists (fun v => v), (fun v => v), false. destruct (safe_roa_batch _ _ _ _ _ _ _) as [b|]; cbn [option_bind] in H; [|discriminate].
    exists b. split; [reflexivity|]. destruct (lyapunov_ok _ _ _) as [b1|]; cbn [option_bind] in H; [|discriminate].
    destruct (barrier_ok _ _ _) as [b2|]; cbn [option_bind] in H; [|discriminate]. apply andb_true_iff in H. destruct H as [-> ->]. now split.
  - exists false. destruct (rar_batch _ _ _ _ _ _ _) as [b|]; cbn [option_bind] in H; [|discriminate].
    exists b. split; [reflexivity|]. destruct (rar_ok _ _) as [b1|]; [now subst b1|discriminate].
Qed.
Lemma lower_shape net : same_shape net (lower net).
Proof. repeat split. cbn. destruct (bias (last net)); [cbn; now rewrite map_length|reflexivity]. Qed.
Lemma pair_lawful ty : lawful2 (pair_env ty).
Proof.
  intros it p S Sdot t nets. cbn [e2_step pair_env]. destruct (it =? 0)%nat; cbn [fst snd]; split; try apply same_shape_refl. apply lower_shape.
Qed.
Lemma net_b_wf b : wf_net (net_b b).
Proof. exists 1%nat. cbn. unfold wf_layer. cbn. repeat split; auto; repeat constructor; intros ? [= <-]; reflexivity. Qed.
Lemma net_b_at ty b x : (value_at (pair_pb ty) (net_b b) [x] = x * x + Q2R b)%R /\
  derivative_at (pair_pb ty) (net_b b) [x] (map (eval (state_of [x])) minus_x) = (- 2 * x * x)%R.
Proof. split; [unfold value_at, learner_value; cbn -[Q2R]|cbn -[Q2R]]; unfold Rsum; cbn -[Q2R]; q2r; lra. Qed.

Definition two (ty : cert_type) : Prop := ty = STABLESAFE \/ ty = RAR.
Lemma pair_learn0 ty S Sdot : two ty -> double_learn (pair_pb ty) (pair_env ty) 0 false (initial2 (pair_pb ty) (net_b (-2)) (net_b 0) tt) S Sdot = Some (pair_at ty 0).
Proof.
  intros H. unfold double_learn, learn_pair. change (e2_step (pair_env ty) 0 _ S Sdot) with (fun (_ : nat) (n : network * network) => n).
  destruct H as [-> | ->]; cbn [pb_type pair_pb]; rewrite ?safe_pair_id, ?rar_pair_id; reflexivity.
Qed.
Lemma pair_translate it ty b : double_translate (pair_pb ty) (pair_env ty) it (pair_at ty b) = Some (cand2 ty b).
Proof. reflexivity. Qed.
Lemma quarter_noise : randomise_counterex (fun _ _ => 0%R) quarter = repeat quarter 21.
Proof.
  assert (E : perturb (fun _ => 0%R) quarter = quarter) by (unfold quarter; cbn; f_equal; lra).
  unfold randomise_counterex. rewrite (map_ext _ (fun _ => quarter) (fun _ => E)). reflexivity.
Qed.
Definition pair_cex (ty : cert_type) : dict :=
  match ty with
  | RAR => [(XI, []); (XU, []); (XD, []); (XG, repeat quarter 21); (XNF, [])]
  | _ => [(XD, []); (XI, repeat quarter 21); (XU, [])]
  end.
Lemma pair_verify0 ty : two ty -> double_verify (pair_pb ty) (pair_env ty) 0 (pair_at ty 0) (cand2 ty 0) = Some (false, pair_cex ty).
Proof. unfold pair_cex. rewrite <- quarter_noise. intros [-> | ->]; vm_compute; reflexivity. Qed.
Definition pair_start (ty : cert_type) : learned2 unit := initial2 (pair_pb ty) (net_b (-2)) (net_b 0) tt.
Lemma pair_iterate0 ty : two ty -> exists st, iterate (double (pair_pb ty) (pair_env ty)) 0 (init_state (double (pair_pb ty) (pair_env ty)) (pair_start ty) (pair_data ty)) = Some (false, st) /\
  st_S st = pair_data1 ty /\ st_Sdot st = dict_images (pair_data1 ty) /\ st_params st = pair_at ty 0.
Proof.
  intros Hty. unfold iterate. cbn [c_learn c_translate c_verify double init_state st_params st_S st_Sdot st_frozen]. unfold pair_start. rewrite pair_learn0 by exact Hty. cbn [option_bind].
  rewrite pair_translate. cbn [option_bind]. rewrite pair_verify0 by exact Hty. cbn [option_bind].
  destruct Hty as [-> | ->]; (eexists; split; [reflexivity|]); repeat split.
Qed.
(** After at least one lowering step. *)
Lemma lowered (step : nat -> network * network -> network * network) n1 k : (forall t nets, step t nets = (fst nets, lower (snd nets))) -> 1 <= k ->
  forall b, after step (n1, net_b b) k = (n1, net_b (-1#2)).
Proof.
  intros H Hk. destruct k as [|k]; [lia|]. clear Hk. intros b. induction k as [|k IH].
  - cbn. now rewrite H.
  - cbn [after] in *. rewrite IH, H. reflexivity.
Qed.

Lemma counted l m (P : R -> R -> Prop) n : number_of (where_both l m P) n -> (exists i, where_both l m P i) -> 0 < n.
Proof. intros (ps & _ & H & <-) (i & Hi). apply H in Hi. destruct ps; [destruct Hi|cbn; lia]. Qed.
Lemma not_counted l m (P : R -> R -> Prop) n : number_of (where_both l m P) n -> at_same_place l m (fun a b => ~ P a b) -> n = 0.
Proof.
  intros (ps & _ & H & <-) K. destruct ps as [|i ps]; [reflexivity|]. exfalso.
  destruct (proj1 (H i) (or_introl eq_refl)) as (a & b & E1 & E2 & HP). exact (K i a b E1 E2 HP).
Qed.
Lemma same_place_of {A} (g h : A -> R) (s : list A) (P : R -> R -> Prop) : (forall x, In x s -> P (g x) (h x)) -> at_same_place (map g s) (map h s) P.
Proof.
  intros H i a b E1 E2. rewrite nth_error_map in E1, E2. destruct (nth_error s i) as [x|] eqn:E; [|discriminate]. injection E1 as <-. injection E2 as <-.
  apply H. now apply nth_error_In in E.
Qed.
Lemma map_Forall {A} (g : A -> R) (P : R -> Prop) s : (forall x, In x s -> P (g x)) -> Forall P (map g s).
Proof. rewrite Forall_map, Forall_forall. auto. Qed.

(** The test holds of [x^2 + b] on samples of which it is true. *)
Lemma stablesafe_passes it p t b (sd si su : list point) : sd <> [] -> si <> [] ->
  (forall x, In x sd -> exists a, x = [a] /\ (0 <= a * a + Q2R b)%R) ->
  (forall x, In x si -> exists a, x = [a] /\ (a * a + Q2R b <= 0)%R) ->
  (forall x, In x su -> exists a, x = [a] /\ (0 <= a * a + Q2R b)%R) ->
  let S := [(XD, sd); (XI, si); (XU, su)] in
  e2_perfect (pair_env STABLESAFE) it p S (dict_images S) t (net_b (-2), net_b b) = true.
Proof.
  intros Nd Ni Hd Hi Hu. cbn zeta. set (S := [(XD, sd); (XI, si); (XU, su)]). cbn [e2_perfect pair_env pair_test fst snd]. set (PB := pair_pb STABLESAFE).
  set (f := fun x : point => map (eval (state_of x)) minus_x).
  assert (Him : images_of f None S (dict_images S)) by (right; split; reflexivity).
  assert (E0 := proj1 (C40_stablesafe_in_order (value_at PB (net_b (-2))) (value_at PB (net_b b)) (derivative_at PB (net_b (-2))) (derivative_at PB (net_b b)) f None (dict_images S) sd [] si su) Him).
  cbn zeta in E0. change [(XD, sd); (XI, si); (XU, su)] with S in E0. rewrite E0. clear E0.
  cbn [option_bind fst snd].
  assert (Him1 : images_of f None [(XD, sd)] [(XD, map f sd)]) by (right; split; reflexivity).
  rewrite (proj2 (C41_lyapunov_roa_samples (fun v => v) true (value_at PB (net_b (-2))) (derivative_at PB (net_b (-2))) f None _ _ sd _ Him1 eq_refl Nd
            (C40_lyapunov_roa _ _ f None _ _ sd Him1 eq_refl))).
  2:{ intros x Hx. destruct (Hd x Hx) as (a & -> & _). unfold f, PB. destruct (net_b_at STABLESAFE (-2) a) as [_ ->]. split; [nra|discriminate]. }
  cbn [option_bind].
  destruct (C41_barrier (fun v => v) false (map (value_at PB (net_b b)) si) (map (value_at PB (net_b b)) su) (map (value_at PB (net_b b)) sd)
     (map (fun x => derivative_at PB (net_b b) x (f x)) sd) (or_introl (map_nonempty _ _ Ni))) as (ok & n & bad & E & N1 & N2 & K).
  rewrite E. cbn [option_bind]. cbn [andb]. apply K. split; [|split; [|split]].
  - apply map_Forall. intros x Hx. destruct (Hi x Hx) as (a & -> & H). unfold PB. now destruct (net_b_at STABLESAFE b a) as [-> _].
  - apply map_Forall. intros x Hx. destruct (Hu x Hx) as (a & -> & H). unfold PB. now destruct (net_b_at STABLESAFE b a) as [-> _].
  - apply (counted _ _ _ _ N1). destruct sd as [|x sd]; [contradiction|]. exists 0. cbn [map]. eexists. eexists. split; [reflexivity|]. split; [reflexivity|].
    destruct (Hd x (or_introl eq_refl)) as (a & -> & H). unfold PB, in_belt. now destruct (net_b_at STABLESAFE b a) as [-> _].
  - rewrite (not_counted _ _ _ _ N2); [lia|]. apply same_place_of. intros x Hx [_ H]. destruct (Hd x Hx) as (a & -> & _).
    unfold f, PB in H. destruct (net_b_at STABLESAFE b a) as [_ Ed]. rewrite Ed in H. nra.
Qed.
Lemma rar_passes it p t b (sd si su sg sf sn : list point) : sd <> [] -> si <> [] -> sn <> [] -> sg <> [] ->
  (forall x, In x sd -> exists a, x = [a] /\ (a * a < 2)%R /\ (1/100 <= 2 * a * a)%R) ->
  (forall x, In x si -> exists a, x = [a] /\ (a * a <= 2)%R) ->
  (forall x, In x su -> exists a, x = [a] /\ (2 <= a * a)%R) ->
  (forall x, In x sg -> exists a, x = [a] /\ (a * a + Q2R b <= 0)%R) ->
  (forall x, In x sf -> exists a, x = [a]) ->
  (forall x, In x sn -> exists a, x = [a] /\ (0 <= a * a + Q2R b)%R) ->
  let S := [(XD, sd); (XI, si); (XU, su); (XG, sg); (XF, sf); (XNF, sn)] in
  e2_perfect (pair_env RAR) it p S (dict_images S) t (net_b (-2), net_b b) = true.
Proof.
  intros Nd Ni Nn Ng Hd Hi Hu Hg Hf Hn. cbn zeta. set (S := [(XD, sd); (XI, si); (XU, su); (XG, sg); (XF, sf); (XNF, sn)]). cbn [e2_perfect pair_env pair_test fst snd]. set (PB := pair_pb RAR).
  set (f := fun x : point => map (eval (state_of x)) minus_x).
  assert (Him : images_of f None S (dict_images S)) by (right; split; reflexivity).
  rewrite (C40_rar (value_at PB (net_b (-2))) (value_at PB (net_b b)) (derivative_at PB (net_b b)) (learner_grad false (net_b (-2))) f None S (dict_images S) sd si su sg sf sn
        Him (fun _ => eq_refl) eq_refl eq_refl eq_refl eq_refl eq_refl eq_refl).
  cbn [option_bind].
  destruct (C41_rar false (map (value_at PB (net_b (-2))) si) (map (value_at PB (net_b (-2))) su) (map (value_at PB (net_b (-2))) sd) (map (learner_grad false (net_b (-2))) sd) (map f sd)
        (map (value_at PB (net_b b)) sg) (map (value_at PB (net_b b)) sn) (map (value_at PB (net_b b)) (sg ++ sf ++ sn))
        (map (fun x => derivative_at PB (net_b b) x (f x)) (sg ++ sf ++ sn)) (or_introl (map_nonempty _ _ Ni)) (or_introl (map_nonempty _ _ Ng)))
        as (ok & n & nb & bad & E & N0 & N1 & N2 & K).
  match goal with |- match ?r with _ => _ end = true => assert (E' : r = Some ok) by exact E; rewrite E'; clear E' end.
  apply K. clear E K.
  assert (Ec : forall l, map (fun e => dot (fst e) (snd e)) (combine (map (learner_grad false (net_b (-2))) l) (map f l)) = map (fun x : point => dot (learner_grad false (net_b (-2)) x) (f x)) l).
  { clear. induction l as [|x l IH]; [reflexivity|]. cbn [map combine fst snd]. now rewrite IH. }
  match type of N0 with context [where_both _ ?vd _] => assert (Ec' : vd = map (fun x : point => dot (learner_grad false (net_b (-2)) x) (f x)) sd) by exact (Ec sd); rewrite Ec' in N0 |- * end.
  assert (Ed : forall a, dot (learner_grad false (net_b (-2)) [a]) (f [a]) = (- 2 * a * a)%R).
  { intros a. unfold f. cbn -[Q2R]. unfold Rsum. cbn -[Q2R]. q2r. lra. }
  split; [|split; [|split; [|split; [|split; [|split; [|split]]]]]].
  - apply map_Forall. intros x Hx. destruct (Hi x Hx) as (a & -> & H). unfold PB. destruct (net_b_at RAR (-2) a) as [-> _]. q2r. lra.
  - apply map_Forall. intros x Hx. destruct (Hu x Hx) as (a & -> & H). unfold PB. destruct (net_b_at RAR (-2) a) as [-> _]. q2r. lra.
  - apply (counted _ _ _ _ N0). destruct sd as [|x sd]; [contradiction|]. exists 0. cbn [map]. eexists. eexists. split; [reflexivity|]. split; [reflexivity|].
    destruct (Hd x (or_introl eq_refl)) as (a & -> & H & _). unfold PB. destruct (net_b_at RAR (-2) a) as [-> _]. q2r. lra.
  - apply same_place_of. intros x Hx _. destruct (Hd x Hx) as (a & -> & _ & H). rewrite Ed. lra.
  - apply map_Forall. intros x Hx. destruct (Hg x Hx) as (a & -> & H). unfold PB. now destruct (net_b_at RAR b a) as [-> _].
  - apply map_Forall. intros x Hx. destruct (Hn x Hx) as (a & -> & H). unfold PB. now destruct (net_b_at RAR b a) as [-> _].
  - apply (counted _ _ _ _ N1). destruct sn as [|x sn]; [contradiction|]. 
    destruct (In_nth_error (sg ++ sf ++ x :: sn) x) as [i Ei]. { apply in_or_app. right. apply in_or_app. right. now left. }
    exists i. eexists. eexists. rewrite !nth_error_map, Ei. split; [reflexivity|]. split; [reflexivity|].
    destruct (Hn x (or_introl eq_refl)) as (a & -> & H). unfold PB, in_belt. now destruct (net_b_at RAR b a) as [-> _].
  - rewrite (not_counted _ _ _ _ N2); [lia|]. apply same_place_of. intros x Hx [_ H].
    assert (Hx' : exists a, x = [a]).
    { apply in_app_or in Hx. destruct Hx as [Hx|Hx]; [destruct (Hg x Hx) as (a & -> & _); now exists a|]. apply in_app_or in Hx.
      destruct Hx as [Hx|Hx]; [now apply Hf|destruct (Hn x Hx) as (a & -> & _); now exists a]. }
    destruct Hx' as [a ->]. unfold f, PB in H. destruct (net_b_at RAR b a) as [_ Ed']. rewrite Ed' in H. nra.
Qed.
Lemma quarter_in b x l : b = (-1#2)%Q -> In x ([0%R] :: repeat quarter l) -> exists a, x = [a] /\ (a * a + Q2R b <= 0)%R.
Proof.
  intros -> [<-|H]; [exists 0%R; split; [reflexivity|q2r; lra]|]. apply repeat_spec in H. subst x. exists (1/4)%R. split; [reflexivity|]. q2r. lra.
Qed.
Lemma pair_passes0 ty it p t : two ty -> e2_perfect (pair_env ty) it p (pair_data ty) (dict_images (pair_data ty)) t (net_b (-2), net_b 0) = true.
Proof.
  intros [-> | ->]; cbn [pair_data app].
  - apply stablesafe_passes; try discriminate.
    + intros x [<-|[]]. eexists. split; [reflexivity|]. q2r. lra.
    + intros x [<-|[]]. eexists. split; [reflexivity|]. q2r. lra.
    + intros x [<-|[]]. eexists. split; [reflexivity|]. q2r. lra.
  - apply rar_passes; try discriminate.
    + intros x [<-|[]]. eexists. split; [reflexivity|]. lra.
    + intros x [<-|[]]. eexists. split; [reflexivity|]. lra.
    + intros x [<-|[]]. eexists. split; [reflexivity|]. lra.
    + intros x [<-|[]]. eexists. split; [reflexivity|]. q2r. lra.
    + intros x [<-|[]]. now eexists.
    + intros x [<-|[]]. eexists. split; [reflexivity|]. q2r. lra.
Qed.
Lemma pair_passes1 ty it p t : two ty -> e2_perfect (pair_env ty) it p (pair_data1 ty) (dict_images (pair_data1 ty)) t (net_b (-2), net_b (-1#2)) = true.
Proof.
  intros [-> | ->]; cbn [pair_data1].
  - apply stablesafe_passes; try discriminate.
    + intros x [<-|[]]. eexists. split; [reflexivity|]. q2r. lra.
    + intros x Hx. now apply (quarter_in _ x 21).
    + intros x [<-|[]]. eexists. split; [reflexivity|]. q2r. lra.
  - apply rar_passes; try discriminate.
    + intros x [<-|[]]. eexists. split; [reflexivity|]. lra.
    + intros x [<-|[]]. eexists. split; [reflexivity|]. lra.
    + intros x [<-|[]]. eexists. split; [reflexivity|]. lra.
    + intros x Hx. now apply (quarter_in _ x 21).
    + intros x [<-|[]]. now eexists.
    + intros x [<-|[]]. eexists. split; [reflexivity|]. q2r. lra.
Qed.
Lemma pair_learn1 ty frozen S Sdot : two ty -> double_learn (pair_pb ty) (pair_env ty) 1 frozen (pair_at ty 0) S Sdot = Some (pair_at ty (-1#2)).
Proof.
  intros H. unfold double_learn. assert (E : learn_pair (pair_pb ty) (pair_env ty) frozen 1 (pair_at ty 0) S Sdot = (net_b (-2), net_b (-1#2))).
  { destruct H as [-> | ->].
    - destruct (P_Loops.C60_stablesafe unit (pair_pb STABLESAFE) (pair_env STABLESAFE) frozen 1 (pair_at STABLESAFE 0) S Sdot eq_refl) as (k & Hk & E & _ & D).
      cbn zeta in *. rewrite E. apply lowered; [intros t nets; now destruct frozen|].
      destruct (Nat.eq_dec k 1000) as [->|]; [lia|]. destruct (D ltac:(lia)). lia.
    - destruct (P_Loops.C60_rar unit (pair_pb RAR) (pair_env RAR) frozen 1 (pair_at RAR 0) S Sdot eq_refl) as (k & Hk & E & _ & D).
      cbn zeta in *. rewrite E. apply lowered; [intros t nets; now destruct frozen|].
      destruct (Nat.eq_dec k 1000) as [->|]; [lia|]. destruct (D ltac:(lia)) as (i & -> & _). lia. }
  rewrite E. reflexivity.
Qed.
Lemma pair_visited1 ty st : two ty -> visited (double (pair_pb ty) (pair_env ty)) (pair_start ty) (pair_data ty) 1 st ->
  st_S st = pair_data1 ty /\ st_Sdot st = dict_images (pair_data1 ty) /\ st_params st = pair_at ty 0.
Proof.
  intros Hty H. destruct (pair_iterate0 ty Hty) as (st1 & E & R). rewrite (visited_fun _ _ _ 1 st st1 H (visited_next _ _ _ 0 _ _ (visited_first _ _ _) E)). exact R.
Qed.
Lemma pair_stops ty st : two ty -> visited (double (pair_pb ty) (pair_env ty)) (pair_start ty) (pair_data ty) 1 st ->
  exists st', iterate (double (pair_pb ty) (pair_env ty)) 1 st = Some (true, st') /\ st_found st' = true.
Proof.
  intros Hty H. destruct (pair_visited1 ty st Hty H) as (E1 & E2 & E3). unfold iterate. rewrite E1, E2, E3. cbn [c_learn c_translate c_verify double].
  rewrite pair_learn1 by exact Hty. cbn [option_bind]. rewrite pair_translate. cbn [option_bind]. destruct Hty as [-> | ->]; (eexists; split; reflexivity).
Qed.
Lemma pair_below ty it st : two ty -> visited (double (pair_pb ty) (pair_env ty)) (pair_start ty) (pair_data ty) it st -> it = 0 \/ it = 1.
Proof.
  intros Hty H. destruct (Nat.le_gt_cases it 1) as [|L]; [lia|]. exfalso.
  destruct (P_Complete.visited_below _ _ _ _ _ H 1 L) as (s1 & s2 & V1 & I1). destruct (pair_stops ty s1 Hty V1) as (s3 & E & _). rewrite E in I1. discriminate.
Qed.
Lemma pair_trained ty it st p c : two ty -> trained2 (pair_pb ty) (pair_env ty) (pair_start ty) (pair_data ty) it st p c ->
  (it = 0 /\ st = init_state (double (pair_pb ty) (pair_env ty)) (pair_start ty) (pair_data ty) /\ p = pair_at ty 0 /\ c = cand2 ty 0) \/
  (it = 1 /\ st_S st = pair_data1 ty /\ st_Sdot st = dict_images (pair_data1 ty) /\ p = pair_at ty (-1#2) /\ c = cand2 ty (-1#2)).
Proof.
  intros Hty (Hv & Hl & Ht). destruct (pair_below ty it st Hty Hv) as [-> | ->].
  - left. assert (E : st = init_state (double (pair_pb ty) (pair_env ty)) (pair_start ty) (pair_data ty)) by (apply (visited_fun _ _ _ 0 _ _ Hv (visited_first _ _ _))). subst st.
    cbn [c_learn double init_state st_params st_S st_Sdot st_frozen] in Hl. unfold pair_start in Hl. rewrite pair_learn0 in Hl by exact Hty. injection Hl as <-.
    cbn [c_translate double] in Ht. rewrite pair_translate in Ht. injection Ht as <-. auto.
  - right. destruct (pair_visited1 ty st Hty Hv) as (E1 & E2 & E3). rewrite E1, E2, E3 in Hl. cbn [c_learn double] in Hl. rewrite pair_learn1 in Hl by exact Hty. injection Hl as <-.
    cbn [c_translate double] in Ht. rewrite pair_translate in Ht. injection Ht as <-. auto.
Qed.
Lemma failing_name ty : two ty -> forall gs g l f, double_constraints (pair_pb ty) 1 (cand2 ty 0) = Some gs -> In g gs -> In (l, f) g -> f = failing ty -> l = where_ ty.
Proof.
  intros Hty gs g l f Eg Hg Hl Hf.
  assert (A : match double_constraints (pair_pb ty) 1 (cand2 ty 0) with
    | Some gs => forallb (fun g => forallb (fun lf => if fml_dec (snd lf) (failing ty) then label_eqb (fst lf) (where_ ty) else true) g) gs | None => false end = true).
  { destruct Hty as [-> | ->]; vm_compute; reflexivity. }
  rewrite Eg in A. rewrite forallb_forall in A. specialize (A g Hg). rewrite forallb_forall in A. specialize (A _ Hl). cbn [fst snd] in A.
  destruct (fml_dec f (failing ty)); [now apply label_eqb_spec|contradiction].
Qed.
Lemma cand2_at ty b x : two ty -> b = 0%Q \/ b = (-1#2)%Q -> let c := cand2 ty b in let s := state_of [x] in
  eval s (fst (fst c)) = (x * x - 2)%R /\ eval s (snd (fst c)) = (- 2 * x * x)%R /\
  eval s (fst (snd c)) = (x * x + Q2R b)%R /\ eval s (snd (snd c)) = (- 2 * x * x)%R.
Proof.
  intros [-> | ->] [-> | ->]; cbn zeta.
  all: match goal with |- context [cand2 ?r ?a] => let v := eval vm_compute in (cand2 r a) in change (cand2 r a) with v end.
  all: repeat split; cbn -[Q2R]; q2r; lra.
Qed.
Lemma failing_holds ty : two ty -> holds (state_of quarter) (failing ty).
Proof.
  intros Hty. assert (Z0 : eval (state_of quarter) E0 = 0%R) by (cbn; apply Q2R_0).
  destruct (cand2_at ty 0 (1/4)%R Hty (or_introl eq_refl)) as (_ & _ & EB & _). fold quarter in EB.
  assert (F : failing ty = fand [fand [FCmp CGe (fst (snd (cand2 ty 0))) E0; match ty with RAR => ex_sets XG | _ => ex_sets XI end]; ex_sets XD]).
  { destruct Hty as [-> | ->]; reflexivity. }
  rewrite F. cbn [holds fand cmp_holds fold_right]. rewrite EB, Z0. repeat split; try (q2r; lra).
  all: destruct Hty as [-> | ->]; cbn -[Q2R]; q2r; lra.
Qed.
Lemma pair_answers ty : two ty -> answers_from2 (pair_pb ty) (pair_env ty) (pair_start ty) (pair_data ty) (pair_pool ty).
Proof.
  intros Hty it st p c gs g l f n Ht Eg Hg Hl. destruct (pair_trained ty it st p c Hty Ht) as [(-> & _ & -> & ->)|(-> & _ & _ & -> & ->)]; [|left; reflexivity].
  cbn zeta. cbn [e2_solver pair_env Nat.eqb]. destruct (fml_dec f (failing ty)) as [E|N]; [right|left].
  - split; [cbn; now destruct (fml_dec f (failing ty))|].
    assert (M : b_model (smt_backend (fun (_ : nat) f => if fml_dec f (failing ty) then Sat quarter else Unsat))
                  (b_solve (smt_backend (fun (_ : nat) f => if fml_dec f (failing ty) then Sat quarter else Unsat)) n f) = quarter).
    { cbn. now destruct (fml_dec f (failing ty)). }
    rewrite M. split; [subst f; now apply failing_holds|]. split; [reflexivity|]. rewrite (failing_name ty Hty gs g l f Eg Hg Hl E). now left.
  - cbn. now destruct (fml_dec f (failing ty)).
Qed.
Lemma pair_sized ty : two ty -> sized ty (pair_data ty).
Proof. intros [-> | ->]; split; cbn; congruence. Qed.
Lemma pair_trains ty : two ty -> trains2 (pair_pb ty) (pair_env ty) (pair_start ty) minus_x (pair_data ty) (pair_pool ty).
Proof.
  intros Hty. split; [now apply pair_sized|]. intros it st p c Ht. destruct (pair_trained ty it st p c Hty Ht) as [(-> & -> & -> & ->)|(-> & E1 & E2 & -> & ->)].
  - split.
    + exists 0. cbn [init_state st_S st_Sdot st_params d_lyap d_barr pair_at]. assert (X := pair_passes0 ty 0 (pair_start ty) 0 Hty). destruct Hty as [-> | ->]; exact X.
    + intros l x [[= <- <-]|[]] Hx. exfalso. assert (Hx' : In quarter [[0%R]]) by (destruct Hty as [-> | ->]; exact Hx).
      destruct Hx' as [Hx'|[]]. injection Hx' as Hx'. lra.
  - split.
    + exists 0. rewrite E1, E2. now apply pair_passes1.
    + intros l x [[= <- <-]|[]] _. split; [cbn; tauto|]. split; [cbn; tauto|]. split.
      { rewrite E1. unfold left_out2. cbn [pb_type pair_pb]. destruct Hty as [-> | ->]; intros (_ & _ & _ & C); cbn in C; lia. }
      unfold quarter. destruct (cand2_at ty (-1#2) (1/4)%R Hty (or_intror eq_refl)) as (-> & -> & -> & ->). unfold excused2. cbn [pb_type pair_pb].
      destruct Hty as [-> | ->]; cbn [where_]; q2r; lra.
Qed.
(** All hypotheses of C78_terminates_two are met without a limit on the iterations; the run takes two iterations, the bound. *)
Example C78_example_two : forall ty, ty = STABLESAFE \/ ty = RAR ->
  without_controller (pair_pb ty) minus_x /\ lawful2 (pair_env ty) /\ wf_net (net_b (-2)) /\ wf_net (net_b 0) /\
  tests2 (pair_pb ty) (pair_env ty) /\ sampled ty (pair_data ty) /\ in_order ty (pair_data ty) /\
  answers_from2 (pair_pb ty) (pair_env ty) (pair_start ty) (pair_data ty) (pair_pool ty) /\
  trains2 (pair_pb ty) (pair_env ty) (pair_start ty) minus_x (pair_data ty) (pair_pool ty) /\
  exists r, run_double (pair_pb ty) (pair_env ty) 2 (net_b (-2)) (net_b 0) tt (pair_data ty) = Some (Some r) /\ r_res r = true /\ r_iters r = length (pair_pool ty) + 1.
Proof.
  intros ty Hty. split; [repeat split|]. split; [apply pair_lawful|]. split; [apply net_b_wf|]. split; [apply net_b_wf|]. split; [apply pair_tests|].
  split; [destruct Hty as [-> | ->]; intros l; cbn; intuition congruence|]. split; [destruct Hty as [-> | ->]; reflexivity|].
  split; [now apply pair_answers|]. split; [now apply pair_trains|].
  destruct (pair_iterate0 ty Hty) as (st & E & _). destruct (pair_stops ty st Hty (visited_next _ _ _ 0 _ _ (visited_first _ _ _) E)) as (st' & E' & F).
  unfold run_double, solve. cbn [pb_discrete pair_pb loop]. fold (pair_start ty). rewrite E. change (0 + 1) with 1. rewrite E'. eexists. split; [reflexivity|]. split; [exact F|reflexivity].
Qed.
(** C77: the first candidate is violated at 1/4, the point is reported, and by the theorem the second candidate is not violated there. *)
Lemma pair_reported ty : two ty -> reported2 (pair_pb ty) (pair_env ty) (pair_start ty) (pair_data ty) 0 (where_ ty) quarter.
Proof.
  intros Hty. exists (init_state (double (pair_pb ty) (pair_env ty)) (pair_start ty) (pair_data ty)), (pair_at ty 0), (cand2 ty 0), (pair_cex ty).
  split; [|split; [now apply pair_verify0|destruct Hty as [-> | ->]; now left]].
  split; [apply visited_first|]. split; [now apply pair_learn0|apply pair_translate].
Qed.
Example C77_example_two : forall ty, ty = STABLESAFE \/ ty = RAR ->
  (exists st p c, trained2 (pair_pb ty) (pair_env ty) (pair_start ty) (pair_data ty) 0 st p c /\ violates2 (pair_pb ty) p c (where_ ty) quarter) /\
  reported2 (pair_pb ty) (pair_env ty) (pair_start ty) (pair_data ty) 0 (where_ ty) quarter /\
  exists st p c, trained2 (pair_pb ty) (pair_env ty) (pair_start ty) (pair_data ty) 1 st p c /\ passed2 (pair_env ty) 1 st p /\ sized ty (pair_data ty) /\
    ~ violates2 (pair_pb ty) p c (where_ ty) quarter.
Proof.
  intros ty Hty. destruct (pair_reported ty Hty) as (st0 & p0 & c0 & cex & Ht0 & Hv0 & Hx0).
  destruct (C78_example_two ty Hty) as (H1 & H2 & H3 & H4 & H5 & H6 & H7 & H8 & H9 & _).
  split; [|split; [now apply pair_reported|]].
  - exists st0, p0, c0. split; [exact Ht0|].
    destruct (C78_new_counterexample_two unit (pair_pb ty) (pair_env ty) minus_x (net_b (-2)) (net_b 0) tt (pair_data ty) (pair_pool ty) 0 st0 p0 c0 cex
      H1 H2 H3 H4 eq_refl eq_refl eq_refl ltac:(discriminate) eq_refl eq_refl H6 H7 H5 H8 H9 Ht0 Hv0) as (l & x & [[= <- <-]|[]] & _ & V & _). exact V.
  - destruct (pair_iterate0 ty Hty) as (st & E & E1 & E2 & E3). assert (Hv := visited_next _ _ _ 0 _ _ (visited_first _ _ _) E).
    exists st, (pair_at ty (-1#2)), (cand2 ty (-1#2)).
    assert (Ht : trained2 (pair_pb ty) (pair_env ty) (pair_start ty) (pair_data ty) 1 st (pair_at ty (-1#2)) (cand2 ty (-1#2))).
    { split; [exact Hv|]. split; [|apply pair_translate]. rewrite E3. now apply pair_learn1. }
    destruct H9 as [B H9']. destruct (H9' 1 st _ _ Ht) as (A & C). split; [exact Ht|]. split; [exact A|]. split; [exact B|].
    assert (Hin : In quarter (rows (where_ ty) (st_S st))).
    { rewrite E1. destruct Hty as [-> | ->]; right; now left. }
    destruct (C (where_ ty) quarter (or_introl eq_refl) Hin) as (S1 & S2 & N1 & N2). intros V.
    destruct (C77_samples_respected_two unit (pair_pb ty) (pair_env ty) minus_x (net_b (-2)) (net_b 0) tt (pair_data ty) 1 st _ _ (where_ ty) quarter
      H1 H2 H3 H4 eq_refl eq_refl eq_refl ltac:(discriminate) eq_refl eq_refl H6 H7 H5 Ht A B Hin eq_refl S1 S2 V) as [N|N]; contradiction.
Qed.

(** ** With the extra set XR (certificate.py:1365-1373, used by two shipped experiments) the loop need not end.
    Counterexamples to the first function join the samples of XD; its loss only looks at those of XR. *)
Definition blind_pb : problem unit :=
  {| pb_type := STABLESAFE; pb_n := 1; pb_llo := false; pb_quad := false; pb_discrete := false; pb_rounding := (-1)%Z;
     pb_max_iters := (-1)%Z; pb_control := false; pb_symb := SZ3; pb_sets := P_Examples.ex_sets; pb_xdot := fun _ => Some minus_x;
     pb_f := fun _ x => map (eval (state_of x)) minus_x |}.
Definition blind_at : learned2 unit := {| d_lyap := bowl 1; d_barr := net_b (-1#2); d_ctrl := tt; d_beta := 1%Q |}.
Definition blind_pair : candidate2 :=
  match double_translate blind_pb (demo2_env (fun _ _ => Unknown) 1) 0 blind_at with Some c => c | None => ((ENum 0, ENum 0), (ENum 0, ENum 0)) end.
Definition blind_query : fml := snd (nth 0 (nth 0 (roa_constraints false (new_vars 1) ex_sets 1 (fst (fst blind_pair)) (snd (fst blind_pair))) []) (XD, FTrue)).
Definition blind_test (S Sdot : dict) (nets : network * network) : option bool :=
  option_bind (safe_roa_batch (value_at blind_pb (fst nets)) (value_at blind_pb (snd nets)) (derivative_at blind_pb (fst nets)) (derivative_at blind_pb (snd nets)) None S Sdot) (fun b =>
      option_bind (lyapunov_ok (fun v => v) false (fst b)) (fun b1 => option_bind (barrier_ok (fun v => v) false (snd b)) (fun b2 => Some (b1 && b2)))).
Definition blind_env : environment2 unit :=
  {| e2_perfect := fun _ _ S Sdot _ nets => match blind_test S Sdot nets with Some b => b | None => false end;
     e2_step := fun _ _ _ _ _ nets => nets;
     e2_ctrl := fun _ p _ _ => d_ctrl p; e2_beta := fun _ _ _ _ => 1%Q; e2_simp := fun e => e;
     e2_solver := fun _ => smt_backend (fun _ f => if fml_dec f blind_query then Sat half else Unsat);
     e2_noise := fun _ _ _ _ => 0%R; e2_trajectory := fun _ _ _ _ => Some [] |}.
Definition blind_data (n : nat) : dict := [(XD, [1%R] :: repeat half n); (XR, [[1%R]]); (XI, [[0%R]]); (XU, [[3%R]])].
Definition blind_start : learned2 unit := initial2 blind_pb (bowl 1) (net_b (-1#2)) tt.

Lemma blind_learn it p S Sdot frozen : d_lyap p = bowl 1 -> d_barr p = net_b (-1#2) -> d_ctrl p = tt -> double_learn blind_pb blind_env it frozen p S Sdot = Some blind_at.
Proof.
  intros E1 E2 E3. unfold double_learn, learn_pair. change (e2_step blind_env it p S Sdot) with (fun (_ : nat) (n : network * network) => n).
  cbn [pb_type blind_pb pb_control e2_beta blind_env]. rewrite safe_pair_id, E1, E2, E3. reflexivity.
Qed.
Lemma blind_translate it : double_translate blind_pb blind_env it blind_at = Some blind_pair.
Proof. reflexivity. Qed.
Lemma blind_verify it : double_verify blind_pb blind_env it blind_at blind_pair = Some (false, [(XD, repeat half 21)]).
Proof. rewrite <- half_noise. vm_compute. reflexivity. Qed.
Lemma blind_no_limit it : (c_max_iters (double blind_pb blind_env) =? Z.of_nat it)%Z = false.
Proof. apply Z.eqb_neq. cbn. lia. Qed.
Lemma blind_step it st n : st_S st = blind_data n -> st_Sdot st = dict_images (blind_data n) ->
  d_lyap (st_params st) = bowl 1 -> d_barr (st_params st) = net_b (-1#2) -> d_ctrl (st_params st) = tt -> st_timed_out st = false ->
  exists st', iterate (double blind_pb blind_env) it st = Some (false, st') /\
    st_S st' = blind_data (n + 21) /\ st_Sdot st' = dict_images (blind_data (n + 21)) /\ st_params st' = blind_at /\ st_timed_out st' = false.
Proof.
  intros E1 E2 E3 E4 E5 E6. unfold iterate. rewrite E1, E2, E6. cbn [c_learn c_translate c_verify double]. rewrite blind_learn by assumption. cbn [option_bind].
  rewrite blind_translate. cbn [option_bind]. rewrite blind_verify. cbn [option_bind st_timed_out]. rewrite blind_no_limit.
  assert (R : [1%R] :: repeat half (n + 21) = ([1%R] :: repeat half n) ++ repeat half 21) by (rewrite repeat_app; reflexivity).
  unfold blind_data at 3 4. rewrite R. cbn. eexists. split; [reflexivity|]. cbn. repeat split.
Qed.

Lemma blind_visited it st : visited (double blind_pb blind_env) blind_start (blind_data 0) it st ->
  exists n, st_S st = blind_data n /\ st_Sdot st = dict_images (blind_data n) /\ (0 < it -> 0 < n) /\
    d_lyap (st_params st) = bowl 1 /\ d_barr (st_params st) = net_b (-1#2) /\ d_ctrl (st_params st) = tt /\ st_timed_out st = false.
Proof.
  induction 1 as [|it st st' Hv IH Hi].
  - exists 0. repeat split. lia.
  - destruct IH as (n & E1 & E2 & _ & E3 & E4 & E5 & E6). destruct (blind_step it st n E1 E2 E3 E4 E5 E6) as (st1 & E & F1 & F2 & F3 & F4).
    rewrite E in Hi. injection Hi as <-. exists (n + 21). rewrite F3. repeat split; auto. lia.
Qed.
Lemma blind_loop : forall fuel it st, visited (double blind_pb blind_env) blind_start (blind_data 0) it st -> loop (double blind_pb blind_env) fuel it st = Running.
Proof.
  induction fuel as [|fuel IH]; intros it st Hv; [reflexivity|]. cbn [loop].
  destruct (blind_visited it st Hv) as (n & E1 & E2 & _ & E3 & E4 & E5 & E6). destruct (blind_step it st n E1 E2 E3 E4 E5 E6) as (st1 & E & _).
  rewrite E. apply IH. now apply (visited_next _ _ _ it st).
Qed.
Lemma blind_trained it st p c : trained2 blind_pb blind_env blind_start (blind_data 0) it st p c ->
  p = blind_at /\ c = blind_pair /\ exists n, st_S st = blind_data n /\ st_Sdot st = dict_images (blind_data n) /\ (0 < it -> 0 < n).
Proof.
  intros (Hv & Hl & Ht). destruct (blind_visited it st Hv) as (n & E1 & E2 & Hn & E3 & E4 & E5 & E6). cbn [c_learn double] in Hl.
  rewrite blind_learn in Hl by assumption. injection Hl as <-. cbn [c_translate double] in Ht. rewrite blind_translate in Ht. injection Ht as <-.
  split; [reflexivity|]. split; [reflexivity|]. now exists n.
Qed.
Lemma blind_V x : (value_at blind_pb (bowl 1) [x] = (x + 1) * (x + 1))%R /\
  derivative_at blind_pb (bowl 1) [x] (map (eval (state_of [x])) minus_x) = (- 2 * x * (x + 1))%R.
Proof. split; [unfold value_at, learner_value; cbn -[Q2R]|cbn -[Q2R]]; unfold Rsum; cbn -[Q2R]; q2r; lra. Qed.
Lemma blind_B x : (value_at blind_pb (net_b (-1#2)) [x] = x * x - 1 / 2)%R /\
  derivative_at blind_pb (net_b (-1#2)) [x] (map (eval (state_of [x])) minus_x) = (- 2 * x * x)%R.
Proof. split; [unfold value_at, learner_value; cbn -[Q2R]|cbn -[Q2R]]; unfold Rsum; cbn -[Q2R]; q2r; lra. Qed.
Lemma blind_at_half : eval (state_of half) (fst (fst blind_pair)) = (1/4)%R /\ eval (state_of half) (snd (fst blind_pair)) = (1/2)%R.
Proof.
  match goal with |- context [blind_pair] => let v := eval vm_compute in blind_pair in change blind_pair with v end.
  unfold half. split; cbn -[Q2R]; q2r; lra.
Qed.
Lemma blind_violated : holds (state_of half) blind_query.
Proof.
  destruct blind_at_half as [EV ED].
  assert (F : blind_query = for_ [fand [ex_sets XI; FNot (FCmp CLe (fst (fst blind_pair)) (ENum (1 * (11 # 10))%Q))];
     fand [fand [FCmp CLe (fst (fst blind_pair)) (ENum (1 * (11 # 10))%Q); FNot (FCmp CLe (esum (map (fun x => EPow x 2) (new_vars 1))) (ENum (1 # 10000)))];
           for_ [FCmp CLe (fst (fst blind_pair)) E0; FCmp CGt (snd (fst blind_pair)) E0]]]) by reflexivity.
  rewrite F. right. left. assert (Z0 : eval (state_of half) E0 = 0%R) by (cbn; apply Q2R_0).
  cbn [holds fand for_ cmp_holds fold_right]. rewrite EV, ED, Z0. repeat split.
  - cbn. unfold Q2R. cbn. lra.
  - unfold half. cbn -[Q2R]. q2r. unfold Q2R. cbn. lra.
  - right. left. lra.
Qed.
Lemma blind_passes it p t n : e2_perfect blind_env it p (blind_data n) (dict_images (blind_data n)) t (bowl 1, net_b (-1#2)) = true.
Proof.
  cbn [e2_perfect blind_env fst snd]. unfold blind_test. cbn [fst snd].
  set (f := fun x : point => map (eval (state_of x)) minus_x). set (sd := ([1%R] :: repeat half n : list point)).
  assert (Him : images_of f None (blind_data n) (dict_images (blind_data n))) by (right; split; reflexivity).
  assert (E0 := proj2 (C40_stablesafe_in_order (value_at blind_pb (bowl 1)) (value_at blind_pb (net_b (-1#2))) (derivative_at blind_pb (bowl 1)) (derivative_at blind_pb (net_b (-1#2))) f None
     (dict_images (blind_data n)) sd [[1%R]] [[0%R]] [[3%R]]) Him).
  match goal with |- match option_bind ?r _ with _ => _ end = true => match type of E0 with _ = ?v => assert (E1 : r = v) by exact E0; rewrite E1; clear E0 E1 end end.
  cbn [option_bind fst snd].
  assert (Him1 : images_of f None [(XD, [[1%R]])] [(XD, map f [[1%R]])]) by (right; split; reflexivity).
  rewrite (proj2 (C41_lyapunov_roa_samples (fun v => v) false (value_at blind_pb (bowl 1)) (derivative_at blind_pb (bowl 1)) f None _ _ [[1%R]] _ Him1 eq_refl ltac:(discriminate)
            (C40_lyapunov_roa _ _ f None _ _ [[1%R]] Him1 eq_refl))).
  2:{ intros x [<-|[]]. unfold f. destruct (blind_V 1) as [-> ->]. split; [lra|intros _; lra]. }
  cbn [option_bind andb].
  destruct (C41_barrier (fun v => v) false (map (value_at blind_pb (net_b (-1#2))) [[0%R]]) (map (value_at blind_pb (net_b (-1#2))) [[3%R]]) (map (value_at blind_pb (net_b (-1#2))) sd)
     (map (fun x => derivative_at blind_pb (net_b (-1#2)) x (f x)) sd) ltac:(left; discriminate)) as (ok & m & bad & E & N1 & N2 & K).
  match goal with |- match option_bind ?r _ with _ => _ end = true => assert (E' : r = Some ok) by exact E; rewrite E'; clear E' end.
  cbn [option_bind]. apply K. split; [|split; [|split]].
  - apply map_Forall. intros x [<-|[]]. destruct (blind_B 0) as [-> _]. lra.
  - apply map_Forall. intros x [<-|[]]. destruct (blind_B 3) as [-> _]. lra.
  - apply (counted _ _ _ _ N1). exists 0. unfold sd. cbn [map]. eexists. eexists. split; [reflexivity|]. split; [reflexivity|].
    unfold in_belt. destruct (blind_B 1) as [-> _]. lra.
  - rewrite (not_counted _ _ _ _ N2); [lia|]. apply same_place_of. intros x Hx [_ H].
    assert (Hx' : exists a, x = [a]) by (destruct Hx as [<-|Hx]; [now eexists|apply repeat_spec in Hx; subst x; now eexists]).
    destruct Hx' as [a ->]. unfold f in H. destruct (blind_B a) as [_ Ed]. rewrite Ed in H. nra.
Qed.
Lemma blind_tests : tests2 blind_pb blind_env.
Proof.
  intros it p S Sdot t nets H. cbn [e2_perfect blind_env] in H. unfold training_test2. cbn [pb_type blind_pb pb_llo].
  unfold blind_test in H. exists (fun v => v), (fun v => v), false. destruct (safe_roa_batch _ _ _ _ _ _ _) as [b|]; cbn [option_bind] in H; [|discriminate].
  exists b. split; [reflexivity|]. destruct (lyapunov_ok _ _ _) as [b1|]; cbn [option_bind] in H; [|discriminate].
  destruct (barrier_ok _ _ _) as [b2|]; cbn [option_bind] in H; [|discriminate]. apply andb_true_iff in H. destruct H as [-> ->]. now split.
Qed.
Lemma blind_answers : answers_from2 blind_pb blind_env blind_start (blind_data 0) [(XD, half)].
Proof.
  intros it st p c gs g l f n Ht Eg Hg Hl. destruct (blind_trained it st p c Ht) as (-> & -> & _). cbn zeta. cbn [e2_solver blind_env].
  destruct (fml_dec f blind_query) as [E|N]; [right|left].
  - split; [with_strategy opaque [blind_query] cbn; now destruct (fml_dec f blind_query)|].
    assert (M : b_model (smt_backend (fun (_ : nat) f => if fml_dec f blind_query then Sat half else Unsat))
                  (b_solve (smt_backend (fun (_ : nat) f => if fml_dec f blind_query then Sat half else Unsat)) n f) = half).
    { with_strategy opaque [blind_query] cbn. now destruct (fml_dec f blind_query). }
    rewrite M. split; [subst f; apply blind_violated|]. split; [reflexivity|].
    assert (A : match double_constraints blind_pb 1 blind_pair with
      | Some gs => forallb (fun g => forallb (fun lf => if fml_dec (snd lf) blind_query then label_eqb (fst lf) XD else true) g) gs | None => false end = true) by (vm_compute; reflexivity).
    cbn [d_beta blind_at] in Eg. rewrite Eg in A. rewrite forallb_forall in A. specialize (A g Hg). rewrite forallb_forall in A. specialize (A _ Hl). cbn [fst snd] in A.
    destruct (fml_dec f blind_query); [|contradiction]. apply label_eqb_spec in A. rewrite A. now left.
  - with_strategy opaque [blind_query] cbn. now destruct (fml_dec f blind_query).
Qed.
Theorem C78_backup_data_refuted :
  without_controller blind_pb minus_x /\ lawful2 blind_env /\ wf_net (bowl 1) /\ wf_net (net_b (-1#2)) /\ tests2 blind_pb blind_env /\
  map fst (blind_data 0) = [XD; XR; XI; XU] /\
  answers_from2 blind_pb blind_env blind_start (blind_data 0) [(XD, half)] /\
  (forall it st p c, trained2 blind_pb blind_env blind_start (blind_data 0) it st p c ->
     passed2 blind_env it st p /\ violates2 blind_pb p c XD half /\ (0 < it -> In half (rows XD (st_S st)))) /\
  forall fuel, run_double blind_pb blind_env fuel (bowl 1) (net_b (-1#2)) tt (blind_data 0) = None.
Proof.
  split; [repeat split|]. split; [intros it p S Sdot t nets; split; apply same_shape_refl|]. split; [apply bowl_wf|]. split; [apply net_b_wf|].
  split; [apply blind_tests|]. split; [reflexivity|]. split; [apply blind_answers|]. split.
  - intros it st p c Ht. destruct (blind_trained it st p c Ht) as (-> & -> & n & E1 & E2 & Hn). split; [|split].
    + exists 0. rewrite E1, E2. apply blind_passes.
    + exists (safe_roa_constraints false (new_vars 1) ex_sets 1 (fst (fst blind_pair)) (fst (snd blind_pair)) (snd (fst blind_pair)) (snd (snd blind_pair))).
      eexists. exists blind_query. split; [reflexivity|]. split; [left; reflexivity|]. split; [left; reflexivity|]. apply blind_violated.
    + intros Hit. rewrite E1. right. specialize (Hn Hit). destruct n; [lia|]. now left.
  - intros fuel. unfold run_double, solve. cbn [pb_discrete blind_pb]. fold blind_start. rewrite (blind_loop fuel 0); [reflexivity|]. apply visited_first.
Qed.
