(** Property C42: the verified closed loop is the one with the controller's weights
    rounded to five decimals; the numeric one uses the unrounded weights. *)
From Coquelicot Require Import Coquelicot.
From Coq Require Import Reals QArith Qreals List Bool Arith ZArith Lra Lia.
From Verif Require Import M_Syntax M_Certificates M_Verifier M_BetaSearch M_Domains M_Activations M_Network M_Learner M_Cegis M_Fossil M_Control
  S_Verifier S_Certificates S_Success S_Dynamics S_Domains S_Activations S_Network S_Learner S_Cegis S_Fossil S_Control
  L_Holds L_Table L_Calculus L_Domains L_Activations L_Network L_Learner L_Success L_Continuity L_Fossil L_Demo
  P_Verifier P_Certificates P_Activations P_Translator P_TranslatorBugs P_Examples P_Cegis P_Fossil P_FossilExamples.
Import ListNotations.
Local Open Scope R_scope.

(** ** Shapes *)
Definition rl (l : layer) : layer := {| weight := map (map (round_dp 5)) (weight l); bias := bias l |}.
Lemma rl_round l : bias l = None -> rl l = round_layer 5 l.
Proof.
  intros H. unfold rl, round_layer, round_mat. rewrite H. f_equal.
Qed.
Lemma removelast_snoc {A} (l : list A) a : removelast (l ++ [a]) = l.
Proof. rewrite removelast_app by discriminate. simpl. apply app_nil_r. Qed.
Lemma last_snoc {A} (l : list A) a d : List.last (l ++ [a]) d = a.
Proof. apply last_last. Qed.
Lemma combine_snoc {A B} (l : list A) (a : A) : forall (l' : list B),
  length l = length l' -> combine (l ++ [a]) l' = combine l l'.
Proof.
  induction l as [|x l IH]; intros [|y l'] H; simpl in *; try discriminate; auto.
  f_equal. apply IH. lia.
Qed.
Lemma combine_map_fst {A A' B} (g : A -> A') (l : list A) : forall (l' : list B),
  combine (map g l) l' = map (fun p => (g (fst p), snd p)) (combine l l').
Proof. induction l as [|x l IH]; intros [|y l']; simpl; auto. now rewrite IH. Qed.

Lemma output_snoc c hs o : k_layers c = hs ++ [o] -> output_layer c = o.
Proof. intros E. unfold output_layer. rewrite E. apply last_snoc. Qed.
Lemma zipped_snoc c hs o : k_layers c = hs ++ [o] -> length hs = length (k_acts c) ->
  zipped c = combine hs (k_acts c).
Proof. intros E H. unfold zipped. rewrite E. now apply combine_snoc. Qed.
Lemma rounded_layers c hs o : k_layers c = hs ++ [o] -> k_layers (rounded c) = map rl hs ++ [rl o].
Proof. intros E. unfold rounded. cbn [k_layers]. rewrite E, map_app. reflexivity. Qed.

Lemma combine_bias hs : forall (acts : list act), Forall (fun l => bias l = None) hs ->
  Forall (fun la : layer * act => bias (fst la) = None) (combine hs acts).
Proof.
  induction hs as [|l hs IH]; intros [|a acts] H; simpl; constructor; apply Forall_cons_iff in H; destruct H; auto.
Qed.
Definition rls := map (fun la : layer * act => (rl (fst la), snd la)).
Lemma rls_round hs : Forall (fun la : layer * act => bias (fst la) = None) hs -> rls hs = round_hidden 5 hs.
Proof.
  induction 1 as [|[l a] hs H _ IH]; [reflexivity|]. unfold rls, round_hidden in *. cbn [map fst snd] in *.
  now rewrite rl_round, IH.
Qed.

(** ** The symbolic controller *)
Lemma rounded_matvec_nth s l z n i : wf_layer n l -> bias l = None -> length z = n -> (i < length (weight l))%nat ->
  eval s (nth i (rounded_matvec l z) (ENum 0)) = neuron n (rl l) (fun k => eval s (nth k z (ENum 0))) i.
Proof.
  intros [Hr _] Hb Hz Hi. unfold rounded_matvec, neuron, bias_of, rl. cbn [bias]. rewrite Hb, Rplus_0_r.
  rewrite (matvec_nth _ _ _ n).
  - reflexivity.
  - unfold round_mat. apply Forall_map. eapply Forall_impl; [|exact Hr]. intros a. now rewrite map_length.
  - exact Hz.
  - now rewrite round_mat_length.
Qed.
Lemma rounded_matvec_length l z : length (rounded_matvec l z) = length (weight l).
Proof. unfold rounded_matvec. now rewrite matvec_length, enum_length, round_mat_length. Qed.
Lemma wf_rls n m hs : Forall (fun la : layer * act => bias (fst la) = None) hs -> wf_hidden n hs m -> wf_hidden n (rls hs) m.
Proof. intros H W. rewrite rls_round by auto. now apply wf_round_hidden. Qed.

Lemma ctrl_hidden_symbolic_value b hs : forall n m z z',
  wf_hidden n hs m -> Forall (fun la : layer * act => bias (fst la) = None) hs -> length z = n ->
  ctrl_hidden_symbolic b hs z = Some z' ->
  length z' = m /\
  forall s i, (i < m)%nat ->
    eval s (nth i z' (ENum 0)) = hidden_value n (rls hs) (fun j => eval s (nth j z (ENum 0))) i.
Proof.
  induction hs as [|[l a] hs IH]; intros n m z z' Hw Hb Hz H; simpl in *.
  - apply Some_eq' in H. subst z'. split; [lia|]. reflexivity.
  - destruct Hw as (H1 & H2 & H3). apply Forall_cons_iff in Hb. destruct Hb as [B1 B2]. cbn [fst] in B1.
    destruct (forward_symbolic b a (rounded_matvec l z)) as [zf|] eqn:Ef; simpl in H; [|discriminate].
    destruct (forward_symbolic_spec _ _ _ _ H2 Ef) as [Lf Vf]. rewrite rounded_matvec_length in Lf.
    destruct (IH _ m _ _ H3 B2 Lf H) as [L V]. split; auto. intros s i Hi. rewrite V by auto.
    rewrite map_length.
    apply (hidden_value_ext _ _ m); [now apply wf_rls| |auto].
    intros j Hj. rewrite Vf by (rewrite rounded_matvec_length; auto). rewrite rounded_matvec_length.
    rewrite (rounded_matvec_nth _ _ _ n) by auto. reflexivity.
Qed.

Lemma new_vars_nth n s i : (i < n)%nat -> eval s (nth i (new_vars n) (ENum 0)) = s i.
Proof.
  intros Hi. unfold new_vars. rewrite (map_nth_lt _ _ _ 0%nat) by (rewrite seq_length; auto).
  rewrite seq_nth by auto. reflexivity.
Qed.
Lemma new_vars_length n : length (new_vars n) = n.
Proof. unfold new_vars. now rewrite map_length, seq_length. Qed.

Lemma to_symbolic_value b n m c u :
  wf_controller n m c -> to_symbolic b c (new_vars n) = Some u ->
  length u = m /\ forall s j, (j < m)%nat -> eval s (nth j u (ENum 0)) = feedback n (rounded c) s j.
Proof.
  intros (hs & o & k & E & Hl & Hb & Hw & Ho & Hm) H.
  unfold to_symbolic in H. rewrite (zipped_snoc c hs o) in H by auto. rewrite (output_snoc c hs o) in H by auto.
  rewrite E in Hb. apply Forall_app in Hb. destruct Hb as [Hb Hbo]. apply Forall_inv in Hbo.
  assert (Hc := combine_bias hs (k_acts c) Hb).
  destruct (ctrl_hidden_symbolic b (combine hs (k_acts c)) (new_vars n)) as [z|] eqn:Ez; simpl in H; [|discriminate].
  apply Some_eq' in H. subst u.
  destruct (ctrl_hidden_symbolic_value _ _ _ _ _ _ Hw Hc (new_vars_length n) Ez) as [L V].
  rewrite rounded_matvec_length. split; [exact Hm|]. intros s j Hj.
  rewrite (rounded_matvec_nth _ _ _ k) by (auto; lia).
  unfold feedback. assert (ER := rounded_layers c hs o E). rewrite (output_snoc _ (map rl hs) (rl o)) by auto.
  rewrite ER, removelast_snoc. cbn [k_acts rounded]. rewrite combine_map_fst. fold (rls (combine hs (k_acts c))).
  rewrite (out_width_wf _ _ k) by now apply wf_rls.
  apply neuron_ext. intros i Hi. rewrite V by auto.
  apply (hidden_value_ext _ _ k); [now apply wf_rls| |auto]. intros q Hq. now apply new_vars_nth.
Qed.

(** ** Substitution *)
Lemma eval_esubst s sigma e : eval s (esubst sigma e) = eval (fun i => eval s (sigma i)) e.
Proof. induction e; cbn [esubst eval]; rewrite ?IHe, ?IHe1, ?IHe2, ?IHe3; reflexivity. Qed.
Lemma eval_bound e : forall s s', (forall i, (i < ebound e)%nat -> s i = s' i) -> eval s e = eval s' e.
Proof.
  induction e; intros s s' H; cbn [eval ebound] in *.
  - reflexivity.
  - apply H. lia.
  - now rewrite (IHe s s').
  - rewrite (IHe1 s s'), (IHe2 s s'); auto; intros i Hi; apply H; lia.
  - now rewrite (IHe s s').
  - rewrite (IHe1 s s'), (IHe2 s s'), (IHe3 s s'); auto; intros i Hi; apply H; lia.
Qed.

Lemma closed_smt_length b n f c xdot : closed_smt b n f c = Some xdot -> length xdot = length f.
Proof.
  unfold closed_smt, f_smt. destruct (to_symbolic _ _ _) as [u|]; simpl; [|discriminate].
  destruct (forallb _ _); [|discriminate]. intros H. apply Some_eq' in H. subst. apply map_length.
Qed.

(** * C42 *)
Theorem C42_verified_closed_loop :
  forall b n m f c xdot,
    wf_controller n m c -> closed_smt b n f c = Some xdot ->
    length xdot = length f /\
    forall s i, (i < length f)%nat -> field xdot s i = actuated n f (feedback n (rounded c)) s i.
Proof.
  intros b n m f c xdot Hw H. split; [now apply (closed_smt_length b n f c)|]. intros s i Hi.
  unfold closed_smt in H. destruct (to_symbolic b c (new_vars n)) as [u|] eqn:Eu; simpl in H; [|discriminate].
  destruct (to_symbolic_value b n m c u Hw Eu) as [Lu Vu].
  unfold f_smt in H. destruct (forallb _ f) eqn:Ef; [|discriminate]. apply Some_eq' in H. subst xdot.
  unfold field, actuated. rewrite (map_nth_lt _ _ _ (ENum 0)) by auto. rewrite eval_esubst.
  assert (Hb : (ebound (nth i f (ENum 0)) <= n + length u)%nat).
  { rewrite forallb_forall in Ef. apply Nat.leb_le. apply Ef. now apply nth_In. }
  apply eval_bound. intros j Hj. destruct (Nat.ltb_spec j n) as [L|L].
  - now apply new_vars_nth.
  - apply Vu. lia.
Qed.

Lemma ctrl_forward_value n m c s : wf_controller n m c -> ctrl_softplus_ok n c s ->
  length (ctrl_forward c (row n s)) = m /\
  forall j, (j < m)%nat -> nth j (ctrl_forward c (row n s)) 0 = feedback n c s j.
Proof.
  intros (hs & o & k & E & Hl & Hb & Hw & Ho & Hm) Hs.
  unfold ctrl_forward, feedback. unfold ctrl_softplus_ok in Hs.
  rewrite (zipped_snoc c hs o), (output_snoc c hs o) by auto. rewrite E, removelast_snoc in *.
  rewrite (out_width_wf _ _ k) by auto.
  assert (Er : forall i, (i < n)%nat -> s i = nth i (row n s) 0) by (intros; symmetry; now apply row_nth).
  destruct (hidden_forward_value _ n k (row n s) Hw (row_length' n s)) as [L V].
  { now apply (hidden_all_ext _ _ n k s). }
  split; [rewrite (affine_length k) by auto; exact Hm|]. intros j Hj.
  rewrite (affine_nth k) by (auto; lia). apply neuron_ext. intros i Hi. rewrite V by auto.
  apply (hidden_value_ext _ _ k); auto. intros q Hq. now apply row_nth.
Qed.
Theorem C42_numeric_closed_loop :
  forall n m f c s,
    wf_controller n m c -> (forall e, In e f -> (ebound e <= n + m)%nat) -> ctrl_softplus_ok n c s ->
    closed_torch n f c (row n s) = map (fun i => actuated n f (feedback n c) s i) (seq 0 (length f)).
Proof.
  intros n m f c s Hc Hf Hs. pose proof (ctrl_forward_value n m c s Hc Hs) as V.
  destruct V as [L V]. unfold closed_torch, f_torch.
  apply (nth_ext _ _ 0 0); [now rewrite !map_length, seq_length|]. intros i Hi. rewrite map_length in Hi.
  rewrite (map_nth_lt _ _ _ (ENum 0)) by auto. rewrite (map_nth_lt _ _ _ 0%nat) by (rewrite seq_length; auto).
  rewrite seq_nth by auto. cbn [Nat.add]. unfold actuated. apply eval_bound. intros j Hj.
  assert (Hbd := Hf _ (nth_In f (ENum 0) Hi)).
  destruct (Nat.ltb_spec j n); [now apply row_nth|]. apply V. lia.
Qed.

Theorem C42_rounding_error :
  forall c, k_acts (rounded c) = k_acts c /\
    Forall2 (close_layer (1/2 * / 10 ^ 5)) (k_layers (rounded c)) (k_layers c).
Proof.
  intros c. split; [reflexivity|]. unfold rounded. cbn [k_layers].
  induction (k_layers c) as [|l ls IH]; simpl; constructor; auto. split; cbn [weight bias].
  - induction (weight l) as [|r rs IHr]; simpl; constructor; auto.
    induction r; simpl; constructor; auto. apply (round_dp_close 5).
  - destruct (bias l); auto. apply close_refl, (half_pow10 5).
Qed.

Lemma Q_map_nth (g : Q -> Q) l i : Forall (fun w => g w == w)%Q l -> (i < length l)%nat -> Q2R (nth i (map g l) 0%Q) = Q2R (nth i l 0%Q).
Proof.
  intros H Hi. rewrite (map_nth_lt _ _ _ 0%Q) by auto. apply Qeq_eqR. rewrite Forall_forall in H. apply H. now apply nth_In.
Qed.
Lemma neuron_five n l y i : Forall (Forall (fun w => round_dp 5 w == w)%Q) (weight l) -> wf_layer n l -> (i < length (weight l))%nat ->
  neuron n (rl l) y i = neuron n l y i.
Proof.
  intros H [W _] Hi. unfold neuron. f_equal. apply sum_below_ext. intros k Hk. f_equal. unfold weight_of, rl. cbn [weight].
  rewrite (map_nth_lt _ _ _ []) by auto. apply Q_map_nth.
  - rewrite Forall_forall in H. apply H. now apply nth_In.
  - now rewrite (row_length n).
Qed.
Lemma hidden_five hs : forall n m y i,
  Forall (fun la : layer * act => Forall (Forall (fun w => round_dp 5 w == w)%Q) (weight (fst la))) hs ->
  Forall (fun la : layer * act => bias (fst la) = None) hs ->
  wf_hidden n hs m -> (i < m)%nat -> hidden_value n (rls hs) y i = hidden_value n hs y i.
Proof.
  induction hs as [|[l a] hs IH]; intros n m y i H Hb Hw Hi; simpl in *; [reflexivity|].
  destruct Hw as (H1 & H2 & H3). apply Forall_cons_iff in H. apply Forall_cons_iff in Hb. destruct H as [Ha H], Hb as [_ Hb].
  cbn [fst] in Ha. rewrite map_length. fold (rls hs). rewrite (IH _ m) by auto.
  apply (hidden_value_ext _ _ m); auto. intros k Hk. f_equal. now apply neuron_five.
Qed.
Lemma combine_fst_forall {A B} (Pr : A -> Prop) (l : list A) : forall (l' : list B),
  Forall Pr l -> Forall (fun p => Pr (fst p)) (combine l l').
Proof.
  induction l as [|x l IH]; intros [|y l'] H; simpl; constructor; apply Forall_cons_iff in H; destruct H; auto.
Qed.

Theorem C42_exact_with_five_decimals :
  forall n m c s j, wf_controller n m c -> five_decimals c -> (j < m)%nat ->
    feedback n (rounded c) s j = feedback n c s j.
Proof.
  intros n m c s j (hs & o & k & E & Hl & Hb & Hw & Ho & Hm) H5 Hj.
  unfold feedback. assert (ER := rounded_layers c hs o E).
  rewrite (output_snoc _ (map rl hs) (rl o)) by auto. rewrite (output_snoc c hs o) by auto.
  rewrite ER, E, !removelast_snoc. cbn [k_acts rounded]. rewrite combine_map_fst. fold (rls (combine hs (k_acts c))).
  unfold five_decimals in H5. rewrite E in H5, Hb. apply Forall_app in H5. apply Forall_app in Hb.
  destruct H5 as [H5 H5o], Hb as [Hb _]. apply Forall_inv in H5o.
  assert (Hc := combine_bias hs (k_acts c) Hb).
  rewrite !(out_width_wf _ _ k) by (auto; now apply wf_rls). rewrite neuron_five by (auto; lia).
  apply neuron_ext. intros i Hi. apply (hidden_five _ _ k); auto. now apply (combine_fst_forall (fun l => Forall _ (weight l))).
Qed.

(** The closed loop that a successful run certifies, when a controller is synthesised:
    training keeps the controller's shape. *)
Theorem C42_success_certifies_rounded_controller :
  forall (pb : problem controller) (env : environment controller) b f m random ctrl S fuel r,
    lawful pb env -> honest pb env ->
    pb_xdot pb = closed_smt b (pb_n pb) f -> length f = pb_n pb ->
    wf_controller (pb_n pb) m ctrl ->
    (forall it p S Sdot, wf_controller (pb_n pb) m (l_ctrl p) -> wf_controller (pb_n pb) m (e_ctrl env it p S Sdot)) ->
    run_fossil pb env fuel random ctrl S = Some (Some r) -> r_res r = true ->
    forall s i, (i < pb_n pb)%nat ->
      closed_loop pb r s i = actuated (pb_n pb) f (feedback (pb_n pb) (rounded (l_ctrl (r_learned r)))) s i.
Proof.
  intros pb env b f m random ctrl S fuel r Hlaw Hhon Hx Hf Hw Hpres Hr Hres s i Hi.
  assert (W : wf_controller (pb_n pb) m (l_ctrl (r_learned r))).
  { assert (Hvis : forall it st, visited (fossil pb env) (initial pb random ctrl) S it st ->
                     wf_controller (pb_n pb) m (l_ctrl (st_params st))).
    { induction 1 as [|it st st' Hv IH Hi']; [exact Hw|].
      apply iterate_inv in Hi'. destruct Hi' as (q & c & found & cex & t & H1 & _ & _ & _ & Hp & _).
      rewrite Hp. cbn [c_learn fossil] in H1. unfold fossil_learn in H1. apply Some_eq' in H1. subst q. now apply Hpres. }
    destruct (C32_result_was_verified _ _ _ _ _ _ _ Hr Hres) as (it & VV & cex & _ & _ & _ & _ & _ & st & Hv & E5).
    cbn [c_learn fossil] in E5. unfold fossil_learn in E5. apply Some_eq' in E5. rewrite E5. cbn [l_ctrl].
    apply Hpres. now apply Hvis in Hv. }
  destruct (run_success pb env Hlaw random ctrl S fuel r Hr Hres Hhon) as (it & V & Vdot & gs & _ & _ & _ & Hd & _).
  unfold closed_loop. set (D := dynamics pb (l_ctrl (r_learned r))) in *. rewrite Hx in Hd.
  destruct (C42_verified_closed_loop b (pb_n pb) m f _ D W Hd) as [_ H]. apply H. now rewrite Hf.
Qed.

(** ** A controller whose rounding is verified in its place.
    x' = -10^-6 x + u with the learned u = 4*10^-6 x: rounding gives u = 0, for which
    V = x^2 is verified, and the returned controller makes the loop unstable. *)
Definition weak_f : list expr := [EBin BAdd (EBin BMul (ENum (-1 # 1000000)) (EVar 0)) (EVar 1)].
Definition weak_ctrl : controller :=
  {| k_acts := [AIdentity];
     k_layers := [{| weight := [[1]]%Q; bias := None |}; {| weight := [[4 # 1000000]]%Q; bias := None |}] |}.
Definition weak_pb : problem controller :=
  {| pb_type := LYAPUNOV; pb_n := 1; pb_llo := false; pb_quad := false; pb_discrete := false; pb_rounding := 3;
     pb_max_iters := 10; pb_control := true; pb_symb := SZ3; pb_sets := ex_sets;
     pb_xdot := closed_smt SZ3 1 weak_f; pb_f := fun c v => closed_torch 1 weak_f c v |}.
Lemma weak_wf : wf_controller 1 1 weak_ctrl.
Proof.
  exists [{| weight := [[1]]%Q; bias := None |}], {| weight := [[4 # 1000000]]%Q; bias := None |}, 1%nat.
  cbn. unfold wf_layer. cbn. repeat split; repeat constructor; discriminate.
Qed.

Lemma linear_growth_unstable c f : 0 < c -> (forall s, f s 0%nat = c * s 0%nat) -> ~ stable 1 f.
Proof.
  intros Hc Hf H. destruct (H (1/2) ltac:(lra)) as (d & Hd & Hs).
  destruct (P_Stability.exp_grows d Hd) as (T & HT & Hbig).
  assert (HT' : 0 <= T / c). { apply Rmult_le_pos; [auto|]. left. now apply Rinv_0_lt_compat. }
  specialize (Hs (fun t _ => d / 2 * exp (c * t)) (T / c) HT').
  assert (Hn : near 1 (1/2) (fun _ => d / 2 * exp (c * (T / c)))).
  { apply (Hs) with (t := T / c); [| |lra].
    - intros t _ i Hi. replace i with 0%nat by lia. rewrite Hf. auto_derive; auto. ring.
    - intros i _. rewrite Rmult_0_r, exp_0. rewrite Rabs_right; lra. }
  specialize (Hn 0%nat ltac:(lia)). replace (c * (T / c)) with T in Hn by (field; lra).
  rewrite Rabs_right in Hn; lra.
Qed.

Definition weak_pair : expr * expr :=
  match fossil_translate weak_pb (demo_env (fun _ _ => Unknown) 0 0) 0 (demo_learned weak_pb (sq_net None) weak_ctrl 0) with
  | Some p => p | None => (ENum 0, ENum 0) end.

Theorem C42_unrounded_controller_unstable :
  exists env r,
    wf_controller 1 1 weak_ctrl /\ well_posed weak_pb (sq_net None) /\ lawful weak_pb env /\ honest weak_pb env /\
    (forall it p S Sdot, wf_controller 1 1 (l_ctrl p) -> wf_controller 1 1 (e_ctrl env it p S Sdot)) /\
    run_fossil weak_pb env 1 (sq_net None) weak_ctrl [] = Some (Some r) /\ r_res r = true /\
    (* the certified loop, and the loop with the returned controller *)
    stable 1 (closed_loop weak_pb r) /\
    ~ stable 1 (actuated 1 weak_f (feedback 1 (l_ctrl (r_learned r)))).
Proof.
  assert (EV : forall s, eval s (fst weak_pair) = s 0%nat ^ 2). { intros s. cbn -[Q2R round_num round_dp]. q2r. field. }
  assert (EW : forall s, eval s (snd weak_pair) = - (2 / 1000000) * s 0%nat ^ 2). { intros s. cbn -[Q2R round_num round_dp]. q2r. field. }
  destruct (demo_success_ctrl weak_pb 0 (sq_net None) weak_ctrl (fst weak_pair) (snd weak_pair)
              (lyapunov_constraints false (new_vars 1) ex_sets (fst weak_pair) (snd weak_pair))) as (env & H1 & H2 & Hk & H3);
    try reflexivity; try discriminate.
  - apply (C01_certificate_labels_distinct false (new_vars 1) ex_sets 0 (fst weak_pair) (fst weak_pair) (snd weak_pair) (snd weak_pair)).
  - apply C06_lyapunov_obligations. intros s Hs Ho. apply ex_not_origin in Ho. unfold sem. rewrite EV, EW. simpl.
    split; [intros _|]; lra.
  - assert (Hwp : well_posed weak_pb (sq_net None)).
    { split; [apply sq_wf; discriminate|]. split; [reflexivity|]. intros k xdot Hx.
      now apply closed_smt_length in Hx. }
    exists env, (demo_result weak_pb (sq_net None) weak_ctrl 0 (fst weak_pair) (snd weak_pair)).
    split; [exact weak_wf|]. split; [exact Hwp|]. split; [exact H1|]. split; [exact H2|].
    split; [intros it p S Sdot W; now rewrite Hk|]. split; [exact H3|]. split; [reflexivity|]. split.
    + destruct (C45_lyapunov_success_means_stability controller weak_pb env (sq_net None) weak_ctrl [] 1
        (demo_result weak_pb (sq_net None) weak_ctrl 0 (fst weak_pair) (snd weak_pair)) 4) as [A _]; auto.
      * discriminate.
      * apply sq_smooth.
      * right. repeat constructor.
      * destruct C13_example as (_ & _ & _ & _ & _ & HN & _). exact HN.
      * intros i p.
        set (xd := dynamics weak_pb (l_ctrl (r_learned (demo_result weak_pb (sq_net None) weak_ctrl 0 (fst weak_pair) (snd weak_pair))))).
        change (cont_at 1 (sem (nth i xd (ENum 0))) p).
        destruct i as [|[|i]]; apply ex_cont; cbn; repeat split; auto; lia.
    + apply (linear_growth_unstable (3/1000000)); [lra|]. intros s.
      unfold actuated, feedback, neuron, weight_of, bias_of. cbn -[Q2R]. unfold neuron, weight_of, bias_of. cbn -[Q2R]. q2r. field.
Qed.

(** The hypotheses of C42 are met by that controller, and by one on which rounding is exact. *)
Definition fine_ctrl : controller :=
  {| k_acts := [ATanh];
     k_layers := [{| weight := [[1; -1]; [1 # 2; 3]]%Q; bias := None |}; {| weight := [[12345 # 100000; -2]]%Q; bias := None |}] |}.
Example C42_example :
  wf_controller 2 1 fine_ctrl /\ five_decimals fine_ctrl /\ (forall s, ctrl_softplus_ok 2 fine_ctrl s) /\
  (exists xdot, closed_smt SDREAL 2 [EVar 1; EBin BMul (EVar 0) (EVar 2)] fine_ctrl = Some xdot) /\
  (forall s, actuated 2 [EVar 1; EBin BMul (EVar 0) (EVar 2)] (feedback 2 fine_ctrl) s 1%nat
     = s 0%nat * (12345 / 100000 * tanh (s 0%nat - s 1%nat) - 2 * tanh (s 0%nat / 2 + 3 * s 1%nat))).
Proof.
  split; [|split; [|split; [|split]]].
  - exists [{| weight := [[1; -1]; [1 # 2; 3]]%Q; bias := None |}], {| weight := [[12345 # 100000; -2]]%Q; bias := None |}, 2%nat.
    cbn. unfold wf_layer. cbn. repeat split; repeat constructor; discriminate.
  - repeat constructor.
  - intros s. split; [intros; exact I|exact I].
  - eexists. reflexivity.
  - intros s. unfold actuated, feedback, neuron, weight_of, bias_of. cbn -[Q2R tanh]. unfold neuron, weight_of, bias_of. cbn -[Q2R tanh]. q2r.
    replace (s 0%nat - s 1%nat) with (0 + 1 / 1 * s 0%nat + -1 / 1 * s 1%nat + 0) by field.
    replace (s 0%nat / 2 + 3 * s 1%nat) with (0 + 1 / 2 * s 0%nat + 3 / 1 * s 1%nat + 0) by field. field.
Qed.
