(** Property C55: what training differentiates is what verification checks. *)
From Coquelicot Require Import Coquelicot.
From Coq Require Import Reals QArith Qreals List Bool Arith ZArith Lra Lia.
From Verif Require Import M_Syntax M_Activations M_Domains M_Network M_Gradient S_Activations S_Domains S_Network
  S_Dynamics M_Certificates M_Cegis M_Learning S_Learning L_Holds L_Domains L_Activations L_Network P_Certificates P_Activations P_Translator P_Learning.
Import ListNotations.
Local Open Scope R_scope.

(** ** One activation *)
Lemma softplus_ratio x : exp x / (exp x + 1) = / (1 + exp (- x)).
Proof. assert (H := exp_pos x). rewrite exp_Ropp. field. split; lra. Qed.

Lemma pow_backward_eval k x : pow_backward k x = INR k * x ^ pred k.
Proof. destruct k as [|k]; [simpl; ring|reflexivity]. Qed.

Lemma act_backward_length a xs : act_ok a -> length (act_backward a xs) = length xs.
Proof.
  intros Ha. destruct a; cbn [act_backward act_ok] in *; rewrite ?map_length; auto using by_part_length.
  rewrite app_length, !map_length, <- app_length, firstn_skipn. reflexivity.
Qed.

Lemma act_backward_eval b a xs ds s :
  act_ok a -> derivative_symbolic b a xs = Some ds -> Forall (softplus_range a) (map (eval s) xs) ->
  map (eval s) ds = act_backward a (map (eval s) xs).
Proof.
  intros Ha H Hr.
  assert (E2 : Q2R 2 = 2) by (unfold Q2R; simpl; lra).
  assert (Eh : Q2R (1#2) = 1/2) by (unfold Q2R; simpl; lra).
  assert (Hin : forall x, In x xs -> softplus_range a (eval s x)).
  { intros x Hx. rewrite Forall_forall in Hr. apply Hr, in_map, Hx. }
  destruct a as [| | | | | | | | | | |n|n]; cbn [derivative_symbolic act_backward] in *; cbn [act_ok] in Ha.
  - apply Some_eq' in H. subst ds. rewrite !map_map. apply map_ext. intros x. apply Q2R_1.
  - apply app_all_inv in H. destruct H as (g & Hg & ->). rewrite !map_map. apply map_ext. intros x.
    now apply (fn_ifpos_eval b g).
  - apply Some_eq' in H. subst ds. rewrite !map_map. apply map_ext. intros x.
    cbn [eval binop_eval]. rewrite E2. unfold pow_backward. simpl. ring.
  - apply Some_eq' in H. subst ds. rewrite map_app, map_length, !map_map, !firstn_map, !skipn_map, !map_map. f_equal.
    + apply map_ext. intros x. apply Q2R_1.
    + apply map_ext. intros x. cbn [eval binop_eval]. rewrite E2. unfold pow_backward. simpl. ring.
  - destruct (fn_tanh b) as [g|] eqn:Eg; cbn [option_bind] in H; [|discriminate]. apply Some_eq' in H. subst ds.
    rewrite !map_map. apply map_ext. intros x. cbn [eval binop_eval e1]. rewrite (fn_tanh_eval b g), Q2R_1 by auto. ring.
  - destruct (fn_tanh b) as [g|] eqn:Eg; cbn [option_bind] in H; [|discriminate]. apply Some_eq' in H. subst ds.
    rewrite !map_map. apply map_ext. intros x. cbn [eval binop_eval e1].
    rewrite (fn_tanh_eval b g), Q2R_1, E2 by auto. unfold pow_backward. simpl. ring.
  - destruct (fn_exp b) as [g|] eqn:Eg; cbn [option_bind] in H; [|discriminate]. apply Some_eq' in H. subst ds.
    rewrite !map_map. apply map_ext. intros x. cbn [eval binop_eval e1].
    rewrite !(fn_exp_eval b g), Q2R_1 by auto. cbn [eval unop_eval]. unfold torch_sigmoid.
    assert (Hp := exp_pos (- eval s x)). field. lra.
  - apply app_all_inv in H. destruct H as (g & Hg & ->). apply dreal_only_inv in Hg. subst g.
    rewrite !map_map. apply map_ext_in. intros x Hx. specialize (Hin x Hx). cbn [softplus_range] in Hin.
    cbn [eval binop_eval unop_eval e1 eexp]. rewrite Q2R_1. unfold torch_softplus_backward.
    destruct (Rlt_dec 20 (eval s x)); [lra|]. rewrite softplus_ratio. lra.
  - apply app_all_inv in H. destruct H as (g & Hg & ->). apply dreal_only_inv in Hg. subst g.
    rewrite !map_map. apply map_ext_in. intros x Hx. specialize (Hin x Hx). cbn [softplus_range] in Hin.
    cbn [eval binop_eval unop_eval e1 eexp]. rewrite Q2R_1. unfold torch_softplus_backward.
    destruct (Rlt_dec 20 (eval s x)); [lra|]. rewrite softplus_ratio. lra.
  - apply app_all_inv in H. destruct H as (g & Hg & ->). apply dreal_only_inv in Hg. subst g.
    rewrite !map_map. apply map_ext_in. intros x Hx. specialize (Hin x Hx). cbn [softplus_range] in Hin.
    cbn [eval binop_eval unop_eval e1 eexp elog]. rewrite Q2R_1, E2, Eh.
    unfold torch_softplus_backward, torch_softplus.
    destruct (Rlt_dec 20 (eval s x)); [lra|]. assert (Hp := exp_pos (eval s x)).
    replace (ln (1 / 2 * (1 + exp (eval s x)))) with (ln (1 + exp (eval s x)) - ln 2).
    + unfold pow_backward. simpl. field. lra.
    + rewrite ln_mult by lra. replace (1/2) with (/2) by lra. rewrite ln_Rinv by lra. ring.
  - apply app_all_inv in H. destruct H as (g & Hg & ->). apply dreal_only_inv in Hg. subst g.
    rewrite !map_map. apply map_ext. reflexivity.
  - apply Some_eq' in H. subst ds. rewrite map_by_part, by_part_map. unfold by_part. f_equal. apply map_ext.
    intros i. apply map_ext. intros x. rewrite pow_backward_eval. cbn [eval binop_eval].
    rewrite Q2R_of_nat. replace (i + 1)%nat with (S i) by lia. reflexivity.
  - apply Some_eq' in H. subst ds. rewrite map_by_part, by_part_map. unfold by_part. f_equal. apply map_ext.
    intros i. apply map_ext. intros x. rewrite pow_backward_eval. destruct i as [|i].
    + cbn [eval binop_eval]. rewrite Q2R_0. simpl. ring.
    + cbn [eval binop_eval]. rewrite Q2R_of_nat. f_equal. f_equal. lia.
Qed.

(** ** Reverse accumulation computes the Jacobian product *)
Lemma hidden_backward_length hs n m y g :
  wf_hidden n hs m -> length y = n -> length g = m -> length (hidden_backward hs y g) = n.
Proof.
  intros Hw Hy Hg. destruct hs as [|[l a] hs]; cbn [hidden_backward wf_hidden] in *; [lia|].
  unfold linear_backward. now rewrite map_length, seq_length.
Qed.

Lemma linear_backward_nth n l g j :
  wf_layer n l -> length g = length (weight l) -> (j < n)%nat ->
  nth j (linear_backward n l g) 0 = sum_below (length (weight l)) (fun i => nth i g 0 * weight_of l i j).
Proof.
  intros Hw Hg Hj. unfold linear_backward. rewrite (map_nth_lt _ _ _ 0%nat) by (now rewrite seq_length).
  rewrite seq_nth by auto. cbn [Nat.add].
  rewrite (Rsum_map2_below _ _ _ 0 [] (length (weight l))) by auto. reflexivity.
Qed.


Lemma zhat_affine s r n l z : wf_layer n l -> length z = n ->
  map (eval s) (zhat r l z) = affine (round_layer r l) (map (eval s) z).
Proof.
  intros Hw Hz. assert (Hw' := wf_round_layer r n l Hw).
  apply (nth_ext _ _ 0 0).
  - rewrite map_length, (zhat_length r n), (affine_length n) by auto. cbn [weight round_layer].
    now rewrite round_mat_length.
  - intros i Hi. rewrite map_length, (zhat_length r n) in Hi by auto.
    rewrite (map_nth_lt _ _ _ (ENum 0)) by (now rewrite (zhat_length r n)).
    rewrite (zhat_nth _ _ n) by auto. rewrite (affine_nth n); auto.
    + apply neuron_ext. intros k Hk. now rewrite (map_nth_lt _ _ _ (ENum 0)) by lia.
    + now rewrite map_length.
    + cbn [weight round_layer]. now rewrite round_mat_length.
Qed.

Lemma until_last_ct_backward b r k hs : forall n m z J z' J' g s,
  wf_hidden n hs m -> length z = n -> length J = n -> until_last_ct b r k hs z J = Some (z', J') ->
  hidden_all softplus_range n (round_hidden r hs) (fun j => eval s (nth j z (ENum 0))) ->
  length g = m ->
  forall j, (j < k)%nat ->
    sum_below m (fun i => nth i g 0 * eval s (nth j (nth i J' []) (ENum 0))) =
    sum_below n (fun q => nth q (hidden_backward (round_hidden r hs) (map (eval s) z) g) 0
                          * eval s (nth j (nth q J []) (ENum 0))).
Proof.
  induction hs as [|[l a] hs IH]; intros n m z J z' J' g s Hw Hz HJ H Hs Hg j Hj.
  - cbn [wf_hidden until_last_ct round_hidden map hidden_backward] in *.
    apply Some_eq' in H. apply pair_equal_spec in H. destruct H as [<- <-]. now subst m.
  - cbn [wf_hidden until_last_ct round_hidden map hidden_backward hidden_all fst snd] in *.
    destruct Hw as (H1 & H2 & H3). destruct Hs as [S1 S2].
    cbn [weight round_layer] in S1, S2. rewrite round_mat_length in S1, S2.
    destruct (forward_symbolic b a (zhat r l z)) as [zf|] eqn:Ef; cbn [option_bind] in H; [|discriminate].
    destruct (derivative_symbolic b a (zhat r l z)) as [d|] eqn:Ed; cbn [option_bind] in H; [|discriminate].
    destruct (forward_symbolic_spec _ _ _ _ H2 Ef) as [Lf Vf].
    destruct (derivative_symbolic_spec _ _ _ _ H2 Ed) as [Ld _].
    assert (Lz : length (zhat r l z) = length (weight l)) by (now apply (zhat_length r n)).
    rewrite Lz in Lf, Vf, Ld.
    assert (Hrange : Forall (softplus_range a) (map (eval s) (zhat r l z))).
    { rewrite Forall_forall. intros x Hx. apply (In_nth _ _ 0) in Hx. destruct Hx as (i & Hi & <-).
      rewrite map_length, Lz in Hi. rewrite (map_nth_lt _ _ _ (ENum 0)) by lia.
      rewrite (zhat_nth _ _ n) by auto. now apply S1. }
    assert (Ebk := act_backward_eval b a _ d s H2 Ed Hrange).
    assert (Efw := C25_symbolic_agrees_with_numeric b a _ zf s H2 Ef Hrange).
    rewrite (zhat_affine s r n) in Ebk, Efw by auto.
    set (M := ematmul k (enum (round_mat r (weight l))) J) in *.
    assert (LM : length M = length (weight l)).
    { unfold M. now rewrite ematmul_length, enum_length, round_mat_length. }
    assert (LJ1 : length (ematmul k (diagflat d) M) = length (weight l)).
    { now rewrite ematmul_length, diagflat_length. }
    assert (S3 : hidden_all softplus_range (length (weight l)) (round_hidden r hs)
                   (fun i => eval s (nth i zf (ENum 0)))).
    { refine (hidden_all_ext _ _ _ m _ _ (wf_round_hidden r _ _ _ H3) _ S2).
      intros i Hi. rewrite Vf by auto. now rewrite (zhat_nth _ _ n). }
    rewrite (IH _ m zf _ z' J' g s H3 Lf LJ1 H S3 Hg j Hj).
    rewrite Efw. clear IH.
    set (G := hidden_backward (round_hidden r hs) (forward a (affine (round_layer r l) (map (eval s) z))) g) in *.
    assert (LG : length G = length (weight l)).
    { apply (hidden_backward_length _ _ m); auto; [now apply wf_round_hidden|].
      rewrite <- Efw. now rewrite map_length. }
    fold (round_hidden r hs). fold G. rewrite <- Ebk.
    assert (Hw' := wf_round_layer r n l H1).
    assert (Lw : length (weight (round_layer r l)) = length (weight l)) by (cbn; apply round_mat_length).
    assert (Lgd : length (map2 Rmult G (map (eval s) d)) = length (weight l)).
    { rewrite map2_length, map_length. lia. }
    rewrite map_length, Hz.
    rewrite (sum_below_ext (length (weight l)) _ (fun i => sum_below n (fun q =>
      nth i G 0 * eval s (nth i d (ENum 0)) * weight_of (round_layer r l) i q * eval s (nth j (nth q J []) (ENum 0))))).
    + rewrite sum_below_swap. apply sum_below_ext. intros q Hq.
      rewrite (linear_backward_nth n) by (auto; now rewrite Lw). rewrite Lw.
      rewrite Rmult_comm, <- sum_below_scal. apply sum_below_ext. intros i Hi.
      rewrite (map2_nth _ _ _ 0 0) by (rewrite ?map_length; lia).
      rewrite (map_nth_lt _ _ _ (ENum 0)) by lia. ring.
    + intros i Hi. rewrite ematmul_diag by lia. unfold M.
      assert (Hrow : Forall (fun row => length row = n) (round_mat r (weight l))).
      { apply (wf_round_layer r n l H1). }
      rewrite (ematmul_nth _ _ _ _ _ _ n).
      * rewrite <- Rmult_assoc, <- sum_below_scal. apply sum_below_ext. intros q Hq. rewrite nth_enum.
        unfold weight_of. cbn [eval weight round_layer]. ring.
      * now rewrite enum_length, round_mat_length.
      * exact Hj.
      * unfold enum. rewrite (map_nth_lt _ _ _ []) by (rewrite round_mat_length; auto).
        rewrite map_length. apply row_length; auto. now rewrite round_mat_length.
      * exact HJ.
Qed.

(** ** The whole network *)
Lemma new_vars_row n s : map (eval s) (new_vars n) = row n s.
Proof.
  apply (nth_ext _ _ 0 0); [now rewrite map_length, new_vars_length, row_length'|].
  intros i Hi. rewrite map_length, new_vars_length in Hi.
  rewrite (map_nth_lt _ _ _ (ENum 0)) by (now rewrite new_vars_length).
  rewrite new_vars_nth, row_nth by auto. reflexivity.
Qed.

Lemma get_all_ct_value quad net x xd : fst (get_all_ct quad net x xd) = learner_value quad net x.
Proof. reflexivity. Qed.

Lemma round_mat_head r net n : wf_layer n (last net) -> length (weight (last net)) = 1%nat ->
  length (nth 0 (weight (last (round_net r net))) []) = n /\
  forall i, nth i (map Q2R (nth 0 (weight (last (round_net r net))) [])) 0 = weight_of (last (round_net r net)) 0 i.
Proof.
  intros Hw Hl. split.
  - destruct (wf_round_last r n _ Hw) as [Hr _]. cbn [last round_net round_last weight] in *.
    apply row_length; auto. rewrite round_mat_length. lia.
  - intros i. unfold weight_of. rewrite <- Q2R_0. apply map_nth.
Qed.

(** The learner's derivative, for the network whose coefficients the translator uses. *)
Lemma learner_derivative b simp r quad net xdot V Vdot s :
  b <> SCVC5 -> wf_net net -> length xdot = in_size net ->
  translate_ct b simp r quad net (new_vars (in_size net)) xdot = Some (V, Vdot) ->
  softplus_ok (round_net r net) s ->
  snd (get_all_ct quad (round_net r net) (row (in_size net) s) (row (in_size net) (field xdot s))) = eval s Vdot.
Proof.
  intros Hb Hwf Hxd H Hs. assert (Hwf' := Hwf). destruct Hwf as (m & H1 & H2 & H3). set (n := in_size net) in *.
  destruct (translate_ct_inv _ _ _ _ _ _ _ _ Hb H) as (z & J & out & Eu & El & EV & ->). fold n in Eu, EV |- *.
  destruct (until_last_ct_value _ _ _ _ _ _ _ _ _ _ H1 (new_vars_length _) Eu) as [Lz Vz].
  set (g0 := map Q2R (nth 0 (weight (last (round_net r net))) [])).
  destruct (round_mat_head r net m H2 H3) as [Lg0 Ng0].
  assert (Lg : length g0 = m) by (unfold g0; now rewrite map_length).
  set (G := hidden_backward (hidden (round_net r net)) (row n s) g0).
  assert (LG : length G = n).
  { apply (hidden_backward_length _ _ m); auto; [now apply wf_round_hidden|apply row_length']. }
  (* reverse accumulation gives the Jacobian row *)
  assert (Hs' : hidden_all softplus_range n (round_hidden r (hidden net)) (fun j => eval s (nth j (new_vars n) (ENum 0)))).
  { refine (hidden_all_ext _ _ _ m _ _ (wf_round_hidden r _ _ _ H1) _ Hs). intros i Hi. now rewrite new_vars_nth. }
  set (jac := nth 0 (ematmul n (enum (round_mat r (weight (last net)))) J) []) in *.
  assert (LJ : length J = m).
  { clear - Eu Lz H1. assert (HJ : forall hs k w z0 J0 z1 J1, wf_hidden w hs k -> length J0 = w -> length z0 = w ->
              until_last_ct b r n hs z0 J0 = Some (z1, J1) -> length J1 = k).
    { induction hs as [|[l a] hs IH]; intros k w z0 J0 z1 J1 Hw L0 Lz0 HH; cbn [until_last_ct wf_hidden] in *.
      - apply Some_eq' in HH. apply pair_equal_spec in HH. destruct HH as [_ ->]. lia.
      - destruct Hw as (W1 & W2 & W3).
        destruct (forward_symbolic b a (zhat r l z0)) as [zf|] eqn:Ef; cbn [option_bind] in HH; [|discriminate].
        destruct (derivative_symbolic b a (zhat r l z0)) as [d|] eqn:Ed; cbn [option_bind] in HH; [|discriminate].
        destruct (forward_symbolic_spec _ _ _ _ W2 Ef) as [Lf _].
        destruct (derivative_symbolic_spec _ _ _ _ W2 Ed) as [Ld _].
        rewrite (zhat_length r w) in Lf, Ld by auto.
        refine (IH k (length (weight l)) zf _ z1 J1 W3 _ _ HH); auto. rewrite ematmul_length, diagflat_length. exact Ld. }
    apply (HJ (hidden net) m n (new_vars n) (eye n) z J H1); auto using eye_length. apply new_vars_length. }
  assert (Hrow : Forall (fun q => length q = m) (round_mat r (weight (last net)))).
  { apply (wf_round_last r m _ H2). }
  assert (Hjac : forall j, (j < n)%nat -> eval s (nth j jac (ENum 0)) = nth j G 0).
  { intros j Hj. unfold jac. rewrite (ematmul_nth _ _ _ _ _ _ m); auto.
    - assert (E := until_last_ct_backward b r n (hidden net) n m (new_vars n) (eye n) z J g0 s H1
                     (new_vars_length _) (eye_length n) Eu Hs' Lg j Hj).
      rewrite (sum_below_ext m _ (fun i => nth i g0 0 * eval s (nth j (nth i J []) (ENum 0)))).
      + rewrite E, new_vars_row. fold (hidden (round_net r net)).
        change (hidden_backward (round_hidden r (hidden net)) (row n s) g0) with G.
        rewrite (sum_below_ext n _ (fun q => (if (j =? q)%nat then 1 else 0) * nth q G 0)).
        * now apply sum_below_delta.
        * intros q Hq. rewrite eye_nth by auto. rewrite Nat.eqb_sym. ring.
      + intros i Hi. unfold g0. rewrite Ng0, nth_enum. reflexivity.
    - rewrite enum_length, round_mat_length. lia.
    - unfold enum. rewrite (map_nth_lt _ _ _ []) by (rewrite round_mat_length; lia).
      rewrite map_length. apply row_length; auto. rewrite round_mat_length. lia. }
  assert (Ljac : length jac = n).
  { unfold jac, ematmul. rewrite (map_nth_lt _ _ _ []) by (rewrite enum_length, round_mat_length; lia).
    now rewrite map_length, seq_length. }
  (* the output of the network *)
  assert (Hout : eval s out = net_forward (round_net r net) (row n s)).
  { assert (Hw2 := wf_round_net r net Hwf').
    rewrite net_forward_value; [|exact Hw2|apply row_length'|].
    2:{ destruct Hw2 as (m' & W1 & _ & _). refine (hidden_all_ext _ _ _ m' _ _ W1 _ Hs). intros i Hi. symmetry. now apply row_nth. }
    rewrite (last_z_value s r m _ z out H2 Lz El). unfold net_value. cbn [in_size hidden last round_net].
    rewrite (out_width_wf _ _ m) by (apply wf_round_hidden; auto). apply neuron_ext. intros i Hi. rewrite Vz by auto.
    apply (hidden_value_ext _ _ m); auto; [apply wf_round_hidden; auto|].
    intros j Hj. fold n in Hj. rewrite new_vars_nth, row_nth by auto. reflexivity. }
  assert (Hf := compute_factors_spec quad n).
  destruct (compute_factors quad (new_vars n)) as [E dE]. destruct Hf as (LE & HE & HdE). cbn [fst snd].
  assert (HF : eval s E = factor quad (row n s)) by (now rewrite HE, factor_value).
  assert (Lgr : length (map2 (EBin BAdd) (map (fun g => EBin BMul g E) jac) (map (fun d => EBin BMul d out) dE)) = n).
  { rewrite map2_length, !map_length. lia. }
  rewrite (eval_edot _ _ _ n Lgr Hxd). cbn [eval binop_eval].
  unfold get_all_ct, net_gradnet, V_gradV, compute_dV. cbn [snd]. fold g0. fold G. cbn [hidden round_net]. rewrite <- Hout, <- HF.
  assert (LR : length (if quad then map2 Rplus (map2 Rmult (map (fun _ => eval s out) G) (map (fun v => 2 * v) (row n s)))
                        (map (fun g => g * eval s E) G) else G) = n).
  { destruct quad; [|exact LG]. rewrite !map2_length, !map_length, row_length'. lia. }
  rewrite (Rsum_map2_below _ _ _ 0 0 n) by (auto; apply row_length'). apply sum_below_ext. intros j Hj.
  rewrite row_nth by auto. unfold field. f_equal.
  rewrite (map2_nth _ _ _ (ENum 0) (ENum 0)) by (rewrite ?map_length; lia).
  rewrite !(map_nth_lt _ _ _ (ENum 0)) by lia. cbn [eval binop_eval]. rewrite Hjac, HdE by auto.
  destruct quad.
  - rewrite (map2_nth _ _ _ 0 0) by (rewrite ?map2_length, ?map_length, ?row_length'; lia).
    rewrite (map2_nth _ _ _ 0 0) by (rewrite ?map_length, ?row_length'; lia).
    rewrite !(map_nth_lt _ _ _ 0) by (rewrite ?row_length'; lia). rewrite row_nth by auto. ring.
  - rewrite HF. cbn [factor]. ring.
Qed.

(** * C55 *)
(** A row of data with entry [j] replaced. *)
Definition with_entry (xs : list R) (j : nat) (v : R) : list R := firstn j xs ++ v :: skipn (S j) xs.
Lemma with_entry_length xs j v : (j < length xs)%nat -> length (with_entry xs j v) = length xs.
Proof. intros H. unfold with_entry. rewrite app_length, firstn_length. cbn [length]. rewrite skipn_length. lia. Qed.
Lemma with_entry_nth xs j v : (j < length xs)%nat -> nth j (with_entry xs j v) 0 = v.
Proof.
  intros H. unfold with_entry. rewrite app_nth2; rewrite firstn_length; [|lia].
  replace (j - Nat.min j (length xs))%nat with 0%nat by lia. reflexivity.
Qed.

(** [forward] of an activation, componentwise, with torch's softplus. *)
Definition torch_fun (a : act) (w j : nat) : R -> R :=
  match a with
  | ASoftplus => torch_softplus
  | AShiftedSoftplus => fun x => torch_softplus x - ln 2
  | AShiftedSoftplusSquare => fun x => (torch_softplus x - ln 2) ^ 2
  | _ => act_fun a w j
  end.
Lemma forward_torch a xs j : act_ok a -> (j < length xs)%nat ->
  nth j (forward a xs) 0 = torch_fun a (length xs) j (nth j xs 0).
Proof.
  intros Ha Hj. destruct (forward_spec a xs Ha) as [_ H].
  destruct a; try (apply H; [exact Hj|exact I]); cbn [forward torch_fun];
    now rewrite (map_nth_lt _ _ _ 0).
Qed.

Lemma torch_softplus_derive x : x <> 20 -> is_derive torch_softplus x (torch_softplus_backward x).
Proof.
  intros Hx. unfold torch_softplus_backward. destruct (Rlt_dec 20 x) as [H|H].
  - apply (is_derive_ext_loc (fun y => y)).
    + exists (mkposreal (x - 20) ltac:(lra)). intros y Hy. unfold torch_softplus.
      apply Rabs_def2 in Hy. unfold minus, plus, opp in Hy. simpl in Hy.
      destruct (Rlt_dec 20 y); [reflexivity|lra].
    + apply (is_derive_id (K := R_AbsRing)).
  - assert (x < 20) by lra. rewrite softplus_ratio.
    apply (is_derive_ext_loc softplus).
    + exists (mkposreal (20 - x) ltac:(lra)). intros y Hy. unfold torch_softplus, softplus.
      apply Rabs_def2 in Hy. unfold minus, plus, opp in Hy. simpl in Hy.
      destruct (Rlt_dec 20 y); [lra|reflexivity].
    + apply is_derive_softplus.
Qed.

(** Backpropagation through an activation multiplies by its derivative: component [j]
    of the layer, as a function of input [j], for every width. *)
Theorem C55_activation_backward :
  forall a xs j, act_ok a -> (j < length xs)%nat ->
    (a = AReLU -> nth j xs 0 <> 0) ->
    (In a [ASoftplus; AShiftedSoftplus; AShiftedSoftplusSquare] -> nth j xs 0 <> 20) ->
    is_derive (fun v => nth j (forward a (with_entry xs j v)) 0) (nth j xs 0) (nth j (act_backward a xs) 0).
Proof.
  intros a xs j Ha Hj Hk Hs.
  apply (is_derive_ext (torch_fun a (length xs) j)).
  { intros v. rewrite forward_torch by (auto; now rewrite with_entry_length).
    now rewrite with_entry_length, with_entry_nth. }
  set (x := nth j xs 0) in *.
  assert (HS : a = ASoftplus \/ a = AShiftedSoftplus \/ a = AShiftedSoftplusSquare -> is_derive torch_softplus x (torch_softplus_backward x)).
  { intros HH. apply torch_softplus_derive, Hs. simpl. destruct HH as [->|[->| ->]]; auto. }
  assert (Hgen : ~ (a = ASoftplus \/ a = AShiftedSoftplus \/ a = AShiftedSoftplusSquare) ->
            is_derive (act_fun a (length xs) j) x (nth j (act_backward a xs) 0)).
  { intros HN. clear HS.
    (* through the symbolic derivative, which C24 covers *)
    assert (Hd : exists b ds, derivative_symbolic b a (new_vars (length xs)) = Some ds).
    { exists SDREAL. apply derivative_symbolic_dreal. }
    destruct Hd as (b & ds & Hd).
    assert (Er : map (eval (fun i => nth i xs 0)) (new_vars (length xs)) = xs).
    { rewrite new_vars_row. unfold row. apply (nth_ext _ _ 0 0); [now rewrite map_length, seq_length|].
      intros i Hi. rewrite map_length, seq_length in Hi. rewrite (map_nth_lt _ _ _ 0%nat) by (now rewrite seq_length).
      now rewrite seq_nth. }
    assert (E := act_backward_eval b a (new_vars (length xs)) ds (fun i => nth i xs 0) Ha Hd). rewrite Er in E.
    destruct (derivative_symbolic_spec b a _ ds Ha Hd) as [Ld Dd]. rewrite new_vars_length in Ld, Dd.
    specialize (Dd (fun i => nth i xs 0) j Hj). rewrite new_vars_nth in Dd by auto. cbn [eval] in Dd. fold x in Dd.
    rewrite <- E.
    - rewrite (map_nth_lt _ _ _ (ENum 0)) by lia. apply Dd. destruct a; simpl; auto.
    - apply Forall_forall. intros v Hv. destruct a; simpl; auto; elim HN; auto. }
  destruct a; try (apply Hgen; intros [Q|[Q|Q]]; discriminate); clear Hgen; cbn [torch_fun act_backward];
    rewrite (map_nth_lt _ _ _ 0) by auto; fold x.
  - apply HS. auto.
  - replace (torch_softplus_backward x) with (minus (torch_softplus_backward x) 0) by (unfold minus, plus, opp; simpl; ring).
    apply (is_derive_minus torch_softplus (fun _ => ln 2)); [apply HS; auto|].
    apply (is_derive_const (K := R_AbsRing) (V := R_NormedModule)).
  - assert (D : is_derive (fun y => torch_softplus y - ln 2) x (torch_softplus_backward x)).
    { replace (torch_softplus_backward x) with (minus (torch_softplus_backward x) 0) by (unfold minus, plus, opp; simpl; ring).
      apply (is_derive_minus torch_softplus (fun _ => ln 2)); [apply HS; auto|].
      apply (is_derive_const (K := R_AbsRing) (V := R_NormedModule)). }
    rewrite pow_backward_eval.
    apply (is_derive_comp_R (fun y => torch_softplus y - ln 2) (fun y => y ^ 2)); [|exact D].
    apply is_derive_powr.
Qed.

(** Continuous time: at every sample the value and the derivative that training sees are
    those of the formulas handed to the verifier (including at the kinks of ReLU); with
    rounding, those of a network within half a unit of the last kept decimal. *)
Theorem C55_learner_agrees :
  forall b simp r quad net xdot V Vdot,
    b <> SCVC5 -> wf_net net -> length xdot = in_size net ->
    translate_ct b simp r quad net (new_vars (in_size net)) xdot = Some (V, Vdot) ->
    exists net', ((r < 0)%Z -> net' = net) /\
      ((0 <= r)%Z -> close_net (1/2 * / 10 ^ Z.to_nat r) net' net) /\
      forall s, softplus_ok net' s ->
        get_all_ct quad net' (row (in_size net) s) (row (in_size net) (field xdot s)) = (eval s V, eval s Vdot).
Proof.
  intros b simp r quad net xdot V Vdot Hb Hw Hx H. exists (round_net r net).
  split; [apply round_net_exact|]. split; [apply round_net_close|]. intros s Hs.
  assert (E1 := learner_derivative b simp r quad net xdot V Vdot s Hb Hw Hx H Hs).
  assert (E2 : fst (get_all_ct quad (round_net r net) (row (in_size net) s) (row (in_size net) (field xdot s))) = eval s V).
  { rewrite get_all_ct_value, (translate_ct_value b simp r quad net xdot V Vdot Hb Hw H).
    apply (learner_value_spec quad (round_net r net) s); auto. now apply wf_round_net. }
  destruct (get_all_ct quad (round_net r net) (row (in_size net) s) (row (in_size net) (field xdot s))) as [v vd].
  cbn [fst snd] in E1, E2. now subst.
Qed.

(** The gradient handed to the losses is the gradient of the certificate function. *)
Theorem C55_gradient :
  forall quad net s j, wf_net net -> softplus_ok net s -> kink_free net s -> (j < in_size net)%nat ->
    length (learner_grad quad net (row (in_size net) s)) = in_size net /\
    is_derive (fun u => cert_value quad net (fun i => if (i =? j)%nat then u else s i)) (s j)
      (nth j (learner_grad quad net (row (in_size net) s)) 0).
Proof.
  intros quad net s j Hw Hs Hk Hj. set (n := in_size net).
  assert (HL : length (learner_grad quad net (row n s)) = n).
  { destruct Hw as (m & H1 & H2 & H3). unfold learner_grad, net_gradnet, V_gradV. cbn [snd].
    assert (LG : length (hidden_backward (hidden net) (row n s) (map Q2R (nth 0 (weight (last net)) []))) = n).
    { apply (hidden_backward_length _ _ m); auto using row_length'. rewrite map_length.
      destruct H2 as [H2 _]. apply row_length; auto. lia. }
    destruct quad; [|exact LG]. rewrite !map2_length, !map_length, row_length'. lia. }
  split; [exact HL|].
  set (ej := map (fun i => if (i =? j)%nat then ENum 1 else ENum 0) (seq 0 n)).
  assert (Le : length ej = n) by (unfold ej; now rewrite map_length, seq_length).
  assert (Fe : forall p i, (i < n)%nat -> field ej p i = if (i =? j)%nat then 1 else 0).
  { intros p i Hi. unfold field, ej. rewrite (map_nth_lt _ _ _ 0%nat) by (now rewrite seq_length).
    rewrite seq_nth by auto. cbn [Nat.add]. destruct (i =? j)%nat; [apply Q2R_1|apply Q2R_0]. }
  destruct (C21_dreal_always_translates (fun e => e) (-1)%Z quad net ej Hw) as (V & Vdot & HT). fold n in HT.
  assert (Hr := round_net_exact (-1)%Z net ltac:(lia)).
  set (x := fun u i => if (i =? j)%nat then u else s i).
  assert (Ex : forall i, x (s j) i = s i).
  { intros i. unfold x. destruct (Nat.eqb_spec i j) as [->|]; reflexivity. }
  assert (Hwm := Hw). destruct Hwm as (m & W1 & _ & _).
  assert (Hk' : kink_free net (x (s j))).
  { refine (hidden_all_ext _ _ _ m _ _ W1 _ Hk). intros i Hi. now rewrite Ex. }
  assert (Hs' : softplus_ok net (x (s j))).
  { refine (hidden_all_ext _ _ _ m _ _ W1 _ Hs). intros i Hi. now rewrite Ex. }
  assert (D := translate_ct_derivative SDREAL (fun e => e) (-1)%Z quad net ej V Vdot ltac:(discriminate) Hw Le HT
                 x (s j)).
  rewrite Hr in D.
  assert (D' : is_derive (fun u => eval (x u) V) (s j) (eval (x (s j)) Vdot)).
  { apply D; [|exact Hk']. intros i Hi. fold n in Hi. rewrite Fe by auto. unfold x. destruct (Nat.eqb_spec i j) as [->|].
    - apply (is_derive_id (K := R_AbsRing)).
    - apply (is_derive_const (K := R_AbsRing) (V := R_NormedModule)). }
  assert (E := learner_derivative SDREAL (fun e => e) (-1)%Z quad net ej V Vdot (x (s j)) ltac:(discriminate) Hw Le HT).
  rewrite Hr in E. specialize (E Hs'). fold n in E.
  assert (Erow : row n (x (s j)) = row n s) by (apply map_ext; intros i; apply Ex).
  rewrite Erow in E.
  assert (Eg : snd (get_all_ct quad net (row n s) (row n (field ej (x (s j))))) =
               nth j (learner_grad quad net (row n s)) 0).
  { unfold get_all_ct, learner_grad in *. destruct (net_gradnet net (row n s)) as [nn g].
    destruct (V_gradV quad nn g (row n s)) as [W gV]. cbn [snd] in *. unfold compute_dV.
    rewrite (Rsum_map2_below _ _ _ 0 0 n) by (auto using row_length').
    rewrite (sum_below_ext n _ (fun i => (if (j =? i)%nat then 1 else 0) * nth i gV 0)).
    - now apply sum_below_delta.
    - intros i Hi. rewrite row_nth, Fe by auto. rewrite Nat.eqb_sym. ring. }
  rewrite <- Eg, E.
  apply (is_derive_ext (fun u => eval (x u) V)); [|exact D'].
  intros u. rewrite (translate_ct_value SDREAL (fun e => e) (-1)%Z quad net ej V Vdot ltac:(discriminate) Hw HT).
  now rewrite Hr.
Qed.

(** Discrete time: value and one-step difference. *)
Theorem C55_learner_agrees_discrete :
  forall b r net xdot V dV,
    wf_net net -> length xdot = in_size net ->
    translate_dt b r false net (new_vars (in_size net)) xdot = Some (V, dV) ->
    exists net', ((r < 0)%Z -> net' = net) /\
      ((0 <= r)%Z -> close_net (1/2 * / 10 ^ Z.to_nat r) net' net) /\
      forall s, softplus_ok net' s -> softplus_ok net' (field xdot s) ->
        get_all_dt false net' (row (in_size net) s) (row (in_size net) (field xdot s)) = (eval s V, eval s dV).
Proof.
  intros b r net xdot V dV Hw Hx H. exists (round_net r net).
  split; [apply round_net_exact|]. split; [apply round_net_close|]. intros s Hs Hs'.
  assert (Hw' := wf_round_net r net Hw).
  destruct (translate_dt_value b r net xdot V dV Hw Hx H s) as [E1 E2].
  assert (Hf : forall p, softplus_ok (round_net r net) p ->
            net_forward (round_net r net) (row (in_size net) p) = net_value (round_net r net) p).
  { intros p Hp. assert (E := learner_value_spec false (round_net r net) p Hw' Hp).
    unfold learner_value, cert_value in E. cbn [factor in_size round_net] in E. rewrite !Rmult_1_r in E. exact E. }
  unfold get_all_dt. rewrite !Hf by auto. now rewrite E1, E2.
Qed.

(** Training stops exactly when the formulas to be verified hold at every sample. *)
Lemma row_state_of n (x : list R) : length x = n -> row n (state_of x) = x.
Proof.
  intros H. apply (nth_ext _ _ 0 0); [now rewrite row_length'|]. intros i Hi. rewrite row_length' in Hi.
  now rewrite row_nth.
Qed.

Theorem C55_lyapunov_training :
  forall b simp r quad net xdot V Vdot act llo f_torch (S Sdot : dict) sd,
    b <> SCVC5 -> wf_net net -> length xdot = in_size net -> (r < 0)%Z ->
    translate_ct b simp r quad net (new_vars (in_size net)) xdot = Some (V, Vdot) ->
    images_of (fun x => row (in_size net) (field xdot (state_of x))) f_torch S Sdot ->
    dlookup XD S = Some sd -> sd <> [] ->
    (forall x, In x sd -> length x = in_size net /\ softplus_ok net (state_of x)) ->
    exists ok,
      option_bind (lyapunov_batch (learner_value quad net) (fun x xd => snd (get_all_ct quad net x xd)) f_torch S Sdot)
                  (lyapunov_ok act llo) = Some ok /\
      (ok = true <-> forall x, In x sd -> eval (state_of x) Vdot <= 0 /\ (llo = false -> 0 <= eval (state_of x) V)).
Proof.
  intros b simp r quad net xdot V Vdot act llo ft S Sdot sd Hb Hw Hx Hr H Hf Hd Hne Hall.
  rewrite (C40_lyapunov_roa _ _ (fun x => row (in_size net) (field xdot (state_of x))) ft S Sdot sd Hf Hd).
  cbn [option_bind]. unfold lyapunov_ok. cbn [fst snd].
  assert (EV : @map point R (learner_value quad net) sd = map (fun x => eval (state_of x) V) sd /\
    @map point R (fun x => snd (get_all_ct quad net x (row (in_size net) (field xdot (state_of x))))) sd =
    map (fun x => eval (state_of x) Vdot) sd).
  { destruct (C55_learner_agrees b simp r quad net xdot V Vdot Hb Hw Hx H) as (net' & E & _ & Ha).
    rewrite (E Hr) in Ha. clear net' E. split; apply map_ext_in; intros x Hin; destruct (Hall x Hin) as [Lx Sx];
      specialize (Ha (state_of x) Sx); rewrite (row_state_of _ x Lx) in Ha.
    - assert (G := f_equal fst Ha). rewrite get_all_ct_value in G. exact G.
    - now rewrite Ha. }
  destruct EV as [-> ->].
  destruct (C41_lyapunov_roa act llo (map (fun x => eval (state_of x) V) sd) (map (fun x => eval (state_of x) Vdot) sd))
    as (loss & acc & E & _ & Hacc).
  { now rewrite !map_length. }
  { destruct sd; [contradiction|discriminate]. }
  rewrite E. cbn [option_map]. exists (is100 acc). split; [reflexivity|].
  assert (Hi : is100 acc = true <-> acc = 100) by (unfold is100; destruct (Req_EM_T acc 100); split; auto; discriminate).
  rewrite Hi, Hacc, !Forall_map, !Forall_forall. split.
  - intros [A B] x Hin. split; [now apply A|]. intros Hl. now apply B.
  - intros A. split; [intros x Hin; now apply A|]. intros Hl x Hin. now apply A.
Qed.

(** ** Violations *)
(** One square neuron on one input: the network x^2. *)
Definition sq_net : network :=
  {| in_size := 1; hidden := [({| weight := [[1]]%Q; bias := None |}, ASquare)];
     last := {| weight := [[1]]%Q; bias := None |} |}.
Lemma sq_wf : wf_net sq_net.
Proof. exists 1%nat. simpl. unfold wf_layer. simpl. repeat split; auto; discriminate. Qed.
Lemma sq_forward x : net_forward sq_net [x] = x ^ 2.
Proof.
  unfold net_forward, sq_net. cbn -[Q2R pow]. rewrite ?Q2R_0, ?Q2R_1. ring.
Qed.

(** LearnerDT computes the quadratic factor and drops it: with FACTORS = QUADRATIC a
    discrete-time run trains x^2 but verifies x^4. *)
Theorem C55_discrete_factor_refuted :
  exists net xdot V dV s, wf_net net /\ smooth_net net /\
    translate_dt SDREAL (-1) true net (new_vars (in_size net)) xdot = Some (V, dV) /\
    fst (get_all_dt true net (row (in_size net) s) (row (in_size net) (field xdot s))) = 4 /\ eval s V = 16 /\
    (* the sample passes the training test and fails the condition being verified *)
    snd (get_all_dt true net (row (in_size net) s) (row (in_size net) (field xdot s))) = 32 /\ eval s dV = 20.
Proof.
  exists sq_net, [ENum 3 * EVar 0]%E. eexists. eexists. exists (fun _ => 2).
  split; [exact sq_wf|]. split; [repeat constructor; discriminate|]. split; [reflexivity|].
  assert (E3 : Q2R 3 = 3) by (unfold Q2R; simpl; lra).
  unfold get_all_dt, row, field. cbn [in_size sq_net seq map nth eval binop_eval fst snd]. rewrite E3, !sq_forward.
  cbn. rewrite ?Q2R_0, ?Q2R_1, ?E3. repeat split; lra.
Qed.

(** Two-certificate runs never pass the factor to the translator (translator.py:278-284,
    no state entry 'factors'): with FACTORS = QUADRATIC they train x^4 and verify x^2. *)
Theorem C55_double_factor_refuted :
  exists net xdot V Vdot s, wf_net net /\ smooth_net net /\
    translate_ct SDREAL (fun e => e) (-1) false net (new_vars (in_size net)) xdot = Some (V, Vdot) /\
    get_all_ct true net (row (in_size net) s) (row (in_size net) (field xdot s)) = (16, 32) /\
    eval s V = 4 /\ eval s Vdot = 4.
Proof.
  exists sq_net, [ENum 1]%E. eexists. eexists. exists (fun _ => 2).
  split; [exact sq_wf|]. split; [repeat constructor; discriminate|]. split; [reflexivity|].
  assert (E2 : Q2R 2 = 2) by (unfold Q2R; simpl; lra).
  unfold get_all_ct, net_gradnet, V_gradV, compute_dV, factor, row, field.
  cbn [in_size sq_net seq map nth eval binop_eval fst snd]. rewrite sq_forward.
  cbn. rewrite ?Q2R_0, ?Q2R_1, ?E2. repeat split; [f_equal|..]; lra.
Qed.

(** Beyond torch's softplus threshold training differentiates another function. *)
Definition sp_net : network :=
  {| in_size := 1; hidden := [({| weight := [[1]]%Q; bias := None |}, ASoftplus)];
     last := {| weight := [[1]]%Q; bias := None |} |}.
Theorem C55_softplus_refuted :
  exists net xdot V Vdot s, wf_net net /\ smooth_net net /\
    translate_ct SDREAL (fun e => e) (-1) false net (new_vars (in_size net)) xdot = Some (V, Vdot) /\
    snd (get_all_ct false net (row (in_size net) s) (row (in_size net) (field xdot s))) = 1 /\ eval s Vdot < 1.
Proof.
  exists sp_net, [ENum 1]%E. eexists. eexists. exists (fun _ => 21).
  split; [exists 1%nat; simpl; unfold wf_layer; simpl; repeat split; auto; discriminate|].
  split; [repeat constructor; discriminate|]. split; [reflexivity|].
  unfold get_all_ct, net_gradnet, V_gradV, compute_dV, row, field, affine.
  cbn. rewrite ?Q2R_0, ?Q2R_1. unfold torch_softplus_backward. split.
  - destruct (Rlt_dec 20 (1 * 21 + 0 + 0)) as [L|L]; [lra|]. elim L. lra.
  - set (y := - _). assert (Hp := exp_pos y).
    assert (1 / (1 + exp y) < 1); [|lra]. apply (Rmult_lt_reg_r (1 + exp y)); [lra|]. unfold Rdiv.
    rewrite Rmult_assoc, Rinv_l by lra. lra.
Qed.

(** The demonstration network of C22 meets the hypotheses, with a quadratic factor. *)
Example C55_example :
  wf_net demo_net /\ (forall s, softplus_ok demo_net s) /\ (forall s, kink_free demo_net s) /\
  exists V Vdot, translate_ct SDREAL (fun e => e) (-1) true demo_net (new_vars 2) [EVar 1; EUn UNeg (EVar 0)] = Some (V, Vdot) /\
    forall s, get_all_ct true demo_net [s 0%nat; s 1%nat] [s 1%nat; - s 0%nat] = (eval s V, eval s Vdot).
Proof.
  split; [exact demo_wf|].
  assert (H1 : forall s, softplus_ok demo_net s) by (intros s; repeat split).
  split; [exact H1|]. split.
  { intros s. apply smooth_kink_free. repeat constructor; discriminate. }
  eexists. eexists. split; [reflexivity|]. intros s.
  match goal with |- _ = (eval s ?V, eval s ?W) =>
    destruct (C55_learner_agrees SDREAL (fun e => e) (-1) true demo_net [EVar 1; EUn UNeg (EVar 0)] V W
      ltac:(discriminate) demo_wf eq_refl eq_refl) as (net' & E & _ & Ha) end.
  rewrite (E ltac:(lia)) in Ha. exact (Ha s (H1 s)).
Qed.
