(** Lemmas about training and about the last layers of a network. *)
From Coquelicot Require Import Coquelicot.
From Coq Require Import Reals QArith Qabs Qreals List Bool Arith ZArith Lra Lia.
From Verif Require Import M_Syntax M_Activations M_Domains M_Network M_Learner S_Activations S_Domains S_Network
  S_Learner S_Dynamics L_Holds L_Domains L_Activations L_Network P_Certificates P_Activations P_Translator.
Import ListNotations.
Local Open Scope R_scope.

(** ** Shapes *)
Lemma same_shape_refl n : same_shape n n.
Proof. repeat split; auto. Qed.
Lemma same_shape_trans a b c : same_shape a b -> same_shape b c -> same_shape a c.
Proof. intros (A & B & C & D) (A' & B' & C' & D'). repeat split; congruence. Qed.
Lemma same_shape_sym a b : same_shape a b -> same_shape b a.
Proof. intros (A & B & C & D). repeat split; congruence. Qed.

Lemma Forall_length_map n (l l' : list (list Q)) :
  map (@length Q) l = map (@length Q) l' -> Forall (fun r => length r = n) l -> Forall (fun r => length r = n) l'.
Proof.
  revert l'. induction l as [|a l IH]; intros [|b l'] E H; simpl in E; try discriminate; constructor.
  - injection E as E1 E2. inversion H. congruence.
  - injection E as E1 E2. inversion H. now apply IH.
Qed.
Lemma same_layer_wf n l l' :
  map (@length Q) (weight l) = map (@length Q) (weight l') ->
  option_map (@length Q) (bias l) = option_map (@length Q) (bias l') ->
  wf_layer n l -> wf_layer n l'.
Proof.
  intros E1 E2 [H1 H2]. split; [now apply (Forall_length_map n (weight l))|].
  intros b Hb. rewrite Hb in E2. destruct (bias l) as [b0|] eqn:Eb; [|discriminate].
  simpl in E2. injection E2 as E2. apply (f_equal (@length _)) in E1. rewrite !map_length in E1.
  rewrite <- E2, <- E1. now apply H2.
Qed.
Lemma same_shape_wf a b : same_shape a b -> wf_net a -> wf_net b.
Proof.
  intros (E1 & E2 & E3 & E4) (m & H1 & H2 & H3). exists m. split; [|split].
  - rewrite <- E1. clear E1 E3 E4 H2 H3. revert E2 H1. generalize (in_size a). generalize (hidden b).
    induction (hidden a) as [|[l act0] hs IH]; intros [|[l' a'] hs'] n E H; simpl in *; try discriminate; auto.
    injection E as Ew Eb Ea E. destruct H as (W1 & W2 & W3). split; [now apply (same_layer_wf n l)|].
    split; [congruence|]. apply (f_equal (@length _)) in Ew. rewrite !map_length in Ew. rewrite <- Ew. now apply IH.
  - now apply (same_layer_wf m (last a)).
  - apply (f_equal (@length _)) in E3. rewrite !map_length in E3. lia.
Qed.
Lemma same_shape_final a b : same_shape a b -> final_act a = final_act b.
Proof.
  intros (_ & E & _ & _). unfold final_act.
  assert (E' : map snd (rev (hidden a)) = map snd (rev (hidden b))).
  { rewrite !map_rev. f_equal. apply (f_equal (map snd)) in E. rewrite !map_map in E. exact E. }
  destruct (rev (hidden a)) as [|[l x] ?], (rev (hidden b)) as [|[l' x'] ?]; simpl in *; try discriminate; auto.
  congruence.
Qed.
Lemma same_shape_take_abs llo a b : same_shape a b -> take_abs llo a = take_abs llo b.
Proof. intros H. unfold take_abs, is_final_polynomial. now rewrite (same_shape_final a b H). Qed.
Lemma same_shape_bias a b : same_shape a b -> bias (last a) = None -> bias (last b) = None.
Proof. intros (_ & _ & _ & E) H. rewrite H in E. now destruct (bias (last b)). Qed.

Lemma map_map_length {A B} (f : A -> B) (m : list (list A)) : map (@length B) (map (map f) m) = map (@length A) m.
Proof. rewrite map_map. apply map_ext. intros l. apply map_length. Qed.
Lemma set_last_shape net f : same_shape net (set_last_weight net (map (map f) (weight (last net)))).
Proof. repeat split; simpl; auto. symmetry. apply map_map_length. Qed.

Definition nonneg_last (net : network) : Prop := Forall (Forall (fun q => 0 <= Q2R q)) (weight (last net)).

Lemma abs_nonneg net : nonneg_last (make_final_layer_positive net).
Proof.
  unfold nonneg_last, make_final_layer_positive. simpl. apply Forall_map. apply Forall_forall. intros r _.
  apply Forall_map. apply Forall_forall. intros q _.
  rewrite <- Q2R_0. apply Qle_Rle. apply Qabs_nonneg.
Qed.
Lemma ones_nonneg net : nonneg_last (set_last_weight net (map (map (fun _ => 1%Q)) (weight (last net)))).
Proof.
  unfold nonneg_last. simpl. apply Forall_map. apply Forall_forall. intros r _.
  apply Forall_map. apply Forall_forall. intros q _. rewrite Q2R_1. lra.
Qed.

(** ** Training *)
Lemma learn_loop_shape llo abs perfect step loops : forall t net,
  optimiser llo step -> same_shape net (learn_loop abs perfect step t loops net).
Proof.
  induction loops as [|k IH]; intros t net Ho; simpl; [apply same_shape_refl|].
  destruct (perfect t net && _); [apply same_shape_refl|].
  eapply same_shape_trans; [apply (Ho t net)|].
  eapply same_shape_trans; [|apply IH, Ho].
  destruct abs; [apply set_last_shape|apply same_shape_refl].
Qed.
Lemma learn_loop_abs llo perfect step loops : forall t net,
  optimiser llo step -> nonneg_last net -> nonneg_last (learn_loop true perfect step t loops net).
Proof.
  induction loops as [|k IH]; intros t net Ho H; simpl; auto.
  destruct (perfect t net && _); auto. apply IH; auto. apply abs_nonneg.
Qed.
Lemma learn_loop_fixed llo perfect step loops : forall t net,
  optimiser llo step -> last_registered llo net = false ->
  weight (last (learn_loop false perfect step t loops net)) = weight (last net).
Proof.
  induction loops as [|k IH]; intros t net Ho H; simpl; auto.
  destruct (perfect t net && _); auto. destruct (Ho t net) as [Hs Hf].
  rewrite IH; auto. unfold last_registered in *. now rewrite <- (same_shape_take_abs llo net).
Qed.

Lemma learn_shape llo ps net : optimiser llo (snd ps) -> same_shape net (learn llo (fst ps) (snd ps) net).
Proof. intros H. now apply (learn_loop_shape llo). Qed.

Lemma learning_loops_S : exists k, learning_loops = S k.
Proof. now exists 999%nat. Qed.
Global Opaque learning_loops.
Lemma learn_loop_first llo perfect step k net :
  optimiser llo step -> nonneg_last (learn_loop true perfect step 0 (S k) net).
Proof.
  intros Ho. simpl. rewrite andb_false_r. apply (learn_loop_abs llo); auto. apply abs_nonneg.
Qed.

(** After one call of [learn] under LLO the output weights are non-negative. *)
Lemma learn_nonneg ps net : optimiser true (snd ps) ->
  (take_abs true net = false -> nonneg_last net) -> nonneg_last (learn true (fst ps) (snd ps) net).
Proof.
  intros Ho Hn. unfold learn. destruct (take_abs true net) eqn:E.
  - destruct learning_loops_S as [k ->]. apply (learn_loop_first true _ _ k net Ho).
  - unfold nonneg_last. rewrite (learn_loop_fixed true); auto.
    + now apply Hn.
    + unfold last_registered. now rewrite E.
Qed.
Lemma fold_left_cons {A B} (f : A -> B -> A) b l a : fold_left f (b :: l) a = fold_left f l (f a b).
Proof. reflexivity. Qed.
Lemma train_cons llo ps h net : train llo (ps :: h) net = train llo h (learn llo (fst ps) (snd ps) net).
Proof. unfold train. rewrite fold_left_cons. reflexivity. Qed.
Lemma train_shape llo h : forall net, Forall (fun ps => optimiser llo (snd ps)) h ->
  same_shape net (train llo h net).
Proof.
  induction h as [|ps h IH]; intros net H; [apply same_shape_refl|].
  apply Forall_cons_iff in H. destruct H as [H1 H2]. rewrite train_cons.
  eapply same_shape_trans; [now apply (learn_shape llo ps)|]. now apply IH.
Qed.
Lemma train_nonneg h : forall net, h <> [] -> Forall (fun ps => optimiser true (snd ps)) h ->
  (take_abs true net = false -> nonneg_last net) -> nonneg_last (train true h net).
Proof.
  induction h as [|ps h IH]; intros net Hh H Hn; [now elim Hh|].
  apply Forall_cons_iff in H. destruct H as [H1 H2]. rewrite train_cons.
  assert (Hp := learn_nonneg ps net H1 Hn).
  destruct h as [|ps' h]; [exact Hp|]. apply IH; auto. discriminate.
Qed.
Lemma init_shape llo random : same_shape random (init_learner llo random).
Proof. unfold init_learner. destruct (_ && _); [apply set_last_shape|apply same_shape_refl]. Qed.
Lemma init_ones random : take_abs true random = false -> nonneg_last (init_learner true random).
Proof. intros H. unfold init_learner. rewrite H. simpl. apply ones_nonneg. Qed.

(** ** The last hidden layer *)
Lemma final_act_snoc net a : final_act net = Some a ->
  exists hs l, hidden net = hs ++ [(l, a)].
Proof.
  unfold final_act. intros H. destruct (rev (hidden net)) as [|[l x] r] eqn:E; [discriminate|].
  injection H as ->. exists (rev r), l. rewrite <- (rev_involutive (hidden net)), E. reflexivity.
Qed.
Lemma wf_hidden_app hs hs' : forall n m, wf_hidden n (hs ++ hs') m ->
  exists k, wf_hidden n hs k /\ wf_hidden k hs' m.
Proof.
  induction hs as [|[l a] hs IH]; intros n m H; simpl in *; [exists n; auto|].
  destruct H as (A & B & C). destruct (IH _ _ C) as (k & K1 & K2). exists k. auto.
Qed.
Lemma hidden_value_app hs hs' : forall n m y, wf_hidden n hs m ->
  hidden_value n (hs ++ hs') y = hidden_value m hs' (hidden_value n hs y).
Proof.
  induction hs as [|[l a] hs IH]; intros n m y H; simpl in *; [subst; reflexivity|]. now apply IH.
Qed.

Lemma pd_act_nonneg a w i v : pd_act a = true -> 0 <= act_fun a w i v.
Proof.
  intros H. destruct a; simpl in H; try discriminate; simpl.
  - apply Rmax_l.
  - nra.
  - nra.
  - unfold sigmoid. left. apply Rinv_0_lt_compat. assert (P := exp_pos (- v)). lra.
  - unfold softplus. assert (P := exp_pos v). rewrite <- ln_1. left. apply ln_increasing; lra.
  - set (u := softplus v - ln 2). nra.
  - unfold cosh. assert (P := exp_pos v). rewrite exp_Ropp.
    assert (E : exp v * / exp v = 1) by (field; lra).
    assert (Hi : 0 < / exp v) by now apply Rinv_0_lt_compat.
    assert (Q : 0 <= (exp v - 1) ^ 2 * / exp v) by (apply Rmult_le_pos; [apply pow2_ge_0|lra]).
    replace ((exp v - 1) ^ 2 * / exp v) with (exp v * (exp v * / exp v) - 2 * (exp v * / exp v) + / exp v) in Q by ring.
    rewrite E in Q. lra.
  - set (k := block n w i). replace (k + (k + 0))%nat with (2 * k)%nat by lia. rewrite pow_mult. apply pow_le. nra.
Qed.

Lemma net_value_nonneg net a x :
  wf_net net -> final_act net = Some a -> pd_act a = true -> bias (last net) = None -> nonneg_last net ->
  0 <= net_value net x.
Proof.
  intros (m & H1 & H2 & H3) Ha Hp Hb Hn. unfold net_value, neuron, bias_of. rewrite Hb, Rplus_0_r.
  rewrite (out_width_wf _ _ m) by auto. apply sum_below_nonneg. intros k Hk.
  apply Rmult_le_pos.
  - unfold weight_of. destruct H2 as [H2 _]. unfold nonneg_last in Hn.
    destruct (weight (last net)) as [|r rs]; simpl in H3; [discriminate|].
    apply Forall_cons_iff in Hn. destruct Hn as [Hn _]. apply Forall_cons_iff in H2. destruct H2 as [H2 _].
    simpl. rewrite Forall_forall in Hn. apply Hn. apply nth_In. lia.
  - destruct (final_act_snoc net a Ha) as (hs & l & E). rewrite E in *.
    destruct (wf_hidden_app _ _ _ _ H1) as (k' & K1 & K2). rewrite (hidden_value_app _ _ _ k') by auto.
    simpl. now apply pd_act_nonneg.
Qed.

Lemma round_nonneg_last r net : nonneg_last net -> nonneg_last (round_net r net).
Proof.
  unfold nonneg_last. simpl. intros H. unfold round_mat. apply Forall_map. eapply Forall_impl; [|exact H].
  intros row Hr. apply Forall_map. eapply Forall_impl; [|exact Hr]. intros q. apply round_num_nonneg.
Qed.
Lemma final_act_round r net : final_act (round_net r net) = final_act net.
Proof.
  unfold final_act, round_net. simpl. rewrite <- map_rev. destruct (rev (hidden net)) as [|[l a] ?]; reflexivity.
Qed.
Lemma sum_squares_nonneg n (x : nat -> R) : 0 <= sum_below n (fun i => x i * x i).
Proof. apply sum_below_nonneg. intros. nra. Qed.
Lemma sum_squares_zero n (x : nat -> R) : sum_below n (fun i => x i * x i) = 0 -> forall i, (i < n)%nat -> x i = 0.
Proof.
  induction n as [|n IH]; intros H i Hi; [lia|]. simpl in H. assert (P := sum_squares_nonneg n x).
  assert (x n * x n = 0) by nra. assert (sum_below n (fun i => x i * x i) = 0) by nra.
  destruct (Nat.eq_dec i n) as [->|]; [nra|]. apply IH; auto. lia.
Qed.

(** ** Where the output vanishes so does the symbolic gradient *)
Lemma until_last_ct_snoc b r n hs l a : forall z J z' J',
  until_last_ct b r n (hs ++ [(l, a)]) z J = Some (z', J') ->
  exists z0 J0 d, until_last_ct b r n hs z J = Some (z0, J0) /\
    forward_symbolic b a (zhat r l z0) = Some z' /\ derivative_symbolic b a (zhat r l z0) = Some d /\
    J' = ematmul n (diagflat d) (ematmul n (enum (round_mat r (weight l))) J0).
Proof.
  induction hs as [|[l0 a0] hs IH]; intros z J z' J' H; cbn [app until_last_ct] in *.
  - destruct (forward_symbolic b a (zhat r l z)) as [zf|] eqn:Ef; cbn [option_bind] in H; [|discriminate].
    destruct (derivative_symbolic b a (zhat r l z)) as [d|] eqn:Ed; cbn [option_bind] in H; [|discriminate].
    apply Some_eq' in H. apply pair_equal_spec in H. destruct H as [-> ->].
    exists z, J, d. auto.
  - destruct (forward_symbolic b a0 (zhat r l0 z)) as [zf|] eqn:Ef; cbn [option_bind] in H |- *; [|discriminate].
    destruct (derivative_symbolic b a0 (zhat r l0 z)) as [d|] eqn:Ed; cbn [option_bind] in H |- *; [|discriminate].
    now apply IH.
Qed.

Lemma pow_zero_base v k : v ^ k = 0 -> v = 0.
Proof. intros H. destruct (Req_dec v 0) as [E|E]; auto. exfalso. now apply (pow_nonzero v k E). Qed.

(** For each activation allowed under LLO: value zero implies (symbolic) slope zero. *)
Lemma pd_act_flat b a xs ds s i :
  act_ok a -> pd_act a = true -> derivative_symbolic b a xs = Some ds -> (i < length xs)%nat ->
  act_fun a (length xs) i (eval s (nth i xs (ENum 0))) = 0 -> eval s (nth i ds (ENum 0)) = 0.
Proof.
  intros Hok Hp Hd Hi H0.
  assert (E2 : Q2R 2 = 2) by (unfold Q2R; simpl; lra).
  assert (Eh : Q2R (1#2) = 1/2) by (unfold Q2R; simpl; lra).
  destruct a; simpl in Hp; try discriminate; cbn [derivative_symbolic act_ok] in *.
  - apply app_all_inv in Hd. destruct Hd as (g & Hg & ->). rewrite (map_nth_lt _ _ _ (ENum 0)) by auto.
    rewrite (fn_ifpos_eval b g) by auto. cbn [act_fun] in H0.
    destruct (Rlt_dec 0 _) as [Hlt|]; auto. rewrite Rmax_right in H0 by lra. lra.
  - apply Some_eq' in Hd. subst ds. rewrite (map_nth_lt _ _ _ (ENum 0)) by auto. cbn [act_fun] in H0.
    apply pow_zero_base in H0. cbn [eval binop_eval]. rewrite H0. ring.
  - destruct (fn_tanh b) as [g|] eqn:Eg; cbn [option_bind] in Hd; [|discriminate]. apply Some_eq' in Hd. subst ds.
    rewrite (map_nth_lt _ _ _ (ENum 0)) by auto. cbn [eval binop_eval e1]. rewrite (fn_tanh_eval b g) by auto.
    cbn [act_fun] in H0. apply pow_zero_base in H0. rewrite H0. ring.
  - exfalso. cbn [act_fun] in H0. unfold sigmoid in H0.
    assert (P := exp_pos (- eval s (nth i xs (ENum 0)))). apply Rinv_neq_0_compat in H0; lra.
  - exfalso. cbn [act_fun] in H0. unfold softplus in H0. assert (P := exp_pos (eval s (nth i xs (ENum 0)))).
    assert (0 < ln (1 + exp (eval s (nth i xs (ENum 0))))); [|lra]. rewrite <- ln_1. apply ln_increasing; lra.
  - apply app_all_inv in Hd. destruct Hd as (g & Hg & ->). apply dreal_only_inv in Hg. subst g.
    rewrite (map_nth_lt _ _ _ (ENum 0)) by auto. cbn [eval binop_eval unop_eval e1 eexp elog].
    rewrite Q2R_1, E2, Eh. cbn [act_fun] in H0. apply pow_zero_base in H0. unfold softplus in H0.
    set (v := eval s _) in *. assert (P := exp_pos v).
    assert (E : ln (1/2 * (1 + exp v)) = 0).
    { rewrite ln_mult by lra. replace (1/2) with (/2) by lra. rewrite ln_Rinv by lra. lra. }
    rewrite E. unfold Rdiv. ring.
  - apply app_all_inv in Hd. destruct Hd as (g & Hg & ->). apply dreal_only_inv in Hg. subst g.
    rewrite (map_nth_lt _ _ _ (ENum 0)) by auto. cbn [eval unop_eval]. cbn [act_fun] in H0.
    set (v := eval s _) in *. unfold cosh in H0. unfold sinh. assert (P := exp_pos v).
    rewrite exp_Ropp in *. assert (E : exp v * / exp v = 1) by (field; lra).
    assert (exp v = 1).
    { assert (Q : (exp v - 1) * (exp v - 1) = 0); [|nra].
      replace ((exp v - 1) * (exp v - 1)) with (exp v * (exp v + / exp v - 2) + (1 - exp v * / exp v)) by ring.
      rewrite E. replace (exp v + / exp v - 2) with 0 by lra. ring. }
    rewrite H. lra.
  - apply Some_eq' in Hd. subst ds. rewrite (by_part_nth _ _ _ _ (ENum 0)) by lia.
    cbn [act_fun] in H0. destruct (block n (length xs) i) as [|k].
    + simpl. rewrite Q2R_0. ring.
    + apply pow_zero_base in H0. cbn [eval binop_eval]. rewrite H0, pow_i by lia. ring.
Qed.
