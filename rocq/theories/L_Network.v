(** Lemmas about networks and their symbolic translation. *)
From Coquelicot Require Import Coquelicot.
From Coq Require Import Reals QArith Qround Qreals List Bool Arith ZArith Lra Lia.
From Verif Require Import M_Syntax M_Activations M_Domains M_Network S_Activations S_Domains S_Network
  S_Dynamics L_Holds L_Domains L_Activations P_Certificates P_Activations.
Import ListNotations.
Local Open Scope R_scope.

(** ** Rounding *)
Lemma rint_close q : Rabs (IZR (rint q) - Q2R q) <= 1/2.
Proof.
  assert (Hf : Q2R (inject_Z (Qfloor q)) <= Q2R q) by (apply Qle_Rle; apply Qfloor_le).
  assert (Hc : Q2R q < Q2R (inject_Z (Qfloor q + 1))) by (apply Qlt_Rlt; apply Qlt_floor).
  assert (EZ : forall z, Q2R (inject_Z z) = IZR z) by (intros; unfold Q2R, inject_Z; simpl; field).
  rewrite EZ in *. rewrite plus_IZR in Hc.
  assert (EH : Q2R (1#2) = 1/2) by (unfold Q2R; simpl; lra).
  assert (EM : Q2R (q - inject_Z (Qfloor q)) = Q2R q - IZR (Qfloor q)) by (rewrite Q2R_minus, EZ; reflexivity).
  unfold rint. destruct (Qcompare_spec (q - inject_Z (Qfloor q)) (1#2)) as [E|E|E].
  - apply Qeq_eqR in E. rewrite EM, EH in E.
    destruct (Z.even (Qfloor q)); rewrite ?plus_IZR; apply Rabs_le; lra.
  - apply Qlt_Rlt in E. rewrite EM, EH in E. apply Rabs_le; lra.
  - apply Qlt_Rlt in E. rewrite EM, EH in E. rewrite plus_IZR. apply Rabs_le; lra.
Qed.

Lemma Q2R_inject z : Q2R (inject_Z z) = IZR z.
Proof. unfold Q2R, inject_Z; simpl; field. Qed.

Lemma IZR_pow10 d : IZR (10 ^ Z.of_nat d) = 10 ^ d.
Proof. rewrite <- pow_IZR. reflexivity. Qed.

Lemma pow10_pos d : 0 < 10 ^ d.
Proof. apply pow_lt. lra. Qed.

Lemma Q2R_round_dp d q : Q2R (round_dp d q) = IZR (rint (q * inject_Z (10 ^ Z.of_nat d))) / 10 ^ d.
Proof.
  unfold round_dp. rewrite Q2R_div, !Q2R_inject, IZR_pow10; auto.
  intros E. apply Qeq_eqR in E. rewrite Q2R_inject, IZR_pow10 in E.
  assert (H := pow10_pos d). rewrite E in H. unfold Q2R in H; simpl in H. lra.
Qed.

Lemma round_dp_close d q : Rabs (Q2R (round_dp d q) - Q2R q) <= 1/2 * / 10 ^ d.
Proof.
  rewrite Q2R_round_dp. set (z := rint _). assert (H := rint_close (q * inject_Z (10 ^ Z.of_nat d))).
  fold z in H. rewrite Q2R_mult, Q2R_inject, IZR_pow10 in H. assert (Hp := pow10_pos d).
  replace (IZR z / 10 ^ d - Q2R q) with ((IZR z - Q2R q * 10 ^ d) * / 10 ^ d) by (field; lra).
  rewrite Rabs_mult, (Rabs_right (/ 10 ^ d)).
  - apply Rmult_le_compat_r; auto. left. now apply Rinv_0_lt_compat.
  - apply Rle_ge. left. now apply Rinv_0_lt_compat.
Qed.

Lemma rint_nonneg q : 0 <= Q2R q -> 0 <= IZR (rint q).
Proof.
  intros H. assert (C := rint_close q). apply Rabs_le_between in C.
  apply IZR_le. assert (-1 < rint q)%Z; [|lia]. apply lt_IZR. simpl. lra.
Qed.
Lemma round_dp_nonneg d q : 0 <= Q2R q -> 0 <= Q2R (round_dp d q).
Proof.
  intros H. rewrite Q2R_round_dp. assert (Hp := pow10_pos d). apply Rmult_le_pos.
  - apply rint_nonneg. rewrite Q2R_mult, Q2R_inject, IZR_pow10. apply Rmult_le_pos; lra.
  - left. now apply Rinv_0_lt_compat.
Qed.
Lemma round_num_nonneg r q : 0 <= Q2R q -> 0 <= Q2R (round_num r q).
Proof. unfold round_num. destruct (r <? 0)%Z; auto. apply round_dp_nonneg. Qed.

(** Rounding an integer-valued number changes nothing. *)
Lemma rint_int z : rint (inject_Z z) = z.
Proof.
  unfold rint. rewrite Qfloor_Z. destruct (Qcompare_spec (inject_Z z - inject_Z z) (1#2)) as [E|E|E]; auto.
  - exfalso. unfold Qeq in E. simpl in E. lia.
  - exfalso. unfold Qlt in E. simpl in E. lia.
Qed.

(** The network whose coefficients the translator actually uses. *)
Definition round_layer (r : Z) (l : layer) : layer :=
  {| weight := round_mat r (weight l);
     bias := match bias l with Some b => Some (map (round_num r) b) | None => None end |}.
Definition round_last (r : Z) (l : layer) : layer :=
  {| weight := round_mat r (weight l); bias := bias l |}.
Definition round_net (r : Z) (net : network) : network :=
  {| in_size := in_size net;
     hidden := map (fun la => (round_layer r (fst la), snd la)) (hidden net);
     last := round_last r (last net) |}.

Lemma round_mat_length r m : length (round_mat r m) = length m.
Proof. unfold round_mat. apply map_length. Qed.

Lemma wf_round_layer r n l : wf_layer n l -> wf_layer n (round_layer r l).
Proof.
  intros [H1 H2]. split; simpl.
  - unfold round_mat. apply Forall_map. eapply Forall_impl; [|exact H1]. intros a. now rewrite map_length.
  - destruct (bias l) as [b|]; intros c E; [|discriminate]. injection E as <-.
    rewrite map_length, round_mat_length. auto.
Qed.
Lemma wf_round_last r n l : wf_layer n l -> wf_layer n (round_last r l).
Proof.
  intros [H1 H2]. split; simpl.
  - unfold round_mat. apply Forall_map. eapply Forall_impl; [|exact H1]. intros a. now rewrite map_length.
  - intros c E. rewrite round_mat_length. auto.
Qed.
Lemma wf_round_hidden r hs : forall n m, wf_hidden n hs m ->
  wf_hidden n (map (fun la => (round_layer r (fst la), snd la)) hs) m.
Proof.
  induction hs as [|[l a] hs IH]; intros n m H; simpl in *; auto.
  destruct H as (H1 & H2 & H3). split; [now apply wf_round_layer|]. split; [auto|].
  rewrite round_mat_length. now apply IH.
Qed.
Lemma wf_round_net r net : wf_net net -> wf_net (round_net r net).
Proof.
  intros (m & H1 & H2 & H3). exists m. simpl. rewrite round_mat_length.
  split; [now apply wf_round_hidden|]. split; [now apply wf_round_last|auto].
Qed.

Lemma round_net_exact r net : (r < 0)%Z -> round_net r net = net.
Proof.
  intros H. assert (E : (r <? 0)%Z = true) by (apply Z.ltb_lt; auto).
  assert (En : forall q, round_num r q = q) by (intros; unfold round_num; now rewrite E).
  assert (Em : forall l : list Q, map (round_num r) l = l) by (intros; rewrite (map_ext _ (fun q => q)); auto using map_id).
  assert (Ew : forall m, round_mat r m = m).
  { intros m. unfold round_mat. rewrite (map_ext _ (fun q => q)); auto using map_id. }
  destruct net as [n hs [w b]]. unfold round_net. simpl. f_equal.
  - rewrite (map_ext _ (fun q => q)); [apply map_id|]. intros [[w' b'] a]. unfold round_layer. simpl.
    rewrite Ew. destruct b'; rewrite ?Em; reflexivity.
  - unfold round_last. simpl. now rewrite Ew.
Qed.

Lemma close_map_round r l : (0 <= r)%Z ->
  close_coeffs (1/2 * / 10 ^ Z.to_nat r) (map (round_num r) l) l.
Proof.
  intros Hr. induction l as [|q l IH]; simpl; constructor; auto.
  unfold round_num. destruct (Z.ltb_spec r 0); [lia|]. apply round_dp_close.
Qed.
Lemma close_refl e l : 0 <= e -> close_coeffs e l l.
Proof. intros He. induction l; constructor; auto. rewrite Rminus_diag_eq, Rabs_R0; auto. Qed.

Lemma half_pow10 d : 0 <= 1/2 * / 10 ^ d.
Proof. assert (H := Rinv_0_lt_compat _ (pow10_pos d)). lra. Qed.

Lemma round_net_close r net : (0 <= r)%Z ->
  close_net (1/2 * / 10 ^ Z.to_nat r) (round_net r net) net.
Proof.
  intros Hr. assert (Hw : forall m, Forall2 (close_coeffs (1/2 * / 10 ^ Z.to_nat r)) (round_mat r m) m).
  { induction m; simpl; constructor; auto. now apply close_map_round. }
  split; [reflexivity|]. split.
  - simpl. induction (hidden net) as [|[l a] hs IH]; simpl; constructor; auto. simpl. split; auto.
    split; simpl; auto. destruct (bias l); auto. now apply close_map_round.
  - split; simpl; auto. destruct (bias (last net)); auto. apply close_refl, half_pow10.
Qed.

(** ** Sums *)
Lemma sum_below_plus n g h : sum_below n (fun j => g j + h j) = sum_below n g + sum_below n h.
Proof. induction n as [|n IH]; simpl; [lra|]. rewrite IH. lra. Qed.
Lemma sum_below_zero n g : (forall j, (j < n)%nat -> g j = 0) -> sum_below n g = 0.
Proof.
  induction n as [|n IH]; intros H; simpl; [reflexivity|]. rewrite IH, H by (intros; try apply H; lia). lra.
Qed.
Lemma sum_below_swap m n (g : nat -> nat -> R) :
  sum_below m (fun k => sum_below n (fun j => g k j)) = sum_below n (fun j => sum_below m (fun k => g k j)).
Proof.
  induction m as [|m IH]; simpl; [symmetry; apply sum_below_zero; auto|]. rewrite IH, sum_below_plus. reflexivity.
Qed.
Lemma sum_below_delta n i g : (i < n)%nat ->
  sum_below n (fun k => (if (i =? k)%nat then 1 else 0) * g k) = g i.
Proof.
  induction n as [|n IH]; intros Hi; [lia|]. simpl. destruct (Nat.eq_dec i n) as [->|Hne].
  - rewrite Nat.eqb_refl. rewrite sum_below_zero; [lra|]. intros j Hj.
    destruct (Nat.eqb_spec n j); [lia|lra].
  - rewrite IH by lia. destruct (Nat.eqb_spec i n); [lia|lra].
Qed.
Lemma is_derive_sum m (g : nat -> R -> R) (dg : nat -> R) t :
  (forall k, (k < m)%nat -> is_derive (g k) t (dg k)) ->
  is_derive (fun u => sum_below m (fun k => g k u)) t (sum_below m dg).
Proof.
  induction m as [|m IH]; intros H; simpl.
  - apply (is_derive_const (V := R_NormedModule)).
  - apply (is_derive_plus (V := R_NormedModule) (fun u => sum_below m (fun k => g k u)) (g m)).
    + apply IH. intros. apply H. lia.
    + apply H. lia.
Qed.

Lemma Rsum_map2_below {A B} (g : A -> B -> R) l1 l2 a b n :
  length l1 = n -> length l2 = n ->
  Rsum (map2 g l1 l2) = sum_below n (fun j => g (nth j l1 a) (nth j l2 b)).
Proof.
  intros H1 H2. rewrite <- (map_id (map2 g l1 l2)), (Rsum_map_below (fun x => x) _ 0), map2_length, H1, H2, Nat.min_id.
  apply sum_below_ext. intros j Hj. rewrite (map2_nth _ _ _ a b) by lia. reflexivity.
Qed.

Lemma eval_edot s xs ys n : length xs = n -> length ys = n ->
  eval s (edot xs ys) = sum_below n (fun j => eval s (nth j xs (ENum 0)) * eval s (nth j ys (ENum 0))).
Proof.
  intros H1 H2. unfold edot. rewrite eval_esum. change (fold_right Rplus 0) with Rsum.
  rewrite (Rsum_map_below _ _ (ENum 0)), map2_length, H1, H2, Nat.min_id.
  apply sum_below_ext. intros j Hj. rewrite (map2_nth _ _ _ (ENum 0) (ENum 0)) by lia. reflexivity.
Qed.

(** ** Layers *)
Lemma matvec_length A z : length (matvec A z) = length A.
Proof. apply map_length. Qed.
Lemma enum_length m : length (enum m) = length m.
Proof. apply map_length. Qed.
Lemma ematmul_length n A B : length (ematmul n A B) = length A.
Proof. apply map_length. Qed.

Lemma row_length n (m : list (list Q)) i :
  Forall (fun r => length r = n) m -> (i < length m)%nat -> length (nth i m []) = n.
Proof. intros H Hi. rewrite Forall_forall in H. apply H. now apply nth_In. Qed.

Lemma nth_enum i k m : nth k (nth i (enum m) []) (ENum 0) = ENum (nth k (nth i m []) 0%Q).
Proof.
  unfold enum. change (@nil expr) with (map ENum []). rewrite map_nth. apply map_nth.
Qed.

Lemma matvec_nth s m z n i :
  Forall (fun r => length r = n) m -> length z = n -> (i < length m)%nat ->
  eval s (nth i (matvec (enum m) z) (ENum 0))
  = sum_below n (fun k => Q2R (nth k (nth i m []) 0%Q) * eval s (nth k z (ENum 0))).
Proof.
  intros Hm Hz Hi. unfold matvec. rewrite (map_nth_lt _ _ _ []) by (rewrite enum_length; auto).
  rewrite (eval_edot _ _ _ n); auto.
  - apply sum_below_ext. intros k Hk. rewrite nth_enum. reflexivity.
  - unfold enum. rewrite (map_nth_lt _ _ _ []) by auto. rewrite map_length. now apply row_length.
Qed.

Lemma nth_zeros {A} (l : list A) i : Q2R (nth i (map (fun _ => 0%Q) l) 0%Q) = 0.
Proof.
  revert i. induction l as [|a l IH]; intros [|i]; simpl; auto using Q2R_0.
Qed.

Lemma neuron_ext n l y y' i : (forall k, (k < n)%nat -> y k = y' k) -> neuron n l y i = neuron n l y' i.
Proof. intros H. unfold neuron. f_equal. apply sum_below_ext. intros k Hk. now rewrite H. Qed.

Lemma zhat_length r n l z : wf_layer n l -> length (zhat r l z) = length (weight l).
Proof.
  intros [_ Hb]. unfold zhat. rewrite map2_length, matvec_length, enum_length, round_mat_length, map_length.
  destruct (bias l) as [b|]; rewrite map_length; [rewrite (Hb b) by auto|]; lia.
Qed.

Lemma zhat_nth s r n l z i :
  wf_layer n l -> length z = n -> (i < length (weight l))%nat ->
  eval s (nth i (zhat r l z) (ENum 0)) = neuron n (round_layer r l) (fun k => eval s (nth k z (ENum 0))) i.
Proof.
  intros Hw Hz Hi. destruct Hw as [Hr Hb].
  assert (Hr' : Forall (fun row => length row = n) (round_mat r (weight l))).
  { unfold round_mat. apply Forall_map. eapply Forall_impl; [|exact Hr]. intros a. now rewrite map_length. }
  assert (Hlen : length (matvec (enum (round_mat r (weight l))) z) = length (weight l)).
  { now rewrite matvec_length, enum_length, round_mat_length. }
  unfold zhat, neuron. rewrite (map2_nth _ _ _ (ENum 0) (ENum 0)).
  - cbn [eval binop_eval]. rewrite (matvec_nth _ _ _ n) by (auto; rewrite round_mat_length; auto).
    f_equal. unfold bias_of, round_layer. cbn [bias].
    destruct (bias l) as [b|].
    + rewrite map_nth. reflexivity.
    + rewrite map_nth. cbn [eval]. apply nth_zeros.
  - rewrite Hlen, map_length. destruct (bias l) as [b|]; rewrite map_length; [symmetry; auto|reflexivity].
  - rewrite map_length. destruct (bias l) as [b|]; rewrite map_length; [rewrite (Hb b); auto|auto].
Qed.

Lemma hidden_value_ext hs : forall n m y y' i,
  wf_hidden n hs m -> (forall k, (k < n)%nat -> y k = y' k) -> (i < m)%nat ->
  hidden_value n hs y i = hidden_value n hs y' i.
Proof.
  induction hs as [|[l a] hs IH]; intros n m y y' i Hw Hy Hi; simpl in *.
  - subst m. auto.
  - destruct Hw as (H1 & H2 & H3). apply (IH _ m); auto. intros k Hk.
    now rewrite (neuron_ext n l y y').
Qed.
Lemma hidden_all_ext P hs : forall n m y y',
  wf_hidden n hs m -> (forall k, (k < n)%nat -> y k = y' k) ->
  hidden_all P n hs y -> hidden_all P n hs y'.
Proof.
  induction hs as [|[l a] hs IH]; intros n m y y' Hw Hy Hall; simpl in *; auto.
  destruct Hw as (H1 & H2 & H3). destruct Hall as [A1 A2]. split.
  - intros i Hi. rewrite <- (neuron_ext n l y y'); auto.
  - apply (IH _ m _ _ H3 (fun k Hk => f_equal _ (neuron_ext n l y y' k Hy)) A2).
Qed.
Lemma out_width_wf hs : forall n m, wf_hidden n hs m -> out_width n hs = m.
Proof. induction hs as [|[l a] hs IH]; intros n m H; simpl in *; auto. apply IH, H. Qed.

Definition round_hidden (r : Z) := map (fun la : layer * act => (round_layer r (fst la), snd la)).

(** ** Value of the symbolic network *)
Lemma until_last_ct_value b r k hs : forall n m z J z' J',
  wf_hidden n hs m -> length z = n -> until_last_ct b r k hs z J = Some (z', J') ->
  length z' = m /\
  forall s i, (i < m)%nat ->
    eval s (nth i z' (ENum 0)) = hidden_value n (round_hidden r hs) (fun j => eval s (nth j z (ENum 0))) i.
Proof.
  induction hs as [|[l a] hs IH]; intros n m z J z' J' Hw Hz H; simpl in *.
  - injection H as <- <-. split; [lia|]. intros s i Hi. reflexivity.
  - destruct Hw as (H1 & H2 & H3).
    destruct (forward_symbolic b a (zhat r l z)) as [zf|] eqn:Ef; simpl in H; [|discriminate].
    destruct (derivative_symbolic b a (zhat r l z)) as [d|] eqn:Ed; simpl in H; [|discriminate].
    destruct (forward_symbolic_spec _ _ _ _ H2 Ef) as [Lf Vf].
    rewrite (zhat_length r n) in Lf by auto.
    destruct (IH _ m _ _ _ _ H3 Lf H) as [L V]. split; auto. intros s i Hi. rewrite V by auto.
    rewrite round_mat_length.
    apply (hidden_value_ext _ _ m); [apply wf_round_hidden; auto| |auto].
    intros j Hj. rewrite Vf by (rewrite (zhat_length r n); auto). rewrite (zhat_length r n) by auto.
    rewrite (zhat_nth _ _ n) by auto. reflexivity.
Qed.

Lemma last_z_value s r n l z out :
  wf_layer n l -> length z = n -> last_z r l z = [out] ->
  eval s out = neuron n (round_last r l) (fun j => eval s (nth j z (ENum 0))) 0.
Proof.
  intros [Hr Hb] Hz H.
  assert (Hr' : Forall (fun row => length row = n) (round_mat r (weight l))).
  { unfold round_mat. apply Forall_map. eapply Forall_impl; [|exact Hr]. intros a. now rewrite map_length. }
  assert (Eo : out = nth 0 (last_z r l z) (ENum 0)) by (rewrite H; reflexivity).
  assert (Hlen : length (weight l) = 1%nat).
  { apply (f_equal (@length _)) in H. unfold last_z in H.
    destruct (bias l) as [b|]; rewrite ?map2_length, matvec_length, enum_length, round_mat_length in H; auto.
    rewrite map_length, (Hb b), Nat.min_id in H; auto. }
  rewrite Eo. unfold last_z, neuron, bias_of, round_last. cbn [bias].
  destruct (bias l) as [b|].
  - rewrite (map2_nth _ _ _ (ENum 0) (ENum 0)).
    + cbn [eval binop_eval]. rewrite (matvec_nth _ _ _ n) by (auto; rewrite round_mat_length; lia).
      rewrite map_nth. reflexivity.
    + rewrite matvec_length, enum_length, round_mat_length, map_length. symmetry. auto.
    + rewrite map_length, (Hb b), Hlen by auto. lia.
  - rewrite (matvec_nth _ _ _ n) by (auto; rewrite round_mat_length; lia). rewrite Rplus_0_r. reflexivity.
Qed.

(** ** Numeric evaluation computes the same function *)
Lemma affine_length n l y : wf_layer n l -> length (affine l y) = length (weight l).
Proof.
  intros [_ Hb]. unfold affine. rewrite map2_length. unfold bias_or_zeros.
  destruct (bias l) as [b|]; [rewrite (Hb b) by auto|rewrite map_length]; lia.
Qed.
Lemma affine_nth n l y i :
  wf_layer n l -> length y = n -> (i < length (weight l))%nat ->
  nth i (affine l y) 0 = neuron n l (fun k => nth k y 0) i.
Proof.
  intros [Hr Hb] Hy Hi. unfold affine.
  assert (Hlb : length (weight l) = length (bias_or_zeros l)).
  { unfold bias_or_zeros. destruct (bias l) as [b|]; [symmetry; auto|now rewrite map_length]. }
  rewrite (map2_nth _ _ _ [] 0%Q) by lia. unfold neuron. f_equal.
  - rewrite (Rsum_map2_below _ _ _ 0%Q 0 n); auto. now apply row_length.
  - unfold bias_or_zeros, bias_of. destruct (bias l); [reflexivity|apply nth_zeros].
Qed.

Lemma hidden_forward_value hs : forall n m y,
  wf_hidden n hs m -> length y = n ->
  hidden_all softplus_range n hs (fun k => nth k y 0) ->
  length (hidden_forward hs y) = m /\
  forall i, (i < m)%nat -> nth i (hidden_forward hs y) 0 = hidden_value n hs (fun k => nth k y 0) i.
Proof.
  induction hs as [|[l a] hs IH]; intros n m y Hw Hy Hall; simpl in *.
  - subst n. split; auto.
  - destruct Hw as (H1 & H2 & H3). destruct Hall as [A1 A2].
    destruct (forward_spec a (affine l y) H2) as [Lf Vf].
    rewrite (affine_length n) in Lf by auto.
    assert (E : forall k, (k < length (weight l))%nat ->
      act_fun a (length (weight l)) k (neuron n l (fun k => nth k y 0) k)
      = nth k (forward a (affine l y)) 0).
    { intros k Hk. rewrite Vf.
      - rewrite (affine_length n) by auto. now rewrite (affine_nth n).
      - now rewrite (affine_length n).
      - rewrite (affine_nth n) by auto. now apply A1. }
    destruct (IH _ m (forward a (affine l y)) H3 Lf (hidden_all_ext _ _ _ m _ _ H3 E A2)) as [L V].
    split; auto. intros i Hi. rewrite V by auto. apply (hidden_value_ext _ _ m); auto.
    intros k Hk. symmetry. now apply E.
Qed.

Lemma net_forward_value net x :
  wf_net net -> length x = in_size net -> softplus_ok net (fun k => nth k x 0) ->
  net_forward net x = net_value net (fun k => nth k x 0).
Proof.
  intros (m & H1 & H2 & H3) Hx Hs. unfold net_forward, net_value.
  destruct (hidden_forward_value _ _ _ _ H1 Hx Hs) as [L V].
  rewrite (affine_nth m) by (auto; lia). rewrite (out_width_wf _ _ m) by auto. now apply neuron_ext.
Qed.
