(** Lemmas about inner products of points, norms and means. *)
From Coquelicot Require Import Coquelicot.
From Coq Require Import Reals List Bool Arith Lia Lra Psatz.
From Verif Require Import M_Syntax M_Activations M_Domains M_Network M_Certificates M_Cegis M_Learning M_Regulariser
  S_Learning S_Domains S_Regulariser L_Domains L_Network.
Import ListNotations.
Local Open Scope R_scope.

Lemma row_dot_dot : forall a b, row_dot a b = dot a b.
Proof. induction a as [|x a IH]; intros [|y b]; try reflexivity. unfold row_dot in *. cbn. f_equal. apply IH. Qed.
Lemma row_norm_size : forall s, row_norm s = sqrt (size2 s).
Proof.
  intros s. unfold row_norm. f_equal. unfold size2. induction s as [|x s IH]; [reflexivity|]. cbn. f_equal. exact IH.
Qed.

Lemma dot_comm : forall a b, dot a b = dot b a.
Proof. induction a as [|x a IH]; intros [|y b]; try reflexivity. cbn. rewrite IH. ring. Qed.
Lemma dot_times k : forall a b, dot (times k a) b = k * dot a b.
Proof. induction a as [|x a IH]; intros [|y b]; cbn; try ring. unfold times in IH. rewrite IH. ring. Qed.
Lemma dot_times_r k a b : dot a (times k b) = k * dot a b.
Proof. rewrite dot_comm, dot_times, dot_comm. reflexivity. Qed.
Lemma size2_nonneg : forall s, 0 <= size2 s.
Proof. induction s as [|x s IH]; [apply Rle_refl|]. unfold size2 in *. cbn. nra. Qed.
Lemma size2_times k s : size2 (times k s) = k * k * size2 s.
Proof. unfold size2. rewrite dot_times, dot_times_r. ring. Qed.

(** |a + k b|^2 *)
Fixpoint comb (k : R) (a b : point) : point :=
  match a, b with x :: a, y :: b => (x + k * y) :: comb k a b | _, _ => [] end.
Lemma size2_comb k : forall a b, length a = length b ->
  size2 (comb k a b) = size2 a + 2 * k * dot a b + k * k * size2 b.
Proof.
  unfold size2. induction a as [|x a IH]; intros [|y b] H; try discriminate; [cbn; ring|].
  injection H as H. cbn [comb dot]. rewrite (IH _ H). ring.
Qed.
Lemma size2_zero : forall s, size2 s = 0 -> s = repeat 0 (length s).
Proof.
  unfold size2. induction s as [|x s IH]; [reflexivity|]. cbn. intros H.
  pose proof (size2_nonneg s) as P. unfold size2 in P.
  assert (x = 0) by nra. subst x. f_equal. apply IH. lra.
Qed.
Lemma cauchy a b : length a = length b -> dot a b * dot a b <= size2 a * size2 b.
Proof.
  intros H. pose proof (size2_nonneg a) as A. pose proof (size2_nonneg b) as B.
  destruct (Req_dec (size2 b) 0) as [E|E].
  - assert (D : forall n a, dot a (repeat 0 n) = 0).
    { clear. induction n as [|n IH]; intros [|x a]; cbn; try reflexivity. rewrite IH. ring. }
    assert (Z : dot a b = 0) by (rewrite (size2_zero _ E); apply D). rewrite Z, E. lra.
  - pose proof (size2_nonneg (comb (- (dot a b / size2 b)) a b)) as P. rewrite size2_comb in P by exact H.
    assert (Q : size2 a + 2 * - (dot a b / size2 b) * dot a b + - (dot a b / size2 b) * - (dot a b / size2 b) * size2 b
                = size2 a - dot a b * dot a b / size2 b) by (field; exact E).
    rewrite Q in P. assert (Z : dot a b * dot a b / size2 b <= size2 a) by lra.
    apply Rmult_le_compat_r with (r := size2 b) in Z; [|exact B].
    replace (dot a b * dot a b / size2 b * size2 b) with (dot a b * dot a b) in Z by (field; exact E). exact Z.
Qed.
Lemma comb_zero k : forall a b, length a = length b -> comb k a b = repeat 0 (length (comb k a b)) -> a = times (- k) b.
Proof.
  induction a as [|x a IH]; intros [|y b] H E; try discriminate; [reflexivity|].
  injection H as H. cbn in E. injection E as E1 E2. cbn. f_equal; [lra|]. apply IH; assumption.
Qed.
(** Equality in Cauchy's inequality. *)
Lemma cauchy_eq a b k : length a = length b -> size2 a = k * k * size2 b -> dot a b = k * size2 b -> a = times k b.
Proof.
  intros H A D. rewrite <- (Ropp_involutive k). apply comb_zero; [exact H|]. apply size2_zero.
  rewrite size2_comb by exact H. rewrite A, D. ring.
Qed.

Lemma norm_nonneg s : 0 <= row_norm s. Proof. rewrite row_norm_size. apply sqrt_pos. Qed.
Lemma norm_sq s : row_norm s * row_norm s = size2 s.
Proof. rewrite row_norm_size. apply sqrt_sqrt, size2_nonneg. Qed.
Lemma dot_norm a b : length a = length b -> Rabs (dot a b) <= row_norm a * row_norm b.
Proof.
  intros H. pose proof (norm_nonneg a). pose proof (norm_nonneg b).
  rewrite <- (Rabs_pos_eq (row_norm a * row_norm b)) by (apply Rmult_le_pos; assumption).
  apply Rsqr_le_abs_0. unfold Rsqr.
  replace (row_norm a * row_norm b * (row_norm a * row_norm b)) with ((row_norm a * row_norm a) * (row_norm b * row_norm b)) by ring.
  rewrite !norm_sq. apply cauchy, H.
Qed.
Lemma norm_times k s : row_norm (times k s) = Rabs k * row_norm s.
Proof.
  rewrite !row_norm_size, size2_times, sqrt_mult; [|nra|apply size2_nonneg]. f_equal.
  change (k * k) with (Rsqr k). apply sqrt_Rsqr_abs.
Qed.

Definition denom (joint : bool) (a b : point) : R :=
  if joint then Rmax (row_norm a * row_norm b) cos_eps else Rmax (row_norm a) cos_eps * Rmax (row_norm b) cos_eps.
Lemma eps_pos : 0 < cos_eps. Proof. unfold cos_eps. lra. Qed.
Lemma denom_pos joint a b : 0 < denom joint a b.
Proof.
  pose proof eps_pos. unfold denom. destruct joint; [|apply Rmult_lt_0_compat];
    (eapply Rlt_le_trans; [exact H|apply Rmax_r]).
Qed.
Lemma denom_ge joint a b : row_norm a * row_norm b <= denom joint a b.
Proof.
  unfold denom. destruct joint; [apply Rmax_l|].
  apply Rmult_le_compat; try apply norm_nonneg; apply Rmax_l.
Qed.
Lemma denom_resolved joint a b : resolved joint a b -> denom joint a b = row_norm a * row_norm b.
Proof.
  unfold resolved, length_of, denom. rewrite <- !row_norm_size. fold cos_eps. intros H.
  destruct joint; [now apply Rmax_left|]. destruct H. rewrite !Rmax_left; auto.
Qed.
Lemma resolved_pos joint a b : resolved joint a b -> 0 < row_norm a /\ 0 < row_norm b.
Proof.
  unfold resolved, length_of. rewrite <- !row_norm_size. fold cos_eps. intros H.
  pose proof eps_pos. pose proof (norm_nonneg a). pose proof (norm_nonneg b).
  destruct joint; [|lra]. split; [destruct (Req_dec (row_norm a) 0)|destruct (Req_dec (row_norm b) 0)]; nra.
Qed.

Lemma div_le_1 x d : 0 < d -> x <= d -> x / d <= 1.
Proof. intros D H. apply Rmult_le_reg_r with d; [exact D|]. unfold Rdiv. rewrite Rmult_assoc, Rinv_l, Rmult_1_r; lra. Qed.
Lemma div_ge_m1 x d : 0 < d -> - d <= x -> -1 <= x / d.
Proof. intros D H. apply Rmult_le_reg_r with d; [exact D|]. unfold Rdiv. rewrite Rmult_assoc, Rinv_l, Rmult_1_r; lra. Qed.
Lemma cosine_denom joint a b : cosine joint a b = dot a b / denom joint a b.
Proof. unfold cosine. rewrite row_dot_dot. reflexivity. Qed.
Lemma cosine_range joint a b : length a = length b -> -1 <= cosine joint a b <= 1.
Proof.
  intros H. rewrite cosine_denom. pose proof (denom_pos joint a b) as P.
  pose proof (dot_norm a b H) as D. pose proof (denom_ge joint a b) as G. apply Rabs_le_between in D.
  split; [apply div_ge_m1|apply div_le_1]; lra.
Qed.
(** The extremes are met exactly by parallel points. *)
Lemma cosine_one joint a b : length a = length b -> cosine joint a b = 1 -> along_with a b.
Proof.
  intros H E. rewrite cosine_denom in E. pose proof (denom_pos joint a b) as P.
  assert (D : dot a b = denom joint a b).
  { apply (f_equal (fun r => r * denom joint a b)) in E. unfold Rdiv in E.
    rewrite Rmult_assoc, Rinv_l in E by lra. lra. }
  pose proof (dot_norm a b H) as N. pose proof (denom_ge joint a b) as G.
  pose proof (Rle_abs (dot a b)) as Q.
  assert (X : dot a b = row_norm a * row_norm b) by lra.
  assert (Y : 0 < row_norm a * row_norm b) by lra.
  pose proof (norm_nonneg a) as A. pose proof (norm_nonneg b) as B.
  assert (A' : 0 < row_norm a) by (destruct (Req_dec (row_norm a) 0) as [Z|Z]; [rewrite Z in Y; lra|lra]).
  assert (B' : 0 < row_norm b) by (destruct (Req_dec (row_norm b) 0) as [Z|Z]; [rewrite Z in Y; lra|lra]).
  exists (row_norm a / row_norm b). split; [apply Rdiv_lt_0_compat; assumption|].
  apply cauchy_eq; [exact H| |].
  - rewrite <- !norm_sq. field. lra.
  - rewrite <- norm_sq, X. field. lra.
Qed.
Lemma cosine_along joint d s : along_with d s -> resolved joint d s -> cosine joint d s = 1.
Proof.
  intros [k [K E]] D. pose proof (resolved_pos _ _ _ D) as [P Q]. rewrite cosine_denom, denom_resolved by assumption.
  subst d. rewrite norm_times, Rabs_pos_eq in * by lra. rewrite dot_times. fold (size2 s). rewrite <- norm_sq.
  field. lra.
Qed.
Lemma dot_opp a b : dot (times (-1) a) b = - dot a b. Proof. rewrite dot_times. ring. Qed.
Lemma norm_opp a : row_norm (times (-1) a) = row_norm a.
Proof. rewrite norm_times. replace (Rabs (-1)) with 1 by (rewrite Rabs_left; lra). ring. Qed.
Lemma cosine_opp joint a b : cosine joint (times (-1) a) b = - cosine joint a b.
Proof.
  rewrite !cosine_denom. unfold denom. rewrite norm_opp, dot_opp. unfold Rdiv. ring.
Qed.
Lemma times_times j k s : times j (times k s) = times (j * k) s.
Proof. unfold times. rewrite map_map. apply map_ext. intros; ring. Qed.
Lemma times_length k s : length (times k s) = length s. Proof. apply map_length. Qed.
Lemma times_1 s : times 1 s = s. Proof. unfold times. rewrite <- (map_id s) at 2. apply map_ext. intros; ring. Qed.
Lemma against_along d s : against d s <-> along_with (times (-1) d) s.
Proof.
  split; intros [k [K E]]; exists k; split; auto.
  - subst d. rewrite times_times. f_equal. ring.
  - apply (f_equal (times (-1))) in E. rewrite !times_times in E. replace (-1 * -1) with 1 in E by ring.
    rewrite times_1 in E. rewrite E. f_equal. ring.
Qed.
Lemma resolved_opp joint d s : resolved joint d s -> resolved joint (times (-1) d) s.
Proof. unfold resolved, length_of. rewrite <- !row_norm_size, norm_opp. exact (fun H => H). Qed.
Lemma cosine_minus_one joint a b : length a = length b -> cosine joint a b = -1 -> against a b.
Proof.
  intros H E. apply against_along. apply (cosine_one joint); [rewrite times_length; exact H|]. rewrite cosine_opp. lra.
Qed.
Lemma cosine_against joint d s : against d s -> resolved joint d s -> cosine joint d s = -1.
Proof.
  intros A D. apply against_along in A.
  assert (cosine joint (times (-1) d) s = 1) by (apply cosine_along; auto using resolved_opp).
  rewrite cosine_opp in H. lra.
Qed.

(** ** Means *)
Lemma Rsum_range l lo hi : (forall v, In v l -> lo <= v <= hi) -> INR (length l) * lo <= Rsum l <= INR (length l) * hi.
Proof.
  induction l as [|v l IH]; intros H; [cbn; lra|].
  assert (I := IH (fun w W => H w (or_intror W))). assert (J := H v (or_introl eq_refl)).
  unfold Rsum in *. cbn [fold_right length]. rewrite S_INR. nra.
Qed.
Lemma mean_range l lo hi : l <> [] -> (forall v, In v l -> lo <= v <= hi) -> lo <= mean l <= hi.
Proof.
  intros N H. apply Rsum_range in H. unfold mean.
  assert (P : 0 < INR (length l)) by (destruct l; [congruence|apply lt_0_INR; cbn; lia]).
  split; [apply Rmult_le_reg_r with (INR (length l))|apply Rmult_le_reg_r with (INR (length l))]; auto;
    unfold Rdiv; rewrite Rmult_assoc, Rinv_l, Rmult_1_r; lra.
Qed.
(** A mean at an end of the range of its terms has all terms there. *)
Lemma Rsum_low l lo : (forall v, In v l -> lo <= v) -> Rsum l <= INR (length l) * lo -> forall v, In v l -> v = lo.
Proof.
  induction l as [|w l IH]; intros H E v V; [destruct V|].
  assert (J := H w (or_introl eq_refl)).
  assert (K : INR (length l) * lo <= Rsum l).
  { clear -H. assert (H' : forall v, In v l -> lo <= v) by (intros; apply H; now right). clear H.
    induction l as [|u l IH]; [cbn; lra|]. assert (I := IH (fun v V => H' v (or_intror V))).
    assert (J := H' u (or_introl eq_refl)). unfold Rsum in *. cbn [fold_right length]. rewrite S_INR. nra. }
  unfold Rsum in E, IH, K. cbn [fold_right length] in E. rewrite S_INR in E.
  destruct V as [->|V]; [nra|]. apply IH; auto. { intros; apply H; now right. } nra.
Qed.
Lemma mean_low l lo : l <> [] -> (forall v, In v l -> lo <= v) -> (mean l = lo <-> forall v, In v l -> v = lo).
Proof.
  intros N H. assert (P : 0 < INR (length l)) by (destruct l; [congruence|apply lt_0_INR; cbn; lia]).
  split.
  - intros E. apply Rsum_low; [exact H|]. rewrite <- E. unfold mean. right. field. lra.
  - intros A. apply Rle_antisym; apply (mean_range l lo lo N); intros v V; rewrite (A v V); lra.
Qed.
Lemma Rsum_opp l : Rsum (map Ropp l) = - Rsum l.
Proof. induction l as [|v l IH]; cbn; [ring|]. unfold Rsum in *. rewrite IH. ring. Qed.
Lemma mean_opp l : mean (map Ropp l) = - mean l.
Proof. unfold mean. rewrite Rsum_opp, map_length. unfold Rdiv. ring. Qed.
Lemma mean_high l hi : l <> [] -> (forall v, In v l -> v <= hi) -> (mean l = hi <-> forall v, In v l -> v = hi).
Proof.
  intros N H.
  assert (E := mean_low (map Ropp l) (- hi)). rewrite mean_opp in E.
  assert (E' : - mean l = - hi <-> forall v, In v (map Ropp l) -> v = - hi).
  { apply E. { destruct l; [congruence|discriminate]. }
    intros v V. apply in_map_iff in V. destruct V as [w [<- W]]. specialize (H w W). lra. }
  split.
  - intros M v V. assert (- v = - hi) by (apply E'; [lra|]; now apply in_map). lra.
  - intros A. assert (- mean l = - hi); [|lra]. apply E'. intros v V. apply in_map_iff in V.
    destruct V as [w [<- W]]. rewrite (A w W). reflexivity.
Qed.

(** The terms of a batch. *)
Lemma map2_in {A B C} (f : A -> B -> C) : forall l m v, In v (map2 f l m) -> exists a b, In (a, b) (combine l m) /\ v = f a b.
Proof.
  unfold map2. induction l as [|a l IH]; intros [|b m] v H; cbn in *; try contradiction.
  destruct H as [<-|H]; [exists a, b; auto|]. destruct (IH _ _ H) as [a' [b' [I E]]]. exists a', b'. auto.
Qed.
Lemma in_map2 {A B C} (f : A -> B -> C) : forall l m a b, In (a, b) (combine l m) -> In (f a b) (map2 f l m).
Proof.
  unfold map2. induction l as [|a l IH]; intros [|b m] a' b' H; cbn in *; try contradiction.
  destruct H as [H|H]; [injection H as -> ->; auto|right; auto].
Qed.
Lemma map2_nonempty {A B C} (f : A -> B -> C) l m : l <> [] -> length l = length m -> map2 f l m <> [].
Proof. destruct l, m; cbn; congruence. Qed.
Lemma combine_batch n l m a b : batch n l -> batch n m -> In (a, b) (combine l m) -> length a = n /\ length b = n.
Proof. intros L M H. split; [apply L; eapply in_combine_l; eauto|apply M; eapply in_combine_r; eauto]. Qed.
Lemma Forall2_combine {A B} (P : A -> B -> Prop) : forall l m, length l = length m ->
  (Forall2 P l m <-> forall a b, In (a, b) (combine l m) -> P a b).
Proof.
  induction l as [|a l IH]; intros [|b m] H; try discriminate; cbn; split; auto; try tauto.
  - intros F x y [E|I]; inversion F; subst; [injection E as <- <-; auto|]. apply (proj1 (IH m ltac:(auto))); auto.
  - intros F. constructor; [apply F; now left|]. apply IH; auto.
Qed.
