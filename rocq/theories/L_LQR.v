(** The Riccati equation along motions, and definite solutions. *)
From Coquelicot Require Import Coquelicot.
From Coq Require Import Reals List Lra Lia Arith Classical.
From Verif Require Import M_Syntax M_Linear S_Domains S_Certificates S_Dynamics S_Linear L_Calculus L_Topology L_Domains L_Network L_Frechet L_Quadratic.
Import ListNotations.
Local Open Scope R_scope.

Lemma entries_sum_below n f : entries_sum n f = sum_below n f.
Proof. induction n as [|n IH]; cbn; [reflexivity|]. now rewrite IH. Qed.
(** Scalar product. *)
Definition vdot (n : nat) (v w : state) : R := sum_below n (fun i => v i * w i).
Lemma vdot_ext n v v' w w' : (forall i, (i < n)%nat -> v i = v' i) -> (forall i, (i < n)%nat -> w i = w' i) -> vdot n v w = vdot n v' w'.
Proof. intros Hv Hw. apply sum_below_ext. intros i Hi. now rewrite Hv, Hw. Qed.
Lemma vdot_comm n v w : vdot n v w = vdot n w v. Proof. apply sum_below_ext. intros; ring. Qed.
Lemma bilinear_vdot n m a v w : bilinear n m a v w = vdot n v (linear m a w).
Proof. apply sum_below_ext. intros i _. unfold linear. rewrite <- sum_below_scal. apply sum_below_ext. intros; ring. Qed.
Lemma bilinear_transpose n m a v w : bilinear n m a v w = vdot m (linear n (transpose a) v) w.
Proof.
  unfold bilinear. rewrite sum_below_swap. apply sum_below_ext. intros j _. unfold linear, transpose.
  rewrite Rmult_comm, <- sum_below_scal. apply sum_below_ext. intros; ring.
Qed.
Lemma bilinear_sym n a v w : symmetric n a -> bilinear n n a v w = bilinear n n a w v.
Proof.
  intros H. unfold bilinear. rewrite sum_below_swap. apply sum_below_ext. intros i Hi. apply sum_below_ext. intros j Hj. rewrite (H j i Hj Hi). ring.
Qed.
Lemma linear_sym n P x i : symmetric n P -> (i < n)%nat -> linear n (transpose P) x i = linear n P x i.
Proof. intros H Hi. unfold linear, transpose. apply sum_below_ext. intros j Hj. now rewrite (H j i Hj Hi). Qed.
Lemma linear_ext n a v w i : (forall j, (j < n)%nat -> v j = w j) -> linear n a v i = linear n a w i.
Proof. intros H. apply sum_below_ext. intros j Hj. now rewrite H. Qed.
Lemma linear_inverse n a b v i : inverse n a b -> (i < n)%nat -> linear n a (linear n b v) i = v i.
Proof.
  intros H Hi. unfold linear.
  rewrite (sum_below_ext n _ (fun j => sum_below n (fun k => a i j * b j k * v k))) by (intros; rewrite <- sum_below_scal; apply sum_below_ext; intros; ring).
  rewrite sum_below_swap. rewrite (sum_below_ext n _ (fun k => (if (i =? k)%nat then 1 else 0) * v k)).
  - now rewrite sum_below_delta.
  - intros k Hk. rewrite <- (proj1 (H i k Hi Hk)). rewrite Rmult_comm, <- sum_below_scal. apply sum_below_ext. intros; ring.
Qed.
Lemma linear_product n k a b v i : linear n (fun i j => sum_below k (fun l => a i l * b l j)) v i = linear k a (linear n b v) i.
Proof.
  unfold linear. rewrite (sum_below_ext n _ (fun j => sum_below k (fun l => a i l * (b l j * v j)))).
  - rewrite sum_below_swap. apply sum_below_ext. intros. now rewrite sum_below_scal.
  - intros j _. rewrite Rmult_comm, <- sum_below_scal. apply sum_below_ext. intros; ring.
Qed.
Lemma bilinear_minus_matrix n a b v w : bilinear n n (fun i j => a i j - b i j) v w = bilinear n n a v w - bilinear n n b v w.
Proof.
  unfold bilinear. replace (sum_below n (fun i => sum_below n (fun j => v i * a i j * w j)) - sum_below n (fun i => sum_below n (fun j => v i * b i j * w j)))
    with (sum_below n (fun i => sum_below n (fun j => v i * a i j * w j)) + -1 * sum_below n (fun i => sum_below n (fun j => v i * b i j * w j))) by ring.
  rewrite <- sum_below_scal, <- sum_below_plus. apply sum_below_ext. intros i _. rewrite <- sum_below_scal, <- sum_below_plus. apply sum_below_ext. intros; ring.
Qed.
Lemma bilinear_plus_matrix n a b v w : bilinear n n (fun i j => a i j + b i j) v w = bilinear n n a v w + bilinear n n b v w.
Proof.
  unfold bilinear. rewrite <- sum_below_plus. apply sum_below_ext. intros i _. rewrite <- sum_below_plus. apply sum_below_ext. intros; ring.
Qed.
Lemma bilinear_scal_matrix n c a v w : bilinear n n (fun i j => c * a i j) v w = c * bilinear n n a v w.
Proof.
  unfold bilinear. rewrite <- sum_below_scal. apply sum_below_ext. intros i _. rewrite <- sum_below_scal. apply sum_below_ext. intros; ring.
Qed.

Section Riccati.
  Context (n k : nat) (A B Q Rm Ri P : matrix).
  Hypothesis (Hi : inverse k Rm Ri) (Hr : riccati n k A B Q Ri P) (Hs : symmetric k Rm).
  Let p (x : state) : state := linear n P x.
  Let q (x : state) : state := linear n (transpose B) (p x).
  Let g (x : state) : state := linear k Ri (q x).
  Lemma riccati_form x : 2 * vdot n (p x) (linear n A x) - vdot k (q x) (g x) + quadratic n Q x = 0.
  Proof.
    destruct Hr as [Sy Eq].
    assert (Z : bilinear n n (fun i j => sum_below n (fun l => A l i * P l j) + sum_below n (fun l => P i l * A l j)
      - sum_below n (fun a => sum_below k (fun b => sum_below k (fun c => sum_below n (fun d => P i a * B a b * Ri b c * B d c * P d j)))) + Q i j) x x = 0).
    { unfold bilinear. apply sum_below_zero. intros i Hi'. apply sum_below_zero. intros j Hj. rewrite (Eq i j Hi' Hj). ring. }
    rewrite (bilinear_plus_matrix n (fun i j => sum_below n (fun l => A l i * P l j) + sum_below n (fun l => P i l * A l j) - _) Q) in Z.
    rewrite (bilinear_minus_matrix n (fun i j => sum_below n (fun l => A l i * P l j) + sum_below n (fun l => P i l * A l j))) in Z.
    rewrite (bilinear_plus_matrix n (fun i j => sum_below n (fun l => A l i * P l j)) (fun i j => sum_below n (fun l => P i l * A l j))) in Z.
    assert (T1 : bilinear n n (fun i j => sum_below n (fun l => A l i * P l j)) x x = vdot n (p x) (linear n A x)).
    { rewrite bilinear_vdot. rewrite (vdot_ext n x x _ (linear n (transpose A) (p x))); [|reflexivity|intros i _; apply (linear_product n n (transpose A) P x i)].
      rewrite <- bilinear_vdot, bilinear_transpose. apply vdot_comm. }
    assert (T2 : bilinear n n (fun i j => sum_below n (fun l => P i l * A l j)) x x = vdot n (p x) (linear n A x)).
    { rewrite bilinear_vdot. rewrite (vdot_ext n x x _ (linear n P (linear n A x))); [|reflexivity|intros i _; apply (linear_product n n P A x i)].
      rewrite <- bilinear_vdot, bilinear_transpose. apply vdot_ext; [|reflexivity]. intros i Hi'. now apply linear_sym. }
    assert (T3 : bilinear n n (fun i j => sum_below n (fun a => sum_below k (fun b => sum_below k (fun c => sum_below n (fun d => P i a * B a b * Ri b c * B d c * P d j))))) x x = vdot k (q x) (g x)).
    { rewrite bilinear_vdot. rewrite (vdot_ext n x x _ (linear n P (linear k B (g x)))); [|reflexivity|].
      - rewrite <- bilinear_vdot, bilinear_transpose. rewrite (vdot_ext n _ (p x) _ (linear k B (g x))); [|intros i Hi'; now apply linear_sym|reflexivity].
        rewrite <- bilinear_vdot, bilinear_transpose. reflexivity.
      - intros i _. unfold g, q, p. symmetry. unfold linear at 1 2 3 4 5, transpose.
        unfold linear. rewrite (sum_below_ext n (fun j => sum_below n _ * x j) (fun j => sum_below n (fun a => sum_below k (fun b => sum_below k (fun c => sum_below n (fun d => P i a * B a b * Ri b c * B d c * (P d j * x j))))))).
        + symmetry. rewrite sum_below_swap. apply sum_below_ext. intros a _. rewrite sum_below_swap, <- sum_below_scal. apply sum_below_ext. intros b _.
          rewrite sum_below_swap. rewrite <- !sum_below_scal. apply sum_below_ext. intros c _.
          rewrite sum_below_swap. rewrite <- !sum_below_scal. apply sum_below_ext. intros d _. rewrite <- !sum_below_scal. apply sum_below_ext. intros; ring.
        + intros j _. rewrite Rmult_comm, <- sum_below_scal. apply sum_below_ext. intros a _. rewrite <- sum_below_scal. apply sum_below_ext. intros b _.
          rewrite <- sum_below_scal. apply sum_below_ext. intros c _. rewrite <- sum_below_scal. apply sum_below_ext. intros; ring. }
    rewrite T1, T2, T3 in Z. unfold quadratic. lra.
  Qed.
  Lemma gain_times i x : (i < k)%nat -> linear k Rm (g x) i = q x i.
  Proof. intros H. unfold g. now apply linear_inverse. Qed.
  (** Completing the square. *)
  Lemma square x u :
    2 * vdot n (p x) (fun i => linear n A x i + linear k B u i) =
    - (quadratic n Q x + quadratic k Rm u) + quadratic k Rm (fun i => u i + g x i).
  Proof.
    assert (F := riccati_form x).
    assert (S1 : vdot n (p x) (fun i => linear n A x i + linear k B u i) = vdot n (p x) (linear n A x) + vdot k (q x) u).
    { unfold q. rewrite <- bilinear_transpose, bilinear_vdot. unfold vdot. rewrite <- sum_below_plus. apply sum_below_ext. intros; ring. }
    assert (S2 : quadratic k Rm (fun i => u i + g x i) = quadratic k Rm u + 2 * vdot k (q x) u + vdot k (q x) (g x)).
    { unfold quadratic. rewrite bilinear_plus_l, !bilinear_plus_r. rewrite (bilinear_sym k Rm (g x) u Hs).
      assert (E : forall v, bilinear k k Rm v (g x) = vdot k (q x) v).
      { intros v. rewrite bilinear_vdot, vdot_comm. apply vdot_ext; [|reflexivity]. intros i H. now apply gain_times. }
      rewrite !E. ring. }
    rewrite S1, S2. lra.
  Qed.
  Lemma along_value f x : along n P f x = 2 * vdot n (p x) (f x).
  Proof.
    destruct Hr as [Sy _]. unfold along. rewrite (bilinear_sym n P (f x) x Sy), bilinear_transpose.
    rewrite (vdot_ext n _ (p x) (f x) (f x)); [ring| |reflexivity]. intros i H. now apply linear_sym.
  Qed.
  (** With the gain. *)
  Context (K : matrix).
  Hypothesis (HK : forall i j, (i < k)%nat -> K i j = sum_below n (fun l => sum_below k (fun m => Ri i m * transpose B m l) * P l j)).
  Lemma gain_value x i : (i < k)%nat -> linear n K x i = g x i.
  Proof.
    intros H. unfold g, q, p.
    transitivity (linear n (fun i j => sum_below n (fun l => (fun i l => sum_below k (fun m => Ri i m * transpose B m l)) i l * P l j)) x i).
    { apply sum_below_ext. intros j _. now rewrite HK. }
    rewrite linear_product. apply (linear_product n k Ri (transpose B)).
  Qed.
  Lemma feedback_value x i : linear n (feedback_matrix k A B K) x i = linear n A x i + linear k B (fun j => - g x j) i.
  Proof.
    unfold feedback_matrix. unfold linear at 1.
    rewrite (sum_below_ext n _ (fun j => A i j * x j + -1 * (sum_below k (fun l => B i l * K l j) * x j))) by (intros; ring).
    rewrite sum_below_plus, sum_below_scal. change (sum_below n (fun j => A i j * x j)) with (linear n A x i). f_equal.
    change (sum_below n (fun j => sum_below k (fun l => B i l * K l j) * x j)) with (linear n (fun i j => sum_below k (fun l => B i l * K l j)) x i).
    rewrite linear_product. unfold linear at 1 3. rewrite <- sum_below_scal. apply sum_below_ext. intros j Hj. rewrite gain_value by exact Hj. ring.
  Qed.
  Lemma feedback_along x : along n P (linear n (feedback_matrix k A B K)) x = - (quadratic n Q x + quadratic k Rm (linear n K x)).
  Proof.
    rewrite along_value. rewrite (vdot_ext n (p x) (p x) _ (fun i => linear n A x i + linear k B (fun j => - g x j) i)); [|reflexivity|intros; apply feedback_value].
    rewrite square.
    assert (Z : quadratic k Rm (fun i => - g x i + g x i) = 0).
    { unfold quadratic, bilinear. apply sum_below_zero. intros. apply sum_below_zero. intros. ring. }
    assert (N : quadratic k Rm (fun i => - g x i) = quadratic k Rm (linear n K x)).
    { transitivity (quadratic k Rm (fun i => -1 * linear n K x i)).
      - apply bilinear_ext; auto; intros i H; rewrite gain_value by exact H; ring.
      - rewrite quadratic_scal. ring. }
    rewrite Z, N. ring.
  Qed.
End Riccati.

(** ** Stable systems have definite forms *)
Lemma quadratic_plus n a v w t : symmetric n a -> quadratic n a (fun i => v i + t * w i) = quadratic n a v + 2 * t * bilinear n n a v w + t * t * quadratic n a w.
Proof.
  intros H. unfold quadratic. rewrite bilinear_plus_l, !bilinear_plus_r, !bilinear_scal_l, !bilinear_scal_r, (bilinear_sym n a w v H). ring.
Qed.
Lemma semidefinite_null n a v w : symmetric n a -> positive_semidefinite n a -> quadratic n a v = 0 -> bilinear n n a v w = 0.
Proof.
  intros Hs Hp Hv. set (b := bilinear n n a v w). set (c := quadratic n a w). assert (Hc : 0 <= c) by apply Hp.
  assert (F : forall t, 0 <= 2 * t * b + t * t * c). { intros t. assert (X := Hp (fun i => v i + t * w i)). rewrite quadratic_plus, Hv in X by exact Hs. fold b c in X. lra. }
  specialize (F (- b / (c + 1))). replace (2 * (- b / (c + 1)) * b + - b / (c + 1) * (- b / (c + 1)) * c) with (- (b * b) * (c + 2) / ((c + 1) * (c + 1))) in F by (field; lra).
  destruct (Req_dec b 0) as [E|E]; [exact E|]. exfalso. assert (0 < b * b) by nra.
  assert (- (b * b) * (c + 2) / ((c + 1) * (c + 1)) < 0); [|lra]. apply Ropp_lt_cancel. rewrite Ropp_0. unfold Rdiv. rewrite <- Ropp_mult_distr_l_reverse. apply Rmult_lt_0_compat; [nra|]. apply Rinv_0_lt_compat. nra.
Qed.
Lemma stable_semidefinite n P P0 f mu : symmetric n P -> symmetric n P0 -> positive_definite n P0 -> 0 < mu ->
  (forall s, along n P0 f s <= - (2 * mu) * quadratic n P0 s) -> (forall s, along n P f s <= 0) -> positive_semidefinite n P.
Proof.
  intros Sp S0 D0 Hmu H0 H. apply NNPP. intros Neg. unfold positive_semidefinite in Neg. apply not_all_ex_not in Neg. destruct Neg as (v & Hv). apply Rnot_le_lt in Hv.
  destruct (positive_definite_bound n P0 D0) as (c & Hc & L).
  set (F := fun t => fun i j => P i j + t * P0 i j).
  assert (QF : forall t s, quadratic n (F t) s = quadratic n P s + t * quadratic n P0 s).
  { intros t s. unfold quadratic, F. rewrite (bilinear_plus_matrix n P (fun i j => t * P0 i j)), (bilinear_scal_matrix n t P0). reflexivity. }
  set (W := weight_of n n P). assert (HW : 0 <= W) by apply weight_nonneg.
  assert (Nn : forall s, 0 <= quadratic n P0 s). { intros s. assert (X := L s). assert (N := maxnorm_nonneg n s). nra. }
  (* the least weight of P0 that makes the sum semidefinite *)
  set (E := fun t => exists s, t * quadratic n P0 s <= - quadratic n P s /\ 0 < quadratic n P0 s).
  assert (Bd : bound E).
  { exists (W / c). intros t (s & Hs & Ps). assert (B := bilinear_bound n n P s s). fold W in B. assert (X := L s). assert (A1 := Rle_abs (- quadratic n P s)). rewrite Rabs_Ropp in A1.
    unfold quadratic at 2 in A1. assert (N := maxnorm_nonneg n s). apply Rmult_le_reg_r with (quadratic n P0 s); [exact Ps|].
    apply Rle_trans with (W * (maxnorm n s * maxnorm n s)); [lra|]. replace (W * (maxnorm n s * maxnorm n s)) with (W / c * (c * (maxnorm n s * maxnorm n s))) by (field; lra).
    apply Rmult_le_compat_l; [apply Rmult_le_pos; [exact HW|left; now apply Rinv_0_lt_compat]|exact X]. }
  assert (Pv : 0 < quadratic n P0 v).
  { apply D0. apply positive_not_origin. intros Z. unfold quadratic, bilinear in Hv. rewrite sum_below_zero in Hv; [lra|]. intros i Hi. apply sum_below_zero. intros j Hj. rewrite (Z i Hi). ring. }
  set (t0 := - quadratic n P v / quadratic n P0 v). assert (Ht0 : 0 < t0) by (apply Rdiv_lt_0_compat; lra).
  assert (E0 : E t0). { exists v. split; [|exact Pv]. unfold t0. right. field. lra. }
  destruct (completeness E Bd (ex_intro _ t0 E0)) as (t & Ub & Lub). assert (Ht : 0 < t) by (specialize (Ub t0 E0); lra).
  assert (Semi : positive_semidefinite n (F t)).
  { intros s. rewrite QF. destruct (Rle_lt_or_eq_dec 0 (quadratic n P0 s) (Nn s)) as [Q|Q].
    - apply Rnot_lt_le. intros X. assert (Es : E (- quadratic n P s / quadratic n P0 s)) by (exists s; split; [right; field; lra|exact Q]).
      apply Ub in Es. apply (Rmult_le_compat_r (quadratic n P0 s)) in Es; [|lra]. replace (- quadratic n P s / quadratic n P0 s * quadratic n P0 s) with (- quadratic n P s) in Es by (field; lra). lra.
    - assert (Z : forall i, (i < n)%nat -> s i = 0). { intros i Hi. apply NNPP. intros X. assert (D := D0 s (ex_intro _ i (conj Hi X))). lra. }
      assert (QP : quadratic n P s = 0) by (unfold quadratic, bilinear; apply sum_below_zero; intros i Hi; apply sum_below_zero; intros j Hj; rewrite (Z i Hi); ring).
      rewrite QP, <- Q. lra. }
  assert (Sf : symmetric n (F t)) by (intros i j Hi Hj; unfold F; rewrite (Sp i j Hi Hj), (S0 i j Hi Hj); reflexivity).
  assert (Null : exists s, (exists i, (i < n)%nat /\ s i <> 0) /\ quadratic n (F t) s = 0).
  { apply NNPP. intros X. assert (D : positive_definite n (F t)).
    { intros s Hs. destruct (Rle_lt_or_eq_dec 0 _ (Semi s)) as [Y|Y]; [exact Y|]. exfalso. apply X. exists s. split; [exact Hs|now symmetry]. }
    destruct (positive_definite_bound n (F t) D) as (c' & Hc' & L'). set (b := weight_of n n P0 + 1).
    assert (Hb : 0 < b) by (unfold b; assert (Y := weight_nonneg n n P0); lra).
    assert (Ub' : is_upper_bound E (t - c' / b)).
    { intros r (s & Hs & Ps). specialize (L' s). rewrite QF in L'. assert (U := quadratic_bound n P0 s). assert (N := maxnorm_nonneg n s). set (M := maxnorm n s * maxnorm n s) in *. assert (HM : 0 <= M) by (unfold M; nra).
      assert (Y : c' / b * quadratic n P0 s <= c' * M).
      { replace (c' * M) with (c' / b * (b * M)) by (field; lra). apply Rmult_le_compat_l; [left; now apply Rdiv_lt_0_compat|]. unfold b. nra. }
      apply Rmult_le_reg_r with (quadratic n P0 s); [exact Ps|]. lra. }
    apply Lub in Ub'. assert (0 < c' / b) by now apply Rdiv_lt_0_compat. lra. }
  destruct Null as (s & Nz & Qs).
  assert (A0 : along n (F t) f s = 0).
  { unfold along. rewrite (bilinear_sym n (F t) (f s) s Sf), (semidefinite_null n (F t) s (f s) Sf Semi Qs). ring. }
  assert (A1 : along n (F t) f s = along n P f s + t * along n P0 f s).
  { unfold along, F. rewrite !(bilinear_plus_matrix n P (fun i j => t * P0 i j)), !(bilinear_scal_matrix n t P0). ring. }
  assert (X1 := H s). assert (X2 := H0 s). assert (X3 := D0 s Nz).
  assert (t * along n P0 f s < 0); [|lra]. assert (along n P0 f s < 0) by nra. nra.
Qed.
Lemma stable_definite n P P0 f mu : symmetric n P -> symmetric n P0 -> positive_definite n P0 -> 0 < mu ->
  (forall s, along n P0 f s <= - (2 * mu) * quadratic n P0 s) -> (forall s, (exists i, (i < n)%nat /\ s i <> 0) -> along n P f s < 0) -> positive_definite n P.
Proof.
  intros Sp S0 D0 Hmu H0 H. assert (Semi : positive_semidefinite n P).
  { apply (stable_semidefinite n P P0 f mu); auto. intros s. destruct (classic (exists i, (i < n)%nat /\ s i <> 0)) as [X|X]; [left; now apply H|].
    assert (Z : forall i, (i < n)%nat -> s i = 0). { intros i Hi. apply NNPP. intros Y. apply X. now exists i. }
    right. unfold along, bilinear. rewrite !sum_below_zero; [ring| |]; intros i Hi; apply sum_below_zero; intros j Hj; rewrite ?(Z i Hi), ?(Z j Hj); ring. }
  intros s Hs. destruct (Rle_lt_or_eq_dec 0 _ (Semi s)) as [Y|Y]; [exact Y|]. exfalso. assert (X := H s Hs).
  unfold along in X. rewrite (bilinear_sym n P (f s) s Sp), (semidefinite_null n P s (f s) Sp Semi (eq_sym Y)) in X. lra.
Qed.
