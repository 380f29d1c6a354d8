(** From eigenvalues to quadratic forms, and from unstable eigenvalues to motions. *)
From Coquelicot Require Import Coquelicot.
From Coq Require Import Reals List Lra Lia Arith Classical.
From Coquelicot Require Import Complex.
From Verif Require Import M_Syntax M_Linear S_Domains S_Certificates S_Dynamics S_Linear L_Calculus L_Topology L_Domains L_Network L_Frechet L_Quadratic.
Import ListNotations.
Local Open Scope R_scope.

(** ** Complex sums *)
Lemma csum_fst n f : fst (csum n f) = sum_below n (fun k => fst (f k)).
Proof. induction n as [|n IH]; cbn; [reflexivity|]. now rewrite <- IH. Qed.
Lemma csum_snd n f : snd (csum n f) = sum_below n (fun k => snd (f k)).
Proof. induction n as [|n IH]; cbn; [reflexivity|]. now rewrite <- IH. Qed.
Lemma csum_ext n f g : (forall k, (k < n)%nat -> f k = g k) -> csum n f = csum n g.
Proof. induction n as [|n IH]; intros H; cbn; [reflexivity|]. rewrite IH, (H n) by (intros; try apply H; lia). reflexivity. Qed.
Lemma csum_scal_l n c f : csum n (fun k => Cmult c (f k)) = Cmult c (csum n f).
Proof. induction n as [|n IH]; cbn [csum]; [now rewrite Cmult_0_r|]. rewrite IH. ring. Qed.
Lemma csum_scal_r n c f : csum n (fun k => Cmult (f k) c) = Cmult (csum n f) c.
Proof. induction n as [|n IH]; cbn [csum]; [now rewrite Cmult_0_l|]. rewrite IH. ring. Qed.
Lemma csum_plus n f g : csum n (fun k => Cplus (f k) (g k)) = Cplus (csum n f) (csum n g).
Proof. induction n as [|n IH]; cbn [csum]; [now rewrite Cplus_0_l|]. rewrite IH. ring. Qed.
Lemma csum_zero n f : (forall k, (k < n)%nat -> f k = RtoC 0) -> csum n f = RtoC 0.
Proof. induction n as [|n IH]; intros H; cbn [csum]; [reflexivity|]. rewrite IH, (H n) by (intros; try apply H; lia). apply Cplus_0_l. Qed.
Lemma csum_swap m n (g : nat -> nat -> C) : csum m (fun k => csum n (fun j => g k j)) = csum n (fun j => csum m (fun k => g k j)).
Proof. induction m as [|m IH]; cbn [csum]; [symmetry; now apply csum_zero|]. now rewrite IH, csum_plus. Qed.
Lemma csum_delta n i g : (i < n)%nat -> csum n (fun k => Cmult (identity i k) (g k)) = g i.
Proof.
  unfold identity. induction n as [|n IH]; intros Hi; [lia|]. cbn [csum]. destruct (Nat.eq_dec i n) as [->|Ne].
  - rewrite Nat.eqb_refl, Cmult_1_l, csum_zero; [apply Cplus_0_l|]. intros k Hk. destruct (Nat.eqb_spec n k); [lia|apply Cmult_0_l].
  - rewrite IH by lia. destruct (Nat.eqb_spec i n); [lia|]. now rewrite Cmult_0_l, Cplus_0_r.
Qed.
Lemma csum_real n (f : nat -> R) : csum n (fun k => RtoC (f k)) = RtoC (sum_below n f).
Proof. induction n as [|n IH]; cbn [csum sum_below]; [reflexivity|]. now rewrite IH, RtoC_plus. Qed.
Lemma cproduct_assoc n a b c i j : cproduct n (cproduct n a b) c i j = cproduct n a (cproduct n b c) i j.
Proof.
  unfold cproduct. rewrite (csum_ext n _ (fun k => csum n (fun l => Cmult (a i l) (Cmult (b l k) (c k j))))).
  - rewrite csum_swap. apply csum_ext. intros l _. now rewrite csum_scal_l.
  - intros k _. rewrite <- csum_scal_r. apply csum_ext. intros l _. ring.
Qed.
Lemma cproduct_same n a a' b b' : same n a a' -> same n b b' -> same n (cproduct n a b) (cproduct n a' b').
Proof. intros Ha Hb i j Hi Hj. apply csum_ext. intros k Hk. now rewrite Ha, Hb. Qed.
Lemma cproduct_id_l n a i j : (i < n)%nat -> cproduct n identity a i j = a i j.
Proof. intros Hi. unfold cproduct. now rewrite (csum_delta n i (fun k => a k j)). Qed.
Lemma identity_sym i j : identity i j = identity j i. Proof. unfold identity. now rewrite Nat.eqb_sym. Qed.
Lemma cproduct_id_r n a i j : (j < n)%nat -> cproduct n a identity i j = a i j.
Proof.
  intros Hj. unfold cproduct. rewrite (csum_ext n _ (fun k => Cmult (identity j k) (a i k))).
  - now rewrite (csum_delta n j (fun k => a i k)).
  - intros k _. rewrite (identity_sym k j). ring.
Qed.
(** Squared modulus and real scalar product. *)
Definition sq (z : C) : R := fst z * fst z + snd z * snd z.
Definition dot (z w : C) : R := fst z * fst w + snd z * snd w.
Lemma sq_nonneg z : 0 <= sq z. Proof. unfold sq. nra. Qed.
Lemma sq_zero z : sq z = 0 -> z = RtoC 0.
Proof. unfold sq. destruct z as [x y]. cbn. intros H. assert (x = 0 /\ y = 0) as [-> ->] by (split; nra). reflexivity. Qed.
Lemma dot_le e z w : 0 < e -> 2 * dot z w <= e * sq z + / e * sq w.
Proof.
  intros He. unfold dot, sq. assert (P := Rinv_0_lt_compat e He).
  assert (H : forall a b, 2 * (a * b) <= e * (a * a) + / e * (b * b)).
  { intros a b. assert (Q : 0 <= / e * ((e * a - b) * (e * a - b))) by (apply Rmult_le_pos; [lra|apply Rle_0_sqr]).
    replace (/ e * ((e * a - b) * (e * a - b))) with (e * (a * a) - 2 * (a * b) + / e * (b * b)) in Q by (field; lra). lra. }
  assert (H1 := H (fst z) (fst w)). assert (H2 := H (snd z) (snd w)). lra.
Qed.
Lemma dot_comm z w : dot z w = dot w z. Proof. unfold dot. ring. Qed.
Lemma sq_mult z w : sq (Cmult z w) = sq z * sq w. Proof. unfold sq, Cmult. cbn. ring. Qed.
Lemma dot_sum n z f : dot z (csum n f) = sum_below n (fun k => dot z (f k)).
Proof.
  unfold dot. rewrite csum_fst, csum_snd, <- !sum_below_scal, <- sum_below_plus. reflexivity.
Qed.
Lemma sum_below_const n c : sum_below n (fun _ => c) = INR n * c.
Proof. induction n as [|n IH]; [cbn; ring|]. rewrite S_INR. cbn [sum_below]. rewrite IH. ring. Qed.
Lemma sum_below_nneg_le n (f : nat -> R) m : (m <= n)%nat -> (forall j, 0 <= f j) -> sum_below m f <= sum_below n f.
Proof. intros H P. induction H as [|n H IH]; [lra|]. cbn [sum_below]. specialize (P n). lra. Qed.
(** A common bound of finitely many numbers, and a common gap. *)
Lemma finite_bound n (f : nat -> nat -> R) : exists B, 0 < B /\ forall i j, (i < n)%nat -> (j < n)%nat -> f i j <= B.
Proof.
  exists (sum_below n (fun i => sum_below n (fun j => Rabs (f i j))) + 1). split.
  - assert (0 <= sum_below n (fun i => sum_below n (fun j => Rabs (f i j)))) by (apply sum_below_nonneg; intros; apply sum_below_nonneg; intros; apply Rabs_pos). lra.
  - intros i j Hi Hj. eapply Rle_trans; [apply Rle_abs|]. apply Rle_trans with (sum_below n (fun i => sum_below n (fun j => Rabs (f i j)))); [|lra].
    assert (In : forall n (g : nat -> R) j, (j < n)%nat -> (forall j, 0 <= g j) -> g j <= sum_below n g).
    { intros n0 g j0 Hj0 P. apply Rle_trans with (sum_below (S j0) g); [|now apply sum_below_nneg_le].
      cbn [sum_below]. assert (0 <= sum_below j0 g) by (apply sum_below_nonneg; auto). lra. }
    eapply Rle_trans; [|apply (In n (fun i => sum_below n (fun j => Rabs (f i j))) i Hi)].
    + apply (In n (fun j => Rabs (f i j)) j Hj). intros; apply Rabs_pos.
    + intros; apply sum_below_nonneg; intros; apply Rabs_pos.
Qed.
Lemma finite_gap (l : list C) b : (forall z, In z l -> fst z < b) -> exists d, 0 < d /\ forall z, In z l -> fst z <= b - d.
Proof.
  induction l as [|z l IH]; intros H; [exists 1; split; [lra|intros z []]|].
  destruct IH as (d & Hd & H'); [intros w Hw; apply H; now right|]. assert (Hz := H z (or_introl eq_refl)).
  exists (Rmin d (b - fst z)). split; [apply Rmin_glb_lt; lra|]. intros w [<-|Hw].
  - assert (M := Rmin_r d (b - fst z)). lra.
  - specialize (H' w Hw). assert (M := Rmin_l d (b - fst z)). lra.
Qed.
Lemma geometric K j : 1 <= K -> (K - 1) * sum_below j (fun k => K ^ k) <= K ^ j.
Proof.
  intros HK. assert (E : (K - 1) * sum_below j (fun k => K ^ k) = K ^ j - 1).
  { induction j as [|j IH]; cbn [sum_below pow]; [ring|]. rewrite Rmult_plus_distr_l, IH. ring. }
  lra.
Qed.

(** ** The form *)
Section Form.
  Context (n : nat) (a : matrix) (l : list C) (Z W T : cmatrix).
  Hypothesis (Ll : List.length l = n) (WZ : same n (cproduct n W Z) identity) (ZW : same n (cproduct n Z W) identity)
    (AZ : same n (cproduct n (fun i j => RtoC (a i j)) Z) (cproduct n Z T))
    (Tri : forall i j, (j < i < n)%nat -> T i j = RtoC 0) (Dia : forall k, (k < n)%nat -> T k k = nth k l (RtoC 0)).
  Let Ac : cmatrix := fun i j => RtoC (a i j).
  Lemma WA : same n (cproduct n W Ac) (cproduct n T W).
  Proof.
    intros i j Hi Hj.
    transitivity (cproduct n (cproduct n W Ac) identity i j); [now rewrite cproduct_id_r|].
    transitivity (cproduct n (cproduct n W Ac) (cproduct n Z W) i j).
    { apply csum_ext. intros k Hk. now rewrite ZW. }
    rewrite <- cproduct_assoc.
    transitivity (cproduct n (cproduct n identity T) W i j).
    { apply csum_ext. intros k Hk. f_equal. rewrite cproduct_assoc.
      transitivity (cproduct n W (cproduct n Z T) i k); [apply csum_ext; intros p Hp; now rewrite <- AZ|].
      rewrite <- cproduct_assoc. apply csum_ext. intros p Hp. now rewrite WZ. }
    apply csum_ext. intros k Hk. now rewrite cproduct_id_l.
  Qed.
  (** Coordinates. *)
  Definition coordinate (k : nat) (s : state) : C := csum n (fun j => Cmult (W k j) (RtoC (s j))).
  Lemma coordinate_linear k s : (k < n)%nat -> coordinate k (linear n a s) = csum n (fun j => Cmult (T k j) (coordinate j s)).
  Proof.
    intros Hk. unfold coordinate, linear.
    rewrite (csum_ext n _ (fun j => csum n (fun i => Cmult (Cmult (W k j) (Ac j i)) (RtoC (s i))))).
    - rewrite csum_swap. rewrite (csum_ext n _ (fun i => Cmult (cproduct n W Ac k i) (RtoC (s i)))) by (intros i _; now rewrite csum_scal_r).
      rewrite (csum_ext n _ (fun i => Cmult (cproduct n T W k i) (RtoC (s i)))) by (intros i Hi; now rewrite WA).
      unfold cproduct. rewrite (csum_ext n (fun i => Cmult (csum n (fun j => Cmult (T k j) (W j i))) (RtoC (s i)))
        (fun i => csum n (fun j => Cmult (T k j) (Cmult (W j i) (RtoC (s i)))))).
      + rewrite csum_swap. apply csum_ext. intros j _. now rewrite csum_scal_l.
      + intros i _. rewrite <- csum_scal_r. apply csum_ext. intros j _. ring.
    - intros j _. rewrite <- csum_real, <- csum_scal_l. apply csum_ext. intros i _. unfold Ac. rewrite RtoC_mult. ring.
  Qed.
  Lemma coordinate_zero s : (forall k, (k < n)%nat -> coordinate k s = RtoC 0) -> forall i, (i < n)%nat -> s i = 0.
  Proof.
    intros H i Hi. apply RtoC_inj. transitivity (csum n (fun k => Cmult (identity i k) (RtoC (s k)))); [now rewrite csum_delta|].
    rewrite (csum_ext n _ (fun k => csum n (fun p => Cmult (Z i p) (Cmult (W p k) (RtoC (s k)))))).
    - rewrite csum_swap. apply csum_zero. intros p Hp. rewrite csum_scal_l. fold (coordinate p s). rewrite (H p Hp). apply Cmult_0_r.
    - intros k Hk. rewrite <- ZW by assumption. unfold cproduct. rewrite <- csum_scal_r. apply csum_ext. intros. ring.
  Qed.
  Context (w : nat -> R).
  Definition form : matrix := fun i j => sum_below n (fun k => w k * dot (W k i) (W k j)).
  Lemma form_bilinear v v' : bilinear n n form v v' = sum_below n (fun k => w k * dot (coordinate k v) (coordinate k v')).
  Proof.
    unfold bilinear, form.
    rewrite (sum_below_ext n _ (fun i => sum_below n (fun j => sum_below n (fun k => w k * (v i * dot (W k i) (W k j) * v' j))))).
    2: { intros i _. apply sum_below_ext. intros j _. rewrite Rmult_comm, <- Rmult_assoc, <- sum_below_scal. apply sum_below_ext. intros; ring. }
    rewrite (sum_below_ext n _ (fun i => sum_below n (fun k => sum_below n (fun j => w k * (v i * dot (W k i) (W k j) * v' j))))) by (intros; apply sum_below_swap).
    rewrite sum_below_swap. apply sum_below_ext. intros k _.
    rewrite (sum_below_ext n _ (fun i => w k * sum_below n (fun j => v i * dot (W k i) (W k j) * v' j))) by (intros; apply sum_below_scal).
    rewrite sum_below_scal. f_equal. unfold coordinate. rewrite dot_sum. rewrite sum_below_swap. apply sum_below_ext. intros j _.
    unfold dot. rewrite csum_fst, csum_snd. cbn [fst snd Cmult RtoC].
    rewrite (sum_below_ext n _ (fun i => (fst (W k j) * v' j) * (fst (W k i) * v i) + (snd (W k j) * v' j) * (snd (W k i) * v i))) by (intros; ring).
    rewrite sum_below_plus, !sum_below_scal.
    rewrite (sum_below_ext n (fun i => fst (W k i) * v i - snd (W k i) * 0) (fun i => fst (W k i) * v i)) by (intros; ring).
    rewrite (sum_below_ext n (fun i => fst (W k i) * 0 + snd (W k i) * v i) (fun i => snd (W k i) * v i)) by (intros; ring). ring.
  Qed.
  Lemma form_symmetric : symmetric n form.
  Proof. intros i j _ _. apply sum_below_ext. intros. unfold dot. ring. Qed.
  Hypothesis (Hw : forall k, 0 < w k).
  Lemma form_quadratic v : quadratic n form v = sum_below n (fun k => w k * sq (coordinate k v)).
  Proof. unfold quadratic. rewrite form_bilinear. reflexivity. Qed.
  Lemma form_positive : positive_definite n form.
  Proof.
    intros v (i & Hi & Nz). rewrite form_quadratic.
    assert (P : forall k, 0 <= w k * sq (coordinate k v)) by (intros; apply Rmult_le_pos; [left; apply Hw|apply sq_nonneg]).
    destruct (Rle_lt_or_eq_dec 0 (sum_below n (fun k => w k * sq (coordinate k v)))) as [L|E]; [apply sum_below_nonneg; auto|exact L|].
    exfalso. apply Nz. apply coordinate_zero with (i := i); [|exact Hi]. intros k Hk. apply sq_zero.
    assert (B : w k * sq (coordinate k v) <= sum_below n (fun k => w k * sq (coordinate k v))).
    { apply Rle_trans with (sum_below (S k) (fun k => w k * sq (coordinate k v))); [|now apply sum_below_nneg_le].
      cbn [sum_below]. assert (0 <= sum_below k (fun k => w k * sq (coordinate k v))) by (apply sum_below_nonneg; auto). lra. }
    assert (S0 := sq_nonneg (coordinate k v)). specialize (Hw k). nra.
  Qed.
End Form.
Lemma sum_if_lt n k (f : nat -> R) : (k < n)%nat -> sum_below n (fun j => if (k <? j)%nat then f j else 0) = sum_below n f - sum_below (S k) f.
Proof.
  intros H. induction n as [|n IH]; [lia|]. cbn [sum_below]. destruct (Nat.eq_dec k n) as [->|Ne].
  - rewrite Nat.ltb_irrefl. rewrite sum_below_zero; [cbn; ring|]. intros j Hj. now rewrite (proj2 (Nat.ltb_ge n j)) by lia.
  - rewrite IH by lia. rewrite (proj2 (Nat.ltb_lt k n)) by lia. cbn [sum_below]. ring.
Qed.
Lemma sum_below_if n j (f : nat -> R) : (j < n)%nat -> sum_below n (fun k => if (k <? j)%nat then f k else 0) = sum_below j f.
Proof.
  intros H. induction n as [|n IH]; [lia|]. cbn [sum_below]. destruct (Nat.eq_dec j n) as [->|Ne].
  - rewrite Nat.ltb_irrefl, Rplus_0_r. apply sum_below_ext. intros k Hk. now rewrite (proj2 (Nat.ltb_lt k n)).
  - rewrite IH by lia. rewrite (proj2 (Nat.ltb_ge n j)) by lia. ring.
Qed.
(** Eigenvalues to the left of [- mu] give a form that shrinks faster than [mu]. *)
Lemma eigenvalues_form n a l mu : eigenvalues n a l -> (forall z, In z l -> fst z < - mu) ->
  exists P mu', mu < mu' /\ symmetric n P /\ positive_definite n P /\ forall s, along n P (linear n a) s <= - (2 * mu') * quadratic n P s.
Proof.
  intros (Ll & Z & W & T & WZ & ZW & AZ & Tri & Dia) Hl.
  destruct (finite_gap l (- mu) Hl) as (d2 & Hd2 & Gap). set (d := d2 / 2).
  destruct (finite_bound n (fun i j => sq (T i j))) as (tau & Ht & Bt).
  set (e := d / (INR n + 1)). assert (In := pos_INR n). assert (He : 0 < e) by (apply Rdiv_lt_0_compat; unfold d; lra).
  set (K := 1 + tau / e / d). assert (HK : 1 < K) by (unfold K; assert (0 < tau / e / d) by (repeat apply Rdiv_lt_0_compat; unfold d; lra); lra).
  set (w := fun k => K ^ k). assert (Hw : forall k, 0 < w k) by (intros; apply pow_lt; lra).
  exists (form n W w), (mu + d). split; [unfold d; lra|]. split; [apply form_symmetric|]. split; [now apply (form_positive n Z W ZW w Hw)|].
  intros s. unfold along. rewrite !form_bilinear, form_quadratic. set (y := fun k => coordinate n W k s).
  rewrite <- sum_below_plus.
  assert (Each : forall k, (k < n)%nat ->
    w k * dot (coordinate n W k (linear n a s)) (y k) + w k * dot (y k) (coordinate n W k (linear n a s))
    <= - (2 * (mu + d)) * (w k * sq (y k)) - d * (w k * sq (y k)) + sum_below n (fun j => if (k <? j)%nat then tau / e * (w k * sq (y j)) else 0)).
  { intros k Hk. rewrite (coordinate_linear n a Z W T WZ ZW AZ k s Hk). fold (y k).
    rewrite (dot_comm (csum n _) (y k)). change (csum n (fun j => Cmult (T k j) (coordinate n W j s))) with (csum n (fun j => Cmult (T k j) (y j))).
    rewrite dot_sum.
    assert (B : 2 * sum_below n (fun j => dot (y k) (Cmult (T k j) (y j))) <=
      sum_below n (fun j => (if (k =? j)%nat then 1 else 0) * (2 * fst (T k k) * sq (y k)) + (e * sq (y k) + (if (k <? j)%nat then tau / e * sq (y j) else 0)))).
    { rewrite <- sum_below_scal. apply sum_below_le. intros j Hj. destruct (Nat.eqb_spec k j) as [<-|Ne].
      - rewrite Nat.ltb_irrefl. assert (S0 := sq_nonneg (y k)). unfold dot, sq, Cmult in *. cbn [fst snd]. nra.
      - destruct (Nat.ltb_spec k j) as [L|L].
        + assert (D := dot_le e (y k) (Cmult (T k j) (y j)) He). rewrite sq_mult in D.
          assert (Q : / e * (sq (T k j) * sq (y j)) <= tau / e * sq (y j)).
          { unfold Rdiv. rewrite (Rmult_comm tau), Rmult_assoc. apply Rmult_le_compat_l; [left; now apply Rinv_0_lt_compat|].
            apply Rmult_le_compat_r; [apply sq_nonneg|]. now apply Bt. }
          lra.
        + rewrite (Tri k j) by lia. rewrite Cmult_0_l. assert (S0 := sq_nonneg (y k)). unfold dot. cbn [fst snd RtoC]. nra. }
    rewrite !sum_below_plus in B. rewrite (sum_below_delta n k (fun _ => 2 * fst (T k k) * sq (y k)) Hk) in B. rewrite sum_below_const in B.
    assert (F : fst (T k k) <= - mu - d2).
    { rewrite (Dia k Hk). apply Gap. apply nth_In. lia. }
    assert (S0 := sq_nonneg (y k)). assert (Wk := Hw k).
    assert (E1 : INR n * (e * sq (y k)) <= d * sq (y k)).
    { rewrite <- Rmult_assoc. apply Rmult_le_compat_r; [exact S0|]. unfold e. apply Rmult_le_reg_r with (INR n + 1); [lra|].
      replace (INR n * (d / (INR n + 1)) * (INR n + 1)) with (INR n * d) by (field; lra). unfold d. nra. }
    rewrite (sum_below_ext n (fun j => if (k <? j)%nat then tau / e * (w k * sq (y j)) else 0) (fun j => w k * (if (k <? j)%nat then tau / e * sq (y j) else 0))) by (intros j _; destruct (k <? j)%nat; ring).
    rewrite sum_below_scal. set (U := sum_below n (fun j => if (k <? j)%nat then tau / e * sq (y j) else 0)) in *.
    set (X := sum_below n (fun j => dot (y k) (Cmult (T k j) (y j)))) in *.
    assert (X2 : 2 * X <= (- (2 * (mu + d)) - d) * sq (y k) + U).
    { apply Rle_trans with (2 * fst (T k k) * sq (y k) + (INR n * (e * sq (y k)) + U)); [exact B|].
      assert (fst (T k k) * sq (y k) <= (- mu - d2) * sq (y k)) by (apply Rmult_le_compat_r; assumption). unfold d in *. nra. }
    assert (W2 : w k * (2 * X) <= w k * ((- (2 * (mu + d)) - d) * sq (y k) + U)) by (apply Rmult_le_compat_l; lra). nra. }
  eapply Rle_trans; [apply sum_below_le; exact Each|].
  rewrite sum_below_plus, sum_below_swap.
  rewrite (sum_below_ext n (fun k => - (2 * (mu + d)) * (w k * sq (y k)) - d * (w k * sq (y k))) (fun k => - (2 * (mu + d)) * (w k * sq (y k)) + - d * (w k * sq (y k)))) by (intros; ring).
  rewrite sum_below_plus, !sum_below_scal.
  assert (Last : sum_below n (fun j => sum_below n (fun k => if (k <? j)%nat then tau / e * (w k * sq (y j)) else 0)) <= d * sum_below n (fun k => w k * sq (y k))).
  { rewrite <- sum_below_scal. apply sum_below_le. intros j Hj.
    rewrite (sum_below_if n j (fun k => tau / e * (w k * sq (y j))) Hj).
    rewrite (sum_below_ext j _ (fun k => (tau / e * sq (y j)) * w k)) by (intros; ring). rewrite sum_below_scal.
    assert (G := geometric K j ltac:(lra)). assert (S0 := sq_nonneg (y j)).
    replace (tau / e * sq (y j) * sum_below j w) with (d * sq (y j) * ((K - 1) * sum_below j w)) by (unfold K; field; split; unfold d; lra).
    replace (d * (w j * sq (y j))) with (d * sq (y j) * w j) by ring. apply Rmult_le_compat_l; [unfold d; nra|exact G]. }
  change (fun k => w k * sq (coordinate n W k s)) with (fun k => w k * sq (y k)). lra.
Qed.

(** ** Motions along eigenvectors *)
Lemma back_substitution n (T : cmatrix) (lambda : C) k : (k < n)%nat -> (forall i j, (j < i < n)%nat -> T i j = RtoC 0) ->
  T k k = lambda -> (forall j, (j < k)%nat -> T j j <> lambda) ->
  forall m, (m <= k)%nat -> exists y : nat -> C, y k = RtoC 1 /\ (forall i, (k < i)%nat -> y i = RtoC 0) /\
    forall i, (Nat.sub k m <= i < n)%nat -> csum n (fun j => Cmult (T i j) (y j)) = Cmult lambda (y i).
Proof.
  intros Hk Tri Ek Ne. induction m as [|m IH]; intros Hm.
  - exists (fun i => if (i =? k)%nat then RtoC 1 else RtoC 0). split; [now rewrite Nat.eqb_refl|]. split.
    + intros i Hi. destruct (Nat.eqb_spec i k); [lia|reflexivity].
    + intros i [Hi Hin]. rewrite (csum_ext n _ (fun j => Cmult (identity k j) (T i j))).
      * rewrite (csum_delta n k (fun j => T i j) Hk). destruct (Nat.eqb_spec i k) as [->|D]; [rewrite Ek; ring|]. rewrite Tri by lia. ring.
      * intros j _. unfold identity. rewrite Nat.eqb_sym. destruct (k =? j)%nat; ring.
  - destruct IH as (y & Y1 & Y2 & Y3); [lia|]. set (p := Nat.sub k (S m)).
    assert (Np : Cminus (T p p) lambda <> RtoC 0).
    { intros E. apply (Ne p ltac:(unfold p; lia)). rewrite <- (Cplus_0_r lambda), <- E. ring. }
    set (v := Cdiv (csum n (fun j => if (j =? p)%nat then RtoC 0 else Cmult (T p j) (y j))) (Cminus lambda (T p p))).
    assert (Np' : Cminus lambda (T p p) <> RtoC 0) by (intros E; apply Np; replace (Cminus (T p p) lambda) with (Copp (Cminus lambda (T p p))) by ring; rewrite E; ring).
    exists (fun i => if (i =? p)%nat then v else y i). split; [destruct (Nat.eqb_spec k p); [unfold p in *; lia|exact Y1]|]. split.
    + intros i Hi. destruct (Nat.eqb_spec i p); [unfold p in *; lia|now apply Y2].
    + intros i [Hi Hin]. destruct (Nat.eqb_spec i p) as [->|D].
      * rewrite (csum_ext n _ (fun j => Cplus (Cmult (identity p j) (Cmult (T p p) v)) (if (j =? p)%nat then RtoC 0 else Cmult (T p j) (y j)))).
        -- rewrite csum_plus. rewrite (csum_delta n p (fun _ => Cmult (T p p) v)) by (unfold p; lia).
           assert (E : csum n (fun j => if (j =? p)%nat then RtoC 0 else Cmult (T p j) (y j)) = Cmult v (Cminus lambda (T p p))) by (unfold v; field; exact Np').
           rewrite E. ring.
        -- intros j _. unfold identity. destruct (Nat.eqb_spec j p) as [->|D]; [rewrite Nat.eqb_refl; ring|]. destruct (Nat.eqb_spec p j); [lia|ring].
      * rewrite <- (Y3 i) by (unfold p in *; lia). apply csum_ext. intros j _. destruct (Nat.eqb_spec j p) as [->|]; [|reflexivity].
        rewrite Tri by (unfold p in *; lia). ring.
Qed.
Lemma first_index {A} (l : list A) z d : In z l -> exists k, (k < List.length l)%nat /\ nth k l d = z /\ forall j, (j < k)%nat -> nth j l d <> z.
Proof.
  intros H. induction l as [|b l IH]; [destruct H|]. destruct (classic (b = z)) as [E|E].
  - exists 0%nat. cbn. split; [lia|]. split; [exact E|]. intros j Hj. lia.
  - destruct H as [H|H]; [contradiction|]. destruct (IH H) as (k & Hk & Ek & Nk). exists (S k). cbn. split; [lia|]. split; [exact Ek|].
    intros [|j] Hj; [exact E|]. apply Nk. lia.
Qed.
Lemma eigenvector n a l lambda : eigenvalues n a l -> In lambda l ->
  exists zeta : nat -> C, (exists i, (i < n)%nat /\ zeta i <> RtoC 0) /\
    forall i, (i < n)%nat -> csum n (fun j => Cmult (RtoC (a i j)) (zeta j)) = Cmult lambda (zeta i).
Proof.
  intros (Ll & Z & W & T & WZ & ZW & AZ & Tri & Dia) Hl. destruct (first_index l lambda (RtoC 0) Hl) as (k & Hk & Ek & Nk). rewrite Ll in Hk.
  destruct (back_substitution n T lambda k Hk Tri) with (m := k) as (y & Y1 & _ & Y3); [now rewrite Dia| |lia|].
  { intros j Hj. rewrite Dia by lia. now apply Nk. }
  exists (fun i => csum n (fun j => Cmult (Z i j) (y j))). split.
  - apply NNPP. intros K. assert (H0 : forall i, (i < n)%nat -> csum n (fun j => Cmult (Z i j) (y j)) = RtoC 0).
    { intros i Hi. apply NNPP. intros K'. apply K. now exists i. }
    assert (E : y k = RtoC 0).
    { transitivity (csum n (fun j => Cmult (cproduct n W Z k j) (y j))).
      - rewrite (csum_ext n _ (fun j => Cmult (identity k j) (y j))) by (intros j Hj; now rewrite WZ). now rewrite csum_delta.
      - unfold cproduct. rewrite (csum_ext n _ (fun j => csum n (fun p => Cmult (W k p) (Cmult (Z p j) (y j))))).
        + rewrite csum_swap. apply csum_zero. intros p Hp. rewrite csum_scal_l, H0 by exact Hp. apply Cmult_0_r.
        + intros j _. rewrite <- csum_scal_r. apply csum_ext. intros; ring. }
    rewrite Y1 in E. apply RtoC_inj in E. lra.
  - intros i Hi. rewrite (csum_ext n _ (fun j => csum n (fun p => Cmult (Cmult (RtoC (a i j)) (Z j p)) (y p)))).
    + rewrite csum_swap. rewrite (csum_ext n _ (fun p => Cmult (cproduct n Z T i p) (y p))).
      * unfold cproduct. rewrite (csum_ext n _ (fun p => csum n (fun q => Cmult (Z i q) (Cmult (T q p) (y p))))).
        -- rewrite csum_swap. rewrite <- csum_scal_l. apply csum_ext. intros q Hq. rewrite csum_scal_l, Y3 by lia. ring.
        -- intros p _. rewrite <- csum_scal_r. apply csum_ext. intros; ring.
      * intros p Hp. rewrite csum_scal_r. f_equal. exact (AZ i p Hi Hp).
    + intros j _. rewrite <- csum_scal_l. apply csum_ext. intros; ring.
Qed.
(** An eigenvalue is the growth rate of some motion, seen once in every period. *)
Lemma eigen_motion n a l lambda : eigenvalues n a l -> In lambda l ->
  exists x, solves_forever n (linear n a) x /\ (exists i, (i < n)%nat /\ x 0 i <> 0) /\
    forall T, exists t, T <= t /\ 0 <= t /\ forall i, x t i = exp (fst lambda * t) * x 0 i.
Proof.
  intros He Hl. destruct (eigenvector n a l lambda He Hl) as (z0 & (i0 & Hi0 & Nz) & E0).
  assert (Z : exists zeta : nat -> C, fst (zeta i0) <> 0 /\ forall i, (i < n)%nat -> csum n (fun j => Cmult (RtoC (a i j)) (zeta j)) = Cmult lambda (zeta i)).
  { destruct (Req_dec (fst (z0 i0)) 0) as [E|E]; [|now exists z0].
    exists (fun i => Cmult (0, 1) (z0 i)). split.
    - intros K. apply Nz. destruct (z0 i0) as [p q]. cbn in *. apply injective_projections; cbn; lra.
    - intros i Hi. rewrite (csum_ext n _ (fun j => Cmult (0, 1) (Cmult (RtoC (a i j)) (z0 j)))) by (intros; ring). rewrite csum_scal_l, E0 by exact Hi. ring. }
  clear Nz E0 z0. destruct Z as (zeta & Nz & E). destruct lambda as [al be]. cbn [fst].
  set (x := fun (t : R) (i : nat) => exp (al * t) * (cos (be * t) * fst (zeta i) - sin (be * t) * snd (zeta i))).
  assert (X0 : forall i, x 0 i = fst (zeta i)) by (intros i; unfold x; rewrite !Rmult_0_r, exp_0, cos_0, sin_0; ring).
  exists x. split; [|split].
  - intros t Ht i Hi. specialize (E i Hi).
    assert (Ef : sum_below n (fun j => a i j * fst (zeta j)) = al * fst (zeta i) - be * snd (zeta i)).
    { apply (f_equal fst) in E. rewrite csum_fst in E. cbn [fst snd Cmult RtoC] in E. rewrite <- E. apply sum_below_ext. intros; ring. }
    assert (Es : sum_below n (fun j => a i j * snd (zeta j)) = al * snd (zeta i) + be * fst (zeta i)).
    { apply (f_equal snd) in E. rewrite csum_snd in E. cbn [fst snd Cmult RtoC] in E. rewrite <- E. apply sum_below_ext. intros; ring. }
    assert (V : linear n a (x t) i = exp (al * t) * (cos (be * t) * (al * fst (zeta i) - be * snd (zeta i)) - sin (be * t) * (al * snd (zeta i) + be * fst (zeta i)))).
    { rewrite <- Ef, <- Es. unfold linear, x. rewrite Rmult_minus_distr_l, <- !sum_below_scal.
      assert (Sub : forall f g, sum_below n f - sum_below n g = sum_below n (fun j => f j - g j)).
      { intros f g. replace (sum_below n f - sum_below n g) with (sum_below n f + - 1 * sum_below n g) by ring. rewrite <- sum_below_scal, <- sum_below_plus. apply sum_below_ext. intros; ring. }
      rewrite Sub. apply sum_below_ext. intros; ring. }
    rewrite V. unfold x. auto_derive; [exact I|ring].
  - exists i0. now rewrite X0.
  - intros T. destruct (Req_dec be 0) as [->|Nb].
    + exists (Rmax T 0). split; [apply Rmax_l|]. split; [apply Rmax_r|]. intros i. rewrite X0. unfold x. rewrite Rmult_0_l, cos_0, sin_0. ring.
    + assert (Pb : 0 < Rabs be) by now apply Rabs_pos_lt. assert (Pp := PI_RGT_0).
      set (p := 2 * PI / Rabs be). assert (Hp : 0 < p) by (apply Rdiv_lt_0_compat; lra).
      assert (Q0 : 0 <= Rmax T 0 / p) by (apply Rmult_le_pos; [apply Rmax_r|left; now apply Rinv_0_lt_compat]).
      destruct (nfloor_ex (Rmax T 0 / p) Q0) as [k0 [_ Hk0]]. set (k := S k0). assert (Hk : Rmax T 0 / p < INR k) by (unfold k; rewrite S_INR; exact Hk0). exists (INR k * p).
      assert (L : Rmax T 0 <= INR k * p) by (apply Rmult_le_reg_r with (/ p); [now apply Rinv_0_lt_compat|]; rewrite Rmult_assoc, Rinv_r, Rmult_1_r by lra; unfold Rdiv in Hk; lra).
      assert (A1 := Rmax_l T 0). assert (A2 := Rmax_r T 0). split; [lra|]. split; [lra|].
      assert (P2 : forall m, cos (2 * INR m * PI) = 1 /\ sin (2 * INR m * PI) = 0).
      { intros m. assert (C1 := cos_period 0 m). assert (S1 := sin_period 0 m). rewrite Rplus_0_l in C1, S1. rewrite C1, S1, cos_0, sin_0. now split. }
      assert (Cs : cos (be * (INR k * p)) = 1 /\ sin (be * (INR k * p)) = 0).
      { destruct (P2 k) as [P3 P4]. unfold p. destruct (Rle_dec 0 be) as [B|B].
        - rewrite Rabs_right by lra. replace (be * (INR k * (2 * PI / be))) with (2 * INR k * PI) by (field; lra). now split.
        - rewrite Rabs_left by lra. replace (be * (INR k * (2 * PI / - be))) with (- (2 * INR k * PI)) by (field; lra). rewrite cos_neg, sin_neg, P4. split; [exact P3|ring]. }
      intros i. rewrite X0. unfold x. destruct Cs as [-> ->]. ring.
Qed.
