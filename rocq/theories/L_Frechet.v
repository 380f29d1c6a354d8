(** Differentiability of terms in all their variables together. *)
From Coquelicot Require Import Coquelicot.
From Coq Require Import Reals QArith Qreals List Lra Lia Arith.
From Verif Require Import M_Syntax M_Linear S_Domains S_Dynamics S_Linear L_Calculus L_Topology L_Continuity L_Domains L_Network.
Import ListNotations.
Local Open Scope R_scope.

Definition offset (p s : state) : state := fun i => s i - p i.
Definition frechet (n : nat) (h : state -> R) (p : state) (g : nat -> R) : Prop :=
  forall e, 0 < e -> exists d, 0 < d /\
    forall s, close n d p s -> Rabs (h s - h p - sum_below n (fun j => g j * offset p s j)) <= e * maxnorm n (offset p s).

Lemma maxnorm_ge n s i : (i < n)%nat -> Rabs (s i) <= maxnorm n s.
Proof.
  intros Hi. assert (H := proj1 (maxnorm_le_box n s (maxnorm n s) (maxnorm_nonneg n s)) (Rle_refl _) i Hi).
  now apply Rabs_le_between.
Qed.
Lemma maxnorm_close n d p s : 0 < d -> close n d p s <-> maxnorm n (offset p s) < d.
Proof. intros Hd. rewrite maxnorm_lt by exact Hd. unfold near, close, offset. reflexivity. Qed.
Lemma sum_abs n (f : nat -> R) : Rabs (sum_below n f) <= sum_below n (fun j => Rabs (f j)).
Proof.
  induction n as [|n IH]; cbn [sum_below]; [rewrite Rabs_R0; lra|].
  eapply Rle_trans; [apply Rabs_triang|]. lra.
Qed.
Definition size (n : nat) (g : nat -> R) : R := sum_below n (fun j => Rabs (g j)).
Lemma size_nonneg n g : 0 <= size n g.
Proof. apply sum_below_nonneg. intros. apply Rabs_pos. Qed.
Lemma inner_bound n g s : Rabs (sum_below n (fun j => g j * s j)) <= size n g * maxnorm n s.
Proof.
  eapply Rle_trans; [apply sum_abs|]. unfold size. rewrite Rmult_comm, <- sum_below_scal. apply sum_below_le.
  intros j Hj. rewrite Rabs_mult, Rmult_comm. apply Rmult_le_compat_r; [apply Rabs_pos|]. now apply maxnorm_ge.
Qed.
Lemma frechet_ext n h h' p g g' : (forall s, h s = h' s) -> (forall j, (j < n)%nat -> g j = g' j) -> frechet n h p g -> frechet n h' p g'.
Proof.
  intros E1 E2 H e He. destruct (H e He) as (d & Hd & H'). exists d. split; [exact Hd|]. intros s Hs. rewrite <- !E1.
  rewrite <- (sum_below_ext n (fun j => g j * offset p s j)); [now apply H'|]. intros j Hj. now rewrite E2.
Qed.
(** Near the point the change is bounded by a multiple of the distance. *)
Lemma frechet_lipschitz n h p g : frechet n h p g -> exists d, 0 < d /\
  forall s, close n d p s -> Rabs (h s - h p) <= (size n g + 1) * maxnorm n (offset p s).
Proof.
  intros H. destruct (H 1 Rlt_0_1) as (d & Hd & H'). exists d. split; [exact Hd|]. intros s Hs.
  specialize (H' s Hs). assert (B := inner_bound n g (offset p s)).
  replace (h s - h p) with ((h s - h p - sum_below n (fun j => g j * offset p s j)) + sum_below n (fun j => g j * offset p s j)) by ring.
  eapply Rle_trans; [apply Rabs_triang|]. lra.
Qed.
Lemma frechet_const n c p : frechet n (fun _ => c) p (fun _ => 0).
Proof.
  intros e He. exists 1. split; [lra|]. intros s _. rewrite sum_below_zero by (intros; ring).
  replace (c - c - 0) with 0 by ring. rewrite Rabs_R0. apply Rmult_le_pos; [lra|apply maxnorm_nonneg].
Qed.
Lemma frechet_var n i p : (i < n)%nat -> frechet n (fun s => s i) p (fun j => if (i =? j)%nat then 1 else 0).
Proof.
  intros Hi e He. exists 1. split; [lra|]. intros s _. rewrite (sum_below_delta n i (offset p s)) by exact Hi. unfold offset at 1.
  replace (s i - p i - (s i - p i)) with 0 by ring. rewrite Rabs_R0. apply Rmult_le_pos; [lra|apply maxnorm_nonneg].
Qed.
Lemma frechet_plus n h k p g q : frechet n h p g -> frechet n k p q -> frechet n (fun s => h s + k s) p (fun j => g j + q j).
Proof.
  intros H K e He. destruct (H (e / 2) ltac:(lra)) as (d1 & Hd1 & H1), (K (e / 2) ltac:(lra)) as (d2 & Hd2 & H2).
  exists (Rmin d1 d2). split; [now apply Rmin_glb_lt|]. intros s Hs.
  assert (C1 : close n d1 p s) by (intros i Hi; eapply Rlt_le_trans; [now apply Hs|apply Rmin_l]).
  assert (C2 : close n d2 p s) by (intros i Hi; eapply Rlt_le_trans; [now apply Hs|apply Rmin_r]).
  specialize (H1 s C1). specialize (H2 s C2).
  rewrite (sum_below_ext n _ (fun j => g j * offset p s j + q j * offset p s j)) by (intros; ring). rewrite sum_below_plus.
  match goal with |- Rabs ?a <= _ => replace a with ((h s - h p - sum_below n (fun j => g j * offset p s j)) + (k s - k p - sum_below n (fun j => q j * offset p s j))) by ring end.
  eapply Rle_trans; [apply Rabs_triang|]. lra.
Qed.
Lemma frechet_comp n (phi : R -> R) l h p g : is_derive phi (h p) l -> frechet n h p g -> frechet n (fun s => phi (h s)) p (fun j => l * g j).
Proof.
  intros Hphi H e He. set (G := size n g + 1). assert (HG : 0 < G) by (unfold G; assert (S := size_nonneg n g); lra).
  destruct (is_derive_eps phi (h p) l Hphi (e / 2 / G)) as (d0 & Hd0 & H0); [apply Rdiv_lt_0_compat; lra|].
  destruct (frechet_lipschitz n h p g H) as (d1 & Hd1 & H1). fold G in H1.
  set (L := Rabs l + 1). assert (HL : 0 < L) by (unfold L; assert (A := Rabs_pos l); lra).
  destruct (H (e / 2 / L)) as (d2 & Hd2 & H2); [apply Rdiv_lt_0_compat; lra|].
  exists (Rmin (Rmin d1 d2) (d0 / G)). assert (HdG : 0 < d0 / G) by (apply Rdiv_lt_0_compat; lra).
  split; [apply Rmin_glb_lt; [now apply Rmin_glb_lt|exact HdG]|]. intros s Hs.
  assert (C1 : close n d1 p s) by (intros i Hi; eapply Rlt_le_trans; [now apply Hs|eapply Rle_trans; [apply Rmin_l|apply Rmin_l]]).
  assert (C2 : close n d2 p s) by (intros i Hi; eapply Rlt_le_trans; [now apply Hs|eapply Rle_trans; [apply Rmin_l|apply Rmin_r]]).
  assert (C3 : maxnorm n (offset p s) < d0 / G) by (apply maxnorm_close; [exact HdG|]; intros i Hi; eapply Rlt_le_trans; [now apply Hs|apply Rmin_r]).
  specialize (H1 s C1). specialize (H2 s C2). assert (Nn := maxnorm_nonneg n (offset p s)). set (N := maxnorm n (offset p s)) in *.
  set (D := h s - h p) in *.
  assert (B1 : Rabs (phi (h s) - phi (h p) - l * D) <= e / 2 * N).
  { destruct (Req_dec D 0) as [E|Ne].
    - assert (Es : h s = h p) by (unfold D in E; lra). rewrite Es, E. replace (phi (h p) - phi (h p) - l * 0) with 0 by ring.
      rewrite Rabs_R0. apply Rmult_le_pos; lra.
    - assert (Hlt : Rabs D < d0).
      { eapply Rle_lt_trans; [exact H1|]. apply Rmult_lt_reg_r with (/ G); [now apply Rinv_0_lt_compat|].
        replace (G * N * / G) with N by (field; lra). exact C3. }
      specialize (H0 D Ne Hlt). assert (ED : h p + D = h s) by (unfold D; lra). rewrite ED in H0.
      replace (phi (h s) - phi (h p) - l * D) with (((phi (h s) - phi (h p)) / D - l) * D) by (field; exact Ne).
      rewrite Rabs_mult. eapply Rle_trans; [apply Rmult_le_compat_r; [apply Rabs_pos|left; exact H0]|].
      eapply Rle_trans; [apply Rmult_le_compat_l; [|exact H1]|].
      + left. apply Rdiv_lt_0_compat; lra.
      + right. field. lra. }
  rewrite (sum_below_ext n _ (fun j => l * (g j * offset p s j))) by (intros; ring). rewrite sum_below_scal.
  match goal with |- Rabs ?a <= _ => replace a with ((phi (h s) - phi (h p) - l * D) + l * (D - sum_below n (fun j => g j * offset p s j))) by ring end.
  eapply Rle_trans; [apply Rabs_triang|]. rewrite (Rabs_mult l).
  assert (B2 : Rabs l * Rabs (D - sum_below n (fun j => g j * offset p s j)) <= e / 2 * N).
  { eapply Rle_trans; [apply Rmult_le_compat; [apply Rabs_pos|apply Rabs_pos| |exact H2]|].
    - apply Rle_trans with L; [unfold L; lra|apply Rle_refl].
    - right. field. lra. }
  lra.
Qed.
Lemma frechet_mult n h k p g q : frechet n h p g -> frechet n k p q ->
  frechet n (fun s => h s * k s) p (fun j => g j * k p + h p * q j).
Proof.
  intros H K e He. set (G := size n g + 1). set (Q := size n q + 1).
  assert (HG : 0 < G) by (unfold G; assert (S := size_nonneg n g); lra).
  assert (HQ : 0 < Q) by (unfold Q; assert (S := size_nonneg n q); lra).
  set (A := Rabs (k p) + 1). set (B := Rabs (h p) + 1).
  assert (HA : 0 < A) by (unfold A; assert (S := Rabs_pos (k p)); lra). assert (HB : 0 < B) by (unfold B; assert (S := Rabs_pos (h p)); lra).
  destruct (H (e / 3 / A)) as (d1 & Hd1 & H1); [apply Rdiv_lt_0_compat; lra|].
  destruct (K (e / 3 / B)) as (d2 & Hd2 & H2); [apply Rdiv_lt_0_compat; lra|].
  destruct (frechet_lipschitz n h p g H) as (d3 & Hd3 & H3), (frechet_lipschitz n k p q K) as (d4 & Hd4 & H4). fold G in H3. fold Q in H4.
  set (d5 := e / 3 / (G * Q)). assert (Hd5 : 0 < d5) by (apply Rdiv_lt_0_compat; [lra|nra]).
  exists (Rmin (Rmin (Rmin d1 d2) (Rmin d3 d4)) d5).
  split; [repeat apply Rmin_glb_lt; assumption|]. intros s Hs.
  assert (W : forall d, Rmin (Rmin (Rmin d1 d2) (Rmin d3 d4)) d5 <= d -> close n d p s)
    by (intros d Hd i Hi; eapply Rlt_le_trans; [now apply Hs|exact Hd]).
  assert (L1 := Rmin_l (Rmin (Rmin d1 d2) (Rmin d3 d4)) d5). assert (L2 := Rmin_l (Rmin d1 d2) (Rmin d3 d4)).
  assert (L3 := Rmin_r (Rmin d1 d2) (Rmin d3 d4)). assert (L4 := Rmin_l d1 d2). assert (L5 := Rmin_r d1 d2).
  assert (L6 := Rmin_l d3 d4). assert (L7 := Rmin_r d3 d4). assert (L8 := Rmin_r (Rmin (Rmin d1 d2) (Rmin d3 d4)) d5).
  specialize (H1 s (W d1 ltac:(lra))). specialize (H2 s (W d2 ltac:(lra))). specialize (H3 s (W d3 ltac:(lra))). specialize (H4 s (W d4 ltac:(lra))).
  assert (C5 := proj1 (maxnorm_close n d5 p s Hd5) (W d5 L8)).
  assert (Nn := maxnorm_nonneg n (offset p s)). set (N := maxnorm n (offset p s)) in *.
  rewrite (sum_below_ext n _ (fun j => k p * (g j * offset p s j) + h p * (q j * offset p s j))) by (intros; ring).
  rewrite sum_below_plus, !sum_below_scal.
  set (Sg := sum_below n (fun j => g j * offset p s j)) in *. set (Sq := sum_below n (fun j => q j * offset p s j)) in *.
  replace (h s * k s - h p * k p - (k p * Sg + h p * Sq))
    with ((h s - h p - Sg) * k p + h p * (k s - k p - Sq) + (h s - h p) * (k s - k p)) by ring.
  eapply Rle_trans; [apply Rabs_triang|]. eapply Rle_trans; [apply Rplus_le_compat_r; apply Rabs_triang|]. rewrite !Rabs_mult.
  assert (B1 : Rabs (h s - h p - Sg) * Rabs (k p) <= e / 3 * N).
  { eapply Rle_trans; [apply Rmult_le_compat; [apply Rabs_pos|apply Rabs_pos|exact H1|]|].
    - apply Rle_trans with A; [unfold A; lra|apply Rle_refl].
    - right. field. lra. }
  assert (B2 : Rabs (h p) * Rabs (k s - k p - Sq) <= e / 3 * N).
  { eapply Rle_trans; [apply Rmult_le_compat; [apply Rabs_pos|apply Rabs_pos| |exact H2]|].
    - apply Rle_trans with B; [unfold B; lra|apply Rle_refl].
    - right. field. lra. }
  assert (B3 : Rabs (h s - h p) * Rabs (k s - k p) <= e / 3 * N).
  { eapply Rle_trans; [apply Rmult_le_compat; [apply Rabs_pos|apply Rabs_pos|exact H3|exact H4]|].
    replace (G * N * (Q * N)) with (G * Q * N * N) by ring. apply Rmult_le_compat_r; [exact Nn|].
    apply Rle_trans with (G * Q * d5); [apply Rmult_le_compat_l; [nra|lra]|]. right. unfold d5. field. split; lra. }
  lra.
Qed.

(** The terms that sympy is given. *)
Fixpoint smooth (e : expr) : Prop :=
  match e with
  | ENum _ | EVar _ => True
  | EUn f a => (f = UNeg \/ f = UExp \/ f = USin \/ f = UCos) /\ smooth a
  | EBin f a b => f <> BMax /\ smooth a /\ smooth b
  | EPow a _ => smooth a
  | EIfPos _ _ _ => False
  end.
Lemma is_derive_pow_S a p : is_derive (fun x => x ^ S p) a (INR (S p) * a ^ p).
Proof.
  assert (H := is_derive_pow (fun x => x) (S p) a 1 (is_derive_id a)). cbn [Nat.pred] in H.
  replace (INR (S p) * a ^ p) with (INR (S p) * 1 * a ^ p) by ring. exact H.
Qed.
Lemma Q2R_of_nat p : Q2R (Z.of_nat p # 1) = INR p.
Proof. unfold Q2R. cbn. rewrite Rinv_1, Rmult_1_r. symmetry. apply INR_IZR_INZ. Qed.
Lemma Q2R_zero : Q2R 0 = 0. Proof. unfold Q2R. cbn. lra. Qed.
Lemma Q2R_one : Q2R 1 = 1. Proof. unfold Q2R. cbn. lra. Qed.
(** [diff] gives the partial derivatives. *)
Lemma frechet_eval n e p : vars_below n e -> smooth e -> defined p e -> frechet n (fun s => eval s e) p (fun j => eval p (diff j e)).
Proof.
  induction e as [q|i|f a IH|f a IHa b IHb|a IH [|k]|c _ a _ b _]; cbn [vars_below smooth]; intros Hv Hs Hd.
  - apply (frechet_ext n (fun _ => Q2R q) _ p (fun _ => 0)); [reflexivity| |apply frechet_const]. intros. cbn. now rewrite Q2R_zero.
  - apply (frechet_ext n (fun s => s i) _ p (fun j => if (i =? j)%nat then 1 else 0)); [reflexivity| |now apply frechet_var].
    intros j _. cbn [diff]. destruct (i =? j)%nat; cbn; now rewrite ?Q2R_zero, ?Q2R_one.
  - destruct Hs as [Hf Hs]. cbn [defined] in Hd. specialize (IH Hv Hs Hd).
    destruct Hf as [->|[->|[->| ->]]].
    + apply (frechet_ext n (fun s => - eval s a) _ p (fun j => -1 * eval p (diff j a))); [reflexivity|intros; cbn; ring|].
      apply (frechet_comp n (fun x => - x) (-1)); [|exact IH]. auto_derive; auto; ring.
    + apply (frechet_ext n (fun s => exp (eval s a)) _ p (fun j => exp (eval p a) * eval p (diff j a))); [reflexivity|reflexivity|].
      apply (frechet_comp n exp); [|exact IH]. auto_derive; auto; ring.
    + apply (frechet_ext n (fun s => sin (eval s a)) _ p (fun j => cos (eval p a) * eval p (diff j a))); [reflexivity|reflexivity|].
      apply (frechet_comp n sin); [|exact IH]. auto_derive; auto; ring.
    + apply (frechet_ext n (fun s => cos (eval s a)) _ p (fun j => - sin (eval p a) * eval p (diff j a))); [reflexivity|intros; cbn; ring|].
      apply (frechet_comp n cos); [|exact IH]. auto_derive; auto; ring.
  - destruct Hv as [Va Vb], Hs as (Hf & Sa & Sb). destruct f.
    + cbn [defined] in Hd. destruct Hd as [Da Db].
      apply (frechet_ext n (fun s => eval s a + eval s b) _ p (fun j => eval p (diff j a) + eval p (diff j b))); [reflexivity|reflexivity|].
      now apply frechet_plus; [apply IHa|apply IHb].
    + cbn [defined] in Hd. destruct Hd as [Da Db].
      apply (frechet_ext n (fun s => eval s a + - eval s b) _ p (fun j => eval p (diff j a) + -1 * eval p (diff j b))); [reflexivity|intros; cbn; ring|].
      apply frechet_plus; [now apply IHa|]. apply (frechet_comp n (fun x => - x) (-1)); [|now apply IHb]. auto_derive; auto; ring.
    + cbn [defined] in Hd. destruct Hd as [Da Db].
      apply (frechet_ext n (fun s => eval s a * eval s b) _ p (fun j => eval p (diff j a) * eval p b + eval p a * eval p (diff j b))); [reflexivity|reflexivity|].
      now apply (frechet_mult n (fun s => eval s a) (fun s => eval s b)); [apply IHa|apply IHb].
    + cbn [defined] in Hd. destruct Hd as (Da & Db & Nz).
      apply (frechet_ext n (fun s => eval s a * / eval s b) _ p
        (fun j => eval p (diff j a) * / eval p b + eval p a * (- / (eval p b) ^ 2 * eval p (diff j b)))); [reflexivity| |].
      { intros j _. cbn [diff eval binop_eval]. field. exact Nz. }
      apply (frechet_mult n (fun s => eval s a) (fun s => / eval s b)); [now apply IHa|].
      apply (frechet_comp n (fun x => / x)); [|now apply IHb]. auto_derive; [exact Nz|]. field. exact Nz.
    + now destruct Hf.
  - apply (frechet_ext n (fun _ => 1) _ p (fun _ => 0)); [reflexivity| |apply frechet_const]. intros. cbn. now rewrite Q2R_zero.
  - cbn [defined] in Hd. specialize (IH Hv Hs Hd).
    apply (frechet_ext n (fun s => eval s a ^ S k) _ p (fun j => INR (S k) * eval p a ^ k * eval p (diff j a))); [reflexivity| |].
    + intros j _. cbn [diff]. cbn [eval binop_eval]. rewrite Q2R_of_nat. reflexivity.
    + apply (frechet_comp n (fun x => x ^ S k)); [apply is_derive_pow_S|exact IH].
  - destruct Hs.
Qed.
