(** Quadratic Lyapunov functions. *)
From Coquelicot Require Import Coquelicot.
From Coq Require Import Reals QArith Qreals List Lra Lia Arith Classical.
From Verif Require Import M_Syntax M_Linear S_Domains S_Certificates S_Dynamics S_Linear L_Calculus L_Topology L_Continuity L_Domains L_Network L_Frechet.
Import ListNotations.
Local Open Scope R_scope.

(** ** Bilinear forms *)
Lemma bilinear_ext n m a a' v v' w w' :
  (forall i j, (i < n)%nat -> (j < m)%nat -> a i j = a' i j) -> (forall i, (i < n)%nat -> v i = v' i) -> (forall j, (j < m)%nat -> w j = w' j) ->
  bilinear n m a v w = bilinear n m a' v' w'.
Proof. intros Ea Ev Ew. apply sum_below_ext. intros i Hi. apply sum_below_ext. intros j Hj. now rewrite Ea, Ev, Ew. Qed.
Lemma bilinear_plus_l n m a v v' w : bilinear n m a (fun i => v i + v' i) w = bilinear n m a v w + bilinear n m a v' w.
Proof.
  unfold bilinear. rewrite <- sum_below_plus. apply sum_below_ext. intros i _. rewrite <- sum_below_plus. apply sum_below_ext. intros; ring.
Qed.
Lemma bilinear_plus_r n m a v w w' : bilinear n m a v (fun i => w i + w' i) = bilinear n m a v w + bilinear n m a v w'.
Proof.
  unfold bilinear. rewrite <- sum_below_plus. apply sum_below_ext. intros i _. rewrite <- sum_below_plus. apply sum_below_ext. intros; ring.
Qed.
Lemma bilinear_scal_l n m a c v w : bilinear n m a (fun i => c * v i) w = c * bilinear n m a v w.
Proof.
  unfold bilinear. rewrite <- sum_below_scal. apply sum_below_ext. intros i _. rewrite <- sum_below_scal. apply sum_below_ext. intros; ring.
Qed.
Lemma bilinear_scal_r n m a c v w : bilinear n m a v (fun i => c * w i) = c * bilinear n m a v w.
Proof.
  unfold bilinear. rewrite <- sum_below_scal. apply sum_below_ext. intros i _. rewrite <- sum_below_scal. apply sum_below_ext. intros; ring.
Qed.
Definition weight_of (n m : nat) (a : matrix) : R := sum_below n (fun i => sum_below m (fun j => Rabs (a i j))).
Lemma weight_nonneg n m a : 0 <= weight_of n m a.
Proof. apply sum_below_nonneg. intros. apply sum_below_nonneg. intros. apply Rabs_pos. Qed.
Lemma bilinear_bound n m a v w : Rabs (bilinear n m a v w) <= weight_of n m a * maxnorm n v * maxnorm m w.
Proof.
  unfold bilinear, weight_of. eapply Rle_trans; [apply sum_abs|]. rewrite Rmult_assoc, Rmult_comm, <- sum_below_scal. apply sum_below_le. intros i Hi.
  eapply Rle_trans; [apply sum_abs|]. rewrite <- sum_below_scal. apply sum_below_le. intros j Hj. rewrite !Rabs_mult.
  assert (A := maxnorm_ge n v i Hi). assert (B := maxnorm_ge m w j Hj). assert (P := Rabs_pos (a i j)).
  replace (Rabs (v i) * Rabs (a i j) * Rabs (w j)) with (Rabs (v i) * Rabs (w j) * Rabs (a i j)) by ring.
  apply Rmult_le_compat_r; [exact P|]. apply Rmult_le_compat; auto using Rabs_pos.
Qed.
Lemma quadratic_scal n a c v : quadratic n a (fun i => c * v i) = c * c * quadratic n a v.
Proof. unfold quadratic. rewrite bilinear_scal_l, bilinear_scal_r. ring. Qed.
Lemma quadratic_bound n a v : quadratic n a v <= weight_of n n a * (maxnorm n v * maxnorm n v).
Proof. eapply Rle_trans; [apply Rle_abs|]. eapply Rle_trans; [apply bilinear_bound|]. right. ring. Qed.
Lemma cont_sum n k (h : nat -> state -> R) p : (forall j, (j < k)%nat -> cont_at n (h j) p) -> cont_at n (fun s => sum_below k (fun j => h j s)) p.
Proof.
  induction k as [|k IH]; intros H; cbn [sum_below]; [apply cont_const|].
  apply (cont_plus n (fun s => sum_below k (fun j => h j s)) (h k)); [apply IH; intros j Hj; apply H; lia|apply H; lia].
Qed.
Lemma quadratic_cont n a p : cont_at n (quadratic n a) p.
Proof.
  unfold quadratic, bilinear. apply cont_sum. intros i Hi. apply cont_sum. intros j Hj.
  apply (cont_mult n (fun s => s i * a i j) (fun s => s j)); [|now apply cont_proj].
  apply (cont_mult n (fun s => s i) (fun _ => a i j)); [now apply cont_proj|apply cont_const].
Qed.
Lemma maxnorm_scal n c v : 0 <= c -> maxnorm n (fun i => c * v i) = c * maxnorm n v.
Proof.
  intros Hc. induction n as [|n IH]; cbn [maxnorm]; [ring|]. rewrite IH, Rabs_mult, (Rabs_right c) by lra. now apply RmaxRmult.
Qed.
Lemma positive_not_origin n v : ~ origin n v -> exists i, (i < n)%nat /\ v i <> 0.
Proof.
  intros H. apply NNPP. intros K. apply H. intros i Hi. destruct (Req_dec (v i) 0) as [E|E]; [exact E|]. exfalso. apply K. now exists i.
Qed.
(** A positive definite form is bounded below. *)
Lemma positive_definite_bound n a : positive_definite n a -> exists c, 0 < c /\ forall v, c * (maxnorm n v * maxnorm n v) <= quadratic n a v.
Proof.
  intros H.
  destruct (box_positive_min n 1 (fun s => 1 <= maxnorm n s) (quadratic n a)) as (c & Hc & B); [lra| | | |].
  - intros p _ Hn. apply Rnot_le_lt in Hn. destruct (maxnorm_cont n n p ltac:(lia) (1 - maxnorm n p)) as (d & Hd & D); [lra|].
    exists d. split; [exact Hd|]. intros s Hs. specialize (D s Hs). apply Rabs_def2 in D. lra.
  - intros. apply quadratic_cont.
  - intros p _ Hp. apply H. apply positive_not_origin. intros O. apply maxnorm_zero in O. lra.
  - exists c. split; [exact Hc|]. intros v. assert (N := maxnorm_nonneg n v). destruct (Req_dec (maxnorm n v) 0) as [E|E].
    + rewrite E. apply Req_le. rewrite !Rmult_0_r. unfold quadratic, bilinear. symmetry. apply sum_below_zero. intros i Hi. apply sum_below_zero. intros j Hj.
      apply maxnorm_zero in E. rewrite (E i Hi). ring.
    + set (N0 := maxnorm n v) in *. specialize (B (fun i => / N0 * v i)).
      assert (HN : 0 < / N0) by (apply Rinv_0_lt_compat; lra).
      assert (E1 : maxnorm n (fun i => / N0 * v i) = 1) by (rewrite maxnorm_scal by lra; fold N0; field; exact E).
      rewrite quadratic_scal in B. assert (B' : c <= / N0 * / N0 * quadratic n a v).
      { apply B; [apply maxnorm_le_box; lra|lra]. }
      apply Rmult_le_reg_l with (/ N0 * / N0); [nra|]. replace (/ N0 * / N0 * (c * (N0 * N0))) with c by (field; exact E). exact B'.
Qed.
(** ** Along motions *)
Definition along (n : nat) (a : matrix) (f : vfield) : state -> R := fun s => bilinear n n a (f s) s + bilinear n n a s (f s).
Lemma quadratic_lie n a f : lie_derivative n f (quadratic n a) (along n a f).
Proof.
  intros x t H. unfold quadratic, along, bilinear. rewrite <- sum_below_plus.
  apply (is_derive_ext (fun u => sum_below n (fun i => sum_below n (fun j => x u i * a i j * x u j)))); [reflexivity|].
  rewrite (sum_below_ext n _ (fun i => sum_below n (fun j => f (x t) i * a i j * x t j + x t i * a i j * f (x t) j)))
    by (intros; now rewrite sum_below_plus).
  apply (is_derive_sum n (fun i u => sum_below n (fun j => x u i * a i j * x u j))). intros i Hi.
  apply (is_derive_sum n (fun j u => x u i * a i j * x u j)). intros j Hj.
  assert (D1 := H i Hi). assert (D2 := H j Hj).
  replace (f (x t) i * a i j * x t j + x t i * a i j * f (x t) j) with ((f (x t) i * a i j) * x t j + (x t i * a i j) * f (x t) j) by ring.
  apply (is_derive_mult (fun u => x u i * a i j) (fun u => x u j)); [|exact D2|intros; apply Rmult_comm].
  replace (f (x t) i * a i j) with (a i j * f (x t) i) by ring.
  apply (is_derive_ext (fun u => a i j * x u i)); [intros; apply Rmult_comm|]. exact (is_derive_scal (fun u => x u i) t (a i j) _ D1).
Qed.
Lemma decay_along n f V Vdot mu x T : lie_derivative n f V Vdot -> 0 <= T -> solves n f x T ->
  (forall t, 0 <= t <= T -> Vdot (x t) <= - (2 * mu) * V (x t)) -> V (x T) <= V (x 0) * exp (- (2 * mu) * T).
Proof.
  intros L HT Hx H.
  assert (B := mvt_bound (fun t => V (x t) * exp (2 * mu * t)) (fun t => Vdot (x t) * exp (2 * mu * t) + V (x t) * (2 * mu * exp (2 * mu * t))) 0 T 0 HT).
  cbv beta in B. rewrite Rmult_0_r, exp_0, Rmult_0_l, Rplus_0_r, Rmult_1_r in B.
  assert (B' : V (x T) * exp (2 * mu * T) <= V (x 0)).
  { apply B.
    - intros t Ht. apply (is_derive_mult (fun t => V (x t)) (fun t => exp (2 * mu * t))); [now apply L, Hx| |intros; apply Rmult_comm].
      auto_derive; [exact I|ring].
    - intros t Ht. specialize (H t Ht). assert (E := exp_pos (2 * mu * t)). nra. }
  replace (- (2 * mu) * T) with (- (2 * mu * T)) by ring. rewrite exp_Ropp. assert (E := exp_pos (2 * mu * T)).
  apply Rmult_le_reg_r with (exp (2 * mu * T)); [exact E|]. replace (V (x 0) * / exp (2 * mu * T) * exp (2 * mu * T)) with (V (x 0)) by (field; lra). exact B'.
Qed.
Lemma square_le a b : 0 <= a -> 0 <= b -> a * a <= b * b -> a <= b.
Proof. intros. nra. Qed.
Lemma near_norm n e s : (0 < n)%nat -> near n e s -> maxnorm n s < e.
Proof.
  intros Hn H. apply maxnorm_lt; [|exact H]. specialize (H 0%nat Hn). assert (P := Rabs_pos (s 0%nat)). lra.
Qed.
Lemma norm_decay n V c b mu T s0 s :
  0 < c -> 0 <= b -> (forall v, c * (maxnorm n v * maxnorm n v) <= V v) -> (forall v, V v <= b * (maxnorm n v * maxnorm n v)) ->
  V s <= V s0 * exp (- (2 * mu) * T) ->
  forall e, near n e s0 -> forall i, (i < n)%nat -> Rabs (s i) <= (b / c + 1) * e * exp (- mu * T).
Proof.
  intros Hc Hb L U H e He i Hi. assert (HE := near_norm n e s0 ltac:(lia) He). assert (N0 := maxnorm_nonneg n s0). assert (N1 := maxnorm_nonneg n s).
  eapply Rle_trans; [now apply (maxnorm_ge n)|].
  assert (X := exp_pos (- mu * T)). assert (EX : exp (- (2 * mu) * T) = exp (- mu * T) * exp (- mu * T)) by (rewrite <- exp_plus; f_equal; ring).
  assert (Bc : 0 <= b / c) by (apply Rle_mult_inv_pos; lra).
  apply Rle_trans with ((b / c + 1) * maxnorm n s0 * exp (- mu * T)).
  2: { apply Rmult_le_compat_r; [lra|]. apply Rmult_le_compat_l; lra. }
  apply square_le; [exact N1| |].
  - apply Rmult_le_pos; [|lra]. apply Rmult_le_pos; lra.
  - assert (L1 := L s). assert (U1 := U s0). rewrite EX in H.
    apply Rmult_le_reg_l with c; [exact Hc|]. eapply Rle_trans; [exact L1|]. eapply Rle_trans; [exact H|].
    set (X0 := exp (- mu * T)) in *. set (A := maxnorm n s0) in *.
    apply Rle_trans with (b * (A * A) * (X0 * X0)); [apply Rmult_le_compat_r; [nra|exact U1]|].
    assert (Eb : b = c * (b / c)) by (field; lra). set (k := b / c) in *. rewrite Eb at 1.
    replace (c * ((k + 1) * A * X0 * ((k + 1) * A * X0))) with (c * ((k + 1) * (k + 1)) * (A * A) * (X0 * X0)) by ring.
    replace (c * k * (A * A) * (X0 * X0)) with (c * k * ((A * A) * (X0 * X0))) by ring.
    replace (c * ((k + 1) * (k + 1)) * (A * A) * (X0 * X0)) with (c * ((k + 1) * (k + 1)) * ((A * A) * (X0 * X0))) by ring.
    apply Rmult_le_compat_r; [apply Rmult_le_pos; nra|]. apply Rmult_le_compat_l; [lra|]. nra.
Qed.
(** A form that shrinks everywhere. *)
Lemma quadratic_decays n f P mu : positive_definite n P -> (forall s, along n P f s <= - (2 * mu) * quadratic n P s) -> decays n f mu.
Proof.
  intros Hp H. destruct (positive_definite_bound n P Hp) as (c & Hc & L).
  exists (weight_of n n P / c + 1). intros x T HT Hx. apply (norm_decay n (quadratic n P)); auto using weight_nonneg, quadratic_bound.
  now apply (decay_along n f (quadratic n P) (along n P f)); auto using quadratic_lie.
Qed.
(** A form that shrinks near the origin. *)
Lemma quadratic_decays_locally n f P mu r : positive_definite n P -> 0 <= mu -> 0 < r ->
  (forall s, near n r s -> along n P f s <= - (2 * mu) * quadratic n P s) -> decays_locally n f mu.
Proof.
  intros Hp Hmu Hr H. destruct (positive_definite_bound n P Hp) as (c & Hc & L).
  set (b := weight_of n n P) in *. assert (Hb : 0 <= b) by apply weight_nonneg. assert (U := quadratic_bound n P). fold b in U.
  assert (Bc : 0 <= b / c) by (apply Rle_mult_inv_pos; lra). set (M := b / c + 1) in *.
  set (q := r / 2). assert (Hq : 0 < q < r) by (unfold q; lra).
  set (d := q / (M + 1)). assert (HM : 1 <= M) by (unfold M; lra). assert (Hd : 0 < d) by (apply Rdiv_lt_0_compat; lra).
  assert (Hdq : M * d < q) by (unfold d; apply Rmult_lt_reg_r with (M + 1); [lra|]; replace (M * (q / (M + 1)) * (M + 1)) with (M * q) by (field; lra); nra).
  exists d, M. split; [exact Hd|]. intros x T HT Hx Hn.
  assert (In : forall t, 0 <= t <= T -> maxnorm n (x t) <= q).
  { intros t Ht. apply Rnot_lt_le. intros Out.
    assert (H0 : maxnorm n (x 0) < q) by (apply maxnorm_lt; [lra|]; intros i Hi; eapply Rlt_trans; [now apply Hn|nra]).
    destruct (level_crossing (fun u => maxnorm n (x u) - q) 0 t) as (t' & Ht' & Hz & Hle); try lra.
    { intros u Hu. apply (cont_along n (fun s => maxnorm n s - q)).
      - apply (cont_minus n (maxnorm n) (fun _ => q)); [apply maxnorm_cont; lia|apply cont_const].
      - intros i Hi. apply (is_derive_continuous _ _ (f (x u) i)). apply Hx; [lra|exact Hi]. }
    cbv beta in Hz. assert (Hz' : maxnorm n (x t') = q) by lra.
    assert (D := decay_along n f (quadratic n P) (along n P f) mu x t' (quadratic_lie n P f) ltac:(lra)).
    assert (D' : quadratic n P (x t') <= quadratic n P (x 0) * exp (- (2 * mu) * t')).
    { apply D.
      - intros u Hu. apply Hx. lra.
      - intros u Hu. apply H. apply maxnorm_lt; [lra|]. specialize (Hle u Hu). cbv beta in Hle. lra. }
    assert (B : maxnorm n (x t') <= M * d).
    { apply maxnorm_le_box; [nra|]. intros i Hi. apply Rabs_le_between.
      eapply Rle_trans; [exact (norm_decay n (quadratic n P) c b mu t' (x 0) (x t') Hc Hb L U D' d Hn i Hi)|]. fold M.
      assert (Ex : exp (- mu * t') <= 1).
      { rewrite <- exp_0. assert (Z : - mu * t' <= 0) by nra. destruct Z as [Z|Z]; [left; now apply exp_increasing|rewrite Z; lra]. }
      assert (Md : 0 <= M * d) by nra. nra. }
    lra. }
  apply (norm_decay n (quadratic n P) c b); auto. apply (decay_along n f (quadratic n P) (along n P f)); auto using quadratic_lie.
  intros t Ht. apply H. apply maxnorm_lt; [lra|]. specialize (In t Ht). lra.
Qed.
(** A field that is linear to first order. *)
Lemma perturbed_decays n f A P mu mu' : positive_definite n P -> 0 <= mu < mu' ->
  (forall s, along n P (linear n A) s <= - (2 * mu') * quadratic n P s) ->
  (forall e, 0 < e -> exists d, 0 < d /\ forall s, near n d s -> forall i, (i < n)%nat -> Rabs (f s i - linear n A s i) <= e * maxnorm n s) ->
  decays_locally n f mu.
Proof.
  intros Hp Hmu Hl Hf. destruct (positive_definite_bound n P Hp) as (c & Hc & L).
  set (b := weight_of n n P). assert (Hb : 0 <= b) by apply weight_nonneg.
  set (e := c * (mu' - mu) / (b + 1)). assert (He : 0 < e) by (apply Rdiv_lt_0_compat; nra).
  destruct (Hf e He) as (r & Hr & Hf'). apply (quadratic_decays_locally n f P mu r); auto; [lra|].
  intros s Hs. specialize (Hf' s Hs). specialize (Hl s). specialize (L s).
  set (g := fun i => f s i - linear n A s i).
  assert (G : maxnorm n g <= e * maxnorm n s).
  { apply maxnorm_le_box; [apply Rmult_le_pos; [lra|apply maxnorm_nonneg]|]. intros i Hi. apply Rabs_le_between. now apply Hf'. }
  assert (E : along n P f s = along n P (linear n A) s + (bilinear n n P g s + bilinear n n P s g)).
  { unfold along. rewrite (bilinear_ext n n P P (f s) (fun i => linear n A s i + g i) s s), (bilinear_ext n n P P s s (f s) (fun i => linear n A s i + g i)); auto;
      try (intros; unfold g; ring). rewrite bilinear_plus_l, bilinear_plus_r. ring. }
  assert (B1 := bilinear_bound n n P g s). assert (B2 := bilinear_bound n n P s g). fold b in B1, B2.
  assert (N := maxnorm_nonneg n s). assert (Ng := maxnorm_nonneg n g). set (S := maxnorm n s) in *. set (Gn := maxnorm n g) in *.
  assert (A1 := Rle_abs (bilinear n n P g s)). assert (A2 := Rle_abs (bilinear n n P s g)).
  assert (K : b * Gn * S <= b * (e * S) * S) by (apply Rmult_le_compat_r; [exact N|]; now apply Rmult_le_compat_l).
  assert (K2 : b * e <= c * (mu' - mu)).
  { unfold e. apply Rmult_le_reg_r with (b + 1); [lra|]. replace (b * (c * (mu' - mu) / (b + 1)) * (b + 1)) with (b * (c * (mu' - mu))) by (field; lra).
    assert (0 <= c * (mu' - mu)) by nra. nra. }
  assert (K3 : b * (e * S) * S <= (mu' - mu) * quadratic n P s).
  { replace (b * (e * S) * S) with (b * e * (S * S)) by ring. apply Rle_trans with (c * (mu' - mu) * (S * S)); [apply Rmult_le_compat_r; nra|]. nra. }
  rewrite E. replace (b * S * Gn) with (b * Gn * S) in B2 by ring. nra.
Qed.
Lemma exp_small x : 0 < x -> exp (- x) <= / x.
Proof.
  intros Hx. rewrite exp_Ropp. apply Rinv_le_contravar; [exact Hx|]. assert (H := exp_ineq1 x ltac:(lra)). lra.
Qed.
Lemma decays_stable n f mu : 0 <= mu -> decays_locally n f mu -> stable n f.
Proof.
  intros Hmu (d & M & Hd & H) e He. set (K := Rabs M + 1). assert (HK : 1 <= K) by (unfold K; assert (P := Rabs_pos M); lra).
  exists (Rmin d (e / 2 / K)). assert (He2 : 0 < e / 2 / K) by (apply Rdiv_lt_0_compat; lra).
  split; [now apply Rmin_glb_lt|]. intros x T HT Hx Hn t Ht i Hi.
  assert (Hd1 : near n d (x 0)) by (intros j Hj; eapply Rlt_le_trans; [now apply Hn|apply Rmin_l]).
  assert (He1 : near n (e / 2 / K) (x 0)) by (intros j Hj; eapply Rlt_le_trans; [now apply Hn|apply Rmin_r]).
  assert (Hx' : solves n f x t) by (intros u Hu; apply Hx; lra).
  specialize (H x t ltac:(lra) Hx' Hd1 _ He1 i Hi). eapply Rle_lt_trans; [exact H|].
  assert (Ex : exp (- mu * t) <= 1).
  { rewrite <- exp_0. assert (Z : - mu * t <= 0) by nra. destruct Z as [Z|Z]; [left; now apply exp_increasing|rewrite Z; lra]. }
  assert (X := exp_pos (- mu * t)). assert (MK : M <= K) by (unfold K; assert (P := Rle_abs M); lra).
  apply Rle_lt_trans with (K * (e / 2 / K) * 1).
  - apply Rle_trans with (K * (e / 2 / K) * exp (- mu * t)); [apply Rmult_le_compat_r; [lra|apply Rmult_le_compat_r; lra]|apply Rmult_le_compat_l; [nra|exact Ex]].
  - replace (K * (e / 2 / K) * 1) with (e / 2) by (field; lra). lra.
Qed.
Lemma decays_attractive n f mu : 0 < mu -> decays_locally n f mu -> attractive n f.
Proof.
  intros Hmu (d & M & Hd & H). exists d. split; [exact Hd|]. intros x Hx Hn e He.
  set (K := Rabs M + 1). assert (HK : 1 <= K) by (unfold K; assert (P := Rabs_pos M); lra).
  exists (2 * K * d / (mu * e)). intros t Ht i Hi.
  assert (T0 : 0 < 2 * K * d / (mu * e)) by (apply Rdiv_lt_0_compat; nra).
  assert (Hx' : solves n f x t) by (intros u Hu; apply Hx; lra).
  specialize (H x t ltac:(lra) Hx' Hn d Hn i Hi). eapply Rle_lt_trans; [exact H|].
  assert (Hm : 0 < mu * t) by nra. assert (Ex := exp_small (mu * t) Hm). replace (- (mu * t)) with (- mu * t) in Ex by ring.
  assert (X := exp_pos (- mu * t)). assert (MK : M <= K) by (unfold K; assert (P := Rle_abs M); lra).
  apply Rle_lt_trans with (K * d * / (mu * t)).
  - apply Rle_trans with (K * d * exp (- mu * t)); [apply Rmult_le_compat_r; [lra|apply Rmult_le_compat_r; lra]|apply Rmult_le_compat_l; nra].
  - assert (Q : 2 * K * d <= mu * t * e).
    { replace (2 * K * d) with (2 * K * d / (mu * e) * (mu * e)) by (field; split; lra). apply Rle_trans with (t * (mu * e)); [apply Rmult_le_compat_r; nra|nra]. }
    apply Rmult_lt_reg_r with (mu * t); [exact Hm|]. rewrite Rmult_assoc, Rinv_l by lra. nra.
Qed.
Lemma decays_local n f mu : decays n f mu -> decays_locally n f mu.
Proof. intros (M & H). exists 1, M. split; [lra|]. intros x T HT Hx _. now apply H. Qed.
