(** C70: [LQR]. *)
From Coquelicot Require Import Coquelicot.
From Coq Require Import Reals QArith List Lra Lia Arith Bool Classical.
From Coquelicot Require Import Complex.
From Verif Require Import M_Syntax M_Control M_Linear S_Domains S_Certificates S_Dynamics S_Linear L_Calculus L_Topology L_Domains L_Network L_Frechet L_Quadratic L_Eigen L_LQR P_Eigen.
Import ListNotations.
Local Close Scope Q_scope.
Local Open Scope R_scope.

Lemma lqr_parts n A rows k B Qo Ro l : LQR n A rows k B Qo Ro = Some l ->
  rows = n /\ q_n l = n /\ q_A l = A /\ q_nu l = k /\ q_B l = B /\
  q_Q l = match Qo with Some Q => Q | None => eye end /\ q_R l = match Ro with Some R => R | None => eye end.
Proof. unfold LQR. destruct (Nat.eqb_spec rows n) as [->|]; [|discriminate]. intros E. injection E as <-. cbn. tauto. Qed.
Lemma solve_parts care inv l K : solve care inv l = Some K ->
  exists P Ri, care (q_n l) (q_nu l) (q_A l) (q_B l) (q_Q l) (q_R l) = Some P /\ inv (q_nu l) (q_R l) = Some Ri /\
    forall i j, K i j = sum_below (q_n l) (fun h => sum_below (q_nu l) (fun m => Ri i m * transpose (q_B l) m h) * P h j).
Proof.
  unfold solve. destruct (care _ _ _ _ _ _) as [P|]; [|discriminate]. cbn. destruct (inv _ _) as [Ri|]; [|discriminate]. cbn. intros E. injection E as <-.
  exists P, Ri. split; [reflexivity|]. split; [reflexivity|]. intros i j. unfold matmul. rewrite entries_sum_below. apply sum_below_ext. intros h _. now rewrite entries_sum_below.
Qed.
(** A wrong shape of [B] is refused; the weights are the identity if they are not given. *)
Theorem C70_construction :
  forall n A rows k B Qo Ro,
    (LQR n A rows k B Qo Ro = None <-> rows <> n) /\
    forall l, LQR n A rows k B Qo Ro = Some l ->
      (forall Q, Qo = Some Q -> q_Q l = Q) /\ (forall R, Ro = Some R -> q_R l = R) /\
      (Qo = None -> forall v, quadratic n (q_Q l) v = sum_below n (fun i => v i * v i)) /\
      (Ro = None -> forall v, quadratic k (q_R l) v = sum_below k (fun i => v i * v i)).
Proof.
  intros n A rows k B Qo Ro. split.
  - unfold LQR. destruct (Nat.eqb_spec rows n); split; intros; try discriminate; tauto.
  - intros l H. apply lqr_parts in H. destruct H as (_ & _ & _ & _ & _ & -> & ->). split; [intros Q ->; reflexivity|]. split; [intros R ->; reflexivity|].
    assert (I : forall m v, quadratic m eye v = sum_below m (fun i => v i * v i)).
    { intros m v. unfold quadratic. rewrite bilinear_vdot. apply sum_below_ext. intros i Hi. f_equal. unfold linear, eye. now rewrite sum_below_delta. }
    split; intros ->; intros v; apply I.
Qed.

Section Problem.
  Context (care : nat -> nat -> matrix -> matrix -> matrix -> matrix -> option matrix) (inv : nat -> matrix -> option matrix).
  Context (n k rows : nat) (A B : matrix) (Qo Ro : option matrix) (l : lqr) (K P : matrix).
  Hypothesis (Hinv : finds_inverse inv) (Hcare : solves_riccati care) (Hl : LQR n A rows k B Qo Ro = Some l)
    (Hsolve : solve care inv l = Some K) (HP : care n k A B (q_Q l) (q_R l) = Some P).
  Lemma problem : exists Ri, inverse k (q_R l) Ri /\ riccati n k A B (q_Q l) Ri P /\
    forall i j, K i j = sum_below n (fun h => sum_below k (fun m => Ri i m * transpose B m h) * P h j).
  Proof.
    destruct (lqr_parts _ _ _ _ _ _ _ _ Hl) as (_ & En & EA & Ek & EB & _). destruct (solve_parts _ _ _ _ Hsolve) as (P' & Ri & Hc & Hi & HK).
    rewrite En, EA, Ek, EB in *. rewrite HP in Hc. injection Hc as <-. apply Hinv in Hi. exists Ri. split; [exact Hi|]. split; [|exact HK].
    now apply (Hcare n k A B (q_Q l) (q_R l) P HP Ri).
  Qed.
End Problem.

(** The gain is [R^-1 B' P] for the solution [P] of the Riccati equation: [R K = B' P]. *)
Theorem C70_gain :
  forall care inv n k rows A B Qo Ro l K,
    finds_inverse inv -> solves_riccati care -> LQR n A rows k B Qo Ro = Some l -> solve care inv l = Some K ->
    exists P Ri, care n k A B (q_Q l) (q_R l) = Some P /\ inverse k (q_R l) Ri /\ riccati n k A B (q_Q l) Ri P /\
      forall i j, (i < k)%nat -> (j < n)%nat -> sum_below k (fun h => q_R l i h * K h j) = sum_below n (fun h => B h i * P h j).
Proof.
  intros care inv n k rows A B Qo Ro l K Hinv Hcare Hl Hs.
  destruct (lqr_parts _ _ _ _ _ _ _ _ Hl) as (_ & En & EA & Ek & EB & _). destruct (solve_parts _ _ _ _ Hs) as (P & Ri0 & HP & _ & _).
  rewrite En, EA, Ek, EB in HP. destruct (problem care inv n k rows A B Qo Ro l K P Hinv Hcare Hl Hs HP) as (Ri & Hi & Hr & HK).
  exists P, Ri. split; [exact HP|]. split; [exact Hi|]. split; [exact Hr|]. intros i j Hi' Hj.
  assert (E := linear_inverse k (q_R l) Ri (fun m => sum_below n (fun h => B h m * P h j)) i Hi Hi'). rewrite <- E. apply sum_below_ext. intros h Hh. f_equal.
  rewrite HK. unfold transpose. unfold linear.
  rewrite (sum_below_ext n _ (fun p => sum_below k (fun m => Ri h m * (B p m * P p j)))) by (intros p _; rewrite Rmult_comm, <- sum_below_scal; apply sum_below_ext; intros; ring).
  rewrite sum_below_swap. apply sum_below_ext. intros. now rewrite sum_below_scal.
Qed.
Lemma follows_along n P x d t : (forall i, (i < n)%nat -> is_derive (fun s => x s i) t (d i)) ->
  is_derive (fun s => quadratic n P (x s)) t (bilinear n n P d (x t) + bilinear n n P (x t) d).
Proof. intros H. exact (quadratic_lie n P (fun _ => d) x t H). Qed.
(** Whatever the input does, the cost plus the value of the final state is at least the value of the
    initial state, and equal to it for [u = - K x]. *)
Theorem C70_cost :
  forall care inv n k rows A B Qo Ro l K P,
    finds_inverse inv -> solves_riccati care -> LQR n A rows k B Qo Ro = Some l -> solve care inv l = Some K ->
    care n k A B (q_Q l) (q_R l) = Some P -> symmetric k (q_R l) -> positive_semidefinite k (q_R l) ->
    forall x u J T, 0 <= T -> controlled n k A B x u T -> cost n k (q_Q l) (q_R l) x u J T ->
      quadratic n P (x 0) <= J T + quadratic n P (x T) /\
      ((forall t i, 0 <= t <= T -> (i < k)%nat -> u t i = - linear n K (x t) i) -> quadratic n P (x 0) = J T + quadratic n P (x T)).
Proof.
  intros care inv n k rows A B Qo Ro l K P Hinv Hcare Hl Hs HP Sr Pr x u J T HT Hx [J0 HJ].
  destruct (problem care inv n k rows A B Qo Ro l K P Hinv Hcare Hl Hs HP) as (Ri & Hi & Hr & HK).
  set (g := fun t => quadratic k (q_R l) (fun i => u t i + linear n K (x t) i)).
  assert (D : forall t, 0 <= t <= T -> is_derive (fun s => J s + quadratic n P (x s)) t (g t)).
  { intros t Ht. assert (DV := follows_along n P x (fun i => linear n A (x t) i + linear k B (u t) i) t (Hx t Ht)).
    assert (E : bilinear n n P (fun i => linear n A (x t) i + linear k B (u t) i) (x t) + bilinear n n P (x t) (fun i => linear n A (x t) i + linear k B (u t) i)
      = - (quadratic n (q_Q l) (x t) + quadratic k (q_R l) (u t)) + g t).
    { assert (V := along_value n k A B (q_Q l) Ri P Hr (fun _ => fun i => linear n A (x t) i + linear k B (u t) i) (x t)). unfold along in V. rewrite V.
      rewrite (square n k A B (q_Q l) (q_R l) Ri P Hi Hr Sr). f_equal. unfold g. apply bilinear_ext; auto; intros i Hi'; f_equal; symmetry; now apply (gain_value n k B Ri P K (fun i j _ => HK i j)). }
    rewrite E in DV. assert (S := is_derive_plus _ _ _ _ _ (HJ t Ht) DV).
    replace (g t) with (plus (quadratic n (q_Q l) (x t) + quadratic k (q_R l) (u t)) (- (quadratic n (q_Q l) (x t) + quadratic k (q_R l) (u t)) + g t)); [exact S|]. unfold plus; cbn. ring. }
  split.
  - assert (M := mvt_bound (fun t => - (J t + quadratic n P (x t))) (fun t => - g t) 0 T 0 HT). cbn beta in M. rewrite J0 in M.
    assert (X : - (J T + quadratic n P (x T)) <= - (0 + quadratic n P (x 0)) + 0 * (T - 0)); [|lra].
    apply M; [intros t Ht; apply (is_derive_opp (fun s => J s + quadratic n P (x s))), D, Ht|]. intros t Ht. assert (Q := Pr (fun i => u t i + linear n K (x t) i)). fold (g t) in Q. lra.
  - intros Hu. assert (G0 : forall t, 0 <= t <= T -> g t = 0).
    { intros t Ht. unfold g, quadratic, bilinear. apply sum_below_zero. intros i Hi'. apply sum_below_zero. intros j Hj. rewrite (Hu t i Ht Hi'). ring. }
    assert (M1 := mvt_bound (fun t => - (J t + quadratic n P (x t))) (fun t => - g t) 0 T 0 HT). assert (M2 := mvt_bound (fun t => J t + quadratic n P (x t)) g 0 T 0 HT). cbn beta in M1, M2. rewrite J0 in M1, M2.
    assert (X1 : - (J T + quadratic n P (x T)) <= - (0 + quadratic n P (x 0)) + 0 * (T - 0)).
    { apply M1; [intros t Ht; apply (is_derive_opp (fun s => J s + quadratic n P (x s))), D, Ht|]. intros t Ht. rewrite G0 by exact Ht. lra. }
    assert (X2 : J T + quadratic n P (x T) <= 0 + quadratic n P (x 0) + 0 * (T - 0)).
    { apply M2; [exact D|]. intros t Ht. rewrite G0 by exact Ht. lra. }
    lra.
Qed.
(** The motion with [u = - K x] costs no more than any motion from the same state that tends to zero. *)
Theorem C70_optimal :
  forall care inv n k rows A B Qo Ro l K P,
    finds_inverse inv -> solves_riccati care -> LQR n A rows k B Qo Ro = Some l -> solve care inv l = Some K ->
    care n k A B (q_Q l) (q_R l) = Some P -> symmetric k (q_R l) -> positive_semidefinite k (q_R l) -> positive_semidefinite n P ->
    forall x u J x' u' J' c,
      (forall T, 0 <= T -> controlled n k A B x u T /\ cost n k (q_Q l) (q_R l) x u J T) ->
      (forall t i, 0 <= t -> (i < k)%nat -> u t i = - linear n K (x t) i) ->
      (forall T, 0 <= T -> controlled n k A B x' u' T /\ cost n k (q_Q l) (q_R l) x' u' J' T) ->
      (forall e, 0 < e -> exists T, forall t, T <= t -> near n e (x' t)) ->
      (forall i, (i < n)%nat -> x 0 i = x' 0 i) ->
      (forall T, 0 <= T -> J' T <= c) ->
      forall T, 0 <= T -> J T <= c.
Proof.
  intros care inv n k rows A B Qo Ro l K P Hinv Hcare Hl Hs HP Sr Pr PP x u J x' u' J' c H1 Hu H2 Hz H0 Hc T HT.
  assert (C := C70_cost care inv n k rows A B Qo Ro l K P Hinv Hcare Hl Hs HP Sr Pr).
  destruct (H1 T HT) as [Cx Jx]. destruct (C x u J T HT Cx Jx) as [_ E]. specialize (E ltac:(intros t i [Ht _]; now apply Hu)).
  assert (V0 : quadratic n P (x 0) = quadratic n P (x' 0)) by (apply bilinear_ext; auto).
  assert (PT := PP (x T)).
  assert (B0 : quadratic n P (x' 0) <= c); [|lra].
  apply Rnot_lt_le. intros X. set (d := quadratic n P (x' 0) - c). assert (Hd : 0 < d) by (unfold d; lra).
  set (W := weight_of n n P + 1). assert (HW : 1 <= W) by (unfold W; assert (Y := weight_nonneg n n P); lra).
  set (e := Rmin 1 (d / (2 * W))). assert (He : 0 < e) by (apply Rmin_glb_lt; [lra|apply Rdiv_lt_0_compat; lra]).
  destruct (Hz e He) as (T0 & HT0). set (t := Rmax T0 0). assert (Pt : 0 <= t) by apply Rmax_r. specialize (HT0 t (Rmax_l _ _)).
  destruct (H2 t Pt) as [Cx' Jx']. destruct (C x' u' J' t Pt Cx' Jx') as [L _]. specialize (Hc t Pt).
  assert (Q : quadratic n P (x' t) <= weight_of n n P * (e * e)).
  { eapply Rle_trans; [apply quadratic_bound|]. apply Rmult_le_compat_l; [apply weight_nonneg|].
    assert (M : maxnorm n (x' t) <= e). { apply maxnorm_le_box; [lra|]. intros i Hi. apply Rabs_le_between. left. now apply HT0. }
    assert (N := maxnorm_nonneg n (x' t)). nra. }
  assert (E1 : e <= 1) by apply Rmin_l. assert (E2 : e <= d / (2 * W)) by apply Rmin_r.
  assert (E3 : W * e <= d / 2). { apply Rmult_le_compat_l with (r := W) in E2; [|lra]. replace (W * (d / (2 * W))) with (d / 2) in E2 by (field; lra). exact E2. }
  assert (E4 : weight_of n n P * (e * e) <= W * e). { assert (Y := weight_nonneg n n P). unfold W. nra. }
  unfold d in *. lra.
Qed.

(** ** Stability *)
Lemma definite_shrinks n P Q f : positive_definite n Q -> (forall s, along n P f s <= - quadratic n Q s) ->
  exists mu, 0 < mu /\ forall s, along n P f s <= - (2 * mu) * quadratic n P s.
Proof.
  intros Dq H. destruct (positive_definite_bound n Q Dq) as (c & Hc & L). set (b := weight_of n n P + 1). assert (Hb : 1 <= b) by (unfold b; assert (Y := weight_nonneg n n P); lra).
  exists (c / b / 2). split; [repeat apply Rdiv_lt_0_compat; lra|]. intros s. specialize (H s). specialize (L s). assert (U := quadratic_bound n P s).
  set (M := maxnorm n s * maxnorm n s) in *. assert (HM : 0 <= M) by (unfold M; assert (N := maxnorm_nonneg n s); nra).
  assert (Y : c / b * quadratic n P s <= c * M). { replace (c * M) with (c / b * (b * M)) by (field; lra). apply Rmult_le_compat_l; [left; apply Rdiv_lt_0_compat; lra|]. unfold b. nra. }
  replace (- (2 * (c / b / 2)) * quadratic n P s) with (- (c / b * quadratic n P s)) by (field; lra). lra.
Qed.
(** With definite weights the closed loop is stable exactly if the solution is positive definite; the
    motions then shrink exponentially. *)
Theorem C70_stabilising :
  forall care inv n k rows A B Qo Ro l K P,
    finds_inverse inv -> solves_riccati care -> LQR n A rows k B Qo Ro = Some l -> solve care inv l = Some K ->
    care n k A B (q_Q l) (q_R l) = Some P -> symmetric k (q_R l) -> positive_semidefinite k (q_R l) ->
    positive_definite n (q_Q l) ->
    (positive_definite n P -> exists r, 0 < r /\ decays n (linear n (feedback_matrix k A B K)) r) /\
    (forall eigvals, eigenvalues n (feedback_matrix k A B K) (eigvals n (feedback_matrix k A B K)) ->
       (is_stable eigvals n (feedback_matrix k A B K) = true <-> positive_definite n P)).
Proof.
  intros care inv n k rows A B Qo Ro l K P Hinv Hcare Hl Hs HP Sr Pr Dq.
  destruct (problem care inv n k rows A B Qo Ro l K P Hinv Hcare Hl Hs HP) as (Ri & Hi & Hr & HK).
  assert (Al := feedback_along n k A B (q_Q l) (q_R l) Ri P Hi Hr Sr K (fun i j _ => HK i j)).
  assert (Ba : forall s, along n P (linear n (feedback_matrix k A B K)) s <= - quadratic n (q_Q l) s) by (intros s; rewrite Al; assert (Y := Pr (linear n K s)); lra).
  assert (D : positive_definite n P -> exists r, 0 < r /\ decays n (linear n (feedback_matrix k A B K)) r).
  { intros Dp. destruct (definite_shrinks n P (q_Q l) _ Dq Ba) as (mu & Hm & Hd). exists mu. split; [exact Hm|]. now apply (quadratic_decays n _ P). }
  split; [exact D|]. intros ev He. split.
  - intros H. rewrite stable_spec in H. destruct (eigenvalues_form n _ _ 0 He) as (P0 & mu & Hm & S0 & D0 & H0); [intros z Hz; rewrite Ropp_0; now apply H|].
    apply (stable_definite n P P0 (linear n (feedback_matrix k A B K)) mu); auto; [exact (proj1 Hr)|]. intros s Hs'. specialize (Ba s). specialize (Dq s Hs'). lra.
  - intros Dp. destruct (C69_is_stable ev n _ He) as (_ & E & _). apply E. now apply D.
Qed.
(** With semidefinite weights a definite solution still makes the closed loop stable. *)
Theorem C70_stable :
  forall care inv n k rows A B Qo Ro l K P,
    finds_inverse inv -> solves_riccati care -> LQR n A rows k B Qo Ro = Some l -> solve care inv l = Some K ->
    care n k A B (q_Q l) (q_R l) = Some P -> symmetric k (q_R l) -> positive_semidefinite k (q_R l) ->
    positive_semidefinite n (q_Q l) -> positive_definite n P -> stable n (linear n (feedback_matrix k A B K)).
Proof.
  intros care inv n k rows A B Qo Ro l K P Hinv Hcare Hl Hs HP Sr Pr Dq Dp.
  destruct (problem care inv n k rows A B Qo Ro l K P Hinv Hcare Hl Hs HP) as (Ri & Hi & Hr & HK).
  assert (Al := feedback_along n k A B (q_Q l) (q_R l) Ri P Hi Hr Sr K (fun i j _ => HK i j)).
  apply (decays_stable n _ 0 (Rle_refl 0)), decays_local, (quadratic_decays n _ P 0 Dp). intros s. rewrite Al, !Rmult_0_r, Ropp_0, Rmult_0_l. assert (Y1 := Dq s). assert (Y2 := Pr (linear n K s)). lra.
Qed.
Lemma linear_bound n K s i k : (i < k)%nat -> Rabs (linear n K s i) <= weight_of k n K * maxnorm n s.
Proof.
  intros Hi. unfold linear. eapply Rle_trans; [apply sum_abs|]. apply Rle_trans with (sum_below n (fun j => Rabs (K i j)) * maxnorm n s).
  - rewrite Rmult_comm, <- sum_below_scal. apply sum_below_le. intros j Hj. rewrite Rabs_mult, Rmult_comm. apply Rmult_le_compat_r; [apply Rabs_pos|]. now apply maxnorm_ge.
  - apply Rmult_le_compat_r; [apply maxnorm_nonneg|]. unfold weight_of.
    apply Rle_trans with (sum_below (S i) (fun i => sum_below n (fun j => Rabs (K i j)))).
    + cbn [sum_below]. assert (0 <= sum_below i (fun i => sum_below n (fun j => Rabs (K i j)))) by (apply sum_below_nonneg; intros; apply sum_below_nonneg; intros; apply Rabs_pos). lra.
    + apply sum_below_nneg_le; [lia|]. intros. apply sum_below_nonneg. intros. apply Rabs_pos.
Qed.
(** The gain also stabilises a system of which [A x + B u] is the linearisation. *)
Theorem C70_nonlinear :
  forall care inv n k rows A B Qo Ro l K P,
    finds_inverse inv -> solves_riccati care -> LQR n A rows k B Qo Ro = Some l -> solve care inv l = Some K ->
    care n k A B (q_Q l) (q_R l) = Some P -> symmetric k (q_R l) -> positive_semidefinite k (q_R l) ->
    positive_definite n (q_Q l) -> positive_definite n P ->
    forall F : state -> state -> state,
      (forall e, 0 < e -> exists d, 0 < d /\ forall s u, near n d s -> near k d u -> forall i, (i < n)%nat ->
         Rabs (F s u i - (sum_below n (fun j => A i j * s j) + sum_below k (fun j => B i j * u j))) <= e * (maxnorm n s + maxnorm k u)) ->
      let loop := fun s => F s (fun j => - linear n K s j) in
      (exists r, 0 < r /\ decays_locally n loop r) /\ stable n loop /\ attractive n loop.
Proof.
  intros care inv n k rows A B Qo Ro l K P Hinv Hcare Hl Hs HP Sr Pr Dq Dp F HF loop.
  destruct (problem care inv n k rows A B Qo Ro l K P Hinv Hcare Hl Hs HP) as (Ri & Hi & Hr & HK).
  assert (Al := feedback_along n k A B (q_Q l) (q_R l) Ri P Hi Hr Sr K (fun i j _ => HK i j)).
  destruct (definite_shrinks n P (q_Q l) (linear n (feedback_matrix k A B K)) Dq) as (mu & Hm & Hd).
  { intros s. rewrite Al. specialize (Pr (linear n K s)). lra. }
  assert (D : decays_locally n loop (mu / 2)).
  { apply (perturbed_decays n loop (feedback_matrix k A B K) P (mu / 2) mu Dp); [lra|exact Hd|].
    set (W := weight_of k n K + 1). assert (HW : 1 <= W) by (unfold W; assert (Y := weight_nonneg k n K); lra).
    intros e He. destruct (HF (e / (1 + W))) as (d & Hd' & Fd); [apply Rdiv_lt_0_compat; lra|].
    exists (d / W). split; [apply Rdiv_lt_0_compat; lra|]. intros s Hs' i Hi'.
    assert (DW : d / W <= d). { apply Rmult_le_reg_r with W; [lra|]. unfold Rdiv. rewrite Rmult_assoc, Rinv_l by lra. nra. }
    assert (Pn : (0 < n)%nat) by lia. assert (Mn := near_norm n (d / W) s Pn Hs').
    assert (Nu : forall j, (j < k)%nat -> Rabs (- linear n K s j) <= W * maxnorm n s).
    { intros j Hj. rewrite Rabs_Ropp. eapply Rle_trans; [now apply (linear_bound n K s j k)|]. apply Rmult_le_compat_r; [apply maxnorm_nonneg|unfold W; lra]. }
    specialize (Fd s (fun j => - linear n K s j)).
    assert (F1 : near n d s) by (intros j Hj; specialize (Hs' j Hj); lra).
    assert (F2 : near k d (fun j => - linear n K s j)).
    { intros j Hj. eapply Rle_lt_trans; [now apply Nu|]. apply Rlt_le_trans with (W * (d / W)); [apply Rmult_lt_compat_l; lra|]. right. field. lra. }
    specialize (Fd F1 F2 i Hi').
    assert (E : linear n (feedback_matrix k A B K) s i = sum_below n (fun j => A i j * s j) + sum_below k (fun j => B i j * - linear n K s j)).
    { rewrite (feedback_value n k A B Ri P K (fun i j _ => HK i j)). unfold linear at 1. f_equal. apply sum_below_ext. intros j Hj. now rewrite (gain_value n k B Ri P K (fun i j _ => HK i j)) by exact Hj. }
    unfold loop. rewrite E. eapply Rle_trans; [exact Fd|]. replace (e * maxnorm n s) with (e / (1 + W) * (maxnorm n s + W * maxnorm n s)) by (field; lra).
    apply Rmult_le_compat_l; [left; apply Rdiv_lt_0_compat; lra|]. apply Rplus_le_compat_l. apply maxnorm_le_box; [apply Rmult_le_pos; [lra|apply maxnorm_nonneg]|]. intros j Hj. apply Rabs_le_between. now apply Nu. }
  split; [exists (mu / 2); split; [lra|exact D]|]. split; [apply (decays_stable n loop (mu / 2)); [lra|exact D]|apply (decays_attractive n loop (mu / 2)); [lra|exact D]].
Qed.
(** The equation alone says nothing: it has solutions whose gain drives the state away. *)
Theorem C70_equation_is_not_enough :
  exists care inv n k A B l K,
    finds_inverse inv /\ solves_riccati care /\ LQR n A n k B None None = Some l /\ solve care inv l = Some K /\
    ~ stable n (linear n (feedback_matrix k A B K)).
Proof.
  set (is1 := fun n k (A B Q Rm : matrix) => andb (andb (n =? 1)%nat (k =? 1)%nat) (andb (if Req_EM_T (A 0%nat 0%nat) 0 then true else false) (andb (if Req_EM_T (B 0%nat 0%nat) 1 then true else false) (andb (if Req_EM_T (Q 0%nat 0%nat) 1 then true else false) (if Req_EM_T (Rm 0%nat 0%nat) 1 then true else false))))).
  exists (fun n k A B Q Rm => if is1 n k A B Q Rm then Some (fun _ _ => -1) else None), (fun n a => if ((n =? 1)%nat && (if Req_EM_T (a 0%nat 0%nat) 1 then true else false))%bool then Some (fun _ _ => 1) else None),
    1%nat, 1%nat, (fun _ _ => 0), (fun _ _ => 1),
    {| q_n := 1%nat; q_A := fun _ _ => 0; q_nu := 1%nat; q_B := fun _ _ => 1; q_Q := eye; q_R := eye |}, (fun _ _ => entries_sum 1 (fun _ => entries_sum 1 (fun _ => 1 * 1) * -1)).
  split; [|split; [|split; [reflexivity|split]]].
  - intros n a b. destruct (Nat.eqb_spec n 1) as [->|]; [|discriminate]. destruct (Req_EM_T (a 0%nat 0%nat) 1) as [E|]; [|discriminate]. cbn [andb]. intros H. injection H as <-.
    intros [|i] [|j] Hi Hj; try lia. cbn. rewrite E. split; ring.
  - intros n k A B Q Rm P. unfold is1. destruct (Nat.eqb_spec n 1) as [->|]; [|discriminate]. destruct (Nat.eqb_spec k 1) as [->|]; [|discriminate]. cbn [andb].
    destruct (Req_EM_T (A 0%nat 0%nat) 0) as [EA|]; [|discriminate]. destruct (Req_EM_T (B 0%nat 0%nat) 1) as [EB|]; [|discriminate].
    destruct (Req_EM_T (Q 0%nat 0%nat) 1) as [EQ|]; [|discriminate]. destruct (Req_EM_T (Rm 0%nat 0%nat) 1) as [ER|]; [|discriminate]. cbn [andb]. intros H. injection H as <-.
    intros Ri HI. assert (I := proj1 (HI 0%nat 0%nat ltac:(lia) ltac:(lia))). cbn in I. rewrite ER in I. split; [intros i j _ _; reflexivity|].
    intros [|i] [|j] Hi Hj; try lia. cbn. rewrite EA, EB, EQ. replace (Ri 0%nat 0%nat) with 1 by lra. ring.
  - unfold solve, is1. cbn. destruct (Req_EM_T 0 0); [|lra]. destruct (Req_EM_T 1 1) as [|Ne]; [|lra]. cbn. destruct (Req_EM_T (eye 0%nat 0%nat) 1) as [|Ne']; [|cbn in Ne'; lra]. cbn. f_equal.
  - intros St. destruct (St 1 ltac:(lra)) as (d & Hd & H). set (x := fun (t : R) (i : nat) => d / 2 * exp t).
    set (T := 4 / d). assert (HT : 0 < T) by (apply Rdiv_lt_0_compat; lra).
    assert (B := H x T ltac:(lra)). assert (Sx : solves 1 (linear 1 (feedback_matrix 1 (fun _ _ => 0) (fun _ _ => 1) (fun _ _ => entries_sum 1 (fun _ => entries_sum 1 (fun _ => 1 * 1) * -1)))) x T).
    { intros t Ht i Hi. unfold x, linear, feedback_matrix. cbn. auto_derive; [exact I|]. ring. }
    specialize (B Sx). assert (N : near 1 d (x 0)) by (intros i Hi; unfold x; rewrite exp_0, Rmult_1_r, Rabs_right; lra).
    specialize (B N T ltac:(lra) 0%nat ltac:(lia)). unfold x in B. rewrite Rabs_right in B by (assert (Y := exp_pos T); nra).
    assert (X := exp_ineq1 T ltac:(lra)). assert (Y : d / 2 * T = 2) by (unfold T; field; lra). nra.
Qed.
