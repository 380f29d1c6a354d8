(** Properties C13, C14, C19: stability and attraction. *)
From Coq Require Import Reals QArith Qreals List Lra Lia Classical.
From Coquelicot Require Import Coquelicot.
From Verif Require Import M_Syntax M_Certificates M_Verifier S_Verifier S_Certificates
  S_Success S_Dynamics L_Holds L_Calculus L_Topology L_Success P_Verifier P_Certificates P_Safety.
Import ListNotations.
Local Open Scope R_scope.

Lemma certified_lyapunov llo n d V Vdot :
  certified (lyapunov_constraints llo (new_vars n) d V Vdot) ->
  lyapunov_conditions llo n d (sem V) (sem Vdot).
Proof.
  intros H. apply C06_lyapunov_obligations. apply certified_refuted; auto.
  apply (C01_certificate_labels_distinct llo (new_vars n) d 0 V V Vdot Vdot).
Qed.
Lemma certified_roa llo n d beta V Vdot :
  certified (roa_constraints llo (new_vars n) d beta V Vdot) ->
  roa_conditions llo n d (11/10 * Q2R beta) (sem V) (sem Vdot).
Proof.
  intros H.
  apply C07_roa_obligations. apply certified_refuted; auto.
  apply (C01_certificate_labels_distinct llo (new_vars n) d beta V V Vdot Vdot).
Qed.

(** [D] contains all states within [r] of the origin. *)
Definition neighbourhood (n : nat) (r : R) (D : state -> Prop) : Prop :=
  0 < r /\ forall s, near n r s -> D s.

(** [D] is closed. *)
Definition closed_set (n : nat) (D : state -> Prop) : Prop :=
  forall p, ~ D p -> exists e, 0 < e /\
    forall s, (forall i, (i < n)%nat -> Rabs (s i - p i) < e) -> ~ D s.

(** [D] fits in the box [-r,r]^n. *)
Definition bounded_by (n : nat) (r : R) (D : state -> Prop) : Prop :=
  0 <= r /\ forall s, D s -> forall i, (i < n)%nat -> - r <= s i <= r.

Section Lyapunov.
  Context (n : nat) (f : vfield) (D : state -> Prop) (V Vdot : state -> R) (r : R).
  Hypothesis Hpos : forall s, D s -> ~ origin n s -> 0 < V s.
  Hypothesis Hneg : forall s, D s -> ~ origin n s -> Vdot s < 0.
  Hypothesis Hzero : forall s, origin n s -> V s = 0.
  Hypothesis Hlie : lie_derivative n f V Vdot.
  Hypothesis Hcont : forall p, cont_at n V p.
  Hypothesis HD : neighbourhood n r D.

  Lemma V_nonneg s : near n r s -> 0 <= V s.
  Proof.
    intros Hs. destruct (classic (origin n s)) as [Ho|Ho].
    - rewrite Hzero; auto; lra.
    - left. apply Hpos; auto. now apply HD.
  Qed.

  Lemma Vdot_nonpos x t : follows n f x t -> near n r (x t) -> Vdot (x t) <= 0.
  Proof.
    intros Hx Hn. destruct (classic (origin n (x t))) as [Ho|Ho].
    - assert (Hd := Hlie x t Hx).
      assert (Hc : continuous (fun u => maxnorm n (x u)) t).
      { apply (cont_along n); [apply maxnorm_cont; lia|].
        intros i Hi. apply (is_derive_continuous _ _ (f (x t) i)). now apply Hx. }
      destruct HD as [Hr _].
      destruct (continuous_eps _ t Hc r Hr) as (e & He & H).
      rewrite (derive_at_min (fun u => V (x u)) t (Vdot (x t)) e Hd He); [lra|].
      intros u Hu. rewrite (Hzero (x t) Ho). apply V_nonneg.
      apply maxnorm_lt; [exact Hr|].
      assert (H' := H u ltac:(apply Rabs_def1; lra)). apply Rabs_def2 in H'.
      assert (E : maxnorm n (x t) = 0) by now apply maxnorm_zero. lra.
    - left. apply Hneg; auto. now apply HD.
  Qed.

  Lemma V_decreases x T :
    0 <= T -> solves n f x T -> (forall t, 0 <= t <= T -> near n r (x t)) -> V (x T) <= V (x 0).
  Proof.
    intros HT Hx Hn.
    assert (H := mvt_bound (fun u => V (x u)) (fun u => Vdot (x u)) 0 T 0 HT).
    simpl in H. assert (V (x T) <= V (x 0) + 0 * (T - 0)); [|lra]. apply H.
    - intros t Ht. apply Hlie. now apply Hx.
    - intros t Ht. apply Vdot_nonpos; auto.
  Qed.

  Lemma shell_closed a b :
    forall p, in_box n b p -> ~ (a <= maxnorm n p) ->
      exists d, 0 < d /\ forall s, close n d p s -> ~ (a <= maxnorm n s).
  Proof.
    intros p _ Hn. apply Rnot_le_lt in Hn.
    destruct (maxnorm_cont n n p ltac:(lia) (a - maxnorm n p)) as (d & Hd & H); [lra|].
    exists d. split; auto. intros s Hs. specialize (H s Hs). apply Rabs_def2 in H. lra.
  Qed.

  (** Positive lower bound on a shell. *)
  Lemma shell_bound h a b :
    0 < a -> 0 <= b -> (forall p, cont_at n h p) ->
    (forall s, in_box n b s -> a <= maxnorm n s -> 0 < h s) ->
    exists m, 0 < m /\ forall s, in_box n b s -> a <= maxnorm n s -> m <= h s.
  Proof.
    intros Ha Hb Hh Hp.
    apply (box_positive_min n b (fun s => a <= maxnorm n s) h Hb); auto.
    apply shell_closed.
  Qed.

  Lemma box_near e s : e < r -> in_box n e s -> near n r s.
  Proof. intros He Hs i Hi. specialize (Hs i Hi). apply Rabs_def1; lra. Qed.

  Lemma norm_not_origin a s : 0 < a -> a <= maxnorm n s -> ~ origin n s.
  Proof. intros Ha H Ho. apply maxnorm_zero in Ho. lra. Qed.

  Lemma small_V m : 0 < m -> exists d, 0 < d /\ forall s, near n d s -> V s < m.
  Proof.
    intros Hm. destruct (Hcont (fun _ => 0) m Hm) as (d & Hd & H).
    exists d. split; auto. intros s Hs. specialize (H s).
    assert (E : V (fun _ => 0) = 0) by (apply Hzero; intros i Hi; reflexivity).
    rewrite E in H.
    assert (H' : Rabs (V s - 0) < m) by (apply H; intros i Hi; rewrite Rminus_0_r; now apply Hs).
    apply Rabs_def2 in H'. lra.
  Qed.

  Lemma stable_box e : 0 < e < r -> exists d, 0 < d <= e /\
    forall x T, 0 <= T -> solves n f x T -> near n d (x 0) ->
      forall t, 0 <= t <= T -> in_box n e (x t).
  Proof.
    intros He.
    destruct (shell_bound V e e) as (m & Hm & Hlow); try lra; auto.
    { intros s Hs Hn. apply Hpos; [|now apply (norm_not_origin e); try lra].
      apply HD. now apply (box_near e). }
    destruct (small_V m Hm) as (d0 & Hd0 & Hs0).
    assert (0 < Rmin d0 e) by (apply Rmin_glb_lt; lra).
    assert (Rmin d0 e <= e) by apply Rmin_r. assert (Rmin d0 e <= d0) by apply Rmin_l.
    exists (Rmin d0 e). split; [lra|].
    intros x T HT Hx Hn t Ht. apply maxnorm_le_box; [lra|]. apply Rnot_lt_le. intros Hout.
    assert (Hx0 : maxnorm n (x 0) < e).
    { apply maxnorm_lt; [lra|]. intros i Hi. specialize (Hn i Hi). lra. }
    destruct (level_crossing (fun u => maxnorm n (x u) - e) 0 t) as (t' & Ht' & Hz & Hle); try lra.
    { intros u Hu.
      apply (cont_along n (fun s => maxnorm n s - e)).
      - intros e' He'. destruct (maxnorm_cont n n (x u) ltac:(lia) e' He') as (q & Hq & Hq').
        exists q. split; auto. intros s Hs. replace (maxnorm n s - e - (maxnorm n (x u) - e)) with
          (maxnorm n s - maxnorm n (x u)) by ring. now apply Hq'.
      - intros i Hi. apply (solves_cont n f x T Hx); auto; lra. }
    simpl in Hz. assert (Hin : forall u, 0 <= u <= t' -> in_box n e (x u)).
    { intros u Hu. apply maxnorm_le_box; [lra|]. specialize (Hle u Hu). simpl in Hle. lra. }
    assert (Hdec : V (x t') <= V (x 0)).
    { apply V_decreases; [lra| |].
      - intros u Hu. apply Hx. lra.
      - intros u Hu. apply (box_near e); [lra|]. now apply Hin. }
    assert (Hb := Hlow (x t') (Hin t' ltac:(lra)) ltac:(lra)).
    assert (V (x 0) < m); [|lra]. apply Hs0. intros i Hi. specialize (Hn i Hi). lra.
  Qed.

  Lemma lyapunov_stable : stable n f.
  Proof.
    intros e He. destruct HD as [Hr _].
    assert (He' : 0 < Rmin e r / 2 < r).
    { assert (0 < Rmin e r) by (apply Rmin_glb_lt; lra). assert (Rmin e r <= r) by apply Rmin_r. lra. }
    destruct (stable_box _ He') as (d & Hd & H). exists d. split; [lra|].
    intros x T HT Hx Hn t Ht i Hi. specialize (H x T HT Hx Hn t Ht i Hi).
    assert (Rmin e r <= e) by apply Rmin_l. apply Rabs_def1; lra.
  Qed.

  Hypothesis Hdcont : forall p, cont_at n Vdot p.

  Lemma cont_opp h p : cont_at n h p -> cont_at n (fun s => - h s) p.
  Proof.
    intros H e He. destruct (H e He) as (d & Hd & H'). exists d. split; auto.
    intros s Hs. replace (- h s - - h p) with (- (h s - h p)) by ring. rewrite Rabs_Ropp. auto.
  Qed.

  Lemma lyapunov_attractive : attractive n f.
  Proof.
    destruct HD as [Hr HDr].
    destruct (stable_box (r/2)) as (d & Hd & Hst); [lra|].
    exists d. split; [lra|]. intros x Hx Hn0 e He.
    assert (Hin : forall t, 0 <= t -> in_box n (r/2) (x t)).
    { intros t Ht. apply (Hst x t Ht); auto; [|lra]. now apply forever_solves. }
    assert (Hnear : forall t, 0 <= t -> near n r (x t)).
    { intros t Ht. apply (box_near (r/2)); [lra|auto]. }
    destruct (shell_bound V e (r/2) He) as (m & Hm & Hlow); try lra; auto.
    { intros s Hs Hn. apply Hpos; [|now apply (norm_not_origin e)].
      apply HDr. now apply (box_near (r/2)); [lra|]. }
    destruct (small_V m Hm) as (q & Hq & Hsq).
    destruct (shell_bound (fun s => - Vdot s) q (r/2) Hq) as (c & Hc & Hlowd); try lra; auto.
    { intros p. apply cont_opp. apply Hdcont. }
    { intros s Hs Hn. assert (Vdot s < 0); [|lra].
      apply Hneg; [|now apply (norm_not_origin q)].
      apply HDr. now apply (box_near (r/2)); [lra|]. }
    (* some time at which V < m *)
    assert (Hex : exists T, 0 <= T /\ V (x T) < m).
    { apply NNPP. intros Hno.
      assert (Hge : forall t, 0 <= t -> m <= V (x t)).
      { intros t Ht. apply Rnot_lt_le. intros Hlt. apply Hno. now exists t. }
      set (T := V (x 0) / c).
      assert (HV0 := Hge 0 ltac:(lra)).
      assert (HT : 0 <= T) by (unfold T; apply Rle_div_r; lra).
      assert (Hb := mvt_bound (fun u => V (x u)) (fun u => Vdot (x u)) 0 T (- c) HT).
      simpl in Hb. assert (V (x T) <= V (x 0) + - c * (T - 0)).
      { apply Hb.
        - intros t Ht. apply Hlie. apply Hx. lra.
        - intros t Ht.
          assert (Hqn : q <= maxnorm n (x t)).
          { apply Rnot_lt_le. intros Hlt. apply maxnorm_lt in Hlt; auto.
            assert (H1 := Hsq _ Hlt). assert (H2 := Hge t ltac:(lra)). lra. }
          assert (H1 := Hlowd _ (Hin t ltac:(lra)) Hqn). lra. }
      assert (E : c * T = V (x 0)) by (unfold T; field; lra).
      assert (H2 := Hge T HT). lra. }
    destruct Hex as (T & HT & HVT). exists T. intros t Ht.
    apply maxnorm_lt; auto. apply Rnot_le_lt. intros Hout.
    assert (H1 := Hlow _ (Hin t ltac:(lra)) Hout).
    assert (H2 : V (x t) <= V (x T)).
    { assert (Hb := mvt_bound (fun u => V (x u)) (fun u => Vdot (x u)) T t 0 Ht).
      simpl in Hb. assert (V (x t) <= V (x T) + 0 * (t - T)); [|lra]. apply Hb.
      - intros u Hu. apply Hlie. apply Hx. lra.
      - intros u Hu. apply Vdot_nonpos; [apply Hx; lra|apply Hnear; lra]. }
    lra.
  Qed.
End Lyapunov.

(** * C13 *)
Theorem C13_lyapunov_stability :
  forall n f d V Vdot r,
    certified (lyapunov_constraints false (new_vars n) d V Vdot) ->
    lie_derivative n f (sem V) (sem Vdot) ->
    (forall p, cont_at n (sem V) p) ->
    (forall s, origin n s -> sem V s = 0) ->
    neighbourhood n r (inside d XD) ->
    stable n f /\
    ((forall p, cont_at n (sem Vdot) p) -> attractive n f) /\
    (* V strictly decreases along trajectories in the domain that avoid the origin *)
    (forall x T, solves n f x T ->
       (forall t, 0 <= t <= T -> inside d XD (x t) /\ ~ origin n (x t)) ->
       forall s t, 0 <= s < t -> t <= T -> sem V (x t) < sem V (x s)).
Proof.
  intros n f d V Vdot r Hc Hl HcV H0 HD.
  assert (Hcond := certified_lyapunov _ _ _ _ _ Hc).
  assert (Hpos : forall s, inside d XD s -> ~ origin n s -> 0 < sem V s).
  { intros s Hs Ho. now apply (Hcond s Hs Ho). }
  assert (Hneg : forall s, inside d XD s -> ~ origin n s -> sem Vdot s < 0).
  { intros s Hs Ho. now apply (Hcond s Hs Ho). }
  split; [|split].
  - now apply (lyapunov_stable n f (inside d XD) (sem V) (sem Vdot) r).
  - intros HcVd. now apply (lyapunov_attractive n f (inside d XD) (sem V) (sem Vdot) r).
  - intros x T Hx Hd s t Hs Ht.
    apply (mvt_open_decreasing (fun u => sem V (x u)) (fun u => sem Vdot (x u)) s t); try lra.
    + intros u Hu. apply Hl. apply Hx. lra.
    + intros u Hu. apply Hneg; apply Hd; lra.
Qed.

(** * C14 *)
Theorem C14_lyapunov_discrete_decrease :
  forall llo n F d V dV,
    certified (lyapunov_constraints llo (new_vars n) d V dV) ->
    step_difference n F (sem V) (sem dV) ->
    forall x, run n F x ->
      forall k, inside d XD (x k) -> ~ origin n (x k) ->
        (llo = false -> 0 < sem V (x k)) /\ sem V (x (S k)) < sem V (x k).
Proof.
  intros llo n F d V dV Hc Hd x Hx k HD Ho.
  destruct (certified_lyapunov _ _ _ _ _ Hc (x k) HD Ho) as [H1 H2].
  split; auto. assert (E := Hd (x k) (x (S k)) (Hx k)). lra.
Qed.

(** With an equilibrium at the origin, V(0)=0, continuity and a closed bounded
    domain, every run that stays in the domain converges to the origin. *)
Theorem C14_lyapunov_discrete_convergence :
  forall n F d V dV r,
    certified (lyapunov_constraints false (new_vars n) d V dV) ->
    step_difference n F (sem V) (sem dV) ->
    (forall p, cont_at n (sem V) p) -> (forall p, cont_at n (sem dV) p) ->
    (forall s, origin n s -> sem V s = 0) ->
    (forall s, origin n s -> forall i, (i < n)%nat -> F s i = 0) ->
    bounded_by n r (inside d XD) -> closed_set n (inside d XD) ->
    forall x, run n F x -> (forall k, inside d XD (x k)) ->
      forall e, 0 < e -> exists K, forall k, (K <= k)%nat -> near n e (x k).
Proof.
  intros n F d V dV r Hc Hd HcV HcdV H0 HF [Hr Hbox] Hclosed x Hx HD e He.
  assert (Hcond := certified_lyapunov _ _ _ _ _ Hc).
  assert (Hstep : forall k, sem V (x (S k)) <= sem V (x k)).
  { intros k. assert (E := Hd (x k) (x (S k)) (Hx k)).
    destruct (classic (origin n (x k))) as [Ho|Ho].
    - assert (Ho' : origin n (x (S k))).
      { intros i Hi. rewrite (Hx k i Hi). now apply HF. }
      rewrite (H0 _ Ho), (H0 _ Ho'). lra.
    - destruct (Hcond (x k) (HD k) Ho) as [_ H2]. lra. }
  assert (Hmono : forall j k, (j <= k)%nat -> sem V (x k) <= sem V (x j)).
  { intros j k Hjk. induction Hjk; [lra|]. specialize (Hstep m). lra. }
  assert (Hbd : forall (h : state -> R) a, 0 < a -> (forall p, cont_at n h p) ->
     (forall s, inside d XD s -> ~ origin n s -> 0 < h s) ->
     exists m, 0 < m /\ forall s, inside d XD s -> a <= maxnorm n s -> m <= h s).
  { intros h a Ha Hh Hp.
    destruct (box_positive_min n r (fun s => inside d XD s /\ a <= maxnorm n s) h Hr)
      as (m & Hm & H); auto.
    - intros p Hbp Hn. destruct (classic (inside d XD p)) as [Hi|Hi].
      + destruct (shell_closed n a r p Hbp ltac:(tauto)) as (q & Hq & Hs).
        exists q. split; auto. intros s Hcs [_ Hbad]. exact (Hs s Hcs Hbad).
      + destruct (Hclosed p Hi) as (q & Hq & Hs). exists q. split; auto.
        intros s Hcs [Hbad _]. exact (Hs s Hcs Hbad).
    - intros p _ [Hi Hn]. apply Hp; auto. apply (norm_not_origin n a); auto.
    - exists m. split; auto. intros s Hi Hn. apply H; auto. intros i Hi'. now apply Hbox. }
  destruct (Hbd (sem V) e He HcV) as (m & Hm & Hlow).
  { intros s Hs Ho. now apply (Hcond s Hs Ho). }
  destruct (HcV (fun _ => 0) m Hm) as (q & Hq & Hsmall).
  rewrite (H0 (fun _ => 0)) in Hsmall by (intros i Hi; reflexivity).
  destruct (Hbd (fun s => - sem dV s) q Hq) as (c & Hcpos & Hlowd).
  { intros p. apply cont_opp. apply HcdV. }
  { intros s Hs Ho. destruct (Hcond s Hs Ho). lra. }
  assert (Hex : exists K, sem V (x K) < m).
  { apply NNPP. intros Hno.
    assert (Hge : forall k, m <= sem V (x k)).
    { intros k. apply Rnot_lt_le. intros Hlt. apply Hno. now exists k. }
    assert (Hq' : forall k, q <= maxnorm n (x k)).
    { intros k. apply Rnot_lt_le. intros Hlt. apply maxnorm_lt in Hlt; auto.
      assert (H1 : Rabs (sem V (x k) - 0) < m).
      { apply Hsmall. intros i Hi. rewrite Rminus_0_r. now apply Hlt. }
      apply Rabs_def2 in H1. specialize (Hge k). lra. }
    assert (Hlin : forall k, sem V (x k) <= sem V (x 0%nat) - c * INR k).
    { induction k as [|k IH]; [simpl; lra|].
      assert (E := Hd (x k) (x (S k)) (Hx k)). assert (H1 := Hlowd (x k) (HD k) (Hq' k)).
      rewrite S_INR. lra. }
    destruct (archimed (sem V (x 0%nat) / c)) as [Ha _].
    set (z := up (sem V (x 0%nat) / c)) in *.
    assert (Hk := Hlin (Z.to_nat z)). specialize (Hge (Z.to_nat z)).
    assert (HV0 : 0 < sem V (x 0%nat)).
    { specialize (Hlin 0%nat). simpl in Hlin. assert (H' := Hmono 0%nat (Z.to_nat z) ltac:(lia)). lra. }
    assert (Hz : (0 <= z)%Z).
    { apply le_IZR. assert (0 < sem V (x 0%nat) / c) by (apply Rdiv_lt_0_compat; lra). lra. }
    rewrite INR_IZR_INZ, Z2Nat.id in Hk by exact Hz.
    assert (E : c * (sem V (x 0%nat) / c) = sem V (x 0%nat)) by (field; lra).
    nra. }
  destruct Hex as [K HK]. exists K. intros k Hk. apply maxnorm_lt; auto.
  apply Rnot_le_lt. intros Hout. assert (H1 := Hlow (x k) (HD k) Hout).
  assert (H2 := Hmono K k Hk). lra.
Qed.

(** * C19 *)

(** The certified region is {V <= 1.1*beta}; the target is the ball of radius 0.01. *)
Definition outside_ball (n : nat) (rho : R) (s : state) : Prop := rho * rho < sqnorm n s.

(** LLO: until the trajectory enters the ball, it stays in the region and V
    strictly decreases. *)
Theorem C19_roa_llo_decrease :
  forall n f d beta V Vdot,
    certified (roa_constraints true (new_vars n) d beta V Vdot) ->
    lie_derivative n f (sem V) (sem Vdot) ->
    forall x T, 0 <= T -> solves n f x T -> inside d XI (x 0) ->
      (forall t, 0 <= t <= T -> outside_ball n (1/100) (x t)) ->
      (forall t, 0 <= t <= T -> sem V (x t) <= 11/10 * Q2R beta) /\
      (forall s t, 0 <= s < t -> t <= T -> sem V (x t) < sem V (x s)).
Proof.
  intros n f d beta V Vdot Hc Hl x T HT Hx Hi Hout.
  destruct (certified_roa _ _ _ _ _ _ Hc) as [H1 H2].
  set (L := 11/10 * Q2R beta) in *.
  assert (Hin : forall t, 0 <= t <= T -> sem V (x t) <= L).
  { intros t Ht.
    assert (H := barrier_nonpos (fun u => sem V (x u) - L) (fun u => sem Vdot (x u)) 0 T HT).
    assert (sem V (x t) - L <= 0); [|lra]. apply H; auto.
    - intros u Hu. apply is_derive_sub_const. apply Hl. now apply Hx.
    - specialize (H1 _ Hi). lra.
    - intros u Hu E. apply (H2 (x u)); [lra|]. now apply Hout. }
  split; [exact Hin|]. intros s t Hs Ht.
  apply (mvt_open_decreasing (fun u => sem V (x u)) (fun u => sem Vdot (x u)) s t); try lra.
  - intros u Hu. apply Hl. apply Hx. lra.
  - intros u Hu. apply (H2 (x u)); [apply Hin; lra|apply Hout; lra].
Qed.

(** Without LLO the same holds non-strictly, for initial states strictly inside. *)
Theorem C19_roa_nonincreasing :
  forall n f d beta V Vdot,
    certified (roa_constraints false (new_vars n) d beta V Vdot) ->
    lie_derivative n f (sem V) (sem Vdot) ->
    forall x T, 0 <= T -> solves n f x T -> inside d XI (x 0) ->
      sem V (x 0) < 11/10 * Q2R beta ->
      (forall t, 0 <= t <= T -> outside_ball n (1/100) (x t)) ->
      (forall t, 0 <= t <= T -> 0 < sem V (x t) < 11/10 * Q2R beta) /\
      (forall s t, 0 <= s <= t -> t <= T -> sem V (x t) <= sem V (x s)).
Proof.
  intros n f d beta V Vdot Hc Hl x T HT Hx Hi HV0 Hout.
  destruct (certified_roa _ _ _ _ _ _ Hc) as [H1 H2].
  set (L := 11/10 * Q2R beta) in *.
  assert (Hdec : forall s t, 0 <= s <= t -> t <= T -> (forall u, s <= u <= t -> sem V (x u) <= L) ->
            sem V (x t) <= sem V (x s)).
  { intros s t Hs Ht Hle.
    assert (H := mvt_bound (fun u => sem V (x u)) (fun u => sem Vdot (x u)) s t 0 ltac:(lra)).
    simpl in H. assert (sem V (x t) <= sem V (x s) + 0 * (t - s)); [|lra]. apply H.
    - intros u Hu. apply Hl. apply Hx. lra.
    - intros u Hu. apply (H2 (x u)); [apply Hle; lra|apply Hout; lra]. }
  assert (Hin : forall t, 0 <= t <= T -> sem V (x t) < L).
  { intros t Ht. apply Rnot_le_lt. intros Hge.
    destruct (first_crossing (fun u => sem V (x u) - L) 0 t) as (m & Hm & Hz & Hlt); try lra.
    - intros u Hu. apply (is_derive_continuous _ _ (sem Vdot (x u))).
      apply is_derive_sub_const. apply Hl. apply Hx. lra.
    - simpl in Hz. assert (sem V (x m) <= sem V (x 0)); [|lra].
      apply Hdec; try lra. intros u Hu. destruct (Req_dec u m) as [->|]; [lra|].
      specialize (Hlt u ltac:(lra)). simpl in Hlt. lra. }
  split.
  - intros t Ht. split; [|now apply Hin].
    apply (H2 (x t)); [left; now apply Hin|now apply Hout].
  - intros s t Hs Ht. apply Hdec; auto. intros u Hu. left. apply Hin. lra.
Qed.

(** LLO with a bounded region: a uniform deadline for entering any ball slightly
    larger than 0.01. *)
Theorem C19_roa_llo_attraction :
  forall n f d beta V Vdot r rho,
    certified (roa_constraints true (new_vars n) d beta V Vdot) ->
    lie_derivative n f (sem V) (sem Vdot) ->
    (forall p, cont_at n (sem V) p) -> (forall p, cont_at n (sem Vdot) p) ->
    bounded_by n r (fun s => sem V s <= 11/10 * Q2R beta) ->
    1/100 < rho ->
    exists T, 0 <= T /\ forall x, solves n f x T -> inside d XI (x 0) ->
      exists t, 0 <= t <= T /\ ~ outside_ball n rho (x t).
Proof.
  intros n f d beta V Vdot r rho Hc Hl HcV HcVd [Hr Hbox] Hrho.
  destruct (certified_roa _ _ _ _ _ _ Hc) as [H1 H2].
  set (L := 11/10 * Q2R beta) in *.
  assert (Hsq : forall k p, (k <= n)%nat -> cont_at n (sqnorm k) p).
  { induction k as [|k IH]; intros p Hk e He; simpl.
    - exists 1. split; [lra|]. intros s _. rewrite Rminus_diag_eq, Rabs_R0; auto.
    - destruct (IH p ltac:(lia) (e/2)) as (d1 & Hd1 & Hs1); [lra|].
      set (q := Rmin 1 (e / (2 * (2 * Rabs (p k) + 1)))).
      assert (Ha : 0 <= Rabs (p k)) by apply Rabs_pos.
      assert (Hq0 : 0 < e / (2 * (2 * Rabs (p k) + 1))) by (apply Rdiv_lt_0_compat; lra).
      assert (Hq : 0 < q) by (unfold q; apply Rmin_glb_lt; lra).
      exists (Rmin d1 q). split; [apply Rmin_glb_lt; lra|]. intros s Hs.
      assert (H1' : Rabs (sqnorm k s - sqnorm k p) < e / 2).
      { apply Hs1. intros i Hi. apply Rlt_le_trans with (Rmin d1 q); [auto|apply Rmin_l]. }
      assert (H2' : Rabs (s k - p k) < q).
      { apply Rlt_le_trans with (Rmin d1 q); [apply Hs; lia|apply Rmin_r]. }
      assert (H3' : Rabs (s k * s k - p k * p k) <= e / 2).
      { replace (s k * s k - p k * p k) with ((s k - p k) * ((s k - p k) + 2 * p k)) by ring.
        rewrite Rabs_mult.
        assert (Hb : Rabs (s k - p k + 2 * p k) <= 1 + 2 * Rabs (p k)).
        { apply Rle_trans with (Rabs (s k - p k) + Rabs (2 * p k)); [apply Rabs_triang|].
          rewrite Rabs_mult, (Rabs_right 2) by lra.
          assert (q <= 1) by apply Rmin_l. lra. }
        assert (q <= e / (2 * (2 * Rabs (p k) + 1))) by apply Rmin_r.
        assert (0 <= Rabs (s k - p k)) by apply Rabs_pos.
        assert (0 <= Rabs (s k - p k + 2 * p k)) by apply Rabs_pos.
        apply Rle_trans with ((e / (2 * (2 * Rabs (p k) + 1))) * (1 + 2 * Rabs (p k))).
        - apply Rmult_le_compat; lra.
        - right. field. lra. }
      replace (sqnorm k s + s k * s k - (sqnorm k p + p k * p k)) with
        ((sqnorm k s - sqnorm k p) + (s k * s k - p k * p k)) by ring.
      apply Rle_lt_trans with (1 := Rabs_triang _ _). lra. }
  set (K := fun s => sem V s <= L /\ rho * rho <= sqnorm n s).
  assert (HKcl : forall p, in_box n r p -> ~ K p -> exists q, 0 < q /\ forall s, close n q p s -> ~ K s).
  { intros p _ Hn. destruct (classic (sem V p <= L)) as [HV|HV].
    - assert (Hs : sqnorm n p < rho * rho).
      { apply Rnot_le_lt. intros H. apply Hn. split; auto. }
      destruct (Hsq n p ltac:(lia) (rho * rho - sqnorm n p)) as (q & Hq & H); [lra|].
      exists q. split; auto. intros s Hs' [_ Hbad]. specialize (H s Hs'). apply Rabs_def2 in H. lra.
    - apply Rnot_le_lt in HV.
      destruct (HcV p (sem V p - L)) as (q & Hq & H); [lra|].
      exists q. split; auto. intros s Hs' [Hbad _]. specialize (H s Hs'). apply Rabs_def2 in H. lra. }
  destruct (box_positive_min n r K (fun s => - sem Vdot s) Hr HKcl) as (c & Hcp & Hlowd).
  { intros p _ _. apply cont_opp. apply HcVd. }
  { intros p _ [HV Hs]. assert (sem Vdot p < 0); [|lra]. apply (H2 p HV). nra. }
  destruct (box_bounded_below n r K (sem V) Hr HKcl) as (m & Hlow); auto.
  set (T := Rmax 0 ((L - m + 1) / c)).
  assert (HT : 0 <= T) by apply Rmax_l.
  assert (HT2 : L - m + 1 <= c * T).
  { assert ((L - m + 1) / c <= T) by apply Rmax_r.
    assert (E : c * ((L - m + 1) / c) = L - m + 1) by (field; lra). nra. }
  exists T. split; [exact HT|].
  intros x Hx Hi. apply NNPP. intros Hno.
  assert (Hout : forall t, 0 <= t <= T -> outside_ball n rho (x t)).
  { intros t Ht. apply NNPP. intros Hn. apply Hno. now exists t. }
  assert (Hout' : forall t, 0 <= t <= T -> outside_ball n (1/100) (x t)).
  { intros t Ht. specialize (Hout t Ht). unfold outside_ball in *. nra. }
  destruct (C19_roa_llo_decrease n f d beta V Vdot Hc Hl x T HT Hx Hi Hout') as [Hin _].
  fold L in Hin.
  assert (HinK : forall t, 0 <= t <= T -> K (x t)).
  { intros t Ht. split; [now apply Hin|]. left. exact (Hout t Ht). }
  assert (Hb := mvt_bound (fun u => sem V (x u)) (fun u => sem Vdot (x u)) 0 T (- c) HT).
  simpl in Hb. assert (Hfin : sem V (x T) <= sem V (x 0) + - c * (T - 0)).
  { apply Hb.
    - intros t Ht. apply Hl. now apply Hx.
    - intros t Ht. assert (H := Hlowd (x t) (Hbox _ (Hin t Ht)) (HinK t Ht)). lra. }
  assert (H3 := Hin 0 ltac:(lra)).
  assert (H4 := Hlow (x T) (Hbox _ (Hin T ltac:(lra))) (HinK T ltac:(lra))). lra.
Qed.

(** Violation: without LLO, success does not imply attraction.  f = 0, V = x^2. *)
Definition still_V : expr := EPow (EVar 0) 2.
Definition still_Vdot : expr := EBin BMul (EBin BMul (ENum 2) (EVar 0)) (ENum 0).
Definition unit_interval : fml := fand [FCmp CLe (ENum (-1)) (EVar 0); FCmp CLe (EVar 0) (ENum 1)].
Definition still_sets : sets := fun l => match l with XI => unit_interval | _ => FTrue end.
Definition still_f : vfield := fun _ _ => 0.

Lemma Q2R_m1 : Q2R (-1) = -1. Proof. unfold Q2R; simpl; lra. Qed.
Lemma Q2R_2 : Q2R 2 = 2. Proof. unfold Q2R; simpl; lra. Qed.

Theorem C19_no_attraction_without_llo :
  certified (roa_constraints false (new_vars 1) still_sets 1 still_V still_Vdot) /\
  lie_derivative 1 still_f (sem still_V) (sem still_Vdot) /\
  exists x, solves_forever 1 still_f x /\ inside still_sets XI (x 0) /\
    forall t, outside_ball 1 (1/2) (x t).
Proof.
  split; [|split].
  - apply refuted_certified.
    + apply (C01_certificate_labels_distinct false (new_vars 1) still_sets 1 still_V still_V still_Vdot still_Vdot).
    + apply C07_roa_obligations. rewrite Q2R_1.
      split; unfold sem, inside; simpl; rewrite ?Q2R_m1, ?Q2R_1, ?Q2R_0, ?Q2R_2.
      * intros s [H1 [H2 _]]. nra.
      * intros s _ Hs. split; [nra|lra].
  - intros x t Hx. assert (H := Hx 0%nat ltac:(lia)). unfold sem; simpl.
    unfold still_f in H. rewrite Q2R_2, Q2R_0.
    assert (E : is_derive (fun u => x u 0%nat * x u 0%nat) t (0 * x t 0%nat + x t 0%nat * 0)).
    { apply (is_derive_mult (fun u => x u 0%nat) (fun u => x u 0%nat)); auto.
      intros n' m'. apply Rmult_comm. }
    apply (is_derive_ext (fun u => x u 0%nat * x u 0%nat)); [intros u; simpl; ring|].
    replace (2 * x t 0%nat * 0) with (0 * x t 0%nat + x t 0%nat * 0) by ring. exact E.
  - exists (fun _ _ => 1). split; [|split].
    + intros t _ i _. unfold still_f. apply (is_derive_const (V := R_NormedModule)).
    + unfold inside, still_sets, unit_interval. simpl. rewrite Q2R_m1, Q2R_1. lra.
    + intros t. unfold outside_ball. simpl. lra.
Qed.

(** Violation: without LLO, V may increase from an initial state on the very edge
    of the region.  f = 1, V = 1+(x-1)^2, XI = {1}. *)
Definition edge_V : expr := EBin BAdd (ENum 1) (EPow (EBin BSub (EVar 0) (ENum 1)) 2).
Definition edge_Vdot : expr := EBin BMul (EBin BMul (ENum 2) (EBin BSub (EVar 0) (ENum 1))) (ENum 1).
Definition edge_sets : sets := fun l => match l with XI => FCmp CEq (EVar 0) (ENum 1) | _ => FTrue end.
Theorem C19_edge_escape_without_llo :
  certified (roa_constraints false (new_vars 1) edge_sets (10#11) edge_V edge_Vdot) /\
  lie_derivative 1 (fun _ _ => 1) (sem edge_V) (sem edge_Vdot) /\
  exists x, solves_forever 1 (fun _ _ => 1) x /\ inside edge_sets XI (x 0) /\
    (forall t, 0 <= t -> outside_ball 1 (1/2) (x t)) /\
    (forall t, 0 < t -> sem edge_V (x 0) < sem edge_V (x t)).
Proof.
  split; [|split].
  - apply refuted_certified.
    + apply (C01_certificate_labels_distinct false (new_vars 1) edge_sets 1 edge_V edge_V edge_Vdot edge_Vdot).
    + apply C07_roa_obligations.
      replace (11/10 * Q2R (10#11)) with 1 by (unfold Q2R; simpl; field).
      split; unfold sem, inside; simpl; rewrite ?Q2R_m1, ?Q2R_1, ?Q2R_0, ?Q2R_2.
      * intros s H. rewrite H. lra.
      * intros s Hle Hs. assert (E : s 0%nat = 1) by nra. rewrite E. lra.
  - intros x t Hx. assert (H := Hx 0%nat ltac:(lia)). unfold sem; simpl.
    rewrite Q2R_2, Q2R_1.
    assert (H' : is_derive (fun u => x u 0%nat - 1) t 1) by now apply is_derive_sub_const.
    assert (E : is_derive (fun u => (x u 0%nat - 1) * (x u 0%nat - 1)) t
       (1 * (x t 0%nat - 1) + (x t 0%nat - 1) * 1)).
    { apply (is_derive_mult (fun u => x u 0%nat - 1) (fun u => x u 0%nat - 1)); auto.
      intros n' m'. apply Rmult_comm. }
    apply (is_derive_sub_const _ _ _ (-1)) in E.
    apply (is_derive_ext (fun u => (x u 0%nat - 1) * (x u 0%nat - 1) - -1)); [intros u; simpl; ring|].
    replace (2 * (x t 0%nat - 1) * 1) with (1 * (x t 0%nat - 1) + (x t 0%nat - 1) * 1) by ring. exact E.
  - exists (fun t _ => 1 + t). split; [|split; [|split]].
    + intros t _ i _. auto_derive; auto.
    + unfold inside. simpl. rewrite Q2R_1. ring.
    + intros t Ht. unfold outside_ball. simpl. nra.
    + intros t Ht. unfold sem. simpl. rewrite Q2R_1. nra.
Qed.

(** Violation of C13 when V(0)=0 is not guaranteed: nothing in the constraints
    forces it.  V = 10 - x^2 certifies the unstable system xdot = x on [-1,1]. *)
Definition hill_V : expr := EBin BSub (ENum 10) (EPow (EVar 0) 2).
Definition hill_Vdot : expr := EBin BMul (EUn UNeg (EBin BMul (ENum 2) (EVar 0))) (EVar 0).
Definition hill_sets : sets := fun l => match l with XD => unit_interval | _ => FTrue end.
Definition hill_f : vfield := fun s i => s i.

Lemma hill_lie : lie_derivative 1 hill_f (sem hill_V) (sem hill_Vdot).
Proof.
  intros x t Hx. assert (H := Hx 0%nat ltac:(lia)). unfold hill_f in H. unfold sem; simpl.
  replace (Q2R 10) with 10 by (unfold Q2R; simpl; lra). rewrite Q2R_2.
  assert (E : is_derive (fun u => x u 0%nat * x u 0%nat) t (x t 0%nat * x t 0%nat + x t 0%nat * x t 0%nat)).
  { apply (is_derive_mult (fun u => x u 0%nat) (fun u => x u 0%nat)); auto.
    intros n' m'. apply Rmult_comm. }
  apply (is_derive_opp (V := R_NormedModule)) in E. apply (is_derive_sub_const _ _ _ (-10)) in E.
  replace (- (2 * x t 0%nat) * x t 0%nat) with (opp (x t 0%nat * x t 0%nat + x t 0%nat * x t 0%nat))
    by (unfold opp; simpl; ring).
  apply (is_derive_ext (fun u => opp (x u 0%nat * x u 0%nat) - -10)); [|exact E].
  intros u. unfold opp; simpl. ring.
Qed.

Lemma exp_grows d : 0 < d -> exists T, 0 <= T /\ 1/2 < d / 2 * exp T.
Proof.
  intros Hd. exists (/ d). split.
  - left. now apply Rinv_0_lt_compat.
  - assert (H : 1 + / d < exp (/ d)).
    { apply exp_ineq1. assert (0 < / d) by now apply Rinv_0_lt_compat. lra. }
    assert (E : d * / d = 1) by (field; lra). nra.
Qed.

Theorem C13_unstable_system_certified :
  certified (lyapunov_constraints false (new_vars 1) hill_sets hill_V hill_Vdot) /\
  lie_derivative 1 hill_f (sem hill_V) (sem hill_Vdot) /\
  neighbourhood 1 1 (inside hill_sets XD) /\
  ~ stable 1 hill_f.
Proof.
  split; [|split; [|split]].
  - apply refuted_certified.
    + apply (C01_certificate_labels_distinct false (new_vars 1) hill_sets 1 hill_V hill_V hill_Vdot hill_Vdot).
    + apply C06_lyapunov_obligations. intros s Hs Ho. unfold inside, hill_sets, unit_interval in Hs.
      simpl in Hs. rewrite Q2R_m1, Q2R_1 in Hs. unfold sem; simpl.
      replace (Q2R 10) with 10 by (unfold Q2R; simpl; lra). rewrite Q2R_2.
      assert (Hne : s 0%nat <> 0).
      { intros E. apply Ho. intros i Hi. replace i with 0%nat by lia. exact E. }
      split; [intros _; nra|]. destruct (Rdichotomy _ _ Hne); nra.
  - exact hill_lie.
  - split; [lra|]. intros s Hs. specialize (Hs 0%nat ltac:(lia)). apply Rabs_def2 in Hs.
    unfold inside, hill_sets, unit_interval. simpl. rewrite Q2R_m1, Q2R_1. lra.
  - intros H. destruct (H (1/2) ltac:(lra)) as (d & Hd & Hs).
    destruct (exp_grows d Hd) as (T & HT & Hbig).
    specialize (Hs (fun t _ => d / 2 * exp t) T HT).
    assert (Hn : near 1 (1/2) (fun _ => d / 2 * exp T)).
    { apply (Hs) with (t := T); [| |lra].
      - intros t _ i _. unfold hill_f. auto_derive; auto. ring.
      - intros i _. rewrite exp_0. rewrite Rabs_right; lra. }
    specialize (Hn 0%nat ltac:(lia)). rewrite Rabs_right in Hn; lra.
Qed.
