(** Properties C15-C18, C20: what a reported success says about trajectories. *)
From Coq Require Import Reals QArith Qreals List Lra Lia Classical.
From Coquelicot Require Import Coquelicot.
From Verif Require Import M_Syntax M_Certificates M_Verifier M_BetaSearch S_Verifier S_Certificates
  S_Success S_Dynamics L_Holds L_Calculus L_Success P_Verifier P_Certificates P_BetaSearch.
Import ListNotations.
Local Open Scope R_scope.

(** ** Success gives the conditions *)
Lemma certified_barrier d B Bdot :
  certified (barrier_constraints d B Bdot) -> barrier_conditions d XI XU (sem B) (sem Bdot).
Proof.
  intros H. apply C08_barrier_obligations. apply certified_refuted; auto.
  apply (C01_certificate_labels_distinct false [] d 0 B B Bdot Bdot).
Qed.
Lemma certified_barrier_alt d B Bdot :
  certified (barrier_alt_constraints d B Bdot) -> barrier_alt_conditions d (sem B) (sem Bdot).
Proof.
  intros H. apply C09_barrier_alt_obligations. apply certified_refuted; auto.
  apply (C01_certificate_labels_distinct false [] d 0 B B Bdot Bdot).
Qed.
Lemma certified_rws d C Cdot :
  certified (rws_constraints d C Cdot) -> rws_conditions d (sem C) (sem Cdot).
Proof.
  intros H. apply C10_rws_obligations. apply certified_refuted; auto.
  apply (C01_certificate_labels_distinct false [] d 0 C C Cdot Cdot).
Qed.

(** ** Paths *)
Lemma solves_cont n f x T : solves n f x T -> continuous_path n x 0 T.
Proof. intros H t Ht i Hi. apply (is_derive_continuous _ _ (f (x t) i)). now apply H. Qed.

Lemma solves_shorter n f x T T' : solves n f x T -> T' <= T -> solves n f x T'.
Proof. intros H Hle t Ht. apply H. lra. Qed.

Lemma forever_solves n f x T : solves_forever n f x -> solves n f x T.
Proof. intros H t Ht. apply H. lra. Qed.

(** Time shift. *)
Lemma follows_shift n f x a t : follows n f x (a + t) -> follows n f (fun u => x (a + u)) t.
Proof.
  intros H i Hi. specialize (H i Hi).
  assert (H2 : is_derive (fun u => a + u) t 1).
  { auto_derive; [exact I|ring]. }
  assert (H3 := is_derive_comp (fun u => x u i) (fun u => a + u) t _ _ H H2).
  replace (f (x (a + t)) i) with (scal 1 (f (x (a + t)) i)); [exact H3|].
  unfold scal; simpl; unfold mult; simpl. ring.
Qed.

(** * C15 *)
Theorem C15_barrier_safety :
  forall n f d B Bdot,
    certified (barrier_constraints d B Bdot) ->
    lie_derivative n f (sem B) (sem Bdot) ->
    forall x T, solves n f x T ->
      inside d XI (x 0) ->
      (forall t, 0 <= t <= T -> inside d XD (x t)) ->
      forall t, 0 <= t <= T -> ~ inside d XU (x t).
Proof.
  intros n f d B Bdot Hc Hl x T Hx Hi Hd t Ht Hu.
  destruct (certified_barrier _ _ _ Hc) as (H1 & H2 & H3).
  assert (Hneg : sem B (x t) < 0).
  { apply (barrier_neg (fun u => sem B (x u)) (fun u => sem Bdot (x u)) 0 T); try lra.
    - intros u Hu'. apply Hl. now apply Hx.
    - apply H1; auto. apply Hd. lra.
    - intros u Hu' E. apply H3; auto. }
  assert (H := H2 (x t) (Hd t Ht) Hu). lra.
Qed.

(** * C16 *)
Theorem C16_barrier_alt_safety_continuous :
  forall n f d B Bdot,
    certified (barrier_alt_constraints d B Bdot) ->
    lie_derivative n f (sem B) (sem Bdot) ->
    forall x T, solves n f x T ->
      inside d XI (x 0) ->
      (forall t, 0 <= t <= T -> inside d XD (x t)) ->
      forall t, 0 <= t <= T -> ~ inside d XU (x t).
Proof.
  intros n f d B Bdot Hc Hl x T Hx Hi Hd t Ht Hu.
  destruct (certified_barrier_alt _ _ _ Hc) as (H1 & H2 & H3).
  assert (H0 := H1 (x 0) (Hd 0 ltac:(lra)) Hi).
  assert (Hle := mvt_bound (fun u => sem B (x u)) (fun u => sem Bdot (x u)) 0 t 0 ltac:(lra)
    ltac:(intros u Hu'; apply Hl; apply Hx; lra) ltac:(intros u Hu'; apply H3; apply Hd; lra)).
  assert (H := H2 (x t) (Hd t Ht) Hu). simpl in Hle. lra.
Qed.

Theorem C16_barrier_alt_safety_discrete :
  forall n F d B dB,
    certified (barrier_alt_constraints d B dB) ->
    step_difference n F (sem B) (sem dB) ->
    forall x K, run n F x ->
      inside d XI (x 0%nat) ->
      (forall k, (k <= K)%nat -> inside d XD (x k)) ->
      forall k, (k <= K)%nat -> ~ inside d XU (x k).
Proof.
  intros n F d B dB Hc Hl x K Hx Hi Hd k Hk Hu.
  destruct (certified_barrier_alt _ _ _ Hc) as (H1 & H2 & H3).
  assert (Hneg : forall j, (j <= K)%nat -> sem B (x j) < 0).
  { induction j as [|j IH]; intros Hj; [apply H1; auto; apply Hd; lia|].
    assert (Hj' := IH ltac:(lia)).
    assert (Hs := Hl (x j) (x (S j)) (Hx j)).
    assert (Hn := H3 (x j) (Hd j ltac:(lia))). lra. }
  assert (H := H2 (x k) (Hd k Hk) Hu). assert (H' := Hneg k Hk). lra.
Qed.

(** * C17 *)

(** Geometry a reach-while-stay problem must have: the initial set lies in the
    domain and in the safe set, the declared safe border is a border of the safe set
    and lies in the domain. *)
Definition rws_geometry (n : nat) (d : sets) : Prop :=
  (forall s, inside d XI s -> inside d XD s /\ inside d XS s) /\
  (forall s, inside d XS_BORDER s -> inside d XD s) /\
  fence n (inside d XS) (inside d XS_BORDER).

(** Core: as long as every visited safe state with C<=0 has Cdot <= -1/100, the
    trajectory is safe, C<=0 and C decreases at rate 1/100. *)
Lemma rws_core n f d (C Cdot : state -> R) x T :
  rws_geometry n d ->
  (forall s, inside d XD s -> inside d XI s -> C s <= 0) ->
  (forall s, inside d XD s -> inside d XS_BORDER s -> 0 < C s) ->
  lie_derivative n f C Cdot -> solves n f x T -> inside d XI (x 0) ->
  (forall u, 0 <= u <= T -> inside d XS (x u) -> C (x u) <= 0 -> Cdot (x u) <= - (1/100)) ->
  0 <= T ->
  (forall u, 0 <= u <= T -> inside d XS (x u)) /\ C (x T) <= C (x 0) - 1/100 * T.
Proof.
  intros (Hgi & Hgb & Hfe) H1 H2 Hl Hx Hi Hdec HT.
  destruct (Hgi _ Hi) as [HiD HiS].
  assert (Hnonpos : forall T', 0 <= T' <= T -> (forall u, 0 <= u < T' -> inside d XS (x u)) ->
            forall u, 0 <= u <= T' -> C (x u) <= 0).
  { intros T' HT' Hs. apply (barrier_nonpos_open (fun u => C (x u)) (fun u => Cdot (x u))); try lra.
    - intros u Hu. apply Hl. apply Hx. lra.
    - now apply H1.
    - intros u Hu E. assert (Cdot (x u) <= - (1/100)); [|lra].
      apply Hdec; try lra. apply Hs; lra. }
  assert (Hsafe : forall u, 0 <= u <= T -> inside d XS (x u)).
  { intros u Hu. apply NNPP. intros Hn.
    destruct (Hfe x 0 u (proj1 Hu)) as (t & Ht & Hb & Hin); auto.
    { intros v Hv. apply (solves_cont n f x T Hx). lra. }
    assert (Hc := Hnonpos t ltac:(lra) Hin t ltac:(lra)).
    assert (Hp := H2 (x t) (Hgb _ Hb) Hb). lra. }
  split; [exact Hsafe|].
  assert (Hle := mvt_bound (fun u => C (x u)) (fun u => Cdot (x u)) 0 T (-(1/100)) HT).
  simpl in Hle. assert (C (x T) <= C (x 0) + - (1/100) * (T - 0)); [|lra].
  apply Hle.
  - intros u Hu. apply Hl. now apply Hx.
  - intros u Hu. apply Hdec; auto. apply (Hnonpos T ltac:(lra)); auto. intros v Hv. apply Hsafe. lra.
Qed.

Theorem C17_rws_reach_while_stay :
  forall n f d C Cdot m,
    certified (rws_constraints d C Cdot) ->
    lie_derivative n f (sem C) (sem Cdot) ->
    rws_geometry n d ->
    (forall s, inside d XS s -> m <= sem C s) ->
    forall x T, solves n f x T -> inside d XI (x 0) ->
      (sem C (x 0) - m) / (1/100) < T ->
      reach_while_stay (inside d XS) (inside d XG) x T.
Proof.
  intros n f d C Cdot m Hc Hl Hgeo Hm x T Hx Hi HT.
  destruct (certified_rws _ _ _ Hc) as (H1 & H2 & H3).
  assert (HC0 := Hm _ (proj2 (proj1 Hgeo _ Hi))).
  assert (HTpos : 0 <= T).
  { assert (0 <= (sem C (x 0) - m) / (1/100)); [|lra]. lra. }
  assert (Hcore : forall u, 0 <= u <= T -> (forall v, 0 <= v <= u -> ~ inside d XG (x v)) ->
    (forall v, 0 <= v <= u -> inside d XS (x v)) /\ sem C (x u) <= sem C (x 0) - 1/100 * u).
  { intros u Hu Hng. apply (rws_core n f d (sem C) (sem Cdot) x u); auto; try lra.
    apply (solves_shorter n f x T); auto; lra. }
  split.
  - apply NNPP. intros Hno.
    destruct (Hcore T ltac:(lra)) as [Hs Hle].
    { intros v Hv HG. apply Hno. exists v. auto. }
    assert (Hm' := Hm _ (Hs T ltac:(lra))). lra.
  - intros u Hu Hng. destruct (Hcore u Hu Hng) as [Hs _]. apply Hs. lra.
Qed.

(** * C18 *)
Definition rsws_geometry (n : nat) (d : sets) : Prop :=
  rws_geometry n d /\
  (forall s, inside d XG s -> inside d XS s) /\
  fence n (inside d XG) (inside d XG_BORDER).

Theorem C18_rsws_reach_and_stay :
  forall n f d C Cdot m be fuel k beta,
    (* verification and beta search both report success *)
    certified (rws_constraints d C Cdot) ->
    stay_sound be d C Cdot -> beta_search be d C Cdot fuel k = Some (BetaTrue beta) ->
    lie_derivative n f (sem C) (sem Cdot) ->
    rsws_geometry n d ->
    (forall s, inside d XS s -> m <= sem C s) ->
    forall x, solves_forever n f x -> inside d XI (x 0) ->
      (forall t, 0 <= t -> inside d XS (x t)) /\
      forall T, (sem C (x 0) - m) / (1/100) < T -> forall t, T <= t -> inside d XG (x t).
Proof.
  intros n f d C Cdot m be fuel k beta Hc Hbe Hb Hl (Hgeo & Hgs & Hfg) Hm x Hx Hi.
  destruct (certified_rws _ _ _ Hc) as (H1 & H2 & H3).
  destruct (C11_beta_search_true _ _ _ _ _ _ _ Hbe Hb) as [S1 S2].
  set (hit := fun u => inside d XG (x u) /\ sem C (x u) < Q2R beta).
  (* once hit, in the goal for ever *)
  assert (Hinv : forall a t, 0 <= a -> hit a -> a <= t -> inside d XG (x t)).
  { intros a t Ha [HG Hlt] Hat. apply NNPP. intros Hn.
    destruct (Hfg x a t Hat) as (t' & Ht' & Hbd & Hin); auto.
    { intros v Hv. apply (solves_cont n f x t (forever_solves n f x t Hx)). lra. }
    assert (Hg := S1 _ Hbd).
    assert (Hle := barrier_nonpos_open (fun u => sem C (x u) - Q2R beta) (fun u => sem Cdot (x u)) a t'
      ltac:(lra)).
    assert (Hle' : sem C (x t') - Q2R beta <= 0); [|lra].
    apply Hle; try lra.
    - intros u Hu. apply is_derive_sub_const. apply Hl. apply Hx. lra.
    - intros u Hu E. assert (sem Cdot (x u) <= -(1/100)); [|lra].
      apply S2; [apply Hin; lra|]. intros [_ Hbad]. lra. }
  (* before the hit, C decreases *)
  assert (Hbefore : forall T, 0 <= T -> (forall u, 0 <= u <= T -> ~ hit u) ->
    (forall u, 0 <= u <= T -> inside d XS (x u)) /\ sem C (x T) <= sem C (x 0) - 1/100 * T).
  { intros T HT Hno. apply (rws_core n f d (sem C) (sem Cdot) x T); auto.
    - now apply forever_solves.
    - intros u Hu HS HC. destruct (classic (inside d XG (x u))) as [HG|HG].
      + apply S2; auto. intros [_ Hlt]. apply (Hno u Hu). split; auto.
      + now apply H3. }
  assert (HC0 := Hm _ (proj2 (proj1 Hgeo _ Hi))).
  split.
  - intros t Ht. destruct (classic (exists u, 0 <= u <= t /\ hit u)) as [(u & Hu & Hh)|Hno].
    + apply Hgs. apply (Hinv u); auto; lra.
    + destruct (Hbefore t Ht) as [Hs _].
      * intros u Hu Hh. apply Hno. now exists u.
      * apply Hs. lra.
  - intros T HT t Ht.
    assert (HTpos : 0 <= T).
    { assert (0 <= (sem C (x 0) - m) / (1/100)); [|lra]. lra. }
    destruct (classic (exists u, 0 <= u <= T /\ hit u)) as [(u & Hu & Hh)|Hno].
    + apply (Hinv u); auto; lra.
    + destruct (Hbefore T HTpos) as [Hs Hle].
      * intros u Hu Hh. apply Hno. now exists u.
      * assert (Hm' := Hm _ (Hs T ltac:(lra))). lra.
Qed.

(** * C20 *)
Lemma certified_rar d V B Vdot Bdot :
  certified (rar_constraints d V B Vdot Bdot) ->
  rws_conditions d (sem V) (sem Vdot) /\ barrier_conditions d XG XNF (sem B) (sem Bdot).
Proof.
  intros H. apply C12_rar_obligations. apply certified_refuted; auto.
  apply (C01_certificate_labels_distinct false [] d 0 V B Vdot Bdot).
Qed.

Theorem C20_rar_reach_avoid_remain :
  forall n f d V B Vdot Bdot m,
    certified (rar_constraints d V B Vdot Bdot) ->
    lie_derivative n f (sem V) (sem Vdot) ->
    lie_derivative n f (sem B) (sem Bdot) ->
    rws_geometry n d ->
    (forall s, inside d XS s -> m <= sem V s) ->
    forall x T, solves n f x T -> inside d XI (x 0) ->
      ((sem V (x 0) - m) / (1/100) < T ->
         reach_while_stay (inside d XS) (inside d XG) x T) /\
      (forall a, 0 <= a <= T -> inside d XG (x a) ->
         (forall t, a <= t <= T -> inside d XD (x t)) ->
         (forall s, inside d XD s -> inside d XF s \/ inside d XNF s) ->
         forall t, a <= t <= T -> inside d XF (x t) /\ ~ inside d XNF (x t)).
Proof.
  intros n f d V B Vdot Bdot m Hc HlV HlB Hgeo Hm x T Hx Hi.
  destruct (certified_rar _ _ _ _ _ Hc) as (Hrws & HB1 & HB2 & HB3). split.
  - intros HT. apply (C17_rws_reach_while_stay n f d V Vdot m); auto.
    apply refuted_certified.
    + apply (C01_certificate_labels_distinct false [] d 0 V B Vdot Bdot).
    + now apply C10_rws_obligations.
  - intros a Ha HG HD Hcov t Ht.
    assert (Hneg : sem B (x t) < 0).
    { apply (barrier_neg (fun u => sem B (x u)) (fun u => sem Bdot (x u)) a T); try lra.
      - intros u Hu'. apply HlB. apply Hx. lra.
      - apply HB1; auto. apply HD. lra.
      - intros u Hu' E. apply HB3; auto. }
    assert (Hn : ~ inside d XNF (x t)).
    { intros Hu. assert (H := HB2 (x t) (HD t Ht) Hu). lra. }
    split; auto. destruct (Hcov (x t) (HD t Ht)); tauto.
Qed.
