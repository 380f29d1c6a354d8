(** Properties C11 and C34: the stay check and the beta search of RSWS. *)
From Coq Require Import Reals QArith Qreals Qfield Qpower List Bool Lra Lia Classical.
From Coq Require Lqa.
From Verif Require Import M_Syntax M_Certificates M_Verifier M_BetaSearch
  S_Verifier S_Certificates L_Holds P_Certificates.
Import ListNotations.
Local Open Scope R_scope.

(** What "accepted" means for a back-end: an accepted formula has no solution. *)
Definition backend_sound (be : backend) : Prop :=
  forall k f, b_is_unsat be (b_solve be k f) = true -> unsatisfiable f.

Lemma smt_backend_sound solve : unsat_sound solve -> backend_sound (smt_backend solve).
Proof.
  intros H k f. simpl. intros E. apply (H k). destruct (solve k f); easy.
Qed.

(** ... only needed for the two kinds of query the search makes. *)
Definition stay_sound (be : backend) (d : sets) (C Cdot : expr) : Prop :=
  forall k beta,
    (b_is_unsat be (b_solve be k (stay_border_condition d C beta)) = true ->
     unsatisfiable (stay_border_condition d C beta)) /\
    (b_is_unsat be (b_solve be k (stay_lie_condition d C Cdot beta)) = true ->
     unsatisfiable (stay_lie_condition d C Cdot beta)).
Lemma backend_sound_stay be d C Cdot : backend_sound be -> stay_sound be d C Cdot.
Proof. intros H k beta. split; apply H. Qed.

Lemma stay_conditions_iff d C Cdot beta :
  unsatisfiable (stay_border_condition d C beta) /\
  unsatisfiable (stay_lie_condition d C Cdot beta) <->
  stay_conditions d (Q2R beta) (sem C) (sem Cdot).
Proof.
  unfold stay_conditions, sem, inside. split.
  - intros [H1 H2]. split.
    + intros s Hs. apply Rnot_le_lt. intros Hle. apply (H1 s). simpl. auto.
    + intros s Hg HnB. apply Rnot_lt_le. intros Hlt. apply (H2 s). simpl.
      rewrite Q2R_gamma, Q2R_0. repeat split; auto; [tauto|lra].
  - intros [H1 H2]. split; intros s Hs; simpl in Hs.
    + assert (H := H1 s (proj1 (proj2 Hs))). lra.
    + rewrite Q2R_gamma, Q2R_0 in Hs. destruct Hs as [[Hg [HnB _]] [Hl _]].
      assert (H := H2 s Hg ltac:(tauto)). lra.
Qed.

Lemma beta_loop_true be d C Cdot : forall fuel k lo up beta,
  beta_loop be d C Cdot fuel k lo up = Some (BetaTrue beta) ->
  exists k', b_is_unsat be (b_solve be k' (stay_border_condition d C beta)) = true /\
             b_is_unsat be (b_solve be (S k') (stay_lie_condition d C Cdot beta)) = true.
Proof.
  induction fuel as [|fuel IH]; intros k lo up beta; cbn [beta_loop]; [discriminate|].
  unfold stay_in_goal_check.
  set (g := ((up + lo) / 2)%Q).
  destruct (b_is_unsat be (b_solve be k _)) eqn:E1;
  destruct (b_is_unsat be (b_solve be (S k) _)) eqn:E2;
  destruct (b_is_sat be (b_solve be k _)) eqn:E3;
  destruct (b_is_sat be (b_solve be (S k) _)) eqn:E4; cbn [andb]; intros H;
  try discriminate H; try (eapply IH; exact H);
  injection H as <-; exists k; split; assumption.
Qed.

(** * C11 *)
Theorem C11_beta_search_true :
  forall be d C Cdot fuel k beta,
    stay_sound be d C Cdot ->
    beta_search be d C Cdot fuel k = Some (BetaTrue beta) ->
    stay_conditions d (Q2R beta) (sem C) (sem Cdot).
Proof.
  intros be d C Cdot fuel k beta Hs H. apply beta_loop_true in H.
  destruct H as (k' & H1 & H2). apply stay_conditions_iff. split; eapply Hs; eassumption.
Qed.

(** If the search gives up with False, then at the last guess both conditions were
    answered sat: no value of beta works there (for a solver that is right when it
    says sat). *)
Definition backend_sat_right (be : backend) : Prop :=
  forall k f, b_is_sat be (b_solve be k f) = true -> ~ unsatisfiable f.

(** Raising beta only makes the border condition easier to violate, lowering it
    only makes the decrease condition easier to violate. *)
Lemma border_monotone d C b1 b2 :
  (b1 <= b2)%Q -> ~ unsatisfiable (stay_border_condition d C b1) ->
  ~ unsatisfiable (stay_border_condition d C b2).
Proof.
  intros Hle Hn Hu. apply Hn. intros s Hs. apply (Hu s). simpl in *.
  apply Qle_Rle in Hle. split; [lra|tauto].
Qed.
Lemma lie_monotone d C Cdot b1 b2 :
  (b1 <= b2)%Q -> ~ unsatisfiable (stay_lie_condition d C Cdot b2) ->
  ~ unsatisfiable (stay_lie_condition d C Cdot b1).
Proof.
  intros Hle Hn Hu. apply Hn. intros s Hs. apply (Hu s). simpl in *.
  apply Qle_Rle in Hle. destruct Hs as [[Hg [HnB _]] Hl]. repeat split; try tauto.
  intros [Hsafe [Hc _]]. apply HnB. repeat split; auto. lra.
Qed.

Lemma beta_loop_false be d C Cdot : forall fuel k lo up,
  beta_loop be d C Cdot fuel k lo up = Some BetaFalse ->
  exists k' beta, b_is_sat be (b_solve be k' (stay_border_condition d C beta)) = true /\
             b_is_sat be (b_solve be (S k') (stay_lie_condition d C Cdot beta)) = true.
Proof.
  induction fuel as [|fuel IH]; intros k lo up; cbn [beta_loop]; [discriminate|].
  unfold stay_in_goal_check.
  set (g := ((up + lo) / 2)%Q).
  destruct (b_is_unsat be (b_solve be k _)) eqn:E1;
  destruct (b_is_unsat be (b_solve be (S k) _)) eqn:E2;
  destruct (b_is_sat be (b_solve be k _)) eqn:E3;
  destruct (b_is_sat be (b_solve be (S k) _)) eqn:E4; cbn [andb]; intros H;
  try discriminate H; try (eapply IH; exact H);
  exists k, g; split; assumption.
Qed.

Theorem C11_beta_search_false_no_beta :
  forall be d C Cdot fuel k,
    backend_sat_right be ->
    beta_search be d C Cdot fuel k = Some BetaFalse ->
    forall beta, ~ stay_conditions d (Q2R beta) (sem C) (sem Cdot).
Proof.
  intros be d C Cdot fuel k Hs H beta Hc. apply beta_loop_false in H.
  destruct H as (k' & b & H1 & H2). apply stay_conditions_iff in Hc. destruct Hc as [Hb Hl].
  destruct (Qlt_le_dec b beta) as [Hlt|Hle].
  - apply (border_monotone d C b beta); [apply Qlt_le_weak; exact Hlt| |exact Hb].
    eapply Hs; exact H1.
  - apply (lie_monotone d C Cdot beta b Hle); [|exact Hl]. eapply Hs; exact H2.
Qed.

(** * C34 *)

(** Positive part.  The back-end decides the stay conditions (answers each query
    sat or unsat, rightly). *)
Definition decides (be : backend) (f : fml) : Prop :=
  forall k, (b_is_unsat be (b_solve be k f) = true /\ b_is_sat be (b_solve be k f) = false
             /\ unsatisfiable f)
         \/ (b_is_sat be (b_solve be k f) = true /\ b_is_unsat be (b_solve be k f) = false
             /\ ~ unsatisfiable f).

Definition decides_stay be d C Cdot : Prop :=
  forall beta, decides be (stay_border_condition d C beta) /\
               decides be (stay_lie_condition d C Cdot beta).

(** One step of the loop, for a deciding back-end. *)
Lemma stay_check_cases be d C Cdot k beta :
  decides_stay be d C Cdot ->
  let b := unsatisfiable (stay_border_condition d C beta) in
  let l := unsatisfiable (stay_lie_condition d C Cdot beta) in
  match stay_in_goal_check be d C Cdot k beta with
  | StayOk => b /\ l
  | StayDecrease => ~ b /\ l
  | StayIncrease => b /\ ~ l
  | StayBoth => ~ b /\ ~ l
  | StayAssertionError => False
  end.
Proof.
  intros H. destruct (H beta) as [H1 H2]. specialize (H1 k). specialize (H2 (S k)).
  unfold stay_in_goal_check.
  destruct H1 as [(E1 & E2 & E3)|(E1 & E2 & E3)]; destruct H2 as [(F1 & F2 & F3)|(F1 & F2 & F3)];
  rewrite ?E1, ?E2, ?F1, ?F2; simpl; auto.
Qed.

Local Open Scope Q_scope.

Lemma Qpower_2_S n : Qpower 2 (Z.of_nat (S n)) == 2 * Qpower 2 (Z.of_nat n).
Proof.
  rewrite Nat2Z.inj_succ. unfold Z.succ. rewrite Qpower_plus by (intros E; discriminate E).
  rewrite Qmult_comm. reflexivity.
Qed.

Lemma beta_loop_converges be d C Cdot b1 b2 :
  decides_stay be d C Cdot -> b1 < b2 ->
  (forall b, b1 <= b <= b2 ->
     unsatisfiable (stay_border_condition d C b) /\ unsatisfiable (stay_lie_condition d C Cdot b)) ->
  forall n k lo up, lo <= b1 -> b2 <= up ->
    up - lo < (b2 - b1) * Qpower 2 (Z.of_nat n) ->
    exists beta, beta_loop be d C Cdot (S n) k lo up = Some (BetaTrue beta).
Proof.
  intros Hdec Hlt Hok. induction n as [|n IH]; intros k lo up Hlo Hup Hw.
  - exfalso. change (Qpower 2 (Z.of_nat 0)) with (1#1) in Hw.
    rewrite Qmult_1_r in Hw. Lqa.lra.
  - rewrite Qpower_2_S in Hw. cbn [beta_loop].
    set (g := (up + lo) / 2).
    assert (Hg : g == (up + lo) * (1#2)) by (unfold g; field).
    assert (Hcase := stay_check_cases be d C Cdot k g Hdec). cbn zeta in Hcase.
    destruct (stay_in_goal_check be d C Cdot k g).
    + exists g; reflexivity.
    + destruct Hcase as [Hb _].
      assert (Hbg : b2 < g).
      { destruct (Qlt_le_dec b2 g) as [|Hle]; [assumption|]. exfalso. revert Hb.
        apply NNPP. intros Hb. apply Hb. clear Hb. intros Hb.
        apply (border_monotone d C g b2 Hle Hb). apply Hok. Lqa.lra. }
      apply (IH (2 + k)%nat lo g); Lqa.nra.
    + destruct Hcase as [_ Hl].
      assert (Hbg : g < b1).
      { destruct (Qlt_le_dec g b1) as [|Hle]; [assumption|]. exfalso.
        apply (lie_monotone d C Cdot b1 g Hle Hl). apply Hok. Lqa.lra. }
      apply (IH (2 + k)%nat g up); Lqa.nra.
    + destruct Hcase as [Hb Hl]. exfalso.
      destruct (Qlt_le_dec g b1) as [Hlt1|Hle].
      * apply (border_monotone d C g b1 (Qlt_le_weak _ _ Hlt1) Hb). apply Hok. Lqa.lra.
      * apply (lie_monotone d C Cdot b1 g Hle Hl). apply Hok. Lqa.lra.
    + destruct Hcase.
Qed.

(** With a deciding solver, if every value in some interval [b1,b2] within the
    search range is admissible, the search succeeds after at most n+1 checks as
    soon as 1001000 < (b2-b1)*2^n. *)
Theorem C34_search_terminates_when_admissible_interval :
  forall be d C Cdot b1 b2 n k,
    decides_stay be d C Cdot ->
    b1 < b2 -> -1000000 <= b1 -> b2 <= 1000 ->
    (forall b, b1 <= b <= b2 -> stay_conditions d (Q2R b) (sem C) (sem Cdot)) ->
    1001000 < (b2 - b1) * Qpower 2 (Z.of_nat n) ->
    exists beta, beta_search be d C Cdot (S n) k = Some (BetaTrue beta).
Proof.
  intros be d C Cdot b1 b2 n k Hdec Hlt H1 H2 Hok Hw.
  apply (beta_loop_converges be d C Cdot b1 b2); auto; try Lqa.lra.
  - intros b Hb. apply stay_conditions_iff. now apply Hok.
Qed.

(** An unknown answer never makes the search succeed silently: the guess at which
    it occurs ends the search with an error. *)
Theorem C34_unknown_is_an_error :
  forall be d C Cdot fuel k lo up,
    let guess := (up + lo) / 2 in
    let r1 := b_solve be k (stay_border_condition d C guess) in
    let r2 := b_solve be (S k) (stay_lie_condition d C Cdot guess) in
    (b_is_sat be r1 = false /\ b_is_unsat be r1 = false) \/
    (b_is_sat be r2 = false /\ b_is_unsat be r2 = false) ->
    beta_loop be d C Cdot (S fuel) k lo up = Some BetaError.
Proof.
  intros be d C Cdot fuel k lo up guess r1 r2 H. cbn [beta_loop].
  unfold stay_in_goal_check. fold guess. fold r1. fold r2.
  destruct H as [[-> ->]|[-> ->]]; destruct (b_is_unsat be _), (b_is_sat be _); reflexivity.
Qed.

(** Violation.  xdot = -x/200, C = x^2-3, goal [-1,1], safe [-2,2]: all RWS
    conditions hold, yet no value of beta is admissible and, with any solver that
    decides the queries, the search never ends. *)
Definition dv_x : expr := EVar 0.
Definition dv_between (a b : Q) : fml := fand [FCmp CLe (ENum a) dv_x; FCmp CLe dv_x (ENum b)].
Definition dv_ends (a b : Q) : fml := for_ [FCmp CEq dv_x (ENum a); FCmp CEq dv_x (ENum b)].
Definition dv_sets : sets := fun l =>
  match l with
  | XI => dv_between (-3#2) (3#2)
  | XS => dv_between (-2) 2
  | XS_BORDER => dv_ends (-2) 2
  | XG => dv_between (-1) 1
  | XG_BORDER => dv_ends (-1) 1
  | _ => FTrue
  end.
Definition dv_f : expr := EBin BMul (ENum (-1#200)) dv_x.
Definition dv_C : expr := EBin BSub (EPow dv_x 2) (ENum 3).
Definition dv_Cdot : expr := EBin BMul (EBin BMul (ENum 2) dv_x) dv_f.

Local Open Scope R_scope.

Ltac dvnum :=
  replace (Q2R (-3#2)) with (-3/2) in * by (unfold Q2R; simpl; lra);
  replace (Q2R (3#2)) with (3/2) in * by (unfold Q2R; simpl; lra);
  replace (Q2R (-2)) with (-2) in * by (unfold Q2R; simpl; lra);
  replace (Q2R 2) with 2 in * by (unfold Q2R; simpl; lra);
  replace (Q2R 3) with 3 in * by (unfold Q2R; simpl; lra);
  replace (Q2R (-1)) with (-1) in * by (unfold Q2R; simpl; lra);
  replace (Q2R 1) with 1 in * by (unfold Q2R; simpl; lra);
  replace (Q2R (-1#200)) with (-1/200) in * by (unfold Q2R; simpl; lra);
  replace (Q2R gamma) with (1/100) in * by (unfold Q2R; simpl; lra);
  replace (Q2R 0) with 0 in * by (unfold Q2R; simpl; lra).

Lemma dv_border b : unsatisfiable (stay_border_condition dv_sets dv_C b) <-> Q2R b < -2.
Proof.
  split.
  - intros H. apply Rnot_le_lt. intros Hle. apply (H (fun _ => 1)). simpl. dvnum.
    split; [lra|]. split; [|exact I]. right. left. lra.
  - intros H s Hs. simpl in Hs. dvnum. destruct Hs as [Hc [[Hb|[Hb|[]]] _]]; rewrite Hb in Hc; lra.
Qed.

Lemma dv_lie b : unsatisfiable (stay_lie_condition dv_sets dv_C dv_Cdot b) <-> -2 <= Q2R b.
Proof.
  split.
  - intros H. apply Rnot_lt_le. intros Hlt.
    (* choose x with x^2 in [3+b, 1) : x = max(0, (4+b)/2) if 3+b>0, else 0 *)
    destruct (Rle_lt_dec (3 + Q2R b) 0) as [Hn|Hp].
    + apply (H (fun _ => 0)). simpl. dvnum. repeat split; try lra; try exact I.
    + set (x := sqrt (3 + Q2R b)).
      assert (Hx : x * x = 3 + Q2R b) by (apply sqrt_sqrt; lra).
      assert (Hx0 : 0 <= x) by apply sqrt_pos.
      assert (Hx1 : x < 1) by nra.
      apply (H (fun _ => x)). simpl. dvnum. repeat split; try lra; try exact I; try nra.
  - intros H s Hs. simpl in Hs. dvnum.
    destruct Hs as [[[Hg1 [Hg2 _]] [HnB _]] [Hl _]].
    assert (Hx : s 0%nat * (s 0%nat * 1) - 3 < Q2R b).
    { assert (s 0%nat * s 0%nat < 1) by nra. lra. }
    apply HnB. repeat split; try lra; auto.
Qed.

Theorem C34_search_can_diverge :
  (* the system satisfies every reach-while-stay obligation ... *)
  rws_conditions dv_sets (sem dv_C) (sem dv_Cdot) /\
  (* ... yet for every solver that decides the queries the search never ends *)
  forall be, decides_stay be dv_sets dv_C dv_Cdot ->
    forall fuel k, beta_search be dv_sets dv_C dv_Cdot fuel k = None.
Proof.
  split.
  - unfold rws_conditions, sem, inside. simpl. dvnum. repeat split; intros s Hs.
    + intros [H1 [H2 _]]. nra.
    + intros [Hb|[Hb|[]]]; rewrite Hb; lra.
    + intros Hg Hc. destruct Hs as [H1 [H2 _]].
      assert (1 <= s 0%nat * s 0%nat); [|nra].
      apply Rnot_lt_le. intros Hlt. apply Hg. repeat split; nra.
  - intros be Hdec fuel k. unfold beta_search.
    generalize (-1000000)%Q. generalize 1000%Q. revert k.
    induction fuel as [|fuel IH]; intros k up lo; [reflexivity|]. cbn [beta_loop].
    assert (H := stay_check_cases be dv_sets dv_C dv_Cdot k ((up + lo) / 2)%Q Hdec).
    cbn zeta in H.
    assert (Hb := dv_border ((up + lo) / 2)%Q). assert (Hl := dv_lie ((up + lo) / 2)%Q).
    destruct (stay_in_goal_check _ _ _ _ _ _); try apply IH; exfalso;
    rewrite ?Hb, ?Hl in H; lra.
Qed.

(** Such a solver exists: it reads beta off the query and compares it with -2. *)
Definition dv_solver (_ : nat) (f : fml) : answer :=
  match f with
  | FAnd (FCmp CLe _ (ENum b)) _ => if Qle_bool (-2) b then Sat [1%R] else Unsat
  | FAnd (FAnd _ (FAnd (FNot (FAnd _ (FAnd (FCmp CLt _ (ENum b)) _))) _)) _ =>
      if Qle_bool (-2) b then Unsat else Sat [0%R]
  | _ => Unknown
  end.
Example C34_example : decides_stay (smt_backend dv_solver) dv_sets dv_C dv_Cdot.
Proof.
  assert (Hq : forall b, (Qle_bool (-2) b = true <-> -2 <= Q2R b)).
  { intros b. rewrite Qle_bool_iff. split; intros H.
    - apply Qle_Rle in H. revert H. dvnum. auto.
    - apply Rle_Qle. dvnum. exact H. }
  intros b. specialize (Hq b). split; intros k; simpl; rewrite ?dv_border, ?dv_lie;
  destruct (Qle_bool (-2) b); simpl; [right|left|left|right]; repeat split; auto.
  - intros H. assert (-2 <= Q2R b) by tauto. lra.
  - apply Rnot_le_lt. intros H. apply Hq in H. discriminate.
  - tauto.
  - intros H. apply Hq in H. discriminate.
Qed.

(** The positive theorem also applies somewhere: same sets, C = x^2-3, faster
    dynamics xdot = -x; every beta in [-5/2, -9/4] is admissible. *)
Definition ok_Cdot : expr := EBin BMul (EBin BMul (ENum 2) dv_x) (EUn UNeg dv_x).
Example C34_example_admissible :
  forall b : Q, (-5#2 <= b <= -9#4)%Q -> stay_conditions dv_sets (Q2R b) (sem dv_C) (sem ok_Cdot).
Proof.
  intros b [H1 H2]. apply Qle_Rle in H1. apply Qle_Rle in H2.
  replace (Q2R (-5#2)) with (-5/2) in * by (unfold Q2R; simpl; lra).
  replace (Q2R (-9#4)) with (-9/4) in * by (unfold Q2R; simpl; lra).
  unfold stay_conditions, sem, inside. simpl. dvnum. split; intros s.
  - intros [Hb|[Hb|[]]]; rewrite Hb; lra.
  - intros [Hg1 [Hg2 _]] HnB.
    assert (1/2 <= s 0%nat * s 0%nat); [|nra].
    apply Rnot_lt_le. intros Hlt. apply HnB. repeat split; try lra; nra.
Qed.
(** ... and a back-end for it, which shows the whole chain in action. *)
Definition ok_solver (_ : nat) (f : fml) : answer :=
  match f with
  | FAnd (FCmp CLe _ (ENum b)) _ => if Qle_bool (-2) b then Sat [1%R] else Unsat
  | FAnd (FAnd _ (FAnd (FNot (FAnd _ (FAnd (FCmp CLt _ (ENum b)) _))) _)) _ =>
      if Qle_bool b (-3) then Sat [0%R] else Unsat
  | _ => Unknown
  end.
Example C11_example :
  exists beta, beta_search (smt_backend ok_solver) dv_sets dv_C ok_Cdot 25 0 = Some (BetaTrue beta).
Proof. eexists. vm_compute. reflexivity. Qed.
