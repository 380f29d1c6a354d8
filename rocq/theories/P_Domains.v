(** Properties C27, C28, C30: sets and their symbolic/numeric descriptions. *)
From Coq Require Import Reals QArith Qreals List Bool Arith Lra Lia Classical.
From Coquelicot Require Import Coquelicot.
From Verif Require Import M_Syntax M_Verifier M_Domains S_Domains S_Dynamics L_Holds L_Continuity
  L_Topology L_Domains P_Certificates.
Import ListNotations.
Local Open Scope R_scope.

(** * C27 *)
Theorem C27_formula_denotes_set :
  forall S n s, fits n S ->
    (holds s (generate_domain S (new_vars n)) <-> member n S s).
Proof.
  induction S as [lb ub|lb ub|c r sel|c r sel|a c r sel|c r|c ro ri sel|c0 c1 r| |m
    |s1 IH1 s2 IH2|s1 IH1 s2 IH2|s1 IH1 s2 IH2|s1 IH1]; intros n s Hf; cbn [fits] in Hf.
  - destruct Hf as [Hl Hu]. cbn [generate_domain member].
    rewrite holds_fand, !Forall_cons_iff, holds_rect_lower, holds_rect_upper by auto.
    rewrite Hl. cbn [cmp_holds]. split.
    + intros (H1 & H2 & _) i Hi. split; auto.
    + intros H. split; [|split; [|constructor]]; intros i Hi; now apply H.
  - destruct Hf as [Hl Hu]. cbn [generate_domain member].
    rewrite holds_fand, !Forall_cons_iff, holds_rect_lower, holds_rect_upper by auto.
    rewrite Hl. cbn [cmp_holds]. split.
    + intros (H1 & H2 & _) i Hi. split; auto.
    + intros H. split; [|split; [|constructor]]; intros i Hi; now apply H.
  - cbn [generate_domain member holds cmp_holds]. rewrite eval_sqdist by auto.
    unfold sq. cbn [eval]. rewrite Q2R_sq. tauto.
  - cbn [generate_domain member holds cmp_holds]. rewrite eval_sqdist by auto.
    unfold sq. cbn [eval]. rewrite Q2R_sq. tauto.
  - cbn [generate_domain member holds cmp_holds]. rewrite eval_sqell by tauto.
    unfold sq. cbn [eval]. rewrite Q2R_sq. tauto.
  - cbn [generate_domain member]. rewrite holds_fand, Forall_app, Forall_cons_iff.
    assert (E : eval s (sqdist (new_vars n) c) = dist2 c None s).
    { apply (eval_sqdist n c None). simpl. exact Hf. }
    cbn [holds cmp_holds]. rewrite E. unfold sq. cbn [eval]. rewrite Q2R_sq.
    unfold new_vars. rewrite map_map, Forall_map_iff, Forall_seq. cbn [holds cmp_holds eval].
    rewrite Q2R_0. intuition.
  - cbn [generate_domain member]. rewrite holds_fand, !Forall_cons_iff.
    cbn [holds cmp_holds]. rewrite eval_sqdist by auto. unfold sq. cbn [eval]. rewrite !Q2R_sq.
    intuition.
  - subst n. cbn [generate_domain member holds cmp_holds]. unfold bean_expr.
    rewrite !new_vars_nth by lia. cbn [eval binop_eval]. rewrite Q2R_0. split; intros H; lra.
  - simpl. tauto.
  - simpl. tauto.
  - destruct Hf as [Hf1 Hf2]. cbn [generate_domain member].
    rewrite holds_for, !Exists_cons, (IH1 n s Hf1), (IH2 n s Hf2), Exists_nil. tauto.
  - destruct Hf as [Hf1 Hf2]. cbn [generate_domain member].
    rewrite holds_fand, !Forall_cons_iff, (IH1 n s Hf1), (IH2 n s Hf2). intuition.
  - destruct Hf as [Hf1 Hf2]. cbn [generate_domain member].
    rewrite holds_fand, !Forall_cons_iff. cbn [holds].
    rewrite (IH1 n s Hf1), (IH2 n s Hf2). intuition.
  - cbn [generate_domain member holds]. now rewrite (IH1 n s Hf).
Qed.

Theorem C27_complement :
  forall S n s, fits n S ->
    (holds s (generate_complement S (new_vars n)) <-> ~ member n S s).
Proof.
  intros S n s H. unfold generate_complement. cbn [holds]. now rewrite C27_formula_denotes_set.
Qed.

(** A nested, non-trivial instance: ([-3,3]^2 \ unit disc) | ({x1: half-line disc}). *)
Definition ex_set : fset :=
  UnionS (MinusS (Rect [-3#1; -3#1]%Q [3#1; 3#1]%Q) (Sph [0; 0]%Q 1 None)) (Sph [5#1]%Q 1 (Some [1%nat])).
Example C27_example : fits 2 ex_set /\ member 2 ex_set (fun i => match i with O => 2 | _ => 0 end).
Proof.
  split.
  - simpl. repeat split; auto.
  - left. split.
    + intros i Hi. simpl in Hi. destruct i as [|[|i]]; [| |lia]; unfold qn, Q2R; simpl; lra.
    + simpl. unfold dist2, qn, Q2R. simpl. lra.
Qed.

(** * C28 *)
(** Sets whose numeric test is right: boxes, their differences and complements,
    and round sets of radius 0 or 1 only. *)
Fixpoint exact_containment (S : fset) : Prop :=
  match S with
  | Rect _ _ | OpenRect _ _ | EmptyS => True
  | Sph _ r None | OpenSph _ r None | Ell _ _ r None => Q2R r * Q2R r = Rabs (Q2R r)
  | Tor _ ro ri None => Q2R ro * Q2R ro = Rabs (Q2R ro) /\ 0 <= Q2R ri
  | MinusS s1 s2 => exact_containment s1 /\ exact_containment s2
  | ComplS s => exact_containment s
  | _ => False
  end.

Lemma Rleb_true a b : Rleb a b = true <-> a <= b.
Proof. unfold Rleb. destruct (Rle_dec a b); split; auto; discriminate. Qed.
Lemma Rltb_true a b : Rltb a b = true <-> a < b.
Proof. unfold Rltb. destruct (Rlt_dec a b); split; auto; discriminate. Qed.

Lemma norm2_minus_c row c :
  length row = length c -> norm2 (minus_c row c) = sqrt (dist2 c None (state_of row)).
Proof.
  intros Hl. unfold norm2, minus_c. f_equal.
  rewrite (Rsum_map_below _ _ 0). rewrite map2_length, Hl, Nat.min_id.
  unfold dist2. apply sum_below_ext. intros j Hj.
  rewrite (map2_nth _ _ _ 0 0%Q) by auto. unfold state_of, qn. simpl. ring.
Qed.

Lemma norm2_ell row a c :
  length row = length c -> length a = length c ->
  norm2 (minus_c (map2 (fun ai xi => Q2R ai * xi) a row) c) = sqrt (ell2 a c None (state_of row)).
Proof.
  intros Hl Ha. unfold norm2, minus_c. f_equal.
  rewrite (Rsum_map_below _ _ 0). rewrite !map2_length, Hl, Ha, !Nat.min_id.
  unfold ell2. apply sum_below_ext. intros j Hj.
  rewrite (map2_nth _ _ _ 0 0%Q) by (rewrite ?map2_length; lia).
  rewrite (map2_nth _ _ _ 0%Q 0) by lia. unfold state_of, qn. simpl. ring.
Qed.

Lemma dist2_nonneg c sel s : 0 <= dist2 c sel s.
Proof. apply sum_below_nonneg. intros j _. apply pow2_ge_0. Qed.
Lemma ell2_nonneg a c sel s : 0 <= ell2 a c sel s.
Proof. apply sum_below_nonneg. intros j _. apply pow2_ge_0. Qed.

Lemma sqrt_le_abs d r : 0 <= d -> (sqrt d <= Rabs r <-> d <= r ^ 2).
Proof.
  intros Hd. rewrite <- (pow2_abs r). assert (Hr := Rabs_pos r).
  split; intros H.
  - assert (E := sqrt_sqrt d Hd). assert (E' := sqrt_pos d). nra.
  - rewrite <- (sqrt_pow2 (Rabs r)) by exact Hr. apply sqrt_le_1; nra.
Qed.
Lemma sqrt_lt_abs d r : 0 <= d -> (sqrt d < Rabs r <-> d < r ^ 2).
Proof.
  intros Hd. rewrite <- (pow2_abs r). assert (Hr := Rabs_pos r).
  split; intros H.
  - assert (E := sqrt_sqrt d Hd). assert (E' := sqrt_pos d). nra.
  - rewrite <- (sqrt_pow2 (Rabs r)) by exact Hr. apply sqrt_lt_1; nra.
Qed.
Lemma le_sqrt_iff d r : 0 <= d -> 0 <= r -> (r <= sqrt d <-> r ^ 2 <= d).
Proof.
  intros Hd Hr. assert (E := sqrt_sqrt d Hd). assert (E' := sqrt_pos d). split; intros H.
  - nra.
  - apply Rnot_lt_le. intros Hlt. nra.
Qed.

Lemma box_test (P : R -> R -> bool) (Q : R -> R -> Prop) lb ub row :
  (forall a b, P a b = true <-> Q a b) ->
  length lb = length row -> length ub = length row ->
  (forallb (fun p => P (snd p) (Q2R (fst (fst p))) && P (Q2R (snd (fst p))) (snd p))
     (combine (combine ub lb) row) = true <->
   forall i, (i < length lb)%nat -> Q (qn lb i) (state_of row i) /\ Q (state_of row i) (qn ub i)).
Proof.
  intros HPQ Hl Hu. rewrite forallb_forall. split.
  - intros H i Hi.
    assert (Hin : In (nth i (combine (combine ub lb) row) ((0%Q,0%Q), 0)) (combine (combine ub lb) row)).
    { apply nth_In. rewrite !combine_length. lia. }
    specialize (H _ Hin). rewrite !combine_nth in H by (rewrite ?combine_length; lia).
    apply andb_true_iff in H. simpl in H. rewrite !HPQ in H. unfold qn, state_of. tauto.
  - intros H x Hx. destruct (In_nth _ _ ((0%Q,0%Q), 0) Hx) as (i & Hi & <-).
    rewrite !combine_length in Hi. rewrite !combine_nth by (rewrite ?combine_length; lia).
    apply andb_true_iff. simpl. rewrite !HPQ. destruct (H i ltac:(lia)). auto.
Qed.

Theorem C28_containment_agrees :
  forall S n row,
    fits n S -> exact_containment S -> length row = n ->
    exists b, check_containment S row = Some b /\
      (b = true <-> member n S (state_of row)).
Proof.
  induction S as [lb ub|lb ub|c r sel|c r sel|a c r sel|c r|c ro ri sel|c0 c1 r| |m
    |s1 IH1 s2 IH2|s1 IH1 s2 IH2|s1 IH1 s2 IH2|s1 IH1]; intros n row Hf He Hn; cbn [fits] in Hf;
    cbn [exact_containment] in He; try contradiction.
  - destruct Hf. eexists. split; [reflexivity|]. cbn [member].
    apply (box_test Rleb Rle); [apply Rleb_true|lia|lia].
  - destruct Hf. eexists. split; [reflexivity|]. cbn [member].
    apply (box_test Rltb Rlt); [apply Rltb_true|lia|lia].
  - destruct sel; [contradiction|]. simpl in Hf. eexists. split; [reflexivity|]. cbn [member].
    rewrite Rleb_true, norm2_minus_c, He by lia. apply sqrt_le_abs, dist2_nonneg.
  - destruct sel; [contradiction|]. simpl in Hf. eexists. split; [reflexivity|]. cbn [member].
    rewrite Rltb_true, norm2_minus_c, He by lia. apply sqrt_lt_abs, dist2_nonneg.
  - destruct sel; [contradiction|]. simpl in Hf. eexists. split; [reflexivity|]. cbn [member].
    rewrite Rleb_true, norm2_ell, He by lia. apply sqrt_le_abs, ell2_nonneg.
  - destruct sel; [contradiction|]. simpl in Hf. destruct He as [He Hri].
    eexists. split; [reflexivity|]. cbn [member].
    rewrite andb_true_iff, !Rleb_true, norm2_minus_c, He by lia.
    rewrite le_sqrt_iff, sqrt_le_abs by (auto using dist2_nonneg). tauto.
  - exists false. split; [reflexivity|]. simpl. split; [discriminate|tauto].
  - destruct Hf as [Hf1 Hf2]. destruct He as [He1 He2].
    destruct (IH1 n row Hf1 He1 Hn) as (b1 & E1 & H1).
    destruct (IH2 n row Hf2 He2 Hn) as (b2 & E2 & H2).
    exists (b1 && negb b2). cbn [check_containment member]. rewrite E1, E2. split; [reflexivity|].
    rewrite andb_true_iff, negb_true_iff, H1, <- H2. destruct b2; intuition discriminate.
  - destruct (IH1 n row Hf He Hn) as (b1 & E1 & H1).
    exists (negb b1). cbn [check_containment member]. rewrite E1. split; [reflexivity|].
    rewrite negb_true_iff, <- H1. destruct b1; intuition discriminate.
Qed.

(** Violation: for spheres of radius other than 0 and 1 the test compares the
    distance with the squared radius. *)
Theorem C28_sphere_refuted :
  (exists row, check_containment (Sph [0]%Q 2 None) row = Some true /\
               ~ member 1 (Sph [0]%Q 2 None) (state_of row)) /\
  (exists row, check_containment (Sph [0]%Q (1#2) None) row = Some false /\
               member 1 (Sph [0]%Q (1#2) None) (state_of row)).
Proof.
  assert (E2 : Q2R 2 = 2) by (unfold Q2R; simpl; lra).
  assert (Eh : Q2R (1#2) = 1/2) by (unfold Q2R; simpl; lra).
  assert (Hd : forall a, dist2 [0%Q] None (state_of [a]) = a ^ 2).
  { intros a. unfold dist2, qn, state_of. simpl. rewrite Q2R_0. ring. }
  split.
  - exists [3]. cbn [check_containment member].
    rewrite norm2_minus_c, Hd, E2 by reflexivity. rewrite sqrt_pow2 by lra. split.
    + f_equal. apply Rleb_true. lra.
    + lra.
  - exists [2/5]. cbn [check_containment member].
    rewrite norm2_minus_c, Hd, Eh by reflexivity. rewrite sqrt_pow2 by lra. split.
    + f_equal. unfold Rleb. destruct (Rle_dec _ _); [lra|reflexivity].
    + lra.
Qed.

Example C28_example : exact_containment (MinusS (Rect [-3#1; -3#1]%Q [3#1; 3#1]%Q) (Sph [0; 0]%Q 1 None)).
Proof. split; [exact I|]. simpl. replace (Q2R 1) with 1 by (unfold Q2R; simpl; lra). rewrite Rabs_R1. ring. Qed.

(** * C30 *)

(** Sets for which the generated boundary covers the topological boundary. *)
Fixpoint has_boundary (S : fset) : Prop :=
  match S with
  | Rect _ _ | Sph _ _ _ | OpenSph _ _ _ | Ell _ _ _ _ | Bean _ _ _ | EmptyS => True
  | Tor _ _ _ None => True
  | MinusS s1 s2 => has_boundary s1 /\ has_boundary s2
  | ComplS s => has_boundary s
  | _ => False
  end.

Lemma nth_concat_pairs (P : fml -> Prop) (l : list (list fml)) :
  Exists P (concat l) <-> Exists (fun g => Exists P g) l.
Proof.
  induction l as [|g l IH]; simpl.
  - split; intros H; inversion H.
  - rewrite Exists_app, Exists_cons, IH. tauto.
Qed.

Lemma rect_boundary_holds s n lb ub :
  length lb = n -> length ub = n ->
  (holds s (for_ (concat (map2 (fun x lu => [FCmp CEq x (ENum (fst lu)); FCmp CEq x (ENum (snd lu))])
                               (new_vars n) (combine lb ub)))) <->
   exists i, (i < n)%nat /\ (s i = qn lb i \/ s i = qn ub i)).
Proof.
  intros Hl Hu. rewrite holds_for, nth_concat_pairs, (Exists_nth_iff _ _ []).
  rewrite map2_length, new_vars_length, combine_length, Hl, Hu, !Nat.min_id.
  assert (E : forall j, (j < n)%nat ->
    nth j (map2 (fun x lu => [FCmp CEq x (ENum (fst lu)); FCmp CEq x (ENum (snd lu))])
                               (new_vars n) (combine lb ub)) []
    = [FCmp CEq (EVar j) (ENum (nth j lb 0%Q)); FCmp CEq (EVar j) (ENum (nth j ub 0%Q))]).
  { intros j Hj. rewrite (map2_nth _ _ _ (ENum 0) (0%Q, 0%Q)) by (rewrite ?new_vars_length, combine_length; lia).
    rewrite new_vars_nth, combine_nth by lia. reflexivity. }
  split; intros (i & Hi & H); exists i; split; auto.
  - rewrite E in H by auto. rewrite !Exists_cons, Exists_nil in H. simpl in H. unfold qn. tauto.
  - rewrite E by auto. rewrite !Exists_cons, Exists_nil. simpl. unfold qn in H. tauto.
Qed.

Lemma boundary_minus n (A B : state -> Prop) p :
  on_boundary n (fun s => A s /\ ~ B s) p -> on_boundary n A p \/ on_boundary n B p.
Proof.
  intros H. apply NNPP. intros Hn.
  assert (Hsep : forall C : state -> Prop, ~ on_boundary n C p ->
     exists e, 0 < e /\ ((forall s, close n e p s -> C s) \/ (forall s, close n e p s -> ~ C s))).
  { intros C HC. apply not_all_ex_not in HC. destruct HC as [e HC].
    assert (He : 0 < e) by (apply NNPP; intros He; apply HC; tauto).
    exists e. split; auto.
    destruct (classic (exists s, close n e p s /\ C s)) as [H1|H1].
    - left. intros s Hs. apply NNPP. intros Hc. apply HC. intros _. split; auto. now exists s.
    - right. intros s Hs Hc. apply H1. now exists s. }
  destruct (Hsep A ltac:(tauto)) as (e1 & He1 & HA). destruct (Hsep B ltac:(tauto)) as (e2 & He2 & HB).
  destruct (H (Rmin e1 e2) ltac:(apply Rmin_glb_lt; auto)) as [(s & Hs & HsA & HsB) (s' & Hs' & Hn')].
  assert (Hc1 : forall q, close n (Rmin e1 e2) p q -> close n e1 p q).
  { intros q Hq i Hi. apply Rlt_le_trans with (1 := Hq i Hi). apply Rmin_l. }
  assert (Hc2 : forall q, close n (Rmin e1 e2) p q -> close n e2 p q).
  { intros q Hq i Hi. apply Rlt_le_trans with (1 := Hq i Hi). apply Rmin_r. }
  destruct HA as [HA|HA]; [|exact (HA s (Hc1 s Hs) HsA)].
  destruct HB as [HB|HB]; [exact (HsB (HB s (Hc2 s Hs)))|].
  apply Hn'. split; [apply HA|apply HB]; auto.
Qed.

Lemma boundary_compl n (A : state -> Prop) p : on_boundary n (fun s => ~ A s) p -> on_boundary n A p.
Proof.
  intros H e He. destruct (H e He) as [(s & Hs & Hn) (s' & Hs' & Hn')]. split.
  - exists s'. split; auto. now apply NNPP.
  - now exists s.
Qed.

Lemma boundary_ext n (A B : state -> Prop) p :
  (forall s, A s <-> B s) -> on_boundary n A p -> on_boundary n B p.
Proof.
  intros E H e He. destruct (H e He) as [(s & Hs & Hn) (s' & Hs' & Hn')].
  split; [exists s|exists s']; split; auto; now rewrite <- ?E.
Qed.

(** Continuity of the bean polynomial. *)
Lemma bean_cont c0 c1 r p : cont_at 2 (fun s => eval s (bean_expr c0 c1 r (new_vars 2))) p.
Proof.
  apply eval_cont.
  - simpl. repeat split; lia.
  - simpl. repeat split; auto.
Qed.

Theorem C30_boundary_covers :
  forall S n p, fits n S -> has_boundary S ->
    exists b, generate_boundary S (new_vars n) = Some b /\
      (on_boundary n (member n S) p -> holds p b).
Proof.
  induction S as [lb ub|lb ub|c r sel|c r sel|a c r sel|c r|c ro ri sel|c0 c1 r| |m
    |s1 IH1 s2 IH2|s1 IH1 s2 IH2|s1 IH1 s2 IH2|s1 IH1]; intros n p Hf Hb; cbn [fits] in Hf;
    cbn [has_boundary] in Hb; try contradiction.
  - destruct Hf as [Hl Hu]. eexists. split; [reflexivity|]. intros Hon.
    assert (Hin : member n (Rect lb ub) p).
    { apply NNPP. intros Hn. cbn [member] in Hn.
      apply not_all_ex_not in Hn. destruct Hn as [i Hn]. apply imply_to_and in Hn. destruct Hn as [Hi Hn].
      assert (Hc : exists e, 0 < e /\ forall v, Rabs (v - p i) < e -> ~ (qn lb i <= v <= qn ub i)).
      { destruct (Rlt_le_dec (p i) (qn lb i)) as [H|H].
        - exists (qn lb i - p i). split; [lra|]. intros v Hv. apply Rabs_def2 in Hv. lra.
        - destruct (Rlt_le_dec (qn ub i) (p i)) as [H'|H'].
          + exists (p i - qn ub i). split; [lra|]. intros v Hv. apply Rabs_def2 in Hv. lra.
          + exfalso. apply Hn. lra. }
      destruct Hc as (e & He & Hc). destruct (Hon e He) as [(s & Hs & Hm) _].
      apply (Hc (s i)); [apply Hs; lia|]. now apply Hm. }
    rewrite holds_fand, !Forall_cons_iff. split; [|split; [|constructor]].
    + rewrite rect_boundary_holds by auto. apply NNPP. intros Hno.
      assert (Hstrict : forall i, (i < n)%nat -> qn lb i < p i < qn ub i).
      { intros i Hi. assert (H := Hin i ltac:(lia)).
        assert (p i <> qn lb i) by (intros E; apply Hno; exists i; auto).
        assert (p i <> qn ub i) by (intros E; apply Hno; exists i; auto). lra. }
      assert (Hex : forall k, (k <= n)%nat -> exists e, 0 < e /\
        forall s, close n e p s -> forall i, (i < k)%nat -> qn lb i <= s i <= qn ub i).
      { induction k as [|k IH]; intros Hk.
        - exists 1. split; [lra|]. intros s _ i Hi. lia.
        - destruct IH as (e & He & H); [lia|]. destruct (Hstrict k ltac:(lia)) as [H1 H2].
          exists (Rmin e (Rmin (p k - qn lb k) (qn ub k - p k))). split.
          + repeat apply Rmin_glb_lt; lra.
          + intros s Hs i Hi. destruct (Nat.eq_dec i k) as [->|].
            * specialize (Hs k ltac:(lia)).
              assert (Rabs (s k - p k) < p k - qn lb k).
              { eapply Rlt_le_trans; [exact Hs|]. eapply Rle_trans; [apply Rmin_r|apply Rmin_l]. }
              assert (Rabs (s k - p k) < qn ub k - p k).
              { eapply Rlt_le_trans; [exact Hs|]. eapply Rle_trans; [apply Rmin_r|apply Rmin_r]. }
              apply Rabs_def2 in H0. apply Rabs_def2 in H3. lra.
            * apply H; [|lia]. intros j Hj. eapply Rlt_le_trans; [now apply Hs|apply Rmin_l]. }
      destruct (Hex n (Nat.le_refl n)) as (e & He & H).
      destruct (Hon e He) as [_ (s & Hs & Hn)]. apply Hn. intros i Hi. apply (H s Hs). lia.
    + now apply (C27_formula_denotes_set (Rect lb ub) n p).
  - eexists. split; [reflexivity|]. intros Hon. cbn [holds cmp_holds]. rewrite eval_sqdist by auto.
    unfold sq. cbn [eval]. rewrite Q2R_sq.
    assert (dist2 c sel p - Q2R r ^ 2 = 0); [|lra].
    apply (level_boundary n (fun s => dist2 c sel s - Q2R r ^ 2) (member n (Sph c r sel))); auto.
    + intros s Hs. cbn [member]. lra.
    + intros s Hs. cbn [member]. lra.
    + apply cont_minus; [now apply dist2_cont|apply cont_const].
  - eexists. split; [reflexivity|]. intros Hon. cbn [holds cmp_holds]. rewrite eval_sqdist by auto.
    unfold sq. cbn [eval]. rewrite Q2R_sq.
    assert (dist2 c sel p - Q2R r ^ 2 = 0); [|lra].
    apply (level_boundary n (fun s => dist2 c sel s - Q2R r ^ 2) (member n (OpenSph c r sel))); auto.
    + intros s Hs. cbn [member]. lra.
    + intros s Hs. cbn [member]. lra.
    + apply cont_minus; [now apply dist2_cont|apply cont_const].
  - eexists. split; [reflexivity|]. intros Hon. cbn [holds cmp_holds]. rewrite eval_sqell by tauto.
    unfold sq. cbn [eval]. rewrite Q2R_sq.
    assert (ell2 a c sel p - Q2R r ^ 2 = 0); [|lra].
    apply (level_boundary n (fun s => ell2 a c sel s - Q2R r ^ 2) (member n (Ell a c r sel))); auto.
    + intros s Hs. cbn [member]. lra.
    + intros s Hs. cbn [member]. lra.
    + apply cont_minus; [now apply ell2_cont|apply cont_const].
  - destruct sel; [contradiction|]. eexists. split; [reflexivity|]. intros Hon.
    cbn [holds for_ fold_right cmp_holds].
    change (new_vars n) with (pick (ENum 0) None (new_vars n)). rewrite eval_sqdist by auto.
    unfold sq. cbn [eval]. rewrite !Q2R_sq.
    assert (H : Rmax (Q2R ri ^ 2 - dist2 c None p) (dist2 c None p - Q2R ro ^ 2) = 0).
    { apply (level_boundary n (fun s => Rmax (Q2R ri ^ 2 - dist2 c None s) (dist2 c None s - Q2R ro ^ 2))
        (member n (Tor c ro ri None))); auto.
      - intros s Hs. cbn [member]. apply Rmax_Rlt in Hs. lra.
      - intros s Hs. cbn [member]. intros Hm. apply Rlt_not_le in Hs. apply Hs. apply Rmax_lub; lra.
      - apply cont_max; apply cont_minus; try apply cont_const; now apply dist2_cont. }
    revert H. unfold Rmax. destruct (Rle_dec _ _); intros H; [right; left; lra|left; lra].
  - subst n. eexists. split; [reflexivity|]. intros Hon. cbn [holds cmp_holds]. cbn [eval]. rewrite Q2R_0.
    apply (level_boundary 2 (fun s => eval s (bean_expr c0 c1 r (new_vars 2))) (member 2 (Bean c0 c1 r))); auto.
    + intros s Hs. apply (C27_formula_denotes_set (Bean c0 c1 r) 2 s eq_refl).
      cbn [generate_domain holds cmp_holds eval]. rewrite Q2R_0. lra.
    + intros s Hs Hm. apply (C27_formula_denotes_set (Bean c0 c1 r) 2 s eq_refl) in Hm.
      cbn [generate_domain holds cmp_holds eval] in Hm. rewrite Q2R_0 in Hm. lra.
    + apply bean_cont.
  - exists FFalse. split; [reflexivity|]. intros Hon. destruct (Hon 1 ltac:(lra)) as [(s & _ & Hm) _].
    exact Hm.
  - destruct Hf as [Hf1 Hf2]. destruct Hb as [Hb1 Hb2].
    destruct (IH1 n p Hf1 Hb1) as (b1 & E1 & H1). destruct (IH2 n p Hf2 Hb2) as (b2 & E2 & H2).
    cbn [generate_boundary]. rewrite E1, E2. eexists. split; [reflexivity|]. intros Hon.
    cbn [holds for_ fold_right].
    destruct (boundary_minus n (member n s1) (member n s2) p Hon); tauto.
  - destruct (IH1 n p Hf Hb) as (b1 & E1 & H1). cbn [generate_boundary]. exists b1. split; auto.
    intros Hon. apply H1. apply boundary_compl. exact Hon.
Qed.

(** Hence a path that leaves the set crosses the generated boundary. *)
Theorem C30_leaving_crosses_boundary :
  forall S n b, fits n S -> has_boundary S ->
    generate_boundary S (new_vars n) = Some b ->
    fence n (fun s => holds s (generate_domain S (new_vars n))) (fun s => holds s b).
Proof.
  intros S n b Hf Hb Hg. apply boundary_fence. intros p Hon.
  destruct (C30_boundary_covers S n p Hf Hb) as (b' & Hg' & H). rewrite Hg in Hg'.
  injection Hg' as ->. apply H.
  apply (boundary_ext n (fun s => holds s (generate_domain S (new_vars n)))); auto.
  intros s. now apply C27_formula_denotes_set.
Qed.

Lemma Some_eq {A} (a b : A) : Some a = Some b -> a = b.
Proof. congruence. Qed.

(** For boxes, spheres and ellipses, interior and boundary partition the set. *)
Theorem C30_interior_boundary_partition :
  forall S n s i b, fits n S ->
    (match S with Rect _ _ | Sph _ _ _ | Ell _ _ _ _ => True | _ => False end) ->
    generate_interior S (new_vars n) = Some i -> generate_boundary S (new_vars n) = Some b ->
    (holds s (generate_domain S (new_vars n)) <-> holds s i \/ holds s b) /\
    ~ (holds s i /\ holds s b).
Proof.
  intros S n s i b Hf HS Hi Hb.
  destruct S as [lb ub| |c r sel| |a c r sel| | | | | | | | | ]; try contradiction;
  cbn [generate_interior generate_boundary] in Hi, Hb;
  apply Some_eq in Hi; apply Some_eq in Hb; subst i b; cbn [fits] in Hf.
  - destruct Hf as [Hl Hu].
    set (dom := generate_domain (Rect lb ub) (new_vars n)).
    assert (Hdom : holds s dom <-> forall j, (j < n)%nat -> qn lb j <= s j <= qn ub j).
    { unfold dom. rewrite (C27_formula_denotes_set (Rect lb ub) n s) by (simpl; auto).
      cbn [member]. rewrite Hl. tauto. }
    rewrite !holds_fand, !Forall_cons_iff, rect_boundary_holds, holds_rect_lower, holds_rect_upper by auto.
    rewrite Hdom. cbn [cmp_holds]. split.
    + split.
      * intros H. destruct (classic (exists j, (j < n)%nat /\ (s j = qn lb j \/ s j = qn ub j))) as [He|He].
        -- right. repeat split; auto; intros; apply H; auto.
        -- left. repeat split; auto; intros j Hj; specialize (H j Hj);
             apply Rnot_le_lt; intros Hle; apply He; exists j; split; auto; [left|right]; lra.
      * intros [(H1 & H2 & _)|(_ & H & _)].
        -- intros j Hj. specialize (H1 j Hj). specialize (H2 j Hj). lra.
        -- exact H.
    + intros [(H1 & H2 & _) ((j & Hj & He) & _)]. specialize (H1 j Hj). specialize (H2 j Hj). lra.
  - cbn [generate_domain holds cmp_holds]. rewrite eval_sqdist by auto. split; [split|]; intros; lra.
  - cbn [generate_domain holds cmp_holds]. rewrite eval_sqell by tauto. split; [split|]; intros; lra.
Qed.

(** Violation: an OpenRectangle inherits Rectangle's boundary conjoined with its own
    open domain, which is empty: paths leave it without meeting its boundary. *)
Theorem C30_open_rectangle_refuted :
  exists b, generate_boundary (OpenRect [0]%Q [1]%Q) (new_vars 1) = Some b /\
    (forall s, ~ holds s b) /\
    ~ fence 1 (fun s => holds s (generate_domain (OpenRect [0]%Q [1]%Q) (new_vars 1))) (fun s => holds s b).
Proof.
  eexists. split; [reflexivity|].
  assert (Hnone : forall s, ~ holds s (fand
    [for_ (concat (map2 (fun x lu => [FCmp CEq x (ENum (fst lu)); FCmp CEq x (ENum (snd lu))])
                               (new_vars 1) (combine [0%Q] [1%Q])));
     generate_domain (OpenRect [0]%Q [1]%Q) (new_vars 1)])).
  { intros s. rewrite holds_fand, !Forall_cons_iff, rect_boundary_holds by reflexivity.
    rewrite (C27_formula_denotes_set (OpenRect [0]%Q [1]%Q) 1 s) by (simpl; auto).
    intros ((i & Hi & He) & Hm & _). specialize (Hm i Hi). lra. }
  split; [exact Hnone|]. intros Hfe.
  destruct (Hfe (fun t _ => t) (1/2) 2 ltac:(lra)) as (t & _ & Hbd & _).
  - intros t _ i _. apply continuous_id.
  - apply (C27_formula_denotes_set (OpenRect [0]%Q [1]%Q) 1); [simpl; auto|]. intros i Hi.
    simpl in Hi. replace i with 0%nat by lia. unfold qn; simpl. unfold Q2R; simpl. lra.
  - rewrite (C27_formula_denotes_set (OpenRect [0]%Q [1]%Q) 1) by (simpl; auto). intros Hm.
    specialize (Hm 0%nat ltac:(simpl; lia)). unfold qn in Hm; simpl in Hm. unfold Q2R in Hm; simpl in Hm. lra.
  - exact (Hnone _ Hbd).
Qed.

Example C30_example :
  fits 2 (MinusS (Rect [-3#1; -3#1]%Q [3#1; 3#1]%Q) (Sph [0; 0]%Q 1 None)) /\
  has_boundary (MinusS (Rect [-3#1; -3#1]%Q [3#1; 3#1]%Q) (Sph [0; 0]%Q 1 None)).
Proof. simpl. auto. Qed.
