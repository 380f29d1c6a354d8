(** Property C29: training samples lie in the set they are drawn for. *)
From Coq Require Import Reals QArith Qreals List Bool Arith Lra Lia.
From Verif Require Import M_Syntax M_Verifier M_Domains S_Domains S_Sampling L_Holds L_Domains
  L_Sampling P_Certificates P_Domains.
Import ListNotations.
Local Open Scope R_scope.

(** Sets whose sampler is right. *)
Fixpoint sampler_ok (S : fset) : Prop :=
  match S with
  | Rect lb ub => forall i, (i < length lb)%nat -> qn lb i <= qn ub i
  | Sph c r None => length c = 2%nat \/ length c = 3%nat \/ Rabs (Q2R r) <= 1
  | Ell a c r None => forall i, (i < length a)%nat -> qn a i <> 0
  | OrthSph c r => forall i, (i < length c)%nat -> 0 < qn c i
  | UnionS s1 s2 => sampler_ok s1 /\ sampler_ok s2
  | InterS s1 s2 =>
      sampler_ok s1 /\ sampler_ok s2 /\ exact_containment s1 /\ exact_containment s2
  | MinusS s1 s2 => sampler_ok s1 /\ exact_containment s2
  | _ => False
  end.

Lemma square_row_ok s lb ub n i :
  good_source s -> length lb = n -> length ub = n -> (forall i, (i < length lb)%nat -> qn lb i <= qn ub i) ->
  length (square_row s lb ub i) = n /\ member n (Rect lb ub) (state_of (square_row s lb ub i)).
Proof.
  intros [Hr _] Hl Hu Hle. split.
  - unfold square_row. rewrite map_length, indexed_length, combine_length. lia.
  - intros j Hj. unfold state_of, square_row.
    rewrite (indexed_nth _ _ j (0%Q, 0%Q)) by (rewrite combine_length; lia).
    rewrite combine_nth by lia. specialize (Hle j Hj). unfold qn in *.
    specialize (Hr 0%nat i j).
    set (a := Q2R (nth j lb 0%Q)) in *. set (b := Q2R (nth j ub 0%Q)) in *. nra.
Qed.

Lemma round_rows_ok s c r batch row :
  good_source s -> (length c = 2%nat \/ length c = 3%nat \/ Rabs r <= 1) ->
  In row (round_rows s c (r * r) batch false) ->
  length row = length c /\ dist2 c None (state_of row) <= r ^ 2.
Proof.
  intros [Hr Hg] Hdim Hin.
  assert (Hsq : Rabs r * Rabs r = r * r) by apply abs_sq.
  destruct c as [|c0 [|c1 [|c2 [|c3 c]]]].
  - unfold round_rows, n_dim_rows in Hin. apply in_map_iff in Hin. destruct Hin as (i & <- & _).
    split; [reflexivity|]. unfold dist2. simpl. nra.
  - unfold round_rows, segment_rows in Hin. apply in_map_iff in Hin. destruct Hin as (i & <- & _).
    split; [reflexivity|]. unfold dist2, qn, state_of. simpl.
    destruct Hdim as [H|[H|H]]; [discriminate|discriminate|].
    specialize (Hr 0%nat i 0%nat). set (u := rnd s 0 i 0) in *.
    assert (Hrr : r * r <= 1) by (assert (Hp := Rabs_pos r); nra).
    replace (Q2R c0 + r * r - (Q2R c0 - r * r)) with (2 * (r * r)) by ring.
    set (q := r * r) in *. assert (0 <= q) by (unfold q; nra).
    replace (2 * q * u + (Q2R c0 - q) - Q2R c0) with (q * (2 * u - 1)) by ring.
    replace (0 + q * (2 * u - 1) * (q * (2 * u - 1) * 1)) with (q * (q * ((2 * u - 1) * (2 * u - 1)))) by ring.
    replace (r * (r * 1)) with q by (unfold q; ring).
    assert (H1 : (2 * u - 1) * (2 * u - 1) <= 1) by nra.
    assert (H2 : q * ((2 * u - 1) * (2 * u - 1)) <= 1) by nra. nra.
  - unfold round_rows, circle_rows in Hin. apply in_app_or in Hin.
    rewrite sqrt_sq_abs in Hin.
    destruct Hin as [Hin|Hin]; apply in_map_iff in Hin; destruct Hin as (i & <- & _).
    + split; [reflexivity|]. rewrite dist2_2, circular.
      assert (H := scaled_sq (Rabs r) (rnd s 1 i 0) (Hr 1%nat i 0%nat)). simpl. lra.
    + split; [reflexivity|]. rewrite dist2_2, circular. simpl. lra.
  - unfold round_rows, sphere_rows in Hin. rewrite sqrt_sq_abs in Hin.
    apply in_map_iff in Hin; destruct Hin as (i & <- & _).
    split; [reflexivity|]. rewrite dist2_3, spherical.
    assert (H := scaled_sq (Rabs r) (rnd s 2 i 0) (Hr 2%nat i 0%nat)). simpl. lra.
  - destruct Hdim as [H|[H|H]]; [discriminate|discriminate|].
    unfold round_rows, n_dim_rows in Hin. set (C := c0 :: c1 :: c2 :: c3 :: c) in *.
    assert (HC : (0 < length C)%nat) by (unfold C; simpl; lia). clearbody C.
    apply in_map_iff in Hin; destruct Hin as (i & <- & _). split.
    + rewrite map_length. apply indexed_length.
    + set (N := norm2 (map (gauss s 0 i) (seq 0 (length C)))).
      assert (HN : 0 < N) by (apply Hg; auto).
      assert (Hrr : r * r <= 1) by (assert (Hp := Rabs_pos r); nra).
      apply Rle_trans with (r ^ 2 * sum_below (length C) (fun j => (r * root (length C) (rnd s 1 i j) * gauss s 0 i j / N) ^ 2)).
      * rewrite <- sum_below_scal. right. apply sum_below_ext. intros j Hj.
        unfold state_of, coord. rewrite (indexed_nth _ _ j 0%Q) by auto. unfold qn. fold N. field. lra.
      * assert (H1 := normalised_le (gauss s 0 i) (fun j => r * root (length C) (rnd s 1 i j)) (length C) HN).
        cbv beta in H1. fold N in H1.
        assert (H2 : forall j, (j < length C)%nat ->
          r * root (length C) (rnd s 1 i j) * (r * root (length C) (rnd s 1 i j)) <= 1).
        { intros j _. assert (Hb := root_bounds (length C) (rnd s 1 i j) HC (Hr 1%nat i j)).
          set (v := root _ _) in *. replace (r * v * (r * v)) with (r * r * (v * v)) by ring.
          assert (v * v <= 1) by nra. assert (0 <= r * r) by nra. nra. }
        specialize (H1 H2). assert (0 <= r ^ 2) by (simpl; nra).
        match goal with |- _ * ?x <= _ => set (X := x) in * end. nra.
Qed.

Lemma ellipse_rows_ok s a c r batch row :
  good_source s -> length a = length c -> (forall i, (i < length a)%nat -> qn a i <> 0) ->
  In row (ellipse_rows s a c r batch false) ->
  length row = length c /\ ell2 a c None (state_of row) <= r ^ 2.
Proof.
  intros [Hr Hg] Ha Hnz Hin. unfold ellipse_rows in Hin.
  apply in_map_iff in Hin; destruct Hin as (i & <- & _).
  assert (Hlen : length (combine a c) = length c) by (rewrite combine_length; lia).
  split.
  - rewrite map_length, indexed_length. exact Hlen.
  - destruct (length c) as [|k] eqn:Ec.
    { unfold ell2. rewrite Ec. simpl. nra. }
    set (N := norm2 (map (gauss s 0 i) (seq 0 (S k)))).
    assert (HN : 0 < N) by (apply Hg; lia).
    apply Rle_trans with (r ^ 2 * sum_below (S k) (fun j => (root (S k) (rnd s 1 i j) * gauss s 0 i j / N) ^ 2)).
    + rewrite <- sum_below_scal. right. unfold ell2. rewrite Ec. apply sum_below_ext. intros j Hj.
      unfold state_of, coord. rewrite (indexed_nth _ _ j (0%Q, 0%Q)) by lia.
      rewrite combine_nth by lia. specialize (Hnz j ltac:(lia)). unfold qn in *. fold N. field. lra.
    + assert (H1 := normalised_le (gauss s 0 i) (fun j => root (S k) (rnd s 1 i j)) (S k) HN).
      cbv beta in H1. fold N in H1.
      assert (H2 : forall j, (j < S k)%nat -> root (S k) (rnd s 1 i j) * root (S k) (rnd s 1 i j) <= 1).
      { intros j _. assert (Hb := root_bounds (S k) (rnd s 1 i j) ltac:(lia) (Hr 1%nat i j)). nra. }
      specialize (H1 H2). assert (0 <= r ^ 2) by (simpl; nra).
      match goal with |- _ * ?x <= _ => set (X := x) in * end. nra.
Qed.

Lemma quarter_angle u : 0 <= u < 1 -> 0 <= cos (PI / 2 * u) /\ 0 <= sin (PI / 2 * u).
Proof.
  intros Hu. assert (Hpi := PI_RGT_0). split.
  - apply cos_ge_0; nra.
  - apply sin_ge_0; nra.
Qed.

Lemma slice_rows_ok s c r batch rows row :
  good_source s -> (forall i, (i < length c)%nat -> 0 < qn c i) ->
  slice_rows s c (r * r) batch = Some rows -> In row rows ->
  length row = length c /\ (forall i, (i < length c)%nat -> 0 < state_of row i) /\
  dist2 c None (state_of row) <= r ^ 2.
Proof.
  intros [Hr _] Hc H Hin. unfold slice_rows in H. rewrite sqrt_sq_abs in H.
  assert (Hsq : Rabs r * Rabs r = r * r) by apply abs_sq.
  destruct c as [|c0 [|c1 [|c2 [|c3 c]]]]; try discriminate; injection H as <-;
  apply in_map_iff in Hin; destruct Hin as (i & <- & _).
  - split; [reflexivity|]. split.
    + destruct (quarter_angle _ (Hr 0%nat i 0%nat)) as [Hcos Hsin].
      assert (Hp := Rabs_pos r). assert (Hu := Hr 1%nat i 0%nat).
      assert (Hrad : 0 <= Rabs r * rnd s 1 i 0) by nra.
      intros j Hj. assert (Hcj := Hc j Hj). unfold qn, state_of in *.
      destruct j as [|[|j]]; [| |simpl in Hj; lia]; unfold add_c, map2; simpl in *; nra.
    + rewrite dist2_2, circular.
      assert (H := scaled_sq (Rabs r) (rnd s 1 i 0) (Hr 1%nat i 0%nat)). simpl. lra.
  - split; [reflexivity|]. split.
    + destruct (quarter_angle _ (Hr 0%nat i 0%nat)) as [Hcos Hsin].
      destruct (quarter_angle _ (Hr 1%nat i 0%nat)) as [Hcos' Hsin'].
      assert (Hp := Rabs_pos r). assert (Hu := Hr 2%nat i 0%nat).
      assert (Hrad : 0 <= Rabs r * rnd s 2 i 0) by nra.
      assert (Hrs : 0 <= Rabs r * rnd s 2 i 0 * sin (PI / 2 * rnd s 0 i 0)) by nra.
      intros j Hj. assert (Hcj := Hc j Hj). unfold qn, state_of in *.
      destruct j as [|[|[|j]]]; [| | |simpl in Hj; lia]; unfold add_c, map2; simpl in *; nra.
    + rewrite dist2_3, spherical.
      assert (H := scaled_sq (Rabs r) (rnd s 2 i 0) (Hr 2%nat i 0%nat)). simpl. lra.
Qed.

Lemma good_left s : good_source s -> good_source (left_source s).
Proof. intros [H1 H2]. split; simpl; intros; [apply H1|now apply H2]. Qed.
Lemma good_right s : good_source s -> good_source (right_source s).
Proof. intros [H1 H2]. split; simpl; intros; [apply H1|now apply H2]. Qed.

Theorem C29_samples_in_set :
  forall S n s batch rows,
    fits n S -> sampler_ok S -> good_source s -> generate_data S s batch = Some rows ->
    Forall (fun row => length row = n /\ member n S (state_of row)) rows.
Proof.
  induction S as [lb ub|lb ub|c r sel|c r sel|a c r sel|c r|c ro ri sel|c0 c1 r| |m
    |s1 IH1 s2 IH2|s1 IH1 s2 IH2|s1 IH1 s2 IH2|s1 IH1]; intros n s batch rows Hf Hok Hs Hg;
    cbn [fits] in Hf; cbn [sampler_ok] in Hok; try contradiction; cbn [generate_data] in Hg;
    apply Forall_forall; intros row Hin.
  - injection Hg as <-. apply in_map_iff in Hin. destruct Hin as (i & <- & _).
    destruct Hf. now apply square_row_ok.
  - destruct sel; [contradiction|]. injection Hg as <-. simpl in Hf. subst n. cbn [member].
    eapply round_rows_ok; eauto.
  - destruct sel; [contradiction|]. injection Hg as <-. simpl in Hf. destruct Hf as [Ha Hf]. subst n.
    cbn [member]. eapply ellipse_rows_ok; eauto.
  - subst n. cbn [member]. eapply slice_rows_ok; eauto.
  - destruct Hf as [Hf1 Hf2]. destruct Hok as [Ho1 Ho2].
    destruct (generate_data s1 (left_source s) (batch / 2)) as [x1|] eqn:E1; [|discriminate].
    destruct (generate_data s2 (right_source s) (batch / 2)) as [x2|] eqn:E2; [|discriminate].
    injection Hg as <-. cbn [member]. apply in_app_or in Hin. destruct Hin as [Hin|Hin].
    + specialize (IH1 _ _ _ _ Hf1 Ho1 (good_left _ Hs) E1). rewrite Forall_forall in IH1.
      specialize (IH1 _ Hin). tauto.
    + specialize (IH2 _ _ _ _ Hf2 Ho2 (good_right _ Hs) E2). rewrite Forall_forall in IH2.
      specialize (IH2 _ Hin). tauto.
  - destruct Hf as [Hf1 Hf2]. destruct Hok as (Ho1 & Ho2 & He1 & He2).
    destruct (generate_data s1 (left_source s) batch) as [x1|] eqn:E1; [|discriminate].
    destruct (generate_data s2 (right_source s) batch) as [x2|] eqn:E2; [|discriminate].
    destruct (mask_rows (check_containment s2) x1) as [y1|] eqn:M1; [|discriminate].
    destruct (mask_rows (check_containment s1) x2) as [y2|] eqn:M2; [|discriminate].
    injection Hg as <-. cbn [member]. apply in_app_or in Hin. destruct Hin as [Hin|Hin].
    + destruct (mask_rows_in _ _ _ _ M1 Hin) as [Hin' Hc].
      specialize (IH1 _ _ _ _ Hf1 Ho1 (good_left _ Hs) E1). rewrite Forall_forall in IH1.
      destruct (IH1 _ Hin') as [Hl Hm]. split; [auto|split; [auto|]].
      destruct (C28_containment_agrees s2 n row Hf2 He2 Hl) as (b & Eb & Hb).
      rewrite Eb in Hc. injection Hc as ->. tauto.
    + destruct (mask_rows_in _ _ _ _ M2 Hin) as [Hin' Hc].
      specialize (IH2 _ _ _ _ Hf2 Ho2 (good_right _ Hs) E2). rewrite Forall_forall in IH2.
      destruct (IH2 _ Hin') as [Hl Hm]. split; [auto|split; [|auto]].
      destruct (C28_containment_agrees s1 n row Hf1 He1 Hl) as (b & Eb & Hb).
      rewrite Eb in Hc. injection Hc as ->. tauto.
  - destruct Hf as [Hf1 Hf2]. destruct Hok as [Ho1 He2].
    destruct (generate_data s1 s batch) as [x1|] eqn:E1; [|discriminate].
    destruct (mask_rows_in _ _ _ _ Hg Hin) as [Hin' Hc].
    specialize (IH1 _ _ _ _ Hf1 Ho1 Hs E1). rewrite Forall_forall in IH1.
    destruct (IH1 _ Hin') as [Hl Hm]. split; [auto|]. cbn [member]. split; [auto|].
    destruct (C28_containment_agrees s2 n row Hf2 He2 Hl) as (b & Eb & Hb).
    rewrite Eb in Hc. simpl in Hc. intros Hm2. apply Hb in Hm2. subst b. discriminate.
Qed.

(** How many rows: leaves return exactly the requested batch; a union two halves. *)
Fixpoint rows_expected (S : fset) (batch : nat) : option nat :=
  match S with
  | Rect _ _ | OpenRect _ _ | Sph _ _ _ | OpenSph _ _ _ | Ell _ _ _ _ | OrthSph _ _ | Tor _ _ _ _ => Some batch
  | UnionS s1 s2 =>
      match rows_expected s1 (batch / 2), rows_expected s2 (batch / 2) with
      | Some a, Some b => Some (a + b)%nat | _, _ => None end
  | _ => None
  end.

Lemma round_rows_length s c r batch b : length (round_rows s c r batch b) = batch.
Proof.
  destruct c as [|c0 [|c1 [|c2 [|c3 c]]]]; unfold round_rows, segment_rows, circle_rows, sphere_rows, n_dim_rows;
    rewrite ?app_length, ?map_length, ?seq_length; auto.
  assert (batch / 10 <= batch)%nat by (apply Nat.div_le_upper_bound; lia). lia.
Qed.

Theorem C29_row_count :
  forall S s batch rows k,
    generate_data S s batch = Some rows -> rows_expected S batch = Some k -> length rows = k.
Proof.
  induction S as [lb ub|lb ub|c r sel|c r sel|a c r sel|c r|c ro ri sel|c0 c1 r| |m
    |s1 IH1 s2 IH2|s1 IH1 s2 IH2|s1 IH1 s2 IH2|s1 IH1]; intros s batch rows k Hg Hk;
    cbn [generate_data] in Hg; cbn [rows_expected] in Hk; try discriminate;
    try (injection Hg as <-); try (injection Hk as <-);
    rewrite ?map_length, ?seq_length; auto using round_rows_length.
  - unfold ellipse_rows. now rewrite map_length, seq_length.
  - unfold slice_rows in Hg. destruct c as [|c0 [|c1 [|c2 [|c3 c]]]]; try discriminate; injection Hg as <-;
      now rewrite map_length, seq_length.
  - destruct (generate_data s1 _ _) as [x1|] eqn:E1; [|discriminate].
    destruct (generate_data s2 _ _) as [x2|] eqn:E2; [|discriminate].
    destruct (rows_expected s1 _) as [k1|] eqn:K1; [|discriminate].
    destruct (rows_expected s2 _) as [k2|] eqn:K2; [|discriminate].
    injection Hg as <-. injection Hk as <-. rewrite app_length. f_equal; eauto.
Qed.

(** ** Border samples *)
Definition border_ok (S : fset) : Prop :=
  match S with
  | Rect lb ub => (2 <= length lb)%nat /\ forall i, (i < length lb)%nat -> qn lb i <= qn ub i
  | Sph c r None => length c = 2%nat \/ length c = 3%nat \/
                    ((4 <= length c)%nat /\ Q2R r * Q2R r = Rabs (Q2R r))
  | Ell a c r None => (0 < length a)%nat /\ forall i, (i < length a)%nat -> qn a i <> 0
  | _ => False
  end.

Lemma round_border s c r batch row :
  good_source s -> 
  (length c = 2%nat \/ length c = 3%nat \/ ((4 <= length c)%nat /\ r * r = Rabs r)) ->
  In row (round_rows s c (r * r) batch true) ->
  length row = length c /\ dist2 c None (state_of row) = r ^ 2.
Proof.
  intros [Hr Hg] Hdim Hin.
  assert (Hsq : Rabs r * Rabs r = r * r) by apply abs_sq.
  destruct c as [|c0 [|c1 [|c2 [|c3 c]]]].
  - simpl in Hdim. lia.
  - simpl in Hdim. lia.
  - unfold round_rows, circle_rows in Hin. apply in_app_or in Hin. rewrite sqrt_sq_abs in Hin.
    destruct Hin as [Hin|Hin]; apply in_map_iff in Hin; destruct Hin as (i & <- & _);
    (split; [reflexivity|]); rewrite dist2_2, circular; simpl; nra.
  - unfold round_rows, sphere_rows in Hin. rewrite sqrt_sq_abs in Hin.
    apply in_map_iff in Hin; destruct Hin as (i & <- & _).
    split; [reflexivity|]. rewrite dist2_3, spherical. simpl; nra.
  - destruct Hdim as [H|[H|[_ H]]]; [discriminate|discriminate|].
    unfold round_rows, n_dim_rows in Hin. set (C := c0 :: c1 :: c2 :: c3 :: c) in *.
    assert (HC : (0 < length C)%nat) by (unfold C; simpl; lia). clearbody C.
    apply in_map_iff in Hin; destruct Hin as (i & <- & _). split.
    + rewrite map_length. apply indexed_length.
    + set (N := norm2 (map (gauss s 0 i) (seq 0 (length C)))).
      assert (HN : 0 < N) by (apply Hg; auto).
      transitivity (r ^ 2 * sum_below (length C) (fun j => (gauss s 0 i j / N) ^ 2));
        [|unfold N; rewrite (normalised_eq (gauss s 0 i) (length C) HN); ring].
      rewrite <- sum_below_scal. unfold dist2. apply sum_below_ext. intros j Hj.
      unfold state_of, coord. rewrite (indexed_nth _ _ j 0%Q) by auto. unfold qn. fold N.
      assert (E : (r * r) * (r * r) = r ^ 2) by (rewrite H at 1 2; simpl; nra).
      rewrite <- E. field. lra.
Qed.

Lemma maxabs_spec x :
  (forall j, (j < length x)%nat -> Rabs (nth j x 0) <= maxabs x) /\ 0 <= maxabs x /\
  (0 < maxabs x -> exists j, (j < length x)%nat /\ Rabs (nth j x 0) = maxabs x).
Proof.
  induction x as [|a x (H1 & H2 & H3)].
  - simpl. repeat split; [intros; lia|lra|lra].
  - change (maxabs (a :: x)) with (Rmax (Rabs a) (maxabs x)). repeat split.
    + intros [|j] Hj; cbn [nth]; [apply Rmax_l|]. eapply Rle_trans; [apply H1; simpl in Hj; lia|apply Rmax_r].
    + eapply Rle_trans; [exact H2|apply Rmax_r].
    + intros Hpos. destruct (Rle_lt_dec (maxabs x) (Rabs a)) as [H|H].
      * exists 0%nat. split; [simpl; lia|]. rewrite Rmax_left; auto.
      * rewrite Rmax_right in * by lra. destruct (H3 Hpos) as (j & Hj & E).
        exists (Datatypes.S j). split; [simpl; lia|exact E].
Qed.

Lemma norm2_state x : norm2 x = sqrt (sum_below (length x) (fun j => (state_of x j) ^ 2)).
Proof.
  unfold norm2. f_equal. rewrite (Rsum_map_below _ _ 0). apply sum_below_ext. intros. unfold state_of. ring.
Qed.

Lemma rect_border x lb ub n :
  length x = n -> length lb = n -> length ub = n -> (forall i, (i < n)%nat -> qn lb i <= qn ub i) ->
  sum_below n (fun j => (state_of x j) ^ 2) = 1 ->
  let y := cube_move (sphere_to_cube x) lb ub in
  length y = n /\ (forall i, (i < n)%nat -> qn lb i <= state_of y i <= qn ub i) /\
  exists i, (i < n)%nat /\ (state_of y i = qn lb i \/ state_of y i = qn ub i).
Proof.
  intros Hx Hl Hu Hle Hone y.
  assert (Hnorm : norm2 x = 1) by (rewrite norm2_state, Hx, Hone; apply sqrt_1).
  destruct (maxabs_spec x) as (Hmax & Hm0 & Hatt). rewrite Hx in Hmax, Hatt.
  assert (Hmpos : 0 < maxabs x).
  { destruct Hm0 as [|Hm0]; [auto|]. exfalso.
    assert (Hz : forall j, (j < n)%nat -> state_of x j = 0).
    { intros j Hj. specialize (Hmax j Hj). rewrite <- Hm0 in Hmax. unfold state_of.
      assert (Hp := Rabs_pos (nth j x 0)). destruct (Req_dec (nth j x 0) 0) as [|Hne]; auto.
      apply Rabs_pos_lt in Hne. lra. }
    rewrite (sum_below_ext _ _ (fun _ => 0 * 0)) in Hone by (intros; rewrite Hz by auto; ring).
    rewrite sum_below_scal in Hone. lra. }
  assert (Hcube : sphere_to_cube x = map (fun a => a * (1 / maxabs x)) x).
  { unfold sphere_to_cube. rewrite Hnorm. destruct (forallb _ x) eqn:Hall; [|reflexivity].
    exfalso. destruct (Hatt Hmpos) as (j & Hj & E). rewrite forallb_forall in Hall.
    assert (Hin : In (nth j x 0) x) by (apply nth_In; lia). specialize (Hall _ Hin).
    destruct (Req_EM_T (nth j x 0) 0) as [E0|]; [|discriminate]. rewrite E0, Rabs_R0 in E. lra. }
  assert (Hy : forall j, (j < n)%nat ->
    state_of y j = (nth j x 0 * (1 / maxabs x) + 1) * (qn ub j - qn lb j) / 2 + qn lb j).
  { intros j Hj. unfold y, state_of, cube_move. rewrite Hcube.
    rewrite (map2_nth _ _ _ 0 (0%Q, 0%Q)) by (rewrite ?map_length, combine_length; lia).
    rewrite combine_nth by lia. cbn [fst snd].
    rewrite (nth_indep _ 0 (0 * (1 / maxabs x))) by (rewrite map_length; lia).
    rewrite (map_nth (fun a => a * (1 / maxabs x))). reflexivity. }
  assert (Hinv : 0 < 1 / maxabs x) by (unfold Rdiv; rewrite Rmult_1_l; now apply Rinv_0_lt_compat).
  assert (Hunit : forall j, (j < n)%nat -> -1 <= nth j x 0 * (1 / maxabs x) <= 1).
  { intros j Hj. specialize (Hmax j Hj). assert (E : maxabs x * (1 / maxabs x) = 1) by (field; lra).
    unfold Rabs in Hmax. destruct (Rcase_abs _); nra. }
  split; [|split].
  - unfold y, cube_move. rewrite map2_length, Hcube, map_length, combine_length. lia.
  - intros j Hj. rewrite Hy by auto. specialize (Hunit j Hj). specialize (Hle j Hj). nra.
  - destruct (Hatt Hmpos) as (j & Hj & E). exists j. split; auto. rewrite !Hy by auto.
    unfold Rabs in E. destruct (Rcase_abs _).
    + left. replace (nth j x 0) with (- maxabs x) by lra. field. lra.
    + right. rewrite E. field. lra.
Qed.

Theorem C29_border_samples_on_boundary :
  forall S n s batch rows b,
    fits n S -> border_ok S -> good_source s ->
    generate_boundary S (new_vars n) = Some b -> sample_border S s batch = Some rows ->
    Forall (fun row => length row = n /\ holds (state_of row) b) rows.
Proof.
  intros S n s batch rows b Hf Hok Hs Hb Hg. apply Forall_forall. intros row Hin.
  destruct S as [lb ub| |c r sel| |a c r sel| | | | | | | | | ]; cbn [border_ok] in Hok; try contradiction;
  cbn [fits] in Hf; cbn [generate_boundary] in Hb; cbn [sample_border] in Hg;
  apply Some_eq in Hb; subst b; injection Hg as <-.
  - destruct Hf as [Hl Hu]. destruct Hok as [Hdim Hle].
    apply in_map_iff in Hin. destruct Hin as (x & <- & Hin).
    set (c := map (fun _ => 0%Q) lb) in *.
    assert (Hc : length c = n) by (unfold c; rewrite map_length; auto).
    assert (Hx : length x = length c /\ dist2 c None (state_of x) = 1 ^ 2).
    { apply (round_border s c 1 batch x Hs).
      - rewrite Rabs_R1. destruct (length c) as [|[|[|[|k]]]]; lia || (right; right; split; [lia|ring]).
      - rewrite Rmult_1_l. exact Hin. }
    destruct Hx as [Hx1 Hx2].
    destruct (rect_border x lb ub n) as (H1 & H2 & H3); try lia.
    + intros i Hi. apply Hle. lia.
    + rewrite <- Hc. replace 1 with (1 ^ 2) by ring. rewrite <- Hx2. unfold dist2.
      apply sum_below_ext. intros j Hj. unfold coord, qn, c.
      replace (nth j (map (fun _ : Q => 0%Q) lb) 0%Q) with 0%Q; [rewrite Q2R_0; ring|].
      destruct (nth_in_or_default j (map (fun _ : Q => 0%Q) lb) 0%Q) as [Hi|E]; [|auto].
      apply in_map_iff in Hi. destruct Hi as (q & E & _). auto.
    + split; [exact H1|]. rewrite holds_fand, !Forall_cons_iff. split; [|split; [|constructor]].
      * rewrite rect_boundary_holds by auto. exact H3.
      * apply (C27_formula_denotes_set (Rect lb ub) n); [simpl; auto|]. intros i Hi. apply H2. lia.
  - destruct sel; [contradiction|]. simpl in Hf. subst n.
    destruct (round_border s c (Q2R r) batch row Hs Hok Hin) as [H1 H2]. split; [exact H1|].
    cbn [holds cmp_holds].
    rewrite eval_sqdist by reflexivity. rewrite H2. unfold sq. cbn [eval]. rewrite Q2R_sq. reflexivity.
  - destruct sel; [contradiction|]. simpl in Hf. destruct Hf as [Ha Hf]. subst n. destruct Hok as [Hpos Hnz].
    unfold ellipse_rows in Hin. apply in_map_iff in Hin; destruct Hin as (i & <- & _).
    assert (Hlen : length (combine a c) = length c) by (rewrite combine_length; lia).
    split; [rewrite map_length, indexed_length; exact Hlen|].
    cbn [holds cmp_holds].
    rewrite eval_sqell by (auto; reflexivity). unfold sq. cbn [eval]. rewrite Q2R_sq.
    set (N := norm2 (map (gauss s 0 i) (seq 0 (length c)))).
    assert (HN : 0 < N) by (apply Hs; lia).
    transitivity (Q2R r ^ 2 * sum_below (length c) (fun j => (gauss s 0 i j / N) ^ 2));
      [|unfold N; rewrite (normalised_eq (gauss s 0 i) (length c) HN); ring].
    rewrite <- sum_below_scal. unfold ell2. apply sum_below_ext. intros j Hj.
    unfold state_of, coord. rewrite (indexed_nth _ _ j (0%Q, 0%Q)) by lia.
    rewrite combine_nth by lia. specialize (Hnz j ltac:(lia)). unfold qn in *. fold N. field. lra.
Qed.

(** The same for complements and unions, and against the border as a set of states. *)
Fixpoint border_fine (D : fset) : Prop :=
  match D with
  | UnionS s1 s2 => border_fine s1 /\ border_fine s2
  | ComplS s => border_fine s
  | OpenSph c r sel => border_ok (Sph c r sel)
  | _ => border_ok D
  end.

Theorem C29_border_samples :
  forall D n s batch rows,
    fits n D -> border_fine D -> good_source s -> sample_border D s batch = Some rows ->
    Forall (fun row => length row = n /\ on_border n D (state_of row)) rows.
Proof.
  assert (leaf : forall D n s batch rows b, fits n D -> border_ok D -> good_source s ->
    generate_boundary D (new_vars n) = Some b -> sample_border D s batch = Some rows ->
    (forall x, holds x b -> on_border n D x) ->
    Forall (fun row => length row = n /\ on_border n D (state_of row)) rows).
  { intros D n s batch rows b Hf Hok Hs Hb Hg Hi.
    eapply Forall_impl; [|exact (C29_border_samples_on_boundary _ _ _ _ _ _ Hf Hok Hs Hb Hg)].
    intros row [H1 H2]. split; auto. }
  assert (sph : forall c r sel n x, sel = None -> length c = n ->
    holds x (sqdist (pick (ENum 0) sel (new_vars n)) c == sq r)%E -> dist2 c sel x = Q2R r ^ 2).
  { intros c r sel n x -> <- H. cbn [holds cmp_holds] in H. rewrite eval_sqdist in H by reflexivity.
    rewrite H. unfold sq. cbn [eval]. apply Q2R_sq. }
  induction D as [lb ub|lb ub|c r sel|c r sel|a c r sel|c r|c ro ri sel|c0 c1 r| |m
    |s1 IH1 s2 IH2|s1 IH1 s2 IH2|s1 IH1 s2 IH2|s1 IH1]; intros n s batch rows Hf Hok Hs Hg;
    cbn [border_fine] in Hok; try contradiction.
  - refine (leaf _ _ _ _ _ _ Hf Hok Hs eq_refl Hg _). intros x H.
    destruct Hf as [Hl Hu]. rewrite holds_fand, !Forall_cons_iff in H. destruct H as (Hb & Hd & _).
    rewrite rect_boundary_holds in Hb by auto.
    apply (C27_formula_denotes_set (Rect lb ub) n) in Hd; [|simpl; auto].
    split; [|exact Hb]. intros i Hi. apply Hd. lia.
  - refine (leaf _ _ _ _ _ _ Hf Hok Hs eq_refl Hg _). intros x H. cbn [border_ok] in Hok.
    destruct sel; [contradiction|]. cbn [on_border]. eapply sph; eauto.
  - assert (Hok' := Hok). cbn [border_ok] in Hok'. destruct sel; [contradiction|].
    refine (leaf (Sph c r None) _ _ _ _ _ Hf Hok Hs eq_refl Hg _). intros x H.
    cbn [on_border]. eapply sph; eauto.
  - refine (leaf _ _ _ _ _ _ Hf Hok Hs eq_refl Hg _). intros x H. cbn [border_ok] in Hok.
    destruct sel; [contradiction|]. simpl in Hf. destruct Hf as [Ha Hf]. subst n.
    cbn [holds cmp_holds] in H. rewrite eval_sqell in H by (auto; reflexivity).
    cbn [on_border]. rewrite H. unfold sq. cbn [eval]. apply Q2R_sq.
  - destruct Hf as [Hf1 Hf2]. destruct Hok as [Ho1 Ho2]. cbn [sample_border] in Hg.
    destruct (sample_border s1 (left_source s) (batch / 2)) as [x1|] eqn:E1; [|discriminate].
    destruct (sample_border s2 (right_source s) (batch / 2)) as [x2|] eqn:E2; [|discriminate].
    injection Hg as <-. apply Forall_app. split.
    + eapply Forall_impl; [|exact (IH1 _ _ _ _ Hf1 Ho1 (good_left _ Hs) E1)].
      intros row [H1 H2]. split; [auto|now left].
    + eapply Forall_impl; [|exact (IH2 _ _ _ _ Hf2 Ho2 (good_right _ Hs) E2)].
      intros row [H1 H2]. split; [auto|now right].
  - exact (IH1 _ _ _ _ Hf Hok Hs Hg).
Qed.

(** Which sets have border samples, and how many. *)
Theorem C29_border_count :
  forall D s batch, option_map (@length _) (sample_border D s batch) = border_count D batch.
Proof.
  induction D as [lb ub|lb ub|c r sel|c r sel|a c r sel|c r|c ro ri sel|c0 c1 r| |m
    |s1 IH1 s2 IH2|s1 IH1 s2 IH2|s1 IH1 s2 IH2|s1 IH1]; intros s batch;
    cbn [sample_border border_count option_map]; auto;
    rewrite ?map_length, ?round_rows_length; auto.
  - unfold ellipse_rows. now rewrite map_length, seq_length.
  - specialize (IH1 (left_source s) (batch / 2)%nat). specialize (IH2 (right_source s) (batch / 2)%nat).
    destruct (sample_border s1 _ _), (sample_border s2 _ _), (border_count s1 _), (border_count s2 _);
      cbn in IH1, IH2; try discriminate; auto.
    injection IH1 as <-. injection IH2 as <-. cbn. now rewrite app_length.
Qed.

(** Which sets can be sampled. *)
Lemma has_test_iff : forall D x, has_test D <-> check_containment D x <> None.
Proof.
  induction D as [lb ub|lb ub|c r sel|c r sel|a c r sel|c r|c ro ri sel|c0 c1 r| |m
    |s1 IH1 s2 IH2|s1 IH1 s2 IH2|s1 IH1 s2 IH2|s1 IH1]; intros x; cbn [has_test check_containment];
    try (destruct sel); try (split; [intros _; discriminate|easy]); try (split; [easy|congruence]).
  - rewrite (IH1 x), (IH2 x).
    destruct (check_containment s1 x), (check_containment s2 x); split; try easy; intros H; try tauto;
      split; congruence.
  - rewrite (IH1 x). destruct (check_containment s1 x); split; congruence.
Qed.

Lemma mask_rows_some f rows : (forall x, f x <> None) -> exists l, mask_rows f rows = Some l.
Proof.
  intros H. induction rows as [|x rows [l IH]]; [eexists; reflexivity|]. cbn [mask_rows]. rewrite IH.
  specialize (H x). destruct (f x); [eexists; reflexivity|congruence].
Qed.

Theorem C29_can_sample :
  forall D s batch, can_sample D -> exists rows, generate_data D s batch = Some rows.
Proof.
  induction D as [lb ub|lb ub|c r sel|c r sel|a c r sel|c r|c ro ri sel|c0 c1 r| |m
    |s1 IH1 s2 IH2|s1 IH1 s2 IH2|s1 IH1 s2 IH2|s1 IH1]; intros s batch; cbn [can_sample generate_data];
    try contradiction; try (intros _; eexists; reflexivity).
  - intros H. destruct c as [|c0 [|c1 [|c2 [|c3 c]]]]; simpl in H; try lia; eexists; reflexivity.
  - intros [H1 H2]. destruct (IH1 (left_source s) (batch / 2)%nat H1) as (x1 & ->).
    destruct (IH2 (right_source s) (batch / 2)%nat H2) as (x2 & ->). eexists; reflexivity.
  - intros (H1 & H2 & T1 & T2). destruct (IH1 (left_source s) batch H1) as (x1 & ->).
    destruct (IH2 (right_source s) batch H2) as (x2 & ->).
    destruct (mask_rows_some (check_containment s2) x1) as (y1 & ->); [intros; now apply has_test_iff|].
    destruct (mask_rows_some (check_containment s1) x2) as (y2 & ->); [intros; now apply has_test_iff|].
    eexists; reflexivity.
  - intros (H1 & T2). destruct (IH1 s batch H1) as (x1 & ->).
    apply mask_rows_some. intros x. apply (has_test_iff s2 x) in T2. destruct (check_containment s2 x); easy.
Qed.

(** The sets without a sampler: EmptySet, Reals, Bean2D, complements, and the positive orthant
    of a ball outside dimensions 2 and 3. *)
Theorem C29_cannot_sample :
  forall D s batch, match D with
    | EmptyS | RealsS _ | Bean _ _ _ | ComplS _ => generate_data D s batch = None
    | OrthSph c _ => length c <> 2%nat -> length c <> 3%nat -> generate_data D s batch = None
    | _ => True end.
Proof.
  intros D s0 batch0. destruct D; auto. cbn [generate_data]. intros H2 H3.
  destruct c as [|c0 [|c1 [|c2 [|c3 c]]]]; simpl in *; auto; congruence.
Qed.

(** ** Violations.  A source that always draws [u] (and the Gaussian vector (1,..,1)). *)
Definition const_source (u : R) : source := {| rnd := fun _ _ _ => u; gauss := fun _ _ _ => 1 |}.

Lemma norm2_ones n st : norm2 (map (fun _ : nat => 1) (seq st n)) = sqrt (INR n).
Proof.
  unfold norm2. f_equal. revert st. induction n as [|n IH]; intros st; [reflexivity|].
  rewrite S_INR. cbn [seq map]. unfold Rsum in *. cbn [fold_right]. rewrite IH. ring.
Qed.

Lemma const_good u : 0 <= u < 1 -> good_source (const_source u).
Proof.
  intros Hu. split; simpl; [auto|]. intros _ _ n Hn. rewrite norm2_ones.
  apply sqrt_lt_R0. now apply lt_0_INR.
Qed.

Lemma root_34 : root 4 (81/256) = 3/4.
Proof.
  unfold root. destruct (Req_EM_T (81/256) 0); [lra|].
  replace (81/256) with (Rpower (3/4) (INR 4)).
  - rewrite Rpower_mult, Rinv_r by (apply not_0_INR; lia). apply Rpower_1. lra.
  - rewrite Rpower_pow by lra. field.
Qed.

(** In each case: a source respecting its contract, one requested row (ten for the
    last), and a returned row outside the set. *)
Definition bad_sample (n : nat) (S : fset) : Prop :=
  fits n S /\ exists s batch rows row,
    good_source s /\ generate_data S s batch = Some rows /\ In row rows /\ ~ member n S (state_of row).

Theorem C29_sphere_dim1_refuted : bad_sample 1 (Sph [0]%Q 2 None).
Proof.
  split; [reflexivity|]. exists (const_source 0), 1%nat. do 2 eexists.
  split; [apply const_good; lra|]. split; [reflexivity|]. split; [left; reflexivity|].
  cbn [member]. unfold dist2, qn, state_of. simpl. unfold Q2R; simpl. lra.
Qed.

Theorem C29_sphere_dim4_refuted : bad_sample 4 (Sph [0; 0; 0; 0]%Q 2 None).
Proof.
  split; [reflexivity|]. exists (const_source (81/256)), 1%nat. do 2 eexists.
  split; [apply const_good; lra|]. split; [reflexivity|]. split; [left; reflexivity|].
  cbn [member]. unfold dist2, qn, state_of. cbn [seq map length indexed combine nth const_source rnd gauss sum_below coord].
  assert (E : norm2 [1; 1; 1; 1] = 2).
  { unfold norm2, Rsum. simpl. replace (1 * 1 + (1 * 1 + (1 * 1 + (1 * 1 + 0)))) with (2 * 2) by ring.
    apply sqrt_square. lra. }
  rewrite root_34, E. unfold Q2R; simpl. lra.
Qed.

Theorem C29_torus_refuted : bad_sample 2 (Tor [0; 0]%Q 2 1 None).
Proof.
  split; [reflexivity|]. exists (const_source 0), 1%nat. do 2 eexists.
  split; [apply const_good; lra|]. split; [reflexivity|]. split; [left; reflexivity|].
  cbn [member]. unfold dist2, qn, state_of, add_c, map2. simpl. unfold Q2R; simpl. lra.
Qed.

Theorem C29_open_rectangle_refuted : bad_sample 1 (OpenRect [0]%Q [1]%Q).
Proof.
  split; [split; reflexivity|]. exists (const_source 0), 1%nat. do 2 eexists.
  split; [apply const_good; lra|]. split; [reflexivity|]. split; [left; reflexivity|].
  cbn [member]. intros H. specialize (H 0%nat ltac:(simpl; lia)).
  unfold qn, state_of in H. simpl in H. lra.
Qed.

Theorem C29_open_sphere_refuted : bad_sample 2 (OpenSph [0; 0]%Q 1 None).
Proof.
  split; [reflexivity|]. exists (const_source 0), 10%nat. do 2 eexists.
  split; [apply const_good; lra|]. split; [reflexivity|]. split; [simpl; do 9 right; left; reflexivity|].
  cbn [member]. rewrite dist2_2, circular, sqrt_sq_abs, abs_sq. simpl. lra.
Qed.

(** A hole of radius 1/2 is not cut out (its numeric test uses the squared radius). *)
Theorem C29_hole_refuted : bad_sample 1 (MinusS (Rect [-1]%Q [1]%Q) (Sph [0]%Q (1#2) None)).
Proof.
  split; [repeat split|]. exists (const_source (3/10)), 1%nat.
  assert (E1 : Q2R 1 = 1) by (unfold Q2R; simpl; lra).
  assert (E2 : Q2R (-1) = -1) by (unfold Q2R; simpl; lra).
  assert (E3 : Q2R (1#2) = 1/2) by (unfold Q2R; simpl; lra).
  exists [[(Q2R (-1) - Q2R 1) * (3/10) + Q2R 1]], [(Q2R (-1) - Q2R 1) * (3/10) + Q2R 1].
  split; [apply const_good; lra|].
  assert (Hd : dist2 [0%Q] None (state_of [(Q2R (-1) - Q2R 1) * (3/10) + Q2R 1]) = (2/5) ^ 2).
  { unfold dist2, qn, state_of. simpl. rewrite E1, E2, Q2R_0. field. }
  split; [|split; [left; reflexivity|]].
  - cbn [generate_data seq map mask_rows].
    change (square_row (const_source (3/10)) [-1]%Q [1]%Q 0) with [(Q2R (-1) - Q2R 1) * (3/10) + Q2R 1].
    cbn [check_containment]. rewrite norm2_minus_c, Hd, sqrt_pow2, E3 by (reflexivity || lra).
    unfold Rleb. destruct (Rle_dec (2/5) (1/2 * (1/2))); [lra|]. reflexivity.
  - cbn [member]. rewrite Hd, E3. intros [_ H]. apply H. lra.
Qed.

(** Border sampling in dimension 1 returns interior points. *)
Theorem C29_border_dim1_refuted :
  forall S, (S = Rect [0]%Q [1]%Q \/ S = Sph [0]%Q 1 None) ->
  exists s rows row b, good_source s /\ generate_boundary S (new_vars 1) = Some b /\
    sample_border S s 1 = Some rows /\ In row rows /\ ~ holds (state_of row) b.
Proof.
  intros S HS. exists (const_source (1/2)).
  assert (E1 : Q2R 1 = 1) by (unfold Q2R; simpl; lra).
  destruct HS as [->| ->].
  - exists [[1/2]], [1/2]. eexists. split; [apply const_good; lra|]. split; [reflexivity|].
    split; [|split; [left; reflexivity|]].
    + cbn [sample_border round_rows map segment_rows seq const_source rnd].
      replace ((Q2R 0 + 1 - (Q2R 0 - 1)) * (1 / 2) + (Q2R 0 - 1)) with 0 by (rewrite Q2R_0; field).
      unfold sphere_to_cube. simpl. destruct (Req_EM_T 0 0) as [_|N]; [|exfalso; now apply N].
      unfold cube_move, map2. simpl. do 3 f_equal. rewrite E1, Q2R_0. field.
    + rewrite holds_fand, Forall_cons_iff, rect_boundary_holds by reflexivity.
      intros [(i & Hi & H) _]. replace i with 0%nat in H by lia.
      unfold qn, state_of in H. simpl in H. rewrite E1, Q2R_0 in H. lra.
  - exists [[0]], [0]. eexists. split; [apply const_good; lra|]. split; [reflexivity|].
    split; [|split; [left; reflexivity|]].
    + cbn [sample_border round_rows map segment_rows seq const_source rnd].
      do 3 f_equal. rewrite E1, Q2R_0. field.
    + cbn [holds cmp_holds]. rewrite eval_sqdist by reflexivity.
      unfold sq. cbn [eval]. rewrite Q2R_sq, E1. unfold dist2, qn, state_of. simpl. rewrite Q2R_0. lra.
Qed.

(** The hypotheses are met by a nested set and a contract-respecting source. *)
Example C29_example :
  fits 2 (UnionS (MinusS (Rect [-3#1; -3#1]%Q [3#1; 3#1]%Q) (Sph [0; 0]%Q 1 None)) (Sph [5#1; 5#1]%Q 2 None)) /\
  sampler_ok (UnionS (MinusS (Rect [-3#1; -3#1]%Q [3#1; 3#1]%Q) (Sph [0; 0]%Q 1 None)) (Sph [5#1; 5#1]%Q 2 None)) /\
  border_ok (Rect [-3#1; -3#1]%Q [3#1; 3#1]%Q) /\ good_source (const_source (1/2)).
Proof.
  assert (Hle : forall i, (i < 2)%nat -> qn [-3#1; -3#1]%Q i <= qn [3#1; 3#1]%Q i).
  { intros [|[|i]] Hi; [| |lia]; unfold qn, Q2R; simpl; lra. }
  split; [simpl; auto|]. split; [|split].
  - cbn [sampler_ok exact_containment]. split; [split; [exact Hle|]|left; reflexivity].
    replace (Q2R 1) with 1 by (unfold Q2R; simpl; lra). rewrite Rabs_R1. ring.
  - split; [simpl; lia|exact Hle].
  - apply const_good. lra.
Qed.
