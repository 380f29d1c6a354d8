(** Lemmas for C72: inclusions between the sets of the scripts, decided on the rational bounds. *)
From Coq Require Import Reals QArith Qreals Bool Arith Lra Lia List.
From Verif Require Import M_Syntax M_Domains S_Domains S_Dynamics S_Certificates L_Holds L_Domains P_Domains P_Stability.
Import ListNotations.
Local Open Scope R_scope.

Lemma Qle_bool_R a b : Qle_bool a b = true -> Q2R a <= Q2R b.
Proof. intros H. now apply Qle_Rle, Qle_bool_iff. Qed.
Lemma coord_dist n c x j : List.length c = n -> (j < n)%nat -> (x j - qn c j) ^ 2 <= dist2 c None x.
Proof.
  intros L J. unfold dist2. rewrite L. cbn [coord]. clear L.
  induction n as [|n IH]; [lia|]. cbn [sum_below].
  assert (Z : 0 <= sum_below n (fun j => (x j - qn c j) ^ 2)) by (apply sum_below_nonneg; intros; apply pow2_ge_0).
  destruct (Nat.eq_dec j n) as [-> |D]; [lra|]. specialize (IH ltac:(lia)). pose proof (pow2_ge_0 (x n - qn c n)). lra.
Qed.
Lemma sqr_bound a r : 0 <= r -> a ^ 2 <= r ^ 2 -> - r <= a <= r.
Proof. intros R0 H. split; nra. Qed.

(** Is the set inside the box? *)
Definition withinb (n : nat) (lo hi lb ub : list Q) : bool :=
  forallb (fun i => Qle_bool (nth i lo 0%Q) (nth i lb 0%Q) && Qle_bool (nth i ub 0%Q) (nth i hi 0%Q)) (seq 0 n).
Fixpoint in_boxb (n : nat) (lo hi : list Q) (S : fset) : bool :=
  match S with
  | Rect lb ub => withinb n lo hi lb ub
  | Sph c r None | OpenSph c r None | Tor c r _ None =>
      Qle_bool 0 r && withinb n lo hi (map (fun v => v - r)%Q c) (map (fun v => v + r)%Q c)
  | MinusS A _ => in_boxb n lo hi A
  | UnionS A B => in_boxb n lo hi A && in_boxb n lo hi B
  | _ => false
  end.
Lemma withinb_ok n lo hi lb ub i : withinb n lo hi lb ub = true -> (i < n)%nat -> qn lo i <= qn lb i /\ qn ub i <= qn hi i.
Proof.
  unfold withinb. rewrite forallb_forall. intros H I. specialize (H i ltac:(apply in_seq; lia)).
  apply andb_true_iff in H. destruct H as [H1 H2]. split; now apply Qle_bool_R.
Qed.
Lemma qn_map_shift c i (f : Q -> Q) k : (i < List.length c)%nat -> (forall v, Q2R (f v) = Q2R v + k) -> qn (map f c) i = qn c i + k.
Proof. intros I H. unfold qn. rewrite (nth_indep _ 0%Q (f 0%Q)) by now rewrite map_length. rewrite map_nth. apply H. Qed.
Lemma ball_box n lo hi c r x : List.length c = n -> 0 <= Q2R r ->
  withinb n lo hi (map (fun v => v - r)%Q c) (map (fun v => v + r)%Q c) = true ->
  dist2 c None x <= Q2R r ^ 2 -> forall i, (i < n)%nat -> qn lo i <= x i <= qn hi i.
Proof.
  intros L R0 W M i I. destruct (withinb_ok _ _ _ _ _ i W I) as [W1 W2].
  rewrite (qn_map_shift c i _ (- Q2R r)) in W1; [|lia|intros v; rewrite Q2R_minus; ring].
  rewrite (qn_map_shift c i _ (Q2R r)) in W2; [|lia|intros v; apply Q2R_plus].
  pose proof (coord_dist n c x i L I) as K. destruct (sqr_bound (x i - qn c i) (Q2R r) R0 ltac:(lra)). lra.
Qed.
Lemma in_boxb_ok n lo hi : forall S x, in_boxb n lo hi S = true -> fits n S -> member n S x ->
  forall i, (i < n)%nat -> qn lo i <= x i <= qn hi i.
Proof.
  induction S as [lb ub|lb ub|c r sel|c r sel|a c r sel|c r|c ro ri sel|c0 c1 r| |m
    |s1 IH1 s2 IH2|s1 IH1 s2 IH2|s1 IH1 s2 IH2|s1 IH1]; intros x B F M i I; cbn [in_boxb fits member] in *; try discriminate.
  - destruct F as [L _]. destruct (withinb_ok _ _ _ _ _ i B I). specialize (M i ltac:(lia)). lra.
  - destruct sel; [discriminate|]. apply andb_true_iff in B. destruct B as [B1 B2]. apply Qle_bool_R in B1. rewrite RMicromega.Q2R_0 in B1.
    now apply (ball_box n lo hi c r x F B1 B2).
  - destruct sel; [discriminate|]. apply andb_true_iff in B. destruct B as [B1 B2]. apply Qle_bool_R in B1. rewrite RMicromega.Q2R_0 in B1.
    apply (ball_box n lo hi c r x F B1 B2); [lra|exact I].
  - destruct sel; [discriminate|]. apply andb_true_iff in B. destruct B as [B1 B2]. apply Qle_bool_R in B1. rewrite RMicromega.Q2R_0 in B1.
    apply (ball_box n lo hi c ro x F B1 B2); [lra|exact I].
  - apply andb_true_iff in B. destruct M; [apply IH1|apply IH2]; tauto.
  - apply IH1; tauto.
Qed.
(** ... and its border? *)
Fixpoint border_boxb (n : nat) (lo hi : list Q) (S : fset) : bool :=
  match S with
  | Rect lb ub => withinb n lo hi lb ub
  | Sph c r None | OpenSph c r None =>
      Qle_bool 0 r && withinb n lo hi (map (fun v => v - r)%Q c) (map (fun v => v + r)%Q c)
  | MinusS A B => border_boxb n lo hi A && border_boxb n lo hi B
  | _ => false
  end.
Lemma border_boxb_ok n lo hi : forall S b x, border_boxb n lo hi S = true -> fits n S ->
  generate_boundary S (new_vars n) = Some b -> holds x b -> forall i, (i < n)%nat -> qn lo i <= x i <= qn hi i.
Proof.
  assert (Ball : forall c r b x, Qle_bool 0 r && withinb n lo hi (map (fun v => v - r)%Q c) (map (fun v => v + r)%Q c) = true ->
    fits n (Sph c r None) -> generate_boundary (Sph c r None) (new_vars n) = Some b -> holds x b -> forall i, (i < n)%nat -> qn lo i <= x i <= qn hi i).
  { intros c r b x B F E H i I. apply andb_true_iff in B. destruct B as [B1 B2]. apply Qle_bool_R in B1. rewrite RMicromega.Q2R_0 in B1.
    refine (ball_box n lo hi c r x F B1 B2 _ i I). 
    assert (M : member n (Sph c r None) x); [|exact M].
    apply (C27_formula_denotes_set (Sph c r None) n x F). cbn in E |- *. injection E as <-. cbn in H |- *. lra. }
  induction S as [lb ub|lb ub|c r sel|c r sel|a c r sel|c r|c ro ri sel|c0 c1 r| |m
    |s1 IH1 s2 IH2|s1 IH1 s2 IH2|s1 IH1 s2 IH2|s1 IH1]; intros b x B F E H; cbn [border_boxb] in *; try discriminate.
  - intros i I. destruct (withinb_ok _ _ _ _ _ i B I). cbn [generate_boundary] in E. injection E as <-.
    assert (M : member n (Rect lb ub) x) by (apply (C27_formula_denotes_set (Rect lb ub) n x F); destruct H as (_ & H & _); exact H).
    cbn [member fits] in M, F. specialize (M i ltac:(lia)). lra.
  - destruct sel; [discriminate|]. now apply (Ball c r b).
  - destruct sel; [discriminate|]. now apply (Ball c r b).
  - apply andb_true_iff in B. destruct B as [B1 B2]. cbn [generate_boundary fits] in E, F.
    destruct (generate_boundary s1 (new_vars n)) as [b1|]; [|discriminate]. destruct (generate_boundary s2 (new_vars n)) as [b2|]; [|discriminate].
    injection E as <-. destruct F as [F1 F2].
    destruct H as [K|[K|[]]]; [now apply (IH1 b1)|now apply (IH2 b2)].
Qed.

(** Is the set inside another one: a box, or a box without a ball? *)
Definition beforeb (S : fset) (c : list Q) (r : Q) (n : nat) : bool :=
  match S with
  | Rect lb ub => Qle_bool 0 r && existsb (fun i => Qle_bool (nth i ub 0%Q) (nth i c 0%Q - r) || Qle_bool (nth i c 0%Q + r) (nth i lb 0%Q)) (seq 0 n)
  | _ => false
  end.
Definition subsetb (n : nat) (A B : fset) : bool :=
  match B with
  | Rect lo hi => (List.length lo =? n)%nat && in_boxb n lo hi A
  | MinusS (Rect lo hi) (OpenSph c r None) => (List.length lo =? n)%nat && (List.length c =? n)%nat && in_boxb n lo hi A && beforeb A c r n
  | _ => false
  end.
Lemma subsetb_ok n A B x : subsetb n A B = true -> fits n A -> member n A x -> member n B x.
Proof.
  intros H F M. destruct B as [lo hi| | | | | | | | | | | |B1 B2|]; cbn [subsetb] in H; try discriminate.
  - apply andb_true_iff in H. destruct H as [L H]. apply Nat.eqb_eq in L. cbn [member]. rewrite L. now apply (in_boxb_ok n lo hi A x).
  - destruct B1 as [lo hi| | | | | | | | | | | | |]; try discriminate. destruct B2 as [| | |c r sel| | | | | | | | | |]; try discriminate. destruct sel; try discriminate.
    rewrite !andb_true_iff in H. destruct H as [[[L Lc] H] K]. apply Nat.eqb_eq in L, Lc. cbn [member]. rewrite L.
    split; [now apply (in_boxb_ok n lo hi A x)|]. intros D.
    destruct A as [lb ub| | | | | | | | | | | | |]; try discriminate. cbn [beforeb] in K.
    apply andb_true_iff in K. destruct K as [R0 K]. apply Qle_bool_R in R0. rewrite RMicromega.Q2R_0 in R0.
    apply existsb_exists in K. destruct K as (i & I & K). apply in_seq in I. cbn [member fits] in M, F. specialize (M i ltac:(lia)).
    pose proof (coord_dist n c x i Lc ltac:(lia)) as C.
    assert (Q2R r <= Rabs (x i - qn c i)).
    { apply orb_true_iff in K. destruct K as [K|K]; apply Qle_bool_R in K; unfold qn in *.
      - rewrite Q2R_minus in K. rewrite Rabs_left1; lra.
      - rewrite Q2R_plus in K. rewrite Rabs_right; lra. }
    assert (Q2R r ^ 2 <= (x i - qn c i) ^ 2) by (rewrite <- (pow2_abs (x i - qn c i)); apply pow_incr; lra). lra.
Qed.
(** A radius. *)
Fixpoint max_q (l : list Q) : Q := match l with [] => 0%Q | v :: l => if Qle_bool (max_q l) v then v else max_q l end.
Lemma max_q_ok l : 0 <= Q2R (max_q l) /\ forall i, qn l i <= Q2R (max_q l).
Proof.
  induction l as [|v l [IH1 IH2]]; cbn [max_q]; [unfold qn; split; [rewrite RMicromega.Q2R_0; lra|intros i; destruct i; cbn; lra]|].
  destruct (Qle_bool (max_q l) v) eqn:E.
  - apply Qle_bool_R in E. split; [lra|]. intros [|i]; unfold qn; cbn [nth]; [lra|]. specialize (IH2 i). unfold qn in IH2. lra.
  - split; [exact IH1|]. intros [|i]; [|apply IH2]. unfold qn. cbn [nth].
    destruct (Qlt_le_dec v (max_q l)) as [K|K]; [left; now apply Qlt_Rlt|]. apply Qle_bool_iff in K. congruence.
Qed.
Lemma box_bounded n lo hi (D : state -> Prop) : (forall s, D s -> forall i, (i < n)%nat -> qn lo i <= s i <= qn hi i) ->
  exists rad, bounded_by n rad D.
Proof.
  intros H. exists (Q2R (max_q hi) + Q2R (max_q (map Qopp lo))). destruct (max_q_ok hi) as [A1 A2]. destruct (max_q_ok (map Qopp lo)) as [B1 B2].
  split; [lra|]. intros s Ds i I. specialize (H s Ds i I). specialize (A2 i). specialize (B2 i).
  assert (qn (map Qopp lo) i = - qn lo i).
  { unfold qn. change 0%Q with (Qopp 0) at 1. rewrite map_nth. apply Q2R_opp. }
  lra.
Qed.

(** If a motion that is in the box until [t] is in [K] at [t], and [K] keeps a distance from the border of the box, then it never leaves [K]. *)
Lemma never_leaves n lo hi lo' hi' (K : state -> Prop) x a T :
  List.length lo = n -> List.length hi = n ->
  (forall i, (i < n)%nat -> qn lo i < qn lo' i /\ qn hi' i < qn hi i) ->
  (forall s, K s -> forall i, (i < n)%nat -> qn lo' i <= s i <= qn hi' i) ->
  continuous_path n x a T -> K (x a) ->
  (forall t, a <= t <= T -> (forall u, a <= u <= t -> member n (Rect lo hi) (x u)) -> K (x t)) ->
  forall t, a <= t <= T -> K (x t).
Proof.
  intros Ll Lh Hm HK Hc H0 H t Ht.
  assert (KB : forall s, K s -> member n (Rect lo hi) s).
  { intros s Ks. cbn [member]. rewrite Ll. intros i I. specialize (HK s Ks i I). destruct (Hm i I). lra. }
  apply H; [exact Ht|]. intros u Hu. apply Classical_Prop.NNPP. intros N.
  assert (F : fits n (Rect lo hi)) by (split; assumption).
  destruct (generate_boundary (Rect lo hi) (new_vars n)) as [b|] eqn:Eb; [|discriminate].
  destruct (C30_leaving_crosses_boundary (Rect lo hi) n b F I Eb x a u) as (v & Hv & Hb & Hin).
  - lra.
  - intros w Hw i I. apply Hc; [lra|exact I].
  - apply (C27_formula_denotes_set (Rect lo hi) n _ F). auto.
  - intros M. apply N. now apply (C27_formula_denotes_set (Rect lo hi) n _ F).
  - cbn [generate_boundary] in Eb. injection Eb as <-. destruct Hb as (B1 & B3 & _).
    assert (Kv : K (x v)).
    { apply H; [lra|]. intros w Hw. apply (C27_formula_denotes_set (Rect lo hi) n _ F).
      destruct (Req_dec w v) as [-> |D]; [exact B3|]. apply Hin. lra. }
    apply (rect_boundary_holds (x v) n lo hi Ll Lh) in B1. destruct B1 as (i & I' & B1). specialize (HK _ Kv i I'). destruct (Hm i I'). lra.
Qed.
