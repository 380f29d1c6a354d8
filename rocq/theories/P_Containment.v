(** C79: the measure [check_containment_grad]. *)
From Coq Require Import Reals QArith Qreals List Bool Arith Lra Lia.
From Verif Require Import M_Syntax M_Verifier M_Domains M_Containment S_Domains L_Holds L_Domains P_Domains P_Activations.
Import ListNotations.
Local Open Scope R_scope.

Lemma relu_of_nonneg a : 0 <= relu_of a.
Proof. apply Rmax_l. Qed.
Lemma relu_of_zero a : relu_of a = 0 <-> a <= 0.
Proof. unfold relu_of. split; intros H; [assert (K := Rmax_r 0 a); lra|now apply Rmax_left]. Qed.
Lemma relu_sum a b : relu_of a + relu_of b = 0 <-> a <= 0 /\ b <= 0.
Proof.
  rewrite <- (relu_of_zero a), <- (relu_of_zero b). pose proof (relu_of_nonneg a). pose proof (relu_of_nonneg b). split; [intros; lra|lra].
Qed.

(** The sets for which the method says what its comment promises. *)
Definition measured (n : nat) (S : fset) : Prop :=
  match S with
  | Rect _ _ => n = 1%nat
  | Sph _ _ None | Ell _ _ _ None | Tor _ _ _ None => True
  | _ => False
  end.
Theorem C79_zero_iff_contained :
  forall S n row, fits n S -> measured n S -> length row = n ->
    exists v, containment_grad S row = Some v /\ 0 <= v /\ (v = 0 <-> check_containment S row = Some true).
Proof.
  intros S n row Hf Hm Hn. destruct S as [lb ub|lb ub|c r sel|c r sel|a c r sel|c r|c ro ri sel|c0 c1 r| |m|s1 s2|s1 s2|s1 s2|s1];
    cbn [measured] in Hm; try contradiction.
  - destruct Hf as [H1 H2]. rewrite Hm in H1, H2, Hn. destruct lb as [|l [|]]; try discriminate H1. destruct ub as [|u [|]]; try discriminate H2.
    destruct row as [|x [|]]; try discriminate Hn. eexists. split; [reflexivity|].
    unfold map2. cbn [map combine fst snd Rsum fold_right forallb check_containment].
    split; [apply Rplus_le_le_0_compat; apply relu_of_nonneg|]. rewrite relu_sum. split.
    + intros [A B]. apply (f_equal Some). rewrite andb_true_r. apply andb_true_iff. rewrite !Rleb_true. lra.
    + intros E. assert (E' : Rleb x (Q2R u) && Rleb (Q2R l) x && true = true) by congruence. rewrite andb_true_r in E'. apply andb_true_iff in E'. rewrite !Rleb_true in E'. lra.
  - destruct sel; [contradiction|]. eexists. split; [reflexivity|]. split; [apply relu_of_nonneg|]. rewrite relu_of_zero. cbn [check_containment].
    split; [intros A; f_equal; apply Rleb_true; lra|intros [= E]; apply Rleb_true in E; lra].
  - destruct sel; [contradiction|]. eexists. split; [reflexivity|]. split; [apply relu_of_nonneg|]. rewrite relu_of_zero. cbn [check_containment].
    split; [intros A; f_equal; apply Rleb_true; lra|intros [= E]; apply Rleb_true in E; lra].
  - destruct sel; [contradiction|]. eexists. split; [reflexivity|].
    split; [apply Rplus_le_le_0_compat; apply relu_of_nonneg|]. rewrite relu_sum. cbn [check_containment]. split.
    + intros [A B]. apply (f_equal Some). apply andb_true_iff. rewrite !Rleb_true. lra.
    + intros E. apply P_Activations.Some_eq' in E. symmetry in E. apply andb_true_iff in E. rewrite !Rleb_true in E. lra.
Qed.
(** So, for the sets whose numeric containment is exact (C28), it is zero exactly on the set. *)
Theorem C79_zero_iff_member :
  forall S n row, fits n S -> measured n S -> exact_containment S -> length row = n ->
    exists v, containment_grad S row = Some v /\ 0 <= v /\ (v = 0 <-> member n S (state_of row)).
Proof.
  intros S n row Hf Hm He Hn. destruct (C79_zero_iff_contained S n row Hf Hm Hn) as (v & E & P & H).
  destruct (C28_containment_agrees S n row Hf He Hn) as (b & E' & H'). exists v. split; [exact E|]. split; [exact P|].
  rewrite H, E', <- H'. split; [intros [= ->]; reflexivity|intros ->; reflexivity].
Qed.

Lemma Rsum_nonpos l : (forall a, In a l -> a <= 0) -> Rsum l <= 0.
Proof.
  unfold Rsum. induction l as [|a l IH]; intros H; cbn [fold_right]; [lra|]. assert (A := H a (or_introl eq_refl)).
  assert (B := IH (fun b Hb => H b (or_intror Hb))). lra.
Qed.
(** Rectangles of any dimension: a contained point has the measure zero, so a positive measure means outside. *)
Theorem C79_contained_is_zero :
  forall lb ub n row, length lb = n -> length ub = n -> length row = n ->
    exists v, containment_grad (Rect lb ub) row = Some v /\ containment_grad (OpenRect lb ub) row = Some v /\ 0 <= v /\
      (member n (Rect lb ub) (state_of row) -> v = 0).
Proof.
  intros lb ub n row Hl Hu Hn. eexists. split; [reflexivity|]. split; [reflexivity|].
  split; [apply Rplus_le_le_0_compat; apply relu_of_nonneg|]. intros Hm. cbn [member] in Hm. apply relu_sum.
  split; apply Rsum_nonpos; intros a Ha; unfold map2 in Ha; apply in_map_iff in Ha; destruct Ha as ([x q] & <- & Hp); cbn [fst snd];
    apply (In_nth _ _ (0, 0%Q)) in Hp; destruct Hp as (i & Hi & E); rewrite combine_length in Hi; rewrite combine_nth in E by lia; injection E as <- <-;
    destruct (Hm i ltac:(lia)); unfold state_of, qn in *; lra.
Qed.
(** In two or more dimensions the deviations of the coordinates are added up before they are clipped, so that they
    cancel: a point outside of the unit cube has the measure zero. *)
Lemma Rsum_repeat a k : Rsum (repeat a k) = INR k * a.
Proof.
  unfold Rsum. induction k as [|k IH]; [cbn; lra|]. cbn [repeat fold_right]. rewrite IH, S_INR. lra.
Qed.
Theorem C79_rectangle_refuted :
  forall n, (2 <= n)%nat -> exists lb ub row,
    fits n (Rect lb ub) /\ length row = n /\ containment_grad (Rect lb ub) row = Some 0 /\
    check_containment (Rect lb ub) row = Some false /\ ~ member n (Rect lb ub) (state_of row).
Proof.
  intros n Hn. destruct n as [|[|k]]; try lia. clear Hn.
  exists (repeat 0%Q (S (S k))), (repeat 1%Q (S (S k))), (3/2 :: -1/2 :: repeat (1/2) k).
  assert (E1 : Q2R 1 = 1) by (unfold Q2R; cbn; lra). assert (E0 : Q2R 0 = 0) by (unfold Q2R; cbn; lra).
  split; [split; apply repeat_length|]. split; [cbn; now rewrite repeat_length|]. split; [|split].
  - cbn [containment_grad]. f_equal. apply relu_sum. unfold map2. cbn [repeat combine map fst snd].
    assert (G : forall q m (g : R -> Q -> R), map (fun p => g (fst p) (snd p)) (combine (repeat (1/2) m) (repeat q m)) = repeat (g (1/2) q) m).
    { intros q m g. induction m as [|m IH]; [reflexivity|]. cbn [repeat combine map fst snd]. now rewrite IH. }
    rewrite (G 1%Q k (fun a u => a - Q2R u)), (G 0%Q k (fun a l => Q2R l - a)). unfold Rsum. cbn [fold_right].
    fold (Rsum (repeat (1/2 - Q2R 1) k)). fold (Rsum (repeat (Q2R 0 - 1/2) k)). rewrite !Rsum_repeat, E0, E1. pose proof (pos_INR k). lra.
  - cbn [check_containment repeat combine forallb fst snd]. f_equal.
    assert (F : Rleb (3/2) (Q2R 1) = false) by (unfold Rleb; destruct (Rle_dec _ _); [lra|reflexivity]). rewrite F. reflexivity.
  - intros H. specialize (H 0%nat ltac:(cbn; lia)). unfold qn, state_of in H. cbn [nth repeat] in H. lra.
Qed.
(** Open sets inherit the method of their closed versions: zero on the border, which they do not contain. *)
Theorem C79_open_refuted :
  (exists row, containment_grad (OpenRect [0]%Q [1]%Q) row = Some 0 /\ check_containment (OpenRect [0]%Q [1]%Q) row = Some false) /\
  (exists row, containment_grad (OpenSph [0]%Q 1 None) row = Some 0 /\ check_containment (OpenSph [0]%Q 1 None) row = Some false).
Proof.
  assert (E1 : Q2R 1 = 1) by (unfold Q2R; cbn; lra). assert (E0 : Q2R 0 = 0) by (unfold Q2R; cbn; lra).
  split; exists [1].
  - split.
    + cbn [containment_grad]. f_equal. apply relu_sum. unfold map2. cbn [combine map fst snd Rsum fold_right]. unfold Rsum. cbn [fold_right]. lra.
    + cbn [check_containment combine forallb fst snd]. f_equal. replace (Rltb 1 (Q2R 1)) with false; [reflexivity|]. unfold Rltb. destruct (Rlt_dec _ _); [lra|reflexivity].
  - assert (N : norm2 (minus_c [1] [0%Q]) = 1).
    { unfold norm2, minus_c, map2. cbn [combine map fst snd]. unfold Rsum. cbn [fold_right]. rewrite E0. replace (_ + 0) with 1 by lra. apply sqrt_1. }
    split; cbn [containment_grad check_containment]; f_equal; rewrite N, E1.
    + apply relu_of_zero. lra.
    + unfold Rltb. destruct (Rlt_dec _ _); [lra|reflexivity].
Qed.
(** The complement only changes the sign: never positive, and zero also inside the set it excludes. *)
Theorem C79_complement_refuted :
  forall S n row, fits n S -> measured n S -> length row = n ->
    exists v, containment_grad (ComplS S) row = Some v /\ v <= 0 /\
      (check_containment (ComplS S) row = Some false -> v = 0) /\ (check_containment (ComplS S) row = Some true -> v < 0).
Proof.
  intros S n row Hf Hm Hn. destruct (C79_zero_iff_contained S n row Hf Hm Hn) as (v & E & P & H). exists (- v). cbn [containment_grad check_containment].
  rewrite E. split; [reflexivity|]. split; [lra|]. destruct (check_containment S row) as [[|]|].
  - split; [intros _; assert (v = 0) by now apply H|intros [=]]. lra.
  - split; [intros [=]|intros _]. destruct (Req_dec v 0) as [Z|N]; [apply H in Z; discriminate Z|lra].
  - split; intros [=].
Qed.
(** A list of coordinates (dim_select) makes both methods raise on a table of points. *)
Theorem C79_dim_select_raises :
  forall c a r ro ri i l row, let d := i :: l in
    containment_grad (Sph c r (Some d)) row = None /\ containment_grad (OpenSph c r (Some d)) row = None /\
    containment_grad (Ell a c r (Some d)) row = None /\ containment_grad (Tor c ro ri (Some d)) row = None.
Proof. repeat split. Qed.

(** The torus of rar: outer radius 1 and inner radius 1/2; the measure at the origin is 1/2, at the point 3/4 it is zero. *)
Example C79_example :
  let T := Tor [0]%Q 1 (1#2) None in
  fits 1 T /\ measured 1 T /\ containment_grad T [0] = Some (1/2) /\ containment_grad T [3/4] = Some 0 /\
  containment_grad (Rect [0; 0]%Q [1; 1]%Q) [2; 2] = Some 2.
Proof.
  assert (E1 : Q2R 1 = 1) by (unfold Q2R; cbn; lra). assert (E0 : Q2R 0 = 0) by (unfold Q2R; cbn; lra). assert (Eh : Q2R (1#2) = 1/2) by (unfold Q2R; cbn; lra).
  assert (N : forall a, 0 <= a -> norm2 (minus_c [a] [0%Q]) = a).
  { intros a Ha. unfold norm2, minus_c, map2. cbn [combine map fst snd]. unfold Rsum. cbn [fold_right]. rewrite E0. replace (_ + 0) with (a * a) by lra. now apply sqrt_square. }
  cbn zeta. split; [reflexivity|]. split; [exact I|]. cbn [containment_grad]. rewrite !N by lra. rewrite E1, Eh. unfold relu_of, map2, Rsum. cbn [combine map fst snd fold_right]. rewrite E1, E0.
  repeat split; f_equal.
  - rewrite Rmax_right, Rmax_left by lra. lra.
  - rewrite !Rmax_left by lra. lra.
  - rewrite Rmax_right, Rmax_left by lra. lra.
Qed.
