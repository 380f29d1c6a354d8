(** Continuity of symbolic expressions as functions of the state. *)
From Coq Require Import Reals QArith Qreals List Lra Lia Classical.
From Coquelicot Require Import Coquelicot.
From Verif Require Import M_Syntax S_Dynamics L_Calculus.
Import ListNotations.
Local Open Scope R_scope.

(** All variables of [e] are among x0..x(n-1). *)
Fixpoint vars_below (n : nat) (e : expr) : Prop :=
  match e with
  | ENum _ => True
  | EVar i => (i < n)%nat
  | EUn _ e => vars_below n e
  | EBin _ e1 e2 => vars_below n e1 /\ vars_below n e2
  | EPow e _ => vars_below n e
  | EIfPos c a b => vars_below n c /\ vars_below n a /\ vars_below n b
  end.

(** [e] is continuous at [s] for syntactic reasons: logarithms of positive
    numbers, non-zero denominators, and conditionals away from the switch or with
    equal branches on it. *)
Fixpoint tame_at (s : state) (e : expr) : Prop :=
  match e with
  | ENum _ | EVar _ => True
  | EUn ULog e => tame_at s e /\ 0 < eval s e
  | EUn _ e => tame_at s e
  | EBin BDiv e1 e2 => tame_at s e1 /\ tame_at s e2 /\ eval s e2 <> 0
  | EBin _ e1 e2 => tame_at s e1 /\ tame_at s e2
  | EPow e _ => tame_at s e
  | EIfPos c a b => tame_at s c /\ tame_at s a /\ tame_at s b /\
      (eval s c <> 0 \/ eval s a = eval s b)
  end.

Lemma cont_const n c p : cont_at n (fun _ => c) p.
Proof. intros e He. exists 1. split; [lra|]. intros s _. rewrite Rminus_diag_eq, Rabs_R0; auto. Qed.

Lemma cont_proj n i p : (i < n)%nat -> cont_at n (fun s => s i) p.
Proof. intros Hi e He. exists e. split; auto. Qed.

Lemma cont_comp n (g : R -> R) h p :
  cont_at n h p -> continuous g (h p) -> cont_at n (fun s => g (h s)) p.
Proof.
  intros Hh Hg e He. destruct (continuous_eps g (h p) Hg e He) as (d & Hd & H).
  destruct (Hh d Hd) as (d' & Hd' & H'). exists d'. split; auto.
Qed.

Lemma cont_plus n h k p : cont_at n h p -> cont_at n k p -> cont_at n (fun s => h s + k s) p.
Proof.
  intros H1 H2 e He. destruct (H1 (e/2)) as (d1 & Hd1 & E1); [lra|].
  destruct (H2 (e/2)) as (d2 & Hd2 & E2); [lra|].
  exists (Rmin d1 d2). split; [apply Rmin_glb_lt; auto|]. intros s Hs.
  assert (Rabs (h s - h p) < e/2).
  { apply E1. intros i Hi. apply Rlt_le_trans with (1 := Hs i Hi). apply Rmin_l. }
  assert (Rabs (k s - k p) < e/2).
  { apply E2. intros i Hi. apply Rlt_le_trans with (1 := Hs i Hi). apply Rmin_r. }
  replace (h s + k s - (h p + k p)) with ((h s - h p) + (k s - k p)) by ring.
  apply Rle_lt_trans with (1 := Rabs_triang _ _). lra.
Qed.

Lemma cont_neg n h p : cont_at n h p -> cont_at n (fun s => - h s) p.
Proof.
  intros H e He. destruct (H e He) as (d & Hd & E). exists d. split; auto.
  intros s Hs. replace (- h s - - h p) with (- (h s - h p)) by ring. rewrite Rabs_Ropp. auto.
Qed.

Lemma cont_minus n h k p : cont_at n h p -> cont_at n k p -> cont_at n (fun s => h s - k s) p.
Proof. intros H1 H2. apply (cont_plus n h (fun s => - k s)); auto. now apply cont_neg. Qed.

Lemma cont_square n h p : cont_at n h p -> cont_at n (fun s => h s * h s) p.
Proof.
  intros H. apply (cont_comp n (fun x => x * x) h p H).
  apply (ex_derive_continuous (V := R_NormedModule)). auto_derive. auto.
Qed.

Lemma cont_ext n h k p : (forall s, h s = k s) -> cont_at n h p -> cont_at n k p.
Proof.
  intros E H e He. destruct (H e He) as (d & Hd & H'). exists d. split; auto.
  intros s Hs. rewrite <- !E. auto.
Qed.

Lemma cont_mult n h k p : cont_at n h p -> cont_at n k p -> cont_at n (fun s => h s * k s) p.
Proof.
  intros H1 H2.
  apply (cont_ext n (fun s => / 2 * ((h s + k s) * (h s + k s) + - (h s * h s + k s * k s)))).
  - intros s. field.
  - apply (cont_comp n (fun x => / 2 * x)).
    + apply cont_plus; [apply cont_square; now apply cont_plus|].
      apply cont_neg. apply cont_plus; now apply cont_square.
    + apply (ex_derive_continuous (V := R_NormedModule)). auto_derive. auto.
Qed.

Lemma cont_pow n h k p : cont_at n h p -> cont_at n (fun s => h s ^ k) p.
Proof.
  intros H. apply (cont_comp n (fun x => x ^ k) h p H).
  apply (ex_derive_continuous (V := R_NormedModule)). auto_derive. auto.
Qed.

Lemma cont_max n h k p : cont_at n h p -> cont_at n k p -> cont_at n (fun s => Rmax (h s) (k s)) p.
Proof.
  intros H1 H2 e He. destruct (H1 e He) as (d1 & Hd1 & E1). destruct (H2 e He) as (d2 & Hd2 & E2).
  exists (Rmin d1 d2). split; [apply Rmin_glb_lt; auto|]. intros s Hs.
  assert (A : Rabs (h s - h p) < e).
  { apply E1. intros i Hi. apply Rlt_le_trans with (1 := Hs i Hi). apply Rmin_l. }
  assert (B : Rabs (k s - k p) < e).
  { apply E2. intros i Hi. apply Rlt_le_trans with (1 := Hs i Hi). apply Rmin_r. }
  apply Rabs_def2 in A. apply Rabs_def2 in B.
  unfold Rmax. destruct (Rle_dec (h s) (k s)); destruct (Rle_dec (h p) (k p)); apply Rabs_def1; lra.
Qed.

Lemma cosh_pos x : 0 < cosh x.
Proof. unfold cosh. assert (H := exp_pos x). assert (H' := exp_pos (- x)). lra. Qed.

Lemma unop_continuous u x : (u = ULog -> 0 < x) -> continuous (unop_eval u) x.
Proof.
  intros H. apply (ex_derive_continuous (V := R_NormedModule)).
  destruct u.
  - apply (ex_derive_ext (fun y => 0 - y)); [intros y; simpl; ring|]. auto_derive; auto.
  - simpl; auto_derive; auto.
  - simpl; auto_derive; auto.
  - simpl; auto_derive; auto.
  - simpl; auto_derive; auto.
  - apply (ex_derive_ext (fun y => ((exp y - exp (- y)) / 2) / ((exp y + exp (- y)) / 2)));
      [intros y; reflexivity|].
    auto_derive. assert (E := exp_pos x). assert (E' := exp_pos (- x)). apply Rgt_not_eq. lra.
  - apply (ex_derive_ext (fun y => (exp y - exp (- y)) / 2)); [intros y; reflexivity|].
    auto_derive; auto.
  - apply (ex_derive_ext (fun y => (exp y + exp (- y)) / 2)); [intros y; reflexivity|].
    auto_derive; auto.
Qed.

Lemma cont_ifpos n c a b p :
  cont_at n c p -> cont_at n a p -> cont_at n b p -> (c p <> 0 \/ a p = b p) ->
  cont_at n (fun s => if Rlt_dec 0 (c s) then a s else b s) p.
Proof.
  intros Hc Ha Hb Hor e He.
  destruct (Ha e He) as (d1 & Hd1 & E1). destruct (Hb e He) as (d2 & Hd2 & E2).
  destruct (Rlt_dec 0 (c p)) as [Hp|Hp].
  - destruct (Hc (c p) Hp) as (d3 & Hd3 & E3).
    exists (Rmin d1 d3). split; [apply Rmin_glb_lt; auto|]. intros s Hs.
    assert (C : Rabs (c s - c p) < c p).
    { apply E3. intros i Hi. apply Rlt_le_trans with (1 := Hs i Hi). apply Rmin_r. }
    apply Rabs_def2 in C. destruct (Rlt_dec 0 (c s)); [|lra].
    apply E1. intros i Hi. apply Rlt_le_trans with (1 := Hs i Hi). apply Rmin_l.
  - destruct (Req_dec (c p) 0) as [Hz|Hz].
    + destruct Hor as [Hn|Heq]; [contradiction|].
      exists (Rmin d1 d2). split; [apply Rmin_glb_lt; auto|]. intros s Hs.
      destruct (Rlt_dec 0 (c s)).
      * rewrite <- Heq. apply E1. intros i Hi. apply Rlt_le_trans with (1 := Hs i Hi). apply Rmin_l.
      * apply E2. intros i Hi. apply Rlt_le_trans with (1 := Hs i Hi). apply Rmin_r.
    + assert (Hneg : 0 < - c p) by lra.
      destruct (Hc (- c p) Hneg) as (d3 & Hd3 & E3).
      exists (Rmin d2 d3). split; [apply Rmin_glb_lt; auto|]. intros s Hs.
      assert (C : Rabs (c s - c p) < - c p).
      { apply E3. intros i Hi. apply Rlt_le_trans with (1 := Hs i Hi). apply Rmin_r. }
      apply Rabs_def2 in C. destruct (Rlt_dec 0 (c s)); [lra|].
      apply E2. intros i Hi. apply Rlt_le_trans with (1 := Hs i Hi). apply Rmin_l.
Qed.

Lemma eval_cont n e p : vars_below n e -> tame_at p e -> cont_at n (fun s => eval s e) p.
Proof.
  induction e as [q|i|u e IH|b e1 IH1 e2 IH2|e IH k|c IHc a IHa b IHb]; intros Hv Ht; cbn [eval].
  - apply cont_const.
  - now apply cont_proj.
  - assert (Ht' : tame_at p e /\ (u = ULog -> 0 < eval p e)).
    { destruct u; simpl in Ht; split; try tauto; intros E; discriminate. }
    apply (cont_comp n (unop_eval u) (fun s => eval s e)); [apply IH; tauto|].
    apply unop_continuous. apply Ht'.
  - destruct Hv as [Hv1 Hv2].
    assert (Ht' : tame_at p e1 /\ tame_at p e2 /\ (b = BDiv -> eval p e2 <> 0)).
    { destruct b; simpl in Ht; repeat split; try tauto; intros E; discriminate. }
    destruct Ht' as (H1 & H2 & H3). specialize (IH1 Hv1 H1). specialize (IH2 Hv2 H2).
    destruct b; cbn [binop_eval].
    + now apply cont_plus.
    + now apply cont_minus.
    + now apply cont_mult.
    + apply cont_mult; [exact IH1|].
      apply (cont_comp n Rinv (fun s => eval s e2) p IH2).
      apply (ex_derive_continuous (V := R_NormedModule)). auto_derive. now apply H3.
    + now apply cont_max.
  - apply (cont_pow n (fun s => eval s e)). now apply IH.
  - destruct Hv as (V1 & V2 & V3). destruct Ht as (T1 & T2 & T3 & T4).
    apply (cont_ifpos n (fun s => eval s c) (fun s => eval s a) (fun s => eval s b)); auto.
Qed.

(** Two states that agree on the first [n] components give the same values. *)
Lemma eval_agree n e s s' :
  vars_below n e -> (forall i, (i < n)%nat -> s i = s' i) -> eval s e = eval s' e.
Proof.
  intros Hv Hs. induction e as [q|i|u e IH|b e1 IH1 e2 IH2|e IH k|c IHc a IHa b IHb]; simpl in *; auto.
  - now rewrite IH.
  - rewrite IH1, IH2; tauto.
  - now rewrite IH.
  - rewrite IHc, IHa, IHb by tauto. reflexivity.
Qed.
