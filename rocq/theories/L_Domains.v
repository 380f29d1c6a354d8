(** Lemmas relating list-based symbolic sets to coordinates. *)
From Coq Require Import Reals QArith Qreals List Bool Arith Lra Lia Classical.
From Verif Require Import M_Syntax M_Verifier M_Domains S_Domains S_Dynamics L_Holds L_Continuity
  P_Certificates.
Import ListNotations.
Local Open Scope R_scope.

Lemma Rsum_app l1 l2 : Rsum (l1 ++ l2) = Rsum l1 + Rsum l2.
Proof. apply fold_right_Rplus_app. Qed.

Lemma Rsum_map_below {A} (g : A -> R) (l : list A) d :
  Rsum (map g l) = sum_below (length l) (fun j => g (nth j l d)).
Proof.
  induction l as [|a l IH] using rev_ind; [reflexivity|].
  rewrite map_app, Rsum_app, app_length, Nat.add_comm. cbn [length Nat.add sum_below map].
  rewrite app_nth2, Nat.sub_diag by lia. simpl nth. unfold Rsum at 2. simpl. rewrite IH.
  f_equal; [|lra].
  assert (E : forall k, (k <= length l)%nat ->
    sum_below k (fun j => g (nth j l d)) = sum_below k (fun j => g (nth j (l ++ [a]) d))).
  { induction k as [|k IHk]; intros Hk; simpl; [reflexivity|].
    rewrite IHk by lia. rewrite app_nth1 by lia. reflexivity. }
  now apply E.
Qed.

Lemma sum_below_ext n g h : (forall j, (j < n)%nat -> g j = h j) -> sum_below n g = sum_below n h.
Proof.
  induction n as [|n IH]; intros H; simpl; [reflexivity|].
  rewrite IH, (H n) by (intros; try apply H; lia). reflexivity.
Qed.

Lemma sum_below_le n g h : (forall j, (j < n)%nat -> g j <= h j) -> sum_below n g <= sum_below n h.
Proof.
  induction n as [|n IH]; intros H; simpl; [lra|].
  assert (H1 := IH ltac:(intros; apply H; lia)). assert (H2 := H n ltac:(lia)). lra.
Qed.

Lemma sum_below_scal n k g : sum_below n (fun j => k * g j) = k * sum_below n g.
Proof. induction n as [|n IH]; simpl; [ring|]. rewrite IH. ring. Qed.

Lemma sum_below_nonneg n g : (forall j, (j < n)%nat -> 0 <= g j) -> 0 <= sum_below n g.
Proof.
  intros H. replace 0 with (sum_below n (fun _ => 0)).
  - now apply sum_below_le.
  - clear H. induction n as [|n IH]; simpl; [reflexivity|]. rewrite IH; lra.
Qed.

Lemma cont_sum n k (g : nat -> state -> R) p :
  (forall j, (j < k)%nat -> cont_at n (g j) p) -> cont_at n (fun s => sum_below k (fun j => g j s)) p.
Proof.
  induction k as [|k IH]; intros H; simpl; [apply cont_const|].
  apply cont_plus; [apply IH; intros; apply H; lia|apply H; lia].
Qed.

Lemma map2_nth {A B C} (f : A -> B -> C) l1 l2 a b c j :
  length l1 = length l2 -> (j < length l2)%nat -> nth j (map2 f l1 l2) c = f (nth j l1 a) (nth j l2 b).
Proof.
  intros Hl Hj. unfold map2.
  rewrite (nth_indep _ c (f (fst (a, b)) (snd (a, b)))).
  - rewrite (map_nth (fun p => f (fst p) (snd p))). rewrite combine_nth by exact Hl. reflexivity.
  - rewrite map_length, combine_length. lia.
Qed.

Lemma map2_length {A B C} (f : A -> B -> C) l1 l2 :
  length (map2 f l1 l2) = Nat.min (length l1) (length l2).
Proof. unfold map2. now rewrite map_length, combine_length. Qed.

Lemma new_vars_length n : length (new_vars n) = n.
Proof. unfold new_vars. now rewrite map_length, seq_length. Qed.

Lemma new_vars_nth n i d : (i < n)%nat -> nth i (new_vars n) d = EVar i.
Proof.
  intros Hi. unfold new_vars. rewrite (nth_indep _ d (EVar 0)) by (rewrite map_length, seq_length; lia).
  rewrite map_nth, seq_nth by lia. reflexivity.
Qed.

Lemma pick_length {A} (d : A) n k sel (xs : list A) :
  sel_fits n k sel -> length xs = n -> length (pick d sel xs) = k.
Proof.
  intros H Hl. destruct sel as [[|i l]|]; simpl in *; try congruence.
  rewrite map_length. destruct H as [H _]. lia.
Qed.

Lemma pick_nth n k sel j :
  sel_fits n k sel -> (j < k)%nat -> nth j (pick (ENum 0) sel (new_vars n)) (ENum 0) = EVar (coord sel j).
Proof.
  intros H Hj. destruct sel as [[|i l]|]; cbn [pick coord].
  - simpl in H. apply new_vars_nth. lia.
  - destruct H as [Hl Hf].
    set (L := i :: l) in *.
    rewrite (nth_indep _ (ENum 0) (nth 0 (new_vars n) (ENum 0))) by (rewrite map_length; lia).
    rewrite (map_nth (fun i0 => nth i0 (new_vars n) (ENum 0)) L 0%nat).
    apply new_vars_nth. rewrite Forall_forall in Hf. apply Hf. apply nth_In. lia.
  - simpl in H. apply new_vars_nth. lia.
Qed.

Lemma eval_sqdist n c sel s :
  sel_fits n (length c) sel -> eval s (sqdist (pick (ENum 0) sel (new_vars n)) c) = dist2 c sel s.
Proof.
  intros H. unfold sqdist. rewrite eval_esum. change (fold_right Rplus 0) with Rsum.
  rewrite (Rsum_map_below _ _ (ENum 0)). unfold dist2.
  assert (Hl : length (pick (ENum 0) sel (new_vars n)) = length c).
  { apply (pick_length _ n); auto. apply new_vars_length. }
  rewrite map2_length, Hl, Nat.min_id. apply sum_below_ext. intros j Hj.
  rewrite (map2_nth _ _ _ (ENum 0) 0%Q) by auto. rewrite (pick_nth n (length c)) by auto. reflexivity.
Qed.

Lemma eval_sqell n a c sel s :
  length a = length c -> sel_fits n (length c) sel ->
  eval s (sqell a (pick (ENum 0) sel (new_vars n)) c) = ell2 a c sel s.
Proof.
  intros Ha H. unfold sqell. rewrite eval_esum. change (fold_right Rplus 0) with Rsum.
  rewrite (Rsum_map_below _ _ (ENum 0)). unfold ell2.
  assert (Hl : length (pick (ENum 0) sel (new_vars n)) = length c).
  { apply (pick_length _ n); auto. apply new_vars_length. }
  rewrite !map2_length, Hl, Ha, !Nat.min_id. apply sum_below_ext. intros j Hj.
  assert (Hl2 : length (map2 (fun ai x => EBin BMul (ENum ai) x) a (pick (ENum 0) sel (new_vars n))) = length c).
  { rewrite map2_length. lia. }
  rewrite (map2_nth _ _ _ (ENum 0) 0%Q) by auto.
  rewrite (map2_nth _ _ _ 0%Q (ENum 0)) by lia.
  rewrite (pick_nth n (length c)) by auto. reflexivity.
Qed.

Lemma Forall_nth_iff {A} (P : A -> Prop) l d :
  Forall P l <-> forall j, (j < length l)%nat -> P (nth j l d).
Proof.
  rewrite Forall_forall. split.
  - intros H j Hj. apply H. now apply nth_In.
  - intros H x Hx. destruct (In_nth l x d Hx) as (j & Hj & <-). now apply H.
Qed.

Lemma Exists_nth_iff {A} (P : A -> Prop) l d :
  Exists P l <-> exists j, (j < length l)%nat /\ P (nth j l d).
Proof.
  rewrite Exists_exists. split.
  - intros (x & Hx & HP). destruct (In_nth l x d Hx) as (j & Hj & <-). now exists j.
  - intros (j & Hj & HP). exists (nth j l d). split; auto. now apply nth_In.
Qed.

Lemma holds_rect_lower s c n lb :
  length lb = n ->
  (holds s (fand (map2 (fun l x => FCmp c (ENum l) x) lb (new_vars n))) <->
   forall i, (i < n)%nat -> cmp_holds c (qn lb i) (s i)).
Proof.
  intros Hl. rewrite holds_fand, (Forall_nth_iff _ _ FTrue), map2_length, new_vars_length, Hl, Nat.min_id.
  assert (E : forall j, (j < n)%nat ->
    nth j (map2 (fun l x => FCmp c (ENum l) x) lb (new_vars n)) FTrue = FCmp c (ENum (nth j lb 0%Q)) (EVar j)).
  { intros j Hj. rewrite (map2_nth _ _ _ 0%Q (ENum 0)) by (rewrite new_vars_length; lia).
    now rewrite new_vars_nth. }
  split; intros H i Hi; specialize (H i Hi); [rewrite E in H|rewrite E]; auto.
Qed.

Lemma holds_rect_upper s c n ub :
  length ub = n ->
  (holds s (fand (map2 (fun x u => FCmp c x (ENum u)) (new_vars n) ub)) <->
   forall i, (i < n)%nat -> cmp_holds c (s i) (qn ub i)).
Proof.
  intros Hl. rewrite holds_fand, (Forall_nth_iff _ _ FTrue), map2_length, new_vars_length, Hl, Nat.min_id.
  assert (E : forall j, (j < n)%nat ->
    nth j (map2 (fun x u => FCmp c x (ENum u)) (new_vars n) ub) FTrue = FCmp c (EVar j) (ENum (nth j ub 0%Q))).
  { intros j Hj. rewrite (map2_nth _ _ _ (ENum 0) 0%Q) by (rewrite ?new_vars_length; lia).
    now rewrite new_vars_nth. }
  split; intros H i Hi; specialize (H i Hi); [rewrite E in H|rewrite E]; auto.
Qed.

Lemma Q2R_sq r : Q2R (r * r) = Q2R r ^ 2.
Proof. rewrite Q2R_mult. ring. Qed.

(** Continuity of the distance functions. *)
Lemma coord_below n k sel j : sel_fits n k sel -> (j < k)%nat -> (coord sel j < n)%nat.
Proof.
  intros H Hj. destruct sel as [[|i l]|]; simpl in H; [simpl; lia| |simpl; lia].
  destruct H as [Hl Hf]. unfold coord. rewrite Forall_forall in Hf. apply Hf. apply nth_In. simpl. lia.
Qed.

Lemma dist2_cont n c sel p : sel_fits n (length c) sel -> cont_at n (dist2 c sel) p.
Proof.
  intros H. unfold dist2. apply (cont_sum n _ (fun j s => (s (coord sel j) - qn c j) ^ 2)).
  intros j Hj. apply (cont_pow n (fun s => s (coord sel j) - qn c j)).
  apply cont_minus; [|apply cont_const]. apply (cont_proj n (coord sel j)).
  now apply (coord_below n (length c)).
Qed.

Lemma ell2_cont n a c sel p : sel_fits n (length c) sel -> cont_at n (ell2 a c sel) p.
Proof.
  intros H. unfold ell2. apply (cont_sum n _ (fun j s => (qn a j * s (coord sel j) - qn c j) ^ 2)).
  intros j Hj. apply (cont_pow n (fun s => qn a j * s (coord sel j) - qn c j)).
  apply cont_minus; [|apply cont_const]. apply cont_mult; [apply cont_const|].
  apply (cont_proj n (coord sel j)). now apply (coord_below n (length c)).
Qed.
