(** Lemmas about the samplers of domains.py. *)
From Coq Require Import Reals QArith Qreals List Bool Arith Lra Lia.
From Verif Require Import M_Syntax M_Verifier M_Domains S_Domains S_Sampling L_Holds L_Domains P_Certificates P_Domains.
Import ListNotations.
Local Open Scope R_scope.

Lemma indexed_length {A} (l : list A) : length (indexed l) = length l.
Proof. unfold indexed. rewrite combine_length, seq_length. lia. Qed.

Lemma indexed_nth {A B} (f : nat * A -> B) (l : list A) j d e :
  (j < length l)%nat -> nth j (map f (indexed l)) e = f (j, nth j l d).
Proof.
  intros Hj. rewrite (nth_indep _ e (f (0%nat, d))) by (rewrite map_length, indexed_length; auto).
  rewrite map_nth. unfold indexed. rewrite combine_nth by (rewrite seq_length; auto).
  rewrite seq_nth by auto. reflexivity.
Qed.

Lemma cos2_sin2 a : cos a * cos a + sin a * sin a = 1.
Proof. assert (H := sin2_cos2 a). unfold Rsqr in H. lra. Qed.

Lemma sqrt_sq_abs r : sqrt (r * r) = Rabs r.
Proof. change (r * r) with (Rsqr r). apply sqrt_Rsqr_abs. Qed.

Lemma abs_sq r : Rabs r * Rabs r = r * r.
Proof. rewrite <- Rabs_mult. apply Rabs_pos_eq. nra. Qed.

Lemma root_bounds d v : (0 < d)%nat -> 0 <= v < 1 -> 0 <= root d v <= 1.
Proof.
  intros Hd [H0 H1]. unfold root. destruct (Req_EM_T v 0) as [|Hv]; [lra|].
  unfold Rpower. assert (Hi : 0 < / INR d) by (apply Rinv_0_lt_compat, lt_0_INR; auto).
  split; [left; apply exp_pos|].
  rewrite <- exp_0. left. apply exp_increasing.
  assert (ln v < 0) by (rewrite <- ln_1; apply ln_increasing; lra). nra.
Qed.

Lemma dist2_2 c0 c1 a b :
  dist2 [c0; c1] None (state_of (add_c [c0; c1] [a; b])) = a * a + b * b.
Proof. unfold dist2, add_c, map2, qn, state_of. simpl. ring. Qed.

Lemma dist2_3 c0 c1 c2 a b e :
  dist2 [c0; c1; c2] None (state_of (add_c [c0; c1; c2] [a; b; e])) = a * a + b * b + e * e.
Proof. unfold dist2, add_c, map2, qn, state_of. simpl. ring. Qed.

Lemma spherical r th ph :
  r * sin th * cos ph * (r * sin th * cos ph) + r * sin th * sin ph * (r * sin th * sin ph)
  + r * cos th * (r * cos th) = r * r.
Proof.
  assert (H1 := cos2_sin2 th). assert (H2 := cos2_sin2 ph).
  replace (r * sin th * cos ph * (r * sin th * cos ph) + r * sin th * sin ph * (r * sin th * sin ph)
  + r * cos th * (r * cos th))
  with (r * r * (sin th * sin th * (cos ph * cos ph + sin ph * sin ph) + cos th * cos th)) by ring.
  rewrite H2. replace (sin th * sin th * 1 + cos th * cos th) with 1 by lra. ring.
Qed.

Lemma circular r a : r * cos a * (r * cos a) + r * sin a * (r * sin a) = r * r.
Proof.
  assert (H := cos2_sin2 a).
  replace (r * cos a * (r * cos a) + r * sin a * (r * sin a)) with (r * r * (cos a * cos a + sin a * sin a)) by ring.
  rewrite H. ring.
Qed.

Lemma scaled_sq R u : 0 <= u < 1 -> R * u * (R * u) <= R * R.
Proof. intros [H0 H1]. assert (0 <= R * R) by nra. assert (u * u <= 1) by nra.
  replace (R * u * (R * u)) with (R * R * (u * u)) by ring. nra. Qed.

(** Points produced by normalising a Gaussian vector. *)
Lemma gauss_sum (g : nat -> R) n :
  norm2 (map g (seq 0 n)) * norm2 (map g (seq 0 n)) = sum_below n (fun j => g j * g j).
Proof.
  unfold norm2. rewrite sqrt_sqrt.
  - rewrite map_map. rewrite (Rsum_map_below _ _ 0%nat), seq_length. apply sum_below_ext.
    intros j Hj. now rewrite seq_nth.
  - rewrite map_map. rewrite (Rsum_map_below _ _ 0%nat). apply sum_below_nonneg. intros j _. nra.
Qed.

Lemma normalised_le (g w : nat -> R) n :
  0 < norm2 (map g (seq 0 n)) -> (forall j, (j < n)%nat -> w j * w j <= 1) ->
  sum_below n (fun j => (w j * g j / norm2 (map g (seq 0 n))) ^ 2) <= 1.
Proof.
  intros Hn Hw. set (N := norm2 _) in *.
  assert (E := gauss_sum g n). fold N in E.
  apply Rle_trans with (sum_below n (fun j => / (N * N) * (g j * g j))).
  - apply sum_below_le. intros j Hj. specialize (Hw j Hj).
    replace ((w j * g j / N) ^ 2) with (/ (N * N) * ((w j * w j) * (g j * g j))) by (field; lra).
    apply Rmult_le_compat_l; [left; apply Rinv_0_lt_compat; nra|]. nra.
  - rewrite sum_below_scal, <- E. right. field. lra.
Qed.

Lemma normalised_eq (g : nat -> R) n :
  0 < norm2 (map g (seq 0 n)) ->
  sum_below n (fun j => (g j / norm2 (map g (seq 0 n))) ^ 2) = 1.
Proof.
  intros Hn. set (N := norm2 _) in *.
  assert (E := gauss_sum g n). fold N in E.
  rewrite (sum_below_ext _ _ (fun j => / (N * N) * (g j * g j))).
  - rewrite sum_below_scal, <- E. field. lra.
  - intros j _. field. lra.
Qed.

Lemma mask_rows_in f rows out row :
  mask_rows f rows = Some out -> In row out -> In row rows /\ f row = Some true.
Proof.
  revert out. induction rows as [|x rows IH]; intros out H Hin; simpl in H.
  - injection H as <-. contradiction.
  - destruct (f x) as [b|] eqn:Eb; [|discriminate].
    destruct (mask_rows f rows) as [l|] eqn:El; [|discriminate]. injection H as <-.
    destruct b.
    + destruct Hin as [<-|Hin]; [split; simpl; auto|]. destruct (IH l eq_refl Hin); split; simpl; auto.
    + destruct (IH l eq_refl Hin); split; simpl; auto.
Qed.

Lemma mask_rows_complete f rows out row :
  mask_rows f rows = Some out -> In row rows -> f row = Some true -> In row out.
Proof.
  revert out. induction rows as [|x rows IH]; intros out H Hin Hf; simpl in H; [contradiction|].
  destruct (f x) as [b|] eqn:Eb; [|discriminate].
  destruct (mask_rows f rows) as [l|] eqn:El; [|discriminate]. injection H as <-.
  destruct Hin as [->|Hin].
  - rewrite Hf in Eb. injection Eb as <-. now left.
  - destruct b; [right|]; now apply IH.
Qed.
