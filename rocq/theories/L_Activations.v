(** Lemmas about activations. *)
From Coq Require Import Reals QArith Qreals List Bool Arith Lra Lia.
From Coquelicot Require Import Coquelicot.
From Verif Require Import M_Syntax M_Activations S_Activations L_Holds.
Import ListNotations.
Local Open Scope R_scope.

Lemma map_nth_lt {A B} (f : A -> B) l j a b :
  (j < length l)%nat -> nth j (map f l) b = f (nth j l a).
Proof.
  intros H. rewrite (nth_indep _ b (f a)) by now rewrite map_length. apply map_nth.
Qed.

Lemma nth_firstn_lt {A} (l : list A) k j d : (j < k)%nat -> nth j (firstn k l) d = nth j l d.
Proof.
  revert l j. induction k as [|k IH]; intros l j Hj; [lia|].
  destruct l as [|a l]; [now destruct j|]. destruct j as [|j]; simpl; [reflexivity|]. apply IH. lia.
Qed.
Lemma nth_skipn_add {A} (l : list A) k j d : nth j (skipn k l) d = nth (k + j) l d.
Proof.
  revert l. induction k as [|k IH]; intros l; [reflexivity|].
  destruct l as [|a l]; simpl; [now destruct j|]. apply IH.
Qed.

Lemma blocks_length {A B} (g : nat -> A -> B) (xs : list A) h k a :
  ((a + k) * h <= length xs)%nat ->
  length (concat (map (fun i => map (g i) (firstn h (skipn (i * h) xs))) (seq a k))) = (k * h)%nat.
Proof.
  revert a. induction k as [|k IH]; intros a H; [reflexivity|].
  cbn [seq map concat]. rewrite app_length, map_length, firstn_length, skipn_length, IH by nia.
  assert (h <= length xs - a * h)%nat by nia. rewrite Nat.min_l by lia. reflexivity.
Qed.

Lemma blocks_nth {A B} (g : nat -> A -> B) (xs : list A) h k a j d e :
  ((a + k) * h <= length xs)%nat -> (j < k * h)%nat ->
  nth j (concat (map (fun i => map (g i) (firstn h (skipn (i * h) xs))) (seq a k))) e
  = g (a + j / h)%nat (nth (a * h + j) xs d).
Proof.
  revert a j. induction k as [|k IH]; intros a j H Hj; [lia|].
  assert (Hh : (0 < h)%nat) by (destruct h; lia).
  cbn [seq map concat].
  assert (Hl : length (map (g a) (firstn h (skipn (a * h) xs))) = h).
  { rewrite map_length, firstn_length, skipn_length. nia. }
  destruct (Nat.lt_ge_cases j h) as [Hlt|Hge].
  - rewrite app_nth1 by lia.
    rewrite (map_nth_lt _ _ _ d) by (rewrite map_length in Hl; lia).
    rewrite nth_firstn_lt, nth_skipn_add by lia.
    rewrite Nat.div_small by lia. now rewrite Nat.add_0_r.
  - rewrite app_nth2 by lia. rewrite Hl. rewrite IH by nia.
    f_equal; [|f_equal; nia].
    assert (E : (j / h = 1 + (j - h) / h)%nat).
    { replace j with ((j - h) + 1 * h)%nat at 1 by lia. rewrite Nat.div_add by lia. lia. }
    lia.
Qed.

Lemma div_mul_le w n : (0 < n)%nat -> (n * (w / n) <= w)%nat.
Proof. intros H. apply Nat.mul_div_le. lia. Qed.

Lemma by_part_split {A B} n (g : nat -> A -> B) xs :
  (0 < n)%nat ->
  by_part n g xs =
  concat (map (fun i => map (g i) (firstn (length xs / n) (skipn (i * (length xs / n)) xs))) (seq 0 (n - 1)))
  ++ map (g (n - 1)%nat) (skipn ((n - 1) * (length xs / n)) xs).
Proof.
  intros Hn. unfold by_part. destruct n as [|m]; [lia|].
  replace (S m - 1)%nat with m by lia. rewrite seq_S, map_app, concat_app. simpl (map _ [_]).
  simpl concat at 2. rewrite app_nil_r. f_equal.
  - f_equal. apply map_ext_in. intros i Hi. apply in_seq in Hi. unfold part.
    replace (S m - 1)%nat with m by lia.
    destruct (Nat.ltb_spec i m); [reflexivity|lia].
  - unfold part. replace (S m - 1)%nat with m by lia. rewrite Nat.ltb_irrefl. reflexivity.
Qed.

Lemma by_part_length {A B} n (g : nat -> A -> B) xs : (0 < n)%nat -> length (by_part n g xs) = length xs.
Proof.
  intros Hn. rewrite by_part_split by auto. rewrite app_length, map_length, skipn_length.
  assert (H := div_mul_le (length xs) n Hn).
  rewrite blocks_length by nia. nia.
Qed.

Lemma by_part_nth {A B} n (g : nat -> A -> B) xs j d e :
  (0 < n)%nat -> (j < length xs)%nat ->
  nth j (by_part n g xs) e = g (block n (length xs) j) (nth j xs d).
Proof.
  intros Hn Hj. rewrite by_part_split by auto. assert (H := div_mul_le (length xs) n Hn).
  set (h := (length xs / n)%nat) in *. unfold block. fold h.
  assert (Hlen := blocks_length g xs h (n - 1) 0 ltac:(nia)).
  destruct (Nat.lt_ge_cases j ((n - 1) * h)) as [Hlt|Hge].
  - rewrite app_nth1 by lia. rewrite (blocks_nth g xs h (n - 1) 0 j d e) by nia.
    destruct (Nat.eqb_spec h 0) as [E|E]; [nia|]. simpl. f_equal.
    assert (j / h < n - 1)%nat by (apply Nat.div_lt_upper_bound; nia). lia.
  - rewrite app_nth2 by lia. rewrite Hlen.
    rewrite (map_nth_lt _ _ _ d) by (rewrite skipn_length; lia). rewrite nth_skipn_add. f_equal.
    + destruct (Nat.eqb_spec h 0) as [E|E]; [reflexivity|].
      assert (n - 1 <= j / h)%nat by (apply Nat.div_le_lower_bound; lia). lia.
    + f_equal. lia.
Qed.

Lemma poly2_by_part {A B} (g : nat -> A -> B) (xs : list A) :
  by_part 2 g xs = map (g 0%nat) (firstn (length xs / 2) xs) ++ map (g 1%nat) (skipn (length xs / 2) xs).
Proof.
  rewrite by_part_split by lia. cbn [Nat.sub seq map concat]. rewrite app_nil_r.
  rewrite Nat.mul_0_l, Nat.mul_1_l. reflexivity.
Qed.

Lemma by_part_map {A B C} n (g : nat -> B -> C) (f : A -> B) xs :
  by_part n g (map f xs) = by_part n (fun i x => g i (f x)) xs.
Proof.
  unfold by_part. f_equal. apply map_ext. intros i. unfold part. rewrite map_length.
  destruct (i <? n - 1)%nat; rewrite ?skipn_map, ?firstn_map, map_map; reflexivity.
Qed.

Lemma map_by_part {A B C} n (g : nat -> A -> B) (f : B -> C) xs :
  map f (by_part n g xs) = by_part n (fun i x => f (g i x)) xs.
Proof.
  unfold by_part. rewrite concat_map, map_map. f_equal. apply map_ext. intros i. apply map_map.
Qed.

(** Numeric functions. *)
Lemma one_exp_pos x : 0 < 1 + exp x.
Proof. assert (H := exp_pos x). lra. Qed.

Lemma tanh_exp x : tanh x = (exp x - exp (- x)) / (exp x + exp (- x)).
Proof.
  unfold tanh, sinh, cosh. assert (H := exp_pos x). assert (H' := exp_pos (- x)). field. lra.
Qed.

Lemma is_derive_tanh x : is_derive tanh x (1 - tanh x ^ 2).
Proof.
  apply (is_derive_ext (fun y => (exp y - exp (- y)) / (exp y + exp (- y)))).
  - intros t. symmetry. apply tanh_exp.
  - assert (H := exp_pos x). assert (H' := exp_pos (- x)). rewrite tanh_exp.
    auto_derive; [lra|]. field. lra.
Qed.

Lemma is_derive_softplus x : is_derive softplus x (/ (1 + exp (- x))).
Proof.
  unfold softplus. assert (H := exp_pos x). assert (H' := exp_pos (- x)).
  auto_derive; [lra|]. rewrite exp_Ropp. field. split; lra.
Qed.

Lemma is_derive_sigmoid x : is_derive sigmoid x (exp (- x) / (1 + exp (- x)) ^ 2).
Proof.
  unfold sigmoid. assert (H' := exp_pos (- x)). auto_derive; [lra|]. field. lra.
Qed.

Lemma is_derive_relu x : x <> 0 -> is_derive (fun y => Rmax 0 y) x (if Rlt_dec 0 x then 1 else 0).
Proof.
  intros Hx. destruct (Rlt_dec 0 x) as [H|H].
  - apply (is_derive_ext_loc (fun y => y)).
    + exists (mkposreal x H). intros y Hy. rewrite Rmax_right; auto.
      unfold ball in Hy; simpl in Hy; unfold AbsRing_ball, abs, minus, plus, opp in Hy; simpl in Hy.
      apply Rabs_def2 in Hy. lra.
    + auto_derive; auto.
  - assert (Hn : 0 < - x) by lra. apply (is_derive_ext_loc (fun y => 0)).
    + exists (mkposreal (- x) Hn). intros y Hy. rewrite Rmax_left; auto.
      unfold ball in Hy; simpl in Hy; unfold AbsRing_ball, abs, minus, plus, opp in Hy; simpl in Hy.
      apply Rabs_def2 in Hy. lra.
    + auto_derive; auto.
Qed.
