(** Property C35: trajectories from counterexamples. *)
From Coq Require Import Reals List Bool Arith Lra Lia.
From Verif Require Import M_Cegis M_Consolidator.
Import ListNotations.
Local Open Scope R_scope.

Section C35.
  Variables (vdot : point -> R) (grad : point -> point).

  Lemma Rltb_spec a b : Rltb a b = true <-> a < b.
  Proof. unfold Rltb. destruct (Rlt_dec a b); split; auto; discriminate. Qed.

  Lemma stop_false old new g : stop old new g = false <->
    old <= new /\ 1/100000 <= Rabs (old - new) /\ new <= 1000000 /\ Forall (fun d => Rabs d <= 100) g.
  Proof.
    unfold stop. rewrite !orb_false_iff. unfold Rltb at 1 2 3.
    assert (E : existsb (fun d => Rltb 100 (Rabs d)) g = false <-> Forall (fun d => Rabs d <= 100) g).
    { rewrite Forall_forall. split.
      - intros H d Hd. apply Rnot_lt_le. intros L.
        assert (existsb (fun d => Rltb 100 (Rabs d)) g = true); [|congruence].
        apply existsb_exists. exists d. split; auto. now apply Rltb_spec.
      - intros H. apply not_true_is_false. intros E. apply existsb_exists in E. destruct E as (d & Hd & L).
        apply Rltb_spec in L. specialize (H d Hd). lra. }
    rewrite E. destruct (Rlt_dec new old), (Rlt_dec (Rabs (old - new)) (1/100000)), (Rlt_dec 1000000 new);
      split; intros; repeat split; try tauto; try lra; intuition (try discriminate; lra).
  Qed.

  (** Conditions under which the walk goes on from [p]. *)
  Definition goes_on (old : R) (p : point) : Prop :=
    old + 1/100000 <= vdot p <= 1000000 /\ Forall (fun d => Rabs d <= 100) (grad p).
  Lemma goes_on_stop old p : stop old (vdot p) (grad p) = false <-> goes_on old p.
  Proof.
    rewrite stop_false. unfold goes_on. split.
    - intros (A & B & C & D). rewrite Rabs_left1 in B by lra. repeat split; auto; lra.
    - intros ((A & B) & D). rewrite Rabs_left1 by lra. repeat split; auto; lra.
  Qed.

  Lemma steps_spec k : forall old p,
    let l := p :: steps vdot grad k old p in
    (length l <= S k)%nat /\
    (forall i q q', nth_error l i = Some q -> nth_error l (S i) = Some q' ->
       q' = plus_scaled gamma q (grad q) /\
       goes_on (match i with O => old | S j => match nth_error l j with Some q0 => vdot q0 | None => 0 end end) q) /\
    ((length l < S k)%nat -> forall i q, length l = S i -> nth_error l i = Some q ->
       ~ goes_on (match i with O => old | S j => match nth_error l j with Some q0 => vdot q0 | None => 0 end end) q).
  Proof.
    induction k as [|k IH]; intros old p; cbn [steps].
    - split; [simpl; lia|]. split; [|simpl; lia]. intros [|i] q q' H H'; simpl in *; [discriminate|destruct i; discriminate].
    - destruct (stop old (vdot p) (grad p)) eqn:E.
      + split; [simpl; lia|]. split.
        * intros [|i] q q' H H'; simpl in *; [discriminate|destruct i; discriminate].
        * intros _ i q Hl Hq. simpl in Hl. replace i with 0%nat in * by lia. simpl in Hq. injection Hq as <-.
          intros G. apply goes_on_stop in G. congruence.
      + specialize (IH (vdot p) (plus_scaled gamma p (grad p))).
        cbn zeta in *. set (p' := plus_scaled gamma p (grad p)) in *. set (l := p' :: steps vdot grad k (vdot p) p') in *.
        destruct IH as (A & B & C). split; [simpl; simpl in A; lia|]. split.
        * intros [|i] q q' H H'; cbn [nth_error] in H, H'.
          -- injection H as <-. subst l. cbn [nth_error] in H'. injection H' as <-. split; [reflexivity|]. now apply goes_on_stop.
          -- destruct (B i q q' H H') as [B1 B2]. split; [exact B1|]. destruct i as [|i]; exact B2.
        * intros Hl i q Hi Hq. destruct i as [|i].
          -- simpl in Hi. subst l. simpl in Hi. lia.
          -- cbn [nth_error] in Hq. cbn [length] in Hl, Hi. assert (Hl' : (length l < S k)%nat) by lia.
             specialize (C Hl' i q ltac:(lia) Hq). destruct i as [|i]; exact C.
  Qed.
End C35.

(** * C35 *)
(** From 1 to 21 points, the first one the counterexample; each next point is one
    gradient step of size 0.05; along the way Vdot grows by at least 1e-5 per step, stays
    at most 1e6, and the gradient's entries stay within 100; the walk stops early only
    when one of these fails. *)
Theorem C35_trajectory :
  forall (vdot : point -> R) (grad : point -> point) p,
    let t := compute_trajectory vdot grad p in
    nth_error t 0 = Some p /\ (1 <= length t <= 21)%nat /\
    (forall i q q', nth_error t i = Some q -> nth_error t (i + 1) = Some q' ->
       q' = map (fun '(x, d) => x + 5/100 * d) (combine q (grad q)) /\
       vdot q <= 1000000 /\ Forall (fun d => Rabs d <= 100) (grad q)) /\
    (* Vdot increases, except possibly at the last point *)
    (forall i q q', nth_error t i = Some q -> nth_error t (i + 1) = Some q' -> (i + 2 < length t)%nat ->
       vdot q + 1/100000 <= vdot q') /\
    ((1 < length t)%nat -> -1 + 1/100000 <= vdot p) /\
    (* stopping early has a reason *)
    ((length t < 21)%nat -> forall q, nth_error t (length t - 1) = Some q ->
       (length t = 1%nat /\ vdot q < -1 + 1/100000) \/
       (exists q0, (2 <= length t)%nat /\ nth_error t (length t - 2) = Some q0 /\ vdot q < vdot q0 + 1/100000) \/
       1000000 < vdot q \/ Exists (fun d => 100 < Rabs d) (grad q)).
Proof.
  intros vdot grad p. cbn zeta. unfold compute_trajectory, max_steps, initial_old.
  assert (H := steps_spec vdot grad 20 (-1) p). cbn zeta in H. set (t := p :: steps vdot grad 20 (-1) p) in *.
  destruct H as (A & B & C).
  assert (L1 : (1 <= length t)%nat) by (unfold t; cbn [length]; lia).
  assert (H0 : nth_error t 0 = Some p) by reflexivity. clearbody t.
  split; [exact H0|]. split; [lia|]. split; [|split; [|split]].
  - intros i q q' H H'. rewrite Nat.add_1_r in H'. destruct (B i q q' H H') as [B1 [[B2 B3] B4]].
    split; [exact B1|]. split; auto.
  - intros i q q' H H' Hl. rewrite Nat.add_1_r in H'.
    assert (Hn : exists q2, nth_error t (S (S i)) = Some q2).
    { destruct (nth_error t (S (S i))) eqn:E; eauto. apply nth_error_None in E. lia. }
    destruct Hn as [q2 H2]. destruct (B (S i) q' q2 H' H2) as [_ [[G _] _]]. rewrite H in G. lra.
  - intros Hl. assert (Hn : exists q2, nth_error t 1 = Some q2).
    { destruct (nth_error t 1) eqn:E; eauto. apply nth_error_None in E. lia. }
    destruct Hn as [q2 H2]. destruct (B 0%nat p q2 H0 H2) as [_ [[G _] _]]. lra.
  - intros Hl q Hq. specialize (C Hl (length t - 1)%nat q ltac:(lia) Hq). unfold goes_on in C.
    assert (D : vdot q <= 1000000 \/ 1000000 < vdot q) by lra. destruct D as [D|D]; [|tauto].
    assert (F : Forall (fun d => Rabs d <= 100) (grad q) \/ Exists (fun d => 100 < Rabs d) (grad q)).
    { induction (grad q) as [|d g IH]; [left; constructor|].
      destruct (Rle_dec (Rabs d) 100); [|right; constructor; lra].
      destruct IH as [IH|IH]; [|left; constructor; auto|right; now constructor 2].
      intros G. apply C. destruct G as [G1 G2]. split; auto. }
    destruct F as [F|F]; [|tauto].
    destruct (length t - 1)%nat as [|j] eqn:Ej.
    + left. split; [lia|]. apply Rnot_le_lt. intros G. apply C. repeat split; auto; lra.
    + right; left. assert (Hn : exists q0, nth_error t j = Some q0).
      { destruct (nth_error t j) eqn:E; eauto. apply nth_error_None in E. lia. }
      destruct Hn as [q0 Hq0]. exists q0. split; [lia|]. split; [now replace (length t - 2)%nat with j by lia|].
      rewrite Hq0 in C. apply Rnot_le_lt. intros G. apply C. repeat split; auto; lra.
Qed.

Lemma steps_stop vdot grad k old p : stop old (vdot p) (grad p) = true -> steps vdot grad (S k) old p = [].
Proof. intros H. cbn [steps]. now rewrite H. Qed.
(** Vdot = x + c with gradient 1: from 0, and c = 0, the full 21 points; from -1 only one. *)
Example C35_example :
  let vdot := fun p : point => nth 0 p 0 in let grad := fun _ : point => [1] in
  length (compute_trajectory vdot grad [0]) = 21%nat /\
  compute_trajectory vdot grad [-1] = [[-1]].
Proof.
  cbn zeta. split.
  - set (vdot := fun p : point => nth 0 p 0). set (grad := fun _ : point => [1]).
    assert (H : forall k old x, old + 1/100000 <= x -> x + INR k * (5/100) <= 1000000 ->
              length (steps vdot grad k old [x]) = k).
    { induction k as [|k IH]; intros old x Ho Hx; [reflexivity|]. cbn [steps]. rewrite S_INR in Hx.
      assert (0 <= INR k) by apply pos_INR.
      replace (stop old (vdot [x]) (grad [x])) with false.
      - cbn [length]. f_equal. apply (IH x (x + gamma * 1)); unfold gamma; lra.
      - symmetry. apply goes_on_stop. unfold goes_on, vdot, grad. cbn. split; [lra|]. constructor; [|constructor].
        rewrite Rabs_R1. lra. }
    change (length (compute_trajectory vdot grad [0])) with (S (length (steps vdot grad max_steps initial_old [0]))).
    rewrite (H max_steps initial_old 0); [reflexivity| |]; unfold initial_old, max_steps; simpl; lra.
  - unfold compute_trajectory, max_steps. f_equal. apply steps_stop. unfold stop, initial_old. cbn [nth].
    replace (Rltb (Rabs (-1 - -1)) (1 / 100000)) with true; [now rewrite orb_true_r|].
    symmetry. apply Rltb_spec. replace (-1 - -1) with 0 by ring. rewrite Rabs_R0. lra.
Qed.
