(** C69: the hypotheses are met: a benchmark with a defective matrix, and an oscillator. *)
From Coquelicot Require Import Coquelicot.
From Coq Require Import String Reals QArith Qreals List Lra Lia Arith Bool.
From Coquelicot Require Import Complex.
From Verif Require Import M_Syntax M_Model M_Linear M_Benchmarks S_Model S_Domains S_Dynamics S_Linear L_Frechet P_Linear P_LinearExamples L_Eigen P_Eigen.
Import ListNotations.
Local Close Scope Q_scope.
Local Open Scope R_scope.

(** NonPoly3: [x' = -3 x - 0.1 x y^3], [y' = -y + z], [z' = -z]. *)
Definition nonpoly3_rows : list (list R) := [[Q2R (-3); Q2R 0; Q2R 0]; [Q2R 0; Q2R (-1); Q2R 1]; [Q2R 0; Q2R 0; Q2R (-1)]].
Example C69_nonpoly3_rows : linearise folded NonPoly3 = Some nonpoly3_rows.
Proof. vm_compute. reflexivity. Qed.
Definition nonpoly3_eigvals (_ : nat) (_ : matrix) : list C := [RtoC (-3); RtoC (-1); RtoC (-1)].
Lemma Q2R_m1 : Q2R (-1) = -1. Proof. unfold Q2R. cbn. lra. Qed.
Lemma Q2R_m3 : Q2R (-3) = -3. Proof. unfold Q2R. cbn. lra. Qed.
Lemma triangular n (a : matrix) l : List.length l = n -> (forall i j, (j < i < n)%nat -> a i j = 0) -> (forall k, (k < n)%nat -> RtoC (a k k) = nth k l (RtoC 0)) -> eigenvalues n a l.
Proof.
  intros Ll Tr Di. split; [exact Ll|]. exists identity, identity, (fun i j => RtoC (a i j)). split; [|split; [|split; [|split]]].
  - intros i j Hi Hj. now rewrite cproduct_id_l.
  - intros i j Hi Hj. now rewrite cproduct_id_l.
  - intros i j Hi Hj. now rewrite cproduct_id_l, cproduct_id_r.
  - intros i j H. now rewrite Tr.
  - exact Di.
Qed.
Lemma nonpoly3_eigenvalues : eigenvalues 3 (of_rows nonpoly3_rows) (nonpoly3_eigvals 3 (of_rows nonpoly3_rows)).
Proof.
  apply triangular; [reflexivity| |].
  - intros i j H. assert (A : (i = 1 \/ i = 2)%nat) by lia. destruct A as [->| ->]; destruct j as [|[|j]]; try lia; cbn; apply Q2R_zero.
  - intros [|[|[|k]]] Hk; cbn; try lia; now rewrite ?Q2R_m1, ?Q2R_m3.
Qed.
Example C69_nonpoly3 :
  is_stable nonpoly3_eigvals 3 (of_rows nonpoly3_rows) = true /\ get_worst_pole nonpoly3_eigvals 3 (of_rows nonpoly3_rows) = Some (-1) /\
  stable 3 (autonomous NonPoly3 3) /\ attractive 3 (autonomous NonPoly3 3) /\ decays_locally 3 (autonomous NonPoly3 3) (1 / 2) /\
  is_sufficiently_stable nonpoly3_eigvals 3 (of_rows nonpoly3_rows) = false.
Proof.
  assert (S : is_stable nonpoly3_eigvals 3 (of_rows nonpoly3_rows) = true) by (apply stable_spec; intros z [<-|[<-|[<-|[]]]]; cbn; lra).
  assert (W : get_worst_pole nonpoly3_eigvals 3 (of_rows nonpoly3_rows) = Some (-1)) by (cbn; f_equal; rewrite (Rmax_right (-3) (-1)), Rmax_left by lra; reflexivity).
  destruct (C69_model folded nonpoly3_eigvals NonPoly3 3 nonpoly3_rows folded_keeps eq_refl eq_refl eq_refl) as (H1 & _ & H3).
  - intros e [<-|[<-|[<-|[]]]]; cbn; tauto.
  - exact C69_nonpoly3_rows.
  - exact nonpoly3_eigenvalues.
  - split; [exact S|]. split; [exact W|]. destruct (H1 S). split; [assumption|]. split; [assumption|]. split; [apply (H3 (-1)); [exact W|lra]|].
    destruct (is_sufficiently_stable nonpoly3_eigvals 3 (of_rows nonpoly3_rows)) eqn:E; [|reflexivity].
    rewrite sufficient_spec in E. specialize (E (RtoC (-1)) ltac:(cbn; tauto)). cbn in E. lra.
Qed.
(** The oscillator [x' = - y], [y' = x]. *)
Definition turn : matrix := of_rows [[0; -1]; [1; 0]].
Definition turn_eigvals (_ : nat) (_ : matrix) : list C := [(0, 1); (0, -1)].
Lemma turn_eigenvalues : eigenvalues 2 turn (turn_eigvals 2 turn).
Proof.
  split; [reflexivity|].
  exists (fun i j => match i, j with O, _ => (1, 0) | _, O => (0, -1) | _, _ => (0, 1) end),
    (fun i j => match i, j with _, O => (1 / 2, 0) | O, _ => (0, 1 / 2) | _, _ => (0, -1 / 2) end),
    (fun i j => match i, j with O, O => (0, 1) | S O, S O => (0, -1) | _, _ => (0, 0) end).
  split; [|split; [|split; [|split]]].
  - intros [|[|i]] [|[|j]] Hi Hj; try lia; apply injective_projections; cbn; lra.
  - intros [|[|i]] [|[|j]] Hi Hj; try lia; apply injective_projections; cbn; lra.
  - intros [|[|i]] [|[|j]] Hi Hj; try lia; apply injective_projections; cbn; lra.
  - intros [|[|i]] [|[|j]] H; try lia; reflexivity.
  - intros [|[|k]] H; try lia; reflexivity.
Qed.
Example C69_oscillator : is_stable turn_eigvals 2 turn = false /\ ~ attractive 2 (linear 2 turn) /\ get_worst_pole turn_eigvals 2 turn = Some 0.
Proof.
  assert (S : is_stable turn_eigvals 2 turn = false).
  { destruct (is_stable turn_eigvals 2 turn) eqn:E; [|reflexivity]. rewrite stable_spec in E. specialize (E (0, 1) ltac:(cbn; tauto)). cbn in E. lra. }
  split; [exact S|]. split.
  - intros A. apply (proj1 (C69_is_stable turn_eigvals 2 turn turn_eigenvalues)) in A. congruence.
  - cbn. now rewrite Rmax_left by lra.
Qed.
