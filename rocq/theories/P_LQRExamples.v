(** C70: the double integrator, [x' = y], [y' = u], with the default weights. *)
From Coquelicot Require Import Coquelicot.
From Coq Require Import Reals QArith List Lra Lia Arith Bool.
From Verif Require Import M_Syntax M_Linear S_Domains S_Certificates S_Dynamics S_Linear L_Calculus L_Topology L_Domains L_Network L_Frechet L_Quadratic L_LQR P_LQR.
Import ListNotations.
Local Close Scope Q_scope.
Local Open Scope R_scope.

Definition reciprocal (n : nat) (a : matrix) : option matrix :=
  if (n =? 1)%nat then if Req_EM_T (a 0%nat 0%nat) 0 then None else Some (fun _ _ => / a 0%nat 0%nat) else None.
Lemma reciprocal_inverts : finds_inverse reciprocal.
Proof.
  intros n a b. unfold reciprocal. destruct (Nat.eqb_spec n 1) as [->|]; [|discriminate]. destruct (Req_EM_T (a 0%nat 0%nat) 0) as [|Ne]; [discriminate|].
  intros H. injection H as <-. intros [|i] [|j] Hi Hj; try lia. cbn. split; field; exact Ne.
Qed.
Definition entries (l : list (R * R)) : bool := forallb (fun p => if Req_EM_T (fst p) (snd p) then true else false) l.
Lemma entries_eq l p : entries l = true -> In p l -> fst p = snd p.
Proof. intros H Hp. unfold entries in H. rewrite forallb_forall in H. specialize (H p Hp). now destruct (Req_EM_T (fst p) (snd p)). Qed.
Definition integrator_P : matrix := of_rows [[sqrt 3; 1]; [1; sqrt 3]].
(** Solves the equation for the double integrator only. *)
Definition integrator_care (n k : nat) (A B Q Rm : matrix) : option matrix :=
  if ((n =? 2) && (k =? 1))%nat && entries [(A 0%nat 0%nat, 0); (A 0%nat 1%nat, 1); (A 1%nat 0%nat, 0); (A 1%nat 1%nat, 0); (B 0%nat 0%nat, 0); (B 1%nat 0%nat, 1);
    (Q 0%nat 0%nat, 1); (Q 0%nat 1%nat, 0); (Q 1%nat 0%nat, 0); (Q 1%nat 1%nat, 1); (Rm 0%nat 0%nat, 1)]
  then Some integrator_P else None.
Lemma sqrt3 : sqrt 3 * sqrt 3 = 3. Proof. apply sqrt_sqrt. lra. Qed.
Lemma integrator_care_solves : solves_riccati integrator_care.
Proof.
  intros n k A B Q Rm P. unfold integrator_care. destruct (Nat.eqb_spec n 2) as [->|]; [|discriminate]. destruct (Nat.eqb_spec k 1) as [->|]; [|discriminate]. cbn [andb].
  match goal with |- context [entries ?l] => destruct (entries l) eqn:E; [|discriminate]; set (es := l) in E end. intros H Ri Hi. injection H as <-.
  assert (F : forall a b, In (a, b) es -> a = b) by (intros a b Hin; exact (entries_eq es (a, b) E Hin)).
  assert (I := proj1 (Hi 0%nat 0%nat ltac:(lia) ltac:(lia))). cbn in I. rewrite (F (Rm 0%nat 0%nat) 1) in I by (cbn; tauto).
  assert (RI : Ri 0%nat 0%nat = 1) by lra. assert (S3 := sqrt3).
  split; [intros [|[|i]] [|[|j]] Hi' Hj'; try lia; reflexivity|].
  intros [|[|i]] [|[|j]] Hi' Hj'; try lia; cbn; rewrite ?(F (A 0%nat 0%nat) 0), ?(F (A 0%nat 1%nat) 1), ?(F (A 1%nat 0%nat) 0), ?(F (A 1%nat 1%nat) 0), ?(F (B 0%nat 0%nat) 0), ?(F (B 1%nat 0%nat) 1),
    ?(F (Q 0%nat 0%nat) 1), ?(F (Q 0%nat 1%nat) 0), ?(F (Q 1%nat 0%nat) 0), ?(F (Q 1%nat 1%nat) 1), ?RI by (cbn; tauto); lra.
Qed.
Definition integrator_A : matrix := of_rows [[0; 1]; [0; 0]].
Definition integrator_B : matrix := of_rows [[0]; [1]].
Definition integrator : lqr := {| q_n := 2; q_A := integrator_A; q_nu := 1; q_B := integrator_B; q_Q := eye; q_R := eye |}.
Lemma integrator_solution : integrator_care 2 1 integrator_A integrator_B eye eye = Some integrator_P.
Proof.
  unfold integrator_care. match goal with |- context [entries ?l] => assert (E : entries l = true) end; [|rewrite E; reflexivity].
  unfold entries. rewrite forallb_forall. intros [a b] Hin. cbn in Hin. repeat (destruct Hin as [Hin|Hin]; [injection Hin as <- <-; cbn; destruct (Req_EM_T _ _); [reflexivity|lra]|]). destruct Hin.
Qed.
Lemma definite2 : positive_definite 2 integrator_P.
Proof.
  intros v (i & Hi & Nz). unfold quadratic, bilinear, integrator_P, of_rows. cbn. assert (S3 := sqrt3). assert (P3 := sqrt_lt_R0 3 ltac:(lra)). set (r := sqrt 3) in *.
  assert (B : 1 < r) by nra.
  assert (Y : 0 < v 0%nat * v 0%nat + v 1%nat * v 1%nat) by (destruct i as [|[|i]]; try lia; nra).
  assert (Z : 0 <= (v 0%nat + v 1%nat) * (v 0%nat + v 1%nat)) by apply Rle_0_sqr. nra.
Qed.
Lemma eye_definite n : positive_definite n eye.
Proof.
  intros v (i & Hi & Nz). destruct (C70_construction n eye n 0 eye None None) as [_ H].
  destruct (LQR n eye n 0 eye None None) as [l|] eqn:El.
  - destruct (H l eq_refl) as (_ & _ & E & _). specialize (E eq_refl v). assert (Eq : q_Q l = eye) by (apply lqr_parts in El; tauto). rewrite Eq in E. rewrite E.
    apply Rlt_le_trans with (sum_below (S i) (fun i => v i * v i)).
    + cbn [sum_below]. assert (0 <= sum_below i (fun i => v i * v i)) by (apply sum_below_nonneg; intros; apply Rle_0_sqr). nra.
    + apply L_Eigen.sum_below_nneg_le; [lia|]. intros; apply Rle_0_sqr.
  - apply (proj1 (C70_construction n eye n 0 eye None None)) in El. contradiction.
Qed.
Lemma eye_symmetric n : symmetric n eye. Proof. intros i j _ _. unfold eye. now rewrite Nat.eqb_sym. Qed.
Lemma eye_semidefinite n : positive_semidefinite n eye.
Proof.
  intros v. unfold quadratic. rewrite bilinear_vdot. apply sum_below_nonneg. intros i Hi. unfold linear, eye. rewrite sum_below_delta by exact Hi. apply Rle_0_sqr.
Qed.
(** The gain is [1, sqrt 3], and it stabilises the system and also [x' = y], [y' = x^2 + u]. *)
Example C70_integrator :
  exists K, solve integrator_care reciprocal integrator = Some K /\ K 0%nat 0%nat = 1 /\ K 0%nat 1%nat = sqrt 3 /\
    (exists r, 0 < r /\ decays 2 (linear 2 (feedback_matrix 1 integrator_A integrator_B K)) r) /\
    attractive 2 (fun s i => match i with O => s 1%nat | _ => s 0%nat * s 0%nat + (- (K 0%nat 0%nat * s 0%nat + K 0%nat 1%nat * s 1%nat)) end).
Proof.
  assert (Hl : LQR 2 integrator_A 2 1 integrator_B None None = Some integrator) by reflexivity.
  destruct (solve integrator_care reciprocal integrator) as [K|] eqn:E.
  2: { exfalso. unfold solve in E. cbn [q_n q_nu q_A q_B q_Q q_R integrator] in E. rewrite integrator_solution in E. unfold M_Activations.option_bind in E.
       destruct (reciprocal 1 eye) as [Ri|] eqn:Er; [discriminate E|]. unfold reciprocal in Er. cbn [Nat.eqb] in Er.
       destruct (Req_EM_T (eye 0%nat 0%nat) 0) as [X|X]; [cbn in X; lra|discriminate Er]. }
  exists K. split; [reflexivity|].
  assert (Kv : K 0%nat 0%nat = 1 /\ K 0%nat 1%nat = sqrt 3).
  { destruct (C70_gain _ _ 2 1 2 integrator_A integrator_B None None integrator K reciprocal_inverts integrator_care_solves Hl E) as (P & Ri & HP & _ & _ & H).
    cbn [q_Q q_R integrator] in HP. rewrite integrator_solution in HP. injection HP as <-.
    assert (H0 := H 0%nat 0%nat ltac:(lia) ltac:(lia)). assert (H1 := H 0%nat 1%nat ltac:(lia) ltac:(lia)). cbn in H0, H1. split; lra. }
  split; [tauto|]. split; [tauto|].
  destruct (C70_stabilising _ _ 2 1 2 integrator_A integrator_B None None integrator K integrator_P reciprocal_inverts integrator_care_solves Hl E integrator_solution (eye_symmetric 1) (eye_semidefinite 1) (eye_definite 2)) as [D _].
  split; [exact (D definite2)|].
  destruct (C70_nonlinear _ _ 2 1 2 integrator_A integrator_B None None integrator K integrator_P reciprocal_inverts integrator_care_solves Hl E integrator_solution (eye_symmetric 1) (eye_semidefinite 1) (eye_definite 2) definite2
    (fun s u i => match i with O => s 1%nat | _ => s 0%nat * s 0%nat + u 0%nat end)) as (_ & _ & At).
  - intros e He. exists e. split; [exact He|]. intros s u Hs Hu i Hi. assert (M := maxnorm_ge 2 s 0%nat ltac:(lia)). assert (Mu := maxnorm_nonneg 1 u). assert (Mn := maxnorm_nonneg 2 s). assert (H0 := Hs 0%nat ltac:(lia)).
    destruct i as [|[|i]]; try lia; cbn [sum_below].
    + unfold integrator_A, integrator_B, of_rows. cbn [nth]. match goal with |- Rabs ?v <= _ => replace v with 0 by ring end. rewrite Rabs_R0. nra.
    + unfold integrator_A, integrator_B, of_rows. cbn [nth]. match goal with |- Rabs ?v <= _ => replace v with (s 0%nat * s 0%nat) by ring end. rewrite Rabs_mult. assert (A0 := Rabs_pos (s 0%nat)). nra.
  - destruct At as (d & Hd & H). exists d. split; [exact Hd|]. intros x Hx. apply H. intros t Ht i Hi. specialize (Hx t Ht i Hi). destruct i as [|[|i]]; [exact Hx| |lia].
    cbn beta iota in Hx |- *. unfold linear. cbn [sum_below]. rewrite Rplus_0_l. exact Hx.
Qed.
