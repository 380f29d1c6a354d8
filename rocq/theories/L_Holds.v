(** Basic semantic lemmas. *)
From Coq Require Import Reals QArith Qreals List Lra Lia Arith.
From Verif Require Import M_Syntax M_Certificates.
Import ListNotations.
Local Open Scope R_scope.

Lemma holds_fand s l : holds s (fand l) <-> Forall (holds s) l.
Proof.
  induction l as [|f l IH]; simpl.
  - split; auto.
  - rewrite IH. split; [intros []; constructor; auto | inversion 1; auto].
Qed.

Lemma holds_for s l : holds s (for_ l) <-> Exists (holds s) l.
Proof.
  induction l as [|f l IH]; simpl.
  - split; [easy | inversion 1].
  - rewrite IH. split; [intros []; [now left|now right] | inversion 1; auto].
Qed.

Lemma Q2R_0 : Q2R 0 = 0.
Proof. unfold Q2R; simpl; lra. Qed.

Lemma Q2R_1 : Q2R 1 = 1.
Proof. unfold Q2R; simpl; lra. Qed.

Lemma eval_E0 s : eval s E0 = 0.
Proof. apply Q2R_0. Qed.

Lemma Q2R_gamma : Q2R gamma = 1/100.
Proof. unfold gamma, Q2R; simpl; lra. Qed.

Lemma eval_new_vars s n : map (eval s) (new_vars n) = map s (seq 0 n).
Proof. unfold new_vars. rewrite map_map. apply map_ext. reflexivity. Qed.

Lemma Forall_map_iff {A B} (P : B -> Prop) (f : A -> B) l :
  Forall P (map f l) <-> Forall (fun a => P (f a)) l.
Proof. induction l; simpl; split; intros H; try constructor; inversion H; subst; auto; now apply IHl. Qed.

Lemma Forall_seq (P : nat -> Prop) n : Forall P (seq 0 n) <-> forall i, (i < n)%nat -> P i.
Proof.
  rewrite Forall_forall. split; intros H i Hi.
  - apply H. apply in_seq. lia.
  - apply H. apply in_seq in Hi. lia.
Qed.
