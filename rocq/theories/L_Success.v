(** From a successful verification to unsatisfiable conditions. *)
From Coq Require Import Reals QArith List Bool Arith.
From Verif Require Import M_Syntax M_Certificates M_Verifier S_Verifier S_Certificates S_Success
  L_Holds L_Verifier L_Table P_Verifier.
Import ListNotations.
Local Open Scope nat_scope.

Lemma certified_refuted gs : distinct_labels gs -> certified gs -> refuted gs.
Proof.
  intros Hd (be & noise & [Hs Hx] & Hf) g l f Hg Hl.
  apply In_nth_error in Hg as Hi. destruct Hi as [i Hi].
  apply In_nth_error in Hl as Hj. destruct Hj as [j Hj].
  apply (Hs (call_number gs i j) g l f Hg Hl).
  apply (verify_found_unsat be noise gs Hx Hd Hf i j l). now exists g.
Qed.

(** Conversely, refuted conditions can be certified (by a solver that knows them). *)
Lemma refuted_certified gs : distinct_labels gs -> refuted gs -> certified gs.
Proof.
  intros Hd Hr.
  exists (smt_backend (fun _ => table (map snd (concat gs)))), (fun _ _ _ => 0%R).
  assert (Hin : forall g l f, In g gs -> In (l, f) g -> In f (map snd (concat gs))).
  { intros g l f Hg Hl. apply in_map_iff. exists (l, f). split; auto.
    apply in_concat. now exists g. }
  split; [split|].
  - intros k g l f Hg Hl _. exact (Hr g l f Hg Hl).
  - intros k f. simpl. destruct (table _ f); simpl; congruence.
  - apply verify_found_complete; auto. intros i j l f (g & Hg & Hf). simpl.
    rewrite table_hit; auto. apply nth_error_In in Hg. apply nth_error_In in Hf.
    now apply (Hin g l f).
Qed.

(** A sound SMT solver is trustworthy. *)
Lemma smt_trustworthy solve gs : unsat_sound solve -> trustworthy (smt_backend solve) gs.
Proof.
  intros H. split; intros k.
  - intros g l f _ _. simpl. intros E. apply (H k). destruct (solve k f); easy.
  - intros f. simpl. destruct (solve k f); simpl; congruence.
Qed.

(** So is dReal when every condition confines the state to |x_i| < 1000. *)
Lemma dreal_trustworthy check n gs :
  dreal_sound check -> dreal_boxes_sane check n ->
  (forall g l f, In g gs -> In (l, f) g ->
     forall s, holds s f -> forall i, i < n -> (-1000 < s i < 1000)%R) ->
  trustworthy (dreal_backend check (new_vars n)) gs.
Proof.
  intros Hs Hb Hc. split.
  - intros k g l f Hg Hl. simpl. apply C05_dreal_sound_on_bounded_conditions; auto.
    exact (Hc g l f Hg Hl).
  - intros k f. simpl. unfold dreal_solve.
    destruct (check k 0 f) as [b|] eqn:E0; [|discriminate].
    cbn [dreal_is_sat andb]. destruct (dreal_within_bounds (Some b)) eqn:Ew; cbn [negb].
    + intros _. unfold dreal_is_unsat. now rewrite Ew.
    + destruct (check k 1 _) as [b'|] eqn:E1; [|discriminate].
      intros _. apply Hb in E1. unfold dreal_is_unsat. now rewrite E1.
Qed.
