(** C31-C33: runs of the loop that meet the hypotheses, with a learner that learns from the samples. *)
From Coq Require Import Reals List Bool Arith ZArith Lia.
From Verif Require Import M_Syntax M_Certificates M_Verifier M_Activations M_Cegis S_Cegis P_Cegis.
Import ListNotations.

(** The learner proposes the number of samples of XD; a proposal below [goal] has a
    counterexample 2, with a trajectory of one point; the sublevel search fails. *)
Definition counting (ty : cert_type) (goal : nat) (budget : Z) : components nat nat :=
  {| c_type := ty; c_double := false; c_control := false; c_max_iters := budget; c_f := fun _ x => map Ropp x;
     c_learn := fun _ _ _ S _ => Some (length (rows XD S)); c_translate := fun _ p => Some p;
     c_verify := fun _ p _ => if p <? goal then Some (false, [(XD, [[2%R]])]) else Some (true, [(XD, [])]);
     c_trajectory := fun _ _ _ x => Some [x]; c_stay := fun _ _ _ => Some false; c_estimate_beta := fun _ _ => Some tt |}.
Definition one_sample : dict := [(XD, [[1%R]])].
Lemma counting_returns ty goal budget : components_return (counting ty goal budget).
Proof.
  unfold components_return. cbn -[Nat.ltb]. do 2 (split; [discriminate|]). split; [intros it p c; destruct (p <? goal); discriminate|].
  do 2 (split; [discriminate|]). discriminate.
Qed.
Lemma counting_cex ty goal budget : cex_labels_ok (counting ty goal budget) one_sample.
Proof.
  intros it p c found cex H. cbn -[Nat.ltb] in H.
  assert (E : exists l, cex = [(XD, l)]) by (destruct (p <? goal); injection H as <- <-; eauto).
  destruct E as [l ->]. split; [repeat constructor; cbn; tauto|].
  intros lb Hl. unfold rows, dlookup in Hl. cbn in Hl. destruct lb; cbn in Hl; try (now elim Hl). now left.
Qed.
(** The state of the second iteration. *)
Definition second_state (ty : cert_type) (budget : Z) : @cstate nat nat :=
  {| st_params := 1; st_S := [(XD, [[1%R]; [2%R]; [2%R]])];
     st_Sdot := [(XD, [[(- 1)%R]; [(- 2)%R]; [(- 2)%R]])]; st_V := Some 1; st_found := false; st_timed_out := false;
     st_cex := [(XD, [[2%R]; [2%R]])]; st_trajectory := [[2%R]]; st_frozen := false |}.
Lemma counting_step ty goal budget : 1 < goal -> budget <> 0%Z ->
  visited (counting ty goal budget) 0 one_sample 1 (second_state ty budget).
Proof.
  intros Hg Hb. change 1 with (0 + 1) at 1. eapply visited_next; [apply visited_first|].
  unfold iterate. cbn -[Nat.ltb]. replace (1 <? goal) with true by (symmetry; now apply Nat.ltb_lt).
  cbn -[Nat.ltb]. destruct (Z.eqb_spec budget 0); [contradiction|]. reflexivity.
Qed.

(** Three samples are enough in the second of at most six iterations; the budget of a harder search runs out. *)
Example C31_example :
  (0 <= c_max_iters (counting LYAPUNOV 3 5))%Z /\ components_return (counting LYAPUNOV 3 5) /\ cex_labels_ok (counting LYAPUNOV 3 5) one_sample /\
  (exists r, solve (counting LYAPUNOV 3 5) 6 0 one_sample = Some (Some r) /\ r_res r = true /\ r_iters r = 2 /\ r_N_data r = 3) /\
  (exists r, solve (counting LYAPUNOV 100 5) 6 0 one_sample = Some (Some r) /\ r_res r = false /\ r_iters r = 6 /\ r_N_data r = 11).
Proof.
  split; [cbn; lia|]. split; [apply counting_returns|]. split; [apply counting_cex|].
  split; eexists; (split; [vm_compute; reflexivity|repeat split]).
Qed.
(** A negative budget and a learner that never succeeds. *)
Example C31_negative_example : let k := {| c_type := LYAPUNOV; c_double := false; c_control := false; c_max_iters := -1; c_f := fun (_ : nat) (x : point) => x;
     c_learn := fun _ _ _ S _ => Some (length (rows XD S)); c_translate := fun _ p => Some p; c_verify := fun _ p (_ : nat) => Some (false, [(XD, [[2%R]])]);
     c_trajectory := fun _ _ _ _ => Some []; c_stay := fun _ _ _ => Some false; c_estimate_beta := fun _ _ => Some tt |} in
  (c_max_iters k < 0)%Z /\ components_return k /\ cex_labels_ok k one_sample /\
  (forall it q c found cex, c_verify k it q c = Some (found, cex) -> found = false).
Proof.
  cbv zeta. split; [cbn; lia|]. split; [unfold components_return; cbn; do 5 (split; [discriminate|]); discriminate|]. split.
  - intros it p c found cex H. injection H as <- <-. split; [repeat constructor; cbn; tauto|].
    intros lb Hl. unfold rows, dlookup in Hl. cbn in Hl. destruct lb; cbn in Hl; try (now elim Hl). now left.
  - intros it q c found cex H. now injection H as <- _.
Qed.
(** The proposal of the second iteration is the first that is verified. *)
Example C32_example : let k := counting LYAPUNOV 3 5 in let st := second_state LYAPUNOV 5 in
  visited k 0 one_sample 1 st /\ components_return k /\ cex_labels_ok k one_sample /\
  c_learn k 1 (st_frozen st) (st_params st) (st_S st) (st_Sdot st) = Some 3 /\ c_translate k 1 3 = Some 3 /\
  c_verify k 1 3 3 = Some (true, [(XD, [])]) /\ (c_type k = RSWS -> c_stay k 1 3 3 = Some true) /\
  exists r, solve k 2 0 one_sample = Some (Some r) /\ r_res r = true /\ r_learned r = 3.
Proof.
  cbv zeta. split; [apply counting_step; [lia|discriminate]|]. split; [apply counting_returns|]. split; [apply counting_cex|].
  repeat split; try discriminate. eexists. split; [vm_compute; reflexivity|repeat split].
Qed.
(** The same for RSWA, where the failing sublevel search is not asked; for RSWS it is, and the search goes on until the budget is used. *)
Example C32_rswa_example :
  (let k := counting RSWA 3 5 in let st := second_state RSWA 5 in
   c_type k = RSWA /\ visited k 0 one_sample 1 st /\ components_return k /\ cex_labels_ok k one_sample /\
   c_learn k 1 (st_frozen st) (st_params st) (st_S st) (st_Sdot st) = Some 3 /\ c_translate k 1 3 = Some 3 /\
   c_verify k 1 3 3 = Some (true, [(XD, [])]) /\ c_stay k 1 3 3 = Some false) /\
  exists r, solve (counting RSWS 3 5) 6 0 one_sample = Some (Some r) /\ r_res r = false /\ r_iters r = 6 /\ r_N_data r = 3.
Proof.
  split.
  - cbv zeta. split; [reflexivity|]. split; [apply counting_step; [lia|discriminate]|]. split; [apply counting_returns|]. split; [apply counting_cex|].
    repeat split.
  - eexists. split; [vm_compute; reflexivity|repeat split].
Qed.
(** The first iteration adds its counterexample and the trajectory to the samples. *)
Example C33_example : let k := counting LYAPUNOV 3 5 in let st := init_state k 0 one_sample in let st' := second_state LYAPUNOV 5 in
  cex_labels_ok k one_sample /\ NoDup (keys one_sample) /\ visited k 0 one_sample 0 st /\ visited k 0 one_sample (0 + 1) st' /\
  (forall q q' x, c_f k q x = c_f k q' x) /\
  rows XD (st_S st) = [[1%R]] /\ rows XD (st_S st') = [[1%R]; [2%R]; [2%R]] /\
  exists r, solve k 6 0 one_sample = Some (Some r) /\ total one_sample = 1 /\ r_N_data r = 3.
Proof.
  cbv zeta. split; [apply counting_cex|]. split; [repeat constructor; cbn; tauto|]. split; [apply visited_first|].
  split; [apply counting_step; [lia|discriminate]|]. split; [reflexivity|]. split; [reflexivity|]. split; [reflexivity|].
  eexists. split; [vm_compute; reflexivity|repeat split].
Qed.
