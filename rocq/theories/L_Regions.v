(** The sets of a configuration file are closed and bounded; polynomial (and
    trigonometric, exponential, tanh) right-hand sides with a network feedback are continuous. *)
From Coquelicot Require Import Coquelicot.
From Coq Require Import String Ascii Reals QArith Qreals Bool Arith ZArith Decimal Lra Lia List.
From Verif Require Import M_Syntax M_Activations M_Network M_Control M_Parser M_Variables S_Activations S_Domains S_Network S_Dynamics S_Certificates
  S_Parser S_Variables S_DomainParser S_Control S_Config L_Continuity L_Domains L_Network P_Stability.
Import ListNotations.
Local Open Scope list_scope.
Local Open Scope R_scope.

(** ** Regions *)
Lemma cont_open n h p b : cont_at n h p -> b < h p ->
  exists e, 0 < e /\ forall s, (forall i, (i < n)%nat -> Rabs (s i - p i) < e) -> b < h s.
Proof.
  intros Hc Hb. destruct (Hc (h p - b)) as (d & Hd & K); [lra|]. exists d. split; [exact Hd|].
  intros s Hs. specialize (K s Hs). apply Rabs_def2 in K. lra.
Qed.
Lemma closed_le n h b : (forall p, cont_at n h p) -> closed_set n (fun s => h s <= b).
Proof.
  intros Hc p Hp. destruct (cont_open n h p b (Hc p)) as (e & He & K); [lra|].
  exists e. split; [exact He|]. intros s Hs. specialize (K s Hs). lra.
Qed.
Lemma closed_ge n h b : (forall p, cont_at n h p) -> closed_set n (fun s => b <= h s).
Proof.
  intros Hc p Hp. destruct (cont_open n (fun s => - h s) p (- b)) as (e & He & K); [now apply cont_neg|lra|].
  exists e. split; [exact He|]. intros s Hs. specialize (K s Hs). lra.
Qed.
Lemma closed_and n D E : closed_set n D -> closed_set n E -> (forall s, D s \/ ~ D s) -> closed_set n (fun s => D s /\ E s).
Proof.
  intros HD HE Hdec p Hp. destruct (Hdec p) as [H|H].
  - destruct (HE p) as (e & He & K); [tauto|]. exists e. split; [exact He|]. intros s Hs [_ H2]. now apply (K s).
  - destruct (HD p H) as (e & He & K). exists e. split; [exact He|]. intros s Hs [H1 _]. now apply (K s).
Qed.
Lemma distance_cont n c p : length c = n -> cont_at n (distance c) p.
Proof.
  intros Hl. unfold distance. apply (cont_comp n sqrt (fun x => sum_below (length c) (fun j => (x j - nth j c 0) ^ 2))).
  - apply cont_sum. intros j Hj. apply cont_pow, cont_minus; [apply cont_proj; lia|apply cont_const].
  - apply continuity_pt_filterlim, continuity_pt_sqrt. apply sum_below_nonneg. intros j _. apply pow2_ge_0.
Qed.
Lemma region_closed n g : proper n g -> closed_set n (in_region g).
Proof.
  destruct g as [c r|lo hi|c ro ri]; unfold proper, in_region.
  - intros [Hl _]. apply closed_le. intros p. now apply distance_cont.
  - intros [Hl Hh]. rewrite Hl. assert (K : forall k, (k <= n)%nat -> closed_set n (fun x => forall i, (i < k)%nat -> nth i lo 0 <= x i <= nth i hi 0)).
    { induction k as [|k IH]; intros Hk p Hp.
      - exfalso. apply Hp. intros i Hi. lia.
      - assert (Dec : (forall i, (i < k)%nat -> nth i lo 0 <= p i <= nth i hi 0) \/ ~ (forall i, (i < k)%nat -> nth i lo 0 <= p i <= nth i hi 0)).
        { clear - lo hi p. induction k as [|k IH]; [left; intros; lia|]. destruct IH as [IH|IH].
          - destruct (Rle_dec (nth k lo 0) (p k)) as [H1|H1], (Rle_dec (p k) (nth k hi 0)) as [H2|H2];
              [left; intros i Hi; destruct (Nat.eq_dec i k) as [-> |]; [auto|apply IH; lia]|right; intros H; specialize (H k ltac:(lia)); lra..].
          - right. intros H. apply IH. intros i Hi. apply H. lia. }
        destruct Dec as [Hd|Hd].
        + assert (C : closed_set n (fun x => nth k lo 0 <= x k /\ x k <= nth k hi 0)).
          { apply closed_and; [apply (closed_ge n (fun x => x k))|apply (closed_le n (fun x => x k))|]; intros; try (apply cont_proj; lia).
            destruct (Rle_dec (nth k lo 0) (s k)); auto. }
          destruct (C p) as (e & He & K).
          { intros H. apply Hp. intros i Hi. destruct (Nat.eq_dec i k) as [-> |]; [exact H|apply Hd; lia]. }
          exists e. split; [exact He|]. intros s Hs H. apply (K s Hs), (H k). lia.
        + destruct (IH ltac:(lia) p Hd) as (e & He & K). exists e. split; [exact He|]. intros s Hs H. apply (K s Hs).
          intros i Hi. apply H. lia. }
    now apply K.
  - intros [Hl _]. apply closed_and; [apply closed_ge|apply closed_le|]; intros; try now apply distance_cont.
    destruct (Rle_dec ri (distance c s)); auto.
Qed.
Lemma square_below n (x : nat -> R) j : (j < n)%nat -> x j ^ 2 <= sum_below n (fun k => x k ^ 2).
Proof.
  induction n as [|n IH]; intros Hj; [lia|]. cbn [sum_below].
  assert (0 <= sum_below n (fun k => x k ^ 2)) by (apply sum_below_nonneg; intros; apply pow2_ge_0).
  assert (0 <= x n ^ 2) by apply pow2_ge_0.
  destruct (Nat.eq_dec j n) as [-> |Hn]; [lra|]. specialize (IH ltac:(lia)). lra.
Qed.
Lemma distance_coord c x i : (i < length c)%nat -> Rabs (x i - nth i c 0) <= distance c x.
Proof.
  intros Hi. unfold distance. rewrite <- sqrt_Rsqr_abs. apply sqrt_le_1_alt. unfold Rsqr.
  pose proof (square_below (length c) (fun j => x j - nth j c 0) i Hi) as H. cbn beta in H. lra.
Qed.
Lemma list_max (l : list R) : exists M, 0 <= M /\ forall i, Rabs (nth i l 0) <= M.
Proof.
  induction l as [|a l (M & HM & IH)].
  - exists 0. split; [lra|]. intros [|i]; cbn; rewrite Rabs_R0; lra.
  - exists (Rmax M (Rabs a)). split; [apply Rle_trans with M; [lra|apply Rmax_l]|].
    intros [|i]; cbn; [apply Rmax_r|]. apply Rle_trans with M; [apply IH|apply Rmax_l].
Qed.
Lemma region_bounded n g : proper n g -> exists rad, bounded_by n rad (in_region g).
Proof.
  assert (B : forall c r, 0 <= r -> exists rad, 0 <= rad /\ forall s, distance c s <= r -> forall i, (i < length c)%nat -> - rad <= s i <= rad).
  { intros c r Hr. destruct (list_max c) as (M & HM & K). exists (M + r). split; [lra|]. intros s Hs i Hi.
    pose proof (distance_coord c s i Hi) as H. specialize (K i).
    apply Rabs_le_between in K. assert (H' : Rabs (s i - nth i c 0) <= r) by lra. apply Rabs_le_between in H'. lra. }
  destruct g as [c r|lo hi|c ro ri]; unfold proper, in_region.
  - intros [Hl Hr]. destruct (B c r Hr) as (rad & H1 & H2). exists rad. split; [exact H1|]. intros s Hs i Hi. apply H2; [exact Hs|lia].
  - intros [Hl Hh]. destruct (list_max lo) as (M & HM & K), (list_max hi) as (M' & HM' & K').
    exists (M + M'). split; [lra|]. intros s Hs i Hi. specialize (Hs i ltac:(lia)). specialize (K i). specialize (K' i).
    apply Rabs_le_between in K. apply Rabs_le_between in K'. lra.
  - intros [Hl Hr]. destruct (B c ro ltac:(lra)) as (rad & H1 & H2). exists rad. split; [exact H1|].
    intros s Hs i Hi. apply H2; [apply Hs|lia].
Qed.

(** ** Continuity of the feedback *)
Lemma act_cont a w j x : continuous (act_fun a w j) x.
Proof.
  assert (T : forall x, ex_derive tanh x).
  { intros y. apply (ex_derive_ext (fun y => ((exp y - exp (- y)) / 2) / ((exp y + exp (- y)) / 2))); [intros z; reflexivity|].
    auto_derive. assert (E := exp_pos y). assert (E' := exp_pos (- y)). apply Rgt_not_eq. lra. }
  assert (SP : forall x, ex_derive softplus x).
  { intros y. unfold softplus. auto_derive. assert (E := exp_pos y). lra. }
  destruct a; try match goal with |- continuous (act_fun AReLU _ _) _ => fail 1 | _ =>
    apply (ex_derive_continuous (V := R_NormedModule)); cbn [act_fun] end.
  - auto_derive; auto.
  - cbn [act_fun]. apply (continuous_ext (fun x => (x + Rabs x) / 2)).
    + intros y. unfold Rmax, Rabs. destruct (Rle_dec 0 y), (Rcase_abs y); lra.
    + apply (continuous_mult (K := R_AbsRing) (fun x => x + Rabs x) (fun _ => / 2)); [|apply continuous_const].
      apply (continuous_plus (V := R_NormedModule)); [apply continuous_id|apply continuous_Rabs].
  - auto_derive; auto.
  - auto_derive; auto.
  - apply T.
  - apply (ex_derive_pow tanh 2). apply T.
  - unfold sigmoid. auto_derive. assert (E := exp_pos (- x)). apply Rgt_not_eq. lra.
  - apply SP.
  - apply (ex_derive_minus softplus (fun _ => ln 2)); [apply SP|auto_derive; auto].
  - apply (ex_derive_pow (fun x => softplus x - ln 2) 2). apply (ex_derive_minus softplus (fun _ => ln 2)); [apply SP|auto_derive; auto].
  - apply (ex_derive_ext (fun y => (exp y + exp (- y)) / 2 - 1)); [intros y; reflexivity|]. auto_derive; auto.
  - auto_derive; auto.
  - auto_derive; auto.
Qed.
Lemma neuron_cont n k l (y : state -> nat -> R) j p : (forall i, (i < k)%nat -> cont_at n (fun s => y s i) p) ->
  cont_at n (fun s => neuron k l (y s) j) p.
Proof.
  intros H. unfold neuron. apply (cont_plus n (fun s => sum_below k (fun i => weight_of l j i * y s i)) (fun _ => bias_of l j)); [|apply cont_const].
  apply cont_sum. intros i Hi. apply cont_mult; [apply cont_const|now apply H].
Qed.
Lemma hidden_cont n hs : forall k (y : state -> nat -> R) p, (forall i, (i < k)%nat -> cont_at n (fun s => y s i) p) ->
  forall i, (i < out_width k hs)%nat -> cont_at n (fun s => hidden_value k hs (y s) i) p.
Proof.
  induction hs as [|[l a] hs IH]; intros k y p H i Hi; cbn [hidden_value out_width] in *; [now apply H|].
  apply (IH (length (weight l)) (fun s i => act_fun a (length (weight l)) i (neuron k l (y s) i))); [|exact Hi].
  intros i' _. apply (cont_comp n (act_fun a (length (weight l)) i') (fun s => neuron k l (y s) i')); [now apply neuron_cont|apply act_cont].
Qed.
Lemma feedback_cont n k j p : cont_at n (fun s => feedback n k s j) p.
Proof.
  unfold feedback. apply neuron_cont. apply hidden_cont. intros i Hi. now apply cont_proj.
Qed.

(** ** Continuity of the right-hand side *)
Lemma nth_cont n (ls : list (state -> R)) d p : (forall h, In h ls -> cont_at n h p) ->
  cont_at n (fun s => nth d (map (fun h => h s) ls) 0) p.
Proof.
  intros H. destruct (le_lt_dec (length ls) d) as [L|L].
  - apply (cont_ext n (fun _ => 0)); [|apply cont_const]. intros s. rewrite nth_overflow; [reflexivity|now rewrite map_length].
  - apply (cont_ext n (fun s => nth d ls (fun _ => 0) s)); [|apply H, nth_In, L].
    intros s. now rewrite <- (map_nth (fun h => h s)).
Qed.
Lemma value_cont n i om k t p : usual i -> everywhere t ->
  cont_at n (fun s => value (component i (map s (seq 0 n)) (feedback_law n om k s)) t) p.
Proof.
  intros (Up & U1 & U2 & U3 & _ & U5).
  induction t as [q|[|] d|f t IH|t IH|t IH|o a IHa b IHb]; intros Ht; cbn [value i_var component i_fun i_pow].
  - apply cont_const.
  - apply (cont_ext n (fun s => nth (Nat.of_uint d) (map (fun h => h s) (map (fun j (s : state) => s j) (seq 0 n))) 0)).
    { intros s. rewrite map_map. reflexivity. }
    apply nth_cont. intros h Hh. apply in_map_iff in Hh. destruct Hh as (j & <- & Hj). apply in_seq in Hj. apply cont_proj. lia.
  - destruct om as [m|]; cbn [feedback_law].
    + apply (cont_ext n (fun s => nth (Nat.of_uint d) (map (fun h => h s) (map (fun j s => feedback n (rounded k) s j) (seq 0 m))) 0)).
      { intros s. rewrite map_map. reflexivity. }
      apply nth_cont. intros h Hh. apply in_map_iff in Hh. destruct Hh as (j & <- & Hj). apply feedback_cont.
    + apply (cont_ext n (fun _ => 0)); [|apply cont_const]. intros s. now destruct (Nat.of_uint d).
  - destruct Ht as [Hf Ht]. apply (cont_comp n (i_fun i f) _ p (IH Ht)).
    destruct Hf as [-> |[-> |[-> | ->]]]; rewrite ?U1, ?U2, ?U3, ?U5.
    + apply (unop_continuous USin). discriminate.
    + apply (unop_continuous UCos). discriminate.
    + apply (unop_continuous UExp). discriminate.
    + apply (unop_continuous UTanh). discriminate.
  - now apply IH.
  - apply cont_neg. now apply IH.
  - destruct o; cbn [everywhere] in Ht.
    + destruct Ht. apply cont_plus; auto.
    + destruct Ht. apply cont_minus; auto.
    + destruct Ht. apply cont_mult; auto.
    + destruct Ht as [Ha (q & -> & Hq)]. cbn [value]. apply cont_mult; [auto|apply cont_const].
    + destruct Ht as [Ha (m & ->)]. cbn [value].
      apply (cont_ext n (fun s => value (component i (map s (seq 0 n)) (feedback_law n om k s)) a ^ m)).
      { intros s. replace (Q2R (inject_Z (Z.of_nat m))) with (INR m); [now rewrite Up|].
        unfold Q2R, inject_Z. cbn. rewrite <- INR_IZR_INZ. field. }
      apply cont_pow; auto.
Qed.
Lemma system_cont i n om k trees j p : usual i -> Forall everywhere trees ->
  cont_at n (fun s => system_field i n trees (feedback_law n om k) s j) p.
Proof.
  intros Hi Ht. unfold system_field. apply value_cont; [exact Hi|].
  destruct (le_lt_dec (length trees) j) as [L|L]; [rewrite nth_overflow by lia; exact I|].
  rewrite Forall_forall in Ht. apply Ht, nth_In, L.
Qed.
