(** C60: training makes at most 1000 optimiser steps per call and stops early exactly when the
    network at hand passes its test. *)
From Coq Require Import QArith Qabs List Bool Arith ZArith Lia.
From Verif Require Import M_Syntax M_Certificates M_Verifier M_Network M_Learner M_Cegis M_Fossil M_Double S_Loops.
Import ListNotations.
Local Open Scope nat_scope.

Fixpoint steps {A} (step : nat -> A -> A) (t m : nat) (a : A) : A :=
  match m with O => a | S m => steps step (t + 1) m (step t a) end.
Lemma steps_app {A} (step : nat -> A -> A) m : forall t a, steps step t (m + 1) a = step (t + m) (steps step t m a).
Proof.
  induction m as [|m IH]; intros t a; cbn [steps Nat.add]; [now rewrite Nat.add_0_r|].
  rewrite IH. f_equal. lia.
Qed.
Lemma steps_after {A} (step : nat -> A -> A) a k : steps step 0 k a = after step a k.
Proof.
  induction k as [|k IH]; [reflexivity|]. replace (S k) with (k + 1) by lia. rewrite steps_app. cbn [Nat.add].
  replace (k + 1) with (S k) by lia. cbn [after]. now rewrite <- IH.
Qed.
(** The general loop. *)
Fixpoint until {A} (stop : nat -> A -> bool) (step : nat -> A -> A) (t loops : nat) (a : A) : A :=
  match loops with
  | O => a
  | S loops => if stop t a then a else until stop step (t + 1) loops (step t a)
  end.
Lemma until_spec {A} (stop : nat -> A -> bool) step loops : forall t a, exists m, m <= loops /\
  until stop step t loops a = steps step t m a /\
  (forall j, j < m -> stop (t + j) (steps step t j a) = false) /\ (m < loops -> stop (t + m) (steps step t m a) = true).
Proof.
  induction loops as [|loops IH]; intros t a; cbn [until].
  - exists 0. repeat split; auto; intros; lia.
  - destruct (stop t a) eqn:E.
    + exists 0. rewrite Nat.add_0_r. repeat split; auto; intros; lia.
    + destruct (IH (t + 1) (step t a)) as (m & H1 & H2 & H3 & H4). exists (S m). split; [lia|]. split; [exact H2|]. split.
      * intros [|j] Hj; [now rewrite Nat.add_0_r|]. replace (t + S j) with (t + 1 + j) by lia. apply H3. lia.
      * intros Hm. replace (t + S m) with (t + 1 + m) by lia. apply H4. lia.
Qed.
Lemma until_trained {A} (stop : nat -> A -> bool) step loops a :
  trained_until (fun k => stop k (after step a k) = true) loops step a (until stop step 0 loops a).
Proof.
  destruct (until_spec stop step loops 0 a) as (m & H1 & H2 & H3 & H4). exists m. split; [exact H1|].
  rewrite H2, steps_after. split; [reflexivity|]. split.
  - intros j Hj. rewrite <- steps_after. specialize (H3 j Hj). cbn [Nat.add] in H3. congruence.
  - intros Hm. rewrite <- steps_after. now apply H4.
Qed.
Lemma trained_iff {A} (P Q : nat -> Prop) max step (a b : A) : (forall k, P k <-> Q k) ->
  trained_until P max step a b -> trained_until Q max step a b.
Proof.
  intros E (k & H1 & H2 & H3 & H4). exists k. split; [exact H1|]. split; [exact H2|]. split.
  - intros j Hj Hq. apply (H3 j Hj). now apply E.
  - intros Hk. apply E. auto.
Qed.
(** The loop that wants the test twice in a row. *)
Fixpoint twice {A} (cond : nat -> A -> bool) (step : nat -> A -> A) (t loops : nat) (old : bool) (a : A) : A :=
  match loops with
  | O => a
  | S loops => if cond t a && old then a else twice cond step (t + 1) loops (cond t a) (step t a)
  end.
Lemma twice_spec {A} (cond : nat -> A -> bool) step loops : forall t old a, exists m, m <= loops /\
  twice cond step t loops old a = steps step t m a /\
  let last := fun j => match j with O => old | S i => cond (t + i) (steps step t i a) end in
  (forall j, j < m -> cond (t + j) (steps step t j a) && last j = false) /\ (m < loops -> cond (t + m) (steps step t m a) && last m = true).
Proof.
  induction loops as [|loops IH]; intros t old a; cbn [twice].
  - exists 0. repeat split; auto; intros; lia.
  - destruct (cond t a && old) eqn:E.
    + exists 0. rewrite Nat.add_0_r. repeat split; auto; intros; lia.
    + destruct (IH (t + 1) (cond t a) (step t a)) as (m & H1 & H2 & H3 & H4). exists (S m). split; [lia|]. split; [exact H2|].
      cbn zeta in *. split.
      * intros [|j] Hj; [now rewrite Nat.add_0_r|]. specialize (H3 j ltac:(lia)). replace (t + S j) with (t + 1 + j) by lia.
        destruct j as [|j]; [rewrite (Nat.add_0_r t); exact H3|]. replace (t + S j) with (t + 1 + j) by lia. exact H3.
      * intros Hm. specialize (H4 ltac:(lia)). replace (t + S m) with (t + 1 + m) by lia.
        destruct m as [|m]; [rewrite (Nat.add_0_r t); exact H4|]. replace (t + S m) with (t + 1 + m) by lia. exact H4.
Qed.
Lemma twice_trained {A} (cond : nat -> A -> bool) step loops a :
  trained_until (fun k => exists i, k = S i /\ cond i (after step a i) = true /\ cond k (after step a k) = true) loops step a
    (twice cond step 0 loops false a).
Proof.
  destruct (twice_spec cond step loops 0 false a) as (m & H1 & H2 & H3). cbn zeta in H3. destruct H3 as [H3 H4].
  exists m. split; [exact H1|]. rewrite H2, steps_after. split; [reflexivity|]. split.
  - intros j Hj (i & -> & E1 & E2). specialize (H3 (S i) Hj). cbn [Nat.add] in H3. rewrite !steps_after in H3.
    rewrite E1, E2 in H3. discriminate.
  - intros Hm. specialize (H4 Hm). cbn [Nat.add] in H4. rewrite !steps_after in H4.
    apply andb_true_iff in H4. destruct m as [|i]; [now destruct H4|]. rewrite steps_after in H4. exists i. tauto.
Qed.

Lemma learn_until abs perfect step : forall loops t net,
  learn_loop abs perfect step t loops net =
  until (fun t n => perfect t n && (1 <=? t)) (fun t n => if abs then make_final_layer_positive (step t n) else step t n) t loops net.
Proof. induction loops as [|loops IH]; intros t net; cbn [learn_loop until]; [reflexivity|]. destruct (_ && _); auto. Qed.
Lemma twice_eq cond step : forall loops t old net, twice_loop cond step t loops old net = twice cond step t loops old net.
Proof. induction loops as [|loops IH]; intros t old net; cbn [twice_loop twice]; [reflexivity|]. destruct (_ && _); auto. Qed.
Lemma rar_eq cond step : forall loops t old nets, rar_pair_loop cond step t loops old nets = twice cond step t loops old nets.
Proof. induction loops as [|loops IH]; intros t old net; cbn [rar_pair_loop twice]; [reflexivity|]. destruct (_ && _); auto. Qed.
Lemma safe_pair_eq cond step : forall loops t nets, safe_pair_loop cond step t loops nets = until (fun t n => cond t n && (2 <=? t)) step t loops nets.
Proof. induction loops as [|loops IH]; intros t net; cbn [safe_pair_loop until]; [reflexivity|]. destruct (_ && _); auto. Qed.
Lemma safe_eq cond step : forall loops t net, safe_roa_loop cond step t loops net = until (fun t n => cond t n && (2 <=? t)) step t loops net.
Proof. induction loops as [|loops IH]; intros t net; cbn [safe_roa_loop until]; [reflexivity|]. destruct (_ && _); auto. Qed.

(** LYAPUNOV and ROA: at least one step, then stop at the first network that passes. *)
Theorem C60_lyapunov_roa : forall K (pb : problem K) test step net,
  pb_type pb = LYAPUNOV \/ pb_type pb = ROA ->
  let positive := fun n => set_last_weight n (map (map Qabs) (weight (last n))) in
  let step' := fun t n => if take_abs (pb_llo pb) net then positive (step t n) else step t n in
  trained_until (fun k => 1 <= k /\ test k (after step' net k) = true) 1000 step' net (learn_network pb test step net).
Proof.
  intros K pb test step net Ht positive step'. unfold learn_network, learn.
  replace (match pb_type pb with LYAPUNOV | ROA => _ | _ => _ end) with (learn_loop (take_abs (pb_llo pb) net) test step 0 learning_loops net)
    by (destruct Ht as [-> | ->]; reflexivity).
  rewrite learn_until. eapply trained_iff; [|apply until_trained]. cbn beta. intros k.
  rewrite andb_true_iff, Nat.leb_le. unfold step', positive. tauto.
Qed.
(** BARRIER, BARRIERALT, RWS, RWA, RSWS, RSWA: the test must hold for two networks in a row. *)
Theorem C60_others : forall K (pb : problem K) test step net,
  In (pb_type pb) [BARRIER; BARRIERALT; RWS; RWA; RSWS; RSWA] ->
  trained_until (fun k => exists i, k = S i /\ test i (after step net i) = true /\ test k (after step net k) = true) 1000 step net
    (learn_network pb test step net).
Proof.
  intros K pb test step net Ht. unfold learn_network, learn_twice.
  replace (match pb_type pb with LYAPUNOV | ROA => _ | _ => _ end) with (twice_loop test step 0 learning_loops false net)
    by (cbn in Ht; destruct Ht as [<-|[<-|[<-|[<-|[<-|[<-|[]]]]]]]; reflexivity).
  rewrite twice_eq. apply (twice_trained test step 1000 net).
Qed.
(** STABLESAFE: at least two steps; a frozen first network is not changed. *)
Theorem C60_stablesafe : forall K (pb : problem K) (env : environment2 K) frozen it p S Sdot,
  pb_type pb = STABLESAFE ->
  let test := e2_perfect env it p S Sdot in
  let step := fun t nets => if (frozen : bool) then (fst nets, snd (e2_step env it p S Sdot t nets)) else e2_step env it p S Sdot t nets in
  let start := (d_lyap p, d_barr p) in
  trained_until (fun k => 2 <= k /\ test k (after step start k) = true) 1000 step start (learn_pair pb env frozen it p S Sdot).
Proof.
  intros K pb env frozen it p S Sdot Ht test step start. unfold learn_pair. rewrite Ht, safe_pair_eq.
  eapply trained_iff; [|apply until_trained]. cbn beta. intros k. rewrite andb_true_iff, Nat.leb_le. unfold test, step, freeze_step, start. tauto.
Qed.
Theorem C60_rar : forall K (pb : problem K) (env : environment2 K) frozen it p S Sdot,
  pb_type pb = RAR ->
  let test := e2_perfect env it p S Sdot in
  let step := fun t nets => if (frozen : bool) then (fst nets, snd (e2_step env it p S Sdot t nets)) else e2_step env it p S Sdot t nets in
  let start := (d_lyap p, d_barr p) in
  trained_until (fun k => exists i, k = Datatypes.S i /\ test i (after step start i) = true /\ test k (after step start k) = true) 1000 step start
    (learn_pair pb env frozen it p S Sdot).
Proof.
  intros K pb env frozen it p S Sdot Ht test step start. unfold learn_pair. rewrite Ht, rar_eq.
  exact (twice_trained test step 1000 start).
Qed.
Theorem C60_safe_roa_half : forall test step net,
  trained_until (fun k => 2 <= k /\ test k (after step net k) = true) 1000 step net (learn_safe_roa test step net).
Proof.
  intros test step net. unfold learn_safe_roa. rewrite safe_eq.
  eapply trained_iff; [|apply until_trained]. cbn beta. intros k. rewrite andb_true_iff, Nat.leb_le. tauto.
Qed.

(** An instance: a network that passes from the third step on. *)
Example C60_example : forall K (pb : problem K) step net, pb_type pb = LYAPUNOV -> take_abs (pb_llo pb) net = false ->
  learn_network pb (fun k _ => 3 <=? k) step net = step 2 (step 1 (step 0 net)).
Proof.
  intros K pb step net Ht Ha. destruct (C60_lyapunov_roa K pb (fun k _ => 3 <=? k) step net) as (k & H1 & H2 & H3 & H4); [auto|].
  rewrite Ha in *. assert (k = 3).
  { destruct (Nat.lt_trichotomy k 3) as [L|[L|L]]; [|exact L|].
    - specialize (H4 ltac:(lia)). rewrite Nat.leb_le in H4. lia.
    - exfalso. apply (H3 3 L). split; [lia|reflexivity]. }
  subst k. exact H2.
Qed.
