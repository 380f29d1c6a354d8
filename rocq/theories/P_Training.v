(** Properties C41 (when training stops), C50 (the ROA level) and C51 (losses). *)
From Coq Require Import Reals QArith Qreals List Bool Arith Lra Lia.
From Verif Require Import M_Syntax M_Certificates M_Verifier M_Activations M_Domains M_Network M_Learner M_Cegis
  M_Learning S_Learning L_Learner P_Learning.
Import ListNotations.
Local Open Scope R_scope.

(** The network after [k] optimiser steps. *)
Fixpoint after (step : nat -> network -> network) (k : nat) (net : network) : network :=
  match k with O => net | S k => step k (after step k net) end.

(** * C41: when training stops *)
Lemma twice_loop_spec cond step loops : forall t net0 old,
  (old = true -> (1 <= t)%nat /\ cond (t - 1)%nat (after step (t - 1) net0) = true) ->
  exists k, (t <= k <= t + loops)%nat /\
    twice_loop cond step t loops old (after step t net0) = after step k net0 /\
    (k = (t + loops)%nat \/
     ((1 <= k)%nat /\ cond k (after step k net0) = true /\ cond (k - 1)%nat (after step (k - 1) net0) = true)).
Proof.
  induction loops as [|loops IH]; intros t net0 old Ho; cbn [twice_loop].
  - exists t. split; [lia|]. split; [reflexivity|]. left. lia.
  - destruct (cond t (after step t net0)) eqn:E.
    + destruct old; cbn [andb].
      * exists t. split; [lia|]. split; [reflexivity|]. right. destruct (Ho eq_refl) as [A B]. auto.
      * specialize (IH (S t) net0 true). rewrite Nat.add_1_r. cbn [after] in IH. destruct IH as (k & A & B & C).
        { intros _. split; [lia|]. now replace (S t - 1)%nat with t by lia. }
        exists k. split; [lia|]. split; [exact B|]. destruct C as [C|C]; [left; lia|right; exact C].
    + cbn [andb]. specialize (IH (S t) net0 false). rewrite Nat.add_1_r. cbn [after] in IH.
      destruct IH as (k & A & B & C); [discriminate|].
      exists k. split; [lia|]. split; [exact B|]. destruct C as [C|C]; [left; lia|right; exact C].
Qed.
Lemma learning_loops_1000 : learning_loops = 1000%nat.
Proof. Transparent learning_loops. reflexivity. Qed.
Opaque learning_loops.

(** Barrier, BarrierAlt, RWS, RSWS: the returned network is the result of 1000 steps or
    passes the accuracy test itself, as did the network one step before. *)
Theorem C41_training_stops_twice :
  forall cond step net,
    exists k, (k <= 1000)%nat /\ learn_twice cond step net = after step k net /\
      (k = 1000%nat \/
       ((1 <= k)%nat /\ cond k (after step k net) = true /\ cond (k - 1)%nat (after step (k - 1) net) = true)).
Proof.
  intros cond step net. unfold learn_twice.
  destruct (twice_loop_spec cond step learning_loops 0 net false) as (k & A & B & C); [discriminate|].
  exists k. rewrite learning_loops_1000 in A, C. cbn [after] in B. split; [lia|]. split; [exact B|].
  destruct C as [C|C]; [left; lia|right; exact C].
Qed.

(** Lyapunov and ROA: the same after at least one step; the output layer made
    non-negative after every step where the learner does so. *)
Theorem C41_training_stops :
  forall llo perfect step net,
    let step' := fun t n => if take_abs llo net then make_final_layer_positive (step t n) else step t n in
    exists k, (1 <= k <= 1000)%nat /\ learn llo perfect step net = after step' k net /\
      (k = 1000%nat \/ perfect k (after step' k net) = true).
Proof.
  intros llo perfect step net step'. unfold learn.
  assert (G : forall loops t, (1 <= t \/ 1 <= loops)%nat ->
    exists k, (t <= k <= t + loops)%nat /\ (1 <= k)%nat /\
      learn_loop (take_abs llo net) perfect step t loops (after step' t net) = after step' k net /\
      (k = (t + loops)%nat \/ perfect k (after step' k net) = true)).
  { induction loops as [|loops IH]; intros t Ht; cbn [learn_loop].
    - exists t. split; [lia|]. split; [lia|]. split; [reflexivity|]. left; lia.
    - destruct (perfect t (after step' t net) && (1 <=? t)%nat) eqn:E.
      + apply andb_true_iff in E. destruct E as [E1 E2]. apply Nat.leb_le in E2.
        exists t. split; [lia|]. split; [lia|]. split; [reflexivity|]. now right.
      + destruct (IH (S t)) as (k & A & A' & B & C); [lia|]. exists k. split; [lia|]. split; [lia|].
        rewrite Nat.add_1_r. split; [exact B|]. destruct C as [C|C]; [left; lia|now right]. }
  destruct (G learning_loops O) as (k & A & A' & B & C); [rewrite learning_loops_1000; lia|].
  rewrite learning_loops_1000 in A, C. exists k. split; [lia|]. split; [exact B|]. destruct C as [C|C]; [left; lia|now right].
Qed.

(** * C50: the ROA level *)
Lemma fold_max l : forall v, let m := fold_left Rmax l v in v <= m /\ (forall x, In x l -> x <= m) /\ (m = v \/ In m l).
Proof.
  induction l as [|a l IH]; intros v; cbn [fold_left].
  - split; [lra|]. split; [easy|now left].
  - destruct (IH (Rmax v a)) as (A & B & C). assert (H1 := Rmax_l v a). assert (H2 := Rmax_r v a).
    split; [lra|]. split.
    + intros x [->|Hx]; [lra|auto].
    + destruct C as [C|C]; [|right; now right]. 
      destruct (Rle_dec v a) as [L|L].
      * rewrite Rmax_right in C by lra. right; left. rewrite Rmax_right by lra. congruence.
      * rewrite Rmax_left in C by lra. left. rewrite Rmax_left by lra. congruence.
Qed.
Theorem C50_level_is_maximum :
  forall net (S : dict) si, dlookup XI S = Some si -> si <> [] ->
    exists m, roa_level net S = Some m /\
      (exists x, In x si /\ m = learner_value false net x) /\
      (forall x, In x si -> learner_value false net x <= m).
Proof.
  intros net S si H Hne. unfold roa_level. rewrite H. cbn [option_bind]. unfold compute_maximum.
  destruct si as [|x0 si]; [contradiction|]. cbn [map].
  destruct (fold_max (map (net_forward net) si) (net_forward net x0)) as (A & B & C).
  eexists. split; [reflexivity|]. set (m := fold_left Rmax _ _) in *. clearbody m.
  unfold learner_value, factor. split.
  - destruct C as [->|C].
    + exists x0. split; [now left|]. now rewrite Rmult_1_r.
    + apply in_map_iff in C. destruct C as (x & <- & Hx). exists x. split; [now right|]. now rewrite Rmult_1_r.
  - intros x [<-|Hx]; rewrite Rmult_1_r; auto. apply B. now apply in_map.
Qed.
(** With the quadratic factor the level is not that of the candidate: even inflated by
    10% (as in the verified condition) it leaves initial samples outside. *)
Theorem C50_quadratic_factor_ignored :
  exists net (S : dict) si m x,
    dlookup XI S = Some si /\ roa_level net S = Some m /\ In x si /\ m * (11/10) < learner_value true net x.
Proof.
  exists {| in_size := 1; hidden := [({| weight := [[1%Q]]; bias := None |}, ASquare)];
            last := {| weight := [[1%Q]]; bias := None |} |}, [(XI, [[2]])], [[2]], 4, [2].
  split; [reflexivity|]. split; [|split; [now left|]].
  - unfold roa_level. cbn [dlookup find fst snd label_eqb option_bind]. unfold compute_maximum. cbn [map fold_left].
    f_equal. unfold net_forward, affine, bias_or_zeros, map2. cbn -[Q2R]. unfold Rsum. cbn -[Q2R].
    unfold Q2R; simpl. field.
  - unfold learner_value, factor, net_forward, affine, bias_or_zeros, map2, Rsum. cbn -[Q2R]. unfold Q2R; simpl. lra.
Qed.

(** RSWS (certificate.py:1218): the level is the minimum over the border samples of the goal (training raises without
    any), and the loss looks at the goal samples in its sublevel set only. *)
Lemma fold_min l : forall v, let m := fold_left Rmin l v in m <= v /\ (forall x, In x l -> m <= x) /\ (m = v \/ In m l).
Proof.
  induction l as [|a l IH]; intros v; cbn [fold_left].
  - split; [lra|]. split; [easy|now left].
  - destruct (IH (Rmin v a)) as (A & B & C). assert (H1 := Rmin_l v a). assert (H2 := Rmin_r v a).
    split; [lra|]. split.
    + intros x [->|Hx]; [lra|auto].
    + destruct C as [C|C]; [|right; now right].
      destruct (Rle_dec v a) as [L|L].
      * rewrite Rmin_left in C by lra. left. rewrite Rmin_left by lra. congruence.
      * rewrite Rmin_right in C by lra. right; left. rewrite Rmin_right by lra. congruence.
Qed.
Lemma select_map_filter {A} (p : A -> bool) (g : A -> R) l : select (map p l) (map g l) = map g (filter p l).
Proof. induction l as [|x l IH]; [reflexivity|]. cbn. destruct (p x); cbn; now rewrite IH. Qed.
Theorem C50_goal_level_is_minimum :
  forall net grad f f_torch (S Sdot : dict) sd si su sb sg,
    images_of f f_torch S Sdot ->
    dlookup XD S = Some sd -> dlookup XI S = Some si -> dlookup XU S = Some su -> dlookup XG_BORDER S = Some sb -> dlookup XG S = Some sg ->
    exists b V_g Vdot_g, rsws_batch (learner_value false net) grad f_torch S Sdot = Some (b, (sb, V_g, Vdot_g)) /\
      (sb = [] -> rsws_level net sb = None) /\
      (sb <> [] -> exists m, rsws_level net sb = Some m /\
        (exists x, In x sb /\ m = learner_value false net x) /\
        (forall x, In x sb -> m <= learner_value false net x) /\
        exists inner, (forall x, In x inner <-> In x sg /\ learner_value false net x <= m) /\
          beta_loss m V_g Vdot_g = match inner with [] => 0 | _ => mean (map (fun x => splu 1 (dot (grad x) (f x) + rws_gamma)) inner) end).
Proof.
  intros net grad f ft S Sdot sd si su sb sg Hf Hd Hi Hu Hb Hg. rewrite (C40_rsws _ grad f ft S Sdot sd si su sb sg) by assumption.
  eexists _, _, _. split; [reflexivity|]. split; [now intros ->|]. intros Hne.
  destruct sb as [|x0 sb]; [contradiction|]. unfold rsws_level, compute_minimum. cbn [map].
  destruct (fold_min (map (net_forward net) sb) (net_forward net x0)) as (A & B & C).
  eexists. split; [reflexivity|]. set (m := fold_left Rmin _ _) in *. clearbody m.
  assert (Ev : forall x, learner_value false net x = net_forward net x) by (intros x; unfold learner_value, factor; apply Rmult_1_r).
  split; [|split].
  - destruct C as [->|C]; [exists x0; split; [now left|now rewrite Ev]|].
    apply in_map_iff in C. destruct C as (x & <- & Hx). exists x. split; [now right|now rewrite Ev].
  - intros x [<-|Hx]; rewrite Ev; auto. apply B. now apply in_map.
  - exists (filter (fun x => Rleb (learner_value false net x) m) sg). split.
    + intros x. rewrite filter_In, Rleb_iff. reflexivity.
    + unfold beta_loss. rewrite map_map, (select_map_filter (fun x => Rleb (learner_value false net x) m)). match goal with |- context [filter ?p ?l] => destruct (filter p l) end; [reflexivity|]. cbn [map]. now rewrite map_map.
Qed.
(** With the quadratic factor V at a border sample can lie below the level. *)
Theorem C50_goal_level_ignores_factor :
  exists net border m x, rsws_level net border = Some m /\ In x border /\ learner_value true net x < m.
Proof.
  exists {| in_size := 1; hidden := [({| weight := [[1%Q]]; bias := None |}, ASquare)]; last := {| weight := [[1%Q]]; bias := None |} |},
    [[1/2]], (1/4), [1/2].
  split; [|split; [now left|]].
  - unfold rsws_level, compute_minimum. cbn [map fold_left]. f_equal. unfold net_forward, affine, bias_or_zeros, map2. cbn -[Q2R]. unfold Rsum. cbn -[Q2R].
    unfold Q2R; simpl. field.
  - unfold learner_value, factor, net_forward, affine, bias_or_zeros, map2, Rsum. cbn -[Q2R]. unfold Q2R; simpl. lra.
Qed.

(** * C51: losses *)
Lemma relu_mono a b : a <= b -> relu a <= relu b.
Proof. intros H. unfold relu. apply Rle_max_compat_l. exact H. Qed.
Lemma leaky_mono c a b : 0 <= c -> a <= b -> leaky_relu c a <= leaky_relu c b.
Proof.
  intros Hc H. unfold leaky_relu, Rleb. destruct (Rle_dec 0 a), (Rle_dec 0 b); nra.
Qed.
Lemma splu_mono beta a b : 0 < beta -> a <= b -> splu beta a <= splu beta b.
Proof.
  intros Hb H. unfold splu. apply Rmult_le_compat_r; [left; now apply Rinv_0_lt_compat|].
  assert (P := exp_pos (beta * a)). destruct H as [H| ->]; [|lra]. left. apply ln_increasing; [lra|].
  apply Rplus_lt_compat_l. apply exp_increasing. now apply Rmult_lt_compat_l.
Qed.
Definition monotone (g : R -> R) : Prop := forall a b, a <= b -> g a <= g b.
Lemma Rsum_le l m : below l m -> Rsum l <= Rsum m.
Proof. intros H. unfold below in H. induction H; unfold Rsum in *; simpl; lra. Qed.
Lemma below_len l m : below l m -> length l = length m.
Proof. unfold below. induction 1; simpl; auto. Qed.
Lemma mean_le l m : below l m -> mean l <= mean m.
Proof.
  intros H. unfold mean. rewrite (below_len _ _ H). unfold Rdiv.
  destruct (length m) as [|n] eqn:E.
  - assert (Hm : m = []) by (destruct m; [auto|discriminate]). subst. inversion H; subst. lra.
  - apply Rmult_le_compat_r; [left; apply Rinv_0_lt_compat, lt_0_INR; lia|]. now apply Rsum_le.
Qed.
Lemma below_map g l m : monotone g -> below l m -> below (map g l) (map g m).
Proof. intros Hg H. induction H; simpl; constructor; auto. Qed.
Lemma mean_up g l m : monotone g -> below l m -> mean (map g l) <= mean (map g m).
Proof. intros. apply mean_le, below_map; auto. Qed.
Lemma mean_down g l m : monotone g -> below l m -> mean (map (fun v => g (- v)) m) <= mean (map (fun v => g (- v)) l).
Proof.
  intros Hg H. apply mean_le. unfold below in *. induction H; simpl; constructor; auto. apply Hg. lra.
Qed.
Lemma below_select mask : forall l m, below l m -> below (select mask l) (select mask m).
Proof.
  induction mask as [|b mask IH]; intros l m H; [constructor|].
  destruct H as [|x y l m Hxy H]; [constructor|]. cbn [select]. specialize (IH l m H).
  destruct b; [constructor; auto|exact IH].
Qed.
Lemma mono_shift g c : monotone g -> monotone (fun v => g (v + c)).
Proof. intros H a b L. apply H. lra. Qed.

(** Each loss is pushed down by decreasing what must be negative and by increasing what
    must be positive (the batches otherwise unchanged). *)
Theorem C51_lyapunov :
  forall act llo V V' Vdot Vdot' l a l' a', monotone act ->
    below Vdot Vdot' -> below V' V ->
    lyapunov_loss act llo V Vdot = Some (l, a) -> lyapunov_loss act llo V' Vdot' = Some (l', a') -> l <= l'.
Proof.
  intros act llo V V' Vdot Vdot' l a l' a' Ha Hd HV. unfold lyapunov_loss. rewrite <- (below_len _ _ Hd).
  destruct (length Vdot =? 0)%nat; [discriminate|]. destruct llo; intros [= <- _] [= <- _].
  - now apply mean_up.
  - apply Rplus_le_compat; [now apply mean_up|]. now apply (mean_down act V' V).
Qed.
(** The activations used: LeakyReLU (Lyapunov), Softplus (ROA, RAR, STABLESAFE, RWS),
    ReLU (Barrier), Softplus(0.5) (BarrierAlt). *)
Theorem C51_activations :
  (forall c, 0 <= c -> monotone (leaky_relu c)) /\ monotone relu /\ monotone (splu 1) /\ monotone (splu (1/2)).
Proof.
  repeat split.
  - intros c Hc a b. now apply leaky_mono.
  - intros a b. apply relu_mono.
  - intros a b. apply splu_mono. lra.
  - intros a b. apply splu_mono. lra.
Qed.
Theorem C51_barrier :
  forall act sym B_i B_i' B_u B_u' B_d Bdot Bdot' l a p l' a' p', monotone act ->
    below B_i B_i' -> below B_u' B_u -> below Bdot Bdot' ->
    barrier_loss act sym B_i B_u B_d Bdot = Some (l, a, p) ->
    barrier_loss act sym B_i' B_u' B_d Bdot' = Some (l', a', p') -> l <= l'.
Proof.
  intros act sym B_i B_i' B_u B_u' B_d Bdot Bdot' l a p l' a' p' Ha Hi Hu Hd. unfold barrier_loss.
  destruct (percent _ (length B_u + length B_i)) as [x|]; [|discriminate].
  destruct (percent _ (length B_u' + length B_i')) as [x'|]; [|discriminate]. cbn [option_bind].
  set (mask := map _ B_d). assert (S := below_select mask _ _ Hd). assert (L := below_len _ _ S).
  assert (A := mean_up act _ _ Ha Hi). assert (B := mean_down act _ _ Ha Hu). assert (C := mean_up act _ _ Ha S).
  unfold percent. rewrite <- L. destruct (length (select mask Bdot) =? 0)%nat; intros [= <- _ _] [= <- _ _]; lra.
Qed.
Theorem C51_barrier_alt :
  forall B_i B_i' B_u B_u' B_d Bdot Bdot' l a p l' a' p',
    below B_i B_i' -> below B_u' B_u -> below Bdot Bdot' ->
    barrier_alt_loss B_i B_u B_d Bdot = Some (l, a, p) ->
    barrier_alt_loss B_i' B_u' B_d Bdot' = Some (l', a', p') -> l <= l'.
Proof.
  intros B_i B_i' B_u B_u' B_d Bdot Bdot' l a p l' a' p' Hi Hu Hd. unfold barrier_alt_loss.
  destruct (percent _ (length B_u + length B_i)) as [x|]; [|discriminate].
  destruct (percent _ (length B_u' + length B_i')) as [x'|]; [|discriminate]. cbn [option_bind].
  destruct (percent _ (length Bdot)) as [y|]; [|discriminate].
  destruct (percent _ (length Bdot')) as [y'|]; [|discriminate]. cbn [option_bind].
  assert (M : monotone (fun v => splu (1/2) (v + alt_margin))) by (apply mono_shift; intros ? ? ?; apply splu_mono; lra).
  assert (A := mean_up _ _ _ M Hi). assert (B := mean_down _ _ _ M Hu). assert (C := mean_up _ _ _ M Hd).
  cbn beta in B. intros [= <- _ _] [= <- _ _]. lra.
Qed.
Theorem C51_rws :
  forall V_i V_i' V_u V_u' V_d g f g' f' l a p l' a' p',
    below V_i V_i' -> below V_u' V_u ->
    below (map (fun e => dot (fst e) (snd e)) (combine g f)) (map (fun e => dot (fst e) (snd e)) (combine g' f')) ->
    rws_loss V_i V_u V_d g f = Some (l, a, p) -> rws_loss V_i' V_u' V_d g' f' = Some (l', a', p') -> l <= l'.
Proof.
  intros V_i V_i' V_u V_u' V_d g f g' f' l a p l' a' p' Hi Hu Hd. unfold rws_loss. rewrite !dots_eq.
  destruct (percent _ (length V_i + length V_u)) as [x|]; [|discriminate].
  destruct (percent _ (length V_i' + length V_u')) as [x'|]; [|discriminate]. cbn [option_bind].
  set (mask := map _ V_d). assert (S := below_select mask _ _ Hd). assert (L := below_len _ _ S).
  assert (M1 : monotone (splu 1)) by (intros ? ? ?; apply splu_mono; lra).
  assert (M : monotone (fun v => splu 1 (v + rws_gamma))) by (apply mono_shift; exact M1).
  assert (A := mean_up _ _ _ M1 Hi). assert (B := mean_down _ _ _ M1 Hu). assert (C := mean_up _ _ _ M S).
  set (s := select mask _) in *. set (s' := select mask (map (fun e => dot (fst e) (snd e)) (combine g' f'))) in *.
  unfold percent. rewrite <- L. destruct (length s =? 0)%nat; intros [= <- _ _] [= <- _ _]; lra.
Qed.
Theorem C51_beta :
  forall beta V_g Vdot Vdot', below Vdot Vdot' -> beta_loss beta V_g Vdot <= beta_loss beta V_g Vdot'.
Proof.
  intros beta V_g Vdot Vdot' H. unfold beta_loss. assert (S := below_select (map (fun v => Rleb v beta) V_g) _ _ H).
  set (s := select _ Vdot) in *. set (s' := select _ Vdot') in *.
  assert (M : monotone (fun v => splu 1 (v + rws_gamma))) by (apply mono_shift; intros ? ? ?; apply splu_mono; lra).
  assert (C := mean_up _ _ _ M S). destruct S as [|x y s0 s0' Hxy S]; [lra|exact C].
Qed.

Lemma relu_nonneg v : 0 <= relu v.
Proof. apply Rmax_l. Qed.
Lemma relu_zero v : relu v = 0 <-> v <= 0.
Proof. unfold relu. split; intros H; [assert (K := Rmax_r 0 v); lra|now apply Rmax_left]. Qed.
Lemma Rsum_nonneg l : Forall (fun v => 0 <= v) l -> 0 <= Rsum l.
Proof. intros H. induction H; unfold Rsum in *; simpl; lra. Qed.
Lemma mean_zero l : Forall (fun v => 0 <= v) l -> 0 <= mean l /\ (mean l = 0 <-> Forall (fun v => v = 0) l).
Proof.
  intros H. destruct l as [|x l].
  { unfold mean, Rsum. simpl. unfold Rdiv. rewrite Rmult_0_l. split; [lra|split; auto]. }
  assert (Hn : 0 < INR (length (x :: l))) by (apply lt_0_INR; simpl; lia).
  assert (Hi := Rinv_0_lt_compat _ Hn). assert (Hs := Rsum_nonneg _ H). unfold mean. split.
  - apply Rmult_le_pos; lra.
  - split.
    + intros E. apply Rmult_integral in E. destruct E as [E|E]; [|lra]. clear -H E.
      induction H as [|v m Hv H IH]; [constructor|]. assert (K := Rsum_nonneg _ H). unfold Rsum in *. simpl in E.
      constructor; [lra|]. apply IH. lra.
    + intros E. assert (Z : Rsum (x :: l) = 0); [|rewrite Z; unfold Rdiv; ring]. clear -E.
      induction E as [|v m Hv E IH]; [reflexivity|]. unfold Rsum in *. simpl. lra.
Qed.
(** The loss of a barrier is never negative, and zero exactly when every sample is fine. *)
Theorem C51_barrier_zero :
  forall sym B_i B_u B_d Bdot l a p,
    barrier_loss relu sym B_i B_u B_d Bdot = Some (l, a, p) ->
    0 <= l /\
    (l = 0 <-> Forall (fun v => v <= 0) B_i /\ Forall (fun v => 0 <= v) B_u /\
               at_same_place B_d Bdot (fun b d => in_belt sym b -> d <= 0)).
Proof.
  intros sym B_i B_u B_d Bdot l a p. unfold barrier_loss.
  destruct (percent _ (length B_u + length B_i)) as [x|]; [|discriminate]. cbn [option_bind].
  set (sel := fun v => if sym then Rleb (Rabs v) (1/2) else Rleb 0 v).
  assert (Hsel : forall b, sel b = true <-> in_belt sym b).
  { intros b. unfold sel, in_belt. destruct sym; apply Rleb_iff. }
  set (s := select (map sel B_d) Bdot).
  assert (N : forall m (g : R -> R), Forall (fun v => 0 <= v) (map (fun v => relu (g v)) m)).
  { intros m g. apply Forall_map, Forall_forall. intros. apply relu_nonneg. }
  destruct (mean_zero _ (N B_i (fun v => v))) as [A0 A]. destruct (mean_zero _ (N B_u (fun v => - v))) as [B0 B].
  destruct (mean_zero _ (N s (fun v => v))) as [C0 C].
  rewrite Forall_map in A, B, C.
  assert (Z : forall (g : R -> R) m, Forall (fun v => relu (g v) = 0) m <-> Forall (fun v => g v <= 0) m).
  { intros g m. rewrite !Forall_forall. split; intros H v Hv; apply relu_zero; auto. }
  rewrite Z in A, B, C.
  assert (Bu : Forall (fun v => - v <= 0) B_u <-> Forall (fun v => 0 <= v) B_u).
  { rewrite !Forall_forall. split; intros H v Hv; specialize (H v Hv); lra. }
  assert (Cs : Forall (fun v => v <= 0) s <-> at_same_place B_d Bdot (fun b d => in_belt sym b -> d <= 0)).
  { unfold s. rewrite select_filter, Forall_map, Forall_forall. split.
    - intros H i b d E1 E2 Hb. apply (H (b, d)). apply filter_In. split; [|now apply Hsel].
      apply nth_error_In with i. now apply nth_error_combine.
    - intros H [b d] Hin. apply filter_In in Hin. destruct Hin as [Hin Hb]. apply In_nth_error in Hin.
      destruct Hin as [i Hi]. apply nth_error_combine in Hi. destruct Hi as [E1 E2]. apply (H i b d E1 E2). now apply Hsel. }
  rewrite Bu in B. rewrite Cs in C.
  assert (El : mean (map relu s) = 0 <-> mean (map (fun v => relu v) s) = 0) by reflexivity.
  change (map (fun v => relu v) B_i) with (map relu B_i) in *. change (map (fun v => relu v) s) with (map relu s) in *.
  destruct (percent _ (length s)) as [q|] eqn:Eq; intros [= <- _ _].
  - split; [lra|]. rewrite <- A, <- B, <- C. split; [intros H; repeat split; lra|intros (H1 & H2 & H3); lra].
  - unfold percent in Eq. destruct (length s =? 0)%nat eqn:E0; [|discriminate]. apply Nat.eqb_eq in E0.
    assert (Es : mean (map relu s) = 0).
    { destruct s; [|discriminate]. unfold mean, Rsum. simpl. unfold Rdiv. ring. }
    split; [lra|]. rewrite <- A, <- B, <- C. split; [intros H; repeat split; lra|intros (H1 & H2 & H3); lra].
Qed.

Example C51_example :
  barrier_loss relu false [-1; -2] [1] [-1; 3] [5; -1] <> None /\
  (forall l a p, barrier_loss relu false [-1; -2] [1] [-1; 3] [5; -1] = Some (l, a, p) -> l = 0) /\
  below [-2] [-1].
Proof.
  split; [|split].
  - unfold barrier_loss, percent. simpl length. cbn [option_bind Nat.add Nat.eqb]. destruct (length _ =? 0)%nat; discriminate.
  - intros l a p H. destruct (C51_barrier_zero _ _ _ _ _ _ _ _ H) as [_ K]. apply K.
    split; [repeat constructor; lra|]. split; [repeat constructor; lra|].
    intros [|[|[|i]]] b d E1 E2 Hb; simpl in *; try discriminate; injection E1 as <-; injection E2 as <-; lra.
  - repeat constructor. lra.
Qed.
