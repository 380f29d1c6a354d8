(** C71: the term added to the loss when a controller is trained. *)
From Coquelicot Require Import Coquelicot.
From Coq Require Import Reals List Bool Arith Lia Lra Psatz.
From Verif Require Import M_Syntax M_Activations M_Domains M_Network M_Certificates M_Cegis M_Learning M_Regulariser
  S_Learning S_Domains S_Dynamics S_Regulariser L_Domains L_Network L_Regulariser P_Learning.
Import ListNotations.
Local Open Scope R_scope.

Lemma terms_range joint n s sdot : batch n s -> batch n sdot -> forall v, In v (map2 (cosine joint) sdot s) -> -1 <= v <= 1.
Proof.
  intros S D v V. apply map2_in in V. destruct V as [a [b [I ->]]].
  apply cosine_range. destruct (combine_batch _ _ _ _ _ D S I). congruence.
Qed.

(** The term is between -1 and 1. *)
Theorem C71_range : forall joint n s sdot,
  s <> [] -> length s = length sdot -> batch n s -> batch n sdot -> -1 <= cosine_reg joint s sdot <= 1.
Proof.
  intros joint n s sdot N L S D. apply mean_range; [|apply (terms_range _ n); assumption].
  apply map2_nonempty; [destruct s, sdot; cbn in *; congruence|congruence].
Qed.

(** It is lowest exactly when every sample moves straight towards the origin, and highest
    exactly when every sample moves straight away from it. *)
Theorem C71_extremes : forall joint n s sdot,
  s <> [] -> length s = length sdot -> batch n s -> batch n sdot ->
  (forall d x, In (d, x) (combine sdot s) -> resolved joint d x) ->
  (cosine_reg joint s sdot = -1 <-> Forall2 against sdot s) /\
  (cosine_reg joint s sdot = 1 <-> Forall2 along_with sdot s).
Proof.
  intros joint n s sdot N L S D Z.
  assert (E : map2 (cosine joint) sdot s <> [])
    by (apply map2_nonempty; [destruct s, sdot; cbn in *; congruence|congruence]).
  assert (Rg := terms_range joint n s sdot S D). unfold cosine_reg. split.
  - rewrite (mean_low _ (-1) E) by (intros v V; apply Rg, V). rewrite Forall2_combine by congruence. split.
    + intros H a b I. apply (cosine_minus_one joint); [|apply H, in_map2, I].
      destruct (combine_batch _ _ _ _ _ D S I). congruence.
    + intros H v V. apply map2_in in V. destruct V as [a [b [I ->]]]. apply cosine_against; auto.
  - rewrite (mean_high _ 1 E) by (intros v V; apply Rg, V). rewrite Forall2_combine by congruence. split.
    + intros H a b I. apply (cosine_one joint); [|apply H, in_map2, I].
      destruct (combine_batch _ _ _ _ _ D S I). congruence.
    + intros H v V. apply map2_in in V. destruct V as [a [b [I ->]]]. apply cosine_along; auto.
Qed.

Lemma nth_components n (a : state) j : (j < n)%nat -> nth j (components n a) 0 = a j.
Proof.
  intros H. unfold components. rewrite (nth_indep _ 0 (a 0%nat)) by (rewrite map_length, seq_length; exact H).
  rewrite map_nth, seq_nth; [reflexivity|exact H].
Qed.
Lemma dot_components n (a b : state) : dot (components n a) (components n b) = sum_below n (fun i => a i * b i).
Proof.
  rewrite <- row_dot_dot. unfold row_dot. rewrite (Rsum_map2_below _ _ _ 0 0 n); try (unfold components; now rewrite map_length, seq_length).
  apply L_Domains.sum_below_ext. intros j H. rewrite !nth_components by exact H. reflexivity.
Qed.
Lemma div_sign x d : 0 < d -> (x / d < 0 <-> x < 0) /\ (x / d = 0 <-> x = 0) /\ (0 < x / d <-> 0 < x).
Proof.
  intros D. assert (I : 0 < / d) by (apply Rinv_0_lt_compat, D). unfold Rdiv.
  refine (conj _ (conj _ _)); split; intros H; nra.
Qed.

(** In continuous time the sample's own term says whether the motion through it is getting
    closer to the origin. *)
Theorem C71_distance : forall joint n (f : vfield) x t v,
  follows n f x t -> is_derive (fun u => size2 (components n (x u))) t v ->
  (cosine_reg joint [components n (x t)] [components n (f (x t))] < 0 <-> v < 0) /\
  (0 < cosine_reg joint [components n (x t)] [components n (f (x t))] <-> 0 < v).
Proof.
  intros joint n f x t v F D.
  assert (E : v = 2 * dot (components n (f (x t))) (components n (x t))).
  { rewrite dot_components, <- sum_below_scal.
    assert (D' : is_derive (fun u => sum_below n (fun i => x u i * x u i)) t
                   (sum_below n (fun i => 2 * (f (x t) i * x t i)))).
    { apply (is_derive_sum n (fun i u => x u i * x u i) (fun i => 2 * (f (x t) i * x t i))). intros i I.
      replace (2 * (f (x t) i * x t i)) with (plus (scal (f (x t) i) (x t i)) (scal (x t i) (f (x t) i)))
        by (unfold plus, scal; cbn; unfold mult; cbn; ring).
      apply (is_derive_mult (fun u => x u i) (fun u => x u i)); [apply F, I|apply F, I|intros; apply Rmult_comm]. }
    apply is_derive_unique in D. apply is_derive_unique in D'. rewrite <- D, <- D'.
    apply Derive_ext. intros u. unfold size2. apply dot_components. }
  unfold cosine_reg, mean. cbn [map2 map combine fst snd Rsum fold_right length INR].
  unfold map2. cbn [map combine fst snd Rsum fold_right length INR]. rewrite Rplus_0_r, Rdiv_1, cosine_denom.
  destruct (div_sign (dot (components n (f (x t))) (components n (x t))) _ (denom_pos joint (components n (f (x t))) (components n (x t))))
    as [A [_ B]].
  rewrite A, B, E. split; split; lra.
Qed.

(** Whether training stops does not depend on the term, and the loss changes by at most one. *)
Lemma loss_differs joint n s sdot (l : R) :
  s <> [] -> length s = length sdot -> batch n s -> batch n sdot -> Rabs (l + cosine_reg joint s sdot - l) <= 1.
Proof. intros N L S D. pose proof (C71_range joint n s sdot N L S D). apply Rabs_le_between. lra. Qed.
Theorem C71_loss : forall joint n s sdot,
  s <> [] -> length s = length sdot -> batch n s -> batch n sdot ->
  (forall act llo V Vdot t,
     same_stop (lyapunov_iteration joint act llo true s sdot V Vdot t)
               (lyapunov_iteration joint act llo false s sdot V Vdot t)) /\
  (forall V_i V_u V_d gradV old,
     same_stop (rws_iteration joint true s sdot V_i V_u V_d gradV old)
               (rws_iteration joint false s sdot V_i V_u V_d gradV old)) /\
  (forall V_i V_u V_d gradV beta V_g Vdot_g old,
     same_stop (rsws_iteration joint true s sdot V_i V_u V_d gradV beta V_g Vdot_g old)
               (rsws_iteration joint false s sdot V_i V_u V_d gradV beta V_g Vdot_g old)) /\
  (forall sym V_i V_u V_d gradV B_i B_u B_d Bdot_d old,
     same_stop (rar_iteration joint sym true s sdot V_i V_u V_d gradV B_i B_u B_d Bdot_d old)
               (rar_iteration joint sym false s sdot V_i V_u V_d gradV B_i B_u B_d Bdot_d old)).
Proof.
  intros joint n s sdot N L S D. pose proof (fun l => loss_differs joint n s sdot l N L S D) as B.
  refine (conj _ (conj _ (conj _ _))); intros.
  - unfold lyapunov_iteration. destruct (lyapunov_loss act llo V Vdot) as [[l a]|]; cbn; auto.
  - unfold rws_iteration. destruct (rws_loss V_i V_u V_d gradV sdot) as [[[l a] b]|]; cbn; auto.
  - unfold rsws_iteration. destruct (rws_loss V_i V_u V_d gradV sdot) as [[[l a] b]|]; cbn; auto. split; [reflexivity|].
    match goal with |- Rabs ?e <= _ => replace e with (l + cosine_reg joint s sdot - l) by ring end. apply B.
  - unfold rar_iteration. destruct (rws_loss V_i V_u V_d gradV sdot) as [[[l a] b]|]; cbn; auto.
    destruct (barrier_loss (splu 1) sym B_i B_u B_d Bdot_d) as [[[l' a'] b']|]; cbn; auto.
Qed.

(** When training stops: what is then true of the samples.  [old] is the outcome of the loop before. *)
Theorem C71_stop_lyapunov : forall joint act llo control s sdot V Vdot t,
  length V = length Vdot -> Vdot <> [] ->
  exists loss stop,
    lyapunov_iteration joint act llo control s sdot V Vdot t = Some (loss, stop) /\
    (stop = true <->
     (1 <= t)%nat /\ Forall (fun v => v <= 0) Vdot /\ (llo = false -> Forall (fun v => 0 <= v) V)).
Proof.
  intros joint act llo control s sdot V Vdot t L N.
  destruct (C41_lyapunov_roa act llo V Vdot L N) as (loss & acc & E & _ & K).
  unfold lyapunov_iteration. rewrite E. cbn [option_bind]. do 2 eexists. split; [reflexivity|].
  rewrite andb_true_iff, Nat.leb_le, <- K. unfold is100. destruct (Req_EM_T acc 100); intuition congruence.
Qed.
Theorem C71_stop_reach : forall joint control s_d sdot_d V_i V_u V_d gradV old,
  (V_i <> [] \/ V_u <> []) ->
  let Vdot := map (fun e => dot (fst e) (snd e)) (combine gradV sdot_d) in
  exists loss n_neg n_bad stop,
    rws_iteration joint control s_d sdot_d V_i V_u V_d gradV old = Some (loss, stop) /\
    (forall beta V_g Vdot_g, rsws_iteration joint control s_d sdot_d V_i V_u V_d gradV beta V_g Vdot_g old =
       Some (loss + beta_loss beta V_g Vdot_g, stop)) /\
    number_of (where_both V_d Vdot (fun v _ => v < 0)) n_neg /\
    number_of (where_both V_d Vdot (fun v d => v < 0 /\ - (1/100) < d)) n_bad /\
    (stop = true <->
     old = true /\ Forall (fun v => v <= 0) V_i /\ Forall (fun v => 0 <= v) V_u /\
     (0 < n_neg)%nat /\ (1000 * n_bad <= n_neg)%nat).
Proof.
  intros joint control s_d sdot_d V_i V_u V_d gradV old N Vdot.
  destruct (C41_rws V_i V_u V_d gradV sdot_d N) as (ok & n & bad & E & N1 & N2 & K).
  unfold rws_ok in E. unfold rws_iteration, rsws_iteration.
  destruct (rws_loss V_i V_u V_d gradV sdot_d) as [[[l a] b]|]; [|discriminate]. cbn [option_map] in E.
  injection E as E. cbn [option_bind].
  do 4 eexists. split; [reflexivity|]. split; [reflexivity|]. split; [exact N1|]. split; [exact N2|].
  rewrite andb_true_iff, E, K. tauto.
Qed.
Theorem C71_stop_remain : forall joint symmetric control s_d sdot_d V_i V_u V_d gradV B_i B_u B_d Bdot_d old,
  (V_i <> [] \/ V_u <> []) -> (B_i <> [] \/ B_u <> []) ->
  let Vdot := map (fun e => dot (fst e) (snd e)) (combine gradV sdot_d) in
  exists l_reach l_barrier stop_reach acc belt n_neg n_belt n_bad stop,
    rar_iteration joint symmetric control s_d sdot_d V_i V_u V_d gradV B_i B_u B_d Bdot_d old =
      Some (l_reach + l_barrier, stop) /\
    rws_iteration joint control s_d sdot_d V_i V_u V_d gradV old = Some (l_reach, stop_reach) /\
    barrier_loss (splu 1) symmetric B_i B_u B_d Bdot_d = Some (l_barrier, acc, belt) /\
    number_of (where_both V_d Vdot (fun v _ => v < 0)) n_neg /\
    number_of (where_both B_d Bdot_d (fun b _ => in_belt symmetric b)) n_belt /\
    number_of (where_both B_d Bdot_d (fun b d => in_belt symmetric b /\ 0 < d)) n_bad /\
    (stop = true <->
     old = true /\
     Forall (fun v => v <= 0) V_i /\ Forall (fun v => 0 <= v) V_u /\
     (0 < n_neg)%nat /\ at_same_place V_d Vdot (fun v d => v < 0 -> d <= - (1/100)) /\
     Forall (fun v => v <= 0) B_i /\ Forall (fun v => 0 <= v) B_u /\
     (0 < n_belt)%nat /\ (1000 * n_bad <= n_belt)%nat).
Proof.
  intros joint symmetric control s_d sdot_d V_i V_u V_d gradV B_i B_u B_d Bdot_d old N N' Vdot.
  destruct (C41_rar symmetric V_i V_u V_d gradV sdot_d B_i B_u B_d Bdot_d N N') as (ok & n & m & bad & E & N1 & N2 & N3 & K).
  unfold rar_ok in E. unfold rws_iteration, rar_iteration.
  destruct (rws_loss V_i V_u V_d gradV sdot_d) as [[[l a] b]|]; [|discriminate]. cbn [option_bind] in *.
  destruct (barrier_loss (splu 1) symmetric B_i B_u B_d Bdot_d) as [[[l' a'] b']|]; [|discriminate].
  cbn [option_bind] in *. injection E as E.
  exists (if control then l + cosine_reg joint s_d sdot_d else l), l'. do 3 eexists. exists n, m, bad. eexists.
  split; [f_equal; f_equal; destruct control; ring|]. split; [reflexivity|]. split; [reflexivity|].
  split; [exact N1|]. split; [exact N2|]. split; [exact N3|].
  rewrite andb_true_iff, E, K. tauto.
Qed.

(** The term looks at the origin, not at the goal: on the way from the origin to the goal's
    centre [c], going straight to the goal costs most and going straight back costs least. *)
Lemma towards_times : forall r c, towards c (times r c) = times (1 - r) c.
Proof. intros r c. unfold towards, times. induction c as [|v c IH]; cbn; [reflexivity|]. f_equal; [ring|exact IH]. Qed.
Lemma reg_one joint s d : cosine_reg joint [s] [d] = cosine joint d s.
Proof. unfold cosine_reg, mean, map2. cbn [map combine fst snd Rsum fold_right length INR]. rewrite Rplus_0_r, Rdiv_1. reflexivity. Qed.
Theorem C71_goal : forall joint (c : point) r k,
  0 < r < 1 -> 0 < k ->
  resolved joint (times k (towards c (times r c))) (times r c) ->
  cosine_reg joint [times r c] [times k (towards c (times r c))] = 1 /\
  cosine_reg joint [times r c] [times (- k) (towards c (times r c))] = -1.
Proof.
  intros joint c r k Hr K Z. rewrite !reg_one.
  assert (A : along_with (times k (towards c (times r c))) (times r c)).
  { exists (k * (1 - r) / r). split; [apply Rdiv_lt_0_compat; nra|].
    rewrite towards_times, !times_times. f_equal. field. lra. }
  assert (E : times (- k) (towards c (times r c)) = times (-1) (times k (towards c (times r c)))).
  { rewrite times_times. f_equal. ring. }
  rewrite E, cosine_opp, cosine_along by assumption. lra.
Qed.

(** In discrete time [sdot] is the next state: the term asks for the next state to lie on the
    opposite side of the origin, at whatever distance. *)
Theorem C71_discrete : forall joint n s a,
  s <> [] -> batch n s -> a <> 0 ->
  (forall x, In x s -> resolved joint (times a x) x) ->
  cosine_reg joint s (map (times a) s) = (if Rlt_dec a 0 then -1 else 1).
Proof.
  intros joint n s a N B A Z.
  assert (L : length s = length (map (times a) s)) by now rewrite map_length.
  assert (D : batch n (map (times a) s)).
  { intros d I. apply in_map_iff in I. destruct I as [x [<- I]]. rewrite times_length. now apply B. }
  assert (C : forall d x, In (d, x) (combine (map (times a) s) s) -> d = times a x /\ In x s).
  { clear. induction s as [|y s IH]; cbn; [tauto|]. intros d x [E|I]; [injection E as <- <-; auto|]. destruct (IH _ _ I); auto. }
  destruct (C71_extremes joint n s (map (times a) s) N L B D) as [E1 E2].
  { intros d x I. destruct (C _ _ I) as [-> I']. auto. }
  destruct (Rlt_dec a 0) as [H|H].
  - apply E1, Forall2_combine; [congruence|]. intros d x I. destruct (C _ _ I) as [-> _].
    exists (- a). split; [lra|]. f_equal. ring.
  - apply E2, Forall2_combine; [congruence|]. intros d x I. destruct (C _ _ I) as [-> _].
    exists a. split; [lra|reflexivity].
Qed.
Theorem C71_discrete_runs : forall n a x, run n (fun s i => a * s i) x -> forall k i, (i < n)%nat -> x k i = a ^ k * x 0%nat i.
Proof. intros n a x H k i I. induction k as [|k IH]; cbn [pow]; [ring|]. rewrite (H k i I), IH. ring. Qed.

(** A low loss and a decreasing certificate pull in different directions: this loop has a
    quadratic Lyapunov function, and yet a sample is moving away from the origin. *)
Definition shear : vfield := fun s i => match i with O => - s 0%nat + 4 * s 1%nat | _ => - s 1%nat end.
Definition shear_V (s : state) : R := s 0%nat * s 0%nat + 16 * (s 1%nat * s 1%nat).
Definition shear_Vdot (s : state) : R := -2 * (s 0%nat * s 0%nat) + 8 * (s 0%nat * s 1%nat) - 32 * (s 1%nat * s 1%nat).
Theorem C71_conflict :
  lie_derivative 2 shear shear_V shear_Vdot /\
  (forall s, shear_V s = 0 \/ 0 < shear_V s) /\
  (forall s, ~ (s 0%nat = 0 /\ s 1%nat = 0) -> 0 < shear_V s /\ shear_Vdot s < 0) /\
  (forall joint, let s : state := fun _ => 1 in
     0 < cosine_reg joint [components 2 s] [components 2 (shear s)]).
Proof.
  refine (conj _ (conj _ (conj _ _))).
  - intros x t F. unfold shear_V, shear_Vdot.
    pose proof (F 0%nat ltac:(lia)) as D0. pose proof (F 1%nat ltac:(lia)) as D1. cbn [shear] in D0, D1.
    match goal with |- is_derive _ _ ?d =>
      replace d with (plus (plus (scal (- x t 0%nat + 4 * x t 1%nat) (x t 0%nat)) (scal (x t 0%nat) (- x t 0%nat + 4 * x t 1%nat)))
                           (scal 16 (plus (scal (- x t 1%nat) (x t 1%nat)) (scal (x t 1%nat) (- x t 1%nat)))))
        by (unfold plus, scal; cbn; unfold mult; cbn; ring) end.
    apply (is_derive_plus (fun u => x u 0%nat * x u 0%nat) (fun u => 16 * (x u 1%nat * x u 1%nat))).
    + apply (is_derive_mult (fun u => x u 0%nat) (fun u => x u 0%nat)); [exact D0|exact D0|intros; apply Rmult_comm].
    + apply (is_derive_scal (fun u => x u 1%nat * x u 1%nat) t 16).
      apply (is_derive_mult (fun u => x u 1%nat) (fun u => x u 1%nat)); [exact D1|exact D1|intros; apply Rmult_comm].
  - intros s. unfold shear_V. destruct (Req_dec (s 0%nat) 0) as [A|A]; destruct (Req_dec (s 1%nat) 0) as [B|B];
      [left; rewrite A, B; ring|right..]; nra.
  - intros s H. unfold shear_V, shear_Vdot. destruct (Req_dec (s 1%nat) 0) as [B|B].
    + rewrite B. assert (s 0%nat <> 0) by tauto. split; nra.
    + assert (0 < s 1%nat * s 1%nat) by nra. split; nra.
  - intros joint s. rewrite reg_one, cosine_denom. apply Rdiv_lt_0_compat; [|apply denom_pos].
    unfold components, s. cbn. lra.
Qed.

(** The other terms that control.py offers. *)
Theorem C71_others : forall joint n s sdot,
  s <> [] -> length s = length sdot -> batch n s -> batch n sdot ->
  (0 <= ridge_reg s sdot /\ (ridge_reg s sdot = 0 <-> forall d, In d sdot -> size2 d = 0)) /\
  (nonzero_loss1 s sdot <= 0 /\
   (nonzero_loss1 s sdot = 0 <-> forall x d, In (x, d) (combine s sdot) -> size2 x = 0 \/ size2 d = 0)) /\
  (0 <= nonzero_loss1b s sdot /\ (nonzero_loss1b s sdot = 0 <-> forall d, In d sdot -> 1/10 <= length_of d)) /\
  (0 <= saturated_cosine_reg2 joint s sdot /\
   (saturated_cosine_reg2 joint s sdot = 0 <->
      forall d x, In (d, x) (combine sdot s) -> cosine_reg joint [x] [d] <= - (1/10))) /\
  0 < saturated_cosine_reg joint s sdot.
Proof.
  intros joint n s sdot N L S D.
  assert (N' : sdot <> []) by (destruct s, sdot; cbn in *; congruence).
  assert (Nm : forall (A : Type) (g : point -> A), map g sdot <> []) by (intros; destruct sdot; cbn; congruence).
  assert (Sq : forall d, row_norm d = 0 <-> size2 d = 0).
  { intros d. rewrite <- norm_sq. pose proof (norm_nonneg d). split; intros H'; nra. }
  assert (Low : forall l, l <> [] -> (forall v, In v l -> 0 <= v) -> 0 <= mean l).
  { intros l Nl P. assert (X : exists hi, forall v, In v l -> v <= hi).
    { clear. induction l as [|v l [h H]]; [exists 0; intros ? []|]. exists (Rmax v h). intros w [<-|W]; [apply Rmax_l|].
      eapply Rle_trans; [apply H, W|apply Rmax_r]. }
    destruct X as [hi X]. apply (mean_range l 0 hi Nl). intros v V; split; auto. }
  assert (Rel : forall r, 0 <= relu r /\ (relu r = 0 <-> r <= 0)).
  { intros r. unfold relu, Rmax. destruct (Rle_dec 0 r); lra. }
  refine (conj _ (conj _ (conj _ (conj _ _)))).
  - unfold ridge_reg. assert (P : forall v, In v (map row_norm sdot) -> 0 <= v).
    { intros v V. apply in_map_iff in V. destruct V as [d [<- _]]. apply norm_nonneg. }
    split; [apply Low; auto|]. rewrite mean_low by auto. split.
    + intros H d I. apply Sq, H, in_map, I.
    + intros H v V. apply in_map_iff in V. destruct V as [d [<- I]]. apply Sq, H, I.
  - unfold nonzero_loss1.
    set (l := map2 (fun x d => - (row_norm x * row_norm x) * row_norm d) s sdot).
    assert (Nl : l <> []) by (apply map2_nonempty; auto).
    assert (P : forall v, In v l -> v <= 0).
    { intros v V. apply map2_in in V. destruct V as [a [b [_ ->]]]. rewrite norm_sq.
      pose proof (size2_nonneg a). pose proof (norm_nonneg b). nra. }
    split.
    + assert (H := Low (map Ropp l)). rewrite mean_opp in H.
      assert (0 <= - mean l); [apply H|lra]. { destruct l; cbn; congruence. }
      intros v V. apply in_map_iff in V. destruct V as [w [<- W]]. specialize (P w W). lra.
    + rewrite (mean_high l 0 Nl P). split.
      * intros H x d I. specialize (H _ (in_map2 _ _ _ _ _ I)). cbn beta in H. rewrite norm_sq in H.
        apply Rmult_integral in H. destruct H as [H|H]; [left; lra|right; now apply Sq].
      * intros H v V. apply map2_in in V. destruct V as [a [b [I ->]]]. rewrite norm_sq.
        destruct (H _ _ I) as [Z|Z]; [rewrite Z; ring|]. apply Sq in Z. rewrite Z. ring.
  - unfold nonzero_loss1b.
    assert (P : forall v, In v (map (fun d => relu (- row_norm d + 1/10)) sdot) -> 0 <= v).
    { intros v V. apply in_map_iff in V. destruct V as [d [<- _]]. apply Rel. }
    split; [apply Low; auto|]. rewrite mean_low by auto. unfold length_of. split.
    + intros H d I. specialize (H _ (in_map _ _ _ I)). cbn beta in H. apply Rel in H. rewrite <- row_norm_size. lra.
    + intros H v V. apply in_map_iff in V. destruct V as [d [<- I]]. apply Rel. specialize (H d I).
      rewrite <- row_norm_size in H. lra.
  - unfold saturated_cosine_reg2. set (l := map2 (cosine joint) sdot s).
    assert (Nl : l <> []) by (apply map2_nonempty; congruence).
    assert (Nl' : map (fun c => relu (c + 1/10)) l <> []) by (destruct l; cbn; congruence).
    assert (P : forall v, In v (map (fun c => relu (c + 1/10)) l) -> 0 <= v).
    { intros v V. apply in_map_iff in V. destruct V as [d [<- _]]. apply Rel. }
    split; [apply Low; auto|]. rewrite mean_low by auto. split.
    + intros H d x I. rewrite reg_one. specialize (H _ (in_map (fun c => relu (c + 1/10)) _ _ (in_map2 _ _ _ _ _ I))).
      cbn beta in H. apply Rel in H. lra.
    + intros H v V. apply in_map_iff in V. destruct V as [c [<- I]]. apply Rel.
      apply map2_in in I. destruct I as [a [b [I ->]]]. specialize (H _ _ I). rewrite reg_one in H. lra.
  - unfold saturated_cosine_reg. set (l := map2 (cosine joint) sdot s).
    assert (Nl : l <> []) by (apply map2_nonempty; congruence).
    assert (Sp : forall c, -1 <= c <= 1 -> splu 1 (-1) <= splu 1 c <= splu 1 1).
    { intros c C. unfold splu. rewrite !Rmult_1_l, !Rdiv_1.
      assert (M : forall a b, a <= b -> ln (1 + exp a) <= ln (1 + exp b)).
      { intros a b [I|I]; [|rewrite I; lra]. left. apply ln_increasing; [pose proof (exp_pos a); lra|].
        apply exp_increasing in I. lra. }
      split; apply M; lra. }
    assert (0 < splu 1 (-1)).
    { unfold splu. rewrite Rmult_1_l, Rdiv_1. rewrite <- ln_1. apply ln_increasing; [lra|]. pose proof (exp_pos (-1)). lra. }
    apply Rlt_le_trans with (splu 1 (-1)); [assumption|].
    apply (mean_range (map (splu 1) l) (splu 1 (-1)) (splu 1 1)); [destruct l; cbn; congruence|].
    intros v V. apply in_map_iff in V. destruct V as [c [<- I]]. apply Sp. apply (terms_range joint n s sdot); assumption.
Qed.

(** The hypotheses are met: two samples, one moving straight in, one at an angle. *)
Example C71_example :
  let s := [[3; 4]; [1; 0]] in let sdot := [[-6; -8]; [-1; 1]] in
  s <> [] /\ length s = length sdot /\ batch 2 s /\ batch 2 sdot /\
  (forall d x, In (d, x) (combine sdot s) -> resolved false d x) /\
  -1 < cosine_reg false s sdot < 0 /\
  (forall r, r = 1/2 -> resolved true (times 1 (towards [5; 0] (times r [5; 0]))) (times r [5; 0])).
Proof.
  cbv zeta.
  assert (Q : forall v, 1 <= v -> / 100000000 <= sqrt v).
  { intros v V. apply Rle_trans with 1; [lra|]. rewrite <- sqrt_1 at 1. apply sqrt_le_1_alt, V. }
  assert (B1 : batch 2 [[3; 4]; [1; 0]]) by (intros x [<-|[<-|[]]]; reflexivity).
  assert (B2 : batch 2 [[-6; -8]; [-1; 1]]) by (intros x [<-|[<-|[]]]; reflexivity).
  assert (Z : forall d x, In (d, x) (combine [[-6; -8]; [-1; 1]] [[3; 4]; [1; 0]]) -> resolved false d x).
  { intros d x [E|[E|[]]]; injection E as <- <-; unfold resolved, length_of, size2; cbn; split; apply Q; lra. }
  refine (conj _ (conj eq_refl (conj B1 (conj B2 (conj Z (conj _ _)))))); [discriminate| |].
  - destruct (C71_extremes false 2 [[3; 4]; [1; 0]] [[-6; -8]; [-1; 1]] ltac:(discriminate) eq_refl B1 B2 Z) as [E _].
    pose proof (C71_range false 2 [[3; 4]; [1; 0]] [[-6; -8]; [-1; 1]] ltac:(discriminate) eq_refl B1 B2) as Rg. split.
    + destruct (Req_dec (cosine_reg false [[3; 4]; [1; 0]] [[-6; -8]; [-1; 1]]) (-1)) as [X|X]; [|lra].
      apply E in X. inversion X as [|? ? ? ? _ X2]; subst. inversion X2 as [|? ? ? ? [k [K X3]] _]; subst.
      cbn in X3. injection X3 as X4 X5. lra.
    + unfold cosine_reg, mean, map2. cbn [map combine fst snd Rsum fold_right length INR].
      assert (forall a b, dot a b < 0 -> cosine false a b < 0).
      { intros a b H. rewrite cosine_denom. apply (div_sign _ _ (denom_pos false a b)), H. }
      assert (A1 := H [-6; -8] [3; 4] ltac:(cbn; lra)). assert (A2 := H [-1; 1] [1; 0] ltac:(cbn; lra)).
      unfold Rdiv. apply Rmult_lt_reg_r with (1 + 1); [lra|]. rewrite Rmult_assoc, Rinv_l, Rmult_1_r by lra. lra.
  - intros r ->. unfold resolved, length_of. apply Rle_trans with 1; [lra|].
    rewrite <- sqrt_mult by apply size2_nonneg. rewrite <- sqrt_1 at 1. apply sqrt_le_1_alt. unfold size2; cbn. lra.
Qed.

(** The hypotheses of the theorems on stopping hold of these samples, and training stops. *)
Example C71_stop_example : forall joint control,
  (exists loss, lyapunov_iteration joint (splu 1) false control [[1; 2]] [[-1; -2]] [5] [-10] 1 = Some (loss, true)) /\
  (exists loss, lyapunov_iteration joint (splu 1) false control [[1; 2]] [[-1; -2]] [5] [-10] 0 = Some (loss, false)) /\
  (exists loss, rws_iteration joint control [[1; 2]] [[-1; -2]] [-1] [1] [-1] [[1; 1]] true = Some (loss, true)) /\
  (exists loss, rws_iteration joint control [[1; 2]] [[-1; -2]] [-1] [1] [-1] [[1; 1]] false = Some (loss, false)).
Proof.
  intros joint control. refine (conj _ (conj _ (conj _ _))).
  1,2: match goal with |- exists loss, lyapunov_iteration _ ?a ?b ?c ?d ?e ?f ?g ?h = _ =>
         destruct (C71_stop_lyapunov joint a b c d e f g h eq_refl ltac:(discriminate)) as (l & stop & E & K) end.
  1: assert (stop = true) as -> by (apply K; refine (conj _ (conj _ (fun _ => _))); repeat constructor; lra).
  2: assert (stop = false) as -> by (destruct stop; [destruct (proj1 K eq_refl); lia|reflexivity]).
  1,2: exists l; exact E.
  1,2: match goal with |- exists loss, rws_iteration _ ?a ?b ?c ?d ?e ?f ?g ?h = _ =>
         destruct (C71_stop_reach joint a b c d e f g h ltac:(left; discriminate)) as (l & n & m & stop & E & _ & N & M & K) end.
  - assert (stop = true) as ->.
    { apply K. assert (n = 1%nat) as ->.
      { destruct N as (ps & U & H & L). subst n. assert (I0 : In 0%nat ps) by (apply H; exists (-1), (1 * -1 + (1 * -2 + 0)); cbn; repeat split; lra).
        destruct ps as [|p [|q ps]]; [destruct I0|reflexivity|exfalso].
        assert (A : forall i, In i (p :: q :: ps) -> i = 0%nat).
        { intros i I. apply H in I. destruct I as (a & b & I & _). destruct i as [|[|i]]; [reflexivity|discriminate|discriminate]. }
        assert (p = 0%nat) by (apply A; now left). assert (q = 0%nat) by (apply A; right; now left). subst.
        inversion U; subst. cbn in *. tauto. }
      assert (m = 0%nat) as ->.
      { destruct M as ([|p ps] & U & H & L); [now subst|exfalso]. assert (I : In p (p :: ps)) by now left.
        apply H in I. destruct I as (a & b & I & J & Q). destruct p as [|[|p]]; try discriminate.
        cbn in I, J. injection I as <-. injection J as <-. lra. }
      refine (conj eq_refl (conj _ (conj _ (conj _ _)))); repeat constructor; lra. }
    exists l. exact E.
  - assert (stop = false) as -> by (destruct stop; [destruct (proj1 K eq_refl); discriminate|reflexivity]).
    exists l. exact E.
Qed.
