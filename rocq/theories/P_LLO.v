(** Property C26: "last layer to ones" (LLO).  When the positivity of the certificate
    is enforced by construction, the verifier does not check it; these theorems say
    that it may indeed be left out. *)
From Coquelicot Require Import Coquelicot.
From Coq Require Import Reals QArith Qreals List Bool Arith ZArith Lra Lia.
From Verif Require Import M_Syntax M_Certificates M_Verifier M_Activations M_Domains M_Network M_Learner
  S_Verifier S_Certificates S_Success S_Activations S_Domains S_Network S_Learner
  S_Dynamics L_Holds L_Domains L_Activations L_Network L_Success L_Learner P_Verifier P_Certificates P_Activations
  P_Safety P_Stability P_Domains P_Examples P_Translator P_TranslatorBugs.
Import ListNotations.
Local Open Scope R_scope.

Lemma sum_below_zero_terms n g :
  (forall j, (j < n)%nat -> 0 <= g j) -> sum_below n g = 0 -> forall j, (j < n)%nat -> g j = 0.
Proof.
  induction n as [|n IH]; intros Hp H j Hj; [lia|]. simpl in H.
  assert (P := sum_below_nonneg n g (fun j Hj => Hp j ltac:(lia))). assert (Pn := Hp n ltac:(lia)).
  destruct (Nat.eq_dec j n) as [->|Hne]; [lra|]. apply IH; try lia; [|lra]. intros k Hk. apply Hp. lia.
Qed.

(** Where a non-negative candidate vanishes away from the origin, so does the symbolic
    derivative along any field. *)
Lemma llo_flat b simp r quad net xdot V Vdot a s :
  b <> SCVC5 -> wf_net net -> length xdot = in_size net ->
  final_act net = Some a -> pd_act a = true -> bias (last net) = None -> nonneg_last net ->
  translate_ct b simp r quad net (new_vars (in_size net)) xdot = Some (V, Vdot) ->
  ~ origin (in_size net) s -> eval s V = 0 -> eval s Vdot = 0.
Proof.
  intros Hb (m & H1 & H2 & H3) Hxd Ha Hp Hbias Hn H Ho H0. set (n := in_size net) in *.
  destruct (translate_ct_inv _ _ _ _ _ _ _ _ Hb H) as (z & J & out & Eu & El & -> & ->). fold n in Eu |- *.
  assert (Hf := compute_factors_spec quad n). fold n in H0.
  destruct (compute_factors quad (new_vars n)) as [E dE]. destruct Hf as (LE & HE & HdE). cbn [fst snd] in *.
  destruct (until_last_ct_value _ _ _ _ _ _ _ _ _ _ H1 (new_vars_length _) Eu) as [Lz Vz].
  (* the factor does not vanish *)
  assert (HE0 : eval s E <> 0).
  { rewrite HE. destruct quad; [|lra]. intros Hs. apply Ho. intros i Hi. now apply (sum_squares_zero n). }
  cbn [eval binop_eval] in H0. assert (Hout : eval s out = 0) by (apply Rmult_integral in H0; tauto).
  (* the last hidden layer *)
  destruct (final_act_snoc net a Ha) as (hs & l & Eh). rewrite Eh in *.
  destruct (wf_hidden_app _ _ _ _ H1) as (k & K1 & K2). cbn [wf_hidden] in K2. destruct K2 as (K2 & K3 & K4).
  destruct (until_last_ct_snoc _ _ _ _ _ _ _ _ _ _ Eu) as (z0 & J0 & d & U0 & Uf & Ud & EJ).
  destruct (until_last_ct_value _ _ _ _ _ _ _ _ _ _ K1 (new_vars_length _) U0) as [Lz0 _].
  assert (Lh : length (zhat r l z0) = length (weight l)) by now apply (zhat_length r k).
  destruct (forward_symbolic_spec b a (zhat r l z0) z K3 Uf) as [Lf Vf].
  destruct (derivative_symbolic_spec b a (zhat r l z0) d K3 Ud) as [Ld _].
  assert (Zpos : forall q, (q < m)%nat -> 0 <= eval s (nth q z (ENum 0))).
  { intros q Hq. rewrite Vf by lia. now apply pd_act_nonneg. }
  assert (Wpos : forall q, (q < m)%nat -> 0 <= weight_of (round_last r (last net)) 0 q).
  { intros q Hq. unfold weight_of. apply (round_nonneg_last r) in Hn. unfold nonneg_last in Hn.
    cbn [last round_net] in Hn. assert (W := wf_round_last r m _ H2). destruct W as [W _].
    assert (Lr : length (weight (round_last r (last net))) = 1%nat) by (simpl; now rewrite round_mat_length).
    destruct (weight (round_last r (last net))) as [|rw rs]; [discriminate|].
    apply Forall_cons_iff in Hn. destruct Hn as [Hn _]. apply Forall_cons_iff in W. destruct W as [W _].
    simpl. rewrite Forall_forall in Hn. apply Hn. apply nth_In. lia. }
  rewrite (last_z_value s r m _ z out H2 Lz El) in Hout. unfold neuron in Hout.
  replace (bias_of (round_last r (last net)) 0) with 0 in Hout.
  2:{ unfold bias_of, round_last. simpl. now rewrite Hbias. }
  rewrite Rplus_0_r in Hout.
  assert (Hz := sum_below_zero_terms m _ (fun q Hq => Rmult_le_pos _ _ (Wpos q Hq) (Zpos q Hq)) Hout).
  (* so the gradient vanishes *)
  set (jac := nth 0 (ematmul n (enum (round_mat r (weight (last net)))) J) []).
  assert (Hrow : Forall (fun q => length q = m) (round_mat r (weight (last net)))) by apply (wf_round_last r m _ H2).
  assert (Ljac : length jac = n).
  { unfold jac, ematmul. rewrite (map_nth_lt _ _ _ []) by (rewrite enum_length, round_mat_length; lia).
    now rewrite map_length, seq_length. }
  assert (LJ : length J = m).
  { rewrite EJ, ematmul_length, diagflat_length. lia. }
  assert (Hjac : forall j, (j < n)%nat -> eval s (nth j jac (ENum 0)) = 0).
  { intros j Hj. unfold jac. rewrite (ematmul_nth _ _ _ _ _ _ m).
    - apply sum_below_zero. intros q Hq. rewrite nth_enum.
      change (eval s (ENum (nth q (nth 0 (round_mat r (weight (last net))) []) 0%Q)))
        with (weight_of (round_last r (last net)) 0 q).
      destruct (Rmult_integral _ _ (Hz q Hq)) as [->|Zq]; [ring|].
      rewrite EJ. rewrite ematmul_diag; [|rewrite ematmul_length, enum_length, round_mat_length; lia|lia|auto].
      rewrite (pd_act_flat b a (zhat r l z0) d s q); auto; [ring|lia|]. rewrite <- Vf by lia. exact Zq.
    - rewrite enum_length, round_mat_length. lia.
    - exact Hj.
    - unfold enum. rewrite (map_nth_lt _ _ _ []) by (rewrite round_mat_length; lia).
      rewrite map_length. apply row_length; auto. rewrite round_mat_length. lia.
    - exact LJ. }
  assert (Hout' : eval s out = 0).
  { rewrite (last_z_value s r m _ z out H2 Lz El). unfold neuron.
    replace (bias_of (round_last r (last net)) 0) with 0; [now rewrite Rplus_0_r|].
    unfold bias_of, round_last. simpl. now rewrite Hbias. }
  rewrite (eval_edot _ _ _ n).
  - apply sum_below_zero. intros j Hj.
    rewrite (map2_nth _ _ _ (ENum 0) (ENum 0)) by (rewrite ?map_length; lia).
    rewrite !(map_nth_lt _ _ _ (ENum 0)) by lia. cbn [eval binop_eval]. rewrite Hjac, Hout' by auto. ring.
  - rewrite map2_length, !map_length. lia.
  - exact Hxd.
Qed.

(** ** Trained networks *)
Lemma trained_facts h random :
  wf_net random -> is_positive_definite random = true -> h <> [] ->
  Forall (fun ps => optimiser true (snd ps)) h ->
  let net := train true h (init_learner true random) in
  wf_net net /\ in_size net = in_size random /\ nonneg_last net /\ bias (last net) = None /\
  exists a, final_act net = Some a /\ pd_act a = true.
Proof.
  intros Hw Hp Hh Ho. cbv zeta.
  assert (Hs : same_shape random (train true h (init_learner true random))).
  { eapply same_shape_trans; [apply (init_shape true)|]. now apply train_shape. }
  unfold is_positive_definite in Hp. apply andb_true_iff in Hp. destruct Hp as [Hp Hb].
  split; [|split; [|split; [|split]]].
  - now apply (same_shape_wf random).
  - symmetry. apply Hs.
  - apply train_nonneg; auto. intros Ht. apply init_ones.
    now rewrite (same_shape_take_abs true random (init_learner true random) (init_shape true random)).
  - apply (same_shape_bias random); auto. now destruct (bias (last random)).
  - rewrite <- (same_shape_final random _ Hs). destruct (final_act random) as [a|]; [|discriminate].
    now exists a.
Qed.

Lemma translated_nonneg b simp r quad net xdot V Vdot a :
  b <> SCVC5 -> wf_net net -> final_act net = Some a -> pd_act a = true ->
  bias (last net) = None -> nonneg_last net ->
  translate_ct b simp r quad net (new_vars (in_size net)) xdot = Some (V, Vdot) ->
  forall s, 0 <= eval s V.
Proof.
  intros Hb Hw Ha Hp Hbias Hn H s.
  rewrite (translate_ct_value _ _ _ _ _ _ _ _ Hb Hw H). unfold cert_value. apply Rmult_le_pos.
  - apply (net_value_nonneg _ a); auto using wf_round_net, round_nonneg_last.
    now rewrite final_act_round.
  - destruct quad; [apply sum_squares_nonneg|lra].
Qed.

(** C26a: a network that fossil considers positive definite, trained with LLO by any
    optimiser for any number of CEGIS iterations, yields a candidate that is
    non-negative everywhere, whatever the rounding, the factor and the back-end. *)
Theorem C26_candidate_nonnegative :
  forall random h b simp r quad xdot V Vdot,
    wf_net random -> is_positive_definite random = true ->
    h <> [] -> Forall (fun ps => optimiser true (snd ps)) h -> b <> SCVC5 ->
    translate_ct b simp r quad (train true h (init_learner true random)) (new_vars (in_size random)) xdot
      = Some (V, Vdot) ->
    forall s, 0 <= sem V s.
Proof.
  intros random h b simp r quad xdot V Vdot Hw Hp Hh Ho Hb H s.
  destruct (trained_facts h random Hw Hp Hh Ho) as (W & I & N & B & a & A & P). rewrite <- I in H.
  now apply (translated_nonneg b simp r quad (train true h (init_learner true random)) xdot V Vdot a).
Qed.

(** C26b: hence, although with LLO the verifier only refutes [Vdot >= 0], success gives
    both Lyapunov conditions away from the origin. *)
Theorem C26_llo_positivity :
  forall random h b simp r quad xdot V Vdot d,
    wf_net random -> is_positive_definite random = true ->
    h <> [] -> Forall (fun ps => optimiser true (snd ps)) h -> b <> SCVC5 ->
    length xdot = in_size random ->
    translate_ct b simp r quad (train true h (init_learner true random)) (new_vars (in_size random)) xdot
      = Some (V, Vdot) ->
    certified (lyapunov_constraints true (new_vars (in_size random)) d V Vdot) ->
    forall s, inside d XD s -> ~ origin (in_size random) s -> 0 < sem V s /\ sem Vdot s < 0.
Proof.
  intros random h b simp r quad xdot V Vdot d Hw Hp Hh Ho Hb Hx H Hc s Hs Hno.
  destruct (trained_facts h random Hw Hp Hh Ho) as (W & I & N & B & a & A & P).
  apply certified_lyapunov in Hc. rewrite <- I in H, Hx, Hno.
  assert (Hd : sem Vdot s < 0) by (apply Hc; auto; now rewrite <- I).
  split; auto.
  assert (Hv := translated_nonneg b simp r quad (train true h (init_learner true random)) xdot V Vdot a Hb W A P B N H s). unfold sem in *.
  destruct Hv as [Hv|Hv]; auto. exfalso.
  assert (E := llo_flat b simp r quad (train true h (init_learner true random)) xdot V Vdot a s Hb W Hx A P B N H Hno (eq_sym Hv)). lra.
Qed.

(** C26c: the same for a region of attraction. *)
Theorem C26_llo_positivity_roa :
  forall random h b simp r quad xdot V Vdot d beta,
    wf_net random -> is_positive_definite random = true ->
    h <> [] -> Forall (fun ps => optimiser true (snd ps)) h -> b <> SCVC5 ->
    length xdot = in_size random ->
    translate_ct b simp r quad (train true h (init_learner true random)) (new_vars (in_size random)) xdot
      = Some (V, Vdot) ->
    certified (roa_constraints true (new_vars (in_size random)) d beta V Vdot) ->
    forall s, sem V s <= 11/10 * Q2R beta -> 1/100 * (1/100) < sqnorm (in_size random) s ->
      0 < sem V s /\ sem Vdot s < 0.
Proof.
  intros random h b simp r quad xdot V Vdot d beta Hw Hp Hh Ho Hb Hx H Hc s Hs Hno.
  destruct (trained_facts h random Hw Hp Hh Ho) as (W & I & N & B & a & A & P).
  apply certified_roa in Hc. rewrite <- I in H, Hx.
  assert (Hd : sem Vdot s < 0) by now apply Hc.
  split; auto.
  assert (Hv := translated_nonneg b simp r quad (train true h (init_learner true random)) xdot V Vdot a Hb W A P B N H s). unfold sem in *.
  destruct Hv as [Hv|Hv]; auto. exfalso.
  assert (Hor : ~ origin (in_size (train true h (init_learner true random))) s).
  { rewrite I. intros Z. assert (E : sqnorm (in_size random) s = 0); [|lra]. clear - Z. unfold origin in Z.
    induction (in_size random) as [|k IH]; simpl; auto. rewrite IH by (intros; apply Z; lia).
    rewrite (Z k) by lia. ring. }
  assert (E := llo_flat b simp r quad (train true h (init_learner true random)) xdot V Vdot a s Hb W Hx A P B N H Hor (eq_sym Hv)). lra.
Qed.

(** C26d: discrete time (without the quadratic factor, see C23_quadratic_factor_refuted):
    V decreases to a non-negative value, hence was positive. *)
Theorem C26_llo_positivity_discrete :
  forall random h b r xdot V dV d,
    wf_net random -> is_positive_definite random = true ->
    h <> [] -> Forall (fun ps => optimiser true (snd ps)) h ->
    length xdot = in_size random ->
    translate_dt b r false (train true h (init_learner true random)) (new_vars (in_size random)) xdot
      = Some (V, dV) ->
    certified (lyapunov_constraints true (new_vars (in_size random)) d V dV) ->
    forall s, inside d XD s -> ~ origin (in_size random) s ->
      0 < sem V s /\ forall s', (forall i, (i < in_size random)%nat -> s' i = field xdot s i) -> sem V s' < sem V s.
Proof.
  intros random h b r xdot V dV d Hw Hp Hh Ho Hx H Hc s Hs Hno.
  destruct (trained_facts h random Hw Hp Hh Ho) as (W & I & N & B & a & A & P).
  apply certified_lyapunov in Hc. destruct (Hc s Hs Hno) as [_ Hd]. rewrite <- I in H, Hx, Hno.
  assert (Hv : forall s', 0 <= net_value (round_net r (train true h (init_learner true random))) s').
  { intros s'. apply (net_value_nonneg _ a); auto using wf_round_net, round_nonneg_last.
    now rewrite final_act_round. }
  unfold sem in *. destruct (translate_dt_value _ _ _ _ _ _ W Hx H s) as [E1 E2].
  assert (Hf := Hv (field xdot s)). split; [lra|]. intros s' Hs'.
  assert (Hl := C23_discrete_difference b r _ xdot V dV W Hx H s s'). unfold sem in Hl.
  rewrite I in Hl. specialize (Hl Hs'). lra.
Qed.

(** *** The hypotheses are met: V = (x/2)^2 or cosh x - 1 for x' = -x on [-4,4], with a
    negative random output weight and an optimiser that negates every parameter. *)
Definition opp_layer (l : layer) : layer :=
  {| weight := map (map Qopp) (weight l); bias := option_map (map Qopp) (bias l) |}.
Definition opp_step (llo : bool) (t : nat) (net : network) : network :=
  {| in_size := in_size net; hidden := map (fun la => (opp_layer (fst la), snd la)) (hidden net);
     last := if last_registered llo net then opp_layer (last net) else last net |}.
Lemma opp_optimiser llo : optimiser llo (opp_step llo).
Proof.
  assert (Hl : forall l : option (list Q), option_map (@length Q) l = option_map (@length Q) (option_map (map Qopp) l)).
  { intros [l|]; simpl; [now rewrite map_length|reflexivity]. }
  intros t net. split.
  - repeat split; cbn [in_size hidden last opp_step].
    + rewrite map_map. apply map_ext. intros [l a]. cbn [fst snd opp_layer weight bias].
      now rewrite map_map_length, <- Hl.
    + destruct (last_registered llo net); auto. symmetry. apply map_map_length.
    + destruct (last_registered llo net); auto. apply Hl.
  - intros H. cbn [last opp_step]. now rewrite H.
Qed.
Definition llo_random (a : act) : network :=
  {| in_size := 1; hidden := [({| weight := [[1#2]]%Q; bias := None |}, a)];
     last := {| weight := [[-3]]%Q; bias := None |} |}.
Definition llo_history : history := [(fun _ _ => true, opp_step true)].
Definition llo_pair (a : act) : expr * expr :=
  match translate_ct SDREAL (fun e => e) 3 false (train true llo_history (init_learner true (llo_random a)))
          (new_vars 1) [EUn UNeg (EVar 0)] with Some p => p | None => (ENum 0, ENum 0) end.

Lemma llo_random_wf a : act_ok a -> wf_net (llo_random a).
Proof. intros H. exists 1%nat. simpl. unfold wf_layer. simpl. repeat split; auto; repeat constructor; discriminate. Qed.
Lemma llo_trained_square : train true llo_history (init_learner true (llo_random ASquare)) =
  {| in_size := 1; hidden := [({| weight := [[-1#2]]%Q; bias := None |}, ASquare)];
     last := {| weight := [[1]]%Q; bias := None |} |}.
Proof. vm_compute. reflexivity. Qed.
Lemma llo_trained_cosh : train true llo_history (init_learner true (llo_random ACosh)) =
  {| in_size := 1; hidden := [({| weight := [[-1#2]]%Q; bias := None |}, ACosh)];
     last := {| weight := [[3]]%Q; bias := None |} |}.
Proof. vm_compute. reflexivity. Qed.

Lemma sinh_sign x : 0 < x -> 0 < sinh x.
Proof.
  intros H. unfold sinh. assert (exp (- x) < exp x) by (apply exp_increasing; lra). lra.
Qed.
Lemma sinh_odd x : sinh (- x) = - sinh x.
Proof. unfold sinh. rewrite Ropp_involutive. lra. Qed.
Lemma x_sinh_pos x : x <> 0 -> 0 < x * sinh x.
Proof.
  intros H. destruct (Rdichotomy _ _ H) as [Hn|Hp].
  - assert (P := sinh_sign (- x) ltac:(lra)). rewrite sinh_odd in P. nra.
  - assert (P := sinh_sign x Hp). nra.
Qed.
Lemma not_origin_1 s : ~ origin 1 s -> s 0%nat <> 0.
Proof. intros H E. apply H. intros i Hi. replace i with 0%nat by lia. exact E. Qed.

Theorem C26_hypotheses_met :
  forall a, a = ASquare \/ a = ACosh ->
    wf_net (llo_random a) /\ is_positive_definite (llo_random a) = true /\
    Forall (fun ps => optimiser true (snd ps)) llo_history /\
    translate_ct SDREAL (fun e => e) 3 false (train true llo_history (init_learner true (llo_random a)))
      (new_vars 1) [EUn UNeg (EVar 0)] = Some (llo_pair a) /\
    certified (lyapunov_constraints true (new_vars 1) ex_sets (fst (llo_pair a)) (snd (llo_pair a))) /\
    certified (roa_constraints true (new_vars 1) ex_sets 5 (fst (llo_pair a)) (snd (llo_pair a))).
Proof.
  intros a Ha.
  assert (HE : (exists p, translate_ct SDREAL (fun e => e) 3 false
     (train true llo_history (init_learner true (llo_random a))) (new_vars 1) [EUn UNeg (EVar 0)] = Some p) ->
     translate_ct SDREAL (fun e => e) 3 false (train true llo_history (init_learner true (llo_random a)))
      (new_vars 1) [EUn UNeg (EVar 0)] = Some (llo_pair a)).
  { intros [p E]. unfold llo_pair. now rewrite E. }
  split; [apply llo_random_wf; destruct Ha as [->| ->]; exact I|].
  split; [destruct Ha as [->| ->]; reflexivity|].
  split; [repeat constructor; apply opp_optimiser|].
  split.
  { apply HE. destruct Ha as [->| ->]; eexists; vm_compute; reflexivity. }
  assert (HV : (forall s, ~ origin 1 s -> sem (snd (llo_pair a)) s < 0) /\
               (forall s, -1 <= s 0%nat <= 1 -> sem (fst (llo_pair a)) s <= 11/2)).
  { destruct Ha as [->| ->].
    - unfold llo_pair. rewrite llo_trained_square. unfold sem. cbn -[Q2R round_num]. split.
      + intros s Ho. apply not_origin_1 in Ho. q2r. destruct (Rdichotomy _ _ Ho); nra.
      + intros s Hs. q2r. nra.
    - unfold llo_pair. rewrite llo_trained_cosh. unfold sem. cbn -[Q2R round_num sinh cosh]. split.
      + intros s Ho. apply not_origin_1 in Ho. q2r.
        match goal with |- context [sinh ?z] => set (y := z) end.
        assert (Hy : y <> 0) by (unfold y; lra).
        assert (P := x_sinh_pos y Hy). assert (Es : s 0%nat = -2 * y) by (unfold y; lra).
        rewrite Es. nra.
      + intros s Hs. q2r. match goal with |- context [cosh ?z] => set (y := z) end.
        assert (Hy : -1/2 <= y <= 1/2) by (unfold y; lra).
        assert (Hc : cosh y <= 2).
        { unfold cosh.
          assert (B1 : exp y <= exp 1) by (destruct (Rle_lt_or_eq_dec y 1 ltac:(lra)) as [L| ->]; [left; now apply exp_increasing|lra]).
          assert (B2 : exp (- y) <= 2).
          { apply Rle_trans with (exp (1/2)).
            - destruct (Rle_lt_or_eq_dec (- y) (1/2) ltac:(lra)) as [L| ->]; [left; now apply exp_increasing|lra].
            - assert (E : exp (1/2) * exp (1/2) = exp 1) by (rewrite <- exp_plus; f_equal; lra).
              assert (exp_3 := exp_le_3). assert (P := exp_pos (1/2)). nra. }
          assert (B3 : exp y <= 2).
          { apply Rle_trans with (exp (1/2)).
            - destruct (Rle_lt_or_eq_dec y (1/2) ltac:(lra)) as [L| ->]; [left; now apply exp_increasing|lra].
            - assert (E : exp (1/2) * exp (1/2) = exp 1) by (rewrite <- exp_plus; f_equal; lra).
              assert (exp_3 := exp_le_3). assert (P := exp_pos (1/2)). nra. }
          lra. }
        lra. }
  destruct HV as [HV HI]. split.
  - apply refuted_certified;
      [apply (C01_certificate_labels_distinct true (new_vars 1) ex_sets 0
         (fst (llo_pair a)) (fst (llo_pair a)) (snd (llo_pair a)) (snd (llo_pair a)))|].
    apply C06_lyapunov_obligations. intros s _ Ho. split; [discriminate|]. now apply HV.
  - apply refuted_certified;
      [apply (C01_certificate_labels_distinct true (new_vars 1) ex_sets 5
         (fst (llo_pair a)) (fst (llo_pair a)) (snd (llo_pair a)) (snd (llo_pair a)))|].
    apply C07_roa_obligations. split.
    + intros s Hs. unfold inside, ex_sets in Hs. rewrite iv_holds in Hs. q2r_in Hs.
      replace (Q2R 5) with 5 by (unfold Q2R; simpl; lra). replace (11/10*5) with (11/2) by lra. apply HI. lra.
    + intros s _ Hq. apply HV. intros Ho. assert (E := Ho 0%nat ltac:(lia)). simpl in Hq. rewrite E in Hq. lra.
Qed.

(** ** Violations *)

(** With an odd polynomial as last activation [is_positive_definite] is false, which
    only prints a warning (learner.py:85-88): LLO training gives V = x^3, the verifier
    does not look at its sign, and x' = -x^2 is certified although 0 is unstable. *)
Definition cubic_random : network :=
  {| in_size := 1; hidden := [({| weight := [[1]]%Q; bias := None |}, APolyN 3)];
     last := {| weight := [[7]]%Q; bias := None |} |}.
Definition cubic_history : history := [(fun _ _ => true, fun _ net => net)].
Definition cubic_field : list expr := [EUn UNeg (EPow (EVar 0) 2)].
Definition cubic_pair : expr * expr :=
  match translate_ct SZ3 (fun e => e) 3 false (train true cubic_history (init_learner true cubic_random))
          (new_vars 1) cubic_field with Some p => p | None => (ENum 0, ENum 0) end.
Lemma cubic_trained : train true cubic_history (init_learner true cubic_random) =
  {| in_size := 1; hidden := [({| weight := [[1]]%Q; bias := None |}, APolyN 3)];
     last := {| weight := [[1]]%Q; bias := None |} |}.
Proof. vm_compute. reflexivity. Qed.
Lemma id_optimiser llo : optimiser llo (fun _ net => net).
Proof. intros t net. split; auto. apply same_shape_refl. Qed.

Theorem C26_warning_only_refuted :
  activation_fcn POLY_3 = Some (APolyN 3) /\ wf_net cubic_random /\
  is_positive_definite cubic_random = false /\
  Forall (fun ps => optimiser true (snd ps)) cubic_history /\
  translate_ct SZ3 (fun e => e) 3 false (train true cubic_history (init_learner true cubic_random))
    (new_vars 1) cubic_field = Some cubic_pair /\
  certified (lyapunov_constraints true (new_vars 1) ex_sets (fst cubic_pair) (snd cubic_pair)) /\
  (exists s, inside ex_sets XD s /\ sem (fst cubic_pair) s < 0) /\
  ~ stable 1 (field cubic_field).
Proof.
  assert (EV : forall s, eval s (fst cubic_pair) = s 0%nat ^ 3).
  { intros s. unfold cubic_pair. rewrite cubic_trained. cbn -[Q2R round_num]. q2r. field. }
  assert (EW : forall s, eval s (snd cubic_pair) = - 3 * s 0%nat ^ 4).
  { intros s. unfold cubic_pair. rewrite cubic_trained. cbn -[Q2R round_num]. q2r. field. }
  split; [reflexivity|]. split.
  { exists 1%nat. simpl. unfold wf_layer. simpl. repeat split; auto; repeat constructor; discriminate. }
  split; [reflexivity|]. split; [repeat constructor; apply id_optimiser|].
  split; [unfold cubic_pair; vm_compute; reflexivity|]. split; [|split].
  - apply refuted_certified;
      [apply (C01_certificate_labels_distinct true (new_vars 1) ex_sets 0
         (fst cubic_pair) (fst cubic_pair) (snd cubic_pair) (snd cubic_pair))|].
    apply C06_lyapunov_obligations. intros s _ Ho. apply not_origin_1 in Ho. split; [discriminate|].
    unfold sem. rewrite EW. assert (0 < s 0%nat * s 0%nat) by (destruct (Rdichotomy _ _ Ho); nra). nra.
  - exists (fun _ => -1). unfold sem. rewrite EV. split; [|lra]. exnum. lra.
  - intros H. destruct (H 1 ltac:(lra)) as (d & Hd & Hs).
    set (c := Rmin d 1 / 2).
    assert (Hc : 0 < c /\ c < d /\ c <= 1/2).
    { unfold c. assert (A := Rmin_l d 1). assert (B := Rmin_r d 1). assert (0 < Rmin d 1) by (apply Rmin_glb_lt; lra). lra. }
    set (T := / c - 1).
    assert (HT : 0 <= T). { unfold T. assert (2 <= / c); [|lra]. replace 2 with (/ (1/2)) by lra. apply Rinv_le_contravar; lra. }
    specialize (Hs (fun t _ => / (t - / c)) T HT).
    assert (Hn : near 1 1 (fun _ => / (T - / c))).
    { apply Hs with (t := T); [| |lra].
      - intros t Ht i Hi. replace i with 0%nat by lia. unfold field. cbn -[Q2R].
        assert (t - / c < 0) by (unfold T in Ht; lra).
        auto_derive; [lra|]. change (t + - / c) with (t - / c). set (w := t - / c) in *. field. lra.
      - intros i Hi. replace (/ (0 - / c)) with (- c) by (field; lra). rewrite Rabs_Ropp, Rabs_pos_eq; lra. }
    specialize (Hn 0%nat ltac:(lia)). unfold T in Hn. replace (/ c - 1 - / c) with (-1) in Hn by ring.
    replace (/ -1) with (-1) in Hn by lra. rewrite Rabs_left in Hn; lra.
Qed.

(** Refuted conditions can be certified, also when labels repeat. *)
Lemma dset_forall {A} (P : A -> Prop) l v (d : list (label * A)) :
  P v -> Forall (fun p => P (snd p)) d -> Forall (fun p => P (snd p)) (dset l v d).
Proof.
  intros Hv. induction d as [|[l' v'] d IH]; intros H; simpl; [repeat constructor; auto|].
  apply Forall_cons_iff in H. destruct H. destruct (label_eqb l' l); constructor; auto.
Qed.
Lemma refuted_certified' gs : refuted gs -> certified gs.
Proof.
  intros Hr. exists (smt_backend (fun _ _ => Unsat)), (fun _ _ _ => 0%R). split; [split|].
  - intros k g l f Hg Hl _. exact (Hr g l f Hg Hl).
  - intros k f H. discriminate.
  - set (be := smt_backend (fun _ _ => Unsat)).
    assert (HG : forall g k r, Forall (fun p => snd p = Unsat) r -> Forall (fun p => snd p = Unsat) (snd (run_group be k g r))).
    { induction g as [|[l c] g IH]; intros k r H; simpl; auto. apply IH. now apply (dset_forall (fun a => a = Unsat)). }
    assert (HS : forall k r, Forall (fun p => snd p = Unsat) r -> Forall (fun p => snd p = Unsat) (snd (run_groups be k gs r))).
    { clear Hr. induction gs as [|g gs IH]; intros k r H; simpl; auto.
      specialize (HG g k r H). destruct (run_group be k g r) as [k' r']. destruct (any_sat be r'); auto. }
    unfold verify. specialize (HS 0%nat [] (Forall_nil _)).
    replace (forallb _ _) with true; auto. symmetry. apply forallb_forall. intros p Hp.
    rewrite Forall_forall in HS. specialize (HS p Hp). destruct p as [l a]. simpl in *. now subst a.
Qed.

(** STABLESAFE (SafeROA) never calls [make_final_layer_positive]: even with a positive
    definite activation the output weight can be negative, and x' = x is certified to
    have a region of attraction although every motion but one runs away. *)
Definition hat_random : network :=
  {| in_size := 1; hidden := [({| weight := [[1]]%Q; bias := None |}, ACosh)];
     last := {| weight := [[-1]]%Q; bias := None |} |}.
Definition dish_net : network :=
  {| in_size := 1; hidden := [({| weight := [[1]]%Q; bias := None |}, ASquare)];
     last := {| weight := [[1]]%Q; bias := Some [-5]%Q |} |}.
Definition run_sets : sets := fun l =>
  match l with XD => iv_fml (-2) 2 | XI => iv_fml (-1) 1 | XU => iv_fml 3 4 | _ => FTrue end.
Definition hat_pair : expr * expr :=
  match translate_ct SDREAL (fun e => e) 3 false (train_safe_roa cubic_history (init_learner true hat_random))
          (new_vars 1) [EVar 0] with Some p => p | None => (ENum 0, ENum 0) end.
Definition dish_pair : expr * expr :=
  match translate_ct SDREAL (fun e => e) 3 false dish_net (new_vars 1) [EVar 0] with
  | Some p => p | None => (ENum 0, ENum 0) end.
Lemma hat_trained : train_safe_roa cubic_history (init_learner true hat_random) = hat_random.
Proof. vm_compute. reflexivity. Qed.

Theorem C26_stablesafe_sign_refuted :
  wf_net hat_random /\ is_positive_definite hat_random = true /\
  Forall (fun ps => optimiser true (snd ps)) cubic_history /\
  translate_ct SDREAL (fun e => e) 3 false (train_safe_roa cubic_history (init_learner true hat_random))
    (new_vars 1) [EVar 0] = Some hat_pair /\
  translate_ct SDREAL (fun e => e) 3 false dish_net (new_vars 1) [EVar 0] = Some dish_pair /\
  certified (safe_roa_constraints true (new_vars 1) run_sets 0
    (fst hat_pair) (fst dish_pair) (snd hat_pair) (snd dish_pair)) /\
  (forall s, ~ origin 1 s -> sem (fst hat_pair) s < 0) /\
  exists x, solves_forever 1 (field [EVar 0]) x /\ inside run_sets XI (x 0) /\
    forall t, 0 <= t -> 1 <= x t 0%nat.
Proof.
  assert (EV : forall s, eval s (fst hat_pair) = - (cosh (s 0%nat) - 1)).
  { intros s. unfold hat_pair. rewrite hat_trained. cbn -[Q2R round_num cosh sinh]. q2r.
    match goal with |- context [cosh ?z] => replace z with (s 0%nat) by lra end. lra. }
  assert (EW : forall s, eval s (snd hat_pair) = - (s 0%nat * sinh (s 0%nat))).
  { intros s. unfold hat_pair. rewrite hat_trained. cbn -[Q2R round_num cosh sinh]. q2r.
    match goal with |- context [sinh ?z] => replace z with (s 0%nat) by lra end. field. }
  assert (EB : forall s, eval s (fst dish_pair) = s 0%nat ^ 2 - 5).
  { intros s. unfold dish_pair. cbn -[Q2R round_num]. q2r. field. }
  assert (Hneg : forall s, ~ origin 1 s -> sem (fst hat_pair) s < 0).
  { intros s Ho. apply not_origin_1 in Ho. unfold sem. rewrite EV.
    assert (P := pd_act_nonneg ACosh 1 0 (s 0%nat) eq_refl). simpl in P.
    destruct (Req_dec (cosh (s 0%nat)) 1) as [E|E]; [|lra]. exfalso.
    unfold cosh in E. assert (P1 := exp_pos (s 0%nat)). rewrite exp_Ropp in E.
    assert (E1 : exp (s 0%nat) * / exp (s 0%nat) = 1) by (field; lra).
    assert (E2 : exp (s 0%nat) = 1).
    { assert (Q : (exp (s 0%nat) - 1) * (exp (s 0%nat) - 1) = 0); [|nra].
      replace ((exp (s 0%nat) - 1) * (exp (s 0%nat) - 1)) with
        (exp (s 0%nat) * (exp (s 0%nat) + / exp (s 0%nat) - 2) + (1 - exp (s 0%nat) * / exp (s 0%nat))) by ring.
      rewrite E1. replace (exp (s 0%nat) + / exp (s 0%nat) - 2) with 0 by lra. ring. }
    rewrite <- exp_0 in E2. apply exp_inv in E2. auto. }
  split. { exists 1%nat. simpl. unfold wf_layer. simpl. repeat split; auto; repeat constructor; discriminate. }
  split; [reflexivity|]. split; [repeat constructor; apply id_optimiser|].
  split; [unfold hat_pair; vm_compute; reflexivity|].
  split; [unfold dish_pair; vm_compute; reflexivity|]. split; [|split; [exact Hneg|]].
  - apply refuted_certified'. apply C12_stablesafe_obligations. unfold inside, run_sets, sem. split; split.
    + intros s Hs. rewrite EV. rewrite Q2R_0. assert (P := pd_act_nonneg ACosh 1 0 (s 0%nat) eq_refl). simpl in P. lra.
    + intros s _ Hs. rewrite EW. assert (P := x_sinh_pos (s 0%nat)). apply Ropp_lt_gt_0_contravar, P.
      intros E. simpl in Hs. rewrite E in Hs. lra.
    + intros s H1 H2. unfold inside, run_sets, sem in *. rewrite ?iv_holds in *. q2r_in H1. rewrite EB. nra.
    + split.
      * intros s H1 H2. unfold inside, run_sets, sem in *. rewrite ?iv_holds in *. q2r_in H1. q2r_in H2. lra.
      * intros s H1 H2. unfold inside, run_sets, sem in *. rewrite ?iv_holds in *. q2r_in H1. rewrite EB in H2. nra.
  - exists (fun t _ => exp t). split; [|split].
    + intros t _ i Hi. replace i with 0%nat by lia. unfold field. simpl. auto_derive; auto. ring.
    + unfold inside, run_sets. rewrite iv_holds. rewrite exp_0. q2r. lra.
    + intros t Ht. rewrite <- exp_0. destruct Ht as [Ht| <-]; [left; now apply exp_increasing|lra].
Qed.

(** C26d: which output layer.  With LLO and a last activation whose type name contains "POLY" or "SQUARE", the weights of
    the output layer are ones, when the learner is made and after any training; for the other activations the learner
    starts from the weights as drawn, and so it does without LLO. *)
Lemma train_fixed h : forall net, Forall (fun ps => optimiser true (snd ps)) h -> take_abs true net = false ->
  weight (last (train true h net)) = weight (last net).
Proof.
  induction h as [|ps h IH]; intros net H E; [reflexivity|]. apply Forall_cons_iff in H. destruct H as [H1 H2].
  rewrite train_cons. rewrite IH; auto.
  - unfold learn. rewrite E. apply (learn_loop_fixed true); auto. unfold last_registered. now rewrite E.
  - now rewrite <- (same_shape_take_abs true net _ (learn_shape true ps net H1)).
Qed.
Theorem C26_layer_of_ones : forall random hs l a h,
  hidden random = hs ++ [(l, a)] ->
  (a = ASquare \/ a = APoly2 \/ a = ATanhSquared \/ a = AShiftedSoftplusSquare \/ (exists n, a = APolyN n) \/ (exists n, a = AEvenPolyN n)) ->
  Forall (fun ps => optimiser true (snd ps)) h ->
  Forall (Forall (fun w => w = 1%Q)) (weight (last (train true h (init_learner true random)))).
Proof.
  intros random hs l a h E Ha Ho.
  assert (T : take_abs true random = false).
  { unfold take_abs, is_final_polynomial, final_act. rewrite E, rev_app_distr. cbn [rev app].
    destruct Ha as [-> | [-> | [-> | [-> | [[n ->] | [n ->]]]]]]; reflexivity. }
  rewrite train_fixed; auto.
  - unfold init_learner. rewrite T. cbn. rewrite Forall_map. apply Forall_forall. intros r _. rewrite Forall_map. now apply Forall_forall.
  - now rewrite <- (same_shape_take_abs true random _ (init_shape true random)).
Qed.
Theorem C26_layer_as_drawn : forall llo random,
  (forall hs l a, llo = true -> hidden random = hs ++ [(l, a)] ->
     a <> ASquare /\ a <> APoly2 /\ a <> ATanhSquared /\ a <> AShiftedSoftplusSquare /\ (forall n, a <> APolyN n) /\ (forall n, a <> AEvenPolyN n)) ->
  init_learner llo random = random.
Proof.
  intros llo random H. unfold init_learner, take_abs. destruct llo; [|reflexivity]. cbn.
  destruct (is_final_polynomial random) eqn:E; [exfalso|reflexivity]. unfold is_final_polynomial in E.
  destruct (final_act random) as [a|] eqn:F; [|discriminate]. destruct (final_act_snoc random a F) as (hs & l & Eh).
  destruct (H hs l a eq_refl Eh) as (H1 & H2 & H3 & H4 & H5 & H6). destruct a; cbn in E; try discriminate E; try congruence.
Qed.

Example C26_layer_of_ones_example :
  hidden cubic_random = removelast (hidden cubic_random) ++ [(fst (List.last (hidden cubic_random) (last cubic_random, AReLU)), APolyN 3)] /\
  weight (last (train true cubic_history (init_learner true cubic_random))) = [[1%Q]].
Proof. vm_compute. split; reflexivity. Qed.
