(** C77: counterexamples are respected by the candidates that pass the training test. *)
From Coquelicot Require Import Coquelicot.
From Coq Require Import Reals QArith Qreals List Bool Arith ZArith Lra Lia.
From Verif Require Import M_Syntax M_Certificates M_Verifier M_Activations M_Domains M_Network M_Learner M_Cegis M_Fossil M_Learning M_Gradient
  S_Verifier S_Certificates S_Domains S_Network S_Learner S_Cegis S_Fossil S_Loops S_Learning S_Labels S_Start S_Progress
  L_Verifier L_Activations L_Holds L_Domains L_Network L_Learner L_Fossil P_Certificates P_Translator P_Learning P_Gradient P_Loops P_Cegis P_Start.
Import ListNotations.
Local Open Scope R_scope.

Lemma dict_eq (f : point -> point) : forall S' Sdot : dict, NoDup (keys S') -> keys Sdot = keys S' ->
  (forall l, rows l Sdot = map f (rows l S')) -> Sdot = map (fun e => (fst e, map f (snd e))) S'.
Proof.
  induction S' as [|[l r] S' IH]; intros [|[l' r'] Sdot] Hn Hk Hr; try discriminate; [reflexivity|].
  cbn in Hk. injection Hk as -> Hk. cbn in Hn. apply NoDup_cons_iff in Hn. destruct Hn as [N1 N2]. cbn [map fst snd]. f_equal.
  - f_equal. specialize (Hr l). rewrite !rows_cons, label_eqb_refl in Hr. exact Hr.
  - apply IH; auto. intros m. specialize (Hr m). rewrite !rows_cons in Hr. destruct (label_eqb l m) eqn:E; [|exact Hr].
    apply label_eqb_spec in E. subst m. rewrite (rows_not_key l S') by exact N1. rewrite (rows_not_key l Sdot); [reflexivity|]. unfold keys in *. now rewrite Hk.
Qed.
Lemma lookup_rows l (S : dict) : In l (keys S) -> dlookup l S = Some (rows l S).
Proof. intros H. apply dlookup_keys in H. unfold rows. destruct (dlookup l S); [reflexivity|contradiction]. Qed.
Lemma few_violations (Bd : list R) n : number_of (fun i => exists d, nth_error Bd i = Some d /\ - (5/100) < d) n -> (length Bd < 1000)%nat ->
  (1000 * n <= length Bd)%nat -> forall d, In d Bd -> d <= - (5/100).
Proof.
  intros (ps & _ & H & L) Hl Hn d Hd. assert (n = 0%nat) by lia. subst n. destruct ps; [|discriminate]. apply Rnot_lt_le. intros C.
  destruct (In_nth_error _ _ Hd) as [i Hi]. apply (H i). now exists d.
Qed.

Section Respect.
  Context {K : Type} (pb : problem K) (env : environment K) (xdot : list expr) (random : network) (ctrl : K) (D : dict).
  Hypothesis Hsys : without_controller pb xdot.
  Hypothesis Hlaw : lawful pb env.
  Hypothesis Hwf : wf_net random.
  Hypothesis Hin : in_size random = pb_n pb.
  Hypothesis Hround : (pb_rounding pb < 0)%Z.
  Hypothesis Hlib : pb_discrete pb = false -> pb_symb pb <> SCVC5.
  Hypothesis Hquad : pb_discrete pb = true -> pb_quad pb = false.
  Hypothesis Hsampled : sampled (pb_type pb) D.
  Hypothesis Hnodup : NoDup (keys D).
  Let k := fossil pb env.
  Let start := initial pb random ctrl.
  Let f := pb_f pb ctrl.

  Lemma trained_shape it st p c : trained pb env start D it st p c -> wf_net (l_net p) /\ in_size (l_net p) = pb_n pb.
  Proof.
    intros (Hv & Hl & _). pose proof (visited_shape pb env Hlaw _ _ _ _ _ Hv) as S1. cbn [c_learn fossil] in Hl. unfold fossil_learn in Hl.
    assert (S2 : same_shape random (l_net p)).
    { eapply same_shape_trans; [exact S1|]. apply P_Activations.Some_eq' in Hl. subst p. cbn [l_net]. now apply learn_network_shape. }
    split; [now apply (same_shape_wf random)|]. destruct S2 as (E & _). congruence.
  Qed.
  Lemma data_images it st : visited k start D it st -> images_of f None (st_S st) (st_Sdot st).
  Proof.
    intros Hv. right. split; [reflexivity|]. pose proof (single_labels K pb env D Hsampled) as Hc.
    destruct (visited_data k start D it st Hc Hv) as (A & B & _). apply dict_eq.
    - unfold keys in *. now rewrite A.
    - unfold keys in *. congruence.
    - destruct Hsys as (_ & _ & E & _). apply (visited_data_const k start D it st Hc Hv). intros p q x. apply E.
  Qed.
  Lemma data_lookup it st l : visited k start D it st -> needs_data (pb_type pb) l -> dlookup l (st_S st) = Some (rows l (st_S st)).
  Proof.
    intros Hv Hl. apply lookup_rows. destruct (visited_data k start D it st (single_labels K pb env D Hsampled) Hv) as (A & _).
    unfold keys in *. rewrite A. now apply Hsampled.
  Qed.
  (** At a sample the learner and the formulas agree. *)
  Lemma agree it st p c x : trained pb env start D it st p c -> length x = pb_n pb -> softplus_ok (l_net p) (state_of x) ->
    (pb_discrete pb = true -> softplus_ok (l_net p) (state_of (f x))) ->
    value_at pb (l_net p) x = eval (state_of x) (fst c) /\ derivative_at pb (l_net p) x (f x) = eval (state_of x) (snd c).
  Proof.
    intros Ht Hx Hs Hs'. destruct (trained_shape _ _ _ _ Ht) as [W I]. destruct Ht as (_ & _ & Htr). cbn [c_translate fossil] in Htr.
    destruct Hsys as (Lx & Ex & _ & Ef). unfold fossil_translate in Htr. rewrite Ex in Htr. cbn [option_bind] in Htr.
    destruct c as [V Vdot]. cbn [fst snd]. specialize (Ef ctrl x Hx). fold f in Ef.
    assert (Er : f x = row (pb_n pb) (field xdot (state_of x))).
    { rewrite Ef. apply (nth_ext _ _ 0 0); [now rewrite map_length, row_length'|]. intros i Hi. rewrite map_length, Lx in Hi.
      rewrite row_nth by auto. unfold field. apply map_nth_lt. lia. }
    unfold value_at, derivative_at. destruct (pb_discrete pb) eqn:Ed.
    - rewrite (Hquad eq_refl) in *. rewrite <- I in Htr.
      destruct (C55_learner_agrees_discrete _ _ (l_net p) xdot V Vdot W ltac:(congruence) Htr) as (net' & A & _ & B).
      rewrite (A Hround) in B. specialize (B (state_of x) Hs).
      assert (Sf : softplus_ok (l_net p) (field xdot (state_of x))).
      { destruct W as (m & W1 & _). refine (hidden_all_ext _ _ _ m _ _ W1 _ (Hs' eq_refl)). intros i Hi. rewrite I in Hi. rewrite Er. unfold state_of. now apply row_nth. }
      specialize (B Sf). rewrite I, <- Er, (row_state_of (pb_n pb) x Hx) in B. unfold get_all_dt in *. cbn [snd] in *. injection B as B1 B2. auto.
    - rewrite <- I in Htr. destruct (C55_learner_agrees _ _ _ _ (l_net p) xdot V Vdot (Hlib eq_refl) W ltac:(congruence) Htr) as (net' & A & _ & B).
      rewrite (A Hround) in B. specialize (B (state_of x) Hs). rewrite I, <- Er, (row_state_of (pb_n pb) x Hx) in B.
      rewrite B. cbn [snd]. split; [|reflexivity]. rewrite <- (get_all_ct_value (pb_quad pb) (l_net p) x (f x)), B. reflexivity.
  Qed.
  Lemma grad_derivative net x xd : pb_discrete pb = false -> dot (learner_grad (pb_quad pb) net x) xd = derivative_at pb net x xd.
  Proof.
    intros E. unfold derivative_at. rewrite E. unfold get_all_ct, learner_grad. destruct (net_gradnet net x) as [nn g].
    destruct (V_gradV (pb_quad pb) nn g x) as [W gV]. cbn [snd]. unfold compute_dV. symmetry. apply Rsum_dot.
  Qed.

  (** What the test says about a sample. *)
  Definition learned_at (l : label) (v d : R) : Prop :=
    match pb_type pb, l with
    | (LYAPUNOV | ROA), XD => d <= 0 /\ (pb_llo pb = false -> 0 <= v)
    | BARRIER, XI => v <= 0
    | BARRIER, XU => 0 <= v
    | BARRIER, XD => v = 0 -> d <= 0
    | BARRIERALT, XI => v <= - (5/100)
    | BARRIERALT, XU => 5/100 <= v
    | BARRIERALT, XD => d <= - (5/100)
    | (RWS | RWA | RSWS | RSWA), XI => v <= 0
    | (RWS | RWA | RSWS | RSWA), XU => 0 <= v
    | (RWS | RWA | RSWS | RSWA), XD => v < 0 -> d <= - (1/100)
    | _, _ => True
    end.
  Lemma belt_zero symmetric v : v = 0 -> in_belt symmetric v.
  Proof. intros ->. unfold in_belt. destruct symmetric; [rewrite Rabs_R0; lra|lra]. Qed.
  Lemma test_at it st net l x : visited k start D it st -> training_test pb net (st_S st) (st_Sdot st) ->
    (pb_type pb <> LYAPUNOV -> pb_type pb <> ROA -> rows XI (st_S st) <> []) -> ~ left_out pb net (st_S st) l x (f x) ->
    (pb_discrete pb = true -> pb_type pb = LYAPUNOV \/ pb_type pb = BARRIERALT) ->
    In x (rows l (st_S st)) -> learned_at l (value_at pb net x) (derivative_at pb net x (f x)).
  Proof.
    intros Hv Ht Hsize Hout Hdisc Hx. pose proof (data_images it st Hv) as Him. pose proof (fun l => data_lookup it st l Hv) as Hd.
    unfold training_test in Ht. unfold learned_at. unfold left_out in Hout. unfold needs_data in Hd.
    assert (Hcont : pb_type pb <> LYAPUNOV -> pb_type pb <> BARRIERALT -> pb_discrete pb = false).
    { intros N1 N2. destruct (pb_discrete pb); [|reflexivity]. destruct (Hdisc eq_refl); contradiction. }
    assert (Hrws : rows XI (st_S st) <> [] -> ((1000 <= length (rows XD (st_S st)))%nat -> l = XD -> value_at pb net x < 0 -> derivative_at pb net x (f x) <= - (1/100)) -> pb_discrete pb = false ->
      dlookup XD (st_S st) = Some (rows XD (st_S st)) -> dlookup XI (st_S st) = Some (rows XI (st_S st)) -> dlookup XU (st_S st) = Some (rows XU (st_S st)) ->
      (exists b, rws_batch (value_at pb net) (learner_grad (pb_quad pb) net) None (st_S st) (st_Sdot st) = Some b /\ rws_ok b = Some true) ->
      match l with XI => value_at pb net x <= 0 | XU => 0 <= value_at pb net x | XD => value_at pb net x < 0 -> derivative_at pb net x (f x) <= - (1/100) | _ => True end).
    { intros N1 N2 Hc L1 L2 L3 (b & Hb & Hok).
      assert (Hsmall : l = XD -> value_at pb net x < 0 -> derivative_at pb net x (f x) <= - (1/100)).
      { intros ->. destruct (le_lt_dec 1000 (length (rows XD (st_S st)))) as [G|G]; [now apply N2|].
        destruct (C41_rws_samples _ _ _ _ _ _ _ _ _ _ Him L1 L2 L3 N1 G Hb Hok) as (_ & _ & C).
        intros Hneg. rewrite <- (grad_derivative net x (f x) Hc). now apply C. }
      rewrite (C40_rws _ _ f None _ _ _ _ _ Him L1 L2 L3) in Hb. injection Hb as <-.
      match type of Hok with rws_ok (?a, ?b, ?c, ?d, ?e) = _ => destruct (C41_rws a b c d e (or_introl (map_nonempty _ _ N1))) as (ok & n & bad & E & _ & _ & Hiff) end.
      assert (E' : Some ok = Some true) by (rewrite <- Hok; symmetry; exact E). injection E' as ->. destruct (proj1 Hiff eq_refl) as (A & B & _).
      destruct l; auto; [exact (Forall_map_in (value_at pb net) _ _ A x Hx)|exact (Forall_map_in (value_at pb net) _ _ B x Hx)]. }
    assert (Hshare : In (pb_type pb) [RWS; RWA; RSWS; RSWA] -> (1000 <= length (rows XD (st_S st)))%nat -> l = XD -> value_at pb net x < 0 -> derivative_at pb net x (f x) <= - (1/100)).
    { intros Hty Hl E Hneg. apply Rnot_lt_le. intros C. apply Hout. split; [exact E|]. split; [exact Hl|]. cbn zeta.
      cbn in Hty. destruct Hty as [<-|[<-|[<-|[<-|[]]]]]; auto. }
    destruct (pb_type pb) eqn:Ty; try contradiction.
    - destruct Ht as (act & sym & b & Hb & Hok). specialize (Hsize ltac:(discriminate) ltac:(discriminate)). rename Hsize into N1.
      assert (Hsmall : l = XD -> value_at pb net x = 0 -> derivative_at pb net x (f x) <= 0).
      { intros El Z. subst l. destruct (le_lt_dec 1000 (length (rows XD (st_S st)))) as [G|G].
        - apply Rnot_lt_le. intros C. apply Hout. cbn zeta. auto.
        - destruct (C41_barrier_samples _ _ _ _ _ _ _ _ _ _ _ _ Him (Hd XD ltac:(auto)) (Hd XI ltac:(auto)) (Hd XU ltac:(auto)) N1 G Hb Hok) as (_ & _ & C).
          apply C; [exact Hx|]. now apply belt_zero. }
      rewrite (C40_barrier _ _ f None _ _ _ _ _ Him (Hd XD ltac:(auto)) (Hd XI ltac:(auto)) (Hd XU ltac:(auto))) in Hb. injection Hb as <-.
      match type of Hok with barrier_ok _ _ (?a, ?b, ?c, ?d) = _ => destruct (C41_barrier act sym a b c d (or_introl (map_nonempty _ _ N1))) as (ok & n & bad & E & _ & _ & Hiff) end.
      assert (E' : Some ok = Some true) by (rewrite <- Hok; symmetry; exact E). injection E' as ->. destruct (proj1 Hiff eq_refl) as (A & B & _).
      destruct l; auto; [exact (Forall_map_in (value_at pb net) _ _ A x Hx)|exact (Forall_map_in (value_at pb net) _ _ B x Hx)].
    - destruct Ht as (b & Hb & Hok). specialize (Hsize ltac:(discriminate) ltac:(discriminate)). rename Hsize into N1.
      rewrite (C40_barrier _ _ f None _ _ _ _ _ Him (Hd XD ltac:(auto)) (Hd XI ltac:(auto)) (Hd XU ltac:(auto))) in Hb. injection Hb as <-.
      destruct (C41_barrier_alt (map (value_at pb net) (rows XI (st_S st))) (map (value_at pb net) (rows XU (st_S st))) (map (value_at pb net) (rows XD (st_S st)))
        (map (fun x => derivative_at pb net x (f x)) (rows XD (st_S st)))) as (ok & n & E & Hn & Hiff).
      { left. now apply map_nonempty. }
      { intros E. apply map_eq_nil in E. unfold barrier_alt_ok, barrier_alt_loss in Hok. rewrite E in Hok. cbn in Hok. destruct (percent _ _); discriminate Hok. }
      rewrite E in Hok. injection Hok as ->. destruct (proj1 Hiff eq_refl) as (A & B & C). rewrite map_length in C.
      destruct l; auto.
      + destruct (le_lt_dec 1000 (length (rows XD (st_S st)))) as [G|G].
        * apply Rnot_lt_le. intros C'. apply Hout. auto.
        * apply (few_violations _ n Hn); [now rewrite map_length|now rewrite map_length|]. apply in_map_iff. now exists x.
      + exact (Forall_map_in (value_at pb net) _ _ A x Hx).
      + exact (Forall_map_in (value_at pb net) _ _ B x Hx).
    - destruct Ht as (act & b & Hb & Hok). destruct l; auto.
      apply (C41_lyapunov_roa_samples act (pb_llo pb) _ _ f None (st_S st) (st_Sdot st) (rows XD (st_S st)) b Him (Hd XD ltac:(auto))); auto.
      intros E. rewrite E in Hx. destruct Hx.
    - destruct Ht as (act & b & Hb & Hok). destruct l; auto.
      apply (C41_lyapunov_roa_samples act (pb_llo pb) _ _ f None (st_S st) (st_Sdot st) (rows XD (st_S st)) b Him (Hd XD ltac:(auto))); auto.
      intros E. rewrite E in Hx. destruct Hx.
    - apply Hrws; auto; [apply Hsize; discriminate|apply Hshare; cbn; auto|apply Hcont; discriminate].
    - destruct Ht as (b & Hb & Hok). apply Hrws; auto; [apply Hsize; discriminate|apply Hshare; cbn; auto 6|apply Hcont; discriminate|].
      rewrite (C40_rsws _ _ f None _ _ _ _ _ _ _ Him (Hd XD ltac:(auto)) (Hd XI ltac:(auto)) (Hd XU ltac:(auto)) (Hd XG_BORDER ltac:(auto 8)) (Hd XG ltac:(auto 8))) in Hb.
      injection Hb as <-. cbn [fst] in Hok. eexists. split; [|exact Hok]. now apply C40_rws; auto.
    - apply Hrws; auto; [apply Hsize; discriminate|apply Hshare; cbn; auto|apply Hcont; discriminate].
    - destruct Ht as (b & Hb & Hok). apply Hrws; auto; [apply Hsize; discriminate|apply Hshare; cbn; auto 6|apply Hcont; discriminate|].
      rewrite (C40_rsws _ _ f None _ _ _ _ _ _ _ Him (Hd XD ltac:(auto)) (Hd XI ltac:(auto)) (Hd XU ltac:(auto)) (Hd XG_BORDER ltac:(auto 8)) (Hd XG ltac:(auto 8))) in Hb.
      injection Hb as <-. cbn [fst] in Hok. eexists. split; [|exact Hok]. now apply C40_rws; auto.
  Qed.
End Respect.
  (** A violated query means one of the excused cases. *)
  Lemma violated_excused {K} (pb : problem K) p c l x : violates pb p c l x ->
    learned_at pb l (eval (state_of x) (fst c)) (eval (state_of x) (snd c)) ->
    excused pb (l_beta p) l (state_of x) (eval (state_of x) (fst c)) (eval (state_of x) (snd c)).
  Proof.
    intros (gs & g & fm & Eg & Hg & Hl & Hh) Hlearn. unfold fossil_constraints in Eg. unfold learned_at in Hlearn. unfold excused.
    assert (Z0 : eval (state_of x) E0 = 0) by (cbn; apply Q2R_0).
    assert (Rws : forall (A B : Prop) a b, (A -> b <= - (1/100)) -> (a <= eval (state_of x) E0 /\ B) -> (b + Q2R gamma > eval (state_of x) E0) -> (a < 0 -> A) -> a = 0).
    { intros A B a b H1 [H2 _] H3 H4. rewrite Z0 in *. rewrite Q2R_gamma in H3. destruct (Rle_lt_or_eq_dec a 0 H2) as [L|E]; [|exact E]. specialize (H1 (H4 L)). lra. }
    destruct (pb_type pb); try discriminate Eg; injection Eg as <-; cbn [In] in Hg; repeat (destruct Hg as [<-|Hg]; [|]); try contradiction;
      cbn [In] in Hl; repeat (destruct Hl as [Hl|Hl]; [injection Hl as <- <-|]); try contradiction.
    1-6: cbn [holds cmp_holds fand for_ fold_right] in Hh; rewrite Z0 in Hh; intuition lra.
    - cbn [holds cmp_holds fand fold_right] in Hh. destruct Hh as (_ & (Hh & _) & _). destruct (pb_llo pb); cbn [holds cmp_holds for_ fold_right] in Hh; rewrite Z0 in Hh; intuition lra.
    - cbn [holds cmp_holds fand for_ fold_right] in Hh. destruct Hh as [(Hh1 & Hh2 & _)|[Hh|[]]].
      + right. split; [exact Hh1|]. cbn [eval] in Hh2. rewrite Q2R_mult in Hh2. replace (Q2R (11 # 10)) with (11/10) in Hh2 by (unfold Q2R; cbn; lra). lra.
      + left. destruct Hh as (_ & Hh & _). destruct (pb_llo pb); cbn [holds cmp_holds for_ fold_right] in Hh; rewrite Z0 in Hh; intuition lra.
    - cbn [holds cmp_holds fand for_ fold_right] in Hh; rewrite Z0 in Hh; intuition lra.
    - cbn [holds cmp_holds fand for_ fold_right] in Hh; rewrite Z0 in Hh; intuition lra.
    - cbn [holds cmp_holds fand for_ fold_right eval] in Hh. destruct Hh as ((Hh1 & _) & Hh2 & _). eapply Rws; [exact Hlearn| |exact Hh2|auto]; eauto.
    - cbn [holds cmp_holds fand for_ fold_right] in Hh; rewrite Z0 in Hh; intuition lra.
    - cbn [holds cmp_holds fand for_ fold_right] in Hh; rewrite Z0 in Hh; intuition lra.
    - cbn [holds cmp_holds fand for_ fold_right eval] in Hh. destruct Hh as ((Hh1 & _) & Hh2 & _). eapply Rws; [exact Hlearn| |exact Hh2|auto]; eauto.
    - cbn [holds cmp_holds fand for_ fold_right] in Hh; rewrite Z0 in Hh; intuition lra.
    - cbn [holds cmp_holds fand for_ fold_right] in Hh; rewrite Z0 in Hh; intuition lra.
    - cbn [holds cmp_holds fand for_ fold_right eval] in Hh. destruct Hh as ((Hh1 & _) & Hh2 & _). eapply Rws; [exact Hlearn| |exact Hh2|auto]; eauto.
    - cbn [holds cmp_holds fand for_ fold_right] in Hh; rewrite Z0 in Hh; intuition lra.
    - cbn [holds cmp_holds fand for_ fold_right] in Hh; rewrite Z0 in Hh; intuition lra.
    - cbn [holds cmp_holds fand for_ fold_right eval] in Hh. destruct Hh as ((Hh1 & _) & Hh2 & _). eapply Rws; [exact Hlearn| |exact Hh2|auto]; eauto.
  Qed.

(** * C77 *)
(** Training ends with a network that passed the test, or after 1000 steps. *)
Theorem C77_training_ends :
  forall K (pb : problem K) (env : environment K) start S it st p c, trained pb env start S it st p c ->
    In (pb_type pb) [LYAPUNOV; ROA; BARRIER; BARRIERALT; RWS; RWA; RSWS; RSWA] -> passed env it st p \/ exhausted pb env it st p.
Proof.
  intros K pb env start S it st p c (_ & Hl & _) Ht. cbn [c_learn fossil] in Hl. unfold fossil_learn in Hl. apply P_Activations.Some_eq' in Hl.
  assert (En : l_net p = learn_network pb (e_perfect env it (st_params st) (st_S st) (st_Sdot st)) (e_step env it (st_params st) (st_S st) (st_Sdot st)) (l_net (st_params st)))
    by (rewrite Hl; reflexivity).
  clear Hl. unfold exhausted. set (perfect := e_perfect env it _ _ _) in *. set (step := e_step env it _ _ _) in *. set (net := l_net (st_params st)) in *.
  assert (Hcase : (pb_type pb = LYAPUNOV \/ pb_type pb = ROA) \/ In (pb_type pb) [BARRIER; BARRIERALT; RWS; RWA; RSWS; RSWA]).
  { cbn in Ht |- *. intuition. }
  destruct Hcase as [Hc|Hc].
  - destruct (C60_lyapunov_roa K pb perfect step net Hc) as (m & Hm & E & _ & Hd).
    replace (match pb_type pb with LYAPUNOV | ROA => take_abs (pb_llo pb) net | _ => false end) with (take_abs (pb_llo pb) net) by (destruct Hc as [-> | ->]; reflexivity).
    destruct (Nat.eq_dec m 1000) as [->|N].
    + right. rewrite En, E. reflexivity.
    + left. exists m. rewrite En, E. apply Hd. lia.
  - destruct (C60_others K pb perfect step net Hc) as (m & Hm & E & _ & Hd).
    replace (match pb_type pb with LYAPUNOV | ROA => take_abs (pb_llo pb) net | _ => false end) with false
      by (cbn in Hc; destruct Hc as [<-|[<-|[<-|[<-|[<-|[<-|[]]]]]]]; reflexivity).
    destruct (Nat.eq_dec m 1000) as [->|N].
    + right. rewrite En, E. reflexivity.
    + left. exists m. rewrite En, E. destruct (Hd ltac:(lia)) as (i & _ & _ & H). exact H.
Qed.
(** Counterexamples stay in the data. *)
Theorem C77_kept :
  forall K (pb : problem K) (env : environment K) start S j it st p c l x, sampled (pb_type pb) S ->
    reported pb env start S j l x -> (j < it)%nat -> trained pb env start S it st p c -> In x (rows l (st_S st)).
Proof.
  intros K pb env start S j it st p c l x Hs (stj & q & d & cex & (Hv & Hl & Ht) & Hc & Hx) Hlt (Hv' & _).
  pose proof (single_labels K pb env S Hs) as Hok. set (k := fossil pb env) in *.
  assert (Hnext : exists st1, visited k start S (j + 1) st1).
  { clear - Hv' Hlt. revert j Hlt. induction Hv' as [|i s s' Hv IH Hi]; intros j Hlt; [lia|].
    destruct (Nat.eq_dec j i) as [->|N]; [exists s'; now apply (visited_next k start S i s)|apply IH; lia]. }
  destruct Hnext as (st1 & Hv1).
  destruct (C33_counterexamples_are_added _ _ k start S Hok j stj st1 Hv Hv1) as (q' & d' & found & cex' & t & E1 & E2 & E3 & _ & _ & _ & _ & Hadd).
  rewrite Hl in E1. injection E1 as <-. rewrite Ht in E2. injection E2 as <-. rewrite Hc in E3. injection E3 as <- <-.
  destruct (visited_prefix k start S (j + 1) it st1 st Hok ltac:(lia) Hv1 Hv' l) as (rest & ->).
  apply in_or_app. left. rewrite (Hadd eq_refl l). apply in_or_app. right. apply in_or_app. now left.
Qed.
(** A candidate whose network passed the training test does not violate any sample again, except in the excused cases. *)
Theorem C77_samples_respected :
  forall K (pb : problem K) (env : environment K) xdot random ctrl S it st p c l x,
    without_controller pb xdot -> lawful pb env -> wf_net random -> in_size random = pb_n pb -> (pb_rounding pb < 0)%Z ->
    (pb_discrete pb = false -> pb_symb pb <> SCVC5) -> (pb_discrete pb = true -> pb_quad pb = false /\ (pb_type pb = LYAPUNOV \/ pb_type pb = BARRIERALT)) ->
    sampled (pb_type pb) S -> NoDup (keys S) -> tests pb env ->
    trained pb env (initial pb random ctrl) S it st p c -> passed env it st p ->
    (pb_type pb <> LYAPUNOV -> pb_type pb <> ROA -> rows XI S <> []) ->
    In x (rows l (st_S st)) -> length x = pb_n pb -> softplus_ok (l_net p) (state_of x) ->
    (pb_discrete pb = true -> softplus_ok (l_net p) (state_of (map (eval (state_of x)) xdot))) ->
    violates pb p c l x -> excused pb (l_beta p) l (state_of x) (eval (state_of x) (fst c)) (eval (state_of x) (snd c)) \/
      left_out pb (l_net p) (st_S st) l x (map (eval (state_of x)) xdot).
Proof.
  intros K pb env xdot random ctrl S it st p c l x Hsys Hlaw Hwf Hin Hr Hlib Hdisc Hs Hn Htest Htr (t & Hp) Hsize Hx Lx Sx Sfx Hviol.
  assert (Hq : pb_discrete pb = true -> pb_quad pb = false) by (intros E; now apply Hdisc).
  assert (Ef : pb_f pb ctrl x = map (eval (state_of x)) xdot) by (now apply Hsys).
  destruct (agree pb env xdot random ctrl S Hsys Hlaw Hwf Hin Hr Hlib Hq it st p c x Htr Lx Sx) as [A B]; [now rewrite Ef|].
  destruct (Classical_Prop.classic (left_out pb (l_net p) (st_S st) l x (map (eval (state_of x)) xdot))) as [Ho|Ho]; [now right|left].
  apply violated_excused; auto. rewrite <- A, <- B. pose proof Htr as (Hv & _).
  apply (test_at pb env xdot random ctrl S Hsys Hlib Hq Hs Hn it st (l_net p) l x Hv); auto.
  - exact (Htest _ _ _ _ _ _ Hp).
  - intros N1 N2. specialize (Hsize N1 N2). intros E. apply Hsize.
    destruct (visited_data (fossil pb env) _ S it st (single_labels K pb env S Hs) Hv) as (_ & _ & P & _). destruct (P XI) as (r & Er). rewrite E in Er.
    now destruct (rows XI S).
  - now rewrite Ef.
  - intros E. now apply Hdisc.
Qed.
(** A counterexample comes back only if training ran out of steps, or in the excused cases. *)
Theorem C77_counterexamples_respected :
  forall K (pb : problem K) (env : environment K) xdot random ctrl S j it st p c l x,
    without_controller pb xdot -> lawful pb env -> wf_net random -> in_size random = pb_n pb -> (pb_rounding pb < 0)%Z ->
    (pb_discrete pb = false -> pb_symb pb <> SCVC5) -> (pb_discrete pb = true -> pb_quad pb = false /\ (pb_type pb = LYAPUNOV \/ pb_type pb = BARRIERALT)) ->
    sampled (pb_type pb) S -> NoDup (keys S) -> tests pb env ->
    reported pb env (initial pb random ctrl) S j l x -> (j < it)%nat -> trained pb env (initial pb random ctrl) S it st p c ->
    (pb_type pb <> LYAPUNOV -> pb_type pb <> ROA -> rows XI S <> []) ->
    length x = pb_n pb -> softplus_ok (l_net p) (state_of x) -> (pb_discrete pb = true -> softplus_ok (l_net p) (state_of (map (eval (state_of x)) xdot))) ->
    violates pb p c l x -> excused pb (l_beta p) l (state_of x) (eval (state_of x) (fst c)) (eval (state_of x) (snd c)) \/
      left_out pb (l_net p) (st_S st) l x (map (eval (state_of x)) xdot) \/ exhausted pb env it st p.
Proof.
  intros K pb env xdot random ctrl S j it st p c l x Hsys Hlaw Hwf Hin Hr Hlib Hdisc Hs Hn Htest Hrep Hlt Htr Hsize Lx Sx Sfx Hviol.
  assert (Hty : In (pb_type pb) [LYAPUNOV; ROA; BARRIER; BARRIERALT; RWS; RWA; RSWS; RSWA]).
  { destruct Hviol as (gs & _ & _ & E & _). unfold fossil_constraints in E. destruct (pb_type pb); try discriminate E; cbn; auto 12. }
  destruct (C77_training_ends K pb env _ S it st p c Htr Hty) as [Hp|He]; [|now right; right].
  rewrite <- or_assoc. left.
  apply (C77_samples_respected K pb env xdot random ctrl S it st p c l x); auto.
  now apply (C77_kept K pb env (initial pb random ctrl) S j it st p c l x).
Qed.
