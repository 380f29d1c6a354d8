(** C77, certificates with two functions: counterexamples are respected by the candidates that pass the training test. *)
From Coquelicot Require Import Coquelicot.
From Coq Require Import Reals QArith Qreals List Bool Arith ZArith Lra Lia.
From Verif Require Import M_Syntax M_Certificates M_Verifier M_Activations M_Domains M_Network M_Learner M_Cegis M_Fossil M_Double M_Learning M_Gradient
  S_Verifier S_Certificates S_Domains S_Network S_Learner S_Cegis S_Fossil S_Double S_Loops S_Learning S_Labels S_Start S_Progress S_ProgressTwo
  L_Verifier L_Activations L_Holds L_Domains L_Network L_Learner L_Fossil P_Certificates P_Translator P_Learning P_Gradient P_Loops P_Cegis P_Start P_Double P_Progress.
Import ListNotations.
Local Open Scope R_scope.

Section Respect2.
  Context {K : Type} (pb : problem K) (env : environment2 K) (xdot : list expr) (random1 random2 : network) (ctrl : K) (D : dict).
  Hypothesis Hsys : without_controller pb xdot.
  Hypothesis Hlaw : lawful2 env.
  Hypothesis Hwf1 : wf_net random1.
  Hypothesis Hwf2 : wf_net random2.
  Hypothesis Hin1 : in_size random1 = pb_n pb.
  Hypothesis Hin2 : in_size random2 = pb_n pb.
  Hypothesis Hround : (pb_rounding pb < 0)%Z.
  Hypothesis Hlib : pb_symb pb <> SCVC5.
  Hypothesis Hcont : pb_discrete pb = false.
  Hypothesis Hquad : pb_quad pb = false.
  Hypothesis Hsampled : sampled (pb_type pb) D.
  Hypothesis Horder : in_order (pb_type pb) D.
  Let k := double pb env.
  Let start := initial2 pb random1 random2 ctrl.
  Let f := pb_f pb ctrl.

  Lemma trained2_shape it st p c : trained2 pb env start D it st p c ->
    (wf_net (d_lyap p) /\ in_size (d_lyap p) = pb_n pb) /\ (wf_net (d_barr p) /\ in_size (d_barr p) = pb_n pb).
  Proof.
    intros (Hv & Hl & _). destruct (visited2_shape pb env random1 random2 Hlaw _ _ _ _ Hv) as [S1 S1'].
    cbn [c_learn double] in Hl. unfold double_learn in Hl. apply P_Activations.Some_eq' in Hl.
    destruct (learn_pair_shape pb env Hlaw (st_frozen st) it (st_params st) (st_S st) (st_Sdot st)) as [S2 S2']. subst p. cbn [d_lyap d_barr fst snd] in *.
    assert (A := same_shape_trans _ _ _ S1 S2). assert (B := same_shape_trans _ _ _ S1' S2').
    split; (split; [eapply same_shape_wf; eassumption|]); [destruct A as (E & _)|destruct B as (E & _)]; congruence.
  Qed.
  Lemma keys_order : keys D = match pb_type pb with STABLESAFE => [XD; XI; XU] | _ => [XD; XI; XU; XG; XF; XNF] end.
  Proof. unfold in_order in Horder. unfold keys. destruct (pb_type pb); try contradiction; exact Horder. Qed.
  Lemma nodup_order : NoDup (keys D).
  Proof. rewrite keys_order. destruct (pb_type pb); repeat (constructor; [cbn; intuition discriminate|]); constructor. Qed.
  Lemma data_images2 it st : visited k start D it st -> images_of f None (st_S st) (st_Sdot st) /\ keys (st_S st) = keys D.
  Proof.
    intros Hv. pose proof (double_labels K pb env D Hsampled) as Hc. destruct (visited_data k start D it st Hc Hv) as (A & B & _).
    split; [|exact A]. right. split; [reflexivity|]. apply dict_eq.
    - rewrite A. exact nodup_order.
    - unfold keys in *. congruence.
    - destruct Hsys as (_ & _ & E & _). apply (visited_data_const k start D it st Hc Hv). intros p q x. apply E.
  Qed.
  Lemma agree_net net V Vdot x : wf_net net -> in_size net = pb_n pb ->
    translate_ct (pb_symb pb) (e2_simp env) (pb_rounding pb) false net (new_vars (pb_n pb)) xdot = Some (V, Vdot) ->
    length x = pb_n pb -> softplus_ok net (state_of x) ->
    value_at pb net x = eval (state_of x) V /\ derivative_at pb net x (f x) = eval (state_of x) Vdot.
  Proof.
    intros W I Htr Hx Hs. destruct Hsys as (Lx & _ & _ & Ef). specialize (Ef ctrl x Hx). fold f in Ef.
    assert (Er : f x = row (pb_n pb) (field xdot (state_of x))).
    { rewrite Ef. apply (nth_ext _ _ 0 0); [now rewrite map_length, row_length'|]. intros i Hi. rewrite map_length, Lx in Hi.
      rewrite row_nth by auto. unfold field. apply map_nth_lt. lia. }
    unfold value_at, derivative_at. rewrite Hcont, Hquad. rewrite <- I in Htr.
    destruct (C55_learner_agrees _ _ _ _ net xdot V Vdot Hlib W ltac:(congruence) Htr) as (net' & A & _ & B).
    rewrite (A Hround) in B. specialize (B (state_of x) Hs). rewrite I, <- Er, (row_state_of (pb_n pb) x Hx) in B.
    rewrite B. cbn [snd]. split; [|reflexivity]. rewrite <- (get_all_ct_value false net x (f x)), B. reflexivity.
  Qed.
  Lemma agree2 it st p c x : trained2 pb env start D it st p c -> length x = pb_n pb -> softplus_ok (d_lyap p) (state_of x) -> softplus_ok (d_barr p) (state_of x) ->
    (value_at pb (d_lyap p) x = eval (state_of x) (fst (fst c)) /\ derivative_at pb (d_lyap p) x (f x) = eval (state_of x) (snd (fst c))) /\
    (value_at pb (d_barr p) x = eval (state_of x) (fst (snd c)) /\ derivative_at pb (d_barr p) x (f x) = eval (state_of x) (snd (snd c))).
  Proof.
    intros Ht Hx H1 H2. destruct (trained2_shape _ _ _ _ Ht) as [[W1 I1] [W2 I2]]. destruct Ht as (_ & _ & Htr). cbn [c_translate double] in Htr.
    destruct Hsys as (_ & Ex & _ & _). unfold double_translate in Htr. rewrite Ex in Htr. cbn [option_bind] in Htr.
    destruct (translate_ct _ _ _ _ (d_lyap p) _ xdot) as [[V Vd]|] eqn:Ev; cbn [option_bind] in Htr; [|discriminate].
    destruct (translate_ct _ _ _ _ (d_barr p) _ xdot) as [[B Bd]|] eqn:Eb; cbn [option_bind] in Htr; [|discriminate].
    apply P_Activations.Some_eq' in Htr. subst c. cbn [fst snd]. split; now apply agree_net.
  Qed.

  (** What the test says about a sample. *)
  Definition learned_at2 (l : label) (v d w e : R) : Prop :=
    match pb_type pb, l with
    | STABLESAFE, XD => (d <= 0 /\ (pb_llo pb = false -> 0 <= v)) /\ (w = 0 -> e <= 0)
    | STABLESAFE, XI => w <= 0
    | STABLESAFE, XU => 0 <= w
    | RAR, XI => v <= 0
    | RAR, XU => 0 <= v
    | RAR, XD => v < 0 -> d <= - (1/100)
    | RAR, XG => w <= 0
    | RAR, XNF => 0 <= w
    | RAR, XF => w = 0 -> e <= 0
    | _, _ => True
    end.
  Lemma nonempty_grows it st l : visited k start D it st -> rows l D <> [] -> rows l (st_S st) <> [].
  Proof.
    intros Hv N E. apply N. destruct (visited_data k start D it st (double_labels K pb env D Hsampled) Hv) as (_ & _ & P & _).
    destruct (P l) as (r & Er). rewrite E in Er. now destruct (rows l D).
  Qed.
  Lemma test_at2 it st nets l x : visited k start D it st -> training_test2 pb nets (st_S st) (st_Sdot st) -> sized (pb_type pb) D -> ~ left_out2 pb nets (st_S st) l x (f x) ->
    In x (rows l (st_S st)) ->
    learned_at2 l (value_at pb (fst nets) x) (derivative_at pb (fst nets) x (f x)) (value_at pb (snd nets) x) (derivative_at pb (snd nets) x (f x)).
  Proof.
    intros Hv Ht [N1 Hsz] Hout Hx. unfold left_out2 in Hout. destruct (data_images2 it st Hv) as [Him Hk]. rewrite keys_order in Hk. apply (nonempty_grows it st XI Hv) in N1.
    assert (N2 : pb_type pb = RAR -> rows XG (st_S st) <> []).
    { intros E. apply (nonempty_grows it st XG Hv). exact (Hsz E). }
    clear Hsz.
    unfold training_test2 in Ht. unfold learned_at2.
    destruct (pb_type pb) eqn:Ty; try contradiction.
    - (* STABLESAFE *)
      destruct Ht as (act1 & act2 & sym & b & Hb & Hok1 & Hok2).
      destruct (st_S st) as [|[l1 sd] [|[l2 si] [|[l3 su] [|]]]] eqn:ES; try discriminate Hk. cbn in Hk. injection Hk as -> -> ->.
      change (rows XI [(XD, sd); (XI, si); (XU, su)]) with si in N1. change (rows XD [(XD, sd); (XI, si); (XU, su)]) with sd in Hout.
      rewrite (proj1 (C40_stablesafe_in_order (value_at pb (fst nets)) (value_at pb (snd nets)) (derivative_at pb (fst nets)) (derivative_at pb (snd nets)) f None (st_Sdot st) sd [] si su) Him) in Hb.
      apply P_Activations.Some_eq' in Hb. subst b. cbn [fst snd] in *.
      destruct (C41_barrier act2 sym _ _ (map (value_at pb (snd nets)) sd) (map (fun x => derivative_at pb (snd nets) x (f x)) sd) (or_introl (map_nonempty (value_at pb (snd nets)) _ N1) : _ \/ map (value_at pb (snd nets)) su <> [])) as (ok & n & bad & E & _ & _ & Hiff).
      assert (E' : Some ok = Some true) by (rewrite <- Hok2; symmetry; exact E). injection E' as ->. destruct (proj1 Hiff eq_refl) as (A & B & _). clear Hiff E.
      destruct l; auto.
      + change (In x sd) in Hx. split.
        * assert (Hd : dlookup XD [(XD, sd)] = Some sd) by reflexivity.
          assert (Him1 : images_of f None [(XD, sd)] [(XD, map f sd)]) by (right; split; reflexivity).
          assert (Hne : sd <> []) by (intros E; rewrite E in Hx; destruct Hx).
          apply (proj1 (C41_lyapunov_roa_samples act1 (pb_llo pb) (value_at pb (fst nets)) (derivative_at pb (fst nets)) f None _ _ sd _ Him1 Hd Hne
            (C40_lyapunov_roa _ _ f None _ _ sd Him1 Hd)) Hok1 x Hx).
        * intros Z. destruct (le_lt_dec 1000 (length sd)) as [G|G]; [apply Rnot_lt_le; intros C; apply Hout; auto|].
          assert (Hsz' : (length (map (value_at pb (snd nets)) sd) < 1000)%nat) by (now rewrite map_length).
          destruct (C41_barrier_small act2 sym _ _ _ _ (or_introl (map_nonempty _ _ N1)) Hsz' Hok2) as (_ & _ & _ & C).
          exact (at_same_place_map (value_at pb (snd nets)) (fun x => derivative_at pb (snd nets) x (f x)) sd _ C x Hx (belt_zero sym _ Z)).
      + exact (Forall_map_in (value_at pb (snd nets)) _ _ A x Hx).
      + exact (Forall_map_in (value_at pb (snd nets)) _ _ B x Hx).
    - (* RAR *)
      destruct Ht as (sym & b & Hb & Hok). specialize (N2 eq_refl).
      destruct (st_S st) as [|[l1 sd] [|[l2 si] [|[l3 su] [|[l4 sg] [|[l5 sf] [|[l6 sn] [|]]]]]]] eqn:ES; try discriminate Hk. cbn in Hk. injection Hk as -> -> -> -> -> ->.
      set (S := [(XD, sd); (XI, si); (XU, su); (XG, sg); (XF, sf); (XNF, sn)]) in *.
      change (rows XI S) with si in N1. change (rows XG S) with sg in *. change (rows XG S) with sg in Hout. change (rows XF S) with sf in *. change (rows XNF S) with sn in *.
      rewrite (C40_rar (value_at pb (fst nets)) (value_at pb (snd nets)) (derivative_at pb (snd nets)) (learner_grad (pb_quad pb) (fst nets)) f None S (st_Sdot st) sd si su sg sf sn
        Him (fun _ => eq_refl) eq_refl eq_refl eq_refl eq_refl eq_refl eq_refl) in Hb.
      apply P_Activations.Some_eq' in Hb. subst b.
      destruct (C41_rar sym (map (value_at pb (fst nets)) si) (map (value_at pb (fst nets)) su) (map (value_at pb (fst nets)) sd) (map (learner_grad (pb_quad pb) (fst nets)) sd) (map f sd)
        (map (value_at pb (snd nets)) sg) (map (value_at pb (snd nets)) sn) (map (value_at pb (snd nets)) (sg ++ sf ++ sn))
        (map (fun x => derivative_at pb (snd nets) x (f x)) (sg ++ sf ++ sn)) (or_introl (map_nonempty _ _ N1)) (or_introl (map_nonempty _ _ N2)))
        as (ok & n & nb & bad & E & _ & B1 & B2 & Hiff).
      assert (E' : Some ok = Some true) by (rewrite <- Hok; symmetry; exact E). injection E' as ->. destruct (proj1 Hiff eq_refl) as (A1 & A2 & _ & A3 & A4 & A5 & _ & A6).
      assert (nb <= length (sg ++ sf ++ sn))%nat by (rewrite <- (map_length (value_at pb (snd nets))); eapply number_bound; exact B1).
      assert (Hb2 : (length (sg ++ sf ++ sn) < 1000)%nat -> forall x, In x (sg ++ sf ++ sn) -> value_at pb (snd nets) x = 0 -> derivative_at pb (snd nets) x (f x) <= 0).
      { intros G y Hy Z. apply Rnot_lt_le. intros C. rewrite (few_bad bad nb) in B2 by lia. apply number_zero in B2.
        apply (at_same_place_map (value_at pb (snd nets)) (fun x => derivative_at pb (snd nets) x (f x)) (sg ++ sf ++ sn) _ B2 y Hy). split; [now apply belt_zero|exact C]. }
      destruct l; auto.
      + change (In x sd) in Hx. intros Hneg. rewrite <- (grad_derivative pb (fst nets) x (f x) Hcont).
        refine (at_same_place_map (value_at pb (fst nets)) (fun x => dot (learner_grad (pb_quad pb) (fst nets) x) (f x)) sd (fun v d => v < 0 -> d <= - (1/100)) _ x Hx Hneg).
        assert (E' : forall (g h : point -> point) l, map (fun e => dot (fst e) (snd e)) (combine (map g l) (map h l)) = map (fun x => dot (g x) (h x)) l)
          by (clear; intros g h l; induction l as [|y r IH]; [reflexivity|]; cbn; now f_equal).
        rewrite E' in A3. exact A3.
      + exact (Forall_map_in (value_at pb (fst nets)) _ _ A1 x Hx).
      + exact (Forall_map_in (value_at pb (fst nets)) _ _ A2 x Hx).
      + exact (Forall_map_in (value_at pb (snd nets)) _ _ A4 x Hx).
      + intros Z. destruct (le_lt_dec 1000 (length (sg ++ sf ++ sn))) as [G|G]; [apply Rnot_lt_le; intros C; apply Hout; auto|].
        apply Hb2; [exact G| |exact Z]. apply in_or_app. right. apply in_or_app. left. exact Hx.
      + exact (Forall_map_in (value_at pb (snd nets)) _ _ A5 x Hx).
  Qed.
End Respect2.

  (** A violated query means one of the excused cases. *)
  Lemma violated_excused2 {K} (pb : problem K) p c l x : violates2 pb p c l x ->
    learned_at2 pb l (eval (state_of x) (fst (fst c))) (eval (state_of x) (snd (fst c))) (eval (state_of x) (fst (snd c))) (eval (state_of x) (snd (snd c))) ->
    excused2 pb (d_beta p) l (state_of x) (eval (state_of x) (fst (fst c))) (eval (state_of x) (snd (fst c)))
      (eval (state_of x) (fst (snd c))) (eval (state_of x) (snd (snd c))).
  Proof.
    intros (gs & g & fm & Eg & Hg & Hl & Hh) Hlearn. destruct c as [[V Vd] [W Wd]]. cbn [fst snd] in *.
    unfold double_constraints in Eg. unfold learned_at2 in Hlearn. unfold excused2.
    assert (Z0 : eval (state_of x) E0 = 0) by (cbn; apply Q2R_0).
    destruct (pb_type pb); try discriminate Eg; injection Eg as <-; cbn [In app safe_roa_constraints roa_constraints barrier_constraints rws_constraints rar_constraints
      goal_final_sets map firstn skipn drename dlookup dpop find filter fst snd label_eqb negb option_map] in Hg;
      repeat (destruct Hg as [<-|Hg]; [|]); try contradiction;
      cbn [In] in Hl; repeat (destruct Hl as [Hl|Hl]; [injection Hl as <- <-|]); try contradiction.
    - cbn [holds cmp_holds fand for_ fold_right] in Hh. destruct Hh as [(Hh1 & Hh2 & _)|[Hh|[]]].
      + right. left. split; [exact Hh1|]. cbn [eval] in Hh2. rewrite Q2R_mult in Hh2. replace (Q2R (11 # 10)) with (11/10) in Hh2 by (unfold Q2R; cbn; lra). lra.
      + left. destruct Hh as (_ & Hh & _). destruct (pb_llo pb); cbn [holds cmp_holds for_ fold_right] in Hh; rewrite Z0 in Hh; intuition lra.
    - cbn [holds cmp_holds fand for_ fold_right] in Hh; rewrite Z0 in Hh; intuition lra.
    - cbn [holds cmp_holds fand for_ fold_right] in Hh; rewrite Z0 in Hh; intuition lra.
    - cbn [holds cmp_holds fand for_ fold_right] in Hh; rewrite Z0 in Hh. right. right. intuition lra.
    - cbn [holds cmp_holds fand for_ fold_right] in Hh; rewrite Z0 in Hh; intuition lra.
    - cbn [holds cmp_holds fand for_ fold_right] in Hh; rewrite Z0 in Hh; intuition lra.
    - cbn [holds cmp_holds fand for_ fold_right eval] in Hh. rewrite Z0, Q2R_gamma in Hh. destruct Hh as ((H1 & _) & H3 & _).
      destruct (Rle_lt_or_eq_dec _ _ H1) as [L|E]; [specialize (Hlearn L); cbn [binop_eval] in H3; lra|exact E].
    - cbn [holds cmp_holds fand for_ fold_right] in Hh; rewrite Z0 in Hh; intuition lra.
    - cbn [holds cmp_holds fand for_ fold_right] in Hh; rewrite Z0 in Hh; intuition lra.
    - cbn [holds cmp_holds fand for_ fold_right] in Hh; rewrite Z0 in Hh; intuition lra.
  Qed.

(** * C77, two functions *)
Theorem C77_training_ends_two :
  forall K (pb : problem K) (env : environment2 K) start S it st p c, trained2 pb env start S it st p c ->
    pb_type pb = STABLESAFE \/ pb_type pb = RAR -> passed2 env it st p \/ exhausted2 env it st p.
Proof.
  intros K pb env start S it st p c (_ & Hl & _) Ht. cbn [c_learn double] in Hl. unfold double_learn in Hl. apply P_Activations.Some_eq' in Hl.
  assert (En : (d_lyap p, d_barr p) = learn_pair pb env (st_frozen st) it (st_params st) (st_S st) (st_Sdot st)).
  { rewrite Hl. cbn [d_lyap d_barr]. now rewrite <- surjective_pairing. }
  clear Hl. unfold passed2, exhausted2. rewrite En. destruct Ht as [Ht|Ht].
  - destruct (C60_stablesafe K pb env (st_frozen st) it (st_params st) (st_S st) (st_Sdot st) Ht) as (m & Hm & E & _ & Hd).
    destruct (Nat.eq_dec m 1000) as [->|N]; [right; rewrite E; reflexivity|left; exists m; rewrite E; now apply Hd; lia].
  - destruct (C60_rar K pb env (st_frozen st) it (st_params st) (st_S st) (st_Sdot st) Ht) as (m & Hm & E & _ & Hd).
    destruct (Nat.eq_dec m 1000) as [->|N]; [right; rewrite E; reflexivity|left; exists m; rewrite E]. destruct (Hd ltac:(lia)) as (i & _ & _ & H). exact H.
Qed.
Theorem C77_kept_two :
  forall K (pb : problem K) (env : environment2 K) start S j it st p c l x, sampled (pb_type pb) S ->
    reported2 pb env start S j l x -> (j < it)%nat -> trained2 pb env start S it st p c -> In x (rows l (st_S st)).
Proof.
  intros K pb env start S j it st p c l x Hs (stj & q & d & cex & (Hv & Hl & Ht) & Hc & Hx) Hlt (Hv' & _).
  pose proof (double_labels K pb env S Hs) as Hok. set (k := double pb env) in *.
  assert (Hnext : exists st1, visited k start S (j + 1) st1).
  { clear - Hv' Hlt. revert j Hlt. induction Hv' as [|i s s' Hv IH Hi]; intros j Hlt; [lia|].
    destruct (Nat.eq_dec j i) as [->|N]; [exists s'; now apply (visited_next k start S i s)|apply IH; lia]. }
  destruct Hnext as (st1 & Hv1).
  destruct (C33_counterexamples_are_added _ _ k start S Hok j stj st1 Hv Hv1) as (q' & d' & found & cex' & t & E1 & E2 & E3 & _ & _ & _ & _ & Hadd).
  rewrite Hl in E1. injection E1 as <-. rewrite Ht in E2. injection E2 as <-. rewrite Hc in E3. injection E3 as <- <-.
  destruct (visited_prefix k start S (j + 1) it st1 st Hok ltac:(lia) Hv1 Hv' l) as (rest & ->).
  apply in_or_app. left. rewrite (Hadd eq_refl l). apply in_or_app. right. apply in_or_app. now left.
Qed.
Theorem C77_samples_respected_two :
  forall K (pb : problem K) (env : environment2 K) xdot random1 random2 ctrl S it st p c l x,
    without_controller pb xdot -> lawful2 env -> wf_net random1 -> wf_net random2 -> in_size random1 = pb_n pb -> in_size random2 = pb_n pb ->
    (pb_rounding pb < 0)%Z -> pb_symb pb <> SCVC5 -> pb_discrete pb = false -> pb_quad pb = false ->
    sampled (pb_type pb) S -> in_order (pb_type pb) S -> tests2 pb env ->
    trained2 pb env (initial2 pb random1 random2 ctrl) S it st p c -> passed2 env it st p -> sized (pb_type pb) S ->
    In x (rows l (st_S st)) -> length x = pb_n pb -> softplus_ok (d_lyap p) (state_of x) -> softplus_ok (d_barr p) (state_of x) ->
    violates2 pb p c l x ->
    excused2 pb (d_beta p) l (state_of x) (eval (state_of x) (fst (fst c))) (eval (state_of x) (snd (fst c)))
      (eval (state_of x) (fst (snd c))) (eval (state_of x) (snd (snd c))) \/
    left_out2 pb (d_lyap p, d_barr p) (st_S st) l x (map (eval (state_of x)) xdot).
Proof.
  intros K pb env xdot random1 random2 ctrl S it st p c l x Hsys Hlaw W1 W2 I1 I2 Hr Hlib Hc Hq Hs Hord Htest Htr (t & Hp) Hsize Hx Lx S1 S2 Hviol.
  destruct (agree2 pb env xdot random1 random2 ctrl S Hsys Hlaw W1 W2 I1 I2 Hr Hlib Hc Hq it st p c x Htr Lx S1 S2) as [[A B] [A' B']].
  destruct (Classical_Prop.classic (left_out2 pb (d_lyap p, d_barr p) (st_S st) l x (map (eval (state_of x)) xdot))) as [Ho|Ho]; [now right|left].
  assert (Ef : pb_f pb ctrl x = map (eval (state_of x)) xdot) by (now apply Hsys).
  apply violated_excused2; auto. rewrite <- A, <- B, <- A', <- B'. pose proof Htr as (Hv & _).
  exact (test_at2 pb env xdot random1 random2 ctrl S Hsys I1 I2 Hc Hs Hord it st (d_lyap p, d_barr p) l x Hv (Htest _ _ _ _ _ _ Hp) Hsize ltac:(now rewrite Ef) Hx).
Qed.
(** A counterexample to either function comes back only if training ran out of steps, or in the excused cases. *)
Theorem C77_counterexamples_respected_two :
  forall K (pb : problem K) (env : environment2 K) xdot random1 random2 ctrl S j it st p c l x,
    without_controller pb xdot -> lawful2 env -> wf_net random1 -> wf_net random2 -> in_size random1 = pb_n pb -> in_size random2 = pb_n pb ->
    (pb_rounding pb < 0)%Z -> pb_symb pb <> SCVC5 -> pb_discrete pb = false -> pb_quad pb = false ->
    sampled (pb_type pb) S -> in_order (pb_type pb) S -> tests2 pb env ->
    reported2 pb env (initial2 pb random1 random2 ctrl) S j l x -> (j < it)%nat -> trained2 pb env (initial2 pb random1 random2 ctrl) S it st p c ->
    sized (pb_type pb) S -> length x = pb_n pb -> softplus_ok (d_lyap p) (state_of x) -> softplus_ok (d_barr p) (state_of x) ->
    violates2 pb p c l x ->
    excused2 pb (d_beta p) l (state_of x) (eval (state_of x) (fst (fst c))) (eval (state_of x) (snd (fst c)))
      (eval (state_of x) (fst (snd c))) (eval (state_of x) (snd (snd c))) \/
    left_out2 pb (d_lyap p, d_barr p) (st_S st) l x (map (eval (state_of x)) xdot) \/ exhausted2 env it st p.
Proof.
  intros K pb env xdot random1 random2 ctrl S j it st p c l x Hsys Hlaw W1 W2 I1 I2 Hr Hlib Hc Hq Hs Ho Htest Hrep Hlt Htr Hsize Lx S1 S2 Hviol.
  assert (Hty : pb_type pb = STABLESAFE \/ pb_type pb = RAR) by (unfold in_order in Ho; destruct (pb_type pb); try contradiction; auto).
  destruct (C77_training_ends_two K pb env _ S it st p c Htr Hty) as [Hp|He]; [|now right; right]. rewrite <- or_assoc. left.
  apply (C77_samples_respected_two K pb env xdot random1 random2 ctrl S it st p c l x); auto.
  now apply (C77_kept_two K pb env (initial2 pb random1 random2 ctrl) S j it st p c l x).
Qed.
