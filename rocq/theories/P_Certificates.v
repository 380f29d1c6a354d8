(** Properties C06-C10, C12: the constraints emitted by each certificate are
    unsatisfiable exactly when the textbook conditions hold. *)
From Coq Require Import Reals QArith Qreals List Bool Lra Lia Classical.
From Verif Require Import M_Syntax M_Certificates S_Certificates L_Holds.
Import ListNotations.
Local Open Scope R_scope.

Definition sem (e : expr) : state -> R := fun s => eval s e.

Lemma holds_origin s n :
  holds s (fand (map (fun xi => FCmp CEq xi E0) (new_vars n))) <-> origin n s.
Proof.
  rewrite holds_fand. unfold new_vars. rewrite map_map, Forall_map_iff, Forall_seq.
  unfold origin. simpl. split; intros H i Hi; specialize (H i Hi).
  - now rewrite Q2R_0 in H.
  - now rewrite Q2R_0.
Qed.

Lemma eval_esum_acc s l : forall a,
  eval s (fold_left (EBin BAdd) l a) = eval s a + fold_right Rplus 0 (map (eval s) l).
Proof.
  induction l as [|e l IH]; intros a; simpl; [lra|]. rewrite IH. simpl. lra.
Qed.

Lemma eval_esum s l : eval s (esum l) = fold_right Rplus 0 (map (eval s) l).
Proof. unfold esum. rewrite eval_esum_acc. simpl. rewrite Q2R_0. lra. Qed.

Lemma fold_right_Rplus_app l1 l2 :
  fold_right Rplus 0 (l1 ++ l2) = fold_right Rplus 0 l1 + fold_right Rplus 0 l2.
Proof. induction l1; simpl; [lra|]. rewrite IHl1. lra. Qed.

Lemma sqnorm_sum n s : sqnorm n s = fold_right Rplus 0 (map (fun i => s i * s i) (seq 0 n)).
Proof.
  induction n as [|n IH]; [reflexivity|].
  rewrite seq_S, map_app, fold_right_Rplus_app. simpl. rewrite IH. lra.
Qed.

Lemma eval_sphere s n :
  eval s (esum (map (fun x => EPow x 2) (new_vars n))) = sqnorm n s.
Proof.
  rewrite eval_esum, sqnorm_sum, map_map. unfold new_vars. rewrite map_map.
  f_equal. apply map_ext. intros i. simpl. ring.
Qed.

Lemma refuted_concat gs :
  refuted gs -> forall l f, In (l, f) (concat gs) -> unsatisfiable f.
Proof.
  intros H l f Hin. apply in_concat in Hin. destruct Hin as (g & Hg & Hl).
  exact (H g l f Hg Hl).
Qed.

(** * C06 *)
Theorem C06_lyapunov_obligations :
  forall llo n d V Vdot,
    refuted (lyapunov_constraints llo (new_vars n) d V Vdot) <->
    lyapunov_conditions llo n d (sem V) (sem Vdot).
Proof.
  intros llo n d V Vdot. unfold lyapunov_conditions, sem, inside. split.
  - intros H s Hd Ho.
    assert (Hu := H _ _ _ (or_introl eq_refl) (or_introl eq_refl) s).
    assert (Hno : holds s (FNot (fand (map (fun xi => FCmp CEq xi E0) (new_vars n))))).
    { simpl. now rewrite holds_origin. }
    assert (Hneg : ~ holds s (if llo then FCmp CGe Vdot E0
                              else for_ [FCmp CLe V E0; FCmp CGe Vdot E0])).
    { intros Hneg. apply Hu. simpl. repeat split; auto. }
    destruct llo; simpl in Hneg; rewrite Q2R_0 in Hneg.
    + split; [discriminate|]. lra.
    + split; [intros _|]; apply Rnot_le_lt; intros Hx; apply Hneg; [left|right; left]; lra.
  - intros H g l f [<-|[]] [E|[]] s Hs. inversion E; subst l f. clear E.
    simpl in Hs. destruct Hs as (Hd & (Hneg & Hno & _) & _).
    rewrite holds_origin in Hno. destruct (H s Hd Hno) as [HV HVd].
    destruct llo; simpl in Hneg; rewrite Q2R_0 in Hneg.
    + lra.
    + specialize (HV eq_refl). destruct Hneg as [?|[?|[]]]; lra.
Qed.

Example C06_example :
  (* V = x^2, Vdot = -x^2 on the whole line *)
  lyapunov_conditions false 1 (fun _ => FTrue)
    (sem (EPow (EVar 0) 2)) (sem (EUn UNeg (EPow (EVar 0) 2))).
Proof.
  intros s _ Ho. unfold sem. simpl.
  assert (s 0%nat <> 0).
  { intros E. apply Ho. intros i Hi. assert (i = 0)%nat by lia. now subst. }
  pose proof (Rsqr_pos_lt _ H) as Hp. unfold Rsqr in Hp. split; [intros _|]; lra.
Qed.

(** * C07 *)
Theorem C07_roa_obligations :
  forall llo n d beta V Vdot,
    refuted (roa_constraints llo (new_vars n) d beta V Vdot) <->
    roa_conditions llo n d (11/10 * Q2R beta) (sem V) (sem Vdot).
Proof.
  intros llo n d beta V Vdot.
  assert (Hb : Q2R (beta * (11 # 10)) = 11/10 * Q2R beta).
  { rewrite Q2R_mult. unfold Q2R at 2. simpl. lra. }
  assert (Hr : Q2R (1 # 10000) = (1/100) * (1/100)).
  { unfold Q2R. simpl. lra. }
  unfold roa_conditions, sem, inside. split.
  - intros H.
    assert (Hu := H _ _ _ (or_introl eq_refl) (or_introl eq_refl)). split.
    + intros s Hi. apply Rnot_lt_le. intros Hlt. apply (Hu s). simpl. left.
      repeat split; auto. rewrite Hb. lra.
    + intros s Hv Hn.
      assert (Hneg : ~ holds s (if llo then FCmp CGe Vdot E0
                              else for_ [FCmp CLe V E0; FCmp CGt Vdot E0])).
      { intros Hneg. apply (Hu s). cbn [for_ fold_right holds]. right. left.
        cbn [fand fold_right holds cmp_holds]. rewrite eval_sphere. simpl. rewrite Hb, Hr.
        repeat split; auto. lra. }
      destruct llo; simpl in Hneg; rewrite Q2R_0 in Hneg; [lra|].
      split.
      * apply Rnot_le_lt. intros Hx; apply Hneg. left; lra.
      * apply Rnot_lt_le. intros Hx; apply Hneg. right; left; lra.
  - intros [H1 H2] g l f [<-|[]] [E|[]] s Hs. inversion E; subst l f. clear E.
    cbn [for_ fold_right holds] in Hs. destruct Hs as [Hs|[Hs|[]]].
    + simpl in Hs. destruct Hs as (Hi & Hn & _). apply Hn. rewrite Hb. now apply H1.
    + cbn [fand fold_right holds cmp_holds] in Hs. rewrite eval_sphere in Hs. simpl in Hs.
      rewrite Hb, Hr in Hs. destruct Hs as ((HB & Hns & _) & Hneg & _).
      assert (Hlt : 1/100 * (1/100) < sqnorm n s) by lra.
      specialize (H2 s HB Hlt).
      destruct llo; simpl in Hneg; rewrite Q2R_0 in Hneg; [lra|].
      destruct Hneg as [?|[?|[]]]; lra.
Qed.

Example C07_example :
  (* V = x^2, Vdot = -x^2, XI = [-1,1], beta = 1 *)
  roa_conditions false 1 (fun _ => FCmp CLe (EPow (EVar 0) 2) (ENum 1)) (11/10 * Q2R 1)
    (sem (EPow (EVar 0) 2)) (sem (EUn UNeg (EPow (EVar 0) 2))).
Proof.
  unfold roa_conditions, inside, sem. simpl. rewrite Q2R_1. split; intros s; [lra|].
  intros Hv Hn. nra.
Qed.

(** * C08 *)
Lemma barrier_refuted_iff d B Bdot :
  refuted (barrier_constraints d B Bdot) <->
  barrier_conditions d XI XU (sem B) (sem Bdot).
Proof.
  unfold barrier_conditions, sem, inside. split.
  - intros H. pose proof (refuted_concat _ H) as RR. simpl in RR.
    assert (RI := RR _ _ (or_introl eq_refl)).
    assert (RU := RR _ _ (or_intror (or_introl eq_refl))).
    assert (RD := RR _ _ (or_intror (or_intror (or_introl eq_refl)))).
    split; [|split]; intros s Hd; [intros Hx|intros Hx|intros H0].
    + apply Rnot_le_lt. intros Hle. apply (RI s). simpl. rewrite Q2R_0. repeat split; auto. lra.
    + apply Rnot_le_lt. intros Hle. apply (RU s). simpl. rewrite Q2R_0. repeat split; auto.
    + apply Rnot_le_lt. intros Hle. apply (RD s). simpl. rewrite Q2R_0. repeat split; auto. lra.
  - intros (H1 & H2 & H3) g l f Hg Hl s Hs. simpl in Hg.
    destruct Hg as [<-|[<-|[]]]; simpl in Hl.
    + destruct Hl as [E|[E|[]]]; inversion E; subst; simpl in Hs; rewrite Q2R_0 in Hs;
        destruct Hs as ((? & ? & _) & ? & _).
      * pose proof (H1 s H4 H0). lra.
      * pose proof (H2 s H4 H0). lra.
    + destruct Hl as [E|[]]; inversion E; subst; simpl in Hs; rewrite Q2R_0 in Hs.
      destruct Hs as ((? & ? & _) & ? & _). pose proof (H3 s H4 H). lra.
Qed.

Theorem C08_barrier_obligations :
  forall d B Bdot,
    refuted (barrier_constraints d B Bdot) <->
    barrier_conditions d XI XU (sem B) (sem Bdot).
Proof. exact barrier_refuted_iff. Qed.

Definition ex_bsets : sets := fun l =>
  match l with
  | XI => FCmp CLe (EVar 0) (ENum 0)
  | XU => FCmp CGe (EVar 0) (ENum 2)
  | _ => FTrue
  end.

Example C08_example :
  barrier_conditions ex_bsets XI XU (sem (EBin BSub (EVar 0) (ENum 1))) (sem (ENum (-1))).
Proof.
  unfold barrier_conditions, inside, sem, ex_bsets. simpl. unfold Q2R; simpl.
  repeat split; intros; lra.
Qed.

(** * C09 *)
Theorem C09_barrier_alt_obligations :
  forall d B Bdot,
    refuted (barrier_alt_constraints d B Bdot) <->
    barrier_alt_conditions d (sem B) (sem Bdot).
Proof.
  intros d B Bdot. unfold barrier_alt_conditions, sem, inside. split.
  - intros H. pose proof (refuted_concat _ H) as RR. simpl in RR.
    assert (RI := RR _ _ (or_introl eq_refl)).
    assert (RU := RR _ _ (or_intror (or_introl eq_refl))).
    assert (RD := RR _ _ (or_intror (or_intror (or_introl eq_refl)))).
    split; [|split]; intros s Hd; [intros Hx|intros Hx|].
    + apply Rnot_le_lt. intros Hle. apply (RI s). simpl. rewrite Q2R_0. repeat split; auto. lra.
    + apply Rnot_le_lt. intros Hle. apply (RU s). simpl. rewrite Q2R_0. repeat split; auto.
    + apply Rnot_lt_le. intros Hle. apply (RD s). simpl. rewrite Q2R_0. repeat split; auto.
  - intros (H1 & H2 & H3) g l f Hg Hl s Hs. simpl in Hg.
    destruct Hg as [<-|[<-|[]]]; simpl in Hl.
    + destruct Hl as [E|[E|[]]]; inversion E; subst; simpl in Hs; rewrite Q2R_0 in Hs;
        destruct Hs as ((? & ? & _) & ? & _).
      * pose proof (H1 s H4 H0). lra.
      * pose proof (H2 s H4 H0). lra.
    + destruct Hl as [E|[]]; inversion E; subst; simpl in Hs; rewrite Q2R_0 in Hs.
      destruct Hs as ((? & _) & ? & _). pose proof (H3 s H0). lra.
Qed.

Example C09_example :
  barrier_alt_conditions ex_bsets (sem (EBin BSub (EVar 0) (ENum 1))) (sem (ENum (-1))).
Proof.
  unfold barrier_alt_conditions, inside, sem, ex_bsets. simpl. unfold Q2R; simpl.
  repeat split; intros; lra.
Qed.

(** * C10 *)
Lemma rws_refuted_iff d C Cdot :
  refuted (rws_constraints d C Cdot) <-> rws_conditions d (sem C) (sem Cdot).
Proof.
  unfold rws_conditions, sem, inside. split.
  - intros H. pose proof (refuted_concat _ H) as RR. simpl in RR.
    assert (RI := RR _ _ (or_introl eq_refl)).
    assert (RU := RR _ _ (or_intror (or_introl eq_refl))).
    assert (RD := RR _ _ (or_intror (or_intror (or_introl eq_refl)))).
    split; [|split]; intros s Hd; intros Hx.
    + apply Rnot_lt_le. intros Hle. apply (RI s). simpl. rewrite Q2R_0. repeat split; auto.
    + apply Rnot_le_lt. intros Hle. apply (RU s). simpl. rewrite Q2R_0. repeat split; auto.
    + intros HC. apply Rnot_lt_le. intros Hle. apply (RD s). simpl.
      rewrite Q2R_0, Q2R_gamma. repeat split; auto. lra.
  - intros (H1 & H2 & H3) g l f Hg Hl s Hs. simpl in Hg.
    destruct Hg as [<-|[<-|[]]]; simpl in Hl.
    + destruct Hl as [E|[E|[]]]; inversion E; subst; simpl in Hs; rewrite Q2R_0 in Hs;
        destruct Hs as ((? & ? & _) & ? & _).
      * pose proof (H1 s H4 H0). lra.
      * pose proof (H2 s H4 H0). lra.
    + destruct Hl as [E|[]]; inversion E; subst; simpl in Hs; rewrite Q2R_0, Q2R_gamma in Hs.
      destruct Hs as ((? & ? & ? & _) & ? & _). pose proof (H3 s H0 H4 H). lra.
Qed.

Theorem C10_rws_obligations :
  forall d C Cdot,
    refuted (rws_constraints d C Cdot) <-> rws_conditions d (sem C) (sem Cdot).
Proof. exact rws_refuted_iff. Qed.

(** XD = R, safe = [-2,2], init = [-1,1], goal = [-1/2,1/2]; C = x^2 - 3, Cdot = -2x^2. *)
Definition ex_rws_sets : sets := fun l =>
  match l with
  | XS => FCmp CLe (EPow (EVar 0) 2) (ENum 4)
  | XS_BORDER => FCmp CEq (EPow (EVar 0) 2) (ENum 4)
  | XI => FCmp CLe (EPow (EVar 0) 2) (ENum 1)
  | XG => FCmp CLe (EPow (EVar 0) 2) (ENum (1#4))
  | _ => FTrue
  end.
Definition ex_rws_C : expr := EBin BSub (EPow (EVar 0) 2) (ENum 3).
Definition ex_rws_Cdot : expr := EBin BMul (ENum (-2)) (EPow (EVar 0) 2).

Example C10_example : rws_conditions ex_rws_sets (sem ex_rws_C) (sem ex_rws_Cdot).
Proof.
  unfold rws_conditions, inside, sem, ex_rws_sets, ex_rws_C, ex_rws_Cdot. simpl.
  unfold Q2R; simpl. repeat split; intros; lra.
Qed.

(** * C12 *)
Theorem C12_rar_obligations :
  forall d V B Vdot Bdot,
    refuted (rar_constraints d V B Vdot Bdot) <->
    rws_conditions d (sem V) (sem Vdot) /\
    barrier_conditions d XG XNF (sem B) (sem Bdot).
Proof.
  intros d V B Vdot Bdot.
  assert (E : refuted (rar_constraints d V B Vdot Bdot) <->
              refuted (rws_constraints d V Vdot) /\
              refuted (barrier_constraints (goal_final_sets d) B Bdot)).
  { unfold refuted, rar_constraints. split.
    - intros H. split.
      + intros g l f Hg Hl. apply (H g l f); auto. apply in_or_app. now left.
      + intros g l f Hg Hl. simpl in Hg.
        assert (Hx : In f (map snd (concat (barrier_constraints (goal_final_sets d) B Bdot)))).
        { apply in_map_iff. exists (l, f). split; auto. apply in_concat. now exists g. }
        simpl in Hx. destruct Hx as [<-|[<-|[<-|[]]]].
        * eapply H; [apply in_or_app; right; left; reflexivity | left; reflexivity].
        * eapply H; [apply in_or_app; right; left; reflexivity | right; left; reflexivity].
        * eapply H; [apply in_or_app; right; right; left; reflexivity | left; reflexivity].
    - intros [Ha Hb] g l f Hg Hl. apply in_app_or in Hg. destruct Hg as [Hg|Hg].
      + apply (Ha g l f Hg Hl).
      + simpl in Hg. destruct Hg as [<-|[<-|[]]]; simpl in Hl.
        * destruct Hl as [E|[E|[]]]; inversion E; subst.
          -- eapply Hb; [left; reflexivity|left; reflexivity].
          -- eapply Hb; [left; reflexivity|right; left; reflexivity].
        * destruct Hl as [E|[]]; inversion E; subst.
          eapply Hb; [right; left; reflexivity|left; reflexivity]. }
  rewrite E, rws_refuted_iff, barrier_refuted_iff. unfold barrier_conditions, inside. simpl.
  reflexivity.
Qed.

Theorem C12_stablesafe_obligations :
  forall llo n d beta V B Vdot Bdot,
    refuted (safe_roa_constraints llo (new_vars n) d beta V B Vdot Bdot) <->
    roa_conditions llo n d (11/10 * Q2R beta) (sem V) (sem Vdot) /\
    barrier_conditions d XI XU (sem B) (sem Bdot).
Proof.
  intros llo n d beta V B Vdot Bdot. rewrite <- C07_roa_obligations, <- C08_barrier_obligations.
  unfold refuted, safe_roa_constraints. split.
  - intros H. split; intros g l f Hg Hl; apply (H g l f); auto; apply in_or_app; auto.
  - intros [Ha Hb] g l f Hg Hl. apply in_app_or in Hg. destruct Hg; eauto.
Qed.

(** Labels under which the parts are reported (C12): RAR relabels the barrier part. *)
Theorem C12_rar_labels :
  forall d V B Vdot Bdot,
    map (map fst) (rar_constraints d V B Vdot Bdot) =
    [[XI; XU]; [XD]; [XG; XNF]; [XF]].
Proof. reflexivity. Qed.

Definition ex_rar_sets : sets := fun l =>
  match l with
  | XF => FCmp CLe (EPow (EVar 0) 2) (ENum 1)
  | XNF => FNot (FCmp CLe (EPow (EVar 0) 2) (ENum 1))
  | _ => ex_rws_sets l
  end.

Example C12_example :
  rws_conditions ex_rar_sets (sem ex_rws_C) (sem ex_rws_Cdot) /\
  barrier_conditions ex_rar_sets XG XNF
    (sem (EBin BSub (EPow (EVar 0) 2) (ENum (1#2)))) (sem ex_rws_Cdot).
Proof.
  unfold rws_conditions, barrier_conditions, inside, sem, ex_rar_sets, ex_rws_sets, ex_rws_C, ex_rws_Cdot.
  simpl. unfold Q2R; simpl. repeat split; intros; lra.
Qed.

Print Assumptions C06_lyapunov_obligations.
Print Assumptions C07_roa_obligations.
Print Assumptions C08_barrier_obligations.
Print Assumptions C09_barrier_alt_obligations.
Print Assumptions C10_rws_obligations.
Print Assumptions C12_rar_obligations.
Print Assumptions C12_stablesafe_obligations.
