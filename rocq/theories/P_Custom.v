(** Property C67: certificates written by the user. *)
From Coquelicot Require Import Coquelicot.
From Coq Require Import Reals QArith Qreals List Bool Arith ZArith Lra Lia.
From Verif Require Import M_Syntax M_Certificates M_Verifier M_BetaSearch M_Activations M_Network M_Learner M_Cegis M_Fossil M_Custom
  S_Verifier S_Certificates S_Success S_Dynamics S_Domains S_Network S_Learner S_Cegis S_Fossil S_Custom
  L_Verifier L_Table L_Network L_Learner L_Continuity L_Topology L_Success L_Smooth L_Fossil L_Demo
  P_Certificates P_Translator P_Safety P_Stability P_LLO P_Cegis P_Fossil.
Import ListNotations.
Local Open Scope nat_scope.

(** The closed loop of a result. *)
Definition custom_closed_loop {T K} (pb : problem K) (r : result (P := custom_learned T K) (C := expr * expr)) : vfield :=
  field (dynamics pb (u_ctrl (r_learned r))).

Lemma before_raise_spec gs : let '(l, b) := before_raise gs in
  (b = false -> l = flat_map (fun o => match o with Some g => [g] | None => [] end) gs) /\
  incl l (flat_map (fun o => match o with Some g => [g] | None => [] end) gs).
Proof.
  induction gs as [|[g|] gs IH]; cbn [before_raise flat_map app].
  - split; [reflexivity|apply incl_refl].
  - destruct (before_raise gs) as [l b]. destruct IH as [A B]. split; [intros E; now rewrite (A E)|].
    intros x [<-|Hx]; [now left|right; now apply B].
  - split; [discriminate|intros x []].
Qed.

(** Success was reported: then every condition asked for is refuted. *)
Lemma verify_yielded_sound be noise y cex :
  trustworthy be (dictionaries y) -> keys_once y -> verify_yielded be noise y = Some (true, cex) ->
  forall l f, asks y l f -> unsatisfiable f.
Proof.
  intros Ht Hk H l f (g & Hg & Hf). destruct y as [gs|d|]; cbn [dictionaries] in *; try contradiction.
  cbn [verify_yielded] in H. assert (B := before_raise_spec gs). destruct (before_raise gs) as [before raises]. destruct B as [B1 B2].
  destruct raises; cbn [andb] in H.
  - destruct (any_sat be _) eqn:Ea; cbn [negb] in H; [|discriminate]. exfalso.
    assert (Hv : v_found (verify be noise before) = true) by congruence. apply verify_found_all in Hv. rewrite forallb_forall in Hv.
    unfold any_sat in Ea. apply existsb_exists in Ea. destruct Ea as ([l' r'] & Hin & Hs). specialize (Hv _ Hin). cbn [snd] in *.
    (* every recorded answer is an answer of the solver *)
    assert (A : forall gs k res, (forall e, In e res -> exists k f, snd e = b_solve be k f) ->
                  forall e, In e (snd (run_groups be k gs res)) -> exists k f, snd e = b_solve be k f).
    { clear. assert (D : forall l v d (e : label * b_res be), In e (dset l v d) -> snd e = v \/ In e d).
      { intros l v d. induction d as [|[m w] d IH]; intros e He; cbn [dset] in He.
        - destruct He as [<-|[]]; now left.
        - destruct (label_eqb m l); cbn [In] in *.
          + destruct He as [<-|He]; [now left|auto].
          + destruct He as [<-|He]; [auto|]. destruct (IH _ He); auto. }
      assert (G : forall g k res, (forall e, In e res -> exists k f, snd e = b_solve be k f) ->
                  forall e, In e (snd (run_group be k g res)) -> exists k f, snd e = b_solve be k f).
      { induction g as [|[l c] g IH]; intros k res Hr e He; cbn [run_group] in He; [now apply Hr|].
        apply (IH _ _) with (e := e) in He; auto. intros e' He'. destruct (D _ _ _ _ He') as [E|E]; eauto. }
      induction gs as [|g gs IH]; intros k res Hr e He; cbn [run_groups] in He; [now apply Hr|].
      specialize (G g k res Hr). destruct (run_group be k g res) as [k' r']. destruct (any_sat be r'); [now apply G|].
      apply (IH k' r'); auto. }
    destruct (A before 0 [] (fun e He => match He with end) _ Hin) as (k & f' & E). cbn [snd] in E. subst r'.
    destruct Ht as [_ Ht]. specialize (Ht _ _ Hs). congruence.
  - specialize (B1 eq_refl). subst before. set (gs' := flat_map _ gs) in *.
    assert (R : refuted gs'). { apply certified_refuted; [exact Hk|]. exists be, noise. split; [exact Ht|congruence]. }
    exact (R g l f Hg Hf).
Qed.

Section Runs.
  Context {T K : Type} (pb : problem K) (cls : custom T K) (env : custom_environment T K) (random : network).
  Hypothesis Hk : keeps_architecture cls.

  Lemma custom_visited_shape p S it st :
    same_shape random (u_net p) -> visited (custom_components pb cls env) p S it st -> same_shape random (u_net (st_params st)).
  Proof.
    intros H0. induction 1 as [|it st st' Hv IH Hi]; [exact H0|].
    apply iterate_inv in Hi. destruct Hi as (q & c & found & cex & t & H1 & _ & _ & _ & Hp & _).
    rewrite Hp. eapply same_shape_trans; [exact IH|]. exact (Hk _ _ _ _ _ H1).
  Qed.

  Lemma custom_run_success ctrl S fuel r :
    run_custom pb cls env fuel random ctrl S = Some (Some r) -> r_res r = true ->
    exists it V Vdot cex, r_symbolic r = Some (V, Vdot) /\ same_shape random (u_net (r_learned r)) /\
      pb_xdot pb (u_ctrl (r_learned r)) = Some (dynamics pb (u_ctrl (r_learned r))) /\
      translate_ct (pb_symb pb) (ue_simp env) (pb_rounding pb) (pb_quad pb) (u_net (r_learned r)) (new_vars (pb_n pb))
        (dynamics pb (u_ctrl (r_learned r))) = Some (V, Vdot) /\
      verify_yielded (ue_solver env it) (ue_noise env it)
        (cu_constraints cls (u_self (r_learned r)) (new_vars (pb_n pb)) V Vdot) = Some (true, cex).
  Proof.
    unfold run_custom. destruct (pb_discrete pb); [discriminate|]. destruct (cu_init cls (pb_sets pb)) as [self|]; [|discriminate].
    intros Hr Hres. destruct (C32_result_was_verified _ _ _ _ _ _ _ Hr Hres)
      as (it & [V Vdot] & cex & _ & E1 & E2 & E3 & _ & st & Hv & E5).
    cbn [c_translate c_verify c_learn custom_components] in *.
    unfold custom_translate in E2. unfold dynamics. destruct (pb_xdot pb (u_ctrl (r_learned r))) as [xdot|]; [|discriminate].
    exists it, V, Vdot, cex. split; [exact E1|]. split; [|split; [reflexivity|split; [exact E2|exact E3]]].
    eapply same_shape_trans; [refine (custom_visited_shape _ _ _ _ _ Hv); apply init_shape|]. exact (Hk _ _ _ _ _ E5).
  Qed.
End Runs.

(** If the class's conditions express [Cond], then a reported success means that [Cond] holds: of the function
    computed by the (rounded) returned network and of its derivative along the returned closed loop. *)
Theorem C67_success :
  forall (T K : Type) (pb : problem K) (cls : custom T K) (env : custom_environment T K) random ctrl S fuel r
         (Cond : T -> (state -> R) -> (state -> R) -> Prop),
    well_posed pb random -> smooth_net random -> keeps_architecture cls -> honest_custom pb cls env -> pb_symb pb <> SCVC5 ->
    (forall self V Vdot, keys_once (cu_constraints cls self (new_vars (pb_n pb)) V Vdot)) ->
    expresses cls (pb_n pb) Cond ->
    run_custom pb cls env fuel random ctrl S = Some (Some r) -> r_res r = true ->
    exists V Vdot, r_symbolic r = Some (V, Vdot) /\
      (forall s, eval s V = cert_value (pb_quad pb) (round_net (pb_rounding pb) (u_net (r_learned r))) s) /\
      lie_derivative (pb_n pb) (custom_closed_loop pb r) (sem V) (sem Vdot) /\
      Cond (u_self (r_learned r)) (sem V) (sem Vdot).
Proof.
  intros T K pb cls env random ctrl S fuel r Cond (W1 & W2 & W3) Hsm Hk Hh Hs Hkey Hex Hr Hres.
  destruct (custom_run_success pb cls env random Hk ctrl S fuel r Hr Hres) as (it & V & Vdot & cex & E1 & Hsh & Hx & Ht & Hv).
  exists V, Vdot. split; [exact E1|].
  assert (In : in_size (u_net (r_learned r)) = pb_n pb) by (destruct Hsh as [E _]; congruence).
  assert (Wn : wf_net (u_net (r_learned r))) by now apply (same_shape_wf random).
  assert (Sn : smooth_net (u_net (r_learned r))) by now apply (same_shape_smooth random).
  rewrite <- In in Ht. split; [|split].
  - apply (translate_ct_value _ _ _ _ _ _ _ _ Hs Wn Ht).
  - rewrite <- In. unfold custom_closed_loop.
    apply (C22_smooth_networks (pb_symb pb) (ue_simp env) (pb_rounding pb) (pb_quad pb) (u_net (r_learned r))); auto.
    now rewrite In, (W3 _ _ Hx).
  - apply Hex. intros l f s Ha. exact (verify_yielded_sound _ _ _ _ (Hh it _ V Vdot) (Hkey _ V Vdot) Hv l f Ha s).
Qed.

(** The example class: the conditions are those of a Lyapunov function, also with LLO. *)
Lemma custom_lyapunov_asks domain xs V Vdot l f :
  asks (custom_lyapunov_constraints domain xs V Vdot) l f <->
  exists g, In g (lyapunov_constraints false xs (fun _ => domain) V Vdot) /\ In (l, f) g.
Proof. unfold asks. cbn [dictionaries custom_lyapunov_constraints flat_map app]. reflexivity. Qed.

Lemma custom_lyapunov_keeps {K} llo perfect step (tc : nat -> custom_learned fml K -> dict -> dict -> K) :
  (forall it p S Sdot, optimiser llo (step it p S Sdot)) -> keeps_architecture (custom_lyapunov llo perfect step tc).
Proof.
  intros H it p S Sdot p' E. cbn [cu_learn custom_lyapunov] in E. unfold custom_lyapunov_learn in E.
  destruct (dlookup XD S); [|discriminate]. injection E as <-. cbn [u_net].
  exact (learn_shape llo (perfect it p S Sdot, step it p S Sdot) (u_net p) (H it p S Sdot)).
Qed.

Lemma custom_self_domain {K} llo perfect step (tc : nat -> custom_learned fml K -> dict -> dict -> K) pb env p S it st :
  visited (custom_components pb (custom_lyapunov llo perfect step tc) env) p S it st -> u_self (st_params st) = u_self p.
Proof.
  induction 1 as [|it st st' Hv IH Hi]; [reflexivity|].
  apply iterate_inv in Hi. destruct Hi as (q & c & found & cex & t & H1 & _ & _ & _ & Hp & _). rewrite Hp, <- IH.
  cbn [c_learn custom_components cu_learn custom_lyapunov] in H1. unfold custom_lyapunov_learn in H1.
  destruct (dlookup XD (st_S st)); [|discriminate]. now injection H1 as <-.
Qed.

Theorem C67_example_class_stability :
  forall (K : Type) (pb : problem K) perfect step train_ctrl (env : custom_environment fml K) random ctrl S fuel r rad,
    let cls := custom_lyapunov (pb_llo pb) perfect step train_ctrl in
    well_posed pb random -> smooth_net random -> honest_custom pb cls env -> pb_symb pb <> SCVC5 ->
    (forall it p S Sdot, optimiser (pb_llo pb) (step it p S Sdot)) ->
    pb_quad pb = true \/ zero_preserving random ->
    neighbourhood (pb_n pb) rad (inside (pb_sets pb) XD) ->
    (forall i p, cont_at (pb_n pb) (fun s => custom_closed_loop pb r s i) p) ->
    run_custom pb cls env fuel random ctrl S = Some (Some r) -> r_res r = true ->
    stable (pb_n pb) (custom_closed_loop pb r) /\ attractive (pb_n pb) (custom_closed_loop pb r).
Proof.
  intros K pb perfect step tc env random ctrl S fuel r rad cls Hwp Hsm Hh Hs Ho Hz Hnb Hf Hr Hres.
  assert (Hkeep : keeps_architecture cls) by now apply custom_lyapunov_keeps.
  destruct (custom_run_success pb cls env random Hkeep ctrl S fuel r Hr Hres) as (it & V & Vdot & cex & E1 & Hsh & Hx & Ht & Hv).
  destruct (C67_success fml K pb cls env random ctrl S fuel r
              (fun D V Vdot => forall s, holds s D -> ~ origin (pb_n pb) s -> (0 < V s)%R /\ (Vdot s < 0)%R))
    as (V' & Vdot' & E1' & Hval & Hlie & Hc); auto.
  - intros self A B. unfold keys_once. cbn. repeat constructor. intros [].
  - intros D A B H. assert (R : lyapunov_conditions false (pb_n pb) (fun _ => D) (sem A) (sem B)).
    { apply C06_lyapunov_obligations. intros g l f Hg Hf' s. apply (H l f s). apply custom_lyapunov_asks. now exists g. }
    intros s Hs' Hno. destruct (R s Hs' Hno) as [P Q]. split; [now apply P|exact Q].
  - rewrite E1 in E1'. injection E1' as <- <-. destruct Hwp as (W1 & W2 & W3).
    assert (In : in_size (u_net (r_learned r)) = pb_n pb) by (destruct Hsh as [E _]; congruence).
    assert (Wn : wf_net (u_net (r_learned r))) by now apply (same_shape_wf random).
    assert (Sn : smooth_net (u_net (r_learned r))) by now apply (same_shape_smooth random).
    assert (Hself : u_self (r_learned r) = pb_sets pb XD).
    { unfold run_custom in Hr. destruct (pb_discrete pb); [discriminate|]. cbn [cu_init cls custom_lyapunov] in Hr.
      destruct (C32_result_was_verified _ _ _ _ _ _ _ Hr Hres) as (i & c & ce & _ & _ & _ & _ & _ & st & Hvis & E5).
      assert (E := custom_self_domain _ _ _ _ _ _ _ _ _ _ Hvis). cbn [u_self] in E.
      cbn [c_learn custom_components cu_learn cls custom_lyapunov] in E5. unfold custom_lyapunov_learn in E5.
      destruct (dlookup XD (st_S st)); [|discriminate]. injection E5 as <-. exact E. }
    rewrite Hself in Hc. rewrite <- In in Ht.
    destruct (C13_lyapunov_stability (pb_n pb) (custom_closed_loop pb r) (pb_sets pb) V Vdot rad) as (A & B & _); auto.
    + apply refuted_certified'. apply C06_lyapunov_obligations. intros s Hs' Hno. destruct (Hc s Hs' Hno). now split.
    + intros p. rewrite <- In. now apply (translate_ct_cont (pb_symb pb) (ue_simp env) (pb_rounding pb) (pb_quad pb) (u_net (r_learned r))
        (dynamics pb (u_ctrl (r_learned r))) V Vdot).
    + intros s Hos. unfold sem. rewrite Hval. apply cert_value_origin; auto.
      * destruct Hz as [Hz|Hz]; [now left|right]. now apply (same_shape_zero random).
      * now rewrite In.
    + split; [exact A|]. apply B. intros p. assert (Lx := W3 _ _ Hx). rewrite In in Ht. rewrite <- In.
      apply (translate_ct_dot_cont (pb_symb pb) (ue_simp env) (pb_rounding pb) (pb_quad pb) (u_net (r_learned r))
        (dynamics pb (u_ctrl (r_learned r))) V Vdot); rewrite ?In; auto. intros i. exact (Hf i p).
Qed.

(** ** What the class yields decides, not how it is grouped *)
Section Decided.
  Context (be : backend) (P : fml -> Prop).
  Hypothesis Hd : forall k f, P f -> (b_is_unsat be (b_solve be k f) = true <-> unsatisfiable f) /\
              (b_is_sat be (b_solve be k f) = true <-> ~ unsatisfiable f).

  Lemma dset_in {A} l (v : A) d : In (l, v) (dset l v d).
  Proof.
    induction d as [|[m w] d IH]; cbn [dset]; [now left|].
    destruct (label_eqb m l) eqn:E; [|now right]. apply label_eqb_spec in E. subst m. now left.
  Qed.
  Lemma dset_other {A} l l' (v v' : A) d : l' <> l -> In (l', v') d -> In (l', v') (dset l v d).
  Proof.
    intros H. induction d as [|[m w] d IH]; cbn [dset]; intros Hin; [destruct Hin|].
    destruct (label_eqb m l) eqn:E; destruct Hin as [[= -> ->]|Hin].
    - apply label_eqb_spec in E. contradiction.
    - now right.
    - now left.
    - right. now apply IH.
  Qed.
  Lemma dset_inv {A} l (v : A) d e : In e (dset l v d) -> snd e = v \/ In e d.
  Proof.
    induction d as [|[m w] d IH]; cbn [dset]; intros He.
    - destruct He as [<-|[]]; now left.
    - destruct (label_eqb m l); destruct He as [<-|He]; cbn [In]; auto. destruct (IH He); auto.
  Qed.
  Lemma run_group_other g : forall k res l r, ~ In l (map fst g) -> In (l, r) res -> In (l, r) (snd (run_group be k g res)).
  Proof.
    induction g as [|[l' c] g IH]; intros k res l r Hl Hin; cbn [run_group]; [exact Hin|].
    apply IH; [intros X; apply Hl; now right|]. apply dset_other; auto. intros ->. apply Hl. now left.
  Qed.
  Lemma run_group_hit g : forall k res l f, NoDup (map fst g) -> In (l, f) g ->
    exists k', In (l, b_solve be k' f) (snd (run_group be k g res)).
  Proof.
    induction g as [|[l' c] g IH]; intros k res l f Hn Hin; [destruct Hin|]. cbn [run_group]. cbn [map fst] in Hn.
    apply NoDup_cons_iff in Hn. destruct Hn as [Hn1 Hn2]. destruct Hin as [[= -> ->]|Hin]; [|now apply IH].
    exists k. apply run_group_other; auto. apply dset_in.
  Qed.
  Lemma run_group_inv g : forall k res e, In e (snd (run_group be k g res)) ->
    In e res \/ exists k' l f, In (l, f) g /\ snd e = b_solve be k' f.
  Proof.
    induction g as [|[l' c] g IH]; intros k res e He; cbn [run_group] in He; [now left|].
    destruct (IH _ _ _ He) as [H|(k' & l & f & H & E)]; [|right; exists k', l, f; split; [now right|exact E]].
    destruct (dset_inv _ _ _ _ H) as [E|H']; [|now left]. right. exists k, l', c. split; [now left|exact E].
  Qed.

  Definition all_unsat (res : list (label * b_res be)) : Prop := forall e, In e res -> b_is_unsat be (snd e) = true.
  Lemma unsat_not_sat k f : P f -> b_is_unsat be (b_solve be k f) = true -> b_is_sat be (b_solve be k f) = false.
  Proof.
    intros Hp H. destruct (Hd k f Hp) as [A B]. destruct (b_is_sat be _) eqn:E; [|reflexivity]. exfalso. apply (proj1 B eq_refl). now apply A.
  Qed.
  Lemma run_groups_decided gs : Forall (fun g => NoDup (map fst g)) gs -> (forall g l f, In g gs -> In (l, f) g -> P f) -> forall k res,
    all_unsat res -> (forall e, In e res -> b_is_sat be (snd e) = false) ->
    (all_unsat (snd (run_groups be k gs res)) <-> forall g l f, In g gs -> In (l, f) g -> unsatisfiable f) /\
    (any_sat be (snd (run_groups be k gs res)) = false <-> forall g l f, In g gs -> In (l, f) g -> unsatisfiable f).
  Proof.
    induction 1 as [|g gs Hg _ IH]; intros HP k res Hu Hs; cbn [run_groups].
    - cbn [snd]. assert (E : any_sat be res = false).
      { unfold any_sat. destruct (existsb _ res) eqn:E; [|reflexivity]. apply existsb_exists in E. destruct E as (e & He & E). rewrite (Hs e He) in E. discriminate. }
      split; split; intros; try assumption; contradiction.
    - assert (H1 := run_group_hit g k res). assert (H2 := run_group_inv g k res). destruct (run_group be k g res) as [k' r']. cbn [snd] in H1, H2.
      destruct (any_sat be r') eqn:Ea.
      + cbn [snd]. unfold any_sat in Ea. apply existsb_exists in Ea. destruct Ea as (e & He & Es).
        destruct (H2 e He) as [H|(k1 & l & f & Hin & E)]; [rewrite (Hs e H) in Es; discriminate|].
        rewrite E in Es. assert (Pf := HP g l f (or_introl eq_refl) Hin). assert (Nu : ~ unsatisfiable f) by now apply (Hd k1 f).
        split; split; intros X.
        * exfalso. specialize (X e He). rewrite E in X. apply Nu. now apply (Hd k1 f).
        * exfalso. apply Nu. exact (X g l f (or_introl eq_refl) Hin).
        * exfalso. assert (Y : any_sat be r' = true) by (unfold any_sat; apply existsb_exists; exists e; rewrite E; auto). congruence.
        * exfalso. apply Nu. exact (X g l f (or_introl eq_refl) Hin).
      + assert (Hg' : forall l f, In (l, f) g -> unsatisfiable f).
        { intros l f Hin. destruct (H1 l f Hg Hin) as [k1 Hk]. assert (Hk2 : b_is_sat be (b_solve be k1 f) = false).
          { destruct (b_is_sat be (b_solve be k1 f)) eqn:E; [|reflexivity]. assert (any_sat be r' = true); [|congruence].
            apply existsb_exists. now exists (l, b_solve be k1 f). }
          destruct (Hd k1 f (HP g l f (or_introl eq_refl) Hin)) as [A B].
          destruct (Classical_Prop.classic (unsatisfiable f)) as [U|U]; [exact U|]. apply B in U. congruence. }
        destruct (IH (fun g' l f Hg'' => HP g' l f (or_intror Hg'')) k' r') as [A B].
        * intros e He. destruct (H2 e He) as [H|(k1 & l & f & Hin & E)]; [now apply Hu|]. rewrite E. apply Hd; [exact (HP g l f (or_introl eq_refl) Hin)|]. now apply (Hg' l).
        * intros e He. destruct (H2 e He) as [H|(k1 & l & f & Hin & E)]; [now apply Hs|]. rewrite E. assert (Pf := HP g l f (or_introl eq_refl) Hin). apply unsat_not_sat; [exact Pf|]. apply Hd; [exact Pf|]. now apply (Hg' l).
        * split; [rewrite A|rewrite B]; split; intros X.
          1,3: intros g' l f [<-|Hin]; [now apply Hg'|now apply X].
          1,2: intros g' l f Hin; apply X; now right.
  Qed.
End Decided.

(** With a solver that decides the conditions asked for, a class whose dictionaries are dictionaries (each key once in each of them)
    is accepted exactly if no condition has a solution: grouping, order and keys do not matter. *)
Theorem C67_grouping :
  forall be noise y gs, decides be y -> y = Groups (map Some gs) -> Forall (fun g => NoDup (map fst g)) gs ->
    exists found cex, verify_yielded be noise y = Some (found, cex) /\
      (found = true <-> forall l f s, asks y l f -> ~ holds s f).
Proof.
  intros be noise y gs Hd -> Hg.
  assert (E : before_raise (map Some gs) = (gs, false)).
  { clear. induction gs as [|g gs IH]; [reflexivity|]. cbn [map before_raise]. now rewrite IH. }
  assert (D : dictionaries (Groups (map Some gs)) = gs).
  { clear. cbn [dictionaries]. induction gs as [|g gs IH]; [reflexivity|]. cbn [map flat_map app]. now rewrite IH. }
  exists (v_found (verify be noise gs)), (v_cex (verify be noise gs)). cbn [verify_yielded]. rewrite E. cbn [andb]. split; [reflexivity|].
  rewrite verify_found_all, forallb_forall.
  destruct (run_groups_decided be (fun f => exists l, asks (Groups (map Some gs)) l f)
              (fun k f Hf => match Hf with ex_intro l H => Hd k l f H end) gs Hg
              (fun g l f H1 H2 => ex_intro _ l (ex_intro _ g (conj (eq_ind_r (fun x => In g x) H1 D) H2))) 0 [] (fun e He => match He with end) (fun e He => match He with end)) as [A _].
  unfold all_unsat in A. rewrite A. unfold asks. rewrite D. split.
  - intros H l f s (g & H1 & H2). exact (H g l f H1 H2 s).
  - intros H g l f H1 H2 s. apply (H l f s). now exists g.
Qed.

(** ** How a class can go wrong *)
Section Wrong.
  Context {T K : Type} (pb : problem K) (cls : custom T K) (env : custom_environment T K).

  (** The first iteration decides. *)
  Lemma custom_first fuel random ctrl S self p c v :
    pb_discrete pb = false -> cu_init cls (pb_sets pb) = Some self ->
    cu_learn cls 0 {| u_net := init_learner (pb_llo pb) random; u_ctrl := ctrl; u_self := self |} S
      (map (fun e => (fst e, map (pb_f pb ctrl) (snd e))) S) = Some p ->
    custom_translate pb env 0 p = Some c -> custom_verify pb cls env 0 p c = v ->
    match v with
    | None => run_custom pb cls env (Datatypes.S fuel) random ctrl S = Some None
    | Some (true, cex) => Forall (fun e => snd e = []) cex ->
        exists r, run_custom pb cls env (Datatypes.S fuel) random ctrl S = Some (Some r) /\ r_res r = true /\ r_iters r = 1 /\ r_learned r = p
    | _ => True
    end.
  Proof.
    intros Hd Hi Hl Ht Hv. unfold run_custom. rewrite Hd, Hi. unfold solve. cbn [loop]. unfold iterate.
    cbn [c_learn c_translate c_verify custom_components init_state st_params st_S st_Sdot c_f]. cbn [u_ctrl].
    rewrite Hl. cbn [option_bind]. rewrite Ht. cbn [option_bind]. rewrite Hv.
    destruct v as [[[|] cex]|]; cbn [option_bind]; [|exact I|reflexivity].
    intros Hc. rewrite consolidator_empty by exact Hc. cbn [option_bind]. unfold process_certificate. cbn [c_type custom_components cert_eqb orb option_bind].
    eexists. split; [reflexivity|]. cbn [make_result r_res r_iters r_learned st_found st_params]. auto.
  Qed.

  Definition first_ok (random : network) (ctrl : K) (S : dict) (p : custom_learned T K) (c : expr * expr) : Prop :=
    pb_discrete pb = false /\ exists self, cu_init cls (pb_sets pb) = Some self /\
    cu_learn cls 0 {| u_net := init_learner (pb_llo pb) random; u_ctrl := ctrl; u_self := self |} S
      (map (fun e => (fst e, map (pb_f pb ctrl) (snd e))) S) = Some p /\
    custom_translate pb env 0 p = Some c.
End Wrong.

(** A class that yields nothing is satisfied by every network, whatever the solver. *)
Theorem C67_nothing_asked :
  forall T K (pb : problem K) (cls : custom T K) env fuel random ctrl S p c,
    first_ok pb cls env random ctrl S p c ->
    (cu_constraints cls (u_self p) (new_vars (pb_n pb)) (fst c) (snd c) = Groups [] \/
     cu_constraints cls (u_self p) (new_vars (pb_n pb)) (fst c) (snd c) = OneDictionary []) ->
    exists r, run_custom pb cls env (Datatypes.S fuel) random ctrl S = Some (Some r) /\ r_res r = true /\ r_iters r = 1 /\ r_learned r = p.
Proof.
  intros T K pb cls env fuel random ctrl S p c (Hd & self & Hi & Hl & Ht) Hy.
  refine (custom_first pb cls env fuel random ctrl S self p c (Some (true, [])) Hd Hi Hl Ht _ (Forall_nil _)).
  unfold custom_verify. destruct Hy as [-> | ->]; reflexivity.
Qed.
(** The documentation allows a single dictionary: the run raises. *)
Theorem C67_single_dictionary_refuted :
  forall T K (pb : problem K) (cls : custom T K) env fuel random ctrl S p c e d,
    first_ok pb cls env random ctrl S p c ->
    cu_constraints cls (u_self p) (new_vars (pb_n pb)) (fst c) (snd c) = OneDictionary (e :: d) ->
    run_custom pb cls env (Datatypes.S fuel) random ctrl S = Some None.
Proof.
  intros T K pb cls env fuel random ctrl S p c e d (Hd & self & Hi & Hl & Ht) Hy.
  refine (custom_first pb cls env fuel random ctrl S self p c None Hd Hi Hl Ht _).
  unfold custom_verify. now rewrite Hy.
Qed.
(** Discrete time is refused, and so is a class whose constructor raises. *)
Theorem C67_refused :
  forall T K (pb : problem K) (cls : custom T K) env fuel random ctrl S,
    pb_discrete pb = true \/ cu_init cls (pb_sets pb) = None ->
    run_custom pb cls env fuel random ctrl S = Some None.
Proof.
  intros T K pb cls env fuel random ctrl S [H|H]; unfold run_custom; rewrite H; [reflexivity|]. now destruct (pb_discrete pb).
Qed.

(** Counterexamples are added to the data of their key: a key without data makes the run raise as soon as the
    condition under it has a counterexample, except in the last iteration. *)
Lemma visited_loop {P C} (k : components P C) p S it st : visited k p S it st ->
  forall fuel, loop k (it + fuel) 0 (init_state k p S) = loop k fuel it st.
Proof.
  induction 1 as [|it st st' Hv IH Hi]; intros fuel; [reflexivity|].
  replace (it + 1 + fuel) with (it + Datatypes.S fuel) by lia. rewrite IH. cbn [loop]. now rewrite Hi.
Qed.
Lemma add_ces_keys {P C} (k : components P C) p cex : forall S Sdot S' Sd',
  add_ces_to_data k p S Sdot cex = Some (S', Sd') -> keys S' = keys S /\ forall l, rows l cex <> [] -> In l (keys S).
Proof.
  induction cex as [|[l r] cex IH]; intros S Sdot S' Sd' H; cbn [add_ces_to_data] in H.
  - injection H as <- _. split; [reflexivity|]. intros l H. now elim H.
  - destruct r as [|x r].
    + destruct (IH _ _ _ _ H) as [A B]. split; [exact A|]. intros m Hm. rewrite rows_cons in Hm.
      destruct (label_eqb l m) eqn:E; [now elim Hm|now apply B].
    + destruct (dlookup l S) as [old|] eqn:E; [|discriminate].
      assert (Hl : In l (keys S)) by (apply dlookup_keys; congruence).
      destruct (IH _ _ _ _ H) as [A B]. rewrite dset_keys in A, B by exact Hl. split; [exact A|].
      intros m Hm. rewrite rows_cons in Hm. destruct (label_eqb l m) eqn:Em; [|now apply B].
      apply label_eqb_spec in Em. now subst m.
Qed.
Lemma visited_keys {P C} (k : components P C) p S it st : visited k p S it st -> keys (st_S st) = keys S.
Proof.
  induction 1 as [|it st st' Hv IH Hi]; [reflexivity|]. rewrite <- IH. unfold iterate in Hi.
  destruct (c_learn k _ _ _ _ _) as [q|]; [|discriminate]. cbn [option_bind] in Hi.
  destruct (c_translate k _ _) as [c|]; [|discriminate]. cbn [option_bind] in Hi.
  destruct (c_verify k _ _ _) as [[found cex]|]; [|discriminate]. cbn [option_bind] in Hi.
  destruct (consolidator_get _ _ _ _ _) as [t|]; [|discriminate]. cbn [option_bind] in Hi.
  destruct found.
  - unfold process_certificate in Hi. destruct (if _ || _ then _ else _) as [[]|]; [|discriminate]. cbn [option_bind] in Hi.
    destruct (cert_eqb _ RSWS); [|discriminate]. destruct (c_stay k _ _ _) as [[|]|]; try discriminate. cbn [option_bind] in Hi.
    injection Hi as _ <-. reflexivity.
  - cbn [st_timed_out] in Hi. destruct (st_timed_out st); [discriminate|]. destruct (_ =? _)%Z; [discriminate|].
    unfold process_cex in Hi. cbn [st_S st_Sdot st_params st_cex st_trajectory] in Hi.
    destruct (if c_double k then _ else _) as [cex'|]; [|discriminate]. cbn [option_bind] in Hi.
    destruct (add_ces_to_data _ _ _ _ _) as [[S1 Sd1]|] eqn:Ea; [|discriminate]. cbn [option_bind] in Hi. injection Hi as <-.
    cbn [st_S]. apply (add_ces_keys _ _ _ _ _ _ _ Ea).
Qed.

Theorem C67_keys_need_data :
  forall T K (pb : problem K) (cls : custom T K) env fuel random ctrl S self it st p c cex l,
    pb_discrete pb = false -> cu_init cls (pb_sets pb) = Some self ->
    visited (custom_components pb cls env) {| u_net := init_learner (pb_llo pb) random; u_ctrl := ctrl; u_self := self |} S it st ->
    cu_learn cls it (st_params st) (st_S st) (st_Sdot st) = Some p -> custom_translate pb env it p = Some c ->
    custom_verify pb cls env it p c = Some (false, cex) -> rows l cex <> [] -> ~ In l (keys S) -> pb_max_iters pb <> Z.of_nat it ->
    run_custom pb cls env (it + Datatypes.S fuel) random ctrl S = Some None.
Proof.
  intros T K pb cls env fuel random ctrl S self it st p c cex l Hd Hi Hv Hl Ht Hver Hrows Hkey Hm.
  unfold run_custom, solve. rewrite Hd, Hi, (visited_loop _ _ _ _ _ Hv). cbn [loop].
  assert (E : iterate (custom_components pb cls env) it st = None); [|now rewrite E].
  unfold iterate. cbn [c_learn c_translate c_verify custom_components]. rewrite Hl. cbn [option_bind]. rewrite Ht. cbn [option_bind].
  rewrite Hver. cbn [option_bind]. destruct (consolidator_get _ _ _ _ _) as [t|]; [|reflexivity]. cbn [option_bind st_timed_out].
  rewrite (visited_timed_out _ _ _ _ _ Hv). cbn [c_max_iters custom_components]. destruct (_ =? _)%Z eqn:Ez; [apply Z.eqb_eq in Ez; contradiction|].
  unfold process_cex. cbn [c_double custom_components st_S st_Sdot st_params st_cex st_trajectory].
  destruct (add_trajectory (st_S st) cex t) as [cex'|] eqn:Et; [|reflexivity]. cbn [option_bind].
  destruct (add_ces_to_data _ _ _ _ _) as [[S1 Sd1]|] eqn:Ea; [|reflexivity]. exfalso.
  destruct (add_trajectory_inv _ _ _ _ Et) as [_ Hr]. destruct (add_ces_keys _ _ _ _ _ _ _ Ea) as [_ Hin].
  rewrite <- (visited_keys _ _ _ _ _ Hv) in Hkey. apply Hkey, Hin. rewrite Hr. intros X. apply app_eq_nil in X. now destruct X.
Qed.
