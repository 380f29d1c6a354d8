(** C78, certificates with two functions: with a finite pool of counterexamples and successful training the loop ends with a certificate. *)
From Coq Require Import Reals QArith Qreals List Bool Arith ZArith Lra Lia.
From Verif Require Import M_Syntax M_Certificates M_Verifier M_Activations M_Domains M_Network M_Learner M_Cegis M_Fossil M_Double M_Learning M_Gradient
  S_Verifier S_Certificates S_Domains S_Network S_Learner S_Cegis S_Fossil S_Double S_Loops S_Learning S_Labels S_Start S_Progress S_ProgressTwo
  L_Verifier L_Activations L_Holds L_Domains L_Network L_Learner L_Fossil P_Verifier P_Certificates P_Labels P_Cegis P_Start P_Progress P_ProgressTwo.
Import ListNotations.
Local Open Scope nat_scope.

(** Every recorded answer is the answer to a query with that name. *)
Lemma run_group_origin be g : forall k res l a, In (l, a) (snd (run_group be k g res)) ->
  In (l, a) res \/ exists n f, In (l, f) g /\ a = b_solve be n f.
Proof.
  assert (D : forall l (v : b_res be) d m a, In (m, a) (dset l v d) -> In (m, a) d \/ (m = l /\ a = v)).
  { intros l v d m a. induction d as [|[l' v'] d IH]; cbn [dset].
    - intros [[= <- <-]|[]]. now right.
    - destruct (label_eqb l' l) eqn:E.
      + apply label_eqb_spec in E. subst l'. intros [[= <- <-]|H]; [now right|left; now right].
      + intros [[= <- <-]|H]; [left; now left|]. destruct (IH H) as [G|G]; [left; now right|now right]. }
  induction g as [|[l' c] g IH]; intros k res l a H; cbn [run_group] in H; [now left|].
  destruct (IH _ _ _ _ H) as [G|(n & f & G & E)]; [|right; exists n, f; split; [now right|exact E]].
  destruct (D _ _ _ _ _ G) as [G'|[-> ->]]; [now left|]. right. exists k, c. split; [now left|reflexivity].
Qed.
Lemma run_groups_origin be gs : forall k res l a, In (l, a) (snd (run_groups be k gs res)) ->
  In (l, a) res \/ exists g n f, In g gs /\ In (l, f) g /\ a = b_solve be n f.
Proof.
  induction gs as [|g gs IH]; intros k res l a H; cbn [run_groups] in H; [now left|].
  pose proof (run_group_origin be g k res l a) as Hg. destruct (run_group be k g res) as [k' r'] eqn:Er. cbn [snd] in Hg.
  assert (Hg' : In (l, a) r' -> In (l, a) res \/ exists g0 n f, In g0 (g :: gs) /\ In (l, f) g0 /\ a = b_solve be n f).
  { intros H'. destruct (Hg H') as [G|(n & f & G & E)]; [now left|]. right. exists g, n, f. split; [now left|auto]. }
  destruct (any_sat be r'); [now apply Hg'|]. destruct (IH _ _ _ _ H) as [G|(g0 & n & f & G & G1 & E)]; [now apply Hg'|].
  right. exists g0, n, f. split; [now right|auto].
Qed.
Lemma not_found_reports2 be noise gs : v_found (verify be noise gs) = false ->
  exists g l f n, In g gs /\ In (l, f) g /\ b_is_unsat be (b_solve be n f) = false /\
    (b_is_sat be (b_solve be n f) = true -> In (b_model be (b_solve be n f)) (rows l (v_cex (verify be noise gs)))).
Proof.
  intros Hf. pose proof (run_groups_origin be gs 0 []) as Ho.
  destruct (run_groups be 0 gs []) as [k' res] eqn:Er. pose proof (proj1 (run_groups_labels be gs 0 [] k' res Er (NoDup_nil _))) as Hn.
  unfold verify in *. rewrite Er in *. cbn [snd] in *. destruct (forallb _ res) eqn:Ef; [discriminate|]. cbn [v_cex].
  assert (He : exists e, In e res /\ b_is_unsat be (snd e) = false).
  { clear - Ef. induction res as [|e r IH]; cbn in Ef; [discriminate|]. destruct (b_is_unsat be (snd e)) eqn:E.
    - destruct (IH Ef) as (e' & H & H'). exists e'. split; [now right|exact H'].
    - exists e. split; [now left|exact E]. }
  destruct He as ([l a] & Hin & Hu). cbn [snd] in Hu. destruct (Ho l a Hin) as [[]|(g & n & f & Hg & Hl & ->)].
  exists g, l, f, n. split; [exact Hg|split; [exact Hl|split; [exact Hu|]]]. intros Hs.
  unfold rows. rewrite (dlookup_In l (randomise_counterex (noise l) (b_model be (b_solve be n f)))).
  - unfold randomise_counterex. apply in_or_app. right. now left.
  - rewrite map_map. exact Hn.
  - apply in_map_iff. exists (l, b_solve be n f). cbn [fst snd]. now rewrite Hs.
Qed.

Section End2.
  Context {K : Type} (pb : problem K) (env : environment2 K) (xdot : list expr) (random1 random2 : network) (ctrl : K) (D : dict) (pool : list (label * point)).
  Hypothesis Hsys : without_controller pb xdot.
  Hypothesis Hlaw : lawful2 env.
  Hypothesis Hwf1 : wf_net random1.
  Hypothesis Hwf2 : wf_net random2.
  Hypothesis Hin1 : in_size random1 = pb_n pb.
  Hypothesis Hin2 : in_size random2 = pb_n pb.
  Hypothesis Hround : (pb_rounding pb < 0)%Z.
  Hypothesis Hlib : pb_symb pb <> SCVC5.
  Hypothesis Hcont : pb_discrete pb = false.
  Hypothesis Hquad : pb_quad pb = false.
  Hypothesis Hsampled : sampled (pb_type pb) D.
  Hypothesis Horder : in_order (pb_type pb) D.
  Hypothesis Htests : tests2 pb env.
  Let k := double pb env.
  Let start := initial2 pb random1 random2 ctrl.
  Hypothesis Hsolver : answers_from2 pb env start D pool.
  Hypothesis Htrains : trains2 pb env start xdot D pool.

  Lemma two_functions : pb_type pb = STABLESAFE \/ pb_type pb = RAR.
  Proof. clear - Horder. unfold in_order in Horder. destruct (pb_type pb); try contradiction; auto. Qed.
  Lemma fresh2 it st p c cex : trained2 pb env start D it st p c -> c_verify k it p c = Some (false, cex) ->
    exists l x, In (l, x) pool /\ In x (rows l cex) /\ violates2 pb p c l x /\ ~ In x (rows l (st_S st)).
  Proof.
    intros Ht Hv. cbn [c_verify k double] in Hv. unfold double_verify in Hv.
    destruct (double_constraints pb (d_beta p) c) as [gs|] eqn:Eg; [|discriminate]. cbn [option_bind] in Hv. injection Hv as Ef Ec.
    destruct (not_found_reports2 _ _ gs Ef) as (g & l & f & n & Hg & Hl & Hu & Hr).
    destruct (Hsolver it st p c gs g l f n Ht Eg Hg Hl) as [C|(Hs & Hh & Hn & Hp)]; [rewrite Hu in C; discriminate|].
    set (x := b_model (e2_solver env it) (b_solve (e2_solver env it) n f)) in *.
    assert (Hviol : violates2 pb p c l x) by (exists gs, g, f; auto).
    exists l, x. split; [exact Hp|]. split; [rewrite <- Ec; now apply Hr|]. split; [exact Hviol|]. intros Hx.
    destruct Htrains as [Hsize Htr]. destruct (Htr it st p c Ht) as (Hpass & Hpool). destruct (Hpool l x Hp Hx) as (S1 & S2 & S3 & S4).
    enough (C : excused2 pb (d_beta p) l (state_of x) (eval (state_of x) (fst (fst c))) (eval (state_of x) (snd (fst c)))
          (eval (state_of x) (fst (snd c))) (eval (state_of x) (snd (snd c))) \/ left_out2 pb (d_lyap p, d_barr p) (st_S st) l x (map (eval (state_of x)) xdot)) by tauto.
    apply (C77_samples_respected_two K pb env xdot random1 random2 ctrl D it st p c l x); auto.
  Qed.
  Lemma iterate_fails2 it st b st' : visited k start D it st -> iterate k it st = Some (b, st') -> st_found st' = false ->
    exists p c cex, trained2 pb env start D it st p c /\ c_verify k it p c = Some (false, cex).
  Proof.
    intros Hv Hi Hf. unfold iterate in Hi.
    destruct (c_learn k it (st_frozen st) (st_params st) (st_S st) (st_Sdot st)) as [p|] eqn:E1; cbn [option_bind] in Hi; [|discriminate].
    destruct (c_translate k it p) as [c|] eqn:E2; cbn [option_bind] in Hi; [|discriminate].
    destruct (c_verify k it p c) as [[found cex]|] eqn:E3; cbn [option_bind] in Hi; [|discriminate].
    exists p, c, cex. split; [repeat split; assumption|]. destruct found; [exfalso|exact E3].
    destruct (consolidator_get _ _ _ _ _) as [t|]; cbn [option_bind] in Hi; [|discriminate]. unfold process_certificate in Hi.
    match type of Hi with option_bind ?a _ = _ => destruct a as [u|]; cbn [option_bind] in Hi; [|discriminate] end.
    replace (cert_eqb (c_type k) RSWS) with false in Hi by (cbn; destruct two_functions as [-> | ->]; reflexivity). injection Hi as _ <-. discriminate Hf.
  Qed.
  Lemma seen_pool2 it st : visited k start D it st ->
    exists s, length s = it /\ NoDup s /\ incl s pool /\ forall l x, In (l, x) s -> In x (rows l (st_S st)).
  Proof.
    induction 1 as [|it st st' Hv IH Hi].
    - exists []. repeat split; [constructor|intros e []|intros l x []].
    - destruct IH as (s & L & N & I & M). pose proof Hi as Hi'. apply iterate_inv in Hi'.
      assert (Ff : st_found st' = false) by (destruct Hi' as (? & ? & ? & ? & ? & _ & _ & _ & _ & _ & _ & _ & _ & _ & _ & _ & F & _); now apply F).
      clear Hi'. destruct (iterate_fails2 it st false st' Hv Hi Ff) as (p & c & cex & Htr & Hver). destruct (fresh2 it st p c cex Htr Hver) as (l & x & Hp & Hx & _ & Hnew).
      assert (Hv' : visited k start D (it + 1) st') by now apply (visited_next k start D it st).
      pose proof (double_labels K pb env D Hsampled) as Hok. fold k in Hok.
      destruct (C33_counterexamples_are_added _ _ k start D Hok it st st' Hv Hv') as (q' & d' & found & cex' & t & E1 & E2 & E3 & _ & _ & _ & _ & Hadd).
      destruct Htr as (_ & T1 & T2). fold k in T1, T2. rewrite T1 in E1. injection E1 as <-. rewrite T2 in E2. injection E2 as <-. rewrite Hver in E3. injection E3 as <- <-.
      exists ((l, x) :: s). split; [cbn; lia|]. split; [constructor; [intros C; now apply Hnew, M|exact N]|]. split.
      + intros e [<-|He]; [exact Hp|now apply I].
      + intros l' x' He. rewrite (Hadd eq_refl l'). destruct He as [[= -> ->]|He]; apply in_or_app; [right; apply in_or_app; now left|left; now apply M].
  Qed.
  Lemma visited_pool2 it st : visited k start D it st -> it <= length pool.
  Proof.
    intros Hv. destruct (seen_pool2 it st Hv) as (s & <- & N & I & _). now apply NoDup_incl_length.
  Qed.
  Lemma last_pool2 it st b st' : visited k start D it st -> iterate k it st = Some (b, st') -> st_found st' = false -> it < length pool.
  Proof.
    intros Hv Hi Hf. destruct (seen_pool2 it st Hv) as (s & L & N & I & M). destruct (iterate_fails2 it st b st' Hv Hi Hf) as (p & c & cex & Htr & Hver).
    destruct (fresh2 it st p c cex Htr Hver) as (l & x & Hp & _ & _ & Hnew).
    assert (A : length ((l, x) :: s) <= length pool); [|cbn in A; lia].
    apply NoDup_incl_length; [constructor; [intros C; now apply Hnew, M|exact N]|]. intros e [<-|He]; [exact Hp|now apply I].
  Qed.
  Lemma loop_running2 : forall fuel it st, visited k start D it st -> loop k fuel it st = Running -> it + fuel <= length pool.
  Proof.
    induction fuel as [|fuel IH]; intros it st Hv H; [pose proof (visited_pool2 it st Hv); lia|]. cbn [loop] in H.
    destruct (iterate k it st) as [[[|] st1]|] eqn:E; try discriminate H.
    assert (Hv' : visited k start D (it + 1) st1) by now apply (visited_next k start D it st).
    specialize (IH _ _ Hv' H). lia.
  Qed.
End End2.

(** * C78, two functions *)
Theorem C78_new_counterexample_two :
  forall K (pb : problem K) (env : environment2 K) xdot random1 random2 ctrl S pool it st p c cex, let start := initial2 pb random1 random2 ctrl in
    without_controller pb xdot -> lawful2 env -> wf_net random1 -> wf_net random2 -> in_size random1 = pb_n pb -> in_size random2 = pb_n pb ->
    (pb_rounding pb < 0)%Z -> pb_symb pb <> SCVC5 -> pb_discrete pb = false -> pb_quad pb = false ->
    sampled (pb_type pb) S -> in_order (pb_type pb) S -> tests2 pb env ->
    answers_from2 pb env start S pool -> trains2 pb env start xdot S pool ->
    trained2 pb env start S it st p c -> c_verify (double pb env) it p c = Some (false, cex) ->
    exists l x, In (l, x) pool /\ In x (rows l cex) /\ violates2 pb p c l x /\ ~ In x (rows l (st_S st)).
Proof.
  intros K pb env xdot random1 random2 ctrl S pool it st p c cex start. intros. unfold start in *.
  now apply (fresh2 pb env xdot random1 random2 ctrl S pool) with (it := it).
Qed.
Theorem C78_terminates_two :
  forall K (pb : problem K) (env : environment2 K) xdot random1 random2 ctrl S pool, let start := initial2 pb random1 random2 ctrl in
    without_controller pb xdot -> lawful2 env -> wf_net random1 -> wf_net random2 -> in_size random1 = pb_n pb -> in_size random2 = pb_n pb ->
    (pb_rounding pb < 0)%Z -> pb_symb pb <> SCVC5 -> pb_discrete pb = false -> pb_quad pb = false ->
    sampled (pb_type pb) S -> in_order (pb_type pb) S -> tests2 pb env ->
    answers_from2 pb env start S pool -> trains2 pb env start xdot S pool ->
    (forall fuel, length pool < fuel -> run_double pb env fuel random1 random2 ctrl S <> None) /\
    forall fuel r, run_double pb env fuel random1 random2 ctrl S = Some (Some r) ->
      r_iters r <= length pool + 1 /\
      ((pb_max_iters pb < 0 \/ Z.of_nat (length pool) <= pb_max_iters pb)%Z -> r_res r = true).
Proof.
  intros K pb env xdot random1 random2 ctrl S pool start H1 H2 H3 H3' H4 H4' H5 H6 H7 H8 H9 H10 H11 H12 H13.
  unfold run_double, solve. rewrite H7. set (k := double pb env). split.
  - intros fuel Hf H. destruct (loop k fuel 0 (init_state k (initial2 pb random1 random2 ctrl) S)) eqn:E; try discriminate H.
    pose proof (loop_running2 pb env xdot random1 random2 ctrl S pool H1 H2 H3 H3' H4 H4' H5 H6 H7 H8 H9 H10 H11 H12 H13 _ _ _ (visited_first _ _ _) E). lia.
  - intros fuel r H. destruct (loop k fuel 0 (init_state k (initial2 pb random1 random2 ctrl) S)) as [| |itr st'] eqn:E; try discriminate H. injection H as <-.
    destruct (loop_visited k _ S _ _ _ _ _ (visited_first k _ S) E) as (n & st & Hv & Hi & -> & _). cbn [r_iters r_res make_result].
    split; [pose proof (visited_pool2 pb env xdot random1 random2 ctrl S pool H1 H2 H3 H3' H4 H4' H5 H6 H7 H8 H9 H10 H11 H12 H13 n st Hv); lia|].
    intros Hmax. destruct (st_found st') eqn:Ef; [reflexivity|].
    pose proof (last_pool2 pb env xdot random1 random2 ctrl S pool H1 H2 H3 H3' H4 H4' H5 H6 H7 H8 H9 H10 H11 H12 H13 n st true st' Hv Hi Ef) as Hlt.
    apply iterate_inv in Hi. destruct Hi as (? & ? & ? & ? & ? & _ & _ & _ & _ & _ & _ & _ & _ & _ & F & _).
    specialize (F eq_refl Ef).
    assert (T : st_timed_out st = false).
    { clear - Hv. induction Hv as [|it st st' Hv IH Hi]; [reflexivity|]. apply iterate_inv in Hi. destruct Hi as (? & ? & ? & ? & ? & _ & _ & _ & _ & _ & _ & F & _). congruence. }
    specialize (F T). cbn in F. lia.
Qed.
