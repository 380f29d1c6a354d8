(** C78: with a finite pool of counterexamples and successful training the loop ends with a certificate. *)
From Coq Require Import Reals QArith Qreals List Bool Arith ZArith Lra Lia.
From Verif Require Import M_Syntax M_Certificates M_Verifier M_Activations M_Domains M_Network M_Learner M_Cegis M_Fossil M_Learning M_Gradient
  S_Verifier S_Certificates S_Domains S_Network S_Learner S_Cegis S_Fossil S_Loops S_Learning S_Labels S_Start S_Progress S_Terminates
  L_Verifier L_Activations L_Holds L_Domains L_Network L_Learner L_Fossil P_Verifier P_Certificates P_Cegis P_Start P_Progress.
Import ListNotations.
Local Open Scope nat_scope.

Lemma NoDup_prefix {A} (a b : list A) : NoDup (a ++ b) -> NoDup a.
Proof.
  induction a as [|x a IH]; cbn; intros H; [constructor|]. apply NoDup_cons_iff in H. destruct H as [H1 H2]. constructor; [|now apply IH].
  intros C. apply H1. apply in_or_app. now left.
Qed.
(** A rejected candidate has an answer that is not unsat; its model is reported. *)
Lemma not_found_reports be noise gs : distinct_labels gs -> v_found (verify be noise gs) = false ->
  exists g l f n, In g gs /\ In (l, f) g /\ b_is_unsat be (b_solve be n f) = false /\
    (b_is_sat be (b_solve be n f) = true -> In (b_model be (b_solve be n f)) (rows l (v_cex (verify be noise gs)))).
Proof.
  intros Hd Hf. destruct (verify_run be gs Hd) as (m & _ & Er & _).
  assert (Hn : NoDup (map fst (snd (run_groups be 0 gs [])))).
  { rewrite Er, answers_fst. clear Er. unfold distinct_labels in Hd. rewrite <- (firstn_skipn m gs), concat_app, map_app in Hd. now apply NoDup_prefix in Hd. }
  unfold verify in *. destruct (forallb _ _) eqn:Ef; [discriminate|]. cbn [v_cex].
  assert (He : exists e, In e (snd (run_groups be 0 gs [])) /\ b_is_unsat be (snd e) = false).
  { clear - Ef. induction (snd (run_groups be 0 gs [])) as [|e r IH]; cbn in Ef; [discriminate|]. destruct (b_is_unsat be (snd e)) eqn:E.
    - destruct (IH Ef) as (e' & H & H'). exists e'. split; [now right|exact H'].
    - exists e. split; [now left|exact E]. }
  destruct He as ([l a] & Hin & Hu). cbn [snd] in Hu. pose proof Hin as Hin'. rewrite Er in Hin'. apply answers_In in Hin'. destruct Hin' as (j & f & Hj & ->).
  apply nth_error_In, in_concat in Hj. destruct Hj as (g & Hg & Hl). exists g, l, f, (0 + j). split; [|split; [exact Hl|split; [exact Hu|]]].
  { rewrite <- (firstn_skipn m gs). apply in_or_app. now left. }
  intros Hs. unfold rows. rewrite (dlookup_In l (randomise_counterex (noise l) (b_model be (b_solve be (0 + j) f)))).
  - unfold randomise_counterex. apply in_or_app. right. now left.
  - rewrite map_map. exact Hn.
  - apply in_map_iff. exists (l, b_solve be (0 + j) f). cbn [fst snd]. now rewrite Hs.
Qed.
Lemma constraints_distinct {K} (pb : problem K) beta V Vdot gs : fossil_constraints pb beta V Vdot = Some gs -> distinct_labels gs.
Proof.
  intros E. destruct (C01_certificate_labels_distinct (pb_llo pb) (new_vars (pb_n pb)) (pb_sets pb) beta V V Vdot Vdot) as (A & B & C & D & F & _).
  unfold fossil_constraints in E. destruct (pb_type pb); try discriminate E; injection E as <-; assumption.
Qed.

Section End.
  Context {K : Type} (pb : problem K) (env : environment K) (xdot : list expr) (random : network) (ctrl : K) (D : dict) (pool : list (label * point)).
  Hypothesis Hsys : without_controller pb xdot.
  Hypothesis Hlaw : lawful pb env.
  Hypothesis Hwf : wf_net random.
  Hypothesis Hin : in_size random = pb_n pb.
  Hypothesis Hround : (pb_rounding pb < 0)%Z.
  Hypothesis Hlib : pb_discrete pb = false -> pb_symb pb <> SCVC5.
  Hypothesis Hdisc : pb_discrete pb = true -> pb_quad pb = false /\ (pb_type pb = LYAPUNOV \/ pb_type pb = BARRIERALT).
  Hypothesis Hsampled : sampled (pb_type pb) D.
  Hypothesis Hnodup : NoDup (keys D).
  Hypothesis Htests : tests pb env.
  Let k := fossil pb env.
  Let start := initial pb random ctrl.
  Hypothesis Hsolver : answers_from pb env start D pool.
  Hypothesis Htrains : trains pb env start xdot D pool.

  Lemma fresh it st p c cex : trained pb env start D it st p c -> c_verify k it p c = Some (false, cex) ->
    exists l x, In (l, x) pool /\ In x (rows l cex) /\ violates pb p c l x /\ ~ In x (rows l (st_S st)).
  Proof.
    intros Ht Hv. cbn [c_verify k fossil] in Hv. unfold fossil_verify in Hv.
    destruct (fossil_constraints pb (l_beta p) (fst c) (snd c)) as [gs|] eqn:Eg; [|discriminate]. cbn [option_bind] in Hv. injection Hv as Ef Ec.
    destruct (not_found_reports _ _ gs (constraints_distinct pb _ _ _ gs Eg) Ef) as (g & l & f & n & Hg & Hl & Hu & Hr).
    destruct (Hsolver it st p c gs g l f n Ht Eg Hg Hl) as [C|(Hs & Hh & Hn & Hp)]; [rewrite Hu in C; discriminate|].
    set (x := b_model (e_solver env it) (b_solve (e_solver env it) n f)) in *.
    assert (Hviol : violates pb p c l x) by (exists gs, g, f; auto).
    exists l, x. split; [exact Hp|]. split; [rewrite <- Ec; now apply Hr|]. split; [exact Hviol|]. intros Hx.
    destruct (Htrains it st p c Ht) as (Hpass & Hsize & Hpool). destruct (Hpool l x Hp Hx) as (S1 & S2 & S3 & S4).
    destruct (C77_samples_respected K pb env xdot random ctrl D it st p c l x) as [C|C]; auto.
  Qed.
  Lemma iterate_fails it st b st' : pb_type pb <> RSWS -> visited k start D it st -> iterate k it st = Some (b, st') -> st_found st' = false ->
    exists p c cex, trained pb env start D it st p c /\ c_verify k it p c = Some (false, cex).
  Proof.
    intros Ht Hv Hi Hf. unfold iterate in Hi.
    destruct (c_learn k it (st_frozen st) (st_params st) (st_S st) (st_Sdot st)) as [p|] eqn:E1; cbn [option_bind] in Hi; [|discriminate].
    destruct (c_translate k it p) as [c|] eqn:E2; cbn [option_bind] in Hi; [|discriminate].
    destruct (c_verify k it p c) as [[found cex]|] eqn:E3; cbn [option_bind] in Hi; [|discriminate].
    exists p, c, cex. split; [repeat split; assumption|]. destruct found; [exfalso|exact E3].
    destruct (consolidator_get _ _ _ _ _) as [t|]; cbn [option_bind] in Hi; [|discriminate]. unfold process_certificate in Hi.
    match type of Hi with option_bind ?a _ = _ => destruct a as [u|]; cbn [option_bind] in Hi; [|discriminate] end.
    replace (cert_eqb (c_type k) RSWS) with false in Hi by (cbn; destruct (pb_type pb); reflexivity || now contradiction Ht). injection Hi as _ <-. discriminate Hf.
  Qed.
  (** The points that the iterations before [it] have added are different. *)
  Lemma seen_pool it st : pb_type pb <> RSWS -> visited k start D it st ->
    exists s, length s = it /\ NoDup s /\ incl s pool /\ forall l x, In (l, x) s -> In x (rows l (st_S st)).
  Proof.
    intros Ht. induction 1 as [|it st st' Hv IH Hi].
    - exists []. repeat split; [constructor|intros e []|intros l x []].
    - destruct IH as (s & L & N & I & M). pose proof Hi as Hi'. apply iterate_inv in Hi'.
      assert (Ff : st_found st' = false) by (destruct Hi' as (? & ? & ? & ? & ? & _ & _ & _ & _ & _ & _ & _ & _ & _ & _ & _ & F & _); now apply F).
      clear Hi'. destruct (iterate_fails it st false st' Ht Hv Hi Ff) as (p & c & cex & Htr & Hver). destruct (fresh it st p c cex Htr Hver) as (l & x & Hp & Hx & _ & Hnew).
      assert (Hv' : visited k start D (it + 1) st') by now apply (visited_next k start D it st).
      pose proof (single_labels K pb env D Hsampled) as Hok. fold k in Hok.
      destruct (C33_counterexamples_are_added _ _ k start D Hok it st st' Hv Hv') as (q' & d' & found & cex' & t & E1 & E2 & E3 & _ & _ & _ & _ & Hadd).
      destruct Htr as (_ & T1 & T2). fold k in T1, T2. rewrite T1 in E1. injection E1 as <-. rewrite T2 in E2. injection E2 as <-. rewrite Hver in E3. injection E3 as <- <-.
      exists ((l, x) :: s). split; [cbn; lia|]. split; [constructor; [intros C; now apply Hnew, M|exact N]|]. split.
      + intros e [<-|He]; [exact Hp|now apply I].
      + intros l' x' He. rewrite (Hadd eq_refl l'). destruct He as [[= -> ->]|He]; apply in_or_app; [right; apply in_or_app; now left|left; now apply M].
  Qed.
  Lemma visited_pool it st : pb_type pb <> RSWS -> visited k start D it st -> it <= length pool.
  Proof.
    intros Ht Hv. destruct (seen_pool it st Ht Hv) as (s & <- & N & I & _). now apply NoDup_incl_length.
  Qed.
  Lemma last_pool it st b st' : pb_type pb <> RSWS -> visited k start D it st -> iterate k it st = Some (b, st') -> st_found st' = false -> it < length pool.
  Proof.
    intros Ht Hv Hi Hf. destruct (seen_pool it st Ht Hv) as (s & L & N & I & M). destruct (iterate_fails it st b st' Ht Hv Hi Hf) as (p & c & cex & Htr & Hver).
    destruct (fresh it st p c cex Htr Hver) as (l & x & Hp & _ & _ & Hnew).
    assert (A : length ((l, x) :: s) <= length pool); [|cbn in A; lia].
    apply NoDup_incl_length; [constructor; [intros C; now apply Hnew, M|exact N]|]. intros e [<-|He]; [exact Hp|now apply I].
  Qed.
  Lemma loop_running : pb_type pb <> RSWS -> forall fuel it st, visited k start D it st -> loop k fuel it st = Running -> it + fuel <= length pool.
  Proof.
    intros Ht. induction fuel as [|fuel IH]; intros it st Hv H; [pose proof (visited_pool it st Ht Hv); lia|]. cbn [loop] in H.
    destruct (iterate k it st) as [[[|] st1]|] eqn:E; try discriminate H.
    assert (Hv' : visited k start D (it + 1) st1) by now apply (visited_next k start D it st).
    specialize (IH _ _ Hv' H). lia.
  Qed.
End End.

(** * C78 *)
(** An iteration that fails although training succeeded finds a counterexample that is not yet a sample. *)
Theorem C78_new_counterexample :
  forall K (pb : problem K) (env : environment K) xdot random ctrl S pool it st p c cex, let start := initial pb random ctrl in
    without_controller pb xdot -> lawful pb env -> wf_net random -> in_size random = pb_n pb -> (pb_rounding pb < 0)%Z ->
    (pb_discrete pb = false -> pb_symb pb <> SCVC5) -> (pb_discrete pb = true -> pb_quad pb = false /\ (pb_type pb = LYAPUNOV \/ pb_type pb = BARRIERALT)) ->
    sampled (pb_type pb) S -> NoDup (keys S) -> tests pb env ->
    answers_from pb env start S pool -> trains pb env start xdot S pool ->
    trained pb env start S it st p c -> c_verify (fossil pb env) it p c = Some (false, cex) ->
    exists l x, In (l, x) pool /\ In x (rows l cex) /\ violates pb p c l x /\ ~ In x (rows l (st_S st)).
Proof.
  intros K pb env xdot random ctrl S pool it st p c cex start H1 H2 H3 H4 H5 H6 H7 H8 H9 H10 H11 H12 H13 H14.
  now apply (fresh pb env xdot random ctrl S pool H1 H2 H3 H4 H5 H6 H7 H8 H9 H10 H11 H12 it st p c cex).
Qed.
(** The loop ends, even without a limit on the iterations, after at most one iteration more than there are points in the
    pool; and with success, unless the limit is smaller. *)
Theorem C78_terminates :
  forall K (pb : problem K) (env : environment K) xdot random ctrl S pool, let start := initial pb random ctrl in
    without_controller pb xdot -> lawful pb env -> wf_net random -> in_size random = pb_n pb -> (pb_rounding pb < 0)%Z ->
    (pb_discrete pb = false -> pb_symb pb <> SCVC5) -> (pb_discrete pb = true -> pb_quad pb = false /\ (pb_type pb = LYAPUNOV \/ pb_type pb = BARRIERALT)) ->
    sampled (pb_type pb) S -> NoDup (keys S) -> tests pb env ->
    answers_from pb env start S pool -> trains pb env start xdot S pool -> pb_type pb <> RSWS ->
    (forall fuel, length pool < fuel -> run_fossil pb env fuel random ctrl S <> None) /\
    forall fuel r, run_fossil pb env fuel random ctrl S = Some (Some r) ->
      r_iters r <= length pool + 1 /\
      ((pb_max_iters pb < 0 \/ Z.of_nat (length pool) <= pb_max_iters pb)%Z -> r_res r = true).
Proof.
  intros K pb env xdot random ctrl S pool start H1 H2 H3 H4 H5 H6 H7 H8 H9 H10 H11 H12 Ht. unfold run_fossil, solve. set (k := fossil pb env). split.
  - intros fuel Hf H. destruct (loop k fuel 0 (init_state k (initial pb random ctrl) S)) eqn:E; try discriminate H.
    pose proof (loop_running pb env xdot random ctrl S pool H1 H2 H3 H4 H5 H6 H7 H8 H9 H10 H11 H12 Ht _ _ _ (visited_first _ _ _) E). lia.
  - intros fuel r H. destruct (loop k fuel 0 (init_state k (initial pb random ctrl) S)) as [| |itr st'] eqn:E; try discriminate H. injection H as <-.
    destruct (loop_visited k _ S _ _ _ _ _ (visited_first k _ S) E) as (n & st & Hv & Hi & -> & _). cbn [r_iters r_res make_result].
    split; [pose proof (visited_pool pb env xdot random ctrl S pool H1 H2 H3 H4 H5 H6 H7 H8 H9 H10 H11 H12 n st Ht Hv); lia|].
    intros Hmax. destruct (st_found st') eqn:Ef; [reflexivity|].
    pose proof (last_pool pb env xdot random ctrl S pool H1 H2 H3 H4 H5 H6 H7 H8 H9 H10 H11 H12 n st true st' Ht Hv Hi Ef) as Hlt.
    apply iterate_inv in Hi. destruct Hi as (? & ? & ? & ? & ? & _ & _ & _ & _ & _ & _ & _ & _ & _ & F & _).
    specialize (F eq_refl Ef). 
    assert (T : st_timed_out st = false).
    { clear - Hv. induction Hv as [|it st st' Hv IH Hi]; [reflexivity|]. apply iterate_inv in Hi. destruct Hi as (? & ? & ? & ? & ? & _ & _ & _ & _ & _ & _ & F & _). congruence. }
    specialize (F T). cbn in F. lia.
Qed.
(** The alternative barrier certificate is tested with a margin: training that passes is always strict. *)
Theorem C78_margin :
  forall K (pb : problem K) beta l s v d, pb_type pb = BARRIERALT -> ~ excused pb beta l s v d.
Proof. intros K pb beta l s v d E. unfold excused. rewrite E. destruct l; exact (fun H => H). Qed.
