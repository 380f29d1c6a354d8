(** C76 for configuration files, and instances of its hypotheses. *)
From Coq Require Import String.
From Coq Require Import Reals QArith Qreals List Bool Arith ZArith Lra Lia Classical.
From Verif Require Import M_Syntax M_Certificates M_Verifier M_BetaSearch M_Activations M_Network M_Learner M_Cegis M_Fossil M_Double M_Control M_Labels M_Config
  S_Verifier S_Certificates S_Success S_Network S_Learner S_Cegis S_Fossil S_Double S_Start S_Complete
  L_Verifier L_Holds L_Domains L_Network L_Learner L_Demo L_Start P_Verifier P_Certificates P_Examples P_Cegis P_Complete P_TranslatorBugs P_FossilExamples P_ConfigExamples P_ConfigDoubleExamples P_Start P_StartExamples.
Import ListNotations.
Local Open Scope nat_scope.

Theorem C76_document :
  forall doc ty time v n trees outputs rounding iters, documented doc ty time v n trees outputs rounding iters ->
    ty <> STABLESAFE -> ty <> RAR -> (0 <= iters)%Z -> (time = DISCRETE -> rounding <> 0%Z) ->
    exists F, forall numpy rand randc f1 f2, F <= f1 -> F <= f2 -> exists pb net ctrl,
      session_of numpy f1 f2 rand randc doc = Some (pb, net, ctrl) /\
      forall env S, lawful pb env -> keeps_controller n outputs ctrl env -> environment_returns env ->
        (ty = RSWS -> forall it p c, fossil_stay pb env it p c <> None) -> sampled ty S ->
        exact_solver pb env (initial pb net ctrl) S ->
        exists r, run_fossil pb env (Z.to_nat iters + 1) net ctrl S = Some (Some r) /\
          (r_res r = true <-> exists it p c, proposes (fossil pb env) (initial pb net ctrl) S it p c /\
                                             valid pb (l_beta p) (fun s => eval s (fst c)) (fun s => eval s (snd c))) /\
          (r_res r = false -> Z.of_nat (r_iters r) = (iters + 1)%Z /\
             forall it, it < r_iters r -> exists p c, proposes (fossil pb env) (initial pb net ctrl) S it p c /\
                                             ~ valid pb (l_beta p) (fun s => eval s (fst c)) (fun s => eval s (snd c))).
Proof.
  intros doc ty time v n trees outputs rounding iters H N1 N2 Hi Hr.
  destruct (documented_started _ _ _ _ _ _ _ _ _ H) as (F1 & G1).
  destruct (C75_returns _ _ _ _ _ _ _ _ _ H N1 N2 Hi Hr) as (F2 & G2).
  exists (F1 + F2). intros numpy rand randc f1 f2 L1 L2.
  destruct (G1 numpy rand randc f1 f2 ltac:(lia) ltac:(lia)) as (pb & net & ctrl & E & St).
  destruct (G2 numpy rand randc f1 f2 ltac:(lia) ltac:(lia)) as (pb' & net' & ctrl' & E' & R). rewrite E in E'. injection E' as <- <- <-.
  exists pb, net, ctrl. split; [exact E|]. intros env S Hl Hk He Hs HS Hex. destruct (R env S Hl Hk He Hs HS) as (r & Er).
  exists r. split; [exact Er|]. destruct (C76_success_iff_valid _ pb env _ net ctrl S r Hex Er) as (A & _ & _ & D).
  split; [exact A|]. intros F. rewrite <- (st_iters _ _ _ _ _ _ _ _ _ _ St). exact (D F).
Qed.
Theorem C76_document_two :
  forall doc ty time v n trees outputs rounding iters, documented doc ty time v n trees outputs rounding iters ->
    ty = STABLESAFE \/ ty = RAR -> layers doc v "N_HIDDEN_NEURONS_ALT" "ACTIVATION_ALT" -> (0 <= iters)%Z ->
    exists F, forall numpy rand rand2 randc f1 f2, F <= f1 -> F <= f2 -> exists pb net net2 ctrl,
      session2_of numpy f1 f2 rand rand2 randc doc = Some (pb, net, net2, ctrl) /\
      forall env S, lawful2 env -> keeps_controller2 n outputs ctrl env -> (forall it b p x, e2_trajectory env it b p x <> None) ->
        sampled ty S -> exact_solver2 pb env (initial2 pb net net2 ctrl) S ->
        exists r, run_double pb env (Z.to_nat iters + 1) net net2 ctrl S = Some (Some r) /\
          (r_res r = true <-> exists it p c, proposes (double pb env) (initial2 pb net net2 ctrl) S it p c /\
             valid2 pb (d_beta p) (fun s => eval s (fst (fst c))) (fun s => eval s (snd (fst c))) (fun s => eval s (fst (snd c))) (fun s => eval s (snd (snd c)))).
Proof.
  intros doc ty time v n trees outputs rounding iters H Hty La Hi.
  destruct (C75_returns_two _ _ _ _ _ _ _ _ _ H Hty La Hi) as (F & G). exists F. intros numpy rand rand2 randc f1 f2 L1 L2.
  destruct (G numpy rand rand2 randc f1 f2 L1 L2) as (pb & net & net2 & ctrl & E & R). exists pb, net, net2, ctrl. split; [exact E|].
  intros env S Hl Hk He HS Hex. destruct (R env S Hl Hk He HS) as (r & Er). exists r. split; [exact Er|].
  exact (proj1 (C76_success_iff_valid_two _ pb env _ net net2 ctrl S r Hex Er)).
Qed.

(** ** A solver that decides *)
Definition oracle (f : fml) : answer := if ClassicalDedekindReals.sig_not_dec (exists s, holds s f) then Sat [] else Unsat.
Lemma oracle_right f : answers_rightly (smt_backend (fun _ => oracle)) f.
Proof.
  intros k. cbn. unfold oracle. destruct (ClassicalDedekindReals.sig_not_dec (exists s, holds s f)) as [H|H]; cbn; split; split; try easy.
  - intros N. exfalso. apply H. intros [s Hs]. exact (N s Hs).
  - intros _. now apply NNPP.
  - intros _ s Hs. apply H. now exists s.
Qed.
Definition deciding {K} (env : environment K) : Prop := forall it, e_solver env it = smt_backend (fun _ => oracle).
Lemma oracle_exact {K} (pb : problem K) env start S : deciding env -> exact_solver pb env start S.
Proof. intros H it p c _. rewrite H. split; [intros gs g l f _ _ _; apply oracle_right|]. intros _ level. split; apply oracle_right. Qed.

(** The file [barrier_doc] (P_ConfigExamples.v), with that solver and an optimiser that does nothing. *)
Definition wise : environment controller :=
  {| e_perfect := fun _ _ _ _ _ _ => false; e_step := fun _ _ _ _ _ net => net;
     e_ctrl := fun _ p _ _ => l_ctrl p; e_beta := fun _ _ _ _ => 0%Q; e_simp := fun e => e;
     e_solver := fun _ => smt_backend (fun _ => oracle); e_noise := fun _ _ _ _ => 0%R;
     e_stay_fuel := fun _ => 0; e_stay_calls := fun _ => 0;
     e_trajectory := fun _ _ _ _ => Some []; e_estimate_beta := fun _ _ => Some tt |}.
Example C76_document_example : exists F, forall numpy rand randc f1 f2, F <= f1 -> F <= f2 -> exists pb net ctrl r,
  let S := [(XD, []); (XI, []); (XU, [])] in
  session_of numpy f1 f2 rand randc barrier_doc = Some (pb, net, ctrl) /\ run_fossil pb wise 11 net ctrl S = Some (Some r) /\
  (r_res r = true <-> exists it p c, proposes (fossil pb wise) (initial pb net ctrl) S it p c /\
                                     valid pb (l_beta p) (fun s => eval s (fst c)) (fun s => eval s (snd c))).
Proof.
  destruct (C76_document _ _ _ _ _ _ _ _ _ barrier_documented ltac:(discriminate) ltac:(discriminate) ltac:(lia) ltac:(discriminate)) as (F & H).
  exists F. intros numpy rand randc f1 f2 L1 L2. destruct (H numpy rand randc f1 f2 L1 L2) as (pb & net & ctrl & E & R). clear H.
  destruct (R wise [(XD, []); (XI, []); (XU, [])]) as (r & Er & A & _).
  - intros it p S Sdot t nt. split; [apply same_shape_refl|reflexivity].
  - intros it p S Sdot Hl. exact Hl.
  - split; discriminate.
  - discriminate.
  - intros l. cbn. intuition congruence.
  - now apply oracle_exact.
  - exists pb, net, ctrl, r. split; [exact E|]. split; [exact Er|exact A].
Qed.

(** ** A valid candidate, an invalid one: x' = -x with V = x^2 and V = -x^2, one iteration *)
Definition once (be : fml -> answer) : environment unit :=
  {| e_perfect := fun _ _ _ _ _ _ => true; e_step := fun _ _ _ _ _ net => net;
     e_ctrl := fun _ p _ _ => l_ctrl p; e_beta := fun _ _ _ _ => 0%Q; e_simp := fun e => e;
     e_solver := fun _ => smt_backend (fun _ => be); e_noise := fun _ _ _ _ => 0%R;
     e_stay_fuel := fun _ => 0; e_stay_calls := fun _ => 0;
     e_trajectory := fun _ _ _ _ => Some []; e_estimate_beta := fun _ _ => Some tt |}.
Definition once_pb : problem unit :=
  {| pb_type := LYAPUNOV; pb_n := 1; pb_llo := false; pb_quad := false; pb_discrete := false; pb_rounding := 3;
     pb_max_iters := 0; pb_control := false; pb_symb := SZ3; pb_sets := P_Examples.ex_sets; pb_xdot := fun _ => Some minus_x;
     pb_f := fun _ p => p |}.
Definition parabola (a : Q) : network :=
  {| in_size := 1; hidden := [({| weight := [[1]]%Q; bias := None |}, ASquare)]; last := {| weight := [[a]]%Q; bias := None |} |}.
Definition once_start (a : Q) : learned unit := initial once_pb (parabola a) tt.
Definition once_learned (a : Q) : learned unit := {| l_net := parabola a; l_ctrl := tt; l_beta := 0 |}.
Definition once_pair (a : Q) : expr * expr :=
  match fossil_translate once_pb (once oracle) 0 (once_learned a) with Some c => c | None => (ENum 0, ENum 0) end.
Lemma once_learn be a frozen S Sdot : fossil_learn once_pb (once be) 0 frozen (once_start a) S Sdot = Some (once_learned a).
Proof.
  unfold fossil_learn. f_equal.
Qed.
Lemma once_translate be a : a = 1%Q \/ a = (-1)%Q -> fossil_translate once_pb (once be) 0 (once_learned a) = Some (once_pair a).
Proof. intros [-> | ->]; reflexivity. Qed.
Lemma once_proposes be a : a = 1%Q \/ a = (-1)%Q ->
  proposes (fossil once_pb (once be)) (once_start a) [(XD, [])] 0 (once_learned a) (once_pair a).
Proof.
  intros H. eexists. split; [apply visited_first|]. cbn [c_learn c_translate fossil init_state st_params st_S st_Sdot st_frozen].
  split; [apply once_learn|now apply once_translate].
Qed.
Lemma once_consolidator be second p cex : consolidator_get (fossil once_pb (once be)) 0 second p cex <> None.
Proof. induction cex as [|[l rows] cex IH]; [discriminate|]. cbn [consolidator_get]. destruct (label_eqb l XD); [|exact IH]. destruct (rev rows); [exact IH|discriminate]. Qed.
Lemma once_returns be a : a = 1%Q \/ a = (-1)%Q -> exists r, run_fossil once_pb (once be) 1 (parabola a) tt [(XD, [])] = Some (Some r).
Proof.
  intros H. unfold run_fossil, solve. cbn [loop]. unfold iterate.
  cbn [c_learn c_translate c_verify fossil init_state st_params st_S st_Sdot st_frozen]. fold (once_start a). rewrite once_learn. cbn [option_bind].
  rewrite (once_translate be a H). cbn [option_bind]. unfold fossil_verify.
  change (fossil_constraints once_pb (l_beta (once_learned a)) (fst (once_pair a)) (snd (once_pair a)))
    with (Some (lyapunov_constraints false (new_vars 1) P_Examples.ex_sets (fst (once_pair a)) (snd (once_pair a)))).
  cbn [option_bind]. destruct (v_found _); destruct (consolidator_get _ _ _ _ _) as [t|] eqn:Et; cbn; eauto.
  all: now apply once_consolidator in Et.
Qed.
Lemma once_valid a : (a = 1%Q \/ a = (-1)%Q) -> valid once_pb 0 (fun s => eval s (fst (once_pair a))) (fun s => eval s (snd (once_pair a))) <-> a = 1%Q.
Proof.
  intros H. split.
  - intros V. destruct H as [-> | ->]; [reflexivity|]. exfalso.
    assert (EV : forall s, eval s (fst (once_pair (-1))) = (- s 0%nat ^ 2)%R) by (intros s; cbn -[Q2R round_num]; q2r; field).
    destruct (V (fun _ => 1%R)) as [A _].
    + cbn -[Q2R]. q2r. lra.
    + intros O. specialize (O 0%nat ltac:(cbn; lia)). cbn in O. lra.
    + specialize (A eq_refl). cbn beta in A. rewrite EV in A. lra.
  - intros ->.
    assert (EV : forall s, eval s (fst (once_pair 1)) = (s 0%nat ^ 2)%R) by (intros s; cbn -[Q2R round_num]; q2r; field).
    assert (EW : forall s, eval s (snd (once_pair 1)) = (- 2 * s 0%nat ^ 2)%R) by (intros s; cbn -[Q2R round_num]; q2r; field).
    intros s Hs Ho. apply ex_not_origin in Ho. cbn beta. rewrite EV, EW. split; [intros _|]; cbn; lra.
Qed.
Example C76_found : exists r, run_fossil once_pb (once oracle) 1 (parabola 1) tt [(XD, [])] = Some (Some r) /\ r_res r = true.
Proof.
  destruct (once_returns oracle 1 (or_introl eq_refl)) as (r & Er). exists r. split; [exact Er|].
  apply (C76_success_iff_valid _ once_pb (once oracle) _ _ _ _ _ (oracle_exact once_pb (once oracle) (once_start 1) [(XD, [])] (fun _ => eq_refl)) Er).
  exists 0, (once_learned 1), (once_pair 1). split; [apply (once_proposes oracle 1); auto|]. apply once_valid; auto.
Qed.
Lemma once_unique be a it p c : (a = 1%Q \/ a = (-1)%Q) -> proposes (fossil once_pb (once be)) (once_start a) [(XD, [])] it p c ->
  it = 0 /\ p = once_learned a /\ c = once_pair a.
Proof.
  intros Ha (st & Hv & L1 & L2). assert (it = 0) as ->.
  { destruct it as [|it]; [reflexivity|]. exfalso. destruct (visited_below (fossil once_pb (once be)) (once_start a) [(XD, [])] _ _ Hv 0 ltac:(lia)) as (s0 & s1 & _ & I0).
    apply iterate_inv in I0. destruct I0 as (q & d & f & x & t & I0). destruct I0 as (_ & _ & _ & _ & _ & _ & _ & _ & _ & _ & M & _). exact (M eq_refl eq_refl). }
  rewrite (visited_fun _ _ _ _ _ _ Hv (visited_first _ _ _)) in L1. cbn [c_learn fossil init_state st_params st_S st_Sdot st_frozen] in L1.
  rewrite once_learn in L1. injection L1 as <-. cbn [c_translate fossil] in L2. rewrite (once_translate be a Ha) in L2. injection L2 as <-. auto.
Qed.
Example C76_not_found : exists r, run_fossil once_pb (once oracle) 1 (parabola (-1)) tt [(XD, [])] = Some (Some r) /\ r_res r = false.
Proof.
  destruct (once_returns oracle (-1) (or_intror eq_refl)) as (r & Er). exists r. split; [exact Er|]. apply Bool.not_true_iff_false. intros H.
  apply (C76_success_iff_valid _ once_pb (once oracle) _ _ _ _ _ (oracle_exact once_pb (once oracle) (once_start (-1)) [(XD, [])] (fun _ => eq_refl)) Er) in H.
  destruct H as (it & p & c & Hp & G). apply (once_unique oracle (-1)) in Hp; [|auto]. destruct Hp as (_ & -> & ->).
  apply once_valid in G; [discriminate|auto].
Qed.
(** A solver that does not answer: the valid candidate is rejected. *)
Example C76_undecided : exists r, run_fossil once_pb (once (fun _ => Unknown)) 1 (parabola 1) tt [(XD, [])] = Some (Some r) /\ r_res r = false /\
  exists it p c, proposes (fossil once_pb (once (fun _ => Unknown))) (initial once_pb (parabola 1) tt) [(XD, [])] it p c /\
    valid once_pb (l_beta p) (fun s => eval s (fst c)) (fun s => eval s (snd c)).
Proof.
  destruct (once_returns (fun _ => Unknown) 1 (or_introl eq_refl)) as (r & Er). exists r. split; [exact Er|]. split.
  - apply Bool.not_true_iff_false. intros H. revert Er. unfold run_fossil, solve. cbn [loop].
    destruct (iterate _ _ _) as [[b st']|] eqn:Ei; [|discriminate]. destruct b; [|discriminate]. intros [= <-]. cbn [r_res make_result] in H.
    apply iterate_inv in Ei. destruct Ei as (p & c & f & x & t & Ei). destruct Ei as (_ & _ & Hv & _ & _ & _ & _ & Hf & _).
    destruct (Hf H) as (-> & _). cbn in Hv. discriminate.
  - exists 0, (once_learned 1), (once_pair 1). split; [apply (once_proposes _ 1); auto|]. apply once_valid; auto.
Qed.
(** Two functions: the file [rar_doc] with a solver that decides. *)
Definition wise2 : environment2 controller :=
  {| e2_perfect := fun _ _ _ _ _ _ => false; e2_step := fun _ _ _ _ _ nets => nets;
     e2_ctrl := fun _ p _ _ => d_ctrl p; e2_beta := fun _ _ _ _ => 0%Q; e2_simp := fun e => e;
     e2_solver := fun _ => smt_backend (fun _ => oracle); e2_noise := fun _ _ _ _ => 0%R;
     e2_trajectory := fun _ _ _ _ => Some [] |}.
Example C76_document_two_example : exists F, forall numpy rand rand2 randc f1 f2, F <= f1 -> F <= f2 -> exists pb net net2 ctrl r,
  let S := [(XD, []); (XI, []); (XU, []); (XG, []); (XF, []); (XNF, [])] in
  session2_of numpy f1 f2 rand rand2 randc rar_doc = Some (pb, net, net2, ctrl) /\ run_double pb wise2 11 net net2 ctrl S = Some (Some r) /\
  (r_res r = true <-> exists it p c, proposes (double pb wise2) (initial2 pb net net2 ctrl) S it p c /\
     valid2 pb (d_beta p) (fun s => eval s (fst (fst c))) (fun s => eval s (snd (fst c))) (fun s => eval s (fst (snd c))) (fun s => eval s (snd (snd c)))).
Proof.
  destruct (C76_document_two _ _ _ _ _ _ _ _ _ rar_documented (or_intror eq_refl) ltac:(apply one_square; cbn; auto 20) ltac:(lia)) as (F & H).
  exists F. intros numpy rand rand2 randc f1 f2 L1 L2. destruct (H numpy rand rand2 randc f1 f2 L1 L2) as (pb & net & net2 & ctrl & E & R). clear H.
  destruct (R wise2 [(XD, []); (XI, []); (XU, []); (XG, []); (XF, []); (XNF, [])]) as (r & Er & A).
  - intros it p S Sdot t nt. split; apply same_shape_refl.
  - intros it p S Sdot Hl. exact Hl.
  - discriminate.
  - intros l. cbn. intuition congruence.
  - intros it p c _ gs g l f _ _ _. apply oracle_right.
  - exists pb, net, net2, ctrl, r. split; [exact E|]. split; [exact Er|exact A].
Qed.
