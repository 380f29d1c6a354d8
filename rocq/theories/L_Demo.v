(** A benign environment: an optimiser that is satisfied with the initial network and a
    solver given by a function.  Used to exhibit complete runs of [solve()]. *)
From Coq Require Import Reals QArith List Bool Arith ZArith Lia.
From Verif Require Import M_Syntax M_Certificates M_Verifier M_BetaSearch M_Activations M_Network M_Learner M_Cegis M_Fossil
  S_Verifier S_Certificates S_Success S_Network S_Learner S_Cegis S_Fossil L_Verifier L_Table L_Success L_Learner.
Import ListNotations.
Local Open Scope nat_scope.

Definition demo_env {K : Type} (solver : nat -> fml -> answer) (stay_fuel : nat) (beta : Q) : environment K :=
  {| e_perfect := fun _ _ _ _ _ _ => true; e_step := fun _ _ _ _ _ net => net;
     e_ctrl := fun _ p _ _ => l_ctrl p; e_beta := fun _ _ _ _ => beta; e_simp := fun e => e;
     e_solver := fun _ => smt_backend solver; e_noise := fun _ _ _ _ => 0%R;
     e_stay_fuel := fun _ => stay_fuel; e_stay_calls := fun _ => 0;
     e_trajectory := fun _ _ _ _ => None; e_estimate_beta := fun _ _ => Some tt |}.

Lemma demo_lawful {K} (pb : problem K) solver fu b : lawful pb (demo_env solver fu b).
Proof. intros it p S Sdot t net. split; [apply same_shape_refl|reflexivity]. Qed.
Lemma demo_honest {K} (pb : problem K) solver fu b : unsat_sound solver -> honest pb (demo_env solver fu b).
Proof. intros H it beta V Vdot gs _. now apply smt_trustworthy. Qed.

Lemma learn_loop_id perfect loops : forall t net,
  learn_loop false perfect (fun _ n => n) t loops net = net.
Proof. induction loops as [|k IH]; intros t net; simpl; [reflexivity|]. destruct (_ && _); auto. Qed.
Lemma twice_loop_id cond loops : forall t old net, twice_loop cond (fun _ n => n) t loops old net = net.
Proof. induction loops as [|k IH]; intros t old net; simpl; [reflexivity|]. destruct (_ && _); auto. Qed.

Lemma demo_learn {K} (pb : problem K) solver fu b it frozen p S Sdot :
  take_abs (pb_llo pb) (l_net p) = false ->
  fossil_learn pb (demo_env solver fu b) it frozen p S Sdot = Some {| l_net := l_net p; l_ctrl := l_ctrl p; l_beta := b |}.
Proof.
  intros Hl. unfold fossil_learn. f_equal. destruct p as [net c b0]. cbn [l_net l_ctrl l_beta e_ctrl e_beta demo_env] in *.
  f_equal. unfold learn_network, learn, learn_twice. rewrite Hl. cbn [andb e_step demo_env].
  destruct (pb_type pb); try apply twice_loop_id; apply learn_loop_id.
Qed.

Lemma verify_accepting solver noise gs :
  distinct_labels gs -> (forall k f, In f (map snd (concat gs)) -> solver k f = Unsat) ->
  v_found (verify (smt_backend solver) noise gs) = true.
Proof.
  intros Hd H. apply verify_found_complete; auto. intros i j l f (g & Hg & Hf). simpl.
  rewrite H; [reflexivity|]. apply in_map_iff. exists (l, f). split; auto.
  apply in_concat. exists g. split; eapply nth_error_In; eauto.
Qed.
Lemma verify_found_cex be noise gs :
  v_found (verify be noise gs) = true -> Forall (fun e => snd e = []) (v_cex (verify be noise gs)).
Proof.
  unfold verify. destruct (forallb _ _); simpl; [|discriminate]. intros _.
  apply Forall_forall. intros e He. apply in_map_iff in He. destruct He as (p & <- & _). reflexivity.
Qed.
Lemma consolidator_empty {P C} (k : components P C) it second p cex :
  Forall (fun e => snd e = []) cex -> consolidator_get k it second p cex = Some [].
Proof.
  induction 1 as [|[l rows] cex H _ IH]; [reflexivity|]. cbn [snd] in H. subst rows. cbn [consolidator_get rev].
  destruct (label_eqb l XD); exact IH.
Qed.

Definition demo_learned {K} (pb : problem K) (net : network) (ctrl : K) (b : Q) : learned K :=
  {| l_net := init_learner (pb_llo pb) net; l_ctrl := ctrl; l_beta := b |}.
Definition demo_result {K} (pb : problem K) (net : network) (ctrl : K) (b : Q) (V Vdot : expr) :
  result (P := learned K) (C := expr * expr) :=
  {| r_res := true; r_certificate := pb_type pb; r_learned := demo_learned pb net ctrl b;
     r_symbolic := Some (V, Vdot); r_iters := 1; r_N_data := 0 |}.

Lemma demo_run {K} (pb : problem K) solver fu b net ctrl V Vdot gs :
  take_abs (pb_llo pb) (init_learner (pb_llo pb) net) = false ->
  fossil_translate pb (demo_env solver fu b) 0 (demo_learned pb net ctrl b) = Some (V, Vdot) ->
  fossil_constraints pb b V Vdot = Some gs -> distinct_labels gs ->
  (forall k f, In f (map snd (concat gs)) -> solver k f = Unsat) ->
  (pb_type pb = RSWS -> exists beta, beta_search (smt_backend solver) (pb_sets pb) V Vdot fu 0 = Some (BetaTrue beta)) ->
  run_fossil pb (demo_env solver fu b) 1 net ctrl [] = Some (Some (demo_result pb net ctrl b V Vdot)).
Proof.
  intros Hl Ht Hg Hd Hs Hb.
  assert (Hf := verify_accepting solver (e_noise (demo_env (K := K) solver fu b) 0) gs Hd Hs).
  assert (Hc := verify_found_cex _ _ _ Hf).
  unfold run_fossil, solve. cbn [loop]. unfold iterate.
  cbn [c_learn c_translate c_verify fossil init_state st_params st_S st_Sdot].
  rewrite demo_learn by exact Hl. cbn [option_bind initial l_net l_ctrl].
  fold (demo_learned pb net ctrl b). rewrite Ht. cbn [option_bind].
  unfold fossil_verify. cbn [fst snd e_solver demo_env demo_learned l_beta]. rewrite Hg. cbn [option_bind].
  rewrite Hf, consolidator_empty by exact Hc. cbn [option_bind].
  unfold process_certificate. cbn [c_type fossil c_estimate_beta demo_env e_estimate_beta].
  assert (Eb : (if cert_eqb (pb_type pb) LYAPUNOV || cert_eqb (pb_type pb) ROA then Some tt else Some tt) = Some tt)
    by now destruct (cert_eqb _ _ || _).
  rewrite Eb. cbn [option_bind].
  destruct (cert_eqb (pb_type pb) RSWS) eqn:Er.
  - assert (Et : pb_type pb = RSWS) by (now destruct (pb_type pb)).
    destruct (Hb Et) as [beta Hbeta]. cbn [c_stay fossil]. unfold fossil_stay.
    cbn [e_solver e_stay_fuel e_stay_calls demo_env fst snd st_params]. rewrite Hbeta. reflexivity.
  - reflexivity.
Qed.

(** Any network whose translated candidate meets the conditions is returned by some run. *)
Lemma demo_success_ctrl {K} (pb : problem K) b net ctrl V Vdot gs :
  take_abs (pb_llo pb) (init_learner (pb_llo pb) net) = false ->
  (forall e, fossil_translate pb (demo_env e 0 b) 0 (demo_learned pb net ctrl b) = Some (V, Vdot)) ->
  fossil_constraints pb b V Vdot = Some gs -> distinct_labels gs -> refuted gs -> pb_type pb <> RSWS ->
  exists env, lawful pb env /\ honest pb env /\ (forall it p S Sdot, e_ctrl env it p S Sdot = l_ctrl p) /\
    run_fossil pb env 1 net ctrl [] = Some (Some (demo_result pb net ctrl b V Vdot)).
Proof.
  intros Hl Ht Hg Hd Hr Hn.
  exists (demo_env (fun _ => table (map snd (concat gs))) 0 b). split; [apply demo_lawful|]. split; [|split; [reflexivity|]].
  - apply demo_honest. intros k. apply table_sound. intros f Hf.
    apply in_map_iff in Hf. destruct Hf as ([l f'] & <- & Hf). apply in_concat in Hf. destruct Hf as (g & Hg' & Hf).
    exact (Hr g l _ Hg' Hf).
  - apply (demo_run pb _ 0 b net ctrl V Vdot gs); auto.
    + intros k f Hf. now apply table_hit.
    + intros E. congruence.
Qed.
Lemma demo_success {K} (pb : problem K) b net ctrl V Vdot gs :
  take_abs (pb_llo pb) (init_learner (pb_llo pb) net) = false ->
  (forall e, fossil_translate pb (demo_env e 0 b) 0 (demo_learned pb net ctrl b) = Some (V, Vdot)) ->
  fossil_constraints pb b V Vdot = Some gs -> distinct_labels gs -> refuted gs -> pb_type pb <> RSWS ->
  exists env, lawful pb env /\ honest pb env /\
    run_fossil pb env 1 net ctrl [] = Some (Some (demo_result pb net ctrl b V Vdot)).
Proof.
  intros. edestruct (demo_success_ctrl pb b net ctrl V Vdot gs) as (env & A & B & _ & C); eauto.
Qed.
