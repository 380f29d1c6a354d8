(** Property C72: what a success of each experiment shipped in experiments/benchmarks/ proves. *)
From Coquelicot Require Import Coquelicot.
From Coq Require Import String Reals QArith Qreals Bool Arith ZArith Lra Lia List.
From Verif Require Import M_Syntax M_Certificates M_Verifier M_BetaSearch M_Activations M_Domains M_Network M_Learner M_Cegis M_Labels M_Fossil M_Double
  M_Control M_Parser M_Cli M_Config M_Model M_Benchmarks M_Experiment M_Scripts S_Verifier S_Activations S_Network S_Learner S_Cegis S_Fossil S_Double S_Dynamics S_Certificates S_Success S_Domains
  S_Control S_Model S_Experiment L_Domains L_Topology L_Continuity L_Verifier L_Fossil P_BetaSearch P_Certificates P_Safety P_Stability P_Cegis P_Labels P_Domains P_Translator P_Control P_Fossil P_Double P_Model
  P_Cli L_Activations L_Config L_Session L_Regions P_Config P_ConfigDouble L_Experiment L_Boxes L_Annulus.
Import ListNotations.
Local Open Scope list_scope.
Local Open Scope R_scope.

(** ** Continuity of the shipped models *)
Definition entire_names : list string := ["sin"; "cos"; "exp"; "tanh"]%string.
Fixpoint constantb (t : uexpr) : bool :=
  match t with
  | UNum _ => true
  | UVar _ | UInput _ => false
  | UMinus a | UPow a _ | UFn _ a => constantb a
  | UAdd a b | USub a b | UMul a b | UDiv a b => constantb a && constantb b
  end.
Lemma value_constant xs us xs' us' t : constantb t = true -> value xs us t = value xs' us' t.
Proof.
  induction t; cbn [constantb value]; rewrite ?andb_true_iff; intros H; try discriminate; try reflexivity.
  all: try (rewrite (IHt H); reflexivity).
  all: destruct H as [H1 H2]; now rewrite (IHt1 H1), (IHt2 H2).
Qed.
Fixpoint entireb (t : uexpr) : bool :=
  match t with
  | UNum _ | UVar _ | UInput _ => true
  | UMinus a | UPow a _ => entireb a
  | UAdd a b | USub a b | UMul a b => entireb a && entireb b
  | UDiv a b => entireb a && constantb b
  | UFn name a => existsb (String.eqb name) entire_names && entireb a
  end.
Lemma value_continuous n (law : state -> list R) t p : entireb t = true -> (forall j, cont_at n (fun s => nth j (law s) 0) p) ->
  cont_at n (fun s => value (map s (seq 0 n)) (law s) t) p.
Proof.
  intros He Hl. induction t as [q|i|j|a IH|a IHa b IHb|a IHa b IHb|a IHa b IHb|a IHa b IHb|a IH m|name a IH]; cbn [value entireb] in *;
    rewrite ?andb_true_iff in He.
  - apply cont_const.
  - apply (cont_ext n (fun s => nth i (map (fun h => h s) (map (fun j (s : state) => s j) (seq 0 n))) 0)).
    { intros s. rewrite map_map. reflexivity. }
    apply nth_cont. intros h Hh. apply in_map_iff in Hh. destruct Hh as (j & <- & Hj). apply in_seq in Hj. apply cont_proj. lia.
  - apply Hl.
  - apply cont_neg. auto.
  - destruct He. apply cont_plus; auto.
  - destruct He. apply cont_minus; auto.
  - destruct He. apply cont_mult; auto.
  - destruct He as [He Hb]. unfold Rdiv. apply cont_mult; [auto|].
    apply (cont_ext n (fun _ => / value [] [] b)); [|apply cont_const]. intros s. f_equal. now apply value_constant.
  - apply cont_pow. auto.
  - destruct He as [Hn He]. apply (cont_comp n (function name) _ p (IH He)).
    apply existsb_exists in Hn. destruct Hn as (nm & Hin & E). apply String.eqb_eq in E. subst nm.
    cbn in Hin. destruct Hin as [<-|[<-|[<-|[<-|[]]]]]; unfold function; cbn [String.eqb Ascii.eqb Bool.eqb].
    + apply (unop_continuous USin). discriminate.
    + apply (unop_continuous UCos). discriminate.
    + apply (unop_continuous UExp). discriminate.
    + apply (unop_continuous UTanh). discriminate.
Qed.
Lemma script_law_cont e k j p : cont_at (x_n e) (fun s => nth j (script_law e k s) 0) p.
Proof.
  unfold script_law. destruct (x_ctrl e) as [[sizes names]|].
  - apply (cont_ext (x_n e) (fun s => nth j (map (fun h => h s) (map (fun i s => feedback (x_n e) (rounded k) s i) (seq 0 (List.last sizes 0%nat)))) 0)).
    { intros s. rewrite map_map. reflexivity. }
    apply nth_cont. intros h Hh. apply in_map_iff in Hh. destruct Hh as (i & <- & _). apply feedback_cont.
  - apply (cont_ext (x_n e) (fun _ => 0)); [|apply cont_const]. intros s. now destruct j.
Qed.
Definition entire_script (e : script) : bool := match x_system e with None => true | Some m => forallb entireb (bm_smt m) end.
Lemma script_cont e k j p : entire_script e = true -> cont_at (x_n e) (fun s => script_field e k s j) p.
Proof.
  unfold entire_script, script_field. destruct (x_system e) as [m|]; intros H; [|apply cont_const].
  apply value_continuous; [|intros i; apply script_law_cont]. destruct (le_lt_dec (List.length (bm_smt m)) j) as [L|L].
  - now rewrite nth_overflow.
  - rewrite forallb_forall in H. apply H, nth_In, L.
Qed.

(** ** One function *)
Section One.
  Context (e : script) (rand randc : nat -> nat -> nat -> Q) (pb : problem controller) (net : network) (ctrl : controller).
  Context (env : environment controller) (S : dict) (fuel : nat) (r : result (P := learned controller) (C := expr * expr)).
  Hypothesis Hf : fine e = true.
  Hypothesis Hs : script_session rand randc e = Some (pb, net, ctrl).
  Hypothesis Hlaw : lawful pb env.
  Hypothesis Hkeep : keeps_controller env.
  Hypothesis Hhon : honest pb env.
  Hypothesis Hrun : run_fossil pb env fuel net ctrl S = Some (Some r).
  Hypothesis Hres : r_res r = true.
  Let loop := script_field e (l_ctrl (r_learned r)).

  Lemma parts : pb_type pb = x_type e /\ pb_n pb = x_n e /\ pb_llo pb = x_llo e /\ pb_quad pb = false /\
    pb_discrete pb = (match x_time e with DISCRETE => true | CONTINUOUS => false end) /\ pb_symb pb <> SCVC5 /\ pb_symb pb <> SSYMPY /\
    smooth_net net /\ well_posed pb net /\ same_field (x_n e) loop (closed_loop pb r).
  Proof.
    destruct (script_parts rand randc e pb net ctrl Hs) as (m & lib & b & sym & fs & _ & _ & _ & _ & _ & _ & A1 & A2 & A3 & A4 & A5 & _).
    destruct (script_symb rand randc e pb net ctrl Hf Hs) as [B1 B2]. destruct (script_smooth rand randc e pb net ctrl Hf Hs) as [C1 _].
    repeat (split; [assumption|]). split; [exact (script_posed rand randc e pb net ctrl Hf Hs)|].
    apply same_sym. exact (script_loop rand randc e pb net ctrl Hf Hs env S fuel r Hlaw Hkeep Hhon Hrun Hres).
  Qed.
  Lemma one_set l X : In (l, X) (x_domains e) -> is_border l = false -> l <> XNF -> forall s, inside (pb_sets pb) l s <-> given_set e l s.
  Proof. intros I B T. apply (script_set rand randc e pb net ctrl Hf Hs l X I B). auto. Qed.

  Lemma one_safety Xi Xu Xd : In (x_type e) [BARRIER; BARRIERALT] -> x_time e = CONTINUOUS ->
    In (XI, Xi) (x_domains e) -> In (XU, Xu) (x_domains e) -> In (XD, Xd) (x_domains e) ->
    forall x T, solves (x_n e) loop x T -> given_set e XI (x 0) -> (forall t, 0 <= t <= T -> given_set e XD (x t)) ->
      forall t, 0 <= t <= T -> ~ given_set e XU (x t).
  Proof.
    intros Ty Ti Di Du Dd x T Hx H0 HD t Ht. destruct parts as (P1 & P2 & P3 & P4 & P5 & P6 & P7 & P8 & P9 & P10).
    rewrite <- (one_set XU Xu Du eq_refl ltac:(discriminate)).
    refine (C46_barrier_success_means_safety controller pb env net ctrl S fuel r P9 Hlaw Hhon _ _ P6 P8 Hrun Hres x T _ _ _ t Ht).
    - rewrite P1. destruct Ty as [E|[E|[]]]; rewrite <- E; auto.
    - now rewrite P5, Ti.
    - rewrite P2. eapply solves_same; [exact P10|exact Hx].
    - now rewrite (one_set XI Xi Di eq_refl ltac:(discriminate)).
    - intros u Hu. rewrite (one_set XD Xd Dd eq_refl ltac:(discriminate)). now apply HD.
  Qed.
  Lemma one_safety_discrete Xi Xu Xd : x_type e = BARRIERALT -> x_time e = DISCRETE ->
    In (XI, Xi) (x_domains e) -> In (XU, Xu) (x_domains e) -> In (XD, Xd) (x_domains e) ->
    forall x N, run (x_n e) loop x -> given_set e XI (x 0%nat) -> (forall k, (k <= N)%nat -> given_set e XD (x k)) ->
      forall k, (k <= N)%nat -> ~ given_set e XU (x k).
  Proof.
    intros Ty Ti Di Du Dd x N Hx H0 HD k Hk. destruct parts as (P1 & P2 & P3 & P4 & P5 & P6 & P7 & P8 & P9 & P10).
    rewrite <- (one_set XU Xu Du eq_refl ltac:(discriminate)).
    refine (C46_barrier_success_means_safety_discrete controller pb env net ctrl S fuel r P9 Hlaw Hhon _ _ P7 Hrun Hres x N _ _ _ k Hk).
    - congruence.
    - now rewrite P5, Ti.
    - rewrite P2. eapply run_same; [exact P10|exact Hx].
    - now rewrite (one_set XI Xi Di eq_refl ltac:(discriminate)).
    - intros u Hu. rewrite (one_set XD Xd Dd eq_refl ltac:(discriminate)). now apply HD.
  Qed.

  Section Reach.
    Context (Di Ds Dg : fset) (lo hi : list Q).
    Hypothesis Ii : In (XI, Shipped Di) (x_domains e).
    Hypothesis Is : In (XS, Shipped Ds) (x_domains e).
    Hypothesis Ib : In (XS_BORDER, Shipped Ds) (x_domains e).
    Hypothesis Ig : In (XG, Shipped Dg) (x_domains e).
    Hypothesis Id : In (XD, Shipped (Rect lo hi)) (x_domains e).
    Hypothesis Hb : has_boundary Ds.
    Hypothesis C1 : subsetb (x_n e) Di Ds = true.
    Hypothesis C2 : in_boxb (x_n e) lo hi Ds = true.
    Hypothesis C3 : border_boxb (x_n e) lo hi Ds = true.
    Lemma fit l D : In (l, Shipped D) (x_domains e) -> fits (x_n e) D.
    Proof.
      intros I. destruct (fine_parts e Hf) as (_ & _ & _ & _ & _ & _ & _ & _ & Ft & _).
      specialize (Ft l _ I). now apply fitsb_ok.
    Qed.
    Lemma in_rect s : (forall i, (i < x_n e)%nat -> qn lo i <= s i <= qn hi i) -> given_set e XD s.
    Proof.
      intros H. rewrite (script_given e Hf XD _ Id). cbn [member]. pose proof (fit _ _ Id) as [L _]. now rewrite L.
    Qed.
    Lemma stay_in_domain s : given_set e XS s -> given_set e XD s.
    Proof.
      rewrite (script_given e Hf XS _ Is). intros M. apply in_rect. exact (in_boxb_ok _ lo hi Ds s C2 (fit _ _ Is) M).
    Qed.
    Lemma start_in_stay s : given_set e XI s -> given_set e XS s.
    Proof.
      rewrite (script_given e Hf XI _ Ii), (script_given e Hf XS _ Is). intros M. exact (subsetb_ok _ _ _ _ C1 (fit _ _ Ii) M).
    Qed.
    Lemma reach_geometry : rws_geometry (x_n e) (pb_sets pb) /\ exists rad, bounded_by (x_n e) rad (inside (pb_sets pb) XS).
    Proof.
      destruct (script_border rand randc e pb net ctrl Hf Hs XS XS_BORDER Ds Is Ib eq_refl eq_refl ltac:(discriminate) ltac:(discriminate) Hb) as [F G].
      split; [split; [|split; [|exact F]]|].
      - intros s. rewrite (one_set XI _ Ii eq_refl ltac:(discriminate)), (one_set XD _ Id eq_refl ltac:(discriminate)), (one_set XS _ Is eq_refl ltac:(discriminate)).
        intros H. split; [apply stay_in_domain|]; now apply start_in_stay.
      - intros s H. rewrite (one_set XD _ Id eq_refl ltac:(discriminate)). apply in_rect.
        exact (border_boxb_ok _ lo hi Ds _ s C3 (fit _ _ Is) G H).
      - apply (box_bounded _ lo hi). intros s. rewrite (one_set XS _ Is eq_refl ltac:(discriminate)), (script_given e Hf XS _ Is).
        intros M. exact (in_boxb_ok _ lo hi Ds s C2 (fit _ _ Is) M).
    Qed.
    Lemma one_reach : In (x_type e) [RWS; RWA; RSWS; RSWA] -> x_time e = CONTINUOUS ->
      exists T0, forall x T, T0 <= T -> solves (x_n e) loop x T -> given_set e XI (x 0) ->
        reach_while_stay (given_set e XS) (given_set e XG) x T.
    Proof.
      intros Ty Ti. destruct parts as (P1 & P2 & P3 & P4 & P5 & P6 & P7 & P8 & P9 & P10).
      destruct reach_geometry as (Geo & rad & Bd).
      destruct (C48_reach_while_stay controller pb env net ctrl S fuel r rad) as (T0 & H); auto.
      - rewrite P1. cbn in Ty. intuition.
      - now rewrite P5, Ti.
      - now rewrite P2.
      - now rewrite P2.
      - exists T0. intros x T HT Hx H0. destruct (H x T HT) as [(t & Ht & G) St].
        + rewrite P2. eapply solves_same; [exact P10|exact Hx].
        + now rewrite (one_set XI _ Ii eq_refl ltac:(discriminate)).
        + split; [exists t; split; [exact Ht|now rewrite <- (one_set XG _ Ig eq_refl ltac:(discriminate))]|].
          intros u Hu Hv. rewrite <- (one_set XS _ Is eq_refl ltac:(discriminate)). apply St; [exact Hu|].
          intros v Hv'. rewrite (one_set XG _ Ig eq_refl ltac:(discriminate)). now apply Hv.
    Qed.
    Lemma one_reach_stay : x_type e = RSWS -> x_time e = CONTINUOUS ->
      In (XG_BORDER, Shipped Dg) (x_domains e) -> has_boundary Dg -> subsetb (x_n e) Dg Ds = true ->
      (forall it V Vdot, stay_sound (e_solver env it) (pb_sets pb) V Vdot) ->
      exists T0, forall x, solves_forever (x_n e) loop x -> given_set e XI (x 0) ->
        (forall t, 0 <= t -> given_set e XS (x t)) /\ (forall t, T0 <= t -> given_set e XG (x t)).
    Proof.
      intros Ty Ti Igb Hgb Sg Hst. destruct parts as (P1 & P2 & P3 & P4 & P5 & P6 & P7 & P8 & P9 & P10).
      destruct reach_geometry as (Geo & rad & Bd).
      destruct (script_border rand randc e pb net ctrl Hf Hs XG XG_BORDER Dg Ig Igb eq_refl eq_refl ltac:(discriminate) ltac:(discriminate) Hgb) as [F _].
      destruct (C48_reach_and_stay controller pb env net ctrl S fuel r rad) as (T0 & H); auto.
      - congruence.
      - now rewrite P5, Ti.
      - rewrite P2. split; [exact Geo|]. split; [|exact F]. intros s. rewrite (one_set XG _ Ig eq_refl ltac:(discriminate)), (one_set XS _ Is eq_refl ltac:(discriminate)).
        rewrite (script_given e Hf XG _ Ig), (script_given e Hf XS _ Is). intros M. exact (subsetb_ok _ _ _ _ Sg (fit _ _ Ig) M).
      - now rewrite P2.
      - exists T0. intros x Hx H0. destruct (H x) as [H1 H2].
        + rewrite P2. eapply forever_same; [exact P10|exact Hx].
        + now rewrite (one_set XI _ Ii eq_refl ltac:(discriminate)).
        + split; intros t Ht; [rewrite <- (one_set XS _ Is eq_refl ltac:(discriminate)); auto|rewrite <- (one_set XG _ Ig eq_refl ltac:(discriminate)); auto].
    Qed.
  End Reach.

  Lemma one_attraction Xi rad rho : x_type e = ROA -> x_time e = CONTINUOUS -> x_llo e = true -> entire_script e = true ->
    In (XI, Xi) (x_domains e) ->
    forall V Vdot, r_symbolic r = Some (V, Vdot) ->
    bounded_by (x_n e) rad (fun s => sem V s <= 11/10 * Q2R (l_beta (r_learned r))) -> 1/100 < rho ->
    exists T, 0 <= T /\ forall x, solves (x_n e) loop x T -> given_set e XI (x 0) ->
      exists t, 0 <= t <= T /\ ~ outside_ball (x_n e) rho (x t).
  Proof.
    intros Ty Ti Hl He Ii V Vdot HV Hb Hrho. destruct parts as (P1 & P2 & P3 & P4 & P5 & P6 & P7 & P8 & P9 & P10).
    destruct (C47_roa_success_means_attraction controller pb env net ctrl S fuel r rad rho) with (V := V) (Vdot := Vdot) as (T & HT & H); auto.
    - congruence.
    - congruence.
    - now rewrite P5, Ti.
    - rewrite P2. apply (script_loop_cont rand randc e pb net ctrl Hf Hs env S fuel r Hlaw Hkeep Hhon Hrun Hres). intros j p _. now apply script_cont.
    - now rewrite P2.
    - exists T. split; [exact HT|]. intros x Hx H0. destruct (H x) as (t & Ht & K).
      + rewrite P2. eapply solves_same; [exact P10|exact Hx].
      + now rewrite (one_set XI _ Ii eq_refl ltac:(discriminate)).
      + exists t. split; [exact Ht|]. now rewrite <- P2.
  Qed.

  (** LYAPUNOV on a ring around the origin. *)
  Section Ring.
    Context (c : list Q) (ro ri : Q).
    Hypothesis Id : In (XD, Shipped (Tor c ro ri None)) (x_domains e).
    Hypothesis Hro : Qle_bool 0 ro = true.
    Hypothesis Hri : Qle_bool ri 0 = false.
    Hypothesis Hc : forallb (fun v => Qeq_bool v 0) c = true.
    Hypothesis Ty : x_type e = LYAPUNOV.
    Hypothesis He : entire_script e = true.
    Lemma ring s : given_set e XD s <-> Q2R ri ^ 2 <= dist2 c None s <= Q2R ro ^ 2.
    Proof. now rewrite (script_given e Hf XD _ Id). Qed.
    Lemma ring_fits : List.length c = x_n e.
    Proof. exact (fit XD _ Id). Qed.
    Lemma ring_hole : 0 < Q2R ri.
    Proof.
      destruct (Rlt_le_dec 0 (Q2R ri)) as [H|H]; [exact H|]. exfalso. rewrite <- RMicromega.Q2R_0 in H. apply Rle_Qle, Qle_bool_iff in H. congruence.
    Qed.
    Lemma ring_away s : given_set e XD s -> ~ origin (x_n e) s.
    Proof.
      rewrite ring. intros H O. pose proof ring_hole. unfold dist2 in H. rewrite ring_fits in H.
      rewrite (L_Domains.sum_below_ext (x_n e) _ (fun _ => 0)) in H.
      - assert (Z : forall n, sum_below n (fun _ => 0) = 0) by (induction n as [|n IH]; cbn; lra). rewrite Z in H. nra.
      - intros j J. cbn [coord]. rewrite (O j J). rewrite forallb_forall in Hc.
        assert (Qeq_bool (nth j c 0%Q) 0 = true) as K by (apply Hc, nth_In; now rewrite ring_fits).
        apply Qeq_bool_iff, Qeq_eqR in K. unfold qn. rewrite K, RMicromega.Q2R_0. ring.
    Qed.
    Lemma dist_cont p : cont_at (x_n e) (dist2 c None) p.
    Proof.
      unfold dist2. rewrite ring_fits. apply cont_sum. intros i I. apply cont_pow. apply cont_minus; [now apply cont_proj|apply cont_const].
    Qed.
    Lemma ring_closed : closed_set (x_n e) (inside (pb_sets pb) XD).
    Proof.
      intros p Np. rewrite (one_set XD _ Id eq_refl) in Np by congruence. rewrite ring in Np.
      assert (exists d, 0 < d /\ forall v, Rabs (v - dist2 c None p) < d -> ~ (Q2R ri ^ 2 <= v <= Q2R ro ^ 2)) as (d & Hd & K).
      { destruct (Rlt_le_dec (dist2 c None p) (Q2R ri ^ 2)) as [L|L].
        - exists (Q2R ri ^ 2 - dist2 c None p). split; [lra|]. intros v Hv. apply Rabs_def2 in Hv. lra.
        - destruct (Rlt_le_dec (Q2R ro ^ 2) (dist2 c None p)) as [L'|L']; [|exfalso; lra].
          exists (dist2 c None p - Q2R ro ^ 2). split; [lra|]. intros v Hv. apply Rabs_def2 in Hv. lra. }
      destruct (dist_cont p d Hd) as (d' & Hd' & K'). exists d'. split; [exact Hd'|]. intros s Hs'.
      rewrite (one_set XD _ Id eq_refl) by congruence. rewrite ring. apply K. now apply K'.
    Qed.
    Lemma ring_bounded : exists rad, bounded_by (x_n e) rad (inside (pb_sets pb) XD).
    Proof.
      apply (box_bounded _ (map (fun v => v - ro)%Q c) (map (fun v => v + ro)%Q c)). intros s.
      rewrite (one_set XD _ Id eq_refl) by congruence. rewrite (script_given e Hf XD _ Id). intros M.
      refine (in_boxb_ok _ _ _ (Tor c ro ri None) s _ (fit _ _ Id) M). cbn [in_boxb]. rewrite Hro. cbn [andb].
      unfold withinb. apply forallb_forall. intros i _. apply andb_true_iff. split; apply Qle_bool_iff, Qle_refl.
    Qed.
    Lemma one_ring : x_time e = CONTINUOUS ->
      exists V Vdot T0, r_symbolic r = Some (V, Vdot) /\ 0 <= T0 /\ forall x T, T0 < T -> solves (x_n e) loop x T ->
        (exists t, 0 <= t <= T /\ ~ given_set e XD (x t)) /\
        (given_set e XD (x 0) -> (forall s, dist2 c None s = Q2R ro ^ 2 -> sem V (x 0) < sem V s) ->
         exists t, 0 <= t <= T /\ dist2 c None (x t) < Q2R ri ^ 2).
    Proof.
      intros Ti. destruct parts as (P1 & P2 & P3 & P4 & P5 & P6 & P7 & P8 & P9 & P10). destruct ring_bounded as (rad & Bd).
      destruct (away_leaves pb env net P9 Hlaw Hhon) with (rad := rad) (ctrl := ctrl) (S := S) (fuel := fuel) (r := r) as (V & Vdot & T0 & E & T0p & H); auto.
      - congruence.
      - intros s. rewrite (one_set XD _ Id eq_refl), P2 by congruence. apply ring_away.
      - now rewrite P2.
      - rewrite P2. exact ring_closed.
      - now rewrite P5, Ti.
      - rewrite P2. apply (script_loop_cont rand randc e pb net ctrl Hf Hs env S fuel r Hlaw Hkeep Hhon Hrun Hres). intros j p _. now apply script_cont.
      - exists V, Vdot, T0. split; [exact E|]. split; [exact T0p|]. intros x T HT Hx.
        assert (K : forall T', 0 <= T' <= T -> (forall t, 0 <= t <= T' -> given_set e XD (x t)) ->
          T' <= T0 /\ forall t, 0 < t <= T' -> sem V (x t) < sem V (x 0)).
        { intros T' HT' HD. apply (H x T'); [lra| |].
          - rewrite P2. eapply solves_same; [exact P10|]. apply (solves_shorter _ _ _ T); [exact Hx|lra].
          - intros t Ht. rewrite (one_set XD _ Id eq_refl) by congruence. now apply HD. }
        split.
        + apply Classical_Prop.NNPP. intros N. destruct (K T ltac:(lra)) as [A _]; [|lra].
          intros t Ht. apply Classical_Prop.NNPP. intros Nt. apply N. exists t. auto.
        + intros H0 Hlev. apply Classical_Prop.NNPP. intros N.
          assert (G : forall t, 0 <= t <= T -> Q2R ri ^ 2 <= dist2 c None (x t)).
          { intros t Ht. apply Rnot_lt_le. intros L. apply N. exists t. auto. }
          assert (In_ : forall t, 0 <= t <= T -> given_set e XD (x t)); [|destruct (K T ltac:(lra) In_); lra].
          intros b Hb. apply ring. split; [now apply G|]. apply Rnot_lt_le. intros L.
          destruct (level_crossing (fun t => dist2 c None (x t) - Q2R ro ^ 2) 0 b) as (t & Ht & Et & Hu).
          * lra.
          * intros t Ht. apply (continuous_minus (fun t => dist2 c None (x t)) (fun _ => Q2R ro ^ 2)); [|apply continuous_const].
            apply (cont_along (x_n e)); [apply dist_cont|]. intros i I. apply (solves_cont _ _ _ _ Hx); [lra|exact I].
          * apply ring in H0. lra.
          * lra.
          * assert (HD : forall u, 0 <= u <= t -> given_set e XD (x u)).
            { intros u Hu'. apply ring. split; [apply G; lra|]. specialize (Hu u Hu'). lra. }
            specialize (Hlev (x t) ltac:(lra)). destruct (Req_dec t 0) as [-> |D]; [lra|].
            destruct (K t ltac:(lra) HD) as [_ A]. specialize (A t ltac:(lra)). lra.
    Qed.
    Lemma one_ring_discrete : x_time e = DISCRETE ->
      exists V dV N0, r_symbolic r = Some (V, dV) /\ forall x, run (x_n e) loop x ->
        (exists k, (k <= N0)%nat /\ ~ given_set e XD (x k)) /\
        (given_set e XD (x 0%nat) -> (forall s, Q2R ro ^ 2 < dist2 c None s -> sem V (x 0%nat) <= sem V s) ->
         exists k, (k <= N0)%nat /\ dist2 c None (x k) < Q2R ri ^ 2).
    Proof.
      intros Ti. destruct parts as (P1 & P2 & P3 & P4 & P5 & P6 & P7 & P8 & P9 & P10). destruct ring_bounded as (rad & Bd).
      destruct (away_leaves_discrete pb env net P9 Hlaw Hhon) with (rad := rad) (ctrl := ctrl) (S := S) (fuel := fuel) (r := r) as (V & dV & N0 & E & H); auto.
      - congruence.
      - intros s. rewrite (one_set XD _ Id eq_refl), P2 by congruence. apply ring_away.
      - now rewrite P2.
      - rewrite P2. exact ring_closed.
      - now rewrite P5, Ti.
      - rewrite P2. apply (script_loop_cont rand randc e pb net ctrl Hf Hs env S fuel r Hlaw Hkeep Hhon Hrun Hres). intros j p _. now apply script_cont.
      - exists V, dV, (Datatypes.S N0). split; [exact E|]. intros x Hx.
        assert (K : forall N, (forall k, (k <= N)%nat -> given_set e XD (x k)) ->
          (N <= N0)%nat /\ forall k, (k <= N)%nat -> sem V (x (Datatypes.S k)) < sem V (x 0%nat)).
        { intros N HD. apply (H x N).
          - rewrite P2. eapply run_same; [exact P10|exact Hx].
          - intros k Hk. rewrite (one_set XD _ Id eq_refl) by congruence. now apply HD. }
        split.
        + apply Classical_Prop.NNPP. intros N. destruct (K (Datatypes.S N0)) as [A _]; [|lia].
          intros k Hk. apply Classical_Prop.NNPP. intros Nk. apply N. exists k. auto.
        + intros H0 Hlev. apply Classical_Prop.NNPP. intros N.
          assert (G : forall k, (k <= Datatypes.S N0)%nat -> Q2R ri ^ 2 <= dist2 c None (x k)).
          { intros k Hk. apply Rnot_lt_le. intros L. apply N. exists k. auto. }
          assert (A : forall m k, (m <= Datatypes.S N0)%nat -> (k <= m)%nat -> given_set e XD (x k)).
          { induction m as [|m IH]; intros k Hm Hk; [replace k with 0%nat by lia; exact H0|].
            destruct (Nat.eq_dec k (Datatypes.S m)) as [-> |D]; [|apply IH; lia].
            apply ring. split; [apply G; lia|]. apply Rnot_lt_le. intros L. specialize (Hlev _ L).
            destruct (K m) as [_ B]; [intros j J; apply IH; lia|]. specialize (B m (le_n m)). lra. }
          destruct (K (Datatypes.S N0)); [|lia]. intros k Hk. apply (A (Datatypes.S N0)); lia.
    Qed.
  End Ring.
End One.

(** ** Two functions *)
Definition shrink (lo : list Q) : list Q := map (fun v => v + (1 # 100))%Q lo.
Definition shrink' (hi : list Q) : list Q := map (fun v => v - (1 # 100))%Q hi.
Section Two.
  Context (e : script) (rand rand2 randc : nat -> nat -> nat -> Q) (pb : problem controller) (net net2 : network) (ctrl : controller).
  Context (env : environment2 controller) (S : dict) (fuel : nat) (r : result (P := learned2 controller) (C := candidate2)).
  Hypothesis Hf : fine e = true.
  Hypothesis Hs2 : script_session2 rand rand2 randc e = Some (pb, net, net2, ctrl).
  Hypothesis Hlaw : lawful2 env.
  Hypothesis Hkeep : keeps_controller2 env.
  Hypothesis Hhon : honest2 pb env.
  Hypothesis Hrun : run_double pb env fuel net net2 ctrl S = Some (Some r).
  Hypothesis Hres : r_res r = true.
  Let loop := script_field e (d_ctrl (r_learned r)).

  Lemma session2 : script_session rand randc e = Some (pb, net, ctrl) /\ script_net_alt rand2 e = Some net2.
  Proof.
    pose proof Hs2 as H. unfold script_session2 in H. apply bind_some in H. destruct H as ([[pb' net'] ctrl'] & A & B).
    apply map_some in B. destruct B as (n2 & B & E). injection E as -> -> -> ->. auto.
  Qed.
  Lemma parts2 : pb_type pb = x_type e /\ pb_n pb = x_n e /\ pb_llo pb = x_llo e /\ pb_symb pb <> SCVC5 /\
    smooth_net net /\ smooth_net net2 /\ well_posed2 pb net net2 /\ same_field (x_n e) loop (closed_loop2 pb r).
  Proof.
    destruct session2 as [Hs Hn2].
    destruct (script_parts rand randc e pb net ctrl Hs) as (m & lib & b & sym & fs & _ & _ & _ & _ & _ & _ & A1 & A2 & A3 & A4 & A5 & _).
    destruct (script_symb rand randc e pb net ctrl Hf Hs) as [B1 B2]. destruct (script_smooth rand randc e pb net ctrl Hf Hs) as [C1 _].
    destruct (script_posed2 rand randc e pb net ctrl Hf Hs rand2 net2 Hn2) as [D1 D2].
    repeat (split; [assumption|]). apply same_sym.
    exact (script_loop2 rand randc e pb net ctrl Hf Hs net2 env S fuel r Hkeep Hrun Hres).
  Qed.
  Lemma two_set l X : In (l, X) (x_domains e) -> is_border l = false -> l <> XNF -> forall s, inside (pb_sets pb) l s <-> given_set e l s.
  Proof. destruct session2 as [Hs _]. exact (one_set e rand randc pb net ctrl Hf Hs l X). Qed.
  Lemma fit2 l D : In (l, Shipped D) (x_domains e) -> fits (x_n e) D.
  Proof. exact (fit e Hf l D). Qed.

  Lemma margin lo hi i : List.length lo = x_n e -> List.length hi = x_n e -> (i < x_n e)%nat -> qn lo i < qn (shrink lo) i /\ qn (shrink' hi) i < qn hi i.
  Proof.
    intros L1 L2 I. unfold shrink, shrink'.
    rewrite (qn_map_shift lo i _ (1/100)), (qn_map_shift hi i _ (- (1/100))).
    - split; lra.
    - lia.
    - intros v. rewrite Q2R_minus. unfold Q2R at 2. cbn. lra.
    - lia.
    - intros v. rewrite Q2R_plus. unfold Q2R at 2. cbn. lra.
  Qed.

  Lemma two_safety Xi Xu Xd : x_type e = STABLESAFE ->
    In (XI, Xi) (x_domains e) -> In (XU, Xu) (x_domains e) -> In (XD, Xd) (x_domains e) ->
    forall x T, solves (x_n e) loop x T -> given_set e XI (x 0) -> (forall t, 0 <= t <= T -> given_set e XD (x t)) ->
      forall t, 0 <= t <= T -> ~ given_set e XU (x t).
  Proof.
    intros Ty Di Du Dd x T Hx H0 HD t Ht. destruct parts2 as (P1 & P2 & P3 & P4 & P5 & P6 & P7 & P8).
    rewrite <- (two_set XU Xu Du eq_refl ltac:(discriminate)).
    refine (C52_stablesafe_success_means_safety controller pb env net net2 ctrl S fuel r P7 Hlaw Hhon _ P4 P5 P6 Hrun Hres x T _ _ _ t Ht).
    - congruence.
    - rewrite P2. eapply solves_same; [exact P8|exact Hx].
    - now rewrite (two_set XI Xi Di eq_refl ltac:(discriminate)).
    - intros u Hu. rewrite (two_set XD Xd Dd eq_refl ltac:(discriminate)). now apply HD.
  Qed.
  (** The unsafe set is everything outside of a box well inside the domain. *)
  Lemma two_invariant Di A lo hi : x_type e = STABLESAFE ->
    In (XI, Shipped Di) (x_domains e) -> In (XU, Shipped (ComplS A)) (x_domains e) -> In (XD, Shipped (Rect lo hi)) (x_domains e) ->
    subsetb (x_n e) Di A = true -> in_boxb (x_n e) (shrink lo) (shrink' hi) A = true ->
    forall x T, solves (x_n e) loop x T -> given_set e XI (x 0) -> forall t, 0 <= t <= T -> ~ given_set e XU (x t).
  Proof.
    intros Ty Ii Iu Id Si Sa x T Hx H0 t Ht. destruct (fit2 _ _ Id) as [L1 L2]. pose proof (fit2 _ _ Iu) as Fa. cbn [fits] in Fa.
    assert (M : member (x_n e) A (x t)).
    { refine (never_leaves (x_n e) lo hi (shrink lo) (shrink' hi) (member (x_n e) A) x 0 T L1 L2 _ _ _ _ _ t Ht).
      - intros i I. now apply margin.
      - intros s Ms. exact (in_boxb_ok _ _ _ A s Sa Fa Ms).
      - exact (solves_cont _ _ _ _ Hx).
      - rewrite (script_given e Hf XI _ Ii) in H0. exact (subsetb_ok _ _ _ _ Si (fit2 _ _ Ii) H0).
      - intros u Hu HD. apply Classical_Prop.NNPP. intros N.
        refine (two_safety _ _ _ Ty Ii Iu Id x u _ H0 _ u ltac:(lra) _).
        + apply (solves_shorter _ _ _ T); [exact Hx|lra].
        + intros v Hv. rewrite (script_given e Hf XD _ Id). now apply HD.
        + rewrite (script_given e Hf XU _ Iu). exact N. }
    rewrite (script_given e Hf XU _ Iu). cbn [member]. tauto.
  Qed.
  Lemma two_attraction Xi rad rho : decisive env -> x_type e = STABLESAFE -> x_llo e = true -> entire_script e = true ->
    In (XI, Xi) (x_domains e) ->
    forall V Vdot B Bdot, r_symbolic r = Some ((V, Vdot), (B, Bdot)) ->
    bounded_by (x_n e) rad (fun s => sem V s <= 11/10 * Q2R (d_beta (r_learned r))) -> 1/100 < rho ->
    exists T, 0 <= T /\ forall x, solves (x_n e) loop x T -> given_set e XI (x 0) ->
      exists t, 0 <= t <= T /\ ~ outside_ball (x_n e) rho (x t).
  Proof.
    intros Hde Ty Hl He Ii V Vdot B Bdot HV Hb Hrho. destruct parts2 as (P1 & P2 & P3 & P4 & P5 & P6 & P7 & P8).
    destruct session2 as [Hs Hn2].
    destruct (C52_stablesafe_success_means_attraction controller pb env net net2 ctrl S fuel r rad rho)
      with (V := V) (Vdot := Vdot) (B := B) (Bdot := Bdot) as (T & HT & H); auto.
    - congruence.
    - congruence.
    - rewrite P2. apply (script_loop2_cont rand randc e pb net ctrl Hf Hs net2 env S fuel r Hkeep Hrun Hres). intros j p _. now apply script_cont.
    - now rewrite P2.
    - exists T. split; [exact HT|]. intros x Hx H0. destruct (H x) as (t & Ht & K).
      + rewrite P2. eapply solves_same; [exact P8|exact Hx].
      + now rewrite (two_set XI _ Ii eq_refl ltac:(discriminate)).
      + exists t. split; [exact Ht|]. now rewrite <- P2.
  Qed.
  Lemma two_remain Di Ds Dg Df lo hi : x_type e = RAR ->
    In (XI, Shipped Di) (x_domains e) -> In (XS, Shipped Ds) (x_domains e) -> In (XS_BORDER, Shipped Ds) (x_domains e) ->
    In (XG, Shipped Dg) (x_domains e) -> In (XF, Shipped Df) (x_domains e) -> In (XD, Shipped (Rect lo hi)) (x_domains e) ->
    has_boundary Ds -> subsetb (x_n e) Di Ds = true -> in_boxb (x_n e) lo hi Ds = true -> border_boxb (x_n e) lo hi Ds = true ->
    subsetb (x_n e) Dg Df = true -> in_boxb (x_n e) (shrink lo) (shrink' hi) Df = true ->
    exists T0, forall x T, solves (x_n e) loop x T -> given_set e XI (x 0) ->
      (T0 <= T -> reach_while_stay (given_set e XS) (given_set e XG) x T) /\
      (forall a, 0 <= a <= T -> given_set e XG (x a) -> forall t, a <= t <= T -> given_set e XF (x t)).
  Proof.
    intros Ty Ii Is Ib Ig If Id Hb C1 C2 C3 C4 C5. destruct parts2 as (P1 & P2 & P3 & P4 & P5 & P6 & P7 & P8). destruct session2 as [Hs Hn2].
    destruct (reach_geometry e rand randc pb net ctrl Hf Hs Di Ds lo hi Ii Is Ib Id Hb C1 C2 C3) as (Geo & rad & Bd).
    destruct (C52_rar_success_means_reach_avoid_remain controller pb env net net2 ctrl S fuel r rad) as (T0 & H); auto.
    - congruence.
    - now rewrite P2.
    - now rewrite P2.
    - intros s _. rewrite (two_set XF _ If eq_refl ltac:(discriminate)).
      rewrite (script_complement rand randc e pb net ctrl Hf Hs Ty (ex_intro (fun X => In (XF, X) (x_domains e)) _ If)). apply Classical_Prop.classic.
    - exists T0. intros x T Hx H0.
      assert (Hx' : forall T', T' <= T -> solves (pb_n pb) (closed_loop2 pb r) x T').
      { intros T' HT'. rewrite P2. eapply solves_same; [exact P8|]. now apply (solves_shorter _ _ _ T). }
      assert (H0' : inside (pb_sets pb) XI (x 0)) by now rewrite (two_set XI _ Ii eq_refl ltac:(discriminate)).
      split.
      + intros HT. destruct (H x T (Hx' T (Rle_refl T)) H0') as [K _]. destruct (K HT) as [(t & Ht & G) St].
        split; [exists t; split; [exact Ht|now rewrite <- (two_set XG _ Ig eq_refl ltac:(discriminate))]|].
        intros u Hu Hv. rewrite <- (two_set XS _ Is eq_refl ltac:(discriminate)). apply St; [exact Hu|].
        intros v Hv'. rewrite (two_set XG _ Ig eq_refl ltac:(discriminate)). now apply Hv.
      + intros a Ha HG. destruct (fit2 _ _ Id) as [L1 L2]. pose proof (fit2 _ _ If) as Ff.
        refine (never_leaves (x_n e) lo hi (shrink lo) (shrink' hi) (given_set e XF) x a T L1 L2 _ _ _ _ _).
        * intros i I. now apply margin.
        * intros s Ms. rewrite (script_given e Hf XF _ If) in Ms. exact (in_boxb_ok _ _ _ Df s C5 Ff Ms).
        * intros t Ht. apply (solves_cont _ _ _ _ Hx). lra.
        * rewrite (script_given e Hf XF _ If). rewrite (script_given e Hf XG _ Ig) in HG. exact (subsetb_ok _ _ _ _ C4 (fit2 _ _ Ig) HG).
        * intros t Ht HD. rewrite <- (two_set XF _ If eq_refl ltac:(discriminate)).
          destruct (H x t (Hx' t ltac:(lra)) H0') as [_ K]. apply (K a); try lra.
          -- now rewrite (two_set XG _ Ig eq_refl ltac:(discriminate)).
          -- intros u Hu. rewrite (two_set XD _ Id eq_refl ltac:(discriminate)), (script_given e Hf XD _ Id). now apply HD.
  Qed.
End Two.

(** * C72 *)
Ltac among H := cbn [In rwa_scripts rswa_scripts rar_scripts stabsafe_scripts lyap_scripts roa_scripts barrier_scripts] in H;
  repeat (destruct H as [<-|H]); [..|destruct H].
Ltac pick := cbn; repeat first [left; reflexivity | right].
Ltac check := solve [vm_compute; reflexivity | reflexivity | pick | cbn; tauto].

(** Every script except the quadrotor's starts a search, whatever the random initial weights; that one stops with an error. *)
Theorem C72_start : forall e rand rand2 randc, In e all_scripts ->
  (exists pb net net2 ctrl, script_session rand randc e = Some (pb, net, ctrl) /\ script_session2 rand rand2 randc e = Some (pb, net, net2, ctrl))
  <-> x_file e <> "barrier/ctrlbarr_quadrotor2d.py"%string.
Proof.
  intros e rand rand2 randc He.
  assert (K : forall e, (exists m, x_system e = Some m) -> 
     (if script_session (fun _ _ _ => 0%Q) (fun _ _ _ => 0%Q) e then if script_net_alt (fun _ _ _ => 0%Q) e then true else false else false) = true ->
     exists pb net net2 ctrl, script_session rand randc e = Some (pb, net, ctrl) /\ script_session2 rand rand2 randc e = Some (pb, net, net2, ctrl)).
  { clear. intros e (m & Em) H. unfold script_session2. unfold script_session in *. destruct (script_problem e) as [pb|]; cbn [option_bind] in *; [|discriminate].
    assert (N : forall r r' sizes names b n, script_network r sizes names b n = None -> script_network r' sizes names b n = None).
    { intros r r' sizes names b n. unfold script_network. destruct (map_opt activation_fcn names) as [acts|]; cbn [option_bind]; [|auto]. destruct (negb _); [auto|discriminate]. }
    assert (Nc : forall r r', script_controller r e = None -> script_controller r' e = None).
    { intros r r'. unfold script_controller. destruct (x_ctrl e) as [[sizes names]|]; [|discriminate]. destruct (_ <=? 1)%nat; [auto|]. now destruct (map_opt activation_fcn names). }
    destruct (script_net rand e) as [net|] eqn:En; cbn [option_bind].
    2: { rewrite (N _ _ _ _ _ _ En : script_net (fun _ _ _ => 0%Q) e = None) in H. discriminate. }
    destruct (script_controller randc e) as [ctrl|] eqn:Ec; cbn [option_bind option_map].
    2: { rewrite (Nc _ _ Ec : script_controller (fun _ _ _ => 0%Q) e = None) in H. destruct (script_net (fun _ _ _ => 0%Q) e); discriminate. }
    destruct (script_net_alt rand2 e) as [net2|] eqn:E2; cbn [option_map].
    2: { rewrite (N _ _ _ _ _ _ E2 : script_net_alt (fun _ _ _ => 0%Q) e = None) in H. destruct (option_bind _ _); discriminate. }
    exists pb, net, net2, ctrl. auto. }
  destruct (string_dec (x_file e) "barrier/ctrlbarr_quadrotor2d.py") as [E|E].
  - split; [|congruence]. intros (pb & net & net2 & ctrl & H & _). exfalso.
    cbn [all_scripts rwa_scripts rswa_scripts rar_scripts stabsafe_scripts lyap_scripts roa_scripts barrier_scripts app In] in He.
    repeat (destruct He as [<-|He]); [..|destruct He]; try discriminate E. cbn in H. discriminate.
  - split; [auto|]. intros _.
    cbn [all_scripts rwa_scripts rswa_scripts rar_scripts stabsafe_scripts lyap_scripts roa_scripts barrier_scripts app In] in He.
    repeat (destruct He as [<-|He]); [..|destruct He]; try (exfalso; apply E; reflexivity).
    all: apply K; [eexists; reflexivity|vm_compute; reflexivity].
Qed.

(** It is the search the script asks for ... *)
Lemma shape_of rand sizes names b n net : script_network rand sizes names b n = Some net -> of_shape sizes names b n net.
Proof.
  intros E. destruct (script_network_facts _ _ _ _ _ _ E) as (W & I & _ & _). unfold script_network in E. apply bind_some in E. destruct E as (acts & Ga & E).
  destruct (List.length acts =? List.length sizes)%nat eqn:L; [|discriminate]. apply Nat.eqb_eq in L. cbn [negb] in E. injection E as <-.
  split; [exact I|]. split; [exact W|]. cbn [hidden last].
  assert (K : forall k n, map (fun la : layer * act => List.length (weight (fst la))) (combine (linears rand k n sizes b) acts) = sizes /\
              map snd (combine (linears rand k n sizes b) acts) = acts).
  { clear -L. revert acts L. induction sizes as [|m sizes IH]; intros [|a acts] L k n; try discriminate; [split; reflexivity|].
    cbn [linears combine map fst snd]. destruct (IH acts ltac:(cbn in L; lia) (Datatypes.S k) m) as [I1 I2]. rewrite I1, I2.
    split; [|reflexivity]. f_equal. now apply linear_wf. }
  split; [apply K|]. split; [rewrite (proj2 (K 0%nat n)); now apply map_opt_Forall2|].
  assert (B : forall rand n m, bias (linear rand n m b) = None <-> b = false) by (intros; unfold linear; cbn [bias]; destruct b; split; congruence).
  constructor; [apply B|]. apply Forall_map, Forall_forall. intros [l a] H. apply in_combine_l in H. cbn [fst].
  revert H. generalize 0%nat as k, n as w. clear -B. induction sizes as [|m sizes IH]; intros k w H; [destruct H|].
  cbn [linears] in H. destruct H as [<-|H]; [apply B|]. exact (IH _ _ H).
Qed.
Theorem C72_settings : forall e rand rand2 randc pb net net2 ctrl,
  script_session2 rand rand2 randc e = Some (pb, net, net2, ctrl) ->
  pb_type pb = x_type e /\ pb_n pb = x_n e /\ (pb_discrete pb = true <-> x_time e = DISCRETE) /\ pb_llo pb = x_llo e /\
  pb_max_iters pb = x_max_iters e /\ pb_rounding pb = 3%Z /\ pb_quad pb = false /\ (pb_control pb = false <-> x_ctrl e = None) /\
  In (x_verifier e, pb_symb pb) [(VZ3, SZ3); (VDREAL, SDREAL); (VCVC5, SCVC5)] /\
  of_shape (x_hidden e) (x_acts e) (match x_type e with LYAPUNOV | ROA | STABLESAFE => false | _ => true end) (x_n e) net /\
  of_shape (x_hidden_alt e) (x_acts_alt e) true (x_n e) net2 /\
  match x_ctrl e with
  | None => k_layers ctrl = []
  | Some (sizes, names) => map (fun l => List.length (weight l)) (k_layers ctrl) = sizes /\ Forall (fun l => bias l = None) (k_layers ctrl) /\
      Forall2 (fun name a => activation_fcn name = Some a) names (k_acts ctrl)
  end.
Proof.
  intros e rand rand2 randc pb net net2 ctrl H2. unfold script_session2 in H2. apply bind_some in H2. destruct H2 as ([[pb' net'] ctrl'] & H & H2).
  apply map_some in H2. destruct H2 as (n2 & En2 & E). injection E as -> -> -> ->.
  unfold script_session in H. apply bind_some in H. destruct H as (pb'' & Hp & H).
  apply bind_some in H. destruct H as (net'' & Hn & H). apply map_some in H. destruct H as (c' & Hc & E). injection E as -> -> ->.
  unfold script_problem in Hp. apply bind_some in Hp. destruct Hp as (m & Em & Hp). apply bind_some in Hp. destruct Hp as ([lib b] & El & Hp).
  match type of Hp with (if ?c then _ else _) = _ => destruct c; [discriminate|] end.
  match type of Hp with (if ?c then _ else _) = _ => destruct c; [discriminate|] end.
  apply bind_some in Hp. destruct Hp as (fs & Efs & Hp). injection Hp as <-. cbn [pb_type pb_n pb_discrete pb_llo pb_max_iters pb_rounding pb_quad pb_control pb_symb].
  split; [reflexivity|]. split; [reflexivity|]. split; [destruct (x_time e); split; congruence|]. split; [reflexivity|].
  split; [reflexivity|]. split; [reflexivity|]. split; [reflexivity|]. split; [destruct (x_ctrl e); split; congruence|].
  split; [destruct (x_verifier e); try discriminate El; injection El as <- <-; cbn; auto|].
  split; [exact (shape_of _ _ _ _ _ _ Hn)|]. split; [exact (shape_of _ _ _ _ _ _ En2)|].
  unfold script_controller in Hc. destruct (x_ctrl e) as [[sizes names]|]; [|now injection Hc as <-].
  destruct (_ <=? 1)%nat; [discriminate|]. apply map_some in Hc. destruct Hc as (acts & Ea & ->). cbn [k_layers k_acts].
  split; [|split; [apply linears_bias|now apply map_opt_Forall2]].
  generalize 0%nat as k, (x_n e) as w. clear. induction sizes as [|m sizes IH]; intros k w; [reflexivity|]. cbn [linears map].
  rewrite IH. f_equal. now apply linear_wf.
Qed.
(** ... on its system: what the training data are simulated with is the field, with the weights as they are. *)
Theorem C72_simulation : forall e rand randc pb net ctrl, In e all_scripts -> script_session rand randc e = Some (pb, net, ctrl) ->
  forall k s, (forall sizes names, x_ctrl e = Some (sizes, names) -> wf_controller (x_n e) (List.last sizes 0%nat) k /\ ctrl_softplus_ok (x_n e) k s) ->
    pb_f pb k (map s (seq 0 (x_n e))) = map (trained_field e k s) (seq 0 (x_n e)).
Proof.
  intros e rand randc pb net ctrl He Hs k s Hk.
  destruct (script_parts rand randc e pb net ctrl Hs) as (m & lib & b & sym & fs & Em & _ & _ & _ & _ & _ & _ & _ & _ & _ & _ & _ & _ & _ & Ef).
  rewrite Ef. assert (W : forall e, In e all_scripts -> match x_system e with None => true | Some m => written_twiceb m (x_n e) (outputs_of e) && (List.length (bm_smt m) =? x_n e)%nat && Bool.eqb (bm_control m) (closes e) end = true).
  { clear. intros e He. assert (A : forallb (fun e => match x_system e with None => true | Some m => written_twiceb m (x_n e) (outputs_of e) && (List.length (bm_smt m) =? x_n e)%nat && Bool.eqb (bm_control m) (closes e) end) all_scripts = true) by (vm_compute; reflexivity).
    rewrite forallb_forall in A. now apply A. }
  specialize (W e He). rewrite Em, !andb_true_iff in W. destruct W as [[W L] C]. apply written_twiceb_ok in W. apply Nat.eqb_eq in L. apply Bool.eqb_prop in C.
  assert (Q : forall law, (fun s => match x_ctrl e with None => [] | Some (sizes, _) => map (feedback (x_n e) k s) (seq 0 (List.last sizes 0%nat)) end) s = law ->
    map (value (map s (seq 0 (x_n e))) law) (bm_smt m) = map (trained_field e k s) (seq 0 (x_n e))).
  { intros law <-. unfold trained_field. rewrite Em. rewrite <- L at 2. apply (nth_ext _ _ 0 0); [now rewrite !map_length, seq_length|].
    intros j J. rewrite map_length in J. rewrite (map_nth_lt _ _ _ (UNum 0)) by exact J. rewrite (map_nth_lt _ _ _ 0%nat) by (now rewrite seq_length).
    now rewrite seq_nth. }
  unfold script_torch, outputs_of, closes in *. destruct (x_ctrl e) as [[sizes names]|] eqn:Ec.
  - destruct (Hk sizes names eq_refl) as [Wk Sk]. destruct (ctrl_forward_value _ _ k s Wk Sk) as [Lf Vf].
    destruct (C66_closed_loop m k _ _ W C) as [Sim _]. specialize (Sim (None, None) [map s (seq 0 (x_n e))]). unfold row in *. cbv iota beta.
    match goal with |- match ?X with _ => _ end = _ => replace X with (Rows (map (fun x => map (value x (ctrl_forward k x)) (bm_smt m)) [map s (seq 0 (x_n e))])); [|symmetry; apply Sim] end.
    + cbn [map]. apply Q. apply (nth_ext _ _ 0 0); [now rewrite map_length, seq_length|]. intros j J. rewrite map_length, seq_length in J.
      rewrite Vf by exact J. rewrite (map_nth_lt _ _ _ 0%nat) by (now rewrite seq_length). now rewrite seq_nth.
    + constructor; [now rewrite map_length, seq_length|constructor].
    + constructor; [exact Lf|constructor].
  - destruct (C66_one_field m _ _ W) as (F & HF & Sim & _). specialize (Sim None [map s (seq 0 (x_n e))] [[]]). rewrite C in Sim. cbv iota beta in *.
    match goal with |- match ?X with _ => _ end = _ => replace X with (Rows [F (map s (seq 0 (x_n e))) []]) end.
    2: { symmetry. apply Sim; [constructor; [now rewrite map_length, seq_length|constructor]|repeat constructor|reflexivity]. }
    rewrite HF. now apply Q.
Qed.

(** rwa/: every motion from XI reaches XG within a time [T0], and stays in XS until then. *)
Theorem C72_reach : forall e rand randc pb net ctrl (env : environment controller) S fuel r,
  In e rwa_scripts -> script_session rand randc e = Some (pb, net, ctrl) ->
  lawful pb env -> keeps_controller env -> honest pb env ->
  run_fossil pb env fuel net ctrl S = Some (Some r) -> r_res r = true ->
  exists T0, forall x T, T0 <= T -> solves (x_n e) (script_field e (l_ctrl (r_learned r))) x T -> given_set e XI (x 0) ->
    reach_while_stay (given_set e XS) (given_set e XG) x T.
Proof.
  intros e rand randc pb net ctrl env S fuel r He Hs H1 H2 H3 H4 H5. among He.
  all: eapply one_reach; try eassumption; try check.
Qed.
(** rswa/: ... and it stays in XG for ever after [T0]. *)
Theorem C72_reach_stay : forall e rand randc pb net ctrl (env : environment controller) S fuel r,
  In e rswa_scripts -> script_session rand randc e = Some (pb, net, ctrl) ->
  lawful pb env -> keeps_controller env -> honest pb env ->
  (* also the solver's answers in the search for the level are right *)
  (forall it V Vdot, stay_sound (e_solver env it) (pb_sets pb) V Vdot) ->
  run_fossil pb env fuel net ctrl S = Some (Some r) -> r_res r = true ->
  exists T0, forall x, solves_forever (x_n e) (script_field e (l_ctrl (r_learned r))) x -> given_set e XI (x 0) ->
    (forall t, 0 <= t -> given_set e XS (x t)) /\ (forall t, T0 <= t -> given_set e XG (x t)).
Proof.
  intros e rand randc pb net ctrl env S fuel r He Hs H1 H2 H3 Hst H4 H5. among He.
  all: eapply one_reach_stay; try eassumption; try check.
Qed.
(** rar/: ... and once in XG it stays in XF for ever (no assumption about XD is left). *)
Theorem C72_remain : forall e rand rand2 randc pb net net2 ctrl (env : environment2 controller) S fuel r,
  In e rar_scripts -> script_session2 rand rand2 randc e = Some (pb, net, net2, ctrl) ->
  lawful2 env -> keeps_controller2 env -> honest2 pb env ->
  run_double pb env fuel net net2 ctrl S = Some (Some r) -> r_res r = true ->
  exists T0, forall x T, solves (x_n e) (script_field e (d_ctrl (r_learned r))) x T -> given_set e XI (x 0) ->
    (T0 <= T -> reach_while_stay (given_set e XS) (given_set e XG) x T) /\
    (forall a, 0 <= a <= T -> given_set e XG (x a) -> forall t, a <= t <= T -> given_set e XF (x t)).
Proof.
  intros e rand rand2 randc pb net net2 ctrl env S fuel r He Hs H1 H2 H3 H4 H5. among He.
  all: eapply two_remain; try eassumption; try check.
Qed.
(** stabsafe/: no motion from XI enters XU, as long as it stays in XD ... *)
Theorem C72_stabsafe : forall e rand rand2 randc pb net net2 ctrl (env : environment2 controller) S fuel r,
  In e stabsafe_scripts -> script_session2 rand rand2 randc e = Some (pb, net, net2, ctrl) ->
  lawful2 env -> keeps_controller2 env -> honest2 pb env ->
  run_double pb env fuel net net2 ctrl S = Some (Some r) -> r_res r = true ->
  forall x T, solves (x_n e) (script_field e (d_ctrl (r_learned r))) x T -> given_set e XI (x 0) ->
    (forall t, 0 <= t <= T -> given_set e XD (x t)) -> forall t, 0 <= t <= T -> ~ given_set e XU (x t).
Proof.
  intros e rand rand2 randc pb net net2 ctrl env S fuel r He Hs H1 H2 H3 H4 H5. among He.
  all: eapply two_safety; try eassumption; try check.
Qed.
(** ... and in the two with a controller, where XU is everything outside of a box, it does stay there, and never enters XU. *)
Theorem C72_stabsafe_forever : forall e rand rand2 randc pb net net2 ctrl (env : environment2 controller) S fuel r,
  In e [script_ctrl_stablesafe1; script_ctrl_stablesafe3] -> script_session2 rand rand2 randc e = Some (pb, net, net2, ctrl) ->
  lawful2 env -> keeps_controller2 env -> honest2 pb env ->
  run_double pb env fuel net net2 ctrl S = Some (Some r) -> r_res r = true ->
  forall x T, solves (x_n e) (script_field e (d_ctrl (r_learned r))) x T -> given_set e XI (x 0) ->
    forall t, 0 <= t <= T -> ~ given_set e XU (x t).
Proof.
  intros e rand rand2 randc pb net net2 ctrl env S fuel r He Hs H1 H2 H3 H4 H5. among He.
  all: eapply two_invariant; try eassumption; try check.
Qed.
(** Attraction (not for the script with LLO off): needs a decisive solver and a bounded sublevel set, see C52. *)
Theorem C72_stabsafe_attraction : forall e rand rand2 randc pb net net2 ctrl (env : environment2 controller) S fuel r rad rho,
  In e stabsafe_scripts -> x_llo e = true -> script_session2 rand rand2 randc e = Some (pb, net, net2, ctrl) ->
  lawful2 env -> keeps_controller2 env -> honest2 pb env -> decisive env ->
  run_double pb env fuel net net2 ctrl S = Some (Some r) -> r_res r = true ->
  forall V Vdot B Bdot, r_symbolic r = Some ((V, Vdot), (B, Bdot)) ->
  bounded_by (x_n e) rad (fun s => sem V s <= 11/10 * Q2R (d_beta (r_learned r))) -> 1/100 < rho ->
  exists T, 0 <= T /\ forall x, solves (x_n e) (script_field e (d_ctrl (r_learned r))) x T -> given_set e XI (x 0) ->
    exists t, 0 <= t <= T /\ ~ outside_ball (x_n e) rho (x t).
Proof.
  intros e rand rand2 randc pb net net2 ctrl env S fuel r rad rho He Hl Hs H1 H2 H3 Hd H4 H5 V Vdot B Bdot HV Hb Hr. among He.
  all: try discriminate Hl.
  all: eapply (two_attraction _ rand rand2 randc pb net net2 ctrl env S fuel r) with (V := V) (Vdot := Vdot) (B := B) (Bdot := Bdot) (rad := rad); try eassumption; try check.
Qed.
(** roa/ *)
Theorem C72_attraction : forall e rand randc pb net ctrl (env : environment controller) S fuel r rad rho,
  In e roa_scripts -> script_session rand randc e = Some (pb, net, ctrl) ->
  lawful pb env -> keeps_controller env -> honest pb env ->
  run_fossil pb env fuel net ctrl S = Some (Some r) -> r_res r = true ->
  forall V Vdot, r_symbolic r = Some (V, Vdot) ->
  bounded_by (x_n e) rad (fun s => sem V s <= 11/10 * Q2R (l_beta (r_learned r))) -> 1/100 < rho ->
  exists T, 0 <= T /\ forall x, solves (x_n e) (script_field e (l_ctrl (r_learned r))) x T -> given_set e XI (x 0) ->
    exists t, 0 <= t <= T /\ ~ outside_ball (x_n e) rho (x t).
Proof.
  intros e rand randc pb net ctrl env S fuel r rad rho He Hs H1 H2 H3 H4 H5 V Vdot HV Hb Hr. among He.
  all: eapply (one_attraction _ rand randc pb net ctrl env S fuel r) with (V := V) (Vdot := Vdot) (rad := rad); try eassumption; try check.
Qed.
(** barrier/ *)
Theorem C72_safety : forall e rand randc pb net ctrl (env : environment controller) S fuel r,
  In e barrier_scripts -> x_time e = CONTINUOUS -> script_session rand randc e = Some (pb, net, ctrl) ->
  lawful pb env -> keeps_controller env -> honest pb env ->
  run_fossil pb env fuel net ctrl S = Some (Some r) -> r_res r = true ->
  forall x T, solves (x_n e) (script_field e (l_ctrl (r_learned r))) x T -> given_set e XI (x 0) ->
    (forall t, 0 <= t <= T -> given_set e XD (x t)) -> forall t, 0 <= t <= T -> ~ given_set e XU (x t).
Proof.
  intros e rand randc pb net ctrl env S fuel r He Ht Hs H1 H2 H3 H4 H5. among He.
  all: try discriminate Ht; try discriminate Hs.
  all: eapply one_safety; try eassumption; try check.
Qed.
Theorem C72_safety_discrete : forall e rand randc pb net ctrl (env : environment controller) S fuel r,
  In e barrier_scripts -> x_time e = DISCRETE -> script_session rand randc e = Some (pb, net, ctrl) ->
  lawful pb env -> keeps_controller env -> honest pb env ->
  run_fossil pb env fuel net ctrl S = Some (Some r) -> r_res r = true ->
  forall x N, run (x_n e) (script_field e (l_ctrl (r_learned r))) x -> given_set e XI (x 0%nat) ->
    (forall k, (k <= N)%nat -> given_set e XD (x k)) -> forall k, (k <= N)%nat -> ~ given_set e XU (x k).
Proof.
  intros e rand randc pb net ctrl env S fuel r He Ht Hs H1 H2 H3 H4 H5. among He.
  all: try discriminate Ht; try discriminate Hs.
  all: eapply one_safety_discrete; try eassumption; try check.
Qed.
(** The quadrotor's script: no initial and no unsafe state is in its domain (the third bounds are pi and pi). *)
Theorem C72_quadrotor : forall s, given_set script_ctrlbarr_quadrotor2d XD s ->
  ~ given_set script_ctrlbarr_quadrotor2d XI s /\ ~ given_set script_ctrlbarr_quadrotor2d XU s.
Proof.
  intros s (X & Hin & HD). cbn in Hin.
  destruct Hin as [E|[E|[E|[]]]]; try discriminate. injection E as <-. cbn [member] in HD. specialize (HD 2%nat ltac:(cbn; lia)).
  unfold qn in HD. cbn [nth] in HD.
  assert (P : 3 <= Q2R (884279719003555 # 281474976710656)) by (unfold Q2R; cbn; lra).
  assert (B : forall c r : Q, 0 <= Q2R r -> forall l, dist2 (l) None s <= Q2R r ^ 2 -> List.length l = 6%nat -> s 2%nat - qn l 2 <= Q2R r).
  { intros _ r R0 l H L. pose proof (coord_dist 6 l s 2 L ltac:(lia)). apply (sqr_bound _ _ R0). lra. }
  split; intros (Y & Hy & HM); cbn in Hy; destruct Hy as [E|[E|[E|[]]]]; try discriminate; injection E as <-; cbn [member] in HM.
  - apply (B 0%Q) in HM; [|unfold Q2R; cbn; lra|reflexivity]. unfold qn, Q2R in HM. cbn in HM. unfold Q2R in HD, P. cbn in HD, P. lra.
  - apply (B 0%Q) in HM; [|unfold Q2R; cbn; lra|reflexivity]. unfold qn, Q2R in HM. cbn in HM. unfold Q2R in HD, P. cbn in HD, P. lra.
Qed.
(** lyap/ (not the script with a certificate of its own): XD is a ring around the origin; every motion leaves it within
    a time [T0]; and if it starts in XD below every value of V on the outer sphere, it leaves it into the hole. *)
Lemma origin_dist e c s : List.length c = x_n e -> forallb (fun v => Qeq_bool v 0) c = true ->
  dist2 c None s = sum_below (x_n e) (fun i => s i ^ 2).
Proof.
  intros L Z. unfold dist2. rewrite L. apply L_Domains.sum_below_ext. intros j J. cbn [coord]. rewrite forallb_forall in Z.
  assert (Qeq_bool (nth j c 0%Q) 0 = true) as K by (apply Z, nth_In; now rewrite L).
  apply Qeq_bool_iff, Qeq_eqR in K. unfold qn. rewrite K, RMicromega.Q2R_0. ring.
Qed.
Lemma lyap_ring e : In e lyap_scripts -> x_type e = LYAPUNOV -> exists c ro ri, In (XD, Shipped (Tor c ro ri None)) (x_domains e) /\ Qle_bool 0 ro = true /\
  Qle_bool ri 0 = false /\ Qle_bool ro ri = false /\ forallb (fun v => Qeq_bool v 0) c = true /\ entire_script e = true /\ fine e = true.
Proof.
  intros He Ty. among He. all: try discriminate Ty.
  all: eexists _, _, _; split; [left; reflexivity|]; repeat split; vm_compute; reflexivity.
Qed.
Lemma q_lt a b : Qle_bool b a = false -> Q2R a < Q2R b.
Proof. intros H. apply Rnot_le_lt. intros L. apply Rle_Qle, Qle_bool_iff in L. congruence. Qed.
Theorem C72_ring : forall e rand randc pb net ctrl (env : environment controller) S fuel r,
  In e lyap_scripts -> x_type e = LYAPUNOV -> x_time e = CONTINUOUS -> script_session rand randc e = Some (pb, net, ctrl) ->
  lawful pb env -> keeps_controller env -> honest pb env ->
  run_fossil pb env fuel net ctrl S = Some (Some r) -> r_res r = true ->
  exists V Vdot ro ri T0, r_symbolic r = Some (V, Vdot) /\ 0 < ri < ro /\ ring_of e ro ri /\ 0 <= T0 /\
    forall x T, T0 < T -> solves (x_n e) (script_field e (l_ctrl (r_learned r))) x T ->
      (exists t, 0 <= t <= T /\ ~ given_set e XD (x t)) /\
      (given_set e XD (x 0) -> (forall s, sum_below (x_n e) (fun i => s i ^ 2) = ro ^ 2 -> sem V (x 0) < sem V s) ->
       exists t, 0 <= t <= T /\ sum_below (x_n e) (fun i => x t i ^ 2) < ri ^ 2).
Proof.
  intros e rand randc pb net ctrl env S fuel r He Ty Ti Hs H1 H2 H3 H4 H5.
  destruct (lyap_ring e He Ty) as (c & ro & ri & Id & Hro & Hri & Hlt & Hc & Ent & Hf).
  assert (Len : List.length c = x_n e) by (eapply ring_fits; eassumption).
  destruct (one_ring e rand randc pb net ctrl env S fuel r Hf Hs H1 H2 H3 H4 H5 c ro ri Id Hro Hri Hc Ty Ent Ti) as (V & Vdot & T0 & E & T0p & H).
  exists V, Vdot, (Q2R ro), (Q2R ri), T0. split; [exact E|]. split.
  { split; [rewrite <- RMicromega.Q2R_0|]; now apply q_lt. }
  split. { intros s. rewrite <- (origin_dist e c s Len Hc). now apply ring. }
  split; [exact T0p|]. intros x T HT Hx. destruct (H x T HT Hx) as [A B]. split; [exact A|].
  intros H0 Hlev. destruct B as (t & Ht & K); [exact H0| |].
  - intros s Es. apply Hlev. now rewrite <- (origin_dist e c s Len Hc).
  - exists t. split; [exact Ht|]. now rewrite <- (origin_dist e c (x t) Len Hc).
Qed.
Theorem C72_ring_discrete : forall e rand randc pb net ctrl (env : environment controller) S fuel r,
  In e lyap_scripts -> x_type e = LYAPUNOV -> x_time e = DISCRETE -> script_session rand randc e = Some (pb, net, ctrl) ->
  lawful pb env -> keeps_controller env -> honest pb env ->
  run_fossil pb env fuel net ctrl S = Some (Some r) -> r_res r = true ->
  exists V dV ro ri N0, r_symbolic r = Some (V, dV) /\ 0 < ri < ro /\ ring_of e ro ri /\
    forall x, run (x_n e) (script_field e (l_ctrl (r_learned r))) x ->
      (exists k, (k <= N0)%nat /\ ~ given_set e XD (x k)) /\
      (given_set e XD (x 0%nat) -> (forall s, ro ^ 2 < sum_below (x_n e) (fun i => s i ^ 2) -> sem V (x 0%nat) <= sem V s) ->
       exists k, (k <= N0)%nat /\ sum_below (x_n e) (fun i => x k i ^ 2) < ri ^ 2).
Proof.
  intros e rand randc pb net ctrl env S fuel r He Ty Ti Hs H1 H2 H3 H4 H5.
  destruct (lyap_ring e He Ty) as (c & ro & ri & Id & Hro & Hri & Hlt & Hc & Ent & Hf).
  assert (Len : List.length c = x_n e) by (eapply ring_fits; eassumption).
  destruct (one_ring_discrete e rand randc pb net ctrl env S fuel r Hf Hs H1 H2 H3 H4 H5 c ro ri Id Hro Hri Hc Ty Ent Ti) as (V & dV & N0 & E & H).
  exists V, dV, (Q2R ro), (Q2R ri), N0. split; [exact E|]. split.
  { split; [rewrite <- RMicromega.Q2R_0|]; now apply q_lt. }
  split. { intros s. rewrite <- (origin_dist e c s Len Hc). now apply ring. }
  intros x Hx. destruct (H x Hx) as [A B]. split; [exact A|].
  intros H0 Hlev. destruct B as (k & Hk & K); [exact H0| |].
  - intros s Es. apply Hlev. now rewrite <- (origin_dist e c s Len Hc).
  - exists k. split; [exact Hk|]. now rewrite <- (origin_dist e c (x k) Len Hc).
Qed.
