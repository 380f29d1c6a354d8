(** Properties C31-C33: the CEGIS loop. *)
From Coq Require Import Reals List Bool Arith ZArith Lia.
From Verif Require Import M_Syntax M_Certificates M_Verifier M_Activations M_Cegis S_Cegis L_Verifier.
Import ListNotations.

Section Loop.
  Context {P C : Type} (k : components P C).

  Lemma process_certificate_inv it c st b st' :
    process_certificate k it c st = Some (b, st') ->
    (b = true \/ (c_type k = RSWS /\ b = false /\ c_max_iters k <> Z.of_nat it)) /\
    (st' = st \/ (c_type k = RSWS /\ st' = set_found false st)) /\
    (st_found st' = true -> st_found st = true /\ st' = st /\ b = true /\
       (c_type k = RSWS -> c_stay k it (st_params st) c = Some true)) /\
    (st_found st = true -> st_found st' = false -> b = true -> c_max_iters k = Z.of_nat it).
  Proof.
    unfold process_certificate. intros H.
    destruct (if cert_eqb (c_type k) LYAPUNOV || cert_eqb (c_type k) ROA then c_estimate_beta k it (st_params st) else Some tt) as [u|]; cbn [option_bind] in H; [|discriminate].
    destruct (cert_eqb (c_type k) RSWS) eqn:E.
    - assert (Ec : c_type k = RSWS) by (destruct (c_type k); try discriminate; reflexivity).
      destruct (c_stay k it (st_params st) c) as [stay|] eqn:Es; cbn [option_bind] in H; [|discriminate].
      destruct stay; injection H as <- <-.
      + repeat split; auto. congruence.
      + destruct (Z.eqb_spec (c_max_iters k) (Z.of_nat it)); repeat split; auto; try discriminate.
    - injection H as <- <-. repeat split; auto; try congruence.
      intros Ec. rewrite Ec in E. discriminate.
  Qed.

  (** Everything about one pass through the loop body. *)
  Lemma iterate_inv it st b st' : iterate k it st = Some (b, st') ->
    exists p c found cex t,
      c_learn k it (st_frozen st) (st_params st) (st_S st) (st_Sdot st) = Some p /\
      c_translate k it p = Some c /\ c_verify k it p c = Some (found, cex) /\
      consolidator_get k it (second_certificate k cex) p cex = Some t /\
      st_params st' = p /\ st_V st' = Some c /\ st_timed_out st' = st_timed_out st /\
      (st_found st' = true -> found = true /\ b = true /\ (c_type k = RSWS -> c_stay k it p c = Some true)) /\
      (b = true -> st_S st' = st_S st /\ st_Sdot st' = st_Sdot st) /\
      (b = true -> st_found st' = false -> st_timed_out st = false -> c_max_iters k = Z.of_nat it) /\
      (b = false -> c_max_iters k <> Z.of_nat it) /\
      (b = false -> st_found st' = false) /\
      (b = false -> if found then c_type k = RSWS /\ st_S st' = st_S st /\ st_Sdot st' = st_Sdot st
         else exists cex', (if c_double k then Some cex else add_trajectory (st_S st) cex t) = Some cex' /\
                add_ces_to_data k p (st_S st) (st_Sdot st) cex' = Some (st_S st', st_Sdot st')).
  Proof.
    unfold iterate. intros H.
    destruct (c_learn k it (st_frozen st) (st_params st) (st_S st) (st_Sdot st)) as [p|] eqn:E1;
      cbn [option_bind] in H; [|discriminate].
    destruct (c_translate k it p) as [c|] eqn:E2; cbn [option_bind] in H; [|discriminate].
    destruct (c_verify k it p c) as [[found cex]|] eqn:E3; cbn [option_bind] in H; [|discriminate].
    destruct (consolidator_get k it (second_certificate k cex) p cex) as [t|] eqn:E4;
      cbn [option_bind] in H; [|discriminate].
    exists p, c, found, cex, t. do 4 (split; [assumption || reflexivity|]).
    destruct found.
    - apply process_certificate_inv in H. destruct H as (H1 & H2 & H3 & H4). cbn [st_found st_params] in *.
      assert (Hs : st_params st' = p /\ st_V st' = Some c /\ st_timed_out st' = st_timed_out st /\
                   st_S st' = st_S st /\ st_Sdot st' = st_Sdot st).
      { destruct H2 as [->|[_ ->]]; repeat split; auto. }
      destruct Hs as (S1 & S2 & S3 & S4 & S5).
      refine (conj S1 (conj S2 (conj S3 (conj _ (conj _ (conj _ (conj _ (conj _ _)))))))).
      + intros Hf. apply H3 in Hf. tauto.
      + auto.
      + auto.
      + intros Hb. destruct H1 as [H1|H1]; [congruence|tauto].
      + intros Hb. destruct (st_found st') eqn:Ef; auto. destruct (H3 eq_refl) as (_ & _ & Eb & _). congruence.
      + intros Hb. destruct H1 as [H1|H1]; [congruence|tauto].
    - cbn [st_timed_out] in H.
      destruct (st_timed_out st) eqn:Et.
      { injection H as <- <-. repeat split; auto; try discriminate. }
      destruct (Z.eqb_spec (c_max_iters k) (Z.of_nat it)) as [Em|Em].
      { injection H as <- <-. repeat split; auto; try discriminate. }
      unfold process_cex in H. cbn [st_cex st_S st_trajectory st_params st_Sdot st_V st_found st_timed_out st_frozen] in H.
      destruct (if c_double k then Some cex else add_trajectory (st_S st) cex t) as [cex'|] eqn:E5;
        cbn [option_bind] in H; [|discriminate].
      destruct (add_ces_to_data k p (st_S st) (st_Sdot st) cex') as [[S1 Sd1]|] eqn:E6;
        cbn [option_bind] in H; [|discriminate].
      injection H as <- <-. cbn. repeat split; auto; try discriminate.
      intros _. exists cex'. auto.
  Qed.

  Lemma loop_visited p S : forall fuel it st itr st',
    visited k p S it st -> loop k fuel it st = Returned itr st' ->
    exists it' st1, visited k p S it' st1 /\ iterate k it' st1 = Some (true, st') /\ itr = it' + 1 /\ it <= it'.
  Proof.
    induction fuel as [|fuel IH]; intros it st itr st' Hv H; [discriminate|]. simpl in H.
    destruct (iterate k it st) as [[[|] st1]|] eqn:E; [| |discriminate].
    - injection H as <- <-. exists it, st. auto.
    - destruct (IH (it + 1) st1 itr st') as (it' & st2 & A & B & D & F); auto.
      + now apply (visited_next k p S it st).
      + exists it', st2. repeat split; auto. lia.
  Qed.

  Lemma visited_bound p S it st : visited k p S it st -> (0 <= c_max_iters k)%Z -> (Z.of_nat it <= c_max_iters k)%Z.
  Proof.
    induction 1 as [|it st st' Hv IH Hi]; intros Hm; [simpl; lia|].
    apply iterate_inv in Hi. destruct Hi as (? & ? & ? & ? & ? & _ & _ & _ & _ & _ & _ & _ & _ & _ & _ & Hn & _).
    specialize (Hn eq_refl). specialize (IH Hm). lia.
  Qed.
  Lemma visited_timed_out p S it st : visited k p S it st -> st_timed_out st = false.
  Proof.
    induction 1 as [|it st st' Hv IH Hi]; [reflexivity|].
    apply iterate_inv in Hi. destruct Hi as (? & ? & ? & ? & ? & _ & _ & _ & _ & _ & _ & Ht & _). congruence.
  Qed.

  Lemma loop_not_running p S : forall fuel it st,
    visited k p S it st -> (0 <= c_max_iters k)%Z -> (c_max_iters k < Z.of_nat it + Z.of_nat fuel)%Z ->
    loop k fuel it st <> Running.
  Proof.
    induction fuel as [|fuel IH]; intros it st Hv Hm Hf.
    - assert (B := visited_bound p S it st Hv Hm). lia.
    - simpl. destruct (iterate k it st) as [[[|] st1]|] eqn:E; try discriminate.
      apply IH; auto; [|lia]. now apply (visited_next k p S it st).
  Qed.
  Lemma loop_more : forall fuel fuel' it st, fuel <= fuel' -> loop k fuel it st <> Running ->
    loop k fuel' it st = loop k fuel it st.
  Proof.
    induction fuel as [|fuel IH]; intros fuel' it st Hf Hn; [now elim Hn|].
    destruct fuel' as [|fuel']; [lia|]. simpl in *.
    destruct (iterate k it st) as [[[|] st1]|] eqn:E; auto. apply IH; auto. lia.
  Qed.
End Loop.

(** * C31 *)
(** Whatever the components do, [solve] is over (returned or raised) after
    CEGIS_MAX_ITERS + 1 iterations; it never reports more iterations than that, and it
    reports failure only when the budget is used up. *)
Theorem C31_iteration_budget :
  forall P C (k : components P C) p S,
    (0 <= c_max_iters k)%Z ->
    let budget := Z.to_nat (c_max_iters k) + 1 in
    (forall fuel, budget <= fuel -> solve k fuel p S = solve k budget p S) /\
    solve k budget p S <> None /\
    forall fuel r, solve k fuel p S = Some (Some r) ->
      1 <= r_iters r <= budget /\ (r_res r = false -> r_iters r = budget).
Proof.
  intros P C k p S Hm budget.
  assert (Hn : loop k budget 0 (init_state k p S) <> Running).
  { apply (loop_not_running k p S); auto; [constructor|]. unfold budget. lia. }
  split; [|split].
  - intros fuel Hf. unfold solve. now rewrite (loop_more k budget fuel 0 (init_state k p S)).
  - unfold solve. destruct (loop k budget 0 (init_state k p S)); congruence.
  - intros fuel r Hr. unfold solve in Hr. destruct (loop k fuel 0 (init_state k p S)) as [| |itr st] eqn:E; try discriminate.
    injection Hr as <-.
    destruct (loop_visited k p S _ _ _ _ _ (visited_first k p S) E) as (it' & st1 & Hv & Hi & -> & _).
    assert (B := visited_bound k p S it' st1 Hv Hm). cbn [r_iters r_res make_result]. split; [unfold budget; lia|].
    intros Hf. assert (Ht := visited_timed_out k p S it' st1 Hv).
    apply iterate_inv in Hi. destruct Hi as (? & ? & ? & ? & ? & _ & _ & _ & _ & _ & _ & _ & _ & _ & Hb & _).
    specialize (Hb eq_refl Hf Ht). unfold budget. lia.
Qed.

(** *** Dictionaries *)
Lemma dlookup_dset {A} l l' (v : A) d :
  dlookup l (dset l' v d) = if label_eqb l' l then Some v else dlookup l d.
Proof.
  unfold dlookup. induction d as [|[m w] d IH]; simpl.
  - destruct (label_eqb l' l) eqn:E; reflexivity.
  - destruct (label_eqb m l') eqn:Em; simpl.
    + apply label_eqb_spec in Em. subst m. destruct (label_eqb l' l) eqn:E; reflexivity.
    + destruct (label_eqb m l) eqn:E2.
      * destruct (label_eqb l' l) eqn:E; [|reflexivity].
        apply label_eqb_spec in E2. apply label_eqb_spec in E. subst. rewrite label_eqb_refl in Em. discriminate.
      * exact IH.
Qed.
Lemma dset_keys {A} l (v : A) d : In l (keys d) -> keys (dset l v d) = keys d.
Proof.
  unfold keys. induction d as [|[m w] d IH]; simpl; intros H; [easy|].
  destruct (label_eqb m l) eqn:E; simpl; auto. f_equal. apply IH.
  destruct H as [->|H]; auto. rewrite label_eqb_refl in E. discriminate.
Qed.
Lemma dlookup_keys {A} l (d : list (label * A)) : In l (keys d) <-> dlookup l d <> None.
Proof.
  unfold dlookup, keys. induction d as [|[m w] d IH]; simpl; [intuition congruence|].
  destruct (label_eqb m l) eqn:E; simpl.
  - apply label_eqb_spec in E. intuition congruence.
  - rewrite <- IH. split; [|tauto]. intros [->|H]; auto. rewrite label_eqb_refl in E. discriminate.
Qed.
Lemma rows_dset l l' v d : rows l (dset l' v d) = if label_eqb l' l then v else rows l d.
Proof. unfold rows. rewrite dlookup_dset. now destruct (label_eqb l' l). Qed.
Lemma label_eqb_sym a b : label_eqb a b = label_eqb b a.
Proof. destruct a, b; reflexivity. Qed.
Lemma rows_not_key l (d : dict) : ~ In l (keys d) -> rows l d = [].
Proof.
  intros H. unfold rows. destruct (dlookup l d) eqn:E; auto. elim H. apply dlookup_keys. congruence.
Qed.
Lemma rows_cons l m r (d : dict) : rows l ((m, r) :: d) = if label_eqb m l then r else rows l d.
Proof. unfold rows, dlookup. simpl. destruct (label_eqb m l); reflexivity. Qed.

Section Data.
  Context {P C : Type} (k : components P C).

  Lemma add_ces_inv p cex : forall S Sdot S' Sd',
    NoDup (keys cex) -> keys Sdot = keys S ->
    add_ces_to_data k p S Sdot cex = Some (S', Sd') ->
    keys S' = keys S /\ keys Sd' = keys S /\
    (forall l, rows l S' = rows l S ++ rows l cex) /\
    (forall l, rows l cex = [] -> rows l Sd' = rows l Sdot) /\
    (forall l, rows l cex <> [] -> rows l Sd' = map (c_f k p) (rows l S')).
  Proof.
    induction cex as [|[m r] cex IH]; intros S Sdot S' Sd' Hnd Hk H.
    - simpl in H. injection H as <- <-. repeat split; auto.
      + intros l. now rewrite app_nil_r.
      + intros l Hl. now elim Hl.
    - unfold keys in Hnd. simpl in Hnd. apply NoDup_cons_iff in Hnd. destruct Hnd as [Hm Hnd].
      destruct r as [|x r].
      + simpl in H. destruct (IH _ _ _ _ Hnd Hk H) as (A & B & D & E & F).
        assert (Er : forall l, rows l ((m, []) :: cex) = rows l cex).
        { intros l. rewrite rows_cons. destruct (label_eqb m l) eqn:El; auto.
          apply label_eqb_spec in El. subst l. symmetry. now apply rows_not_key. }
        repeat split; auto; intros l; rewrite Er; auto.
      + cbn [add_ces_to_data] in H. destruct (dlookup m S) as [old|] eqn:Eo; [|discriminate].
        assert (Hin : In m (keys S)) by (apply dlookup_keys; congruence).
        assert (Hk2 : keys (dset m (map (c_f k p) (old ++ x :: r)) Sdot) = keys (dset m (old ++ x :: r) S)).
        { rewrite !dset_keys; auto. now rewrite Hk. }
        destruct (IH _ _ _ _ Hnd Hk2 H) as (A & B & D & E & F).
        rewrite dset_keys in A, B by auto.
        assert (Hrm : rows m cex = []) by now apply rows_not_key.
        assert (Hold : rows m S = old) by (unfold rows; now rewrite Eo).
        split; [exact A|]. split; [exact B|]. split; [|split].
        * intros l. rewrite D, rows_dset, rows_cons. destruct (label_eqb m l) eqn:El; auto.
          apply label_eqb_spec in El. subst l. rewrite Hrm, app_nil_r. now rewrite Hold.
        * intros l. rewrite rows_cons. destruct (label_eqb m l) eqn:El; [discriminate|].
          intros Hl. rewrite E by auto. rewrite rows_dset, El. reflexivity.
        * intros l. rewrite rows_cons. destruct (label_eqb m l) eqn:El.
          -- intros _. apply label_eqb_spec in El. subst l. rewrite E, D by auto. rewrite !rows_dset, label_eqb_refl.
             now rewrite Hrm, app_nil_r.
          -- intros Hl. apply F. auto.
  Qed.

  Lemma add_trajectory_inv S cex t cex' :
    add_trajectory S cex t = Some cex' ->
    keys cex' = keys cex /\ (forall l, rows l cex' = rows l cex ++ (if label_eqb XD l then t else [])).
  Proof.
    unfold add_trajectory. intros H. destruct t as [|x t].
    - injection H as <-. split; auto. intros l. destruct (label_eqb XD l); now rewrite app_nil_r.
    - destruct (has_key XD S); [|discriminate]. destruct (dlookup XD cex) as [r|] eqn:E; [|discriminate].
      injection H as <-. split; [apply dset_keys; apply dlookup_keys; congruence|].
      intros l. rewrite rows_dset. destruct (label_eqb XD l) eqn:El; [|now rewrite app_nil_r].
      apply label_eqb_spec in El. subst l. unfold rows. now rewrite E.
  Qed.

  Lemma consolidator_inv it b p cex t :
    NoDup (keys cex) -> consolidator_get k it b p cex = Some t ->
    (rows XD cex = [] -> t = []) /\
    (forall x, rows XD cex <> [] -> c_trajectory k it b p (last (rows XD cex) x) = Some t).
  Proof.
    induction cex as [|[m r] cex IH]; intros Hnd H.
    - simpl in H. injection H as <-. split; auto. intros x Hx. now elim Hx.
    - unfold keys in Hnd. simpl in Hnd. apply NoDup_cons_iff in Hnd. destruct Hnd as [Hm Hnd].
      simpl in H. rewrite rows_cons. destruct (label_eqb m XD) eqn:E.
      + apply label_eqb_spec in E. subst m. destruct (rev r) as [|y rr] eqn:Er.
        * assert (r = []) by (rewrite <- (rev_involutive r), Er; reflexivity). subst r.
          destruct (IH Hnd H) as [A B]. split; [|intros x Hx; now elim Hx]. intros _. apply A. now apply rows_not_key.
        * assert (Hr : r = rev rr ++ [y]) by (rewrite <- (rev_involutive r), Er; reflexivity).
          split; [intros E; rewrite E in Hr; now destruct (rev rr)|]. intros x _. rewrite Hr, last_last. exact H.
      + now apply IH.
  Qed.

  Lemma visited_fun p S it st st' : visited k p S it st -> visited k p S it st' -> st = st'.
  Proof.
    intros H. revert st'. induction H as [|it st st1 Hv IH Hi]; intros st' H'.
    - inversion H'; subst; auto. lia.
    - inversion H' as [|it' st0 st2 Hv' Hi' E]; [lia|]. subst st2. assert (it' = it) by lia. subst it'.
      rewrite (IH _ Hv') in Hi. congruence.
  Qed.

  Lemma rows_map_f (f : point -> point) l (S : dict) :
    rows l (map (fun e => (fst e, map f (snd e))) S) = map f (rows l S).
  Proof.
    induction S as [|[m r] S IH]; [reflexivity|]. cbn [map fst snd]. rewrite !rows_cons, IH.
    now destruct (label_eqb m l).
  Qed.

  (** One unsuccessful iteration, as seen in the data. *)
  Lemma iterate_data p S it st st' :
    cex_labels_ok k S -> visited k p S it st -> keys (st_Sdot st) = keys (st_S st) ->
    iterate k it st = Some (false, st') ->
    exists q c found cex t,
      c_learn k it (st_frozen st) (st_params st) (st_S st) (st_Sdot st) = Some q /\
      c_translate k it q = Some c /\ c_verify k it q c = Some (found, cex) /\ st_params st' = q /\
      ((rows XD cex = [] -> t = []) /\
      (forall x, rows XD cex <> [] ->
          c_trajectory k it (second_certificate k cex) q (last (rows XD cex) x) = Some t)) /\
      keys (st_S st') = keys (st_S st) /\ keys (st_Sdot st') = keys (st_S st) /\
      forall l, let new := if found then [] else rows l cex ++ (if label_eqb XD l && negb (c_double k) then t else []) in
        rows l (st_S st') = rows l (st_S st) ++ new /\
      (new = [] -> rows l (st_Sdot st') = rows l (st_Sdot st)) /\
      (new <> [] -> rows l (st_Sdot st') = map (c_f k q) (rows l (st_S st'))).
  Proof.
    intros Hc Hv Hk Hi. apply iterate_inv in Hi.
    destruct Hi as (q & c & found & cex & t & H1 & H2 & H3 & H4 & H5 & _ & _ & _ & _ & _ & _ & _ & H).
    specialize (H eq_refl). destruct (Hc _ _ _ _ _ H3) as [Hnd _].
    exists q, c, found, cex, t. do 4 (split; [assumption|]). split; [now apply (consolidator_inv it _ q cex t)|].
    destruct found.
    - destruct H as (_ & -> & ->). do 2 (split; [congruence|]). intros l. cbv zeta. rewrite app_nil_r. repeat split; auto. congruence.
    - destruct H as (cex' & Hx & Ha).
      assert (Hcex : keys cex' = keys cex /\
        forall l, rows l cex' = rows l cex ++ (if label_eqb XD l && negb (c_double k) then t else [])).
      { destruct (c_double k).
        - injection Hx as <-. split; auto. intros l. now rewrite andb_false_r, app_nil_r.
        - destruct (add_trajectory_inv _ _ _ _ Hx) as [A B]. split; auto. intros l. now rewrite andb_true_r, B. }
      destruct Hcex as [Kx Rx]. rewrite <- Kx in Hnd.
      destruct (add_ces_inv q cex' _ _ _ _ Hnd Hk Ha) as (A & B & D & E & F).
      split; [exact A|]. split; [congruence|]. intros l. cbv zeta. rewrite <- Rx. repeat split; auto.
  Qed.

  (** The data invariant. *)
  Lemma visited_data p S it st : cex_labels_ok k S -> visited k p S it st ->
    keys (st_S st) = keys S /\ keys (st_Sdot st) = keys S /\
    (forall l, prefix (rows l S) (rows l (st_S st))) /\
    (forall l, exists q, rows l (st_Sdot st) = map (c_f k q) (rows l (st_S st))).
  Proof.
    intros Hc. induction 1 as [|it st st' Hv IH Hi].
    - simpl. split; [reflexivity|]. split; [unfold keys; now rewrite map_map|]. split.
      + intros l. exists []. now rewrite app_nil_r.
      + intros l. exists p. apply rows_map_f.
    - destruct IH as (A & B & D & E).
      destruct (iterate_data p S it st st' Hc Hv ltac:(congruence) Hi)
        as (q & c & found & cex & t & _ & _ & _ & _ & _ & K1 & K2 & HR).
      split; [congruence|]. split; [congruence|]. split; intros l; destruct (HR l) as (R1 & R2 & R3).
      + destruct (D l) as [z Hz]. rewrite R1, Hz. eexists. now rewrite <- app_assoc.
      + destruct (if found then [] else _) as [|y ys].
        * rewrite app_nil_r in R1. rewrite R1, R2 by auto. apply E.
        * exists q. apply R3. discriminate.
  Qed.
  Lemma visited_data_const p S it st : cex_labels_ok k S -> visited k p S it st ->
    (forall p q x, c_f k p x = c_f k q x) ->
    forall l, rows l (st_Sdot st) = map (c_f k p) (rows l (st_S st)).
  Proof.
    intros Hc Hv Hf l. destruct (visited_data p S it st Hc Hv) as (_ & _ & _ & E). destruct (E l) as [q ->].
    apply map_ext. intros x. apply Hf.
  Qed.
  Lemma visited_prefix p S i j st st' : cex_labels_ok k S -> i <= j ->
    visited k p S i st -> visited k p S j st' -> forall l, prefix (rows l (st_S st)) (rows l (st_S st')).
  Proof.
    intros Hc Hij Hi Hj. revert i st Hij Hi. induction Hj as [|j st1 st2 Hv IH Hit]; intros i st Hij Hi l.
    - assert (i = 0) by lia. subst i. rewrite (visited_fun p S 0 st _ Hi (visited_first k p S)).
      exists []. now rewrite app_nil_r.
    - destruct (Nat.eq_dec i (j + 1)) as [->|Hne].
      + rewrite (visited_fun p S (j + 1) st st2 Hi); [exists []; now rewrite app_nil_r|].
        now apply (visited_next k p S j st1).
      + destruct (IH i st ltac:(lia) Hi l) as [z Hz].
        destruct (visited_data p S j st1 Hc Hv) as (A & B & _).
        destruct (iterate_data p S j st1 st2 Hc Hv ltac:(congruence) Hit)
          as (q & c & found & cex & t & _ & _ & _ & _ & _ & _ & _ & HR).
        destruct (HR l) as (R1 & _). rewrite R1, Hz. eexists. now rewrite <- app_assoc.
  Qed.
End Data.

(** Nothing raises in one pass. *)
Definition pass_returns {P C} (k : components P C) (it : nat) (st : cstate (P := P) (C := C)) : Prop :=
  exists q c, c_learn k it (st_frozen st) (st_params st) (st_S st) (st_Sdot st) = Some q /\ c_translate k it q = Some c /\
    c_verify k it q c <> None /\ (forall b x, c_trajectory k it b q x <> None) /\
    (c_type k = RSWS -> c_stay k it q c <> None) /\ (c_type k = LYAPUNOV \/ c_type k = ROA -> c_estimate_beta k it q <> None).
Lemma pass_iterates {P C} (k : components P C) p S it st :
  pass_returns k it st -> cex_labels_ok k S -> visited k p S it st -> iterate k it st <> None.
Proof.
  intros (q & c & E1 & E2 & R3 & R4 & R5 & R6) Hc.
    intros Hv. destruct (visited_data k p S it st Hc Hv) as (K1 & K2 & _).
    unfold iterate. rewrite E1. cbn [option_bind]. rewrite E2. cbn [option_bind].
    destruct (c_verify k it q c) as [[found cex]|] eqn:E3; cbn [option_bind]; [|now elim R3].
    destruct (Hc _ _ _ _ _ E3) as [Hnd Hl].
    assert (HC : forall b, consolidator_get k it b q cex <> None).
    { clear - R4. intros b. induction cex as [|[m r] cex IH]; simpl; [discriminate|].
      destruct (label_eqb m XD); auto. destruct (rev r); auto. }
    destruct (consolidator_get k it (second_certificate k cex) q cex) as [t|] eqn:E4;
      cbn [option_bind]; [|now elim (HC _ E4)].
    destruct (consolidator_inv k it _ q cex t Hnd E4) as [T1 T2].
    destruct found.
    - unfold process_certificate.
      assert (HB : (if cert_eqb (c_type k) LYAPUNOV || cert_eqb (c_type k) ROA then c_estimate_beta k it q else Some tt) <> None).
      { destruct (c_type k) eqn:Et; cbn [cert_eqb orb]; try discriminate; apply R6; auto. }
      cbn [st_params].
      destruct (if cert_eqb (c_type k) LYAPUNOV || cert_eqb (c_type k) ROA then c_estimate_beta k it q else Some tt) as [u|];
        [|now elim HB]. cbn [option_bind].
      destruct (cert_eqb (c_type k) RSWS) eqn:Et; [|discriminate].
      destruct (c_stay k it q c) as [[|]|] eqn:E5; cbn [option_bind]; try discriminate. elim R5; [|reflexivity]. now destruct (c_type k).
    - cbn [st_timed_out]. destruct (st_timed_out st); [discriminate|].
      destruct (c_max_iters k =? Z.of_nat it)%Z; [discriminate|].
      unfold process_cex. cbn [st_cex st_S st_trajectory st_params st_Sdot st_V st_found st_timed_out st_frozen].
      assert (HT : exists cex', (if c_double k then Some cex else add_trajectory (st_S st) cex t) = Some cex' /\
                 NoDup (keys cex') /\ forall l, rows l cex' <> [] -> In l (keys S)).
      { destruct (c_double k); [exists cex; auto|].
        destruct t as [|y t]; [exists cex; auto|].
        assert (Hx : rows XD cex <> []) by (intros E; now specialize (T1 E)).
        unfold add_trajectory. unfold has_key.
        assert (HS : dlookup XD (st_S st) <> None) by (apply dlookup_keys; rewrite K1; now apply Hl).
        destruct (dlookup XD (st_S st)) as [rs|]; [|now elim HS].
        destruct (dlookup XD cex) as [r|] eqn:Ex; [|unfold rows in Hx; now rewrite Ex in Hx].
        eexists. split; [reflexivity|]. split; [rewrite dset_keys; auto; apply dlookup_keys; congruence|].
        intros l. rewrite rows_dset. destruct (label_eqb XD l) eqn:El; [|apply Hl].
        apply label_eqb_spec in El. subst l. intros _. now apply Hl. }
      destruct HT as (cex' & -> & Hnd' & Hl'). cbn [option_bind].
      assert (HA : forall S1 Sd, keys S1 = keys S -> (forall l r, In (l, r) cex' -> r <> [] -> In l (keys S)) ->
                 add_ces_to_data k q S1 Sd cex' <> None).
      { clear. induction cex' as [|[m r] cx IH]; intros S1 Sd K1 Hl; simpl; [discriminate|].
        destruct r as [|x r]; [apply IH; auto; intros; eapply Hl; [right; eauto|auto]|].
        assert (HS : In m (keys S1)) by (rewrite K1; apply (Hl m (x :: r)); [now left|discriminate]).
        assert (HS' := HS). apply dlookup_keys in HS'. destruct (dlookup m S1) as [rs|]; [|now elim HS'].
        apply IH; [now rewrite dset_keys|]. intros; eapply Hl; [right; eauto|auto]. }
      destruct (add_ces_to_data k q (st_S st) (st_Sdot st) cex') as [[S1 Sd1]|] eqn:E6; cbn [option_bind]; [discriminate|].
      exfalso. refine (HA _ _ K1 _ E6). intros m r Hr Hne. apply Hl'. unfold rows.
      now rewrite (dlookup_In m r cex') by auto.
Qed.

Lemma iterate_returns {P C} (k : components P C) p S it st :
  components_return k -> cex_labels_ok k S -> visited k p S it st -> iterate k it st <> None.
Proof.
  intros (R1 & R2 & R3 & R4 & R5 & R6) Hc Hv. apply (pass_iterates k p S); auto.
  destruct (c_learn k it (st_frozen st) (st_params st) (st_S st) (st_Sdot st)) as [q|] eqn:E1; [|now elim (R1 _ _ _ _ _ E1)].
  destruct (c_translate k it q) as [c|] eqn:E2; [|now elim (R2 _ _ E2)].
  exists q, c. repeat split; auto.
Qed.
Lemma passes_return {P C} (k : components P C) p S :
  (0 <= c_max_iters k)%Z -> cex_labels_ok k S -> (forall it st, visited k p S it st -> pass_returns k it st) ->
  exists r, solve k (Z.to_nat (c_max_iters k) + 1) p S = Some (Some r).
Proof.
  intros Hm Hc Hret.
  assert (Hit : forall it st, visited k p S it st -> iterate k it st <> None).
  { intros it st Hv. apply (pass_iterates k p S); auto. }
  assert (Hn : solve k (Z.to_nat (c_max_iters k) + 1) p S <> None) by now apply C31_iteration_budget.
  unfold solve in *. revert Hn. generalize (Z.to_nat (c_max_iters k) + 1). intros fuel Hn.
  assert (Hl : forall fuel it st, visited k p S it st -> loop k fuel it st <> Raised).
  { clear fuel Hn. induction fuel as [|fuel IH]; intros it st Hv; simpl; [discriminate|].
    specialize (Hit it st Hv). destruct (iterate k it st) as [[[|] st']|] eqn:E; [discriminate| |now elim Hit].
    apply IH. now apply (visited_next k p S it st). }
  specialize (Hl fuel 0 _ (visited_first k p S)).
  destruct (loop k fuel 0 (init_state k p S)) as [| |it st]; [now elim Hn|now elim Hl|]. eauto.
Qed.

(** If no component raises and counterexamples carry labels of data sets, [solve] does
    not raise either: with a non-negative budget it returns a result. *)
Theorem C31_returns_a_result :
  forall P C (k : components P C) p S,
    (0 <= c_max_iters k)%Z -> components_return k -> cex_labels_ok k S ->
    exists r, solve k (Z.to_nat (c_max_iters k) + 1) p S = Some (Some r).
Proof.
  intros P C k p S Hm (R1 & R2 & R3 & R4 & R5 & R6) Hc. apply passes_return; auto. intros it st Hv.
  destruct (c_learn k it (st_frozen st) (st_params st) (st_S st) (st_Sdot st)) as [q|] eqn:E1; [|now elim (R1 _ _ _ _ _ E1)].
  destruct (c_translate k it q) as [c|] eqn:E2; [|now elim (R2 _ _ E2)].
  exists q, c. repeat split; auto.
Qed.

(** Violation: the budget is compared with [==], so a negative CEGIS_MAX_ITERS means
    that an unsuccessful search never ends, whatever the time limits. *)
Theorem C31_negative_budget_runs_forever :
  forall P C (k : components P C) p S,
    (c_max_iters k < 0)%Z -> components_return k -> cex_labels_ok k S ->
    (forall it q c found cex, c_verify k it q c = Some (found, cex) -> found = false) ->
    forall fuel, solve k fuel p S = None.
Proof.
  intros P C k p S Hm Hret Hc Hno fuel.
  assert (Hru : forall n it st, visited k p S it st -> loop k n it st = Running).
  { induction n as [|n IH]; intros it st Hvi; [reflexivity|]. simpl.
    destruct (iterate k it st) as [[b st']|] eqn:E.
    - assert (Eb := E). apply iterate_inv in Eb.
      destruct Eb as (q & c & found & cex & t & _ & _ & V3 & _ & _ & _ & _ & Hf & _ & Hb & _).
      apply Hno in V3 as ->.
      destruct b.
      + exfalso. assert (Ht := visited_timed_out k p S it st Hvi).
        assert (Hff : st_found st' = false). { destruct (st_found st'); auto. destruct Hf as [Hf _]; auto. }
        specialize (Hb eq_refl Hff Ht). lia.
      + apply IH. now apply (visited_next k p S it st).
    - now elim (iterate_returns k p S it st Hret Hc Hvi). }
  unfold solve. rewrite Hru; auto. constructor.
Qed.

(** * C32: what a positive result means. *)
Theorem C32_result_was_verified :
  forall P C (k : components P C) p S fuel r,
    solve k fuel p S = Some (Some r) -> r_res r = true ->
    exists it c cex,
      r_iters r = it + 1 /\ r_symbolic r = Some c /\
      (* the symbolic certificate is the translation of the returned network and dynamics *)
      c_translate k it (r_learned r) = Some c /\
      (* and was verified in the last iteration *)
      c_verify k it (r_learned r) c = Some (true, cex) /\
      (c_type k = RSWS -> c_stay k it (r_learned r) c = Some true) /\
      (* the returned network is the outcome of that iteration's training *)
      exists st, visited k p S it st /\
        c_learn k it (st_frozen st) (st_params st) (st_S st) (st_Sdot st) = Some (r_learned r).
Proof.
  intros P C k p S fuel r Hr Hres. unfold solve in Hr.
  destruct (loop k fuel 0 (init_state k p S)) as [| |itr st'] eqn:E; try discriminate. injection Hr as <-.
  destruct (loop_visited k p S _ _ _ _ _ (visited_first k p S) E) as (it & st & Hv & Hi & -> & _).
  apply iterate_inv in Hi.
  destruct Hi as (q & c & found & cex & t & H1 & H2 & H3 & _ & H5 & H6 & _ & Hf & _).
  cbn [r_res r_iters r_symbolic r_learned make_result] in *. destruct (Hf Hres) as (-> & _ & Hs). rewrite H5.
  exists it, c, cex. repeat split; auto. exists st. auto.
Qed.

(** Conversely a verified candidate is not thrown away: the run stops at the first
    iteration whose verification succeeds (for RSWS: with a successful stay check). *)
Theorem C32_first_success_is_returned :
  forall P C (k : components P C) p S it st q c cex,
    visited k p S it st -> components_return k -> cex_labels_ok k S ->
    c_learn k it (st_frozen st) (st_params st) (st_S st) (st_Sdot st) = Some q ->
    c_translate k it q = Some c -> c_verify k it q c = Some (true, cex) ->
    (c_type k = RSWS -> c_stay k it q c = Some true) ->
    exists r, solve k (it + 1) p S = Some (Some r) /\ r_res r = true /\ r_symbolic r = Some c /\ r_learned r = q.
Proof.
  intros P C k p S it st q c cex Hv Hret Hc H1 H2 H3 Hs.
  assert (Hi : exists st', iterate k it st = Some (true, st') /\ st_found st' = true).
  { assert (Hn := iterate_returns k p S it st Hret Hc Hv). destruct (iterate k it st) as [[b st']|] eqn:E; [|now elim Hn].
    exists st'. revert E. unfold iterate. rewrite H1. cbn [option_bind]. rewrite H2. cbn [option_bind]. rewrite H3. cbn [option_bind].
    destruct (consolidator_get k it (second_certificate k cex) q cex) as [t|]; cbn [option_bind]; [|discriminate].
    unfold process_certificate.
    destruct (if cert_eqb (c_type k) LYAPUNOV || cert_eqb (c_type k) ROA then _ else _); cbn [option_bind]; [|discriminate].
    destruct (cert_eqb (c_type k) RSWS) eqn:Et.
    - cbn [st_params]. rewrite Hs by (destruct (c_type k); easy). cbn [option_bind]. intros E. injection E as <- <-. auto.
    - intros E. injection E as <- <-. auto. }
  destruct Hi as (st' & Hi & Hf).
  assert (Hl : forall j stj, visited k p S j stj -> forall n, loop k (j + n) 0 (init_state k p S) = loop k n j stj).
  { induction 1 as [|j s s' Hvj IH Hij]; intros n; [reflexivity|].
    replace (j + 1 + n) with (j + Datatypes.S n) by lia. rewrite IH. simpl. now rewrite Hij. }
  unfold solve. rewrite (Hl it st Hv 1). simpl. rewrite Hi. eexists. split; [reflexivity|].
  assert (Hi' := Hi). apply iterate_inv in Hi'.
  destruct Hi' as (q' & c' & found & cex' & t & E1 & E2 & _ & _ & E5 & E6 & _).
  rewrite H1 in E1. injection E1 as <-. rewrite H2 in E2. injection E2 as <-. cbn. auto.
Qed.

(** Violation: RSWA is treated like RSWS everywhere except here: its result is positive
    without any stay check. *)
Theorem C32_rswa_skips_stay :
  forall P C (k : components P C) p S it st q c cex,
    c_type k = RSWA ->
    visited k p S it st -> components_return k -> cex_labels_ok k S ->
    c_learn k it (st_frozen st) (st_params st) (st_S st) (st_Sdot st) = Some q ->
    c_translate k it q = Some c -> c_verify k it q c = Some (true, cex) ->
    (* even if the stay check would fail *)
    c_stay k it q c = Some false ->
    exists r, solve k (it + 1) p S = Some (Some r) /\ r_res r = true.
Proof.
  intros P C k p S it st q c cex Ht Hv Hret Hc H1 H2 H3 _.
  destruct (C32_first_success_is_returned P C k p S it st q c cex) as (r & A & B & _); auto; [congruence|]. eauto.
Qed.

(** * C33: the training data. *)
Theorem C33_data_only_grows :
  forall P C (k : components P C) p S, cex_labels_ok k S ->
    forall it st, visited k p S it st ->
      (* same labels *)
      keys (st_S st) = keys S /\ keys (st_Sdot st) = keys S /\
      (* earlier samples stay, in place *)
      (forall j st', it <= j -> visited k p S j st' -> forall l, prefix (rows l (st_S st)) (rows l (st_S st'))) /\
      (* one derivative per sample *)
      (forall l, length (rows l (st_Sdot st)) = length (rows l (st_S st))) /\
      (* the value of the dynamics at the sample, if they have no learned part *)
      ((forall q q' x, c_f k q x = c_f k q' x) ->
         forall l, rows l (st_Sdot st) = map (c_f k p) (rows l (st_S st))).
Proof.
  intros P C k p S Hc it st Hv. destruct (visited_data k p S it st Hc Hv) as (A & B & D & E).
  split; [exact A|]. split; [exact B|]. split; [|split].
  - intros j st' Hj Hv'. now apply (visited_prefix k p S it j).
  - intros l. destruct (E l) as [q ->]. apply map_length.
  - intros Hf. now apply (visited_data_const k p S it).
Qed.

(** What an unsuccessful iteration adds: exactly the reported counterexamples, and for
    the domain also the trajectory computed from the last of them. *)
Theorem C33_counterexamples_are_added :
  forall P C (k : components P C) p S, cex_labels_ok k S ->
    forall it st st', visited k p S it st -> visited k p S (it + 1) st' ->
    exists q c found cex t,
      c_learn k it (st_frozen st) (st_params st) (st_S st) (st_Sdot st) = Some q /\
      c_translate k it q = Some c /\ c_verify k it q c = Some (found, cex) /\ st_params st' = q /\
      (rows XD cex = [] -> t = []) /\
      (forall x, rows XD cex <> [] ->
         c_trajectory k it (second_certificate k cex) q (last (rows XD cex) x) = Some t) /\
      (* a verified candidate whose stay check failed adds nothing *)
      (found = true -> c_type k = RSWS /\ forall l, rows l (st_S st') = rows l (st_S st)) /\
      (found = false -> forall l,
         rows l (st_S st') = rows l (st_S st) ++ rows l cex ++ (if label_eqb l XD && negb (c_double k) then t else [])).
Proof.
  intros P C k p S Hc it st st' Hv Hv'. inversion Hv' as [|it' st0 st2 Hv0 Hi E]; [lia|]. subst st2.
  assert (it' = it) by lia. subst it'. rewrite (visited_fun k p S it st0 st Hv0 Hv) in *. clear Hv0 E.
  destruct (visited_data k p S it st Hc Hv) as (A & B & _).
  destruct (iterate_data k p S it st st' Hc Hv ltac:(congruence) Hi)
    as (q & c & found & cex & t & H1 & H2 & H3 & H4 & [T1 T2] & _ & _ & HR).
  exists q, c, found, cex, t. do 6 (split; [assumption|]). split.
  - intros ->. split.
    + apply iterate_inv in Hi. destruct Hi as (q' & c' & f' & cex' & t' & E1 & E2 & E3 & _ & _ & _ & _ & _ & _ & _ & _ & _ & Hb).
      rewrite H1 in E1. injection E1 as <-. rewrite H2 in E2. injection E2 as <-. rewrite H3 in E3. injection E3 as <- <-.
      now destruct (Hb eq_refl).
    + intros l. destruct (HR l) as [R _]. now rewrite app_nil_r in R.
  - intros -> l. destruct (HR l) as [R _]. rewrite R. now rewrite (label_eqb_sym l XD).
Qed.

Lemma total_rows (d d' : dict) : NoDup (keys d) -> keys d' = keys d ->
  (forall l, length (rows l d) <= length (rows l d')) -> total d <= total d'.
Proof.
  revert d'. induction d as [|[m r] d IH]; intros [|[m' r'] d'] Hnd Hk Hl; unfold total; simpl; try discriminate; [lia|].
  unfold keys in Hnd, Hk. simpl in Hnd, Hk. injection Hk as -> Hk. apply NoDup_cons_iff in Hnd. destruct Hnd as [Hm Hnd].
  assert (H1 := Hl m). rewrite !rows_cons, label_eqb_refl in H1.
  assert (H2 : total d <= total d'); [|unfold total in H2; lia].
  apply IH; auto. intros l. specialize (Hl l). rewrite !rows_cons in Hl.
  destruct (label_eqb m l) eqn:E; auto. apply label_eqb_spec in E. subst l.
  rewrite (rows_not_key m d) by auto. simpl. lia.
Qed.

(** The reported number of samples is the size of the data set the learner saw last;
    no initial sample is lost. *)
Theorem C33_reported_sample_count :
  forall P C (k : components P C) p S fuel r, cex_labels_ok k S -> NoDup (keys S) ->
    solve k fuel p S = Some (Some r) ->
    exists it st, r_iters r = it + 1 /\ visited k p S it st /\ r_N_data r = total (st_S st) /\
      total S <= r_N_data r.
Proof.
  intros P C k p S fuel r Hc Hnd Hr. unfold solve in Hr.
  destruct (loop k fuel 0 (init_state k p S)) as [| |itr st'] eqn:E; try discriminate. injection Hr as <-.
  destruct (loop_visited k p S _ _ _ _ _ (visited_first k p S) E) as (it & st & Hv & Hi & -> & _).
  exists it, st. cbn [r_iters r_N_data make_result]. apply iterate_inv in Hi.
  destruct Hi as (q & c & found & cex & t & _ & _ & _ & _ & _ & _ & _ & _ & Hs & _).
  destruct (Hs eq_refl) as [-> _]. change (fold_right plus O (map (fun e => length (snd e)) (st_S st))) with (total (st_S st)).
  repeat split; auto. destruct (visited_data k p S it st Hc Hv) as (A & _ & B & _).
  apply total_rows; auto. intros l. destruct (B l) as [z ->]. rewrite app_length. lia.
Qed.
