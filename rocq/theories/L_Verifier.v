(** Lemmas about the verifier model. *)
From Coq Require Import Reals List Arith Bool Lia.
From Verif Require Import M_Syntax M_Certificates M_Verifier S_Verifier.
Import ListNotations.

Arguments randomise_counterex : simpl never.

Lemma label_eqb_spec a b : label_eqb a b = true <-> a = b.
Proof. destruct a, b; simpl; split; congruence. Qed.

Lemma label_eqb_refl a : label_eqb a a = true.
Proof. now apply label_eqb_spec. Qed.

Lemma dset_fresh {A} l (v : A) d :
  ~ In l (map fst d) -> dset l v d = d ++ [(l, v)].
Proof.
  induction d as [|[l' v'] d IH]; simpl; intros H; [reflexivity|].
  destruct (label_eqb l' l) eqn:E.
  - apply label_eqb_spec in E. subst. exfalso; apply H; now left.
  - rewrite IH; [reflexivity|]. intros Hin; apply H; now right.
Qed.

Lemma dlookup_app_r {A} l (d1 d2 : list (label * A)) :
  ~ In l (map fst d1) -> dlookup l (d1 ++ d2) = dlookup l d2.
Proof.
  unfold dlookup. intros H.
  induction d1 as [|[l' v'] d IH]; simpl; [reflexivity|].
  destruct (label_eqb l' l) eqn:E.
  - apply label_eqb_spec in E. subst. exfalso; apply H; now left.
  - apply IH. intros Hin; apply H; now right.
Qed.

Lemma dlookup_In {A} l (v : A) d :
  NoDup (map fst d) -> In (l, v) d -> dlookup l d = Some v.
Proof.
  unfold dlookup.
  induction d as [|[l' v'] d IH]; simpl; intros Hnd Hin; [easy|].
  inversion Hnd as [|? ? Hni Hnd']; subst.
  destruct (label_eqb l' l) eqn:E.
  - apply label_eqb_spec in E. subst. destruct Hin as [Hin|Hin]; [now inversion Hin|].
    exfalso. apply Hni. apply in_map_iff. now exists (l, v).
  - apply IH; auto. destruct Hin as [Hin|Hin]; auto.
    inversion Hin; subst. now rewrite label_eqb_refl in E.
Qed.

Section Generic.
  Context (be : backend).

  Fixpoint answers (k : nat) (g : group) : list (label * b_res be) :=
    match g with
    | [] => []
    | (l, c) :: g' => (l, b_solve be k c) :: answers (S k) g'
    end.

  Lemma answers_fst k g : map fst (answers k g) = map fst g.
  Proof. revert k; induction g as [|[l c] g IH]; intros k; simpl; [auto|now rewrite IH]. Qed.

  Lemma answers_app k g1 g2 :
    answers k (g1 ++ g2) = answers k g1 ++ answers (k + length g1) g2.
  Proof.
    revert k; induction g1 as [|[l c] g IH]; intros k; simpl.
    - now rewrite Nat.add_0_r.
    - rewrite IH. f_equal. f_equal. f_equal. lia.
  Qed.

  Lemma answers_nth k g j l c :
    nth_error g j = Some (l, c) ->
    nth_error (answers k g) j = Some (l, b_solve be (k + j) c).
  Proof.
    revert k j; induction g as [|[l' c'] g IH]; intros k j H.
    - destruct j; discriminate.
    - destruct j; simpl in *.
      + inversion H; subst. now rewrite Nat.add_0_r.
      + rewrite (IH (S k) j H). do 3 f_equal. lia.
  Qed.

  Lemma answers_In k g l r :
    In (l, r) (answers k g) ->
    exists j c, nth_error g j = Some (l, c) /\ r = b_solve be (k + j) c.
  Proof.
    revert k; induction g as [|[l' c'] g IH]; intros k; simpl; [easy|].
    intros [H|H].
    - inversion H; subst. exists 0, c'. split; auto. f_equal. lia.
    - destruct (IH _ H) as (j & c & H1 & H2). exists (S j), c. split; auto.
      rewrite H2. f_equal. lia.
  Qed.

  Lemma run_group_spec k g res :
    NoDup (map fst res ++ map fst g) ->
    run_group be k g res = (k + length g, res ++ answers k g).
  Proof.
    revert k res; induction g as [|[l c] g IH]; intros k res Hnd; simpl.
    - now rewrite app_nil_r, Nat.add_0_r.
    - simpl in Hnd.
      assert (Hfresh : ~ In l (map fst res)).
      { intros Hin. apply NoDup_remove_2 in Hnd. apply Hnd. apply in_or_app. now left. }
      rewrite dset_fresh by assumption.
      rewrite IH.
      + f_equal; [lia|]. now rewrite <- app_assoc.
      + rewrite map_app. simpl. rewrite <- app_assoc. exact Hnd.
  Qed.

  (** The groups evaluated are a prefix, as described. *)
  Lemma run_groups_spec gs : forall k res,
    NoDup (map fst res ++ map fst (concat gs)) ->
    any_sat be res = false ->
    exists m,
      m <= length gs /\
      snd (run_groups be k gs res) = res ++ answers k (concat (firstn m gs)) /\
      (forall i, i < m -> any_sat be (answers k (concat (firstn i gs))) = false) /\
      (m < length gs -> any_sat be (answers k (concat (firstn m gs))) = true).
  Proof.
    induction gs as [|g gs IH]; intros k res Hnd Hres.
    - exists 0. simpl. rewrite app_nil_r. repeat split; auto; try lia.
    - simpl run_groups.
      simpl in Hnd. rewrite map_app in Hnd.
      assert (Hnd1 : NoDup (map fst res ++ map fst g)).
      { rewrite app_assoc in Hnd.
        clear -Hnd. induction (map fst res ++ map fst g) as [|a l IH]; [constructor|].
        simpl in Hnd. inversion Hnd; subst. constructor.
        - intros Hin. apply H1. apply in_or_app. now left.
        - auto. }
      rewrite run_group_spec by assumption.
      destruct (any_sat be (res ++ answers k g)) eqn:E.
      + exists 1. simpl. rewrite app_nil_r. split; [lia|]. split; [reflexivity|].
        unfold any_sat in E. rewrite existsb_app in E.
        unfold any_sat in Hres. rewrite Hres in E. simpl in E.
        split.
        * intros i Hi. assert (i = 0) by lia. subst. reflexivity.
        * intros _. exact E.
      + destruct (IH (k + length g) (res ++ answers k g)) as (m & Hm & Hr & H1 & H2).
        * rewrite map_app, answers_fst, <- app_assoc. exact Hnd.
        * exact E.
        * exists (S m). simpl. split; [lia|]. split.
          { rewrite Hr, answers_app, app_assoc. reflexivity. }
          unfold any_sat in E, Hres. rewrite existsb_app, Hres in E. simpl in E.
          split.
          { intros i Hi. destruct i as [|i]; [reflexivity|].
            simpl. rewrite answers_app. unfold any_sat. rewrite existsb_app, E. simpl.
            apply H1. lia. }
          { intros Hlt. rewrite answers_app. unfold any_sat.
            rewrite existsb_app, E. simpl. apply H2. lia. }
  Qed.

  Lemma firstn_concat_nth (gs : list group) i g :
    nth_error gs i = Some g ->
    concat (firstn (S i) gs) = concat (firstn i gs) ++ g.
  Proof.
    revert i; induction gs as [|h gs IH]; intros i H; [destruct i; discriminate|].
    destruct i; simpl in *.
    - inversion H; subst. now rewrite app_nil_r.
    - rewrite (IH i H). now rewrite app_assoc.
  Qed.

  Lemma concat_nth_split (gs : list group) j p m :
    nth_error (concat (firstn m gs)) j = Some p ->
    exists i j' g, i < m /\ nth_error gs i = Some g /\ nth_error g j' = Some p
                   /\ j = call_number gs i j'.
  Proof.
    revert gs j; induction m as [|m IH]; intros gs j H.
    - simpl in H. destruct j; discriminate.
    - destruct gs as [|g gs]; [simpl in H; destruct j; discriminate|].
      simpl in H. destruct (lt_dec j (length g)) as [Hj|Hj].
      + rewrite nth_error_app1 in H by assumption.
        exists 0, j, g. repeat split; auto; try lia.
      + rewrite nth_error_app2 in H by lia.
        destruct (IH _ _ H) as (i & j' & g' & Hi & H1 & H2 & H3).
        exists (S i), j', g'. repeat split; auto; try lia.
        unfold call_number in *. simpl. rewrite app_length. lia.
  Qed.

  Lemma nth_concat_firstn (gs : list group) i j g p m :
    i < m -> nth_error gs i = Some g -> nth_error g j = Some p ->
    nth_error (concat (firstn m gs)) (call_number gs i j) = Some p.
  Proof.
    revert gs i; induction m as [|m IH]; intros gs i Hi H1 H2; [lia|].
    destruct gs as [|h gs]; [destruct i; discriminate|].
    destruct i; simpl in *.
    - inversion H1; subst. unfold call_number; simpl.
      rewrite nth_error_app1; auto. apply nth_error_Some. now rewrite H2.
    - unfold call_number. simpl. rewrite app_length.
      rewrite nth_error_app2 by lia.
      replace (length h + length (concat (firstn i gs)) + j - length h)
        with (call_number gs i j) by (unfold call_number; lia).
      apply IH; auto. lia.
  Qed.

  Lemma any_sat_reached gs m :
    any_sat be (answers 0 (concat (firstn m gs))) = false <->
    group_reached (b_is_sat be) (b_solve be) gs m.
  Proof.
    unfold any_sat, group_reached. split.
    - intros H i' j' l f Hi (g & Hg & Hf).
      destruct (b_is_sat be (b_solve be (call_number gs i' j') f)) eqn:E; auto.
      rewrite <- H. symmetry. apply existsb_exists.
      exists (l, b_solve be (call_number gs i' j') f). split; auto.
      apply nth_error_In with (n := call_number gs i' j').
      rewrite (answers_nth 0 _ _ l f); auto.
      now apply nth_concat_firstn with (g := g).
    - intros H. destruct (existsb _ _) eqn:E; auto.
      apply existsb_exists in E. destruct E as ([l r] & Hin & Hs).
      apply answers_In in Hin. destruct Hin as (j & c & Hn & ->).
      simpl in Hs. destruct (concat_nth_split _ _ _ _ Hn) as (i & j' & g & Hi & Hg & Hf & ->).
      rewrite <- Hs. apply (H i j' l c Hi). now exists g.
  Qed.

  (** Everything about a run with distinct labels. *)
  Lemma verify_run gs :
    distinct_labels gs ->
    exists m,
      m <= length gs /\
      snd (run_groups be 0 gs []) = answers 0 (concat (firstn m gs)) /\
      (forall i, i < m -> group_reached (b_is_sat be) (b_solve be) gs i) /\
      (m < length gs -> ~ group_reached (b_is_sat be) (b_solve be) gs m).
  Proof.
    intros Hnd. destruct (run_groups_spec gs 0 []) as (m & Hm & Hr & H1 & H2).
    - exact Hnd.
    - reflexivity.
    - exists m. repeat split; auto.
      + intros i Hi. apply any_sat_reached. now apply H1.
      + intros Hlt Hre. apply any_sat_reached in Hre. rewrite H2 in Hre; [discriminate|auto].
  Qed.

  Lemma NoDup_firstn_concat gs m :
    distinct_labels gs -> NoDup (map fst (concat (firstn m gs))).
  Proof.
    unfold distinct_labels. intros H.
    rewrite <- (firstn_skipn m gs) in H. rewrite concat_app, map_app in H.
    clear -H. induction (map fst (concat (firstn m gs))) as [|a l IH]; [constructor|].
    simpl in H. inversion H; subst. constructor; auto.
    intros Hin. apply H2. apply in_or_app. now left.
  Qed.

  Lemma reached_mono gs i j :
    j <= i -> group_reached (b_is_sat be) (b_solve be) gs i ->
    group_reached (b_is_sat be) (b_solve be) gs j.
  Proof. intros Hle H i' j' l f Hi. apply H. lia. Qed.

  (** A reached group is evaluated. *)
  Lemma reached_evaluated gs m i :
    m <= length gs ->
    (m < length gs -> ~ group_reached (b_is_sat be) (b_solve be) gs m) ->
    i < length gs -> group_reached (b_is_sat be) (b_solve be) gs i -> i < m.
  Proof.
    intros Hm H2 Hi Hr. destruct (lt_dec i m); auto. exfalso.
    apply H2; [lia|]. now apply reached_mono with (i := i); [lia|].
  Qed.

  Lemma dlookup_map {A B} l (f : label -> A -> B) (d : list (label * A)) :
    dlookup l (map (fun p => (fst p, f (fst p) (snd p))) d) =
    match dlookup l d with Some v => Some (f l v) | None => None end.
  Proof.
    unfold dlookup. induction d as [|[l' v'] d IH]; simpl; auto.
    destruct (label_eqb l' l) eqn:E; auto. simpl.
    apply label_eqb_spec in E. now subst.
  Qed.

  Lemma verify_cex_keys noise gs :
    map fst (v_cex (verify be noise gs)) = map fst (snd (run_groups be 0 gs [])).
  Proof.
    unfold verify. destruct (forallb _ _); simpl; rewrite map_map; reflexivity.
  Qed.

  Lemma verify_found_all noise gs :
    v_found (verify be noise gs) = true <->
    forallb (fun p => b_is_unsat be (snd p)) (snd (run_groups be 0 gs [])) = true.
  Proof. unfold verify. destruct (forallb _ _); simpl; intuition. Qed.

  Lemma evaluated_answer gs m i j l f :
    i < m -> condition_at gs i j l f ->
    In (l, b_solve be (call_number gs i j) f) (answers 0 (concat (firstn m gs))).
  Proof.
    intros Hi (g & Hg & Hf). apply nth_error_In with (n := call_number gs i j).
    rewrite (answers_nth 0 _ _ l f); auto.
    now apply nth_concat_firstn with (g := g).
  Qed.

  Lemma verify_found_unsat noise gs :
    (forall k f, b_is_sat be (b_solve be k f) = true -> b_is_unsat be (b_solve be k f) = false) ->
    distinct_labels gs ->
    v_found (verify be noise gs) = true ->
    forall i j l f, condition_at gs i j l f ->
      b_is_unsat be (b_solve be (call_number gs i j) f) = true.
  Proof.
    intros Hex Hnd Hf i j l f Hc.
    apply verify_found_all in Hf.
    destruct (verify_run gs Hnd) as (m & Hm & Hr & H1 & H2).
    rewrite Hr in Hf. rewrite forallb_forall in Hf.
    assert (Hall : m = length gs).
    { destruct (lt_dec m (length gs)) as [Hlt|]; [|lia]. exfalso.
      apply (H2 Hlt). intros i' j' l' f' Hi' Hc'.
      pose proof (Hf _ (evaluated_answer gs m i' j' l' f' Hi' Hc')) as Hu. simpl in Hu.
      destruct (b_is_sat be _) eqn:E; auto. apply Hex in E. congruence. }
    assert (Hi : i < m).
    { destruct Hc as (g & Hg & _). rewrite Hall. apply nth_error_Some. now rewrite Hg. }
    exact (Hf _ (evaluated_answer gs m i j l f Hi Hc)).
  Qed.

  Lemma verify_found_complete noise gs :
    distinct_labels gs ->
    (forall i j l f, condition_at gs i j l f ->
      b_is_unsat be (b_solve be (call_number gs i j) f) = true) ->
    v_found (verify be noise gs) = true.
  Proof.
    intros Hnd H. apply verify_found_all.
    destruct (verify_run gs Hnd) as (m & Hm & Hr & H1 & H2).
    rewrite Hr. apply forallb_forall. intros [l r] Hin. simpl.
    apply answers_In in Hin. destruct Hin as (j & c & Hn & ->).
    destruct (concat_nth_split _ _ _ _ Hn) as (i & j' & g & Hi & Hg & Hf & ->).
    apply (H i j' l c). now exists g.
  Qed.

  Lemma verify_cex_lookup noise gs i j l f :
    distinct_labels gs ->
    condition_at gs i j l f ->
    group_reached (b_is_sat be) (b_solve be) gs i ->
    dlookup l (v_cex (verify be noise gs)) =
    Some (if v_found (verify be noise gs) then []
          else if b_is_sat be (b_solve be (call_number gs i j) f)
               then randomise_counterex (noise l) (b_model be (b_solve be (call_number gs i j) f))
               else []).
  Proof.
    intros Hnd Hc Hre.
    destruct (verify_run gs Hnd) as (m & Hm & Hr & H1 & H2).
    assert (Hi : i < m).
    { apply reached_evaluated with (gs := gs); auto.
      destruct Hc as (g & Hg & _). apply nth_error_Some. now rewrite Hg. }
    assert (Hl : dlookup l (snd (run_groups be 0 gs [])) =
                 Some (b_solve be (call_number gs i j) f)).
    { rewrite Hr. apply dlookup_In.
      - rewrite answers_fst. now apply NoDup_firstn_concat.
      - now apply evaluated_answer. }
    unfold verify.
    destruct (forallb _ _); simpl v_cex; simpl v_found.
    - pose proof (dlookup_map l (fun _ _ => @nil (list R)) (snd (run_groups be 0 gs []))) as E.
      simpl in E. rewrite E, Hl. reflexivity.
    - pose proof (dlookup_map l (fun l r => if b_is_sat be r
                      then randomise_counterex (noise l) (b_model be r)
                      else []) (snd (run_groups be 0 gs []))) as E.
      simpl in E. rewrite E, Hl. reflexivity.
  Qed.

  Lemma verify_not_found noise gs i j l f :
    distinct_labels gs ->
    condition_at gs i j l f ->
    group_reached (b_is_sat be) (b_solve be) gs i ->
    b_is_unsat be (b_solve be (call_number gs i j) f) = false ->
    v_found (verify be noise gs) = false.
  Proof.
    intros Hnd Hc Hre Hu.
    destruct (v_found (verify be noise gs)) eqn:Hf; auto.
    apply verify_found_all in Hf.
    destruct (verify_run gs Hnd) as (m & Hm & Hr & H1 & H2).
    rewrite Hr, forallb_forall in Hf.
    assert (Hi : i < m).
    { apply reached_evaluated with (gs := gs); auto.
      destruct Hc as (g & Hg & _). apply nth_error_Some. now rewrite Hg. }
    pose proof (Hf _ (evaluated_answer gs m i j l f Hi Hc)) as Hx. simpl in Hx. congruence.
  Qed.
End Generic.

Lemma randomise_length noise p : length (randomise_counterex noise p) = 21.
Proof. unfold randomise_counterex. now rewrite app_length, map_length, seq_length. Qed.

Lemma randomise_last noise p d : last (randomise_counterex noise p) d = p.
Proof. unfold randomise_counterex. now rewrite last_last. Qed.

Lemma combine_seq_nth {A} (p : list A) j a : forall k,
  nth_error p j = Some a ->
  nth_error (combine (seq k (length p)) p) j = Some (k + j, a).
Proof.
  revert j; induction p as [|b p IH]; intros j k H; [destruct j; discriminate|].
  destruct j; simpl in *.
  - inversion H; subst. now rewrite Nat.add_0_r.
  - rewrite IH by assumption. do 2 f_equal. lia.
Qed.

Lemma randomise_row noise p i :
  i < 20 ->
  nth_error (randomise_counterex noise p) i =
  Some (perturb (noise i) p).
Proof.
  intros Hi. unfold randomise_counterex. rewrite nth_error_app1.
  - rewrite nth_error_map.
    assert (H : nth_error (seq 0 counterexample_n) i = Some i).
    { pose proof (combine_seq_nth (seq 0 counterexample_n) i i 0) as _.
      rewrite (nth_error_nth' _ 0) by (rewrite seq_length; exact Hi).
      now rewrite seq_nth. }
    now rewrite H.
  - rewrite map_length, seq_length. exact Hi.
Qed.

Lemma perturb_nth noise p j a :
  nth_error p j = Some a ->
  nth_error (perturb noise p) j = Some (a + 5 * / 10000 * noise j)%R.
Proof.
  intros H. unfold perturb. rewrite nth_error_map, (combine_seq_nth p j a 0 H).
  reflexivity.
Qed.

Lemma perturb_length noise p : length (perturb noise p) = length p.
Proof. unfold perturb. rewrite map_length, combine_length, seq_length. apply Nat.min_id. Qed.
