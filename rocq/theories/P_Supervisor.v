(** Property C36: the parallel supervisor. *)
From Coq Require Import List Bool Arith Lia.
From Verif Require Import M_Supervisor.
Import ListNotations.

(** Every process that was started ends some time, and the supervisor keeps polling. *)
Definition fair (sched : nat -> event) : Prop :=
  (forall n, exists m, (n <= m)%nat /\ sched m = Poll) /\
  (forall i n, exists m, (n <= m)%nat /\ sched m = Finish i).

Section C36.
  Context {A : Type} (success : A -> bool) (w : nat -> option A) (max_P : nat).
  Notation after := (after success w max_P). Notation step := (step success w max_P).

  Definition msgs (fin : list nat) : list (nat * A) :=
    flat_map (fun i => match w i with Some a => [(i, a)] | None => [] end) fin.
  Definition failure (m : nat * A) : Prop := success (snd m) = false.

  Definition inv (s : sup) : Prop :=
    NoDup (s_finished s) /\ Forall (fun i => i < max_P)%nat (s_finished s) /\ (s_started s <= max_P)%nat /\
    match s_out s with
    | None => exists d, msgs (s_finished s) = d ++ s_queue s /\ Forall failure d /\ length d = s_nres s /\
                (0 < max_P -> s_nres s < max_P)%nat
    | Some m => exists d, msgs (s_finished s) = d ++ m :: s_queue s /\ Forall failure d /\
                (success (snd m) = true \/ (length d + 1 = max_P)%nat)
    end.

  Lemma msgs_app a b : msgs (a ++ b) = msgs a ++ msgs b.
  Proof. apply flat_map_app. Qed.

  Lemma step_inv s e : inv s -> inv (step s e).
  Proof.
    intros Hi. unfold M_Supervisor.step. destruct (s_out s) as [m|] eqn:Eo; [exact Hi|].
    destruct Hi as (H1 & H2 & H3 & H4). rewrite Eo in H4. destruct H4 as (d & D1 & D2 & D3 & D4).
    destruct e as [i|].
    - unfold finish. destruct ((i <? s_started s)%nat && negb (existsb (Nat.eqb i) (s_finished s))) eqn:E.
      + apply andb_true_iff in E. destruct E as [E1 E2]. apply Nat.ltb_lt in E1. apply negb_true_iff in E2.
        assert (Hn : ~ In i (s_finished s)).
        { intros Hin. assert (existsb (Nat.eqb i) (s_finished s) = true); [|congruence].
          apply existsb_exists. exists i. split; auto. apply Nat.eqb_refl. }
        unfold inv. cbn [s_finished s_started s_out s_queue s_nres]. rewrite Eo. split; [|split; [|split; [exact H3|]]].
        * apply (NoDup_Add (a := i) (l := s_finished s)); [|split; auto].
          rewrite <- (app_nil_r (s_finished s)) at 1. apply Add_app.
        * apply Forall_app. split; auto. constructor; [lia|constructor].
        * exists d. split; [|auto]. rewrite msgs_app, D1. unfold msgs at 1. cbn [flat_map]. rewrite app_nil_r.
          now rewrite app_assoc.
      + unfold inv. rewrite Eo. split; auto. split; auto. split; auto. now exists d.
    - unfold poll. cbn [s_queue]. destruct (s_queue s) as [|[i a] q] eqn:Eq; rewrite ?Eq in D1.
      + unfold inv. cbn [s_finished s_started s_out s_queue s_nres]. rewrite Eo. split; auto. split; auto.
        split; [lia|]. exists d. auto.
      + destruct (success a) eqn:Ea.
        * unfold inv. cbn [s_finished s_started s_out s_queue s_nres]. split; auto. split; auto. split; [lia|].
          exists d. repeat split; auto.
        * unfold inv. cbn [s_finished s_started s_out s_queue s_nres]. split; auto. split; auto. split; [lia|].
          destruct (Nat.eqb_spec (s_nres s + 1) max_P) as [Em|Em].
          -- exists d. split; auto. split; auto. right. lia.
          -- exists (d ++ [(i, a)]). split; [rewrite D1, <- app_assoc; reflexivity|]. split; [|split].
             ++ apply Forall_app. split; auto.
             ++ rewrite app_length. simpl. lia.
             ++ intros Hp. specialize (D4 Hp). lia.
  Qed.
  Lemma after_inv sched n : inv (after sched n).
  Proof.
    induction n as [|n IH]; [|now apply step_inv]. split; [constructor|]. split; [constructor|]. split; [simpl; lia|].
    exists []. repeat split; auto; simpl; lia.
  Qed.

  Lemma msgs_in i a fin : In (i, a) (msgs fin) <-> In i fin /\ w i = Some a.
  Proof.
    unfold msgs. rewrite in_flat_map. split.
    - intros (j & Hj & H). destruct (w j) eqn:E; [|now elim H]. destruct H as [[= -> ->]|[]]. auto.
    - intros [H1 H2]. exists i. split; auto. rewrite H2. now left.
  Qed.
  Lemma msgs_nodup fin : NoDup fin -> NoDup (map fst (msgs fin)).
  Proof.
    induction 1 as [|i fin Hn Hd IH]; [constructor|]. cbn [msgs flat_map]. fold (msgs fin).
    destruct (w i) as [a|] eqn:E; cbn [app map fst]; auto. constructor; auto.
    intros Hin. apply in_map_iff in Hin. destruct Hin as ([j b] & <- & Hin). apply msgs_in in Hin. now apply Hn.
  Qed.

  (** A prefix of the messages comes from a prefix of the finished processes. *)
  Lemma msgs_split fin : forall d m q, msgs fin = d ++ m :: q ->
    exists l1 l2, fin = l1 ++ fst m :: l2 /\ msgs l1 = d /\ w (fst m) = Some (snd m).
  Proof.
    induction fin as [|i fin IH]; intros d m q H.
    - destruct d; discriminate.
    - cbn [msgs flat_map] in H. fold (msgs fin) in H. destruct (w i) as [a|] eqn:E; cbn [app] in H.
      + destruct d as [|x d]; cbn [app] in H.
        * injection H as <- <-. exists [], fin. repeat split; auto.
        * injection H as <- H. destruct (IH d m q H) as (l1 & l2 & -> & H1 & H2).
          exists (i :: l1), l2. split; [reflexivity|]. split; [|exact H2]. cbn [msgs flat_map]. rewrite E. cbn [app]. now f_equal.
      + destruct (IH d m q H) as (l1 & l2 & -> & H1 & H2).
        exists (i :: l1), l2. split; [reflexivity|]. split; [|exact H2]. cbn [msgs flat_map]. now rewrite E.
  Qed.

  Lemma msgs_length fin : (length (msgs fin) <= length fin)%nat.
  Proof.
    induction fin as [|i fin IH]; [simpl; lia|]. cbn [msgs flat_map]. fold (msgs fin).
    rewrite app_length. destruct (w i); simpl; lia.
  Qed.
  Lemma below_length fin : NoDup fin -> Forall (fun i => i < max_P)%nat fin -> (length fin <= max_P)%nat.
  Proof.
    intros H1 H2. rewrite <- (seq_length max_P 0). apply NoDup_incl_length; auto.
    intros i Hi. apply in_seq. rewrite Forall_forall in H2. specialize (H2 i Hi). lia.
  Qed.
  (** If as many distinct ids below [max_P] occur as there are, all occur. *)
  Lemma full_cover (d : list (nat * A)) : NoDup (map fst d) -> Forall (fun i => i < max_P)%nat (map fst d) ->
    length d = max_P -> forall j, (j < max_P)%nat -> exists a, In (j, a) d.
  Proof.
    intros H1 H2 H3 j Hj.
    assert (Hinc : incl (seq 0 max_P) (map fst d)).
    { apply NoDup_length_incl; auto.
      - rewrite map_length, seq_length. lia.
      - intros i Hi. apply in_seq. rewrite Forall_forall in H2. specialize (H2 i Hi). lia. }
    assert (Hin : In j (map fst d)) by (apply Hinc, in_seq; lia).
    apply in_map_iff in Hin. destruct Hin as ([i a] & <- & Hin). now exists a.
  Qed.
  Lemma msgs_ids fin : Forall (fun i => i < max_P)%nat fin -> Forall (fun i => i < max_P)%nat (map fst (msgs fin)).
  Proof.
    intros H. apply Forall_forall. intros i Hi. apply in_map_iff in Hi. destruct Hi as ([j a] & <- & Hin).
    apply msgs_in in Hin. rewrite Forall_forall in H. now apply H.
  Qed.

  (** ** Safety *)
  Lemma returned_safe sched n i a : s_out (after sched n) = Some (i, a) ->
    (i < max_P)%nat /\ w i = Some a /\
    (success a = false -> forall j, (j < max_P)%nat -> exists b, w j = Some b /\ success b = false) /\
    exists before later, s_finished (after sched n) = before ++ i :: later /\
      forall j, In j before -> w j = None \/ exists b, w j = Some b /\ success b = false.
  Proof.
    intros Ho. destruct (after_inv sched n) as (H1 & H2 & H3 & H4). rewrite Ho in H4.
    destruct H4 as (d & D1 & D2 & D3). destruct (msgs_split _ _ _ _ D1) as (l1 & l2 & E & Em & Ew). cbn [fst snd] in *.
    split; [|split; [exact Ew|split]].
    - rewrite E in H2. apply Forall_app in H2. destruct H2 as [_ H2]. now apply Forall_inv in H2.
    - intros Hf j Hj. destruct D3 as [D3|D3]; [congruence|].
      assert (Hd : exists b, In (j, b) (d ++ [(i, a)])).
      { apply full_cover; auto.
        - assert (N := msgs_nodup _ H1). rewrite D1 in N. change (d ++ (i, a) :: s_queue (after sched n))
            with (d ++ [(i, a)] ++ s_queue (after sched n)) in N. rewrite app_assoc, map_app in N.
          clear -N. induction (map fst (d ++ [(i, a)])) as [|x l IH]; [constructor|].
          cbn [app] in N. apply NoDup_cons_iff in N. destruct N as [N1 N2]. constructor; [|now apply IH].
          intros Hin. apply N1. apply in_or_app. now left.
        - assert (F := msgs_ids _ H2). rewrite D1 in F. change (d ++ (i, a) :: s_queue (after sched n))
            with (d ++ [(i, a)] ++ s_queue (after sched n)) in F. rewrite app_assoc, map_app in F.
          apply Forall_app in F. apply F.
        - rewrite app_length. simpl. lia. }
      destruct Hd as [b Hb]. exists b. apply in_app_or in Hb.
      assert (Hin : In (j, b) (msgs (s_finished (after sched n)))).
      { rewrite D1. apply in_or_app. destruct Hb as [Hb|[Hb|[]]]; [now left|right; now left]. }
      apply msgs_in in Hin. split; [apply Hin|]. destruct Hb as [Hb|[[= -> ->]|[]]]; [|exact Hf].
      rewrite Forall_forall in D2. exact (D2 _ Hb).
    - exists l1, l2. split; [exact E|]. intros j Hj. destruct (w j) as [b|] eqn:Ej; [|now left]. right. exists b. split; auto.
      assert (Hin : In (j, b) d) by (rewrite <- Em; apply msgs_in; auto).
      rewrite Forall_forall in D2. exact (D2 _ Hin).
  Qed.

  (** ** Progress *)
  Lemma out_stays sched n m : (n <= m)%nat -> s_out (after sched n) <> None -> s_out (after sched m) <> None.
  Proof.
    induction 1 as [|m H IH]; auto. intros Ho. specialize (IH Ho). cbn [M_Supervisor.after]. unfold M_Supervisor.step.
    destruct (s_out (after sched m)) eqn:E; [now rewrite E|now elim IH].
  Qed.
  Lemma finished_grows sched n m i : (n <= m)%nat -> In i (s_finished (after sched n)) -> In i (s_finished (after sched m)).
  Proof.
    induction 1 as [|m H IH]; auto. intros Hi. specialize (IH Hi). cbn [M_Supervisor.after]. unfold M_Supervisor.step.
    destruct (s_out (after sched m)); auto. destruct (sched m).
    - unfold finish. destruct (_ && _); auto. cbn [s_finished]. apply in_or_app. now left.
    - unfold poll. cbn [s_queue]. destruct (s_queue (after sched m)) as [|[k a] q]; [exact IH|]. destruct (success a); exact IH.
  Qed.
  Lemma started_grows sched n m : (n <= m)%nat -> (s_started (after sched n) <= s_started (after sched m))%nat.
  Proof.
    induction 1 as [|m H IH]; auto. cbn [M_Supervisor.after]. unfold M_Supervisor.step.
    destruct (s_out (after sched m)); auto. destruct (sched m).
    - unfold finish. destruct (_ && _); auto.
    - unfold poll. cbn [s_queue]. destruct (s_queue (after sched m)) as [|[k a] q]; cbn [s_started]; [lia|].
      destruct (success a); cbn [s_started]; lia.
  Qed.
  Lemma nres_grows sched n m : (n <= m)%nat -> (s_nres (after sched n) <= s_nres (after sched m))%nat.
  Proof.
    induction 1 as [|m H IH]; auto. cbn [M_Supervisor.after]. unfold M_Supervisor.step.
    destruct (s_out (after sched m)); auto. destruct (sched m).
    - unfold finish. destruct (_ && _); auto.
    - unfold poll. cbn [s_queue]. destruct (s_queue (after sched m)) as [|[k a] q]; cbn [s_nres]; [lia|].
      destruct (success a); cbn [s_nres]; lia.
  Qed.

  Lemma all_finish sched : fair sched -> forall k, (k <= max_P)%nat -> exists n,
    s_out (after sched n) <> None \/ (s_started (after sched n) = max_P /\ forall j, (j < k)%nat -> In j (s_finished (after sched n))).
  Proof.
    intros [Fp Ff]. induction k as [|k IH]; intros Hk.
    - destruct (Fp 0%nat) as (m & _ & Em). exists (S m).
      destruct (s_out (after sched (S m))) eqn:Eo; [left; congruence|]. right. split; [|lia].
      destruct (after_inv sched (S m)) as (_ & _ & H3 & _).
      cbn [M_Supervisor.after] in *. unfold M_Supervisor.step in *.
      destruct (s_out (after sched m)) eqn:E; [rewrite E in Eo; discriminate|]. rewrite Em in *.
      unfold poll in *. cbn [s_queue] in *. destruct (s_queue (after sched m)) as [|[i a] q]; cbn [s_started] in *; [lia|].
      destruct (success a); cbn [s_started] in *; lia.
    - destruct (IH ltac:(lia)) as (n & [Ho|[Hs Hf]]); [exists n; now left|].
      destruct (Ff k n) as (m & Hm & Em). exists (S m).
      destruct (s_out (after sched (S m))) eqn:Eo; [left; congruence|]. right.
      assert (Hst : s_started (after sched (S m)) = max_P).
      { destruct (after_inv sched (S m)) as (_ & _ & H3 & _). assert (G := started_grows sched n (S m) ltac:(lia)). lia. }
      split; [exact Hst|]. intros j Hj. destruct (Nat.eq_dec j k) as [->|Hne].
      + cbn [M_Supervisor.after] in *. unfold M_Supervisor.step in *.
        destruct (s_out (after sched m)) eqn:E; [rewrite E in Eo; discriminate|]. rewrite Em in *.
        unfold finish in *. assert (Sm : s_started (after sched m) = max_P).
        { destruct (after_inv sched m) as (_ & _ & H3 & _). assert (G := started_grows sched n m ltac:(lia)). lia. }
        destruct (existsb (Nat.eqb k) (s_finished (after sched m))) eqn:Ex.
        * rewrite andb_false_r. apply existsb_exists in Ex. destruct Ex as (x & Hx & Ek). apply Nat.eqb_eq in Ek. now subst x.
        * replace (k <? s_started (after sched m))%nat with true by (symmetry; apply Nat.ltb_lt; lia).
          cbn [andb negb s_finished]. apply in_or_app. right. now left.
      + apply (finished_grows sched n); [lia|]. apply Hf. lia.
  Qed.

  Lemma eventually_returns sched : fair sched ->
    (exists j b, (j < max_P)%nat /\ w j = Some b /\ success b = true) \/
    ((0 < max_P)%nat /\ forall j, (j < max_P)%nat -> w j <> None) ->
    exists n, s_out (after sched n) <> None.
  Proof.
    intros Hf Hw. destruct (all_finish sched Hf max_P (le_n _)) as (n0 & [Ho|[Hs Hfin]]); [now exists n0|].
    assert (Hstep : forall k, exists n, (n0 <= n)%nat /\ (s_out (after sched n) <> None \/ (k <= s_nres (after sched n))%nat)).
    { induction k as [|k IH]; [exists n0; split; [lia|right; lia]|].
      destruct IH as (n & Hn & [Ho|Hk]); [exists n; split; [lia|now left]|].
      destruct Hf as [Fp _]. destruct (Fp n) as (m & Hm & Em). exists (S m). split; [lia|].
      destruct (s_out (after sched (S m))) eqn:Eo; [left; congruence|right].
      assert (Hkm := nres_grows sched n m Hm).
      assert (Hfm : forall j, (j < max_P)%nat -> In j (s_finished (after sched m))).
      { intros j Hj. apply (finished_grows sched n0); [lia|auto]. }
      destruct (after_inv sched m) as (I1 & I2 & I3 & I4).
      cbn [M_Supervisor.after] in *. unfold M_Supervisor.step in *.
      destruct (s_out (after sched m)) eqn:E; [rewrite E in Eo; discriminate|]. rewrite Em in *.
      destruct I4 as (d & D1 & D2 & D3 & D4).
      unfold poll in *. cbn [s_queue] in *. destruct (s_queue (after sched m)) as [|[i a] q].
      - exfalso. rewrite app_nil_r in D1. destruct Hw as [(j & b & Hj & Hb & Hs')|[Hp Hall]].
        + assert (Hin : In (j, b) d) by (rewrite <- D1; apply msgs_in; auto).
          rewrite Forall_forall in D2. specialize (D2 _ Hin). unfold failure in D2. cbn [snd] in D2. congruence.
        + specialize (D4 Hp).
          assert (Hlen : (max_P <= length (map fst d))%nat).
          { rewrite <- (seq_length max_P 0) at 1. apply NoDup_incl_length; [apply seq_NoDup|].
            intros j Hj. apply in_seq in Hj. assert (Hj' : (j < max_P)%nat) by lia.
            destruct (w j) as [b|] eqn:Ej; [|now elim (Hall j Hj')].
            apply in_map_iff. exists (j, b). split; [reflexivity|]. rewrite <- D1. apply msgs_in. auto. }
          rewrite map_length in Hlen. lia.
      - destruct (success a); cbn [s_out s_nres] in *; [discriminate|lia]. }
    destruct (Hstep (max_P + 1)%nat) as (n & _ & [Ho|Hk]); [now exists n|].
    exists n. intros Eo. destruct (after_inv sched n) as (I1 & I2 & I3 & I4). rewrite Eo in I4.
    destruct I4 as (d & D1 & D2 & D3 & D4).
    assert (L := msgs_length (s_finished (after sched n))). assert (B := below_length _ I1 I2).
    rewrite D1, app_length in L. lia.
  Qed.
End C36.

(** * C36 *)
(** What is returned: some worker's result, and the first success in the order in which
    the workers ended; a failed result only if every worker reported a failure. *)
Theorem C36_returned_result :
  forall (A : Type) (success : A -> bool) (w : nat -> option A) max_P sched n i a,
    s_out (after success w max_P sched n) = Some (i, a) ->
    (i < max_P)%nat /\ w i = Some a /\
    (success a = false -> forall j, (j < max_P)%nat -> exists b, w j = Some b /\ success b = false) /\
    exists before later, s_finished (after success w max_P sched n) = before ++ i :: later /\
      forall j, In j before -> w j = None \/ exists b, w j = Some b /\ success b = false.
Proof. intros. eapply returned_safe; eauto. Qed.

(** Under every fair schedule it returns, if some worker reports a success or all report. *)
Theorem C36_returns :
  forall (A : Type) (success : A -> bool) (w : nat -> option A) max_P sched,
    fair sched ->
    (exists j b, (j < max_P)%nat /\ w j = Some b /\ success b = true) \/
    ((0 < max_P)%nat /\ forall j, (j < max_P)%nat -> w j <> None) ->
    exists n i a, s_out (after success w max_P sched n) = Some (i, a) /\
      ((exists j b, (j < max_P)%nat /\ w j = Some b /\ success b = true) -> success a = true).
Proof.
  intros A success w max_P sched Hf Hw. destruct (eventually_returns success w max_P sched Hf Hw) as [n Hn].
  destruct (s_out (after success w max_P sched n)) as [[i a]|] eqn:E; [|now elim Hn].
  exists n, i, a. split; [exact E|]. intros (j & b & Hj & Hb & Hs). destruct (success a) eqn:Ea; [reflexivity|].
  destruct (returned_safe _ _ _ _ _ _ _ E) as (_ & _ & H & _). destruct (H Ea j Hj) as (b' & H1 & H2). congruence.
Qed.

(** Under no schedule does it return when no worker reports success and one reports nothing. *)
Theorem C36_hangs :
  forall (A : Type) (success : A -> bool) (w : nat -> option A) max_P sched n,
    (forall j b, (j < max_P)%nat -> w j = Some b -> success b = false) ->
    (exists j, (j < max_P)%nat /\ w j = None) \/ max_P = 0%nat ->
    s_out (after success w max_P sched n) = None.
Proof.
  intros A success w max_P sched n Hf Hn. destruct (s_out (after success w max_P sched n)) as [[i a]|] eqn:E; [|reflexivity].
  exfalso. destruct (returned_safe _ _ _ _ _ _ _ E) as (H1 & H2 & H3 & _).
  destruct Hn as [(j & Hj & Hw)|Hz]; [|lia].
  destruct (H3 (Hf i a H1 H2) j Hj) as (b & Hb & _). congruence.
Qed.

(** The code as it is: whatever [solve()] finds in the workers, the supervisor never returns. *)
Theorem C36_never_returns :
  forall (A : Type) (success : A -> bool) (results : nat -> solved A) max_P sched n,
    s_out (after success (fun i => worker_Q solution_has_clean (results i)) max_P sched n) = None.
Proof.
  intros A success results max_P sched n.
  assert (Hw : forall i, worker_Q solution_has_clean (results i) = None) by (intros i; now destruct (results i)).
  apply C36_hangs.
  - intros j b _ Hb. now rewrite Hw in Hb.
  - destruct max_P as [|p]; [now right|left]. exists 0%nat. split; [lia|apply Hw].
Qed.

(** A fair schedule of two workers, the second of which succeeds. *)
Definition round_robin (n : nat) : event :=
  (* 0; 0,1; 0,1,2; ... : every id infinitely often, with polls in between *)
  if Nat.even n then Poll else Finish (let k := Nat.sqrt n in n - k * k).
Lemma round_robin_fair : fair round_robin.
Proof.
  split.
  - intros n. exists (2 * n)%nat. split; [lia|]. unfold round_robin. rewrite Nat.even_mul. reflexivity.
  - intros i n. set (k0 := (n + i + 1)%nat).
    (* choose k >= k0 with k*k + i odd: k has the other parity of i *)
    set (k := if Nat.even (k0 + i) then S k0 else k0).
    assert (Hk : (k0 <= k)%nat) by (unfold k; destruct (Nat.even (k0 + i)); lia).
    assert (Hp : Nat.even (k * k + i) = false).
    { rewrite Nat.even_add, Nat.even_mul, orb_diag. unfold k. destruct (Nat.even (k0 + i)) eqn:E; rewrite Nat.even_add in E.
      - rewrite Nat.even_succ, <- Nat.negb_even. destruct (Nat.even k0), (Nat.even i); simpl in *; congruence.
      - destruct (Nat.even k0), (Nat.even i); simpl in *; congruence. }
    exists (k * k + i)%nat. split; [nia|]. unfold round_robin. rewrite Hp. f_equal.
    assert (Hs : Nat.sqrt (k * k + i) = k).
    { apply Nat.sqrt_unique. split; [lia|]. nia. }
    rewrite Hs. lia.
Qed.
Example C36_example :
  fair round_robin /\ s_out (after (fun b : bool => b) (fun i => Some (Nat.eqb i 1)) 2 round_robin 10) = Some (1%nat, true).
Proof. split; [exact round_robin_fair|]. vm_compute. reflexivity. Qed.
