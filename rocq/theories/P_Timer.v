(** Property C43: timers. *)
From Coq Require Import QArith List Bool Lia Lqa.
From Verif Require Import M_Timer.
Import ListNotations.
Local Open Scope Q_scope.

(** Specification.  The intervals measured by a sequence of calls since the last reset,
    and the pending start, if any: a stop closes the latest start. *)
Inductive measured : list call -> list (Q * Q) -> option Q -> Prop :=
| M_new : measured [] [] None
| M_start cs l p a : measured cs l p -> measured (cs ++ [Start a]) l (Some a)
| M_stop cs l a b : measured cs l (Some a) -> 0 < a -> a <= b -> measured (cs ++ [Stop b]) (l ++ [(a, b)]) None
| M_reset cs l p : measured cs l p -> measured (cs ++ [Reset]) [] None.
Definition durations (l : list (Q * Q)) : list Q := map (fun '(a, b) => b - a) l.
Definition total (l : list Q) : Q := fold_right Qplus 0 l.
Definition is_max (m : Q) (l : list Q) : Prop := Forall (fun d => d <= m) l /\ Exists (fun d => d == m) l.
Definition is_min (m : Q) (l : list Q) : Prop := Forall (fun d => m <= d) l /\ Exists (fun d => d == m) l.

Lemma qmax_spec a b : a <= qmax a b /\ b <= qmax a b /\ (qmax a b == a \/ qmax a b == b).
Proof. unfold qmax. destruct (Qlt_le_dec a b); (split; [lra|split; [lra|]]); [right|left]; reflexivity. Qed.
Lemma qmin_spec a b : qmin a b <= a /\ qmin a b <= b /\ (qmin a b == a \/ qmin a b == b).
Proof. unfold qmin. destruct (Qlt_le_dec b a); (split; [lra|split; [lra|]]); [right|left]; reflexivity. Qed.

Lemma total_app l m : total (l ++ m) == total l + total m.
Proof. unfold total. induction l as [|x l IH]; simpl; [now rewrite Qplus_0_l|]. now rewrite IH, Qplus_assoc. Qed.
Lemma durations_app l m : durations (l ++ m) = durations l ++ durations m.
Proof. apply map_app. Qed.

(** The state after calls that measured [l] with pending start [p]. *)
Definition fits (t : timer) (l : list (Q * Q)) (p : option Q) : Prop :=
  t_n t = length l /\ t_sum t == total (durations l) /\
  Forall (fun d => d <= t_max t) (durations l) /\ 0 <= t_max t /\
  (t_max t == 0 \/ Exists (fun d => d == t_max t) (durations l)) /\
  Forall (fun d => t_min t <= d) (durations l) /\ t_min t <= inject_Z (2 ^ 63) /\
  (t_min t == inject_Z (2 ^ 63) \/ Exists (fun d => d == t_min t) (durations l)) /\
  t_start t = match p with Some a => a | None => 0 end /\ Forall (fun d => 0 <= d) (durations l).

Lemma stop_some now t t' : stop now t = Some t' <->
  0 < t_start t /\ t_start t <= now /\
  t' = {| t_min := qmin (t_min t) (now - t_start t); t_max := qmax (t_max t) (now - t_start t); t_n := S (t_n t);
          t_sum := t_sum t + (now - t_start t); t_start := 0 |}.
Proof.
  unfold stop. destruct (Qle_bool (t_start t) now) eqn:E1; cbn [andb].
  - apply Qle_bool_iff in E1. destruct (Qle_bool (t_start t) 0) eqn:E2; cbn [negb].
    + apply Qle_bool_iff in E2. split; [discriminate|]. intros (H & _). lra.
    + assert (H : 0 < t_start t). { apply Qnot_le_lt. intros H. apply Qle_bool_iff in H. congruence. }
      split; [intros [= <-]; auto|intros (_ & _ & ->); reflexivity].
  - split; [discriminate|]. intros (_ & H & _). apply Qle_bool_iff in H. congruence.
Qed.

Lemma fits_stop t l a b t' : fits t l (Some a) -> stop b t = Some t' -> 0 < a /\ a <= b /\ fits t' (l ++ [(a, b)]) None.
Proof.
  intros (F1 & F2 & F3 & F4 & F5 & F6 & F7 & F8 & F9 & F10) H. apply stop_some in H. rewrite F9 in H.
  destruct H as (H1 & H2 & ->). split; auto. split; auto.
  destruct (qmax_spec (t_max t) (b - a)) as (X1 & X2 & X3). destruct (qmin_spec (t_min t) (b - a)) as (N1 & N2 & N3).
  unfold fits. cbn [t_n t_sum t_max t_min t_start]. rewrite app_length, durations_app.
  cbn [length durations map].
  split; [lia|]. split; [rewrite total_app; cbn [total fold_right]; rewrite F2; lra|].
  split; [apply Forall_app; split; [eapply Forall_impl; [|exact F3]; cbn; intros; lra|constructor; [exact X2|constructor]]|].
  split; [lra|]. split.
  { destruct X3 as [X3|X3].
    - destruct F5 as [F5|F5]; [left; lra|]. right. apply Exists_app. left. eapply Exists_impl; [|exact F5]. cbn. intros; lra.
    - right. apply Exists_app. right. constructor. lra. }
  split; [apply Forall_app; split; [eapply Forall_impl; [|exact F6]; cbn; intros; lra|constructor; [exact N2|constructor]]|].
  split; [lra|]. split.
  { destruct N3 as [N3|N3].
    - destruct F8 as [F8|F8]; [left; lra|]. right. apply Exists_app. left. eapply Exists_impl; [|exact F8]. cbn. intros; lra.
    - right. apply Exists_app. right. constructor. lra. }
  split; [reflexivity|]. apply Forall_app. split; auto. constructor; [lra|constructor].
Qed.

Lemma fits_reset : fits reset [] None.
Proof. unfold fits, reset. cbn. repeat split; auto; try (left; reflexivity); discriminate. Qed.

Lemma calls_snoc cs c : calls (cs ++ [c]) = call_timer (calls cs) c.
Proof. unfold calls. now rewrite fold_left_app. Qed.

Lemma calls_measured cs : forall t, calls cs = Some t -> exists l p, measured cs l p /\ fits t l p.
Proof.
  induction cs as [|c cs IH] using rev_ind; intros t H.
  - injection H as <-. exists [], None. split; [constructor|exact fits_reset].
  - rewrite calls_snoc in H. destruct (calls cs) as [t0|] eqn:E; [|discriminate]. destruct (IH t0 eq_refl) as (l & p & Hm & Hf).
    destruct c as [a|b|]; cbn [call_timer] in H.
    + injection H as <-. exists l, (Some a). split; [now apply M_start with p|]. unfold fits in *. cbn. intuition.
    + destruct p as [a|].
      * destruct (fits_stop _ _ _ _ _ Hf H) as (H1 & H2 & H3). exists (l ++ [(a, b)]), None. split; [now constructor|exact H3].
      * exfalso. apply stop_some in H. destruct Hf as (_ & _ & _ & _ & _ & _ & _ & _ & F & _). rewrite F in H. lra.
    + injection H as <-. exists [], None. split; [now apply M_reset with l p|exact fits_reset].
Qed.
Lemma measured_calls cs l p : measured cs l p -> exists t, calls cs = Some t /\ fits t l p.
Proof.
  induction 1 as [|cs l p a _ (t & Ht & Hf)|cs l a b _ (t & Ht & Hf) H1 H2|cs l p _ (t & Ht & Hf)].
  - exists reset. split; [reflexivity|exact fits_reset].
  - exists (start a t). rewrite calls_snoc, Ht. split; [reflexivity|]. unfold fits in *. cbn. intuition.
  - assert (Hs : exists t', stop b t = Some t').
    { eexists. apply stop_some. destruct Hf as (_ & _ & _ & _ & _ & _ & _ & _ & F & _). rewrite F. repeat split; auto. }
    destruct Hs as [t' Hs]. exists t'. rewrite calls_snoc, Ht. split; [exact Hs|]. now apply (fits_stop t l a b).
  - exists reset. rewrite calls_snoc, Ht. split; [reflexivity|exact fits_reset].
Qed.

(** * C43 *)
(** A sequence of calls succeeds iff every stop closes a start at a positive earlier
    time, and then the statistics are those of the measured intervals. *)
Theorem C43_statistics :
  forall cs,
    (calls cs <> None <-> exists l p, measured cs l p) /\
    forall t l p, calls cs = Some t -> measured cs l p ->
      t_n t = length l /\ t_sum t == total (durations l) /\
      (l <> [] -> is_max (t_max t) (durations l)) /\
      (l <> [] -> Exists (fun d => d <= inject_Z (2 ^ 63)) (durations l) -> is_min (t_min t) (durations l)) /\
      (l = [] -> avg t = Some 0) /\
      (0 < total (durations l) -> exists v, avg t = Some v /\ v * inject_Z (Z.of_nat (length l)) == total (durations l)).
Proof.
  intros cs. split.
  - split.
    + intros H. destruct (calls cs) as [t|] eqn:E; [|now elim H]. destruct (calls_measured _ _ E) as (l & p & Hm & _). eauto.
    + intros (l & p & Hm). destruct (measured_calls _ _ _ Hm) as (t & -> & _). discriminate.
  - intros t l p Ht Hm. destruct (measured_calls _ _ _ Hm) as (t' & Ht' & Hf). rewrite Ht in Ht'. injection Ht' as <-.
    destruct Hf as (F1 & F2 & F3 & F4 & F5 & F6 & F7 & F8 & F9 & F10).
    split; [exact F1|]. split; [exact F2|]. split; [|split; [|split]].
    + intros Hne. split; [exact F3|]. destruct F5 as [F5|F5]; [|exact F5].
      destruct l as [|[a b] l]; [congruence|]. cbn [durations map] in *.
      apply Forall_inv in F3. apply Forall_inv in F10. constructor. lra.
    + intros Hne Hs. split; [exact F6|]. destruct F8 as [F8|F8]; [|exact F8].
      apply Exists_exists in Hs. destruct Hs as (d & Hd & Hle). apply Exists_exists. exists d. split; auto.
      rewrite Forall_forall in F6. specialize (F6 d Hd). lra.
    + intros ->. unfold avg. now rewrite F1.
    + intros Hp. unfold avg. rewrite F1. destruct l as [|x l]; [cbn in Hp; lra|].
      set (n := length (x :: l)) in *. assert (Hn : exists k, n = S k) by (exists (length l); reflexivity). destruct Hn as [k ->].
      destruct (Qle_bool (t_sum t) 0) eqn:E; [apply Qle_bool_iff in E; lra|].
      eexists. split; [reflexivity|]. rewrite F2. field.
      intros E0. change 0 with (inject_Z 0) in E0. rewrite inject_Z_injective in E0. lia.
Qed.

(** Stopping a timer that is not running fails; starting it twice forgets the first start. *)
Theorem C43_stop_needs_start :
  (forall cs l b, measured cs l None -> calls (cs ++ [Stop b]) = None) /\
  (forall cs l p a b, measured cs l p -> calls (cs ++ [Start a; Start b]) = calls (cs ++ [Start b])).
Proof.
  split.
  - intros cs l b Hm. destruct (measured_calls _ _ _ Hm) as (t & Ht & Hf). rewrite calls_snoc, Ht. cbn [call_timer].
    destruct (stop b t) eqn:E; [|reflexivity]. apply stop_some in E.
    destruct Hf as (_ & _ & _ & _ & _ & _ & _ & _ & F & _). rewrite F in E. lra.
  - intros cs l p a b Hm. destruct (measured_calls _ _ _ Hm) as (t & Ht & _).
    change (cs ++ [Start a; Start b]) with (cs ++ [Start a] ++ [Start b]). rewrite app_assoc, !calls_snoc, Ht. reflexivity.
Qed.

(** Decorated functions: nesting (or recursion) on one timer fails; sequences of calls add up. *)
Theorem C43_decorator :
  (forall ivs, Forall (fun '(a, b) => 0 < a /\ a <= b) ivs ->
     measured (flat_map (fun '(a, b) => timed a [] b) ivs) ivs None) /\
  (forall cs l p a a' b' b, measured cs l p -> calls (cs ++ timed a (timed a' [] b') b) = None) /\
  (* an exception in the body loses the interval but does no harm *)
  (forall cs l p a a' b', measured cs l p -> 0 < a' -> a' <= b' -> measured (cs ++ Start a :: timed a' [] b') (l ++ [(a', b')]) None).
Proof.
  split; [|split].
  - induction ivs as [|[a b] ivs IH] using rev_ind; intros H; [constructor|]. apply Forall_app in H. destruct H as [H1 H2].
    apply Forall_inv in H2. rewrite flat_map_app. cbn [flat_map timed app].
    change [Start a; Stop b] with ([Start a] ++ [Stop b]). rewrite app_assoc. apply M_stop; try apply H2.
    apply M_start with None. now apply IH.
  - intros cs l p a a' b' b Hm. unfold timed. cbn [app].
    change [Start a; Start a'; Stop b'; Stop b] with (([Start a] ++ [Start a']) ++ [Stop b'] ++ [Stop b]).
    rewrite !app_assoc. rewrite calls_snoc. destruct (calls ((((cs ++ [Start a]) ++ [Start a']) ++ [Stop b']))) as [t|] eqn:E; [|reflexivity].
    cbn [call_timer]. destruct (stop b t) eqn:Es; [|reflexivity]. apply stop_some in Es.
    rewrite calls_snoc in E. destruct (calls ((cs ++ [Start a]) ++ [Start a'])) as [u|]; [|discriminate].
    cbn [call_timer] in E. apply stop_some in E. destruct E as (_ & _ & ->). cbn [t_start] in Es. lra.
  - intros cs l p a a' b' Hm H1 H2. 
    replace (cs ++ Start a :: timed a' [] b') with (((cs ++ [Start a]) ++ [Start a']) ++ [Stop b']) by (rewrite <- !app_assoc; reflexivity).
    apply M_stop; auto. apply M_start with (Some a). now apply M_start with p.
Qed.

(** The average of a timer whose intervals all have length 0 raises. *)
Theorem C43_average_of_zero_intervals :
  forall cs t l p, calls cs = Some t -> measured cs l p -> l <> [] -> Forall (fun d => d == 0) (durations l) -> avg t = None.
Proof.
  intros cs t l p Ht Hm Hne Hz. destruct (C43_statistics cs) as [_ H]. destruct (H t l p Ht Hm) as (F1 & F2 & _).
  assert (E : total (durations l) == 0).
  { clear -Hz. induction (durations l) as [|d ds IH]; [reflexivity|]. apply Forall_cons_iff in Hz. destruct Hz as [H1 H2].
    cbn [total fold_right]. change (fold_right Qplus 0 ds) with (total ds). rewrite (IH H2), H1. reflexivity. }
  unfold avg. rewrite F1. destruct l as [|x l]; [congruence|]. cbn [length].
  replace (Qle_bool (t_sum t) 0) with true; [reflexivity|]. symmetry. apply Qle_bool_iff. rewrite F2, E. apply Qle_refl.
Qed.

Example C43_example :
  measured [Start 1; Stop 3; Start 5; Start 6; Stop (13#2)] [(1, 3); (6, 13#2)] None /\
  exists t, calls [Start 1; Stop 3; Start 5; Start 6; Stop (13#2)] = Some t /\
    t_n t = 2%nat /\ t_sum t == 5#2 /\ t_max t == 2 /\ t_min t == 1#2 /\ exists v, avg t = Some v /\ v == 5#4.
Proof.
  split.
  - apply (M_stop [Start 1; Stop 3; Start 5; Start 6] [(1, 3)] 6 (13#2)); [|reflexivity|discriminate].
    apply (M_start [Start 1; Stop 3; Start 5] [(1, 3)] (Some 5)). apply (M_start [Start 1; Stop 3] [(1, 3)] None).
    apply (M_stop [Start 1] [] 1 3); [|reflexivity|discriminate]. apply (M_start [] [] None). constructor.
  - eexists. split; [vm_compute; reflexivity|]. repeat split; try reflexivity. eexists. split; reflexivity.
Qed.
