(** Property C57: recorded seeds reproduce runs, and the runs of a benchmark are distinct. *)
From Coq Require Import List ZArith Bool Lia.
From Verif Require Import M_Main M_Supervisor P_Supervisor.
Import ListNotations.
Local Open Scope Z_scope.

Section C57.
  Context {D : Type} (stream : Z -> nat -> D) {Config Out : Type} (cegis : Config -> prog D Out).

  Lemma run_seed {A} (p : prog D A) g : g_seed (snd (run stream p g)) = g_seed g.
  Proof. revert g. induction p as [a|k IH]; intros g; cbn; [reflexivity|]. now rewrite IH. Qed.
  Lemma solve_seed c g : r_seed (fst (solve stream cegis c g)) = g_seed g.
  Proof.
    unfold solve. pose proof (run_seed (cegis c) g) as H. destruct (run stream (cegis c) g). exact H.
  Qed.
  Lemma benchmark_from c n : forall i g,
    fst (run_benchmark_from stream cegis c i n g) =
    map (fun k => fst (solve stream cegis c (manual_seed (BASE_SEED + (i + Z.of_nat k) * N_PROCS)))) (seq 0 n).
  Proof.
    induction n as [|n IH]; intros i g; cbn [run_benchmark_from seq map]; [reflexivity|].
    destruct (solve stream cegis c (manual_seed (BASE_SEED + i * N_PROCS))) as [r g1] eqn:E.
    specialize (IH (i + 1) g1).
    destruct (run_benchmark_from stream cegis c (i + 1) n g1) as [l g2]. cbn [fst] in *.
    rewrite Z.add_0_r, E. f_equal. rewrite IH, <- seq_shift, map_map. apply map_ext. intros k.
    do 4 f_equal. lia.
  Qed.
End C57.

(** A result of the benchmark is obtained again, in any process, by [synthesise] with
    the recorded seed. *)
Theorem C57_reproducible :
  forall (D : Type) (stream : Z -> nat -> D) (Config Out : Type) (cegis : Config -> prog D Out)
         c repeat g r g',
    In r (fst (run_benchmark stream cegis c repeat g)) ->
    fst (synthesise stream cegis c (Some (r_seed r)) g') = r.
Proof.
  intros D stream Config Out cegis c repeat g r g' H. unfold run_benchmark in H. rewrite benchmark_from in H.
  apply in_map_iff in H. destruct H as (k & <- & _). unfold synthesise. rewrite solve_seed. reflexivity.
Qed.
(** Likewise for every worker of a concurrent benchmark. *)
Theorem C57_worker_reproducible :
  forall (D : Type) (stream : Z -> nat -> D) (Config Out : Type) (cegis : Config -> prog D Out) c i id g',
    let r := benchmark_worker stream cegis c i id in
    fst (synthesise stream cegis c (Some (r_seed r)) g') = r.
Proof.
  intros. unfold r, benchmark_worker, worker, synthesise. rewrite solve_seed. reflexivity.
Qed.

(** The [i]-th repetition records seed 167 + 4 i, whatever was run before. *)
Theorem C57_repetition_seeds :
  forall (D : Type) (stream : Z -> nat -> D) (Config Out : Type) (cegis : Config -> prog D Out) c repeat g i,
    length (fst (run_benchmark stream cegis c repeat g)) = repeat /\
    ((i < repeat)%nat ->
     option_map (@r_seed Out) (nth_error (fst (run_benchmark stream cegis c repeat g)) i) = Some (167 + 4 * Z.of_nat i)).
Proof.
  intros. unfold run_benchmark. rewrite benchmark_from. split; [now rewrite map_length, seq_length|].
  intros Hi. rewrite nth_error_map, (nth_error_nth' _ 0%nat) by now rewrite seq_length.
  rewrite seq_nth by auto. cbn [option_map]. rewrite solve_seed. cbn [manual_seed g_seed Nat.add].
  unfold BASE_SEED, N_PROCS. f_equal. lia.
Qed.

(** In a concurrent benchmark no two processes of any repetitions have the same seed, under
    any schedule of any of the supervisors. *)
Theorem C57_worker_seeds_distinct :
  forall (D : Type) (stream : Z -> nat -> D) (Config Out : Type) (cegis : Config -> prog D Out) c
         (success : @res Out -> bool) (w : nat -> nat -> option (@res Out)) (sched : nat -> nat -> event) (n : nat -> nat)
         i id i' id',
    let started k := s_started (after success (w k) (Z.to_nat N_PROCS) (sched k) (n k)) in
    (id < started i)%nat -> (id' < started i')%nat -> (i, id) <> (i', id') ->
    r_seed (benchmark_worker stream cegis c i id) <> r_seed (benchmark_worker stream cegis c i' id').
Proof.
  intros D stream Config Out cegis c success w sched n i id i' id' started H H' N.
  assert (B : forall k, (started k <= 4)%nat).
  { intros k. unfold started. destruct (after_inv success (w k) (Z.to_nat N_PROCS) (sched k) (n k)) as (_ & _ & B & _).
    exact B. }
  pose proof (B i). pose proof (B i').
  unfold benchmark_worker, worker. rewrite !solve_seed. cbn [manual_seed g_seed initial_seed].
  unfold BASE_SEED, N_PROCS. intros E. apply N.
  assert (i = i') by lia. subst. f_equal. lia.
Qed.
(** Together the workers of [m] repetitions have the seeds 167, 168, ..., 167 + 4 m - 1. *)
Theorem C57_worker_seeds_consecutive :
  forall (D : Type) (stream : Z -> nat -> D) (Config Out : Type) (cegis : Config -> prog D Out) c m,
    flat_map (fun i => map (fun id => r_seed (benchmark_worker stream cegis c i id)) (seq 0 (Z.to_nat N_PROCS))) (seq 0 m) =
    map (fun k => 167 + Z.of_nat k) (seq 0 (4 * m)).
Proof.
  intros. induction m as [|m IH]; [reflexivity|].
  replace (4 * S m)%nat with (4 * m + 4)%nat by lia. rewrite seq_app, map_app, <- IH.
  rewrite seq_S, flat_map_app. f_equal. cbn [flat_map Nat.add]. rewrite app_nil_r.
  change (Z.to_nat N_PROCS) with 4%nat. cbn [seq map].
  unfold benchmark_worker, worker. rewrite !solve_seed. cbn [manual_seed g_seed initial_seed].
  unfold BASE_SEED, N_PROCS. do 3 (f_equal; [lia|]). f_equal. lia.
Qed.

(** Without a SEED, [synthesise] continues the generator but still records its seed: two
    runs in one process can record the same seed and differ, so the record does not
    determine the result. *)
Theorem C57_unseeded_refuted :
  exists (stream : Z -> nat -> Z) (cegis : unit -> prog Z Z) g,
    let '(r1, g1) := synthesise stream cegis tt None g in
    let '(r2, _) := synthesise stream cegis tt None g1 in
    r_seed r1 = r_seed r2 /\ r_out r1 <> r_out r2 /\
    fst (synthesise stream cegis tt (Some (r_seed r2)) g1) <> r2.
Proof.
  exists (fun s n => s + Z.of_nat n), (fun _ => Draw (fun d => Ret d)), (manual_seed 5). cbn.
  repeat split; discriminate.
Qed.

Example C57_example :
  let stream := fun (s : Z) (n : nat) => s * s + Z.of_nat n in
  let cegis := fun _ : unit => Draw (fun a => Draw (fun b => Ret (a + b))) in
  map (@r_seed Z) (fst (run_benchmark stream cegis tt 3 (manual_seed 0))) = [167; 171; 175] /\
  r_seed (benchmark_worker stream cegis tt 1 2) = 173.
Proof. split; reflexivity. Qed.
