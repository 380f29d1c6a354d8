(** C41: samples that meet the hypotheses and pass the stopping tests. *)
From Coq Require Import Reals List Bool Arith Lra Lia.
From Verif Require Import M_Syntax M_Certificates M_Verifier M_Activations M_Domains M_Network M_Learner M_Cegis
  M_Learning S_Learning L_Learner P_Learning.
Import ListNotations.
Local Open Scope R_scope.

(** x' = -x, B = x - 1; of the two samples of the domain the second lies in the belt. *)
Definition shift (x : point) : R := hd 0 x - 1.
Definition along (x v : point) : R := hd 0 v.
Definition line_samples : dict := [(XD, [[0]; [3]]); (XI, [[0]]); (XU, [[4]])].
Definition line_images : dict := map (fun e => (fst e, map (map Ropp) (snd e))) line_samples.
Example C41_barrier_samples_example : exists b,
  images_of (map Ropp) None line_samples line_images /\
  dlookup XD line_samples = Some [[0]; [3]] /\ dlookup XI line_samples = Some [[0]] /\ dlookup XU line_samples = Some [[4]] /\
  barrier_batch shift along None line_samples line_images = Some b /\ barrier_ok relu false b = Some true /\
  (exists x, In x [[0]; [3]] /\ in_belt false (shift x)) /\ (exists x, In x [[0]; [3]] /\ ~ in_belt false (shift x)).
Proof.
  assert (I : images_of (map Ropp) None line_samples line_images) by (right; split; reflexivity).
  eexists. split; [exact I|]. do 3 (split; [reflexivity|]).
  split. { apply (C40_barrier shift along (map Ropp) None line_samples line_images [[0]; [3]] [[0]] [[4]]); auto. }
  split; [|split].
  - cbn [map]. match goal with |- barrier_ok _ _ (?bi, ?bu, ?bd, ?bdd) = _ =>
      destruct (C41_barrier relu false bi bu bd bdd) as (ok & n & bad & E & N1 & N2 & K); [left; discriminate|] end.
    rewrite E. f_equal. apply K. clear E K.
    split; [repeat constructor; unfold shift; cbn; lra|]. split; [repeat constructor; unfold shift; cbn; lra|].
    assert (Hn : n = 1%nat).
    { eapply number_of_unique; [exact N1|]. exists [1%nat]. split; [repeat constructor; easy|]. split; [|reflexivity].
      intros i. split.
      - intros [<-|[]]. do 2 eexists. do 2 (split; [reflexivity|]). unfold in_belt, shift. cbn. lra.
      - intros (a & c & E1 & E2 & Hb). destruct i as [|[|[|i]]]; cbn in E1; try discriminate; [|now left].
        injection E1 as <-. unfold in_belt, shift in Hb. cbn in Hb. lra. }
    assert (Hb : bad = 0%nat).
    { eapply number_of_unique; [exact N2|]. exists []. split; [constructor|]. split; [|reflexivity].
      intros i. split; [easy|]. intros (a & c & E1 & E2 & _ & Hc).
      destruct i as [|[|[|i]]]; cbn in E2; try discriminate; injection E2 as <-; unfold along in Hc; cbn in Hc; lra. }
    subst. split; lia.
  - exists [3]. split; [now right; left|]. unfold in_belt, shift. cbn. lra.
  - exists [0]. split; [now left|]. unfold in_belt, shift. cbn. lra.
Qed.

(** V = x^2 with its derivative -2x^2: accuracy 100 on the samples. *)
Definition parabola (x : point) : R := hd 0 x * hd 0 x.
Definition parabola_along (x v : point) : R := 2 * hd 0 x * hd 0 v.
Example C41_lyapunov_samples_example : exists b,
  images_of (map Ropp) None line_samples line_images /\ dlookup XD line_samples = Some [[0]; [3]] /\
  lyapunov_batch parabola parabola_along None line_samples line_images = Some b /\ lyapunov_ok relu false b = Some true.
Proof.
  assert (I : images_of (map Ropp) None line_samples line_images) by (right; split; reflexivity).
  assert (E := C40_lyapunov_roa parabola parabola_along (map Ropp) None line_samples line_images [[0]; [3]] I eq_refl).
  eexists. split; [exact I|]. split; [reflexivity|]. split; [exact E|].
  apply (C41_lyapunov_roa_samples relu false parabola parabola_along (map Ropp) None line_samples line_images [[0]; [3]] _ I eq_refl); [discriminate|exact E|].
  intros x Hx. unfold parabola, parabola_along. destruct Hx as [<-|[<-|[]]]; cbn; split; intros; lra.
Qed.
