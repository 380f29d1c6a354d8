(** Compactness of boxes in R^n (no choice): local positivity implies a uniform
    positive lower bound. *)
From Coq Require Import Reals Lra Lia Classical Arith.
From Coquelicot Require Import Coquelicot.
From Verif Require Import M_Syntax S_Dynamics S_Certificates L_Calculus.
Local Open Scope R_scope.

Lemma interval_induction (Q : R -> Prop) a b :
  a <= b -> Q a ->
  (forall v, a <= v <= b -> exists e, 0 < e /\
     forall u w, a <= u <= v -> v - e < u -> a <= w <= b -> w < v + e -> Q u -> Q w) ->
  Q b.
Proof.
  intros Hab Qa Hstep.
  destruct (completeness (fun t => a <= t <= b /\ Q t)) as [m [Hub Hlub]].
  - exists b. intros t [Ht _]. lra.
  - exists a. split; [lra|exact Qa].
  - assert (Hm : a <= m <= b).
    { split; [apply Hub; split; [lra|exact Qa]|]. apply Hlub. intros t [Ht _]. lra. }
    destruct (Hstep m Hm) as (e & He & H).
    assert (Hex : exists u, a <= u <= m /\ m - e < u /\ Q u).
    { apply NNPP. intros Hno. assert (m <= m - e); [|lra]. apply Hlub.
      intros t [Ht HQ]. apply Rnot_lt_le. intros Hlt. apply Hno. exists t. repeat split; try lra; auto.
      }
    destruct Hex as (u & Hu1 & Hu2 & HQ).
    assert (Hw : forall w, a <= w <= b -> w < m + e -> Q w).
    { intros w Hw1 Hw2. apply (H u w); auto. }
    destruct (Rle_lt_dec b m) as [Hbm|Hbm]; [apply Hw; lra|].
    set (w := Rmin b (m + e / 2)).
    assert (m < w) by (unfold w; apply Rmin_glb_lt; lra).
    assert (w <= b) by apply Rmin_l. assert (w <= m + e/2) by apply Rmin_r.
    assert (HQw : Q w) by (apply Hw; lra).
    assert (w <= m) by (apply Hub; split; [lra|exact HQw]). lra.
Qed.

Definition in_box (n : nat) (r : R) (s : state) : Prop :=
  forall i, (i < n)%nat -> - r <= s i <= r.

Definition close (n : nat) (e : R) (p s : state) : Prop :=
  forall i, (i < n)%nat -> Rabs (s i - p i) < e.

(** [P e s]: a family of properties of states, stronger for larger [e]; if near
    every point of the box some positive [e] works, then one works for the box. *)
Lemma box_uniform n r (P : R -> state -> Prop) :
  0 <= r ->
  (forall e e' s, 0 < e' <= e -> P e s -> P e' s) ->
  (forall p, in_box n r p -> exists d e, 0 < d /\ 0 < e /\
     forall s, in_box n r s -> close n d p s -> P e s) ->
  exists e, 0 < e /\ forall s, in_box n r s -> P e s.
Proof.
  intros Hr Hmono Hloc.
  assert (Hk : forall k, (k <= n)%nat -> forall p, in_box n r p ->
    exists d e, 0 < d /\ 0 < e /\
      forall s, in_box n r s -> (forall i, (k <= i < n)%nat -> Rabs (s i - p i) < d) -> P e s).
  { induction k as [|k IH]; intros Hkn p Hp.
    - destruct (Hloc p Hp) as (d & e & Hd & He & H). exists d, e. repeat split; auto.
      intros s Hs Hc. apply H; auto. intros i Hi. apply Hc. lia.
    - set (Q := fun v => exists d e, 0 < d /\ 0 < e /\
        forall s, in_box n r s -> s k <= v ->
          (forall i, (S k <= i < n)%nat -> Rabs (s i - p i) < d) -> P e s).
      assert (HQ : Q r).
      { apply (interval_induction Q (- r) r); [lra| |].
        - destruct (IH ltac:(lia) (fun i => if Nat.eq_dec i k then - r else p i)) as (d & e & Hd & He & H).
          { intros i Hi. destruct (Nat.eq_dec i k); [lra|auto]. }
          exists d, e. repeat split; auto. intros s Hs Hle Hc. apply H; auto.
          intros i Hi. destruct (Nat.eq_dec i k) as [->|Hne].
          + assert (Hsk := Hs k ltac:(lia)). replace (s k - - r) with 0 by lra.
            rewrite Rabs_R0. exact Hd.
          + apply Hc. lia.
        - intros v Hv.
          destruct (IH ltac:(lia) (fun i => if Nat.eq_dec i k then v else p i)) as (d & e & Hd & He & H).
          { intros i Hi. destruct (Nat.eq_dec i k); [lra|auto]. }
          exists d. split; [exact Hd|].
          intros u w Hu1 Hu2 Hw1 Hw2 (d' & e' & Hd' & He' & H').
          exists (Rmin d d'), (Rmin e e'). split; [apply Rmin_glb_lt; auto|].
          assert (Hm : 0 < Rmin e e') by (apply Rmin_glb_lt; auto).
          split; [exact Hm|]. intros s Hs Hle Hc.
          destruct (Rle_lt_dec (s k) u) as [Hsu|Hsu].
          + apply (Hmono e'); [split; [exact Hm|apply Rmin_r]|]. apply H'; auto.
            intros i Hi. apply Rlt_le_trans with (Rmin d d'); [auto|apply Rmin_r].
          + apply (Hmono e); [split; [exact Hm|apply Rmin_l]|]. apply H; auto.
            intros i Hi. destruct (Nat.eq_dec i k) as [->|Hne].
            * apply Rabs_def1; lra.
            * apply Rlt_le_trans with (Rmin d d'); [apply Hc; lia|apply Rmin_l]. }
      destruct HQ as (d & e & Hd & He & H). exists d, e. repeat split; auto.
      intros s Hs Hc. apply H; auto. assert (Hsk := Hs k ltac:(lia)). lra. }
  destruct (Hk n (Nat.le_refl n) (fun _ => 0)) as (d & e & Hd & He & H).
  - intros i Hi. lra.
  - exists e. split; auto. intros s Hs. apply H; auto. intros i Hi. lia.
Qed.

(** A function continuous on the box and positive on a relatively closed part K
    of it has a positive lower bound on K. *)
Lemma box_positive_min n r (K : state -> Prop) (h : state -> R) :
  0 <= r ->
  (forall p, in_box n r p -> ~ K p -> exists d, 0 < d /\ forall s, close n d p s -> ~ K s) ->
  (forall p, in_box n r p -> K p -> cont_at n h p) ->
  (forall p, in_box n r p -> K p -> 0 < h p) ->
  exists e, 0 < e /\ forall s, in_box n r s -> K s -> e <= h s.
Proof.
  intros Hr Hcl Hc Hp.
  apply (box_uniform n r (fun e s => K s -> e <= h s) Hr).
  - intros e e' s He H HK. specialize (H HK). lra.
  - intros p Hbp. destruct (classic (K p)) as [HK|HK].
    + assert (Hpos := Hp p Hbp HK).
      destruct (Hc p Hbp HK (h p / 2)) as (d & Hd & H); [lra|].
      exists d, (h p / 2). repeat split; try lra. intros s _ Hs _.
      specialize (H s Hs). apply Rabs_def2 in H. lra.
    + destruct (Hcl p Hbp HK) as (d & Hd & H). exists d, 1. repeat split; try lra.
      intros s _ Hs Hk. exfalso. exact (H s Hs Hk).
Qed.

(** A function continuous on the box is bounded below there. *)
Lemma box_bounded_below n r (K : state -> Prop) (h : state -> R) :
  0 <= r ->
  (forall p, in_box n r p -> ~ K p -> exists d, 0 < d /\ forall s, close n d p s -> ~ K s) ->
  (forall p, in_box n r p -> K p -> cont_at n h p) ->
  exists m, forall s, in_box n r s -> K s -> m <= h s.
Proof.
  intros Hr Hcl Hc.
  destruct (box_uniform n r (fun e s => K s -> - / e <= h s) Hr) as (e & He & H).
  - intros e e' s He H HK. specialize (H HK).
    assert (/ e <= / e') by (apply Rinv_le_contravar; lra). lra.
  - intros p Hbp. destruct (classic (K p)) as [HK|HK].
    + destruct (Hc p Hbp HK 1) as (d & Hd & H); [lra|].
      exists d, (/ (Rabs (h p) + 1)). assert (0 <= Rabs (h p)) by apply Rabs_pos.
      repeat split; auto; [apply Rinv_0_lt_compat; lra|].
      intros s _ Hs _. rewrite Rinv_inv. specialize (H s Hs). apply Rabs_def2 in H.
      assert (- Rabs (h p) <= h p); [|lra].
      destruct (Rcase_abs (h p)); [rewrite Rabs_left by lra; lra|rewrite Rabs_right by lra; lra].
    + destruct (Hcl p Hbp HK) as (d & Hd & H). exists d, 1. repeat split; try lra.
      intros s _ Hs Hk. exfalso. exact (H s Hs Hk).
  - exists (- / e). exact H.
Qed.

(** Max norm of the first [n] components. *)
Fixpoint maxnorm (n : nat) (s : state) : R :=
  match n with
  | O => 0
  | S m => Rmax (maxnorm m s) (Rabs (s m))
  end.

Lemma maxnorm_nonneg n s : 0 <= maxnorm n s.
Proof.
  destruct n; simpl; [lra|]. apply Rle_trans with (Rabs (s n)); [apply Rabs_pos|apply Rmax_r].
Qed.

Lemma maxnorm_lt n s e : 0 < e -> (maxnorm n s < e <-> near n e s).
Proof.
  intros He. induction n as [|n IH]; simpl.
  - split; [intros _ i Hi; lia|auto].
  - rewrite Rmax_Rlt, IH. unfold near. split.
    + intros [H1 H2] i Hi. destruct (Nat.eq_dec i n) as [->|]; auto. apply H1. lia.
    + intros H. split; [intros i Hi; apply H; lia|apply H; lia].
Qed.

Lemma maxnorm_le_box n s e : 0 <= e -> (maxnorm n s <= e <-> in_box n e s).
Proof.
  intros He. induction n as [|n IH]; simpl.
  - split; [intros _ i Hi; lia|auto].
  - split.
    + intros H i Hi. assert (H1 := Rmax_l (maxnorm n s) (Rabs (s n))).
      assert (H2 := Rmax_r (maxnorm n s) (Rabs (s n))).
      destruct (Nat.eq_dec i n) as [->|]; [apply Rabs_le_between; lra|].
      apply (proj1 IH); [lra|lia].
    + intros H. apply Rmax_lub; [apply IH; intros i Hi; apply H; lia|].
      apply Rabs_le_between. apply H. lia.
Qed.

Lemma maxnorm_cont n k p : (k <= n)%nat -> cont_at n (maxnorm k) p.
Proof.
  intros Hk e He. exists e. split; [exact He|]. intros s Hs.
  induction k as [|k IH]; simpl.
  - rewrite Rminus_diag_eq, Rabs_R0; auto.
  - specialize (IH ltac:(lia)). specialize (Hs k ltac:(lia)).
    assert (Rabs (Rabs (s k) - Rabs (p k)) < e).
    { apply Rle_lt_trans with (Rabs (s k - p k)); [apply Rabs_triang_inv2|exact Hs]. }
    revert IH H. generalize (maxnorm k s) (maxnorm k p) (Rabs (s k)) (Rabs (p k)).
    intros A B C D H1 H2. apply Rabs_def2 in H1. apply Rabs_def2 in H2.
    unfold Rmax. destruct (Rle_dec A C); destruct (Rle_dec B D); apply Rabs_def1; lra.
Qed.

Lemma maxnorm_zero n s : maxnorm n s = 0 <-> origin n s.
Proof.
  split.
  - intros H i Hi. assert (Hb := proj1 (maxnorm_le_box n s 0 ltac:(lra)) ltac:(lra) i Hi). lra.
  - intros H. apply Rle_antisym; [|apply maxnorm_nonneg].
    apply maxnorm_le_box; [lra|]. intros i Hi. rewrite (H i Hi). lra.
Qed.

(** Composition of a continuous function with a path of continuous components. *)
Lemma cont_along n (h : state -> R) (x : R -> state) t :
  cont_at n h (x t) -> (forall i, (i < n)%nat -> continuous (fun u => x u i) t) ->
  continuous (fun u => h (x u)) t.
Proof.
  intros Hh Hx.
  assert (Hd : forall k d, (k <= n)%nat -> 0 < d -> exists e, 0 < e /\
     forall u, Rabs (u - t) < e -> forall i, (i < k)%nat -> Rabs (x u i - x t i) < d).
  { induction k as [|k IH]; intros d Hk Hd.
    - exists 1. split; [lra|]. intros u _ i Hi. lia.
    - destruct (IH d ltac:(lia) Hd) as (e1 & He1 & H1).
      destruct (continuous_eps _ t (Hx k ltac:(lia)) d Hd) as (e2 & He2 & H2).
      exists (Rmin e1 e2). split; [apply Rmin_glb_lt; auto|]. intros u Hu i Hi.
      destruct (Nat.eq_dec i k) as [->|].
      + apply H2. apply Rlt_le_trans with (1 := Hu). apply Rmin_r.
      + apply H1; [|lia]. apply Rlt_le_trans with (1 := Hu). apply Rmin_l. }
  intros P [e He].
  destruct (Hh e (cond_pos e)) as (d & Hdp & H).
  destruct (Hd n d (Nat.le_refl n) Hdp) as (e' & He' & H').
  exists (mkposreal e' He'). intros u Hu. apply He. apply H. intros i Hi. now apply H'.
Qed.

(** Leaving a closed sublevel set {h <= c} passes the level set {h = c}. *)
Lemma level_crossing (g : R -> R) a b :
  a <= b -> (forall t, a <= t <= b -> continuous g t) ->
  g a <= 0 -> 0 < g b ->
  exists t, a <= t <= b /\ g t = 0 /\ forall u, a <= u <= t -> g u <= 0.
Proof.
  intros Hab Hc Ha Hb.
  destruct (sup_prefix (fun t => g t <= 0) a b Hab Ha) as (m & Hm & Hle & Hend).
  assert (Hmle : g m <= 0).
  { apply Rnot_lt_le. intros Hpos.
    destruct (Req_dec a m) as [<-|Hne]; [lra|].
    destruct (continuous_eps g m (Hc m Hm) (g m) Hpos) as (d & Hd & Hcl).
    set (u := Rmax a (m - d / 2)).
    assert (Hu1 : a <= u) by apply Rmax_l. assert (Hu2 : m - d/2 <= u) by apply Rmax_r.
    assert (Hu3 : u < m) by (unfold u; apply Rmax_lub_lt; lra).
    assert (H := Hle u ltac:(lra)). specialize (Hcl u). rewrite Rabs_left in Hcl by lra.
    assert (H' := Hcl ltac:(lra)). apply Rabs_def2 in H'. lra. }
  exists m. split; [exact Hm|]. split.
  - apply Rle_antisym; [exact Hmle|]. apply Rnot_lt_le. intros Hneg.
    destruct (Req_dec m b) as [->|Hne]; [lra|].
    destruct (Hend ltac:(lra)) as [Hn|Hn]; [lra|].
    destruct (continuous_eps g m (Hc m Hm) (- g m)) as (d & Hd & Hcl); [lra|].
    destruct (Hn d Hd) as (u & Hu & _ & Hnu). apply Hnu.
    specialize (Hcl u). rewrite Rabs_right in Hcl by lra.
    assert (H' := Hcl ltac:(lra)). apply Rabs_def2 in H'. lra.
  - intros u Hu. destruct (Req_dec u m) as [->|]; [exact Hmle|]. apply Hle. lra.
Qed.

(** Topological boundary of a set of states. *)
Definition on_boundary (n : nat) (K : state -> Prop) (p : state) : Prop :=
  forall e, 0 < e -> (exists s, close n e p s /\ K s) /\ (exists s, close n e p s /\ ~ K s).

Lemma close_self n e p : 0 < e -> close n e p p.
Proof. intros He i Hi. rewrite Rminus_diag_eq, Rabs_R0; auto. Qed.

(** Components of a path are uniformly close near a time. *)
Lemma path_close n (x : R -> state) t d :
  0 < d -> (forall i, (i < n)%nat -> continuous (fun u => x u i) t) ->
  exists e, 0 < e /\ forall u, Rabs (u - t) < e -> close n d (x t) (x u).
Proof.
  intros Hd. induction n as [|n IH]; intros Hx.
  - exists 1. split; [lra|]. intros u _ i Hi. lia.
  - destruct IH as (e1 & He1 & H1); [intros i Hi; apply Hx; lia|].
    destruct (continuous_eps _ t (Hx n ltac:(lia)) d Hd) as (e2 & He2 & H2).
    exists (Rmin e1 e2). split; [apply Rmin_glb_lt; auto|]. intros u Hu i Hi.
    destruct (Nat.eq_dec i n) as [->|].
    + apply H2. apply Rlt_le_trans with (1 := Hu). apply Rmin_r.
    + apply H1; [|lia]. apply Rlt_le_trans with (1 := Hu). apply Rmin_l.
Qed.

(** A path leaving a set meets its boundary, having been in the set before. *)
Lemma boundary_fence n (K dK : state -> Prop) :
  (forall p, on_boundary n K p -> dK p) -> fence n K dK.
Proof.
  intros Hb x a b Hab Hx Ha Hnb.
  destruct (sup_prefix (fun t => K (x t)) a b Hab Ha) as (m & Hm & Hin & Hend).
  exists m. split; [exact Hm|]. split; [|exact Hin].
  apply Hb. intros e He.
  destruct (path_close n x m e He (Hx m Hm)) as (d & Hd & Hcl). split.
  - destruct (Req_dec a m) as [<-|Hne].
    + exists (x a). split; [now apply close_self|exact Ha].
    + set (u := Rmax a (m - d / 2)).
      assert (Hu1 : a <= u) by apply Rmax_l. assert (Hu2 : m - d/2 <= u) by apply Rmax_r.
      assert (Hu3 : u < m) by (unfold u; apply Rmax_lub_lt; lra).
      exists (x u). split; [apply Hcl; apply Rabs_def1; lra|]. apply Hin. lra.
  - destruct (Req_dec m b) as [->|Hne].
    + exists (x b). split; [now apply close_self|exact Hnb].
    + destruct (Hend ltac:(lra)) as [Hn|Hn].
      * exists (x m). split; [now apply close_self|exact Hn].
      * destruct (Hn d Hd) as (u & Hu & _ & Hnu).
        exists (x u). split; [apply Hcl; apply Rabs_def1; lra|exact Hnu].
Qed.

(** The boundary of a sublevel set of a continuous function is in the level set. *)
Lemma level_boundary n (h : state -> R) (K : state -> Prop) p :
  (forall s, h s < 0 -> K s) -> (forall s, 0 < h s -> ~ K s) ->
  cont_at n h p -> on_boundary n K p -> h p = 0.
Proof.
  intros H1 H2 Hc Hb. destruct (Rtotal_order (h p) 0) as [Hlt|[|Hgt]]; auto; exfalso.
  - destruct (Hc (- h p)) as (d & Hd & H); [lra|].
    destruct (Hb d Hd) as [_ (s & Hs & Hn)]. apply Hn. apply H1.
    specialize (H s Hs). apply Rabs_def2 in H. lra.
  - destruct (Hc (h p)) as (d & Hd & H); [lra|].
    destruct (Hb d Hd) as [(s & Hs & Hn) _]. revert Hn. apply H2.
    specialize (H s Hs). apply Rabs_def2 in H. lra.
Qed.
