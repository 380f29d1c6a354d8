(** Scalar calculus lemmas: crossing and monotonicity arguments. *)
From Coq Require Import Reals Lra Classical.
From Coquelicot Require Import Coquelicot.
Local Open Scope R_scope.

Lemma is_derive_continuous (g : R -> R) t l : is_derive g t l -> continuous g t.
Proof. intros H. apply (ex_derive_continuous (V := R_NormedModule)). now exists l. Qed.

(** epsilon-delta forms *)
Lemma continuous_eps (g : R -> R) t :
  continuous g t -> forall e, 0 < e -> exists d, 0 < d /\
    forall u, Rabs (u - t) < d -> Rabs (g u - g t) < e.
Proof.
  intros H e He.
  assert (Hl : locally (g t) (fun y => Rabs (y - g t) < e)).
  { exists (mkposreal e He). intros y Hy. exact Hy. }
  destruct (H _ Hl) as [d Hd].
  exists d. split; [apply cond_pos|]. intros u Hu. apply Hd. exact Hu.
Qed.

Lemma is_derive_eps (g : R -> R) t l :
  is_derive g t l -> forall e, 0 < e -> exists d, 0 < d /\
    forall h, h <> 0 -> Rabs h < d -> Rabs ((g (t + h) - g t) / h - l) < e.
Proof.
  intros H e He. apply is_derive_Reals in H.
  destruct (H e He) as [d Hd]. exists d. split; [apply cond_pos|]. intros h Hh Hlt.
  now apply Hd.
Qed.

(** Negative derivative: larger just before, smaller just after. *)
Lemma derive_neg_before (g : R -> R) t l :
  is_derive g t l -> l < 0 -> exists d, 0 < d /\ forall u, t - d < u < t -> g t < g u.
Proof.
  intros H Hl. destruct (is_derive_eps g t l H (- l)) as (d & Hd & Hq); [lra|].
  exists d. split; [exact Hd|]. intros u Hu.
  specialize (Hq (u - t)). replace (t + (u - t)) with u in Hq by ring.
  assert (Hq' : Rabs ((g u - g t) / (u - t) - l) < - l).
  { apply Hq; [lra|]. rewrite Rabs_left; lra. }
  apply Rabs_def2 in Hq'. destruct Hq' as [Hq' _].
  assert (Hneg : (g u - g t) / (u - t) < 0) by lra.
  assert (E : g u - g t = (g u - g t) / (u - t) * (u - t)) by (field; lra).
  assert (0 < (g u - g t) / (u - t) * (u - t)) by nra. lra.
Qed.

Lemma derive_neg_after (g : R -> R) t l :
  is_derive g t l -> l < 0 -> exists d, 0 < d /\ forall u, t < u < t + d -> g u < g t.
Proof.
  intros H Hl. destruct (is_derive_eps g t l H (- l)) as (d & Hd & Hq); [lra|].
  exists d. split; [exact Hd|]. intros u Hu.
  specialize (Hq (u - t)). replace (t + (u - t)) with u in Hq by ring.
  assert (Hq' : Rabs ((g u - g t) / (u - t) - l) < - l).
  { apply Hq; [lra|]. rewrite Rabs_right; lra. }
  apply Rabs_def2 in Hq'. destruct Hq' as [Hq' _].
  assert (Hneg : (g u - g t) / (u - t) < 0) by lra.
  assert (E : g u - g t = (g u - g t) / (u - t) * (u - t)) by (field; lra).
  assert ((g u - g t) / (u - t) * (u - t) < 0) by nra. lra.
Qed.

(** Largest initial interval on which a predicate holds. *)
Lemma sup_prefix (P : R -> Prop) a b :
  a <= b -> P a -> exists m, a <= m <= b /\
    (forall u, a <= u < m -> P u) /\
    (m < b -> ~ P m \/ forall d, 0 < d -> exists u, m < u < m + d /\ u <= b /\ ~ P u).
Proof.
  intros Hab Pa.
  set (E := fun t => a <= t <= b /\ forall u, a <= u <= t -> P u).
  assert (HEa : E a).
  { split; [lra|]. intros u Hu. replace u with a by lra. exact Pa. }
  destruct (completeness E) as [m [Hub Hlub]].
  - exists b. intros t [Ht _]. lra.
  - now exists a.
  - assert (Hma : a <= m) by (apply Hub; exact HEa).
    assert (Hmb : m <= b). { apply Hlub. intros t [Ht _]. lra. }
    exists m. split; [lra|]. split.
    + intros u Hu. apply NNPP. intros Hn.
      assert (m <= u); [|lra]. apply Hlub. intros t [Ht HP].
      apply Rnot_lt_le. intros Hlt. apply Hn. apply HP. lra.
    + intros Hlt. destruct (classic (P m)) as [Pm|Pm]; [right|now left].
      intros d Hd. apply NNPP. intros Hno.
      set (t := Rmin (m + d / 2) b).
      assert (Ht : m < t). { unfold t. apply Rmin_glb_lt; lra. }
      assert (Ht2 : t <= b) by apply Rmin_r.
      assert (Ht3 : t <= m + d/2) by apply Rmin_l.
      assert (HE : E t).
      { split; [lra|]. intros u Hu. destruct (Rlt_le_dec u m) as [Hum|Hum].
        - apply NNPP. intros Hn. assert (m <= u); [|lra]. apply Hlub. intros t' [Ht' HP].
          apply Rnot_lt_le. intros Hlt'. apply Hn. apply HP. lra.
        - destruct (Req_dec u m) as [->|Hne]; [exact Pm|].
          apply NNPP. intros Hn. apply Hno. exists u. repeat split; try lra. exact Hn. }
      apply Hub in HE. lra.
Qed.

(** First time a continuous function becomes nonnegative. *)
Lemma first_crossing (g : R -> R) a b :
  a <= b -> (forall t, a <= t <= b -> continuous g t) ->
  g a < 0 -> 0 <= g b ->
  exists m, a < m <= b /\ g m = 0 /\ forall u, a <= u < m -> g u < 0.
Proof.
  intros Hab Hc Ha Hb.
  destruct (sup_prefix (fun t => g t < 0) a b Hab Ha) as (m & Hm & Hlt & Hend).
  assert (Hm0 : 0 <= g m).
  { apply Rnot_lt_le. intros Hneg.
    destruct (continuous_eps g m (Hc m Hm) (- g m)) as (d & Hd & Hcl); [lra|].
    destruct (Rle_lt_or_eq_dec m b (proj2 Hm)) as [Hmb|Hmb].
    - destruct (Hend Hmb) as [Hn|Hn]; [lra|].
      destruct (Hn d Hd) as (u & Hu & _ & Hnu). apply Hnu.
      specialize (Hcl u). rewrite Rabs_right in Hcl by lra.
      assert (H := Hcl ltac:(lra)). apply Rabs_def2 in H. lra.
    - subst m. lra. }
  assert (Ham : a < m).
  { destruct (Rle_lt_or_eq_dec a m (proj1 Hm)); auto. subst m. lra. }
  exists m. split; [lra|]. split; [|exact Hlt].
  apply Rle_antisym; [|exact Hm0].
  apply Rnot_lt_le. intros Hpos.
  destruct (continuous_eps g m (Hc m Hm) (g m) Hpos) as (d & Hd & Hcl).
  set (u := Rmax a (m - d / 2)).
  assert (Hu1 : a <= u) by apply Rmax_l.
  assert (Hu2 : m - d/2 <= u) by apply Rmax_r.
  assert (Hu3 : u < m). { unfold u. apply Rmax_lub_lt; lra. }
  assert (H := Hlt u ltac:(lra)).
  specialize (Hcl u). rewrite Rabs_left in Hcl by lra.
  assert (H' := Hcl ltac:(lra)). apply Rabs_def2 in H'. lra.
Qed.

(** A function that starts at most 0 and has negative derivative wherever it is
    0 stays at most 0. *)
Lemma barrier_nonpos (g dg : R -> R) a b :
  a <= b -> (forall t, a <= t <= b -> is_derive g t (dg t)) ->
  g a <= 0 -> (forall t, a <= t <= b -> g t = 0 -> dg t < 0) ->
  forall t, a <= t <= b -> g t <= 0.
Proof.
  intros Hab Hd Ha Hz t0 Ht0. apply Rnot_lt_le. intros Hpos.
  destruct (sup_prefix (fun t => g t <= 0) a t0 (proj1 Ht0) Ha) as (m & Hm & Hle & Hend).
  assert (Hmd := Hd m ltac:(lra)).
  assert (Hmc := is_derive_continuous _ _ _ Hmd).
  assert (Hm0 : g m <= 0).
  { apply Rnot_lt_le. intros Hgm.
    destruct (Rle_lt_or_eq_dec a m (proj1 Hm)) as [Ham|Ham]; [|subst m; lra].
    destruct (continuous_eps g m Hmc (g m) Hgm) as (d & Hdp & Hcl).
    set (u := Rmax a (m - d / 2)).
    assert (Hu1 : a <= u) by apply Rmax_l.
    assert (Hu2 : m - d/2 <= u) by apply Rmax_r.
    assert (Hu3 : u < m). { unfold u. apply Rmax_lub_lt; lra. }
    assert (H := Hle u ltac:(lra)).
    specialize (Hcl u). rewrite Rabs_left in Hcl by lra.
    assert (H' := Hcl ltac:(lra)). apply Rabs_def2 in H'. lra. }
  destruct (Rle_lt_or_eq_dec m t0 (proj2 Hm)) as [Hmt|Hmt]; [|subst m; lra].
  destruct (Hend Hmt) as [Hn|Hn]; [lra|].
  destruct (Rle_lt_or_eq_dec (g m) 0 Hm0) as [Hneg|Hzero].
  - destruct (continuous_eps g m Hmc (- g m)) as (d & Hdp & Hcl); [lra|].
    destruct (Hn d Hdp) as (u & Hu & _ & Hnu). apply Hnu.
    specialize (Hcl u). rewrite Rabs_right in Hcl by lra.
    assert (H := Hcl ltac:(lra)). apply Rabs_def2 in H. lra.
  - assert (Hdn := Hz m ltac:(lra) Hzero).
    destruct (derive_neg_after g m (dg m) Hmd Hdn) as (d & Hdp & Hcl).
    destruct (Hn d Hdp) as (u & Hu & _ & Hnu). apply Hnu.
    assert (H := Hcl u ltac:(lra)). lra.
Qed.

(** Strict version. *)
Lemma barrier_neg (g dg : R -> R) a b :
  a <= b -> (forall t, a <= t <= b -> is_derive g t (dg t)) ->
  g a < 0 -> (forall t, a <= t <= b -> g t = 0 -> dg t < 0) ->
  forall t, a <= t <= b -> g t < 0.
Proof.
  intros Hab Hd Ha Hz t0 Ht0. apply Rnot_le_lt. intros Hpos.
  destruct (first_crossing g a t0) as (m & Hm & Hg0 & Hlt); try lra.
  - intros t Ht. apply (is_derive_continuous _ _ (dg t)). apply Hd. lra.
  - destruct (derive_neg_before g m (dg m)) as (d & Hdp & Hcl).
    + apply Hd. lra.
    + apply Hz; lra.
    + set (u := Rmax a (m - d / 2)).
      assert (Hu1 : a <= u) by apply Rmax_l.
      assert (Hu2 : m - d/2 <= u) by apply Rmax_r.
      assert (Hu3 : u < m). { unfold u. apply Rmax_lub_lt; lra. }
      assert (H := Hlt u ltac:(lra)). assert (H' := Hcl u ltac:(lra)). lra.
Qed.

(** Mean value forms. *)
Lemma mvt_bound (g dg : R -> R) a b k :
  a <= b -> (forall t, a <= t <= b -> is_derive g t (dg t)) ->
  (forall t, a <= t <= b -> dg t <= k) -> g b <= g a + k * (b - a).
Proof.
  intros Hab Hd Hk. destruct (MVT_gen g a b dg) as (c & Hc & E).
  - intros t Ht. rewrite Rmin_left, Rmax_right in Ht by lra. apply Hd. lra.
  - intros t Ht. rewrite Rmin_left, Rmax_right in Ht by lra.
    apply continuity_pt_filterlim. apply (is_derive_continuous _ _ (dg t)). apply Hd. lra.
  - rewrite Rmin_left, Rmax_right in Hc by lra.
    assert (H := Hk c Hc). nra.
Qed.

Lemma mvt_open_nonincreasing (g dg : R -> R) a b :
  a <= b -> (forall t, a <= t <= b -> continuous g t) ->
  (forall t, a < t < b -> is_derive g t (dg t)) ->
  (forall t, a < t < b -> dg t <= 0) -> g b <= g a.
Proof.
  intros Hab Hc Hd Hk.
  destruct (Req_dec a b) as [->|Hne]; [lra|].
  destruct (MVT_gen g a b (fun t => if Rlt_dec a t then if Rlt_dec t b then dg t else 0 else 0))
    as (c & Hc' & E).
  - intros t Ht. rewrite Rmin_left, Rmax_right in Ht by lra.
    destruct (Rlt_dec a t); [|lra]. destruct (Rlt_dec t b); [|lra]. apply Hd. lra.
  - intros t Ht. rewrite Rmin_left, Rmax_right in Ht by lra.
    apply continuity_pt_filterlim. now apply Hc.
  - assert (Hle : (if Rlt_dec a c then if Rlt_dec c b then dg c else 0 else 0) <= 0).
    { destruct (Rlt_dec a c); [|lra]. destruct (Rlt_dec c b); [|lra]. apply Hk. lra. }
    nra.
Qed.

Lemma mvt_open_decreasing (g dg : R -> R) a b :
  a < b -> (forall t, a <= t <= b -> is_derive g t (dg t)) ->
  (forall t, a <= t <= b -> dg t < 0) -> g b < g a.
Proof.
  intros Hab Hd Hk. destruct (MVT_gen g a b dg) as (c & Hc & E).
  - intros t Ht. rewrite Rmin_left, Rmax_right in Ht by lra. apply Hd. lra.
  - intros t Ht. rewrite Rmin_left, Rmax_right in Ht by lra.
    apply continuity_pt_filterlim. apply (is_derive_continuous _ _ (dg t)). apply Hd. lra.
  - rewrite Rmin_left, Rmax_right in Hc by lra.
    assert (H := Hk c Hc). nra.
Qed.

(** A derivative at an interior minimum is 0. *)
Lemma derive_at_min (g : R -> R) t l d :
  is_derive g t l -> 0 < d -> (forall u, t - d < u < t + d -> g t <= g u) -> l = 0.
Proof.
  intros H Hd Hmin.
  destruct (Rtotal_order l 0) as [Hl|[Hl|Hl]]; auto; exfalso.
  - destruct (derive_neg_after g t l H Hl) as (e & He & Hc).
    set (u := t + Rmin d e / 2).
    assert (0 < Rmin d e) by (apply Rmin_glb_lt; lra).
    assert (Rmin d e <= d) by apply Rmin_l. assert (Rmin d e <= e) by apply Rmin_r.
    assert (Hx1 := Hc u ltac:(unfold u; lra)). assert (Hx2 := Hmin u ltac:(unfold u; lra)). lra.
  - assert (H' : is_derive (fun x => - g x) t (- l)).
    { apply (is_derive_opp (V := R_NormedModule) g t l H). }
    destruct (derive_neg_before _ t (- l) H' ltac:(lra)) as (e & He & Hc).
    set (u := t - Rmin d e / 2).
    assert (0 < Rmin d e) by (apply Rmin_glb_lt; lra).
    assert (Rmin d e <= d) by apply Rmin_l. assert (Rmin d e <= e) by apply Rmin_r.
    assert (Hx1 := Hc u ltac:(unfold u; lra)). assert (Hx2 := Hmin u ltac:(unfold u; lra)). lra.
Qed.

Lemma is_derive_sub_const (g : R -> R) t l c :
  is_derive g t l -> is_derive (fun u => g u - c) t l.
Proof.
  intros H. replace l with (minus l zero).
  - apply (is_derive_minus (V := R_NormedModule) g (fun _ => c) t l zero H).
    apply (is_derive_const (V := R_NormedModule)).
  - unfold minus, plus, opp, zero; simpl. ring.
Qed.

(** A continuous function at most 0 just before [b] is at most 0 at [b]. *)
Lemma le_at_end (g : R -> R) a b :
  a < b -> continuous g b -> (forall t, a <= t < b -> g t <= 0) -> g b <= 0.
Proof.
  intros Hab Hc H. apply Rnot_lt_le. intros Hpos.
  destruct (continuous_eps g b Hc (g b) Hpos) as (d & Hd & Hcl).
  set (u := Rmax a (b - d / 2)).
  assert (Hu1 : a <= u) by apply Rmax_l. assert (Hu2 : b - d/2 <= u) by apply Rmax_r.
  assert (Hu3 : u < b) by (unfold u; apply Rmax_lub_lt; lra).
  assert (H' := H u ltac:(lra)). specialize (Hcl u). rewrite Rabs_left in Hcl by lra.
  assert (H2 := Hcl ltac:(lra)). apply Rabs_def2 in H2. lra.
Qed.

(** [barrier_nonpos] with the derivative condition on the half-open interval. *)
Lemma barrier_nonpos_open (g dg : R -> R) a b :
  a <= b -> (forall t, a <= t <= b -> is_derive g t (dg t)) ->
  g a <= 0 -> (forall t, a <= t < b -> g t = 0 -> dg t < 0) ->
  forall t, a <= t <= b -> g t <= 0.
Proof.
  intros Hab Hd Ha Hz.
  assert (Hin : forall t, a <= t < b -> g t <= 0).
  { intros t Ht. apply (barrier_nonpos g dg a t); try lra.
    - intros u Hu. apply Hd. lra.
    - intros u Hu. apply Hz. lra. }
  intros t Ht. destruct (Req_dec t b) as [->|]; [|apply Hin; lra].
  destruct (Req_dec a b) as [<-|]; [exact Ha|].
  apply (le_at_end g a b); try lra; auto.
  apply (is_derive_continuous _ _ (dg b)). apply Hd. lra.
Qed.
