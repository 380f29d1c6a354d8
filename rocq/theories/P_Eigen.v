(** C69: what [EigenCalculator] says about a linear system, and about the model it was obtained from. *)
From Coquelicot Require Import Coquelicot.
From Coq Require Import Reals QArith List Lra Lia Arith Bool Classical.
From Coquelicot Require Import Complex.
From Verif Require Import M_Syntax M_Model M_Linear S_Model S_Domains S_Certificates S_Dynamics S_Linear L_Calculus L_Topology L_Domains L_Network L_Frechet L_Quadratic L_Eigen P_Linear.
Import ListNotations.
Local Close Scope Q_scope.
Local Open Scope R_scope.

Lemma below_spec x y : below x y = true <-> x < y.
Proof. unfold below. destruct (Rlt_dec x y); split; easy. Qed.
Lemma all_below (l : list C) b : forallb (fun e : C => below (fst e) b) l = true <-> forall z, In z l -> fst z < b.
Proof. rewrite forallb_forall. split; intros H z Hz; specialize (H z Hz); now apply below_spec. Qed.
Lemma stable_spec ev n a : is_stable ev n a = true <-> forall z, In z (ev n a) -> fst z < 0. Proof. apply all_below. Qed.
Lemma sufficient_spec ev n a : is_sufficiently_stable ev n a = true <-> forall z, In z (ev n a) -> fst z < -1. Proof. apply all_below. Qed.
(** All motions shrink faster than any number above the real parts. *)
Lemma faster n a l b : eigenvalues n a l -> (forall z, In z l -> fst z < b) -> exists r, - b < r /\ decays n (linear n a) r.
Proof.
  intros He Hl. destruct (eigenvalues_form n a l (- b) He) as (P & mu' & Hm & _ & Hp & H).
  - intros z Hz. rewrite Ropp_involutive. now apply Hl.
  - exists mu'. split; [lra|]. now apply (quadratic_decays n (linear n a) P).
Qed.
Lemma decays_slower n f r r' : r' <= r -> decays n f r -> decays n f r'.
Proof.
  intros Hr (M & H). exists (Rabs M). intros x T HT Hx e He i Hi. eapply Rle_trans; [now apply (H x T HT Hx e He i Hi)|].
  assert (Pe : 0 < e). { specialize (He i Hi). assert (P := Rabs_pos (x 0 i)). lra. }
  assert (X : exp (- r * T) <= exp (- r' * T)). { destruct (Req_dec (- r * T) (- r' * T)) as [->|Ne]; [lra|]. left. apply exp_increasing. nra. }
  assert (P1 := exp_pos (- r * T)). assert (Mb := Rle_abs M). assert (Mp := Rabs_pos M).
  apply Rle_trans with (Rabs M * e * exp (- r * T)).
  - apply Rmult_le_compat_r; [lra|]. apply Rmult_le_compat_r; lra.
  - apply Rmult_le_compat_l; [|exact X]. apply Rmult_le_pos; lra.
Qed.
(** And no faster than any of them. *)
Lemma not_faster n a l r : eigenvalues n a l -> decays n (linear n a) r -> forall z, In z l -> fst z <= - r.
Proof.
  intros He (M & H) z Hz. apply Rnot_lt_le. intros K. destruct (eigen_motion n a l z He Hz) as (x & Sx & (i & Hi & Nx) & P).
  set (e := maxnorm n (x 0) + 1). assert (Ne : near n e (x 0)). { intros j Hj. unfold e. assert (G := maxnorm_ge n (x 0) j Hj). lra. }
  assert (Px : 0 < Rabs (x 0 i)) by now apply Rabs_pos_lt.
  set (q := Rabs (M * e / Rabs (x 0 i))). set (g := fst z + r). assert (Hg : 0 < g) by (unfold g; lra).
  destruct (P ((q + 1) / g)) as (t & T1 & T2 & E).
  assert (B := H x t T2). specialize (B ltac:(intros u [Hu _]; now apply Sx) e Ne i Hi). rewrite E, Rabs_mult, (Rabs_right (exp _)) in B by (left; apply exp_pos).
  assert (B2 : exp (g * t) <= q).
  { apply Rle_trans with (M * e / Rabs (x 0 i)); [|apply Rle_abs]. apply Rmult_le_reg_r with (Rabs (x 0 i)); [exact Px|].
    replace (M * e / Rabs (x 0 i) * Rabs (x 0 i)) with (M * e) by (field; lra).
    apply Rmult_le_reg_r with (exp (- r * t)); [apply exp_pos|].
    replace (exp (g * t) * Rabs (x 0 i) * exp (- r * t)) with (exp (g * t) * exp (- r * t) * Rabs (x 0 i)) by ring.
    rewrite <- exp_plus. replace (g * t + - r * t) with (fst z * t) by (unfold g; ring). exact B. }
  assert (G : q + 1 <= g * t). { apply Rmult_le_reg_l with (/ g); [now apply Rinv_0_lt_compat|]. rewrite <- Rmult_assoc, Rinv_l, Rmult_1_l by lra. unfold Rdiv in T1. lra. }
  assert (Q0 : 0 <= q) by apply Rabs_pos. assert (X := exp_ineq1 (g * t) ltac:(lra)). lra.
Qed.
Lemma solves_scaled n a x c : solves_forever n (linear n a) x -> solves_forever n (linear n a) (fun t i => c * x t i).
Proof.
  intros H t Ht i Hi. assert (D := H t Ht i Hi). unfold linear.
  rewrite (sum_below_ext n _ (fun j => c * (a i j * x t j))) by (intros; ring). rewrite sum_below_scal. now apply is_derive_scal.
Qed.
Lemma attractive_left n a l : eigenvalues n a l -> attractive n (linear n a) -> forall z, In z l -> fst z < 0.
Proof.
  intros He (d & Hd & H) z Hz. apply Rnot_le_lt. intros K. destruct (eigen_motion n a l z He Hz) as (x & Sx & (i & Hi & Nx) & P).
  set (c := d / (maxnorm n (x 0) + 1)). assert (Mx := maxnorm_ge n (x 0) i Hi). assert (Px : 0 < Rabs (x 0 i)) by now apply Rabs_pos_lt.
  assert (Hc : 0 < c) by (apply Rdiv_lt_0_compat; lra).
  destruct (H (fun t i => c * x t i)) with (e := c * Rabs (x 0 i)) as (T & HT).
  - now apply solves_scaled.
  - intros j Hj. rewrite Rabs_mult, (Rabs_right c) by lra. assert (G := maxnorm_ge n (x 0) j Hj).
    apply Rlt_le_trans with (c * (maxnorm n (x 0) + 1)); [apply Rmult_lt_compat_l; lra|]. unfold c. right. field. lra.
  - now apply Rmult_lt_0_compat.
  - destruct (P T) as (t & T1 & T2 & E). specialize (HT t T1 i Hi). cbn beta in HT. rewrite E, !Rabs_mult, (Rabs_right c), (Rabs_right (exp _)) in HT; [|left; apply exp_pos|lra].
    assert (X : 1 <= exp (fst z * t)). { rewrite <- exp_0. destruct (Req_dec 0 (fst z * t)) as [<-|Ne]; [lra|]. left. apply exp_increasing. assert (0 <= fst z * t) by now apply Rmult_le_pos. lra. }
    apply Rmult_lt_reg_l in HT; [|exact Hc]. assert (Rabs (x 0 i) <= exp (fst z * t) * Rabs (x 0 i)) by nra. lra.
Qed.

(** [is_stable] is the attraction of the origin; it then is also stable, and approached exponentially fast. *)
Theorem C69_is_stable :
  forall eigvals n a, eigenvalues n a (eigvals n a) ->
    (is_stable eigvals n a = true <-> attractive n (linear n a)) /\
    (is_stable eigvals n a = true <-> exists r, 0 < r /\ decays n (linear n a) r) /\
    (is_stable eigvals n a = true -> stable n (linear n a)).
Proof.
  intros ev n a He.
  assert (D : is_stable ev n a = true -> exists r, 0 < r /\ decays n (linear n a) r).
  { intros H. rewrite ?stable_spec, ?sufficient_spec in H. destruct (faster n a (ev n a) 0 He H) as (r & Hr & Dr). exists r. split; [lra|exact Dr]. }
  split; [split|split; [split|]].
  - intros H. destruct (D H) as (r & Hr & Dr). apply (decays_attractive n (linear n a) r Hr). now apply decays_local.
  - intros H. rewrite ?stable_spec, ?sufficient_spec. intros z Hz. now apply (attractive_left n a (ev n a)).
  - exact D.
  - intros (r & Hr & Dr). rewrite ?stable_spec, ?sufficient_spec. intros z Hz. assert (B := not_faster n a (ev n a) r He Dr z Hz). lra.
  - intros H. destruct (D H) as (r & Hr & Dr). apply (decays_stable n (linear n a) r ltac:(lra)). now apply decays_local.
Qed.
(** [is_sufficiently_stable]: faster than [exp (- t)]. *)
Theorem C69_is_sufficiently_stable :
  forall eigvals n a, eigenvalues n a (eigvals n a) ->
    (is_sufficiently_stable eigvals n a = true <-> exists r, 1 < r /\ decays n (linear n a) r).
Proof.
  intros ev n a He. split.
  - intros H. rewrite ?stable_spec, ?sufficient_spec in H. destruct (faster n a (ev n a) (-1) He H) as (r & Hr & Dr). exists r. split; [lra|exact Dr].
  - intros (r & Hr & Dr). rewrite ?stable_spec, ?sufficient_spec. intros z Hz. assert (B := not_faster n a (ev n a) r He Dr z Hz). lra.
Qed.
Lemma fold_max l : forall r p, fold_left Rmax l r = p -> (p = r \/ In p l) /\ r <= p /\ forall q, In q l -> q <= p.
Proof.
  induction l as [|b l IH]; intros r p H; cbn in H; [subst p; split; [now left|]; split; [lra|intros q []]|].
  destruct (IH _ _ H) as (A & B & D). assert (M1 := Rmax_l r b). assert (M2 := Rmax_r r b). split; [|split].
  - destruct A as [A|A]; [|right; now right]. unfold Rmax in A. destruct (Rle_dec r b); [right; left|left]; congruence.
  - lra.
  - intros q [<-|Hq]; [lra|now apply D].
Qed.
Lemma worst_pole_spec ev n a p : get_worst_pole ev n a = Some p -> (exists z, In z (ev n a) /\ fst z = p) /\ forall z, In z (ev n a) -> fst z <= p.
Proof.
  unfold get_worst_pole, get_real_parts, get_eigs. destruct (ev n a) as [|z l]; cbn [map]; [discriminate|]. intros H. injection H as H.
  apply fold_max in H. destruct H as (A & B & D). split.
  - destruct A as [->|A]; [exists z; split; [now left|reflexivity]|]. apply in_map_iff in A. destruct A as (w & <- & Hw). exists w. split; [now right|reflexivity].
  - intros w [<-|Hw]; [exact B|]. apply D. now apply in_map.
Qed.
(** [get_worst_pole] is the exact rate of decay, and decides the two tests. *)
Theorem C69_worst_pole :
  forall eigvals n a, eigenvalues n a (eigvals n a) ->
    (get_worst_pole eigvals n a = None <-> n = 0%nat) /\
    forall p, get_worst_pole eigvals n a = Some p ->
      (forall r, r < - p -> decays n (linear n a) r) /\ (forall r, decays n (linear n a) r -> r <= - p) /\
      (is_stable eigvals n a = true <-> p < 0) /\ (is_sufficiently_stable eigvals n a = true <-> p < -1).
Proof.
  intros ev n a He. split.
  - destruct He as [Ll _]. unfold get_worst_pole, get_real_parts, get_eigs. destruct (ev n a) as [|z l]; cbn in *; split; intros; try discriminate; try reflexivity; lia.
  - intros p Hp. destruct (worst_pole_spec ev n a p Hp) as [(z & Hz & Ez) U]. split; [|split; [|split]].
    + intros r Hr. destruct (faster n a (ev n a) (- r) He) as (r' & Hr' & D).
      * intros w Hw. specialize (U w Hw). lra.
      * apply (decays_slower n _ r' r); [lra|exact D].
    + intros r D. assert (B := not_faster n a (ev n a) r He D z Hz). lra.
    + rewrite stable_spec. split; [intros H; rewrite <- Ez; now apply H|]. intros H w Hw. specialize (U w Hw). lra.
    + rewrite sufficient_spec. split; [intros H; rewrite <- Ez; now apply H|]. intros H w Hw. specialize (U w Hw). lra.
Qed.

(** ** The model that was linearised *)
Lemma map_seq_nth (s : state) n i : (i < n)%nat -> nth i (map s (seq 0 n)) 0 = s i.
Proof. intros H. rewrite (nth_indep _ 0 (s 0%nat)) by (rewrite map_length, seq_length; exact H). rewrite map_nth, seq_nth by exact H. reflexivity. Qed.
Lemma near_linear sp m n A : keeps_values sp -> bm_n_vars m = Some n -> bm_control m = false -> List.length (bm_smt m) = n ->
  (forall e, In e (bm_smt m) -> regular (zeros n) [] e) -> linearise sp m = Some A ->
  forall e, 0 < e -> exists d, 0 < d /\ forall s, near n d s -> forall i, (i < n)%nat -> Rabs (autonomous m n s i - linear n (of_rows A) s i) <= e * maxnorm n s.
Proof.
  intros Hk Hn Hu Hlen Hr Hl e He. destruct (C68_linearisation sp m n A Hk Hn Hl) as (La & Lr & H).
  assert (Iu : input_dim m = 0%nat) by (unfold input_dim; now rewrite Hu). rewrite Iu in H. cbn [zeros repeat] in H.
  assert (Pn : (0 < n)%nat) by apply (n_positive sp m n A Hn Hl).
  assert (Each : forall k, (k <= n)%nat -> exists d, 0 < d /\ forall s, near n d s -> forall i, (i < k)%nat -> Rabs (autonomous m n s i - linear n (of_rows A) s i) <= e / 2 * (2 * maxnorm n s)).
  { induction k as [|k IH]; intros Hk'; [exists 1; split; [lra|]; intros; lia|]. destruct IH as (d & Hd & D); [lia|].
    destruct (H k) as [Z F]; [lia|]. assert (Rk : regular (zeros n) [] (nth k (bm_smt m) (UNum 0))) by (apply Hr, nth_In; lia).
    destruct (F [] Rk (e / 2) ltac:(lra)) as (d' & Hd' & D').
    exists (Rmin d d'). split; [now apply Rmin_glb_lt|]. intros s Hs i Hi. assert (M1 := Rmin_l d d'). assert (M2 := Rmin_r d d').
    destruct (Nat.eq_dec i k) as [->|Ne].
    - set (x := map s (seq 0 n)). assert (Lx : List.length x = n) by (unfold x; now rewrite map_length, seq_length).
      assert (Sm : forall r, near n r s -> small r x). { intros r Hr' c Hc. unfold x in Hc. apply in_map_iff in Hc. destruct Hc as (j & <- & Hj). apply in_seq in Hj. apply Hr'. lia. }
      assert (In0 : inner (nth k A []) x = linear n (of_rows A) s k).
      { unfold inner, linear, of_rows. rewrite Lx. apply sum_below_ext. intros j Hj. unfold x. now rewrite map_seq_nth. }
      assert (Fz : component m k (zeros n) [] = 0) by (apply Z; exact Rk).
      destruct (Req_dec (maxnorm n s) 0) as [E0|E0].
      + assert (B : forall r, 0 < r -> Rabs (autonomous m n s k - linear n (of_rows A) s k) <= e / 2 * r).
        { intros r Hr'. unfold autonomous. fold x. rewrite <- In0. replace (inner (nth k A []) x) with (component m k (zeros n) [] + inner (nth k A []) x) by lra.
          apply (D' x Lx); [apply Sm; intros j Hj; specialize (Hs j Hj); lra|]. apply Sm. intros j Hj. assert (G := maxnorm_ge n s j Hj). lra. }
        rewrite E0, !Rmult_0_r. apply Rnot_lt_le. intros K. set (v := Rabs _) in *. specialize (B (v / e)). assert (0 < v / e) by (apply Rdiv_lt_0_compat; lra).
        specialize (B ltac:(assumption)). replace (e / 2 * (v / e)) with (v / 2) in B by (field; lra). lra.
      + assert (P0 : 0 <= maxnorm n s). { specialize (Hs 0%nat Pn). assert (G := maxnorm_ge n s 0%nat Pn). assert (Q := Rabs_pos (s 0%nat)). lra. }
        unfold autonomous. fold x. rewrite <- In0. replace (inner (nth k A []) x) with (component m k (zeros n) [] + inner (nth k A []) x) by lra.
        apply (D' x Lx); [apply Sm; intros j Hj; specialize (Hs j Hj); lra|]. apply Sm. intros j Hj. assert (G := maxnorm_ge n s j Hj). lra.
    - apply D; [intros j Hj; specialize (Hs j Hj); lra|lia]. }
  destruct (Each n ltac:(lia)) as (d & Hd & D). exists d. split; [exact Hd|]. intros s Hs i Hi. eapply Rle_trans; [now apply D|]. right. field.
Qed.
(** If the eigenvalues of the linearisation lie left of [- r], the motions of the model itself that begin
    near the origin shrink at the rate [r]. *)
Theorem C69_model :
  forall simplified eigvals m n A,
    keeps_values simplified -> bm_n_vars m = Some n -> bm_control m = false -> List.length (bm_smt m) = n ->
    (forall e, In e (bm_smt m) -> regular (zeros n) [] e) ->
    linearise simplified m = Some A -> eigenvalues n (of_rows A) (eigvals n (of_rows A)) ->
    (is_stable eigvals n (of_rows A) = true -> stable n (autonomous m n) /\ attractive n (autonomous m n)) /\
    (is_sufficiently_stable eigvals n (of_rows A) = true -> decays_locally n (autonomous m n) 1) /\
    forall p r, get_worst_pole eigvals n (of_rows A) = Some p -> 0 <= r < - p -> decays_locally n (autonomous m n) r.
Proof.
  intros sp ev m n A Hk Hn Hu Hlen Hr Hl He. assert (N := near_linear sp m n A Hk Hn Hu Hlen Hr Hl).
  assert (G : forall r, 0 <= r -> (forall z, In z (ev n (of_rows A)) -> fst z < - r) -> exists r', r < r' /\ decays_locally n (autonomous m n) r /\ decays_locally n (autonomous m n) ((r + r') / 2)).
  { intros r Pr H. destruct (eigenvalues_form n (of_rows A) _ r He H) as (P & mu' & Hm & _ & Hp & B). exists mu'. split; [exact Hm|].
    split; apply (perturbed_decays n (autonomous m n) (of_rows A) P _ mu'); auto; lra. }
  split; [|split].
  - intros H. rewrite ?stable_spec, ?sufficient_spec in H. destruct (G 0) as (r' & Hr' & _ & D); [lra|intros z Hz; rewrite Ropp_0; now apply H|].
    split; [apply (decays_stable n _ ((0 + r') / 2)); [lra|exact D]|apply (decays_attractive n _ ((0 + r') / 2)); [lra|exact D]].
  - intros H. rewrite ?stable_spec, ?sufficient_spec in H. destruct (G 1) as (r' & Hr' & D & _); [lra|exact H|exact D].
  - intros p r Hp Pr. destruct (worst_pole_spec ev n (of_rows A) p Hp) as [_ U]. destruct (G r) as (r' & Hr' & D & _); [lra| |exact D].
    intros z Hz. specialize (U z Hz). lra.
Qed.
