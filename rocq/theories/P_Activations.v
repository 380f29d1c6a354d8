(** Properties C24, C25: activations. *)
From Coquelicot Require Import Coquelicot.
From Coq Require Import Reals QArith Qreals List Bool Arith Lra Lia.
From Verif Require Import M_Syntax M_Activations S_Activations L_Holds L_Activations P_Certificates.
Import ListNotations.
Local Open Scope R_scope.

Lemma fn_tanh_eval b f s x : fn_tanh b = Some f -> eval s (f x) = tanh (eval s x).
Proof.
  destruct b; simpl; intros H; try discriminate; injection H as <-; simpl; auto. now rewrite tanh_exp.
Qed.
Lemma fn_exp_eval b f s x : fn_exp b = Some f -> eval s (f x) = exp (eval s x).
Proof. destruct b; simpl; intros H; try discriminate; injection H as <-; simpl; auto. Qed.
Lemma fn_relu_eval b f s x : fn_relu b = Some f -> eval s (f x) = Rmax 0 (eval s x).
Proof.
  destruct b; simpl; intros H; try discriminate; injection H as <-; simpl; rewrite ?Q2R_0; try apply Rmax_comm;
  destruct (Rlt_dec 0 (eval s x)); [rewrite Rmax_right|rewrite Rmax_left|rewrite Rmax_right|rewrite Rmax_left]; lra.
Qed.
Lemma fn_ifpos_eval b f s x : fn_ifpos b = Some f -> eval s (f x) = if Rlt_dec 0 (eval s x) then 1 else 0.
Proof.
  destruct b; simpl; intros H; try discriminate; injection H as <-; simpl; rewrite ?Q2R_0, ?Q2R_1; reflexivity.
Qed.

Lemma app_all_inv f xs ys : app_all f xs = Some ys -> exists g, f = Some g /\ ys = map g xs.
Proof. unfold app_all. destruct f as [g|]; simpl; intros H; [injection H as <-; eauto|discriminate]. Qed.
Lemma dreal_only_inv b f g : dreal_only b f = Some g -> g = f.
Proof. destruct b; simpl; congruence. Qed.

Lemma Some_eq' {A} (a b : A) : Some a = Some b -> b = a.
Proof. congruence. Qed.

Lemma Q2R_of_nat n : Q2R (Z.of_nat n # 1) = INR n.
Proof. unfold Q2R. cbn [Qnum Qden]. rewrite <- INR_IZR_INZ, RMicromega.Rinv_1. reflexivity. Qed.

Lemma is_derive_powr n x : is_derive (fun y => y ^ n) x (INR n * x ^ pred n).
Proof. apply is_derive_Reals. apply derivable_pt_lim_pow. Qed.

(** Length and value of a symbolic activation, elementwise. *)
Lemma forward_symbolic_spec b a xs ys :
  act_ok a -> forward_symbolic b a xs = Some ys ->
  length ys = length xs /\
  forall s j, (j < length xs)%nat ->
    eval s (nth j ys (ENum 0)) = act_fun a (length xs) j (eval s (nth j xs (ENum 0))).
Proof.
  intros Ha H. destruct a as [| | | | | | | | | | |n|n]; cbn [forward_symbolic] in H; cbn [act_ok] in Ha.
  - injection H as <-. split; auto.
  - apply app_all_inv in H. destruct H as (g & Hg & ->). rewrite map_length. split; auto. intros s j Hj.
    rewrite (map_nth_lt _ _ _ (ENum 0)) by auto. now apply (fn_relu_eval b).
  - injection H as <-. rewrite map_length. split; auto. intros s j Hj.
    now rewrite (map_nth_lt _ _ _ (ENum 0)).
  - apply Some_eq' in H. subst ys. pose proof (poly2_by_part (fun i x => EPow x (i + 1)) xs) as E.
    assert (Ev : forall s x, eval s (EPow x 1) = eval s x) by (intros; simpl; ring).
    assert (Hl : (length xs / 2 <= length xs)%nat) by (apply Nat.div_le_upper_bound; lia).
    split; [rewrite app_length, map_length, firstn_length, skipn_length; lia|].
    intros s j Hj.
    transitivity (eval s (nth j (by_part 2 (fun i x => EPow x (i + 1)) xs) (ENum 0))).
    + rewrite E. cbn [Nat.add].
      destruct (Nat.lt_ge_cases j (length xs / 2)) as [Hlt|Hge].
      * rewrite !app_nth1 by (rewrite ?map_length, firstn_length; lia).
        rewrite (map_nth_lt _ _ _ (ENum 0)) by (rewrite firstn_length; lia). now rewrite Ev.
      * rewrite !app_nth2 by (rewrite ?map_length, firstn_length; lia).
        rewrite ?map_length, firstn_length. reflexivity.
    + rewrite (by_part_nth _ _ _ _ (ENum 0)) by lia. reflexivity.
  - apply app_all_inv in H. destruct H as (g & Hg & ->). rewrite map_length. split; auto. intros s j Hj.
    rewrite (map_nth_lt _ _ _ (ENum 0)) by auto. now apply (fn_tanh_eval b).
  - destruct (fn_tanh b) as [g|] eqn:Eg; simpl in H; [|discriminate]. injection H as <-.
    rewrite map_length. split; auto. intros s j Hj.
    rewrite (map_nth_lt _ _ _ (ENum 0)) by auto. cbn [eval]. rewrite (fn_tanh_eval b g) by auto. reflexivity.
  - destruct (fn_exp b) as [g|] eqn:Eg; simpl in H; [|discriminate]. injection H as <-.
    rewrite map_length. split; auto. intros s j Hj.
    rewrite (map_nth_lt _ _ _ (ENum 0)) by auto. cbn [eval binop_eval e1].
    rewrite (fn_exp_eval b g) by auto. cbn [eval unop_eval act_fun]. rewrite Q2R_1. unfold sigmoid. lra.
  - apply app_all_inv in H. destruct H as (g & Hg & ->). apply dreal_only_inv in Hg. subst g.
    rewrite map_length. split; auto. intros s j Hj.
    rewrite (map_nth_lt _ _ _ (ENum 0)) by auto. simpl. rewrite Q2R_1. reflexivity.
  - apply app_all_inv in H. destruct H as (g & Hg & ->). apply dreal_only_inv in Hg. subst g.
    rewrite map_length. split; auto. intros s j Hj.
    rewrite (map_nth_lt _ _ _ (ENum 0)) by auto. simpl. rewrite Q2R_1.
    replace (Q2R 2) with 2 by (unfold Q2R; simpl; lra). reflexivity.
  - apply app_all_inv in H. destruct H as (g & Hg & ->). apply dreal_only_inv in Hg. subst g.
    rewrite map_length. split; auto. intros s j Hj.
    rewrite (map_nth_lt _ _ _ (ENum 0)) by auto. simpl. rewrite Q2R_1.
    replace (Q2R 2) with 2 by (unfold Q2R; simpl; lra). reflexivity.
  - apply app_all_inv in H. destruct H as (g & Hg & ->). apply dreal_only_inv in Hg. subst g.
    rewrite map_length. split; auto. intros s j Hj.
    rewrite (map_nth_lt _ _ _ (ENum 0)) by auto. simpl. rewrite Q2R_1. reflexivity.
  - injection H as <-. split; [now apply by_part_length|]. intros s j Hj.
    rewrite (by_part_nth _ _ _ _ (ENum 0)) by lia. reflexivity.
  - injection H as <-. split; [now apply by_part_length|]. intros s j Hj.
    rewrite (by_part_nth _ _ _ _ (ENum 0)) by lia. reflexivity.
Qed.

(** Numeric forward, elementwise. *)
Lemma forward_spec a xs :
  act_ok a ->
  length (forward a xs) = length xs /\
  forall j, (j < length xs)%nat -> softplus_range a (nth j xs 0) ->
    nth j (forward a xs) 0 = act_fun a (length xs) j (nth j xs 0).
Proof.
  intros Ha. destruct a as [| | | | | | | | | | |n|n]; cbn [forward act_ok] in *;
    try (split; [now rewrite ?map_length|]; intros j Hj Hr;
         rewrite ?(map_nth_lt _ _ _ 0) by auto; cbn [act_fun]; try reflexivity).
  - assert (Hl : (length xs / 2 <= length xs)%nat) by (apply Nat.div_le_upper_bound; lia).
    pose proof (poly2_by_part (fun i (x : R) => x ^ (i + 1)) xs) as E. cbn [Nat.add] in E.
    rewrite (map_ext (fun x : R => x ^ 1) (fun x => x)) in E by (intros; ring).
    rewrite map_id in E. rewrite <- E. split; [apply by_part_length; lia|].
    intros j Hj _. rewrite (by_part_nth _ _ _ _ 0) by lia. reflexivity.
  - unfold torch_softplus. simpl in Hr. destruct (Rlt_dec 20 (nth j xs 0)); [lra|reflexivity].
  - unfold torch_softplus. simpl in Hr. destruct (Rlt_dec 20 (nth j xs 0)); [lra|reflexivity].
  - unfold torch_softplus. simpl in Hr. destruct (Rlt_dec 20 (nth j xs 0)); [lra|reflexivity].
  - split; [now apply by_part_length|]. intros j Hj _. now rewrite (by_part_nth _ _ _ _ 0).
  - split; [now apply by_part_length|]. intros j Hj _. now rewrite (by_part_nth _ _ _ _ 0).
Qed.

(** * C25 *)
Theorem C25_symbolic_agrees_with_numeric :
  forall b a xs ys s,
    act_ok a -> forward_symbolic b a xs = Some ys ->
    Forall (softplus_range a) (map (eval s) xs) ->
    map (eval s) ys = forward a (map (eval s) xs).
Proof.
  intros b a xs ys s Ha H Hr. destruct (forward_symbolic_spec b a xs ys Ha H) as [Hl Hv].
  destruct (forward_spec a (map (eval s) xs) Ha) as [Hl' Hv']. rewrite map_length in *.
  apply (nth_ext _ _ 0 0); [rewrite map_length; lia|]. intros j Hj. rewrite map_length in Hj.
  rewrite (map_nth_lt _ _ _ (ENum 0)) by auto. rewrite Hv by lia. rewrite Hv'; [|lia|].
  - f_equal. now rewrite (map_nth_lt _ _ _ (ENum 0)) by lia.
  - rewrite Forall_forall in Hr. apply Hr. apply nth_In. rewrite map_length. lia.
Qed.

(** Above 20 torch's softplus is the identity; the symbolic one differs by at most
    exp(-20). *)
Theorem C25_softplus_gap :
  forall s x, 20 < eval s x ->
    0 < eval s (EUn ULog (EBin BAdd (ENum 1) (EUn UExp x))) - torch_softplus (eval s x) <= exp (- 20).
Proof.
  intros s x Hx. unfold torch_softplus. destruct (Rlt_dec 20 (eval s x)) as [_|]; [|lra].
  simpl. rewrite Q2R_1. set (v := eval s x) in *.
  assert (Hv := exp_pos v). assert (Hm := exp_pos (- v)).
  replace (1 + exp v) with (exp v * (1 + exp (- v))).
  2:{ rewrite exp_Ropp. field. lra. }
  rewrite ln_mult by lra. rewrite ln_exp. replace (v + ln (1 + exp (- v)) - v) with (ln (1 + exp (- v))) by ring.
  split.
  - rewrite <- ln_1. apply ln_increasing; lra.
  - apply Rle_trans with (exp (- v)).
    + assert (H := exp_ineq1_le (ln (1 + exp (- v)))). rewrite exp_ln in H by lra. lra.
    + left. apply exp_increasing. lra.
Qed.

(** The class chosen for a name implements the named function (on torch's softplus
    range), for every name but the two below. *)
Theorem C25_name_implemented :
  forall t f, named t = Some f -> t <> RELU_SQUARE -> t <> REQU ->
    exists a, activation_fcn t = Some a /\
      forall xs, Forall (softplus_range a) xs -> forward a xs = map f xs.
Proof.
  intros t f Hf H1 H2.
  assert (Hs : forall (g h : R -> R) xs, Forall (fun x => x <= 20) xs ->
    (forall x, x <= 20 -> g x = h x) -> map g xs = map h xs).
  { intros g h xs Hx E. apply map_ext_in. intros x Hin. rewrite Forall_forall in Hx. auto. }
  assert (Hsp : forall x, x <= 20 -> torch_softplus x = softplus x).
  { intros x Hx. unfold torch_softplus. destruct (Rlt_dec 20 x); [lra|reflexivity]. }
  destruct t; cbn [named] in Hf; try discriminate; try (now elim H1); try (now elim H2);
    injection Hf as <-; eexists; (split; [reflexivity|]); intros xs Hx; cbn [forward];
    try reflexivity; try (symmetry; apply map_id);
    apply (Hs _ _ _ Hx); intros x Hle; now rewrite Hsp.
Qed.

Theorem C25_polynomial_names :
  forall t k, poly_name t = Some k ->
    exists a, activation_fcn t = Some a /\
      forall xs, length (forward a xs) = length xs /\
        forall j, (j < length xs)%nat -> nth j (forward a xs) 0 = nth j xs 0 ^ (block k (length xs) j + 1).
Proof.
  intros t k Hk. destruct t; cbn [poly_name] in Hk; try discriminate; injection Hk as <-;
    (eexists; split; [reflexivity|]; intros xs;
     match goal with |- length (forward ?a xs) = _ /\ _ =>
       destruct (forward_spec a xs ltac:(cbn; try lia; exact I)) as [L V] end;
     split; [exact L|]; intros j Hj; rewrite V by (exact I || exact Hj); reflexivity).
Qed.
(** Violation: EVEN_POLY_k cuts the layer into k blocks, not k/2, and starts at the power 0:
    the powers are 0, 2, ..., 2 (k - 1). *)
Theorem C25_even_poly_refuted :
  forall t k, even_poly_name t = Some k ->
    exists a, activation_fcn t = Some a /\
      (forall xs j, (j < length xs)%nat -> nth j (forward a xs) 0 = nth j xs 0 ^ (2 * block k (length xs) j)) /\
      nth 0 (forward a (repeat 3 k)) 0 = 1 /\ nth (k - 1) (forward a (repeat 3 k)) 0 = 3 ^ (2 * (k - 1)).
Proof.
  intros t k Hk. destruct t; cbn [even_poly_name] in Hk; try discriminate; injection Hk as <-;
    (eexists; split; [reflexivity|];
     match goal with |- (forall xs j, _ -> nth j (forward ?a xs) 0 = _) /\ _ =>
       assert (V : forall xs j, (j < length xs)%nat -> nth j (forward a xs) 0 = act_fun a (length xs) j (nth j xs 0))
         by (intros xs j Hj; apply (forward_spec a xs ltac:(cbn; lia)); [exact Hj|exact I]) end;
     split; [intros xs j Hj; rewrite V by exact Hj; reflexivity|];
     split; rewrite V by (rewrite repeat_length; lia); cbn [act_fun]; rewrite repeat_length; cbn; lra).
Qed.

(** Violation: RELU_SQUARE and REQU select the plain ReLU. *)
Theorem C25_requ_refuted :
  forall t f, (t = RELU_SQUARE \/ t = REQU) -> named t = Some f ->
    exists a, activation_fcn t = Some a /\ forward a [2] <> map f [2].
Proof.
  intros t f [-> | ->] Hf; injection Hf as <-; eexists; (split; [reflexivity|]); simpl;
  rewrite Rmax_right by lra; intros H; injection H; lra.
Qed.

(** Violation: RATIONAL selects nothing, and Z3 supports no transcendental activation. *)
Theorem C25_unsupported :
  activation_fcn RATIONAL = None /\
  (forall xs, forward_symbolic SZ3 ATanh xs = None /\ forward_symbolic SZ3 ASigmoid xs = None /\
              forward_symbolic SZ3 ASoftplus xs = None /\ forward_symbolic SCVC5 ASoftplus xs = None /\
              forward_symbolic SCVC5 ACosh xs = None).
Proof. repeat split. Qed.

(** * C24 *)
Lemma derivative_symbolic_spec b a xs ds :
  act_ok a -> derivative_symbolic b a xs = Some ds ->
  length ds = length xs /\
  forall s j, (j < length xs)%nat ->
    smooth_at a (eval s (nth j xs (ENum 0))) ->
    is_derive (act_fun a (length xs) j) (eval s (nth j xs (ENum 0))) (eval s (nth j ds (ENum 0))).
Proof.
  intros Ha H.
  assert (E2 : Q2R 2 = 2) by (unfold Q2R; simpl; lra).
  assert (Eh : Q2R (1#2) = 1/2) by (unfold Q2R; simpl; lra).
  destruct a as [| | | | | | | | | | |n|n]; cbn [derivative_symbolic] in H; cbn [act_ok] in Ha.
  - injection H as <-. rewrite map_length. split; auto. intros s j Hj _.
    rewrite (map_nth_lt _ _ _ (ENum 0)) by auto. simpl. rewrite Q2R_1. auto_derive; auto.
  - apply app_all_inv in H. destruct H as (g & Hg & ->). rewrite map_length. split; auto. intros s j Hj Hs.
    rewrite (map_nth_lt _ _ _ (ENum 0)) by auto. rewrite (fn_ifpos_eval b g) by auto.
    now apply is_derive_relu.
  - injection H as <-. rewrite map_length. split; auto. intros s j Hj _.
    rewrite (map_nth_lt _ _ _ (ENum 0)) by auto. simpl. rewrite E2. auto_derive; auto. ring.
  - apply Some_eq' in H. subst ds.
    assert (Hl : (length xs / 2 <= length xs)%nat) by (apply Nat.div_le_upper_bound; lia).
    split; [rewrite app_length, !map_length, firstn_length, skipn_length; lia|].
    intros s j Hj _. cbn [act_fun]. unfold block.
    set (h := (length xs / 2)%nat) in *.
    destruct (Nat.lt_ge_cases j h) as [Hlt|Hge].
    + rewrite app_nth1 by (rewrite map_length, firstn_length; lia).
      rewrite (map_nth_lt _ _ _ (ENum 0)) by (rewrite firstn_length; lia).
      destruct (Nat.eqb_spec h 0) as [E|E]; [lia|]. rewrite Nat.div_small by lia.
      simpl. rewrite Q2R_1. auto_derive; auto. ring.
    + rewrite app_nth2 by (rewrite map_length, firstn_length; lia).
      rewrite map_length, firstn_length. replace (j - Nat.min h (length xs))%nat with (j - h)%nat by lia.
      rewrite (map_nth_lt _ _ _ (ENum 0)) by (rewrite skipn_length; lia). rewrite nth_skipn_add.
      replace (h + (j - h))%nat with j by lia.
      assert (Ep : (if (h =? 0)%nat then 2 - 1 else Nat.min (j / h) (2 - 1))%nat = 1%nat).
      { destruct (Nat.eqb_spec h 0) as [E|E]; [lia|].
        assert (1 <= j / h)%nat by (apply Nat.div_le_lower_bound; lia). lia. }
      rewrite Ep. simpl. rewrite E2. auto_derive; auto. ring.
  - destruct (fn_tanh b) as [g|] eqn:Eg; simpl in H; [|discriminate]. injection H as <-.
    rewrite map_length. split; auto. intros s j Hj _.
    rewrite (map_nth_lt _ _ _ (ENum 0)) by auto. cbn [eval binop_eval e1].
    rewrite (fn_tanh_eval b g), Q2R_1 by auto. apply is_derive_tanh.
  - destruct (fn_tanh b) as [g|] eqn:Eg; simpl in H; [|discriminate]. injection H as <-.
    rewrite map_length. split; auto. intros s j Hj _.
    rewrite (map_nth_lt _ _ _ (ENum 0)) by auto. cbn [eval binop_eval e1].
    rewrite (fn_tanh_eval b g), Q2R_1, E2 by auto. cbn [act_fun].
    set (v := eval s _). assert (Ht := is_derive_tanh v).
    apply (is_derive_ext (fun y => tanh y * tanh y)); [intros y; simpl; ring|].
    replace (2 * tanh v * (1 - tanh v ^ 2)) with ((1 - tanh v ^ 2) * tanh v + tanh v * (1 - tanh v ^ 2)) by ring.
    apply (is_derive_mult tanh tanh v); auto. intros ? ?. apply Rmult_comm.
  - destruct (fn_exp b) as [g|] eqn:Eg; simpl in H; [|discriminate]. injection H as <-.
    rewrite map_length. split; auto. intros s j Hj _.
    rewrite (map_nth_lt _ _ _ (ENum 0)) by auto. cbn [eval binop_eval e1].
    rewrite !(fn_exp_eval b g), Q2R_1 by auto. cbn [eval unop_eval act_fun]. apply is_derive_sigmoid.
  - apply app_all_inv in H. destruct H as (g & Hg & ->). apply dreal_only_inv in Hg. subst g.
    rewrite map_length. split; auto. intros s j Hj _.
    rewrite (map_nth_lt _ _ _ (ENum 0)) by auto. cbn [eval binop_eval unop_eval e1 eexp act_fun].
    rewrite Q2R_1. assert (D := is_derive_softplus (eval s (nth j xs (ENum 0)))).
    replace (1 / (1 + exp (- eval s (nth j xs (ENum 0))))) with (/ (1 + exp (- eval s (nth j xs (ENum 0))))) by lra.
    exact D.
  - apply app_all_inv in H. destruct H as (g & Hg & ->). apply dreal_only_inv in Hg. subst g.
    rewrite map_length. split; auto. intros s j Hj _.
    rewrite (map_nth_lt _ _ _ (ENum 0)) by auto. cbn [eval binop_eval unop_eval e1 eexp act_fun].
    rewrite Q2R_1. assert (D := is_derive_softplus (eval s (nth j xs (ENum 0)))).
    replace (1 / (1 + exp (- eval s (nth j xs (ENum 0))))) with (/ (1 + exp (- eval s (nth j xs (ENum 0))))) by lra.
    replace (/ (1 + exp (- eval s (nth j xs (ENum 0))))) with (minus (/ (1 + exp (- eval s (nth j xs (ENum 0))))) zero)
      by (unfold minus, plus, opp, zero; simpl; ring).
    apply (is_derive_minus softplus (fun _ => ln 2)); [exact D|apply (is_derive_const (V := R_NormedModule))].
  - apply app_all_inv in H. destruct H as (g & Hg & ->). apply dreal_only_inv in Hg. subst g.
    rewrite map_length. split; auto. intros s j Hj _.
    rewrite (map_nth_lt _ _ _ (ENum 0)) by auto. cbn [eval binop_eval unop_eval e1 eexp elog act_fun].
    rewrite Q2R_1, E2, Eh. set (v := eval s _). assert (Hp := exp_pos v).
    unfold softplus.
    replace (ln (1 / 2 * (1 + exp v))) with (ln (1 + exp v) - ln 2).
    + auto_derive; [lra|]. field. lra.
    + rewrite ln_mult by lra. replace (1/2) with (/2) by lra. rewrite ln_Rinv by lra. ring.
  - apply app_all_inv in H. destruct H as (g & Hg & ->). apply dreal_only_inv in Hg. subst g.
    rewrite map_length. split; auto. intros s j Hj _.
    rewrite (map_nth_lt _ _ _ (ENum 0)) by auto. cbn [eval binop_eval unop_eval act_fun].
    unfold cosh, sinh. auto_derive; auto. field.
  - injection H as <-. split; [now apply by_part_length|]. intros s j Hj _.
    rewrite (by_part_nth _ _ _ _ (ENum 0)) by lia. cbn [eval binop_eval act_fun].
    set (k := block n (length xs) j). replace (k + 1)%nat with (S k) by lia.
    assert (Eq : Q2R (Z.of_nat (S k) # 1) = INR (S k)).
    { apply Q2R_of_nat. }
    rewrite Eq. exact (is_derive_powr (S k) _).
  - injection H as <-. split; [now apply by_part_length|]. intros s j Hj _.
    rewrite (by_part_nth _ _ _ _ (ENum 0)) by lia. cbn [act_fun].
    destruct (block n (length xs) j) as [|k].
    + simpl. rewrite Q2R_0, Rmult_0_l. auto_derive; auto.
    + cbn [eval binop_eval].
      assert (Eq : Q2R (Z.of_nat (2 * S k) # 1) = INR (2 * S k)).
      { apply Q2R_of_nat. }
      change (is_derive (fun x : R => x ^ (2 * S k)) (eval s (nth j xs (ENum 0)))
        (Q2R (Z.of_nat (2 * S k) # 1) * eval s (nth j xs (ENum 0)) ^ (2 * S k - 1))).
      rewrite Eq. replace (2 * S k - 1)%nat with (Nat.pred (2 * S k)) by lia. apply is_derive_powr.
Qed.

(** The symbolic derivative is, neuron by neuron, the derivative of the scalar
    function the symbolic activation computes - for every width. *)
Theorem C24_derivative :
  forall b a xs ys ds,
    act_ok a -> forward_symbolic b a xs = Some ys -> derivative_symbolic b a xs = Some ds ->
    length ys = length xs /\ length ds = length xs /\
    forall j, (j < length xs)%nat ->
      exists phi, (forall s, eval s (nth j ys (ENum 0)) = phi (eval s (nth j xs (ENum 0)))) /\
        forall s, smooth_at a (eval s (nth j xs (ENum 0))) ->
          is_derive phi (eval s (nth j xs (ENum 0))) (eval s (nth j ds (ENum 0))).
Proof.
  intros b a xs ys ds Ha Hy Hd.
  destruct (forward_symbolic_spec b a xs ys Ha Hy) as [Ly Vy].
  destruct (derivative_symbolic_spec b a xs ds Ha Hd) as [Ld Vd].
  split; [exact Ly|]. split; [exact Ld|]. intros j Hj. exists (act_fun a (length xs) j). split.
  - intros s. now apply Vy.
  - intros s. now apply Vd.
Qed.

(** Both are defined together, so a translator call never fails halfway. *)
Theorem C24_defined_together :
  forall b a xs, forward_symbolic b a xs = None <-> derivative_symbolic b a xs = None.
Proof.
  intros b a xs. destruct a, b; simpl; split; intros H; try discriminate; try reflexivity.
Qed.

(** Width 5 with a cubic activation: blocks of 1, 1 and 3 neurons. *)
Example C24_example :
  forward_symbolic SZ3 (APolyN 3) (new_vars 5)
  = Some [EPow (EVar 0) 1; EPow (EVar 1) 2; EPow (EVar 2) 3; EPow (EVar 3) 3; EPow (EVar 4) 3] /\
  exists ds, derivative_symbolic SZ3 (APolyN 3) (new_vars 5) = Some ds.
Proof. split; [reflexivity|]. eexists. reflexivity. Qed.
