(** Continuity of translated candidates, and their value at the origin. *)
From Coquelicot Require Import Coquelicot.
From Coq Require Import Reals QArith Qreals List Bool Arith ZArith Lra Lia.
From Verif Require Import M_Syntax M_Activations M_Domains M_Network S_Activations S_Domains S_Network
  S_Dynamics S_Certificates L_Holds L_Domains L_Activations L_Network L_Continuity
  P_Certificates P_Activations P_Translator S_Fossil.
Import ListNotations.
Local Open Scope R_scope.

Lemma relu_cont x : continuous (fun y => Rmax 0 y) x.
Proof.
  intros P [e He]. exists e. intros y Hy. apply He.
  unfold ball in *; simpl in *; unfold AbsRing_ball, abs, minus, plus, opp in *; simpl in *.
  apply Rabs_def2 in Hy. apply Rabs_def1; unfold Rmax; destruct (Rle_dec 0 y), (Rle_dec 0 x); lra.
Qed.

Lemma act_fun_cont a w j x : act_ok a -> (j < w)%nat -> continuous (act_fun a w j) x.
Proof.
  intros Ha Hj. destruct a; try (apply relu_cont);
  (match goal with |- continuous (act_fun ?a _ _) _ =>
    destruct (derivative_symbolic_dreal a (new_vars w)) as [ds Hd];
    destruct (derivative_symbolic_spec SDREAL a (new_vars w) ds Ha Hd) as [_ V];
    rewrite new_vars_length in V;
    specialize (V (fun _ => x) j Hj);
    rewrite new_vars_nth in V by auto; cbn [eval smooth_at] in V; specialize (V I);
    apply (ex_derive_continuous (V := R_NormedModule)); eexists; exact V
  end).
Qed.

(** The symbolic derivative of a smooth activation is a continuous function of its
    argument. *)
Lemma derivative_cont b a xs ds j :
  act_ok a -> a <> AReLU -> derivative_symbolic b a xs = Some ds -> (j < length xs)%nat ->
  exists g : R -> R, (forall x, continuous g x) /\
    forall s, eval s (nth j ds (ENum 0)) = g (eval s (nth j xs (ENum 0))).
Proof.
  intros Ha Hr H Hj.
  assert (Hder : forall g : R -> R, (forall x, ex_derive g x) -> forall x, continuous g x).
  { intros g Hg x. apply (ex_derive_continuous (V := R_NormedModule)). apply Hg. }
  assert (Htanh : forall x, ex_derive tanh x) by (intros x; eexists; apply is_derive_tanh).
  destruct a as [| | | | | | | | | | |n|n]; cbn [derivative_symbolic] in H; cbn [act_ok] in Ha.
  - apply Some_eq' in H. subst ds. exists (fun _ => 1). split; [intros; apply continuous_const|].
    intros s. rewrite (map_nth_lt _ _ _ (ENum 0)) by auto. apply Q2R_1.
  - now elim Hr.
  - apply Some_eq' in H. subst ds. exists (fun x => Q2R 2 * x). split; [apply Hder; intros; auto_derive; auto|].
    intros s. rewrite (map_nth_lt _ _ _ (ENum 0)) by auto. reflexivity.
  - apply Some_eq' in H. subst ds.
    assert (Hl : (length xs / 2 <= length xs)%nat) by (apply Nat.div_le_upper_bound; lia).
    set (h := (length xs / 2)%nat) in *.
    destruct (Nat.lt_ge_cases j h) as [Hlt|Hge].
    + exists (fun _ => 1). split; [intros; apply continuous_const|]. intros s.
      rewrite app_nth1 by (rewrite map_length, firstn_length; lia).
      rewrite (map_nth_lt _ _ _ (ENum 0)) by (rewrite firstn_length; lia). apply Q2R_1.
    + exists (fun x => Q2R 2 * x). split; [apply Hder; intros; auto_derive; auto|]. intros s.
      rewrite app_nth2 by (rewrite map_length, firstn_length; lia).
      rewrite map_length, firstn_length. replace (j - Nat.min h (length xs))%nat with (j - h)%nat by lia.
      rewrite (map_nth_lt _ _ _ (ENum 0)) by (rewrite skipn_length; lia). rewrite nth_skipn_add.
      replace (h + (j - h))%nat with j by lia. reflexivity.
  - destruct (fn_tanh b) as [g|] eqn:Eg; cbn [option_bind] in H; [|discriminate]. apply Some_eq' in H. subst ds.
    exists (fun x => 1 - tanh x ^ 2). split.
    + apply Hder. intros x. apply (ex_derive_ext (fun x => 1 - tanh x * tanh x)); [intros; simpl; ring|].
      apply (ex_derive_minus (V := R_NormedModule) (fun _ => 1) (fun x => tanh x * tanh x)); [apply ex_derive_const|].
      apply (ex_derive_mult tanh tanh); auto.
    + intros s. rewrite (map_nth_lt _ _ _ (ENum 0)) by auto. cbn [eval binop_eval e1].
      now rewrite (fn_tanh_eval b g), Q2R_1 by auto.
  - destruct (fn_tanh b) as [g|] eqn:Eg; cbn [option_bind] in H; [|discriminate]. apply Some_eq' in H. subst ds.
    exists (fun x => Q2R 2 * tanh x * (1 - tanh x ^ 2)). split.
    + apply Hder. intros x.
      apply (ex_derive_mult (fun x => Q2R 2 * tanh x) (fun x => 1 - tanh x ^ 2)).
      * apply (ex_derive_mult (fun _ => Q2R 2) tanh); [apply ex_derive_const|auto].
      * apply (ex_derive_ext (fun x => 1 - tanh x * tanh x)); [intros; simpl; ring|].
        apply (ex_derive_minus (V := R_NormedModule) (fun _ => 1) (fun x => tanh x * tanh x)); [apply ex_derive_const|].
        apply (ex_derive_mult tanh tanh); auto.
    + intros s. rewrite (map_nth_lt _ _ _ (ENum 0)) by auto. cbn [eval binop_eval e1].
      now rewrite (fn_tanh_eval b g), Q2R_1 by auto.
  - destruct (fn_exp b) as [g|] eqn:Eg; cbn [option_bind] in H; [|discriminate]. apply Some_eq' in H. subst ds.
    exists (fun x => exp (- x) / (1 + exp (- x)) ^ 2). split.
    + apply Hder. intros x. auto_derive. assert (P := exp_pos (- x)).
      assert (0 < (1 + exp (- x)) * ((1 + exp (- x)) * 1)) by nra. lra.
    + intros s. rewrite (map_nth_lt _ _ _ (ENum 0)) by auto. cbn [eval binop_eval e1].
      now rewrite !(fn_exp_eval b g), Q2R_1 by auto.
  - apply app_all_inv in H. destruct H as (g & Hg & ->). apply dreal_only_inv in Hg. subst g.
    exists (fun x => 1 / (1 + exp (- x))). split.
    + apply Hder. intros x. auto_derive. assert (P := exp_pos (- x)). lra.
    + intros s. rewrite (map_nth_lt _ _ _ (ENum 0)) by auto. cbn [eval binop_eval unop_eval e1 eexp]. now rewrite Q2R_1.
  - apply app_all_inv in H. destruct H as (g & Hg & ->). apply dreal_only_inv in Hg. subst g.
    exists (fun x => 1 / (1 + exp (- x))). split.
    + apply Hder. intros x. auto_derive. assert (P := exp_pos (- x)). lra.
    + intros s. rewrite (map_nth_lt _ _ _ (ENum 0)) by auto. cbn [eval binop_eval unop_eval e1 eexp]. now rewrite Q2R_1.
  - apply app_all_inv in H. destruct H as (g & Hg & ->). apply dreal_only_inv in Hg. subst g.
    exists (fun x => Q2R 2 * exp x * ln (Q2R (1#2) * (1 + exp x)) / (1 + exp x)). split.
    + apply Hder. intros x. assert (P := exp_pos x). assert (Eh : Q2R (1#2) = 1/2) by (unfold Q2R; simpl; lra).
      rewrite Eh. auto_derive. repeat split; lra.
    + intros s. rewrite (map_nth_lt _ _ _ (ENum 0)) by auto. cbn [eval binop_eval unop_eval e1 eexp elog]. now rewrite Q2R_1.
  - apply app_all_inv in H. destruct H as (g & Hg & ->). apply dreal_only_inv in Hg. subst g.
    exists sinh. split.
    + apply Hder. intros x. unfold sinh. auto_derive; auto.
    + intros s. rewrite (map_nth_lt _ _ _ (ENum 0)) by auto. reflexivity.
  - apply Some_eq' in H. subst ds.
    exists (fun x => Q2R (Z.of_nat (block n (length xs) j + 1) # 1) * x ^ block n (length xs) j). split.
    + apply Hder. intros x. auto_derive; auto.
    + intros s. rewrite (by_part_nth _ _ _ _ (ENum 0)) by lia. reflexivity.
  - apply Some_eq' in H. subst ds. destruct (block n (length xs) j) as [|k] eqn:Eb.
    + exists (fun _ => 0). split; [intros; apply continuous_const|]. intros s.
      rewrite (by_part_nth _ _ _ _ (ENum 0)) by lia. rewrite Eb. cbn [eval binop_eval]. rewrite Q2R_0. ring.
    + exists (fun x => Q2R (Z.of_nat (2 * S k) # 1) * x ^ (2 * S k - 1)). split.
      * apply Hder. intros x. auto_derive; auto.
      * intros s. rewrite (by_part_nth _ _ _ _ (ENum 0)) by lia. rewrite Eb. reflexivity.
Qed.

(** ** Networks *)
Lemma hidden_value_cont n k hs : forall m m' (y : nat -> state -> R) p,
  wf_hidden m hs m' -> (forall i, (i < m)%nat -> cont_at n (y i) p) ->
  forall i, (i < m')%nat -> cont_at n (fun s => hidden_value m (round_hidden k hs) (fun j => y j s) i) p.
Proof.
  induction hs as [|[l a] hs IH]; intros m m' y p Hw Hy i Hi; simpl in *.
  - subst m'. auto.
  - destruct Hw as (H1 & H2 & H3). rewrite round_mat_length.
    apply (IH _ m' (fun j s => act_fun a (length (weight l)) j (neuron m (round_layer k l) (fun q => y q s) j)) p H3); auto.
    intros j Hj. apply (cont_comp n (act_fun a (length (weight l)) j)); [|now apply act_fun_cont].
    unfold neuron. apply cont_plus; [|apply cont_const].
    apply (cont_sum n m (fun q s => weight_of (round_layer k l) j q * y q s)). intros q Hq.
    apply cont_mult; [apply cont_const|auto].
Qed.

Lemma net_value_cont n r net p :
  wf_net net -> in_size net = n -> cont_at n (net_value (round_net r net)) p.
Proof.
  intros (m & H1 & H2 & H3) En. unfold net_value. cbn [in_size hidden last round_net].
  rewrite (out_width_wf _ _ m) by now apply wf_round_hidden.
  unfold neuron. apply cont_plus; [|apply cont_const].
  apply (cont_sum n m (fun q s => weight_of (round_last r (last net)) 0 q *
     hidden_value (in_size net) (round_hidden r (hidden net)) s q)).
  intros q Hq. apply cont_mult; [apply cont_const|].
  apply (hidden_value_cont n r (hidden net) (in_size net) m (fun i s => s i) p H1); auto.
  intros i Hi. apply cont_proj. lia.
Qed.
Lemma net_value_cont_comp n r net (y : nat -> state -> R) p :
  wf_net net -> (forall i, (i < in_size net)%nat -> cont_at n (y i) p) ->
  cont_at n (fun s => net_value (round_net r net) (fun i => y i s)) p.
Proof.
  intros (m & H1 & H2 & H3) Hy. unfold net_value. cbn [in_size hidden last round_net].
  rewrite (out_width_wf _ _ m) by now apply wf_round_hidden.
  unfold neuron. apply cont_plus; [|apply cont_const].
  apply (cont_sum n m (fun q s => weight_of (round_last r (last net)) 0 q *
     hidden_value (in_size net) (round_hidden r (hidden net)) (fun i => y i s) q)).
  intros q Hq. apply cont_mult; [apply cont_const|].
  now apply (hidden_value_cont n r (hidden net) (in_size net) m y p).
Qed.

Lemma factor_cont n (quad : bool) m p : (m <= n)%nat ->
  cont_at n (fun x : state => if quad then sum_below m (fun i => x i * x i) else 1) p.
Proof.
  intros Hm. destruct quad; [|apply cont_const].
  apply (cont_sum n m (fun i (s : state) => s i * s i)). intros i Hi. apply cont_mult; apply cont_proj; lia.
Qed.
Lemma cert_value_cont n r quad net p :
  wf_net net -> in_size net = n -> cont_at n (cert_value quad (round_net r net)) p.
Proof.
  intros Hw En. unfold cert_value. apply cont_mult; [now apply net_value_cont|].
  cbn [in_size round_net]. apply factor_cont. lia.
Qed.

Lemma translate_ct_cont b simp r quad net xdot V Vdot p :
  b <> SCVC5 -> wf_net net ->
  translate_ct b simp r quad net (new_vars (in_size net)) xdot = Some (V, Vdot) ->
  cont_at (in_size net) (sem V) p.
Proof.
  intros Hb Hw H. apply (cont_ext _ (cert_value quad (round_net r net))).
  - intros s. symmetry. now apply (translate_ct_value b simp r quad net xdot V Vdot).
  - now apply cert_value_cont.
Qed.

(** Entries of z and J are continuous. *)
Definition cont_list (n : nat) (l : list expr) (p : state) : Prop :=
  forall j, cont_at n (fun s => eval s (nth j l (ENum 0))) p.
Definition cont_mat (n : nat) (J : list (list expr)) (p : state) : Prop :=
  forall i j, cont_at n (fun s => eval s (nth j (nth i J []) (ENum 0))) p.

Lemma cont_list_lt n l p : (forall j, (j < length l)%nat -> cont_at n (fun s => eval s (nth j l (ENum 0))) p) ->
  cont_list n l p.
Proof.
  intros H j. destruct (Nat.lt_ge_cases j (length l)); auto.
  apply (cont_ext n (fun _ => eval p (ENum 0))); [|apply cont_const].
  intros s. now rewrite nth_overflow by auto.
Qed.

Lemma edot_cont n xs ys p : cont_list n xs p -> cont_list n ys p -> cont_at n (fun s => eval s (edot xs ys)) p.
Proof.
  intros Hx Hy. unfold edot.
  apply (cont_ext n (fun s => sum_below (length (map2 (EBin BMul) xs ys))
     (fun j => eval s (nth j (map2 (EBin BMul) xs ys) (ENum 0))))).
  - intros s. rewrite eval_esum. change (fold_right Rplus 0) with Rsum.
    symmetry. apply (Rsum_map_below _ _ (ENum 0)).
  - apply (cont_sum n _ (fun j s => eval s (nth j (map2 (EBin BMul) xs ys) (ENum 0)))).
    revert Hx Hy. unfold cont_list. revert ys. induction xs as [|x xs IH]; intros [|y ys] Hx Hy j Hj; simpl in Hj; try lia.
    destruct j as [|j]; simpl.
    + apply cont_mult; [apply (Hx 0%nat)|apply (Hy 0%nat)].
    + apply IH; [intros q; apply (Hx (S q))|intros q; apply (Hy (S q))|apply Nat.succ_lt_mono; exact Hj].
Qed.

Lemma cont_enum n m p : cont_mat n (enum m) p.
Proof. intros i j. apply (cont_ext n (fun _ => Q2R (nth j (nth i m []) 0%Q))); [intros s; now rewrite nth_enum|apply cont_const]. Qed.

Lemma ematmul_cont n k A B p : cont_mat n A p -> cont_mat n B p -> cont_mat n (ematmul k A B) p.
Proof.
  intros HA HB i j. unfold ematmul.
  destruct (Nat.lt_ge_cases i (length A)) as [Hi|Hi].
  - destruct (Nat.lt_ge_cases j k) as [Hj|Hj].
    + apply (cont_ext n (fun s => eval s (edot (nth i A []) (map (fun row => nth j row (ENum 0)) B)))).
      * intros s. rewrite (map_nth_lt _ _ _ []) by auto.
        rewrite (map_nth_lt _ _ _ 0%nat) by (rewrite seq_length; auto). now rewrite seq_nth.
      * apply edot_cont; [intros q; apply HA|]. intros q.
        apply (cont_ext n (fun s => eval s (nth j (nth q B []) (ENum 0)))); [intros s; now rewrite col_nth|apply HB].
    + apply (cont_ext n (fun _ => eval p (ENum 0))); [|apply cont_const]. intros s.
      rewrite (map_nth_lt _ _ _ []) by auto. rewrite nth_overflow by (rewrite map_length, seq_length; auto). reflexivity.
  - apply (cont_ext n (fun _ => eval p (ENum 0))); [|apply cont_const]. intros s.
    rewrite (nth_overflow (map _ A)) by (rewrite map_length; auto). now destruct j.
Qed.

Lemma diagflat_cont n d p : cont_list n d p -> cont_mat n (diagflat d) p.
Proof.
  intros H i j. unfold diagflat.
  destruct (Nat.lt_ge_cases i (length d)) as [Hi|Hi].
  - destruct (Nat.lt_ge_cases j (length d)) as [Hj|Hj].
    + apply (cont_ext n (fun s => eval s (if (i =? j)%nat then nth i d (ENum 0) else ENum 0))).
      * intros s. rewrite (map_nth_lt _ _ _ 0%nat) by (rewrite seq_length; auto).
        rewrite (map_nth_lt _ _ _ 0%nat) by (rewrite seq_length; auto). now rewrite !seq_nth.
      * destruct (i =? j)%nat; [apply H|exact (cont_const n (Q2R 0) p)].
    + apply (cont_ext n (fun _ => eval p (ENum 0))); [|apply cont_const]. intros s.
      rewrite (map_nth_lt _ _ _ 0%nat) by (rewrite seq_length; auto).
      rewrite nth_overflow by (rewrite map_length, seq_length; auto). reflexivity.
  - apply (cont_ext n (fun _ => eval p (ENum 0))); [|apply cont_const]. intros s.
    rewrite (nth_overflow (map _ (seq 0 (length d)))) by (rewrite map_length, seq_length; auto). now destruct j.
Qed.

Lemma zhat_cont n r k l z p : wf_layer k l -> length z = k -> cont_list n z p -> cont_list n (zhat r l z) p.
Proof.
  intros Hw Hz H. apply cont_list_lt. rewrite (zhat_length r k) by auto. intros j Hj.
  apply (cont_ext n (fun s => neuron k (round_layer r l) (fun q => eval s (nth q z (ENum 0))) j)).
  - intros s. symmetry. now apply zhat_nth.
  - unfold neuron. apply cont_plus; [|apply cont_const].
    apply (cont_sum n k (fun q s => weight_of (round_layer r l) j q * eval s (nth q z (ENum 0)))).
    intros q Hq. apply cont_mult; [apply cont_const|apply H].
Qed.

Lemma until_last_ct_cont b r n k hs : forall m m' z J z' J' p,
  wf_hidden m hs m' -> Forall (fun la => snd la <> AReLU) hs -> length z = m ->
  until_last_ct b r k hs z J = Some (z', J') ->
  cont_list n z p -> cont_mat n J p -> cont_list n z' p /\ cont_mat n J' p.
Proof.
  induction hs as [|[l a] hs IH]; intros m m' z J z' J' p Hw Hs Hz H Cz CJ.
  - cbn [until_last_ct] in H. apply Some_eq' in H. apply pair_equal_spec in H. destruct H as [-> ->]. auto.
  - cbn [until_last_ct] in H. destruct Hw as (H1 & H2 & H3). apply Forall_cons_iff in Hs. destruct Hs as [Hs1 Hs2].
    destruct (forward_symbolic b a (zhat r l z)) as [zf|] eqn:Ef; cbn [option_bind] in H; [|discriminate].
    destruct (derivative_symbolic b a (zhat r l z)) as [d|] eqn:Ed; cbn [option_bind] in H; [|discriminate].
    destruct (forward_symbolic_spec _ _ _ _ H2 Ef) as [Lf Vf].
    destruct (derivative_symbolic_spec _ _ _ _ H2 Ed) as [Ld Vd].
    rewrite (zhat_length r m) in Lf, Vf, Ld, Vd by auto.
    assert (Cz' := zhat_cont n r m l z p H1 Hz Cz).
    refine (IH _ m' _ _ _ _ p H3 Hs2 Lf H _ _).
    + apply cont_list_lt. rewrite Lf. intros j Hj.
      apply (cont_ext n (fun s => act_fun a (length (weight l)) j (eval s (nth j (zhat r l z) (ENum 0))))).
      * intros s. symmetry. now apply Vf.
      * apply (cont_comp n (act_fun a (length (weight l)) j)); [apply Cz'|now apply act_fun_cont].
    + apply ematmul_cont; [|apply ematmul_cont; [apply cont_enum|exact CJ]].
      apply diagflat_cont. apply cont_list_lt. rewrite Ld. intros j Hj.
      destruct (derivative_cont b a (zhat r l z) d j H2 Hs1 Ed) as (g & Hg & Eg); [rewrite (zhat_length r m); auto|].
      apply (cont_ext n (fun s => g (eval s (nth j (zhat r l z) (ENum 0))))); [intros s; symmetry; apply Eg|].
      apply (cont_comp n g); [apply Cz'|apply Hg].
Qed.

Lemma translate_ct_dot_cont b simp r quad net xdot V Vdot p :
  b <> SCVC5 -> wf_net net -> smooth_net net ->
  (forall i, cont_at (in_size net) (fun s => field xdot s i) p) ->
  translate_ct b simp r quad net (new_vars (in_size net)) xdot = Some (V, Vdot) ->
  cont_at (in_size net) (sem Vdot) p.
Proof.
  intros Hb Hw Hsm Hx H. assert (Hw' := Hw). destruct Hw' as (m & H1 & H2 & H3). set (n := in_size net) in *.
  destruct (translate_ct_inv _ _ _ _ _ _ _ _ Hb H) as (z & J & out & Eu & El & _ & ->). fold n in Eu |- *.
  destruct (until_last_ct_value _ _ _ _ _ _ _ _ _ _ H1 (new_vars_length _) Eu) as [Lz _].
  assert (Cv : cont_list n (new_vars n) p).
  { apply cont_list_lt. rewrite new_vars_length. intros j Hj.
    apply (cont_ext n (fun s : state => s j)); [intros s; now rewrite new_vars_nth|now apply cont_proj]. }
  assert (Ce : cont_mat n (eye n) p).
  { intros i j. destruct (Nat.lt_ge_cases i n) as [Hi|Hi].
    - destruct (Nat.lt_ge_cases j n) as [Hj|Hj].
      + apply (cont_ext n (fun _ => if (i =? j)%nat then 1 else 0)); [|apply cont_const].
        intros s. now rewrite eye_nth.
      + apply (cont_ext n (fun _ => Q2R 0)); [|apply cont_const]. intros s. unfold eye.
        rewrite (map_nth_lt _ _ _ 0%nat) by (rewrite seq_length; auto).
        rewrite (nth_overflow (map _ _)) by (rewrite map_length, seq_length; auto). reflexivity.
    - apply (cont_ext n (fun _ => Q2R 0)); [|apply cont_const]. intros s.
      rewrite (nth_overflow (eye n)) by (rewrite eye_length; auto). now destruct j. }
  destruct (until_last_ct_cont b r n n (hidden net) n m _ _ _ _ p H1 Hsm (new_vars_length _) Eu Cv Ce) as [Cz CJ].
  assert (Cout : cont_at n (fun s => eval s out) p).
  { apply (cont_ext n (fun s => neuron m (round_last r (last net)) (fun q => eval s (nth q z (ENum 0))) 0)).
    { intros s. symmetry. now apply last_z_value. }
    unfold neuron. apply cont_plus; [|apply cont_const].
    apply (cont_sum n m (fun q s => weight_of (round_last r (last net)) 0 q * eval s (nth q z (ENum 0)))).
    intros q Hq. apply cont_mult; [apply cont_const|apply Cz]. }
  assert (Hf := compute_factors_spec quad n).
  destruct (compute_factors quad (new_vars n)) as [E dE]. destruct Hf as (LE & HE & HdE). cbn [fst snd].
  assert (CE : cont_at n (fun s => eval s E) p).
  { apply (cont_ext n (fun x : state => if quad then sum_below n (fun i => x i * x i) else 1)); [intros s; now rewrite HE|].
    apply factor_cont. lia. }
  assert (Cjac := ematmul_cont n n _ _ p (cont_enum n (round_mat r (weight (last net))) p) CJ 0%nat).
  set (jac := nth 0 (ematmul n (enum (round_mat r (weight (last net)))) J) []) in *.
  unfold sem. apply edot_cont; [|exact Hx].
  apply cont_list_lt. rewrite map2_length, !map_length. intros j Hj.
  assert (Hjn : (j < n)%nat) by lia.
  assert (Ljac : length jac = n).
  { unfold jac, ematmul. rewrite (map_nth_lt _ _ _ []) by (rewrite enum_length, round_mat_length; lia).
    now rewrite map_length, seq_length. }
  apply (cont_ext n (fun s => eval s (nth j jac (ENum 0)) * eval s E + (if quad then 2 * s j else 0) * eval s out)).
  - intros s. rewrite (map2_nth _ _ _ (ENum 0) (ENum 0)) by (rewrite ?map_length; lia).
    rewrite !(map_nth_lt _ _ _ (ENum 0)) by lia. cbn [eval binop_eval]. now rewrite HdE.
  - apply cont_plus; [apply cont_mult; [apply Cjac|exact CE]|].
    apply cont_mult; [|exact Cout]. destruct quad; [|apply cont_const].
    apply cont_mult; [apply cont_const|now apply cont_proj].
Qed.

(** ** The value at the origin *)
Lemma act_zero a w j : zero_at_zero a = true -> act_fun a w j 0 = 0.
Proof.
  assert (Es : softplus 0 - ln 2 = 0) by (unfold softplus; rewrite exp_0; replace (1 + 1) with 2 by lra; lra).
  assert (Et : tanh 0 = 0).
  { rewrite tanh_exp. rewrite Ropp_0, exp_0. field. }
  destruct a; simpl; intros H; try discriminate; auto.
  - rewrite Rmax_left; lra.
  - ring.
  - rewrite pow_i; auto. lia.
  - rewrite Et. ring.
  - rewrite Es. ring.
  - unfold cosh. rewrite Ropp_0, exp_0. lra.
  - rewrite pow_i; auto. lia.
Qed.

Lemma neuron_zero n l y i : bias l = None -> (forall k, (k < n)%nat -> y k = 0) -> neuron n l y i = 0.
Proof.
  intros Hb Hy. unfold neuron, bias_of. rewrite Hb, sum_below_zero; [ring|].
  intros k Hk. rewrite Hy by auto. ring.
Qed.

Lemma hidden_zero r hs : forall n m y,
  wf_hidden n hs m -> Forall (fun la => bias (fst la) = None /\ zero_at_zero (snd la) = true) hs ->
  (forall i, (i < n)%nat -> y i = 0) ->
  forall i, (i < m)%nat -> hidden_value n (round_hidden r hs) y i = 0.
Proof.
  induction hs as [|[l a] hs IH]; intros n m y Hw Hz Hy i Hi; simpl in *.
  - subst m. auto.
  - destruct Hw as (H1 & H2 & H3). apply Forall_cons_iff in Hz. destruct Hz as [[Z1 Z2] Z3]. simpl in Z1, Z2.
    rewrite round_mat_length. apply (IH _ m _ H3); auto. intros k Hk.
    rewrite neuron_zero; [now apply act_zero| |auto]. simpl. now rewrite Z1.
Qed.

Lemma cert_value_origin r quad net s :
  wf_net net -> quad = true \/ zero_preserving net -> origin (in_size net) s ->
  cert_value quad (round_net r net) s = 0.
Proof.
  intros (m & H1 & H2 & H3) Hq Ho. unfold cert_value. cbn [in_size round_net]. destruct Hq as [->|[Hz Hb]].
  - rewrite (sum_below_zero (in_size net)); [ring|]. intros j Hj. rewrite Ho by auto. ring.
  - unfold net_value. cbn [in_size hidden last round_net]. rewrite (out_width_wf _ _ m) by now apply wf_round_hidden.
    rewrite neuron_zero; [ring|exact Hb|]. intros k Hk. now apply (hidden_zero r (hidden net) _ m).
Qed.
