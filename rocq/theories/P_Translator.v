(** Properties C21, C22, C23: the formulas handed to the verifier. *)
From Coquelicot Require Import Coquelicot.
From Coq Require Import Reals QArith Qround Qreals List Bool Arith ZArith Lra Lia.
From Verif Require Import M_Syntax M_Activations M_Domains M_Network S_Activations S_Domains S_Network
  S_Dynamics L_Holds L_Domains L_Activations L_Network P_Certificates P_Activations.
Import ListNotations.
Local Open Scope R_scope.

(** The state as a row of data, and the vector field given by symbolic expressions. *)
Definition row (n : nat) (s : state) : list R := map s (seq 0 n).
Definition field (xdot : list expr) : vfield := fun s i => eval s (nth i xdot (ENum 0)).

Lemma row_length' n s : length (row n s) = n.
Proof. unfold row. now rewrite map_length, seq_length. Qed.
Lemma row_nth n s i : (i < n)%nat -> nth i (row n s) 0 = s i.
Proof.
  intros Hi. unfold row. rewrite (map_nth_lt _ _ _ 0%nat) by (rewrite seq_length; auto).
  now rewrite seq_nth.
Qed.

(** ** Jacobians *)
Lemma col_nth (B : list (list expr)) j k :
  nth k (map (fun row => nth j row (ENum 0)) B) (ENum 0) = nth j (nth k B []) (ENum 0).
Proof.
  destruct (Nat.lt_ge_cases k (length B)) as [H|H].
  - now rewrite (map_nth_lt _ _ _ []).
  - rewrite nth_overflow by (rewrite map_length; auto). rewrite (nth_overflow B) by auto. now destruct j.
Qed.

Lemma ematmul_nth s n A B i j m :
  (i < length A)%nat -> (j < n)%nat -> length (nth i A []) = m -> length B = m ->
  eval s (nth j (nth i (ematmul n A B) []) (ENum 0))
  = sum_below m (fun k => eval s (nth k (nth i A []) (ENum 0)) * eval s (nth j (nth k B []) (ENum 0))).
Proof.
  intros Hi Hj HA HB. unfold ematmul. rewrite (map_nth_lt _ _ _ []) by auto.
  rewrite (map_nth_lt _ _ _ 0%nat) by (rewrite seq_length; auto). rewrite seq_nth by auto. simpl (0 + j)%nat.
  rewrite (eval_edot _ _ _ m); [|auto|now rewrite map_length].
  apply sum_below_ext. intros k Hk. now rewrite col_nth.
Qed.

Lemma diagflat_length d : length (diagflat d) = length d.
Proof. unfold diagflat. now rewrite map_length, seq_length. Qed.
Lemma diagflat_nth s d i k : (i < length d)%nat -> (k < length d)%nat ->
  eval s (nth k (nth i (diagflat d) []) (ENum 0)) = (if (i =? k)%nat then 1 else 0) * eval s (nth i d (ENum 0)).
Proof.
  intros Hi Hk. unfold diagflat. rewrite (map_nth_lt _ _ _ 0%nat) by (rewrite seq_length; auto).
  rewrite (map_nth_lt _ _ _ 0%nat) by (rewrite seq_length; auto). rewrite !seq_nth by auto. simpl.
  destruct (i =? k)%nat; simpl; rewrite ?Q2R_0; lra.
Qed.
Lemma diagflat_row d i : (i < length d)%nat -> length (nth i (diagflat d) []) = length d.
Proof.
  intros Hi. unfold diagflat. rewrite (map_nth_lt _ _ _ 0%nat) by (rewrite seq_length; auto).
  now rewrite map_length, seq_length.
Qed.

Lemma ematmul_diag s n d M i j :
  length M = length d -> (i < length d)%nat -> (j < n)%nat ->
  eval s (nth j (nth i (ematmul n (diagflat d) M) []) (ENum 0))
  = eval s (nth i d (ENum 0)) * eval s (nth j (nth i M []) (ENum 0)).
Proof.
  intros HM Hi Hj. rewrite (ematmul_nth _ _ _ _ _ _ (length d)); auto using diagflat_row.
  2:{ now rewrite diagflat_length. }
  rewrite (sum_below_ext _ _ (fun k => (if (i =? k)%nat then 1 else 0) *
    (eval s (nth i d (ENum 0)) * eval s (nth j (nth k M []) (ENum 0))))).
  - rewrite sum_below_delta; auto.
  - intros k Hk. rewrite diagflat_nth by auto. ring.
Qed.

Lemma eye_nth s n i j : (i < n)%nat -> (j < n)%nat ->
  eval s (nth j (nth i (eye n) []) (ENum 0)) = if (i =? j)%nat then 1 else 0.
Proof.
  intros Hi Hj. unfold eye. rewrite (map_nth_lt _ _ _ 0%nat) by (rewrite seq_length; auto).
  rewrite (map_nth_lt _ _ _ 0%nat) by (rewrite seq_length; auto). rewrite !seq_nth by auto. simpl.
  destruct (i =? j)%nat; simpl; [apply Q2R_1|apply Q2R_0].
Qed.
Lemma eye_length n : length (eye n) = n.
Proof. unfold eye. now rewrite map_length, seq_length. Qed.

(** [J] is the Jacobian of [z] in direction [v] along the path [x] at [t]. *)
Definition tracks (n : nat) (x : R -> state) (t : R) (v : nat -> R) (z : list expr) (J : list (list expr)) :=
  length J = length z /\
  forall i, (i < length z)%nat ->
    is_derive (fun u => eval (x u) (nth i z (ENum 0))) t
      (sum_below n (fun j => eval (x t) (nth j (nth i J []) (ENum 0)) * v j)).

Lemma is_derive_lin (g : R -> R) t dg c : is_derive g t dg -> is_derive (fun u => c * g u) t (c * dg).
Proof. intros H. apply (is_derive_scal g t c dg H). Qed.

(** A linear combination of tracked functions. *)
Lemma tracks_lin n x t v z J (w : nat -> R) :
  tracks n x t v z J ->
  is_derive (fun u => sum_below (length z) (fun k => w k * eval (x u) (nth k z (ENum 0)))) t
    (sum_below n (fun j => sum_below (length z) (fun k => w k * eval (x t) (nth j (nth k J []) (ENum 0))) * v j)).
Proof.
  intros [HL HJ].
  replace (sum_below n _) with
    (sum_below (length z) (fun k => w k * sum_below n (fun j => eval (x t) (nth j (nth k J []) (ENum 0)) * v j))).
  - apply is_derive_sum. intros k Hk. apply is_derive_lin. now apply HJ.
  - rewrite (sum_below_ext (length z) _ (fun k => sum_below n (fun j =>
      w k * eval (x t) (nth j (nth k J []) (ENum 0)) * v j))).
    + rewrite sum_below_swap. apply sum_below_ext. intros j Hj.
      rewrite Rmult_comm, <- sum_below_scal. apply sum_below_ext. intros k Hk. ring.
    + intros k Hk. rewrite <- sum_below_scal. apply sum_below_ext. intros j Hj. ring.
Qed.

Lemma is_derive_comp_R (g : R -> R) (h : R -> R) t dg dh :
  is_derive h (g t) dh -> is_derive g t dg -> is_derive (fun u => h (g u)) t (dh * dg).
Proof. intros H1 H2. rewrite Rmult_comm. apply (is_derive_comp h g t dh dg H1 H2). Qed.

Lemma until_last_ct_tracks b r k hs : forall n m z J z' J' x t v,
  wf_hidden n hs m -> length z = n -> until_last_ct b r k hs z J = Some (z', J') ->
  tracks k x t v z J ->
  hidden_all smooth_at n (round_hidden r hs) (fun j => eval (x t) (nth j z (ENum 0))) ->
  tracks k x t v z' J'.
Proof.
  induction hs as [|[l a] hs IH]; intros n m z J z' J' x t v Hw Hz H HT Hk; simpl in *.
  - injection H as <- <-. exact HT.
  - destruct Hw as (H1 & H2 & H3). destruct Hk as [K1 K2]. rewrite round_mat_length in K1, K2.
    destruct (forward_symbolic b a (zhat r l z)) as [zf|] eqn:Ef; simpl in H; [|discriminate].
    destruct (derivative_symbolic b a (zhat r l z)) as [d|] eqn:Ed; simpl in H; [|discriminate].
    destruct (forward_symbolic_spec _ _ _ _ H2 Ef) as [Lf Vf].
    destruct (derivative_symbolic_spec _ _ _ _ H2 Ed) as [Ld Vd].
    rewrite (zhat_length r n) in Lf, Vf, Ld, Vd by auto.
    refine (IH _ m _ _ _ _ x t v H3 Lf H _ _).
    + (* the layer *)
      set (M := ematmul k (enum (round_mat r (weight l))) J).
      assert (LM : length M = length (weight l)).
      { unfold M. now rewrite ematmul_length, enum_length, round_mat_length. }
      split; [now rewrite ematmul_length, diagflat_length, Ld, Lf|].
      rewrite Lf. intros i Hi.
      assert (Hpre : is_derive (fun u => eval (x u) (nth i (zhat r l z) (ENum 0))) t
                (sum_below k (fun j => eval (x t) (nth j (nth i M []) (ENum 0)) * v j))).
      { assert (D := tracks_lin k x t v z J (fun q => weight_of (round_layer r l) i q) HT).
        apply (is_derive_ext (fun u => neuron n (round_layer r l) (fun q => eval (x u) (nth q z (ENum 0))) i)).
        { intros u. symmetry. now apply zhat_nth. }
        rewrite Hz in D.
        replace (sum_below k (fun j => eval (x t) (nth j (nth i M []) (ENum 0)) * v j)) with
          (sum_below k (fun j => sum_below n (fun q => weight_of (round_layer r l) i q *
             eval (x t) (nth j (nth q J []) (ENum 0))) * v j) + 0).
        - apply (is_derive_plus (V := R_NormedModule) _ (fun _ => bias_of (round_layer r l) i) t _ 0);
            [exact D|apply (is_derive_const (V := R_NormedModule))].
        - rewrite Rplus_0_r. apply sum_below_ext. intros j Hj. f_equal. unfold M.
          assert (Hrow : Forall (fun row => length row = n) (round_mat r (weight l))).
          { apply (wf_round_layer r n l H1). }
          rewrite (ematmul_nth _ _ _ _ _ _ n).
          + apply sum_below_ext. intros q Hq. rewrite nth_enum. reflexivity.
          + now rewrite enum_length, round_mat_length.
          + exact Hj.
          + unfold enum. rewrite (map_nth_lt _ _ _ []) by (rewrite round_mat_length; auto).
            rewrite map_length. apply row_length; auto. now rewrite round_mat_length.
          + destruct HT as [HT _]. lia. }
      apply (is_derive_ext (fun u => act_fun a (length (weight l)) i (eval (x u) (nth i (zhat r l z) (ENum 0))))).
      { intros u. symmetry. now apply Vf. }
      replace (sum_below k _) with
        (eval (x t) (nth i d (ENum 0)) * sum_below k (fun j => eval (x t) (nth j (nth i M []) (ENum 0)) * v j)).
      * apply (is_derive_comp_R (fun u => eval (x u) (nth i (zhat r l z) (ENum 0)))); [|exact Hpre].
        apply Vd; auto. rewrite (zhat_nth _ _ n) by auto. now apply K1.
      * rewrite <- sum_below_scal. apply sum_below_ext. intros j Hj.
        rewrite ematmul_diag by (auto; lia). ring.
    + refine (hidden_all_ext _ _ _ m _ _ (wf_round_hidden r _ _ _ H3) _ K2).
      intros i Hi. rewrite Vf by auto. now rewrite (zhat_nth _ _ n).
Qed.

(** ** The translation, taken apart *)
Lemma compute_factors_spec quad n : let '(E, dE) := compute_factors quad (new_vars n) in
  length dE = n /\
  (forall s, eval s E = if quad then sum_below n (fun i => s i * s i) else 1) /\
  (forall s i, (i < n)%nat -> eval s (nth i dE (ENum 0)) = if quad then 2 * s i else 0).
Proof.
  assert (E2 : Q2R 2 = 2) by (unfold Q2R; simpl; lra).
  unfold compute_factors. destruct quad.
  - rewrite map_length, new_vars_length. split; auto. split.
    + intros s. rewrite eval_esum. change (fold_right Rplus 0) with Rsum.
      rewrite (Rsum_map_below _ _ (ENum 0)), map_length, new_vars_length. apply sum_below_ext. intros j Hj.
      rewrite (map_nth_lt _ _ _ (ENum 0)) by (rewrite new_vars_length; auto).
      rewrite new_vars_nth by auto. simpl. ring.
    + intros s i Hi. rewrite (map_nth_lt _ _ _ (ENum 0)) by (rewrite new_vars_length; auto).
      rewrite new_vars_nth by auto. simpl. now rewrite E2.
  - rewrite map_length, new_vars_length. split; auto. split.
    + intros s. apply Q2R_1.
    + intros s i Hi. rewrite (map_nth_lt _ _ _ (ENum 0)) by (rewrite new_vars_length; auto). apply Q2R_0.
Qed.

Lemma cvc5_fix_other b simp r e : b <> SCVC5 -> cvc5_fix b simp r e = e.
Proof. intros H. destruct b; auto. now elim H. Qed.
Lemma fix_head_id f l : (forall e, f e = e) -> fix_head f l = l.
Proof. intros H. destruct l; simpl; rewrite ?H; auto. Qed.

Lemma translate_ct_inv b simp r quad net xdot V Vdot :
  b <> SCVC5 ->
  translate_ct b simp r quad net (new_vars (in_size net)) xdot = Some (V, Vdot) ->
  exists z J out, until_last_ct b r (in_size net) (hidden net) (new_vars (in_size net)) (eye (in_size net)) = Some (z, J) /\
    last_z r (last net) z = [out] /\
    V = EBin BMul out (fst (compute_factors quad (new_vars (in_size net)))) /\
    Vdot = edot (map2 (EBin BAdd)
       (map (fun g => EBin BMul g (fst (compute_factors quad (new_vars (in_size net)))))
          (nth 0 (ematmul (in_size net) (enum (round_mat r (weight (last net)))) J) []))
       (map (fun d => EBin BMul d out) (snd (compute_factors quad (new_vars (in_size net)))))) xdot.
Proof.
  intros Hb H. unfold translate_ct in H.
  destruct (until_last_ct b r (in_size net) (hidden net) (new_vars (in_size net)) (eye (in_size net)))
    as [[z J]|] eqn:Eu; cbn [option_bind] in H; [|discriminate].
  destruct (last_z r (last net) z) as [|out [|? ?]] eqn:El; try discriminate.
  destruct (compute_factors quad (new_vars (in_size net))) as [E dE] eqn:Ef.
  rewrite (fix_head_id (cvc5_fix b simp r)) in H by (intros; now apply cvc5_fix_other).
  rewrite cvc5_fix_other in H by auto. apply Some_eq' in H. apply pair_equal_spec in H. destruct H as [-> ->].
  exists z, J, out. auto.
Qed.

(** [V] is the certificate function of the rounded network. *)
Lemma translate_ct_value b simp r quad net xdot V Vdot :
  b <> SCVC5 -> wf_net net ->
  translate_ct b simp r quad net (new_vars (in_size net)) xdot = Some (V, Vdot) ->
  forall s, eval s V = cert_value quad (round_net r net) s.
Proof.
  intros Hb (m & H1 & H2 & H3) H s.
  destruct (translate_ct_inv _ _ _ _ _ _ _ _ Hb H) as (z & J & out & Eu & El & -> & _).
  destruct (until_last_ct_value _ _ _ _ _ _ _ _ _ _ H1 (new_vars_length _) Eu) as [Lz Vz].
  assert (Hf := compute_factors_spec quad (in_size net)).
  destruct (compute_factors quad (new_vars (in_size net))) as [E dE]. destruct Hf as (_ & HE & _).
  cbn [eval binop_eval fst]. rewrite HE. unfold cert_value. f_equal. unfold net_value.
  rewrite (last_z_value s r m _ z out H2 Lz El).
  cbn [in_size hidden last round_net]. rewrite (out_width_wf _ _ m) by (apply wf_round_hidden; auto).
  apply neuron_ext. intros k Hk. rewrite Vz by auto.
  apply (hidden_value_ext _ _ m); auto; [apply wf_round_hidden; auto|].
  intros j Hj. now rewrite new_vars_nth.
Qed.

(** [Vdot] is its derivative along the field. *)
Lemma translate_ct_derivative b simp r quad net xdot V Vdot :
  b <> SCVC5 -> wf_net net -> length xdot = in_size net ->
  translate_ct b simp r quad net (new_vars (in_size net)) xdot = Some (V, Vdot) ->
  forall x t, follows (in_size net) (field xdot) x t -> kink_free (round_net r net) (x t) ->
    is_derive (fun u => eval (x u) V) t (eval (x t) Vdot).
Proof.
  intros Hb (m & H1 & H2 & H3) Hxd H x t Hx Hk. set (n := in_size net) in *.
  destruct (translate_ct_inv _ _ _ _ _ _ _ _ Hb H) as (z & J & out & Eu & El & -> & ->). fold n in Eu |- *.
  destruct (until_last_ct_value _ _ _ _ _ _ _ _ _ _ H1 (new_vars_length _) Eu) as [Lz Vz].
  set (v := fun i => eval (x t) (nth i xdot (ENum 0))).
  assert (HT0 : tracks n x t v (new_vars n) (eye n)).
  { split; [now rewrite eye_length, new_vars_length|]. rewrite new_vars_length. intros i Hi.
    rewrite (sum_below_ext _ _ (fun j => (if (i =? j)%nat then 1 else 0) * v j)).
    - rewrite sum_below_delta by auto. rewrite new_vars_nth by auto. cbn [eval]. now apply Hx.
    - intros j Hj. now rewrite eye_nth. }
  assert (HT : tracks n x t v z J).
  { apply (until_last_ct_tracks _ _ _ _ _ m _ _ _ _ _ _ _ H1 (new_vars_length _) Eu HT0).
    refine (hidden_all_ext _ _ _ m _ _ (wf_round_hidden r _ _ _ H1) _ Hk).
    intros k Hk'. fold n in Hk'. now rewrite new_vars_nth. }
  set (jac := nth 0 (ematmul n (enum (round_mat r (weight (last net)))) J) []).
  assert (Hrow : Forall (fun q => length q = m) (round_mat r (weight (last net)))).
  { apply (wf_round_last r m _ H2). }
  assert (Ljac : length jac = n).
  { unfold jac, ematmul. rewrite (map_nth_lt _ _ _ []) by (rewrite enum_length, round_mat_length; lia).
    now rewrite map_length, seq_length. }
  (* derivative of the output of the network *)
  assert (Dout : is_derive (fun u => eval (x u) out) t
            (sum_below n (fun j => eval (x t) (nth j jac (ENum 0)) * v j))).
  { assert (D := tracks_lin n x t v z J (fun q => weight_of (round_last r (last net)) 0 q) HT).
    apply (is_derive_ext (fun u => neuron m (round_last r (last net)) (fun q => eval (x u) (nth q z (ENum 0))) 0)).
    { intros u. symmetry. now apply last_z_value. }
    rewrite Lz in D.
    replace (sum_below n (fun j => eval (x t) (nth j jac (ENum 0)) * v j)) with
      (sum_below n (fun j => sum_below m (fun q => weight_of (round_last r (last net)) 0 q *
         eval (x t) (nth j (nth q J []) (ENum 0))) * v j) + 0).
    - apply (is_derive_plus (V := R_NormedModule) _ (fun _ => bias_of (round_last r (last net)) 0) t _ 0);
        [exact D|apply (is_derive_const (V := R_NormedModule))].
    - rewrite Rplus_0_r. apply sum_below_ext. intros j Hj. f_equal. unfold jac.
      rewrite (ematmul_nth _ _ _ _ _ _ m).
      + apply sum_below_ext. intros q Hq. rewrite nth_enum. reflexivity.
      + rewrite enum_length, round_mat_length. lia.
      + exact Hj.
      + unfold enum. rewrite (map_nth_lt _ _ _ []) by (rewrite round_mat_length; lia).
        rewrite map_length. apply row_length; auto. rewrite round_mat_length. lia.
      + destruct HT as [HT _]. lia. }
  assert (Hf := compute_factors_spec quad n).
  destruct (compute_factors quad (new_vars n)) as [E dE]. destruct Hf as (LE & HE & HdE). cbn [fst snd].
  (* derivative of the factor *)
  assert (DE : is_derive (fun u => eval (x u) E) t
            (sum_below n (fun j => eval (x t) (nth j dE (ENum 0)) * v j))).
  { apply (is_derive_ext (fun u => if quad then sum_below n (fun i => x u i * x u i) else 1)).
    { intros u. symmetry. apply HE. }
    destruct quad.
    - apply is_derive_sum. intros j Hj. rewrite HdE by auto.
      replace (2 * x t j * v j) with (v j * x t j + x t j * v j) by ring.
      apply (is_derive_mult (fun u => x u j) (fun u => x u j) t (v j) (v j)); try (now apply Hx).
      intros ? ?. apply Rmult_comm.
    - rewrite sum_below_zero; [apply (is_derive_const (V := R_NormedModule))|].
      intros j Hj. rewrite HdE by auto. ring. }
  assert (Lg : length (map2 (EBin BAdd) (map (fun g => EBin BMul g E) jac) (map (fun d => EBin BMul d out) dE)) = n).
  { rewrite map2_length, !map_length. lia. }
  rewrite (eval_edot _ _ _ n Lg Hxd). cbn [eval binop_eval].
  replace (sum_below n _) with
    (sum_below n (fun j => eval (x t) (nth j jac (ENum 0)) * v j) * eval (x t) E +
     eval (x t) out * sum_below n (fun j => eval (x t) (nth j dE (ENum 0)) * v j)).
  - apply (is_derive_mult (fun u => eval (x u) out) (fun u => eval (x u) E) t); auto.
    intros ? ?. apply Rmult_comm.
  - rewrite Rmult_comm, <- !sum_below_scal, <- sum_below_plus. apply sum_below_ext. intros j Hj.
    rewrite (map2_nth _ _ _ (ENum 0) (ENum 0)) by (rewrite ?map_length; lia).
    rewrite !(map_nth_lt _ _ _ (ENum 0)) by lia. cbn [eval binop_eval]. unfold v. ring.
Qed.

Lemma factor_value quad n s :
  factor quad (row n s) = if quad then sum_below n (fun i => s i * s i) else 1.
Proof.
  unfold factor. destruct quad; [|reflexivity].
  rewrite (Rsum_map_below _ _ 0), row_length'. apply sum_below_ext. intros j Hj. rewrite row_nth by auto. ring.
Qed.

Lemma learner_value_spec quad net s :
  wf_net net -> softplus_ok net s -> learner_value quad net (row (in_size net) s) = cert_value quad net s.
Proof.
  intros Hw Hs. unfold learner_value, cert_value. rewrite factor_value. f_equal.
  destruct Hw as (m & H1 & H2 & H3).
  assert (Hs' : softplus_ok net (fun k => nth k (row (in_size net) s) 0)).
  { unfold softplus_ok in *. refine (hidden_all_ext _ _ _ m _ _ H1 _ Hs). intros k Hk. now rewrite row_nth. }
  rewrite net_forward_value; [|exists m; auto|apply row_length'|exact Hs'].
  unfold net_value. rewrite (out_width_wf _ _ m) by auto. apply neuron_ext. intros k Hk.
  apply (hidden_value_ext _ _ m); auto. intros j Hj. now apply row_nth.
Qed.

(** The rounding rule: np.round (translator.py:112-115, 174-185) and Fraction.__round__ (28-40). *)
Lemma rint_even q : Rabs (IZR (rint q) - Q2R q) = 1/2 -> Z.even (rint q) = true.
Proof.
  assert (Hf : Q2R (inject_Z (Qfloor q)) <= Q2R q) by (apply Qle_Rle; apply Qfloor_le).
  assert (Hc : Q2R q < Q2R (inject_Z (Qfloor q + 1))) by (apply Qlt_Rlt; apply Qlt_floor).
  rewrite !Q2R_inject in *. rewrite plus_IZR in Hc.
  assert (EH : Q2R (1#2) = 1/2) by (unfold Q2R; simpl; lra).
  assert (EM : Q2R (q - inject_Z (Qfloor q)) = Q2R q - IZR (Qfloor q)) by (rewrite Q2R_minus, Q2R_inject; reflexivity).
  unfold rint. destruct (Qcompare_spec (q - inject_Z (Qfloor q)) (1#2)) as [E|E|E].
  - destruct (Z.even (Qfloor q)) eqn:Ev; [auto|]. intros _. rewrite Z.even_add, Ev. reflexivity.
  - apply Qlt_Rlt in E. rewrite EM, EH in E. unfold Rabs. destruct (Rcase_abs _); lra.
  - apply Qlt_Rlt in E. rewrite EM, EH in E. rewrite plus_IZR. unfold Rabs. destruct (Rcase_abs _); lra.
Qed.
Lemma rint_scaled (u x : R) (q : Q) : 0 < u -> x = Q2R q * u -> rounded_to u x (IZR (rint q) * u).
Proof.
  intros Hu ->. exists (rint q). split; [reflexivity|].
  replace (IZR (rint q) * u - Q2R q * u) with ((IZR (rint q) - Q2R q) * u) by ring.
  rewrite Rabs_mult, (Rabs_right u) by lra. pose proof (rint_close q) as H. split; [nra|].
  intros E. apply rint_even. apply Rmult_eq_reg_r with u; lra.
Qed.
Theorem C21_rounding : forall d q,
  rounded_to (powerRZ 10 (- d)) (Q2R q) (Q2R (round_frac d q)) /\
  ((0 <= d)%Z -> round_num d q = round_frac d q) /\ ((d < 0)%Z -> round_num d q = q).
Proof.
  intros d q. split; [|split].
  - unfold round_frac. destruct (Z.ltb_spec d 0) as [H|H].
    + assert (E : IZR (10 ^ (- d)) = powerRZ 10 (- d)).
      { rewrite <- (Z2Nat.id (- d)) by lia. rewrite IZR_pow10. now rewrite <- pow_powerRZ. }
      assert (P : 0 < powerRZ 10 (- d)) by (apply powerRZ_lt; lra).
      cbv zeta. rewrite Q2R_mult, !Q2R_inject, E. apply rint_scaled; [exact P|].
      rewrite Q2R_div, Q2R_inject, E; [field; lra|]. intros K. apply Qeq_eqR in K. rewrite Q2R_inject, E in K.
      unfold Q2R in K. cbn in K. lra.
    + rewrite Q2R_round_dp. set (k := Z.to_nat d).
      assert (E : powerRZ 10 (- d) = / 10 ^ k).
      { replace d with (Z.of_nat k) by (unfold k; lia). rewrite powerRZ_neg', <- pow_powerRZ. reflexivity. }
      rewrite E. apply rint_scaled; [apply Rinv_0_lt_compat, pow10_pos|].
      rewrite Q2R_mult, Q2R_inject, IZR_pow10. pose proof (pow10_pos k). field. lra.
  - intros H. unfold round_num, round_frac. destruct (Z.ltb_spec d 0); [lia|reflexivity].
  - intros H. unfold round_num. destruct (Z.ltb_spec d 0); [reflexivity|lia].
Qed.


(** * C21: the function that is verified.
    With rounding off it is the learned function; otherwise it is the function of a
    network of the same architecture whose coefficients are within half a unit of the
    last kept decimal (the output bias is not rounded at all). *)
Theorem C21_verified_function :
  forall b simp r quad net xdot V Vdot,
    b <> SCVC5 -> wf_net net ->
    translate_ct b simp r quad net (new_vars (in_size net)) xdot = Some (V, Vdot) ->
    exists net', wf_net net' /\
      ((r < 0)%Z -> net' = net) /\
      ((0 <= r)%Z -> close_net (1/2 * / 10 ^ Z.to_nat r) net' net /\ bias (last net') = bias (last net)) /\
      (forall s, eval s V = cert_value quad net' s) /\
      (forall s, softplus_ok net' s -> eval s V = learner_value quad net' (row (in_size net) s)).
Proof.
  intros b simp r quad net xdot V Vdot Hb Hw H. exists (round_net r net).
  assert (Hw' := wf_round_net r net Hw).
  assert (Hv := translate_ct_value _ _ _ _ _ _ _ _ Hb Hw H).
  split; [exact Hw'|]. split; [apply round_net_exact|]. split.
  - intros Hr. split; [now apply round_net_close|reflexivity].
  - split; [exact Hv|]. intros s Hs. rewrite Hv.
    symmetry. exact (learner_value_spec quad (round_net r net) s Hw' Hs).
Qed.

(** dReal supports every activation: translation never fails on a learner's network. *)
Lemma forward_symbolic_dreal a xs : exists ys, forward_symbolic SDREAL a xs = Some ys.
Proof. destruct a; simpl; eauto. Qed.
Lemma derivative_symbolic_dreal a xs : exists ys, derivative_symbolic SDREAL a xs = Some ys.
Proof. destruct a; simpl; eauto. Qed.

Theorem C21_dreal_always_translates :
  forall simp r quad net xdot, wf_net net ->
    exists V Vdot, translate_ct SDREAL simp r quad net (new_vars (in_size net)) xdot = Some (V, Vdot).
Proof.
  intros simp r quad net xdot (m & H1 & H2 & H3). unfold translate_ct.
  assert (Hu : forall hs n k z J, wf_hidden n hs k -> length z = n ->
            exists z' J', until_last_ct SDREAL r (in_size net) hs z J = Some (z', J')).
  { induction hs as [|[l a] hs IH]; intros n k z J Hw Hz; [simpl; eauto|].
    cbn [until_last_ct]. destruct (forward_symbolic_dreal a (zhat r l z)) as [ys Ey].
    destruct (derivative_symbolic_dreal a (zhat r l z)) as [ds Ed]. rewrite Ey, Ed. cbn [option_bind].
    destruct Hw as (W1 & W2 & W3). apply (IH (length (weight l)) k); auto.
    destruct (forward_symbolic_spec _ _ _ _ W2 Ey) as [L _]. now rewrite L, (zhat_length r n). }
  destruct (Hu _ _ _ (new_vars (in_size net)) (eye (in_size net)) H1 (new_vars_length _)) as (z & J & Eu).
  rewrite Eu. cbn [option_bind].
  assert (Hl : length (last_z r (last net) z) = 1%nat).
  { unfold last_z. destruct H2 as [_ Hb]. destruct (bias (last net)) as [c|] eqn:Ec.
    - rewrite map2_length, matvec_length, enum_length, round_mat_length, map_length, (Hb c), H3; auto.
    - now rewrite matvec_length, enum_length, round_mat_length. }
  destruct (last_z r (last net) z) as [|o [|? ?]]; simpl in Hl; try discriminate.
  destruct (compute_factors quad (new_vars (in_size net))) as [E dE]. eauto.
Qed.

(** * C22: the verified derivative is the derivative of the verified function. *)
Theorem C22_derivative_along_trajectories :
  forall b simp r quad net xdot V Vdot,
    b <> SCVC5 -> wf_net net -> length xdot = in_size net ->
    translate_ct b simp r quad net (new_vars (in_size net)) xdot = Some (V, Vdot) ->
    exists net', ((r < 0)%Z -> net' = net) /\
      (forall s, eval s V = cert_value quad net' s) /\
      forall x t, follows (in_size net) (field xdot) x t -> kink_free net' (x t) ->
        is_derive (fun u => eval (x u) V) t (eval (x t) Vdot).
Proof.
  intros b simp r quad net xdot V Vdot Hb Hw Hx H. exists (round_net r net).
  split; [apply round_net_exact|]. split; [now apply (translate_ct_value b simp r quad net xdot V Vdot)|].
  now apply (translate_ct_derivative b simp r quad).
Qed.

Lemma smooth_kink_free hs : forall n y, Forall (fun la : layer * act => snd la <> AReLU) hs ->
  hidden_all smooth_at n hs y.
Proof.
  induction hs as [|[l a] hs IH]; intros n y H; simpl; auto.
  apply Forall_cons_iff in H. destruct H as [H1 H2]. split; auto.
  intros i Hi. destruct a; simpl; auto; now elim H1.
Qed.

Theorem C22_smooth_networks :
  forall b simp r quad net xdot V Vdot,
    b <> SCVC5 -> wf_net net -> length xdot = in_size net -> smooth_net net ->
    translate_ct b simp r quad net (new_vars (in_size net)) xdot = Some (V, Vdot) ->
    lie_derivative (in_size net) (field xdot) (sem V) (sem Vdot).
Proof.
  intros b simp r quad net xdot V Vdot Hb Hw Hx Hs H x t Hf.
  apply (translate_ct_derivative b simp r quad net xdot V Vdot); auto.
  apply smooth_kink_free. cbn [round_net hidden]. unfold smooth_net in Hs.
  induction (hidden net); simpl; constructor; inversion Hs; auto.
Qed.

(** A two-layer network with a quadratic factor: 2 inputs, tanh then square. *)
Definition demo_net : network :=
  {| in_size := 2;
     hidden := [({| weight := [[1#2; 1#3]; [2#1; -1#1]; [0; 1]]%Q; bias := Some [0; 1#7; 0]%Q |}, ATanh);
                ({| weight := [[1; 1; 1]; [1#3; 0; -1]]%Q; bias := None |}, ASquare)];
     last := {| weight := [[1; 1#1000]]%Q; bias := None |} |}.
Lemma demo_wf : wf_net demo_net.
Proof.
  exists 2%nat. simpl. unfold wf_layer. simpl. repeat split; auto; repeat constructor; try discriminate.
  all: intros b E; injection E as <-; reflexivity.
Qed.
Example C22_example :
  wf_net demo_net /\ smooth_net demo_net /\
  exists V Vdot, translate_ct SDREAL (fun e => e) 3 true demo_net (new_vars 2) [EVar 1; EUn UNeg (EVar 0)] = Some (V, Vdot).
Proof.
  split; [exact demo_wf|]. split.
  - repeat constructor; discriminate.
  - apply (C21_dreal_always_translates (fun e => e) 3 true demo_net _ demo_wf).
Qed.

(** * C23: discrete time. *)
Lemma until_last_dt_value b r hs : forall n m z z',
  wf_hidden n hs m -> length z = n -> until_last_dt b r hs z = Some z' ->
  length z' = m /\
  forall s i, (i < m)%nat ->
    eval s (nth i z' (ENum 0)) = hidden_value n (round_hidden r hs) (fun j => eval s (nth j z (ENum 0))) i.
Proof.
  induction hs as [|[l a] hs IH]; intros n m z z' Hw Hz H; cbn [until_last_dt wf_hidden round_hidden map hidden_value fst snd] in *.
  - apply Some_eq' in H. subst z'. split; [lia|]. intros s i Hi. reflexivity.
  - destruct (r =? 0)%Z; [discriminate|]. destruct Hw as (H1 & H2 & H3).
    destruct (forward_symbolic b a (zhat r l z)) as [zf|] eqn:Ef; cbn [option_bind] in H; [|discriminate].
    destruct (forward_symbolic_spec _ _ _ _ H2 Ef) as [Lf Vf].
    rewrite (zhat_length r n) in Lf by auto.
    destruct (IH _ m _ _ H3 Lf H) as [L V]. split; auto. intros s i Hi. rewrite V by auto.
    cbn [weight round_layer]. rewrite round_mat_length.
    apply (hidden_value_ext _ _ m); [apply wf_round_hidden; auto| |auto].
    intros j Hj. rewrite Vf by (rewrite (zhat_length r n); auto). rewrite (zhat_length r n) by auto.
    rewrite (zhat_nth _ _ n) by auto. reflexivity.
Qed.

Lemma translate_dt_value b r net xdot V dV :
  wf_net net -> length xdot = in_size net ->
  translate_dt b r false net (new_vars (in_size net)) xdot = Some (V, dV) ->
  forall s, eval s V = net_value (round_net r net) s /\
            eval s dV = net_value (round_net r net) (field xdot s) - net_value (round_net r net) s.
Proof.
  intros (m & H1 & H2 & H3) Hx H s. unfold translate_dt in H.
  destruct (until_last_dt b r (hidden net) (new_vars (in_size net))) as [z|] eqn:E1; cbn [option_bind] in H; [|discriminate].
  destruct (until_last_dt b r (hidden net) xdot) as [zd|] eqn:E2; cbn [option_bind] in H; [|discriminate].
  destruct (until_last_dt_value _ _ _ _ m _ _ H1 (new_vars_length _) E1) as [L1 V1].
  destruct (until_last_dt_value _ _ _ _ m _ _ H1 Hx E2) as [L2 V2].
  destruct (last_z r (last net) z) as [|o [|? ?]] eqn:El; try discriminate.
  destruct (last_z r (last net) zd) as [|od [|? ?]] eqn:Eld; try discriminate.
  assert (Ho := last_z_value s r m _ z o H2 L1 El).
  assert (Hod := last_z_value s r m _ zd od H2 L2 Eld).
  assert (Eo : eval s o = net_value (round_net r net) s).
  { rewrite Ho. unfold net_value. cbn [in_size hidden last round_net].
    rewrite (out_width_wf _ _ m) by (apply wf_round_hidden; auto).
    apply neuron_ext. intros k Hk. rewrite V1 by auto.
    apply (hidden_value_ext _ _ m); auto; [apply wf_round_hidden; auto|].
    intros j Hj. now rewrite new_vars_nth. }
  assert (Eod : eval s od = net_value (round_net r net) (field xdot s)).
  { rewrite Hod. unfold net_value. cbn [in_size hidden last round_net].
    rewrite (out_width_wf _ _ m) by (apply wf_round_hidden; auto).
    apply neuron_ext. intros k Hk. rewrite V2 by auto. reflexivity. }
  cbn [compute_factors fst andb] in H.
  assert (En : (match b with SSYMPY => od | _ => od end) = od) by (destruct b; reflexivity).
  rewrite En in H. apply Some_eq' in H. apply pair_equal_spec in H. destruct H as [-> ->].
  cbn [eval binop_eval]. rewrite Q2R_1, Eo, Eod. split; ring.
Qed.

(** With any factor (not sympy): the next value is that of the bare network. *)
Lemma translate_dt_quad b r (quad : bool) net xdot V dV :
  b <> SSYMPY -> wf_net net -> length xdot = in_size net ->
  translate_dt b r quad net (new_vars (in_size net)) xdot = Some (V, dV) ->
  forall s, eval s V = cert_value quad (round_net r net) s /\
            eval s dV = net_value (round_net r net) (field xdot s) - cert_value quad (round_net r net) s.
Proof.
  intros Hb (m & H1 & H2 & H3) Hx H s. unfold translate_dt in H.
  destruct (until_last_dt b r (hidden net) (new_vars (in_size net))) as [z|] eqn:E1; cbn [option_bind] in H; [|discriminate].
  destruct (until_last_dt b r (hidden net) xdot) as [zd|] eqn:E2; cbn [option_bind] in H; [|discriminate].
  destruct (until_last_dt_value _ _ _ _ m _ _ H1 (new_vars_length _) E1) as [L1 V1].
  destruct (until_last_dt_value _ _ _ _ m _ _ H1 Hx E2) as [L2 V2].
  destruct (last_z r (last net) z) as [|o [|? ?]] eqn:El; try discriminate.
  destruct (last_z r (last net) zd) as [|od [|? ?]] eqn:Eld; try discriminate.
  assert (Ho := last_z_value s r m _ z o H2 L1 El).
  assert (Hod := last_z_value s r m _ zd od H2 L2 Eld).
  assert (Eo : eval s o = net_value (round_net r net) s).
  { rewrite Ho. unfold net_value. cbn [in_size hidden last round_net].
    rewrite (out_width_wf _ _ m) by (apply wf_round_hidden; auto).
    apply neuron_ext. intros k Hk. rewrite V1 by auto.
    apply (hidden_value_ext _ _ m); auto; [apply wf_round_hidden; auto|].
    intros j Hj. now rewrite new_vars_nth. }
  assert (Eod : eval s od = net_value (round_net r net) (field xdot s)).
  { rewrite Hod. unfold net_value. cbn [in_size hidden last round_net].
    rewrite (out_width_wf _ _ m) by (apply wf_round_hidden; auto).
    apply neuron_ext. intros k Hk. rewrite V2 by auto. reflexivity. }
  assert (Hf := compute_factors_spec quad (in_size net)).
  destruct (compute_factors quad (new_vars (in_size net))) as [E dE]. destruct Hf as (_ & HE & _).
  cbn [fst] in H.
  assert (H' : Some (EBin BMul o E, EBin BSub od (EBin BMul o E)) = Some (V, dV)) by (destruct b; [exact H..|now elim Hb]).
  clear H. apply Some_eq' in H'. apply pair_equal_spec in H'. destruct H' as [-> ->].
  cbn [eval binop_eval]. rewrite HE, Eo, Eod. unfold cert_value. cbn [in_size round_net]. split; reflexivity.
Qed.

Lemma net_value_ext net x y :
  wf_net net -> (forall i, (i < in_size net)%nat -> x i = y i) -> net_value net x = net_value net y.
Proof.
  intros (m & H1 & H2 & H3) H. unfold net_value. rewrite (out_width_wf _ _ m) by auto.
  apply neuron_ext. intros k Hk. now apply (hidden_value_ext _ _ m).
Qed.

Theorem C23_discrete_difference :
  forall b r net xdot V dV,
    wf_net net -> length xdot = in_size net ->
    translate_dt b r false net (new_vars (in_size net)) xdot = Some (V, dV) ->
    step_difference (in_size net) (field xdot) (sem V) (sem dV).
Proof.
  intros b r net xdot V dV Hw Hx H s s' Hs. unfold sem.
  destruct (translate_dt_value _ _ _ _ _ _ Hw Hx H s) as [E1 E2].
  destruct (translate_dt_value _ _ _ _ _ _ Hw Hx H s') as [E1' _].
  rewrite E2, E1, E1'. f_equal. apply net_value_ext; [now apply wf_round_net|].
  intros i Hi. symmetry. now apply Hs.
Qed.

(** ... and V is the learned function, as in continuous time. *)
Theorem C23_discrete_function :
  forall b r net xdot V dV,
    wf_net net -> length xdot = in_size net ->
    translate_dt b r false net (new_vars (in_size net)) xdot = Some (V, dV) ->
    exists net', wf_net net' /\ ((r < 0)%Z -> net' = net) /\
      ((0 <= r)%Z -> close_net (1/2 * / 10 ^ Z.to_nat r) net' net) /\
      forall s, eval s V = net_value net' s.
Proof.
  intros b r net xdot V dV Hw Hx H. exists (round_net r net).
  split; [now apply wf_round_net|]. split; [apply round_net_exact|]. split; [apply round_net_close|].
  intros s. now destruct (translate_dt_value _ _ _ _ _ _ Hw Hx H s).
Qed.

(** Violation: ROUNDING = 0 crashes the discrete-time translator. *)
Theorem C23_rounding_zero_fails :
  forall b quad net xs xdot, hidden net <> [] -> translate_dt b 0 quad net xs xdot = None.
Proof.
  intros b quad net xs xdot H. unfold translate_dt. destruct (hidden net) as [|[l a] hs]; [now elim H|].
  reflexivity.
Qed.
