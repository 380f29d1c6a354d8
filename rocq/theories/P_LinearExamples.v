(** C68: a simplifier with the assumed properties, and linearised models. *)
From Coquelicot Require Import Coquelicot.
From Coq Require Import String Reals QArith Qreals List Lra Lia Arith Bool.
From Verif Require Import M_Syntax M_Model M_Linear M_Benchmarks S_Model S_Domains S_Dynamics S_Linear L_Continuity L_Frechet P_Linear.
Import ListNotations.
Local Open Scope R_scope.

(** Folding of constants. *)
Definition fold_un (f : unop) (a : expr) : expr :=
  match f, a with
  | UNeg, ENum q => ENum (Qred (- q))
  | USin, ENum q => if Qeq_bool q 0 then ENum 0 else EUn f a
  | UCos, ENum q | UExp, ENum q => if Qeq_bool q 0 then ENum 1 else EUn f a
  | _, _ => EUn f a
  end.
Definition fold_bin (f : binop) (a b : expr) : expr :=
  match f, a, b with
  | BAdd, ENum p, ENum q => ENum (Qred (p + q))
  | BAdd, ENum p, _ => if Qeq_bool p 0 then b else EBin f a b
  | BAdd, _, ENum q => if Qeq_bool q 0 then a else EBin f a b
  | BSub, ENum p, ENum q => ENum (Qred (p - q))
  | BSub, _, ENum q => if Qeq_bool q 0 then a else EBin f a b
  | BMul, ENum p, ENum q => ENum (Qred (p * q))
  | BMul, ENum p, _ => if Qeq_bool p 0 then ENum 0 else EBin f a b
  | BMul, _, ENum q => if Qeq_bool q 0 then ENum 0 else EBin f a b
  | BDiv, ENum p, ENum q => if Qeq_bool q 0 then EBin f a b else ENum (Qred (p / q))
  | _, _, _ => EBin f a b
  end.
Fixpoint qpow (q : Q) (k : nat) : Q := match k with O => 1 | S k => (q * qpow q k)%Q end.
Definition fold_pow (a : expr) (k : nat) : expr := match a with ENum q => ENum (Qred (qpow q k)) | _ => EPow a k end.
Fixpoint folded (e : expr) : expr :=
  match e with
  | ENum q => ENum q
  | EVar i => EVar i
  | EUn f a => fold_un f (folded a)
  | EBin f a b => fold_bin f (folded a) (folded b)
  | EPow a k => fold_pow (folded a) k
  | EIfPos c a b => EIfPos (folded c) (folded a) (folded b)
  end.
Lemma Q2R_red q : Q2R (Qred q) = Q2R q. Proof. apply Qeq_eqR, Qred_correct. Qed.
Lemma Qeq_bool_zero q : Qeq_bool q 0 = true -> Q2R q = 0.
Proof. intros H. apply Qeq_bool_iff in H. now rewrite (Qeq_eqR _ _ H), Q2R_zero. Qed.
Lemma Qeq_bool_nonzero q : Qeq_bool q 0 = false -> ~ (q == 0)%Q.
Proof. intros H E. apply Qeq_bool_iff in E. congruence. Qed.
Lemma Q2R_qpow q k : Q2R (qpow q k) = Q2R q ^ k.
Proof. induction k as [|k IH]; cbn [qpow pow]; [apply Q2R_one|]. now rewrite Q2R_mult, IH. Qed.
Lemma fold_un_ok f a s : defined s a -> defined s (fold_un f a) /\ eval s (fold_un f a) = unop_eval f (eval s a).
Proof.
  intros D. destruct f, a; cbn [fold_un]; try (split; [exact D|reflexivity]); try (split; [exact I|]);
    try (destruct (Qeq_bool q 0) eqn:E; [apply Qeq_bool_zero in E; split; [exact I|]; cbn [eval unop_eval]; rewrite E|split; [exact I|reflexivity]]).
  - cbn [eval unop_eval]. now rewrite Q2R_red, Q2R_opp.
  - now rewrite exp_0, Q2R_one.
  - now rewrite sin_0, Q2R_zero.
  - now rewrite cos_0, Q2R_one.
Qed.
Lemma fold_bin_ok f a b s : defined s (EBin f a b) -> defined s (fold_bin f a b) /\ eval s (fold_bin f a b) = binop_eval f (eval s a) (eval s b).
Proof.
  intros D. destruct f.
  - destruct D as [Da Db]. destruct a, b; cbn [fold_bin]; try (split; [now split|reflexivity]);
      try (destruct (Qeq_bool q 0) eqn:E; [apply Qeq_bool_zero in E; split; [assumption|]; cbn [eval binop_eval]; rewrite E; cbn [eval]; ring|split; [now split|reflexivity]]).
    split; [exact I|]. cbn [eval binop_eval]. now rewrite Q2R_red, Q2R_plus.
  - destruct D as [Da Db]. destruct a, b; cbn [fold_bin]; try (split; [now split|reflexivity]);
      try (destruct (Qeq_bool q 0) eqn:E; [apply Qeq_bool_zero in E; split; [assumption|]; cbn [eval binop_eval]; rewrite E; cbn [eval]; ring|split; [now split|reflexivity]]).
    split; [exact I|]. cbn [eval binop_eval]. now rewrite Q2R_red, Q2R_minus.
  - destruct D as [Da Db]. destruct a, b; cbn [fold_bin]; try (split; [now split|reflexivity]);
      try (destruct (Qeq_bool q 0) eqn:E; [apply Qeq_bool_zero in E; split; [exact I|]; cbn [eval binop_eval]; rewrite E, Q2R_zero; ring|split; [now split|reflexivity]]).
    split; [exact I|]. cbn [eval binop_eval]. now rewrite Q2R_red, Q2R_mult.
  - destruct a, b; cbn [fold_bin]; try (split; [exact D|reflexivity]).
    destruct (Qeq_bool q0 0) eqn:E; [split; [exact D|reflexivity]|]. apply Qeq_bool_nonzero in E. split; [exact I|].
    cbn [eval binop_eval]. now rewrite Q2R_red, Q2R_div.
  - destruct a, b; (split; [exact D|reflexivity]).
Qed.
Lemma folded_keeps : keeps_values folded.
Proof.
  intros e s. induction e as [q|i|f a IH|f a IHa b IHb|a IH k|c IHc a IHa b IHb]; intros D; cbn [folded].
  - split; [exact I|reflexivity].
  - split; [exact I|reflexivity].
  - destruct (IH D) as [D' E]. cbn [eval]. rewrite <- E. now apply fold_un_ok.
  - assert (W : defined s (EBin f (folded a) (folded b)) /\ eval s (folded a) = eval s a /\ eval s (folded b) = eval s b).
    { destruct f; cbn [defined] in D |- *; try (destruct D as [Da Db]; destruct (IHa Da), (IHb Db); tauto).
      destruct D as (Da & Db & Nz). destruct (IHa Da) as [? ?], (IHb Db) as [? E]. rewrite E. tauto. }
    destruct W as (W & Ea & Eb). cbn [eval]. rewrite <- Ea, <- Eb. now apply fold_bin_ok.
  - destruct (IH D) as [D' E]. cbn [eval]. rewrite <- E. destruct (folded a); cbn [fold_pow]; try (split; [exact D'|reflexivity]).
    split; [exact I|]. cbn [eval]. now rewrite Q2R_red, Q2R_qpow.
  - cbn [defined] in D |- *. destruct D as (Dc & Da & Db). destruct (IHc Dc) as [? Ec], (IHa Da) as [? Ea], (IHb Db) as [? Eb].
    cbn [eval]. rewrite Ec, Ea, Eb. tauto.
Qed.
Lemma folded_computes : computes_polynomials folded.
Proof.
  split.
  - intros n e. induction e as [q|i|f a IH|f a IHa b IHb|a IH k|c IHc a IHa b IHb]; cbn [polynomial_term folded]; auto.
    + destruct f; cbn beta iota; try tauto. intros H. specialize (IH H). destruct (folded a); first [exact I|exact IH].
    + destruct f; cbn beta iota; try tauto; intros [H1 H2]; specialize (IHa H1); specialize (IHb H2);
        destruct (folded a), (folded b); cbn [fold_bin]; repeat match goal with |- context [Qeq_bool ?q 0] => destruct (Qeq_bool q 0) end;
        first [exact I|assumption|split; assumption].
    + intros H. specialize (IH H). destruct (folded a); first [exact I|exact IH].
  - intros e. induction e as [q|i|f a IH|f a IHa b IHb|a IH k|c IHc a IHa b IHb]; cbn [polynomial_term folded]; intros H; try tauto.
    + now exists q.
    + lia.
    + destruct f; cbn beta iota in H; try tauto. destruct (IH H) as (q & ->). cbn. now eexists.
    + destruct f; cbn beta iota in H; try tauto; destruct H as [H1 H2]; destruct (IHa H1) as (p & ->), (IHb H2) as (q & ->); cbn; now eexists.
    + destruct (IH H) as (q & ->). cbn. now eexists.
Qed.

(** The closed-loop pendulum of the benchmarks: sin is linearised too. *)
Example C68_pendulum :
  linearise folded SineModelLQR = Some [[Q2R (- 721 # 100); Q2R (- 17 # 50)]; [Q2R (457 # 25); Q2R (- 899 # 300)]].
Proof. vm_compute. reflexivity. Qed.
(** The Lorenz system has three inputs, which enter as sums. *)
Example C68_lorenz :
  linearise folded LorenzSystem = Some [[Q2R (-10); Q2R 10; Q2R 0]; [Q2R 28; Q2R (-1); Q2R 0]; [Q2R 0; Q2R 0; Q2R (- 8 # 3)]].
Proof. vm_compute. reflexivity. Qed.
Lemma pendulum_regular u e : In e (bm_smt SineModelLQR) -> regular (zeros 2) u e.
Proof. intros [<-|[<-|[]]]; repeat split. cbn [value]. apply Rgt_not_eq. unfold Q2R. cbn. lra. Qed.
Example C68_pendulum_first_order : forall i, (i < 2)%nat ->
  component SineModelLQR i [0; 0] [] = 0 /\
  first_order 2 (fun x => component SineModelLQR i x []) (nth i [[Q2R (- 721 # 100); Q2R (- 17 # 50)]; [Q2R (457 # 25); Q2R (- 899 # 300)]] []).
Proof.
  intros i Hi. destruct (C68_linearisation folded SineModelLQR 2 _ folded_keeps eq_refl C68_pendulum) as (_ & _ & H).
  assert (R : forall u, regular (zeros 2) u (nth i (bm_smt SineModelLQR) (UNum 0))) by (intros; apply pendulum_regular, nth_In; exact Hi).
  destruct (H i Hi) as [H1 H2]. split; [exact (H1 (R _))|exact (H2 [] (R _))].
Qed.
(** A car that drives with speed one does not rest at the origin. *)
Example C68_car_refused : linearise folded Car = None.
Proof. apply (C68_not_an_equilibrium folded Car 3 0 folded_keeps eq_refl); cbn; [lia|exact I|]. rewrite cos_0. lra. Qed.
(** [x' = x u - x]. *)
Definition multiplicative : benchmark_model :=
  {| bm_name := "Multiplicative"; bm_control := true; bm_n_vars := Some 1%nat; bm_n_u := Some 1%nat;
     bm_torch := [USub (UMul (UVar 0) (UInput 0)) (UVar 0)]; bm_functions := []; bm_unpack_v := None; bm_unpack_u := None;
     bm_smt := [USub (UMul (UVar 0) (UInput 0)) (UVar 0)] |}.
Example C68_multiplicative_refused : forall simplified, keeps_values simplified -> linearise simplified multiplicative = None.
Proof.
  intros sp Hk. apply (C68_input_dependent_refused sp multiplicative 1 0 0 [0] [1] (-1) 0 Hk eq_refl); cbn; try lia; try tauto; try lra.
  - apply (is_derive_ext (fun h => -1 * h)); [intros t; unfold component, only; cbn; ring|]. auto_derive; auto; ring.
  - apply (is_derive_ext (fun _ => 0)); [intros t; unfold component, only; cbn; ring|]. auto_derive; auto.
Qed.
Example C68_poly_accepted : exists A, linearise folded Poly1 = Some A.
Proof.
  apply (C68_polynomials_accepted folded Poly1 3 folded_keeps folded_computes eq_refl); try reflexivity; try lia; try discriminate.
  - now right.
  - intros e He. cbn in He. repeat (destruct He as [<-|He]; [split; [cbn; repeat split; lia|cbn; unfold Q2R; cbn; ring]|]). destruct He.
Qed.
