(** Refutations around the translator: three ways in which fossil certifies a wrong
    statement although every other component is perfect. *)
From Coquelicot Require Import Coquelicot.
From Coq Require Import Reals QArith Qreals List Bool Arith ZArith Lra Lia.
From Verif Require Import M_Syntax M_Certificates M_Verifier M_Activations M_Domains M_Network
  S_Verifier S_Certificates S_Success S_Activations S_Domains S_Network
  S_Dynamics L_Holds L_Domains L_Activations L_Network L_Success P_Verifier P_Certificates P_Activations
  P_Safety P_Stability P_Domains P_Examples P_Translator.
Import ListNotations.
Local Open Scope R_scope.

Ltac q2r :=
  repeat match goal with
  | |- context [Q2R ?q] => let v := eval compute in q in
      match v with ?a # ?b => replace (Q2R q) with (IZR a / IZR (Zpos b)) by (unfold Q2R; simpl; lra) end
  end.
Ltac q2r_in H :=
  repeat match type of H with
  | context [Q2R ?q] => let v := eval compute in q in
      match v with ?a # ?b => replace (Q2R q) with (IZR a / IZR (Zpos b)) in H by (unfold Q2R; simpl; lra) end
  end.

(** ** ReLU kinks.
    B(x) = 2 relu(x) - 2 relu(-x) + relu(10 - x) - 10 equals x for x <= 10.  At its zero
    the symbolic derivative along x' = 1 is -1, because both ReLUs at their kink count
    as switched off. *)
Definition kink_net : network :=
  {| in_size := 1;
     hidden := [({| weight := [[1]; [-1]; [-1]]%Q; bias := Some [0; 0; 10]%Q |}, AReLU)];
     last := {| weight := [[2; -2; 1]]%Q; bias := Some [-10]%Q |} |}.
Lemma kink_wf : wf_net kink_net.
Proof.
  exists 3%nat. simpl. unfold wf_layer. simpl. repeat split; auto; repeat constructor.
  all: intros b E; injection E as <-; reflexivity.
Qed.
Definition kink_pair : expr * expr :=
  match translate_ct SZ3 (fun e => e) 3 false kink_net (new_vars 1) [ENum 1] with
  | Some p => p | None => (ENum 0, ENum 0) end.
Definition kink_sets : sets := fun l =>
  match l with
  | XD => iv_fml (-5) 5
  | XI => iv_fml (-2) (-1)
  | XU => iv_fml 1 2
  | _ => FTrue
  end.

Lemma kink_value s : eval s (fst kink_pair) =
  2 * Rmax 0 (s 0%nat) - 2 * Rmax 0 (- s 0%nat) + Rmax 0 (10 - s 0%nat) - 10.
Proof.
  rewrite (translate_ct_value SZ3 (fun e => e) 3 false kink_net [ENum 1] _ (snd kink_pair)).
  - unfold cert_value, net_value. cbn -[Q2R round_num]. unfold neuron, weight_of, bias_of. cbn -[Q2R round_num].
    q2r. simpl.
    replace (0 + 1000 / 1000 * s 0%nat + 0 / 1000) with (s 0%nat) by lra.
    replace (0 + -1000 / 1000 * s 0%nat + 0 / 1000) with (- s 0%nat) by lra.
    replace (0 + -1000 / 1000 * s 0%nat + 10000 / 1000) with (10 - s 0%nat) by lra.
    lra.
  - discriminate.
  - exact kink_wf.
  - reflexivity.
Qed.

Lemma kink_value_id s : s 0%nat <= 10 -> eval s (fst kink_pair) = s 0%nat.
Proof.
  intros H. rewrite kink_value. rewrite (Rmax_right 0 (10 - s 0%nat)) by lra.
  destruct (Rle_lt_dec 0 (s 0%nat)) as [Hp|Hn].
  - rewrite (Rmax_right 0 (s 0%nat)), (Rmax_left 0 (- s 0%nat)) by lra. lra.
  - rewrite (Rmax_left 0 (s 0%nat)), (Rmax_right 0 (- s 0%nat)) by lra. lra.
Qed.

Lemma kink_slope s : s 0%nat = 0 -> eval s (snd kink_pair) = -1.
Proof.
  intros H. cbn -[Q2R round_num Qmult Qplus].
  rewrite H. q2r. 
  repeat (destruct Rlt_dec; try lra).
Qed.

Theorem C22_relu_kink_unsound :
  translate_ct SZ3 (fun e => e) 3 false kink_net (new_vars 1) [ENum 1] = Some kink_pair /\
  certified (barrier_constraints kink_sets (fst kink_pair) (snd kink_pair)) /\
  exists x, solves_forever 1 (field [ENum 1]) x /\ inside kink_sets XI (x 0) /\
    (forall t, 0 <= t <= 2 -> inside kink_sets XD (x t)) /\ inside kink_sets XU (x 2).
Proof.
  split; [reflexivity|]. split.
  - apply refuted_certified;
      [apply (C01_certificate_labels_distinct false (new_vars 1) kink_sets 0
                (fst kink_pair) (fst kink_pair) (snd kink_pair) (snd kink_pair))|].
    apply C08_barrier_obligations. unfold barrier_conditions, sem, inside, kink_sets.
    repeat split.
    + intros s HD HI. rewrite iv_holds in *. q2r_in HI. rewrite kink_value_id by lra. lra.
    + intros s HD HU. rewrite iv_holds in *. q2r_in HU. rewrite kink_value_id by lra. lra.
    + intros s HD HB. rewrite iv_holds in *. q2r_in HD. rewrite kink_value_id in HB by lra.
      rewrite kink_slope by auto. lra.
  - exists (fun t _ => t - 1). split; [|split; [|split]].
    + intros t _ i Hi. replace i with 0%nat by lia. unfold field. simpl. rewrite Q2R_1. auto_derive; auto.
    + unfold inside, kink_sets. rewrite iv_holds. q2r. lra.
    + intros t Ht. unfold inside, kink_sets. rewrite iv_holds. q2r. lra.
    + unfold inside, kink_sets. rewrite iv_holds. q2r. lra.
Qed.

(** ** cvc5: the value and the gradient are rounded separately after simplification.
    [mono] is a simplifier that multiplies constants out (on one-variable monomials). *)
Fixpoint qpow (c : Q) (n : nat) : Q := match n with O => 1%Q | S n => (c * qpow c n)%Q end.
Fixpoint mono (e : expr) : option (Q * nat) :=
  match e with
  | ENum q => Some (q, 0%nat)
  | EVar 0 => Some (1%Q, 1%nat)
  | EBin BMul a b =>
      match mono a, mono b with Some (c, k), Some (d, l) => Some ((c * d)%Q, (k + l)%nat) | _, _ => None end
  | EBin BAdd a b =>
      match mono a, mono b with
      | Some (c, k), Some (d, l) =>
          if (k =? l)%nat then Some ((c + d)%Q, k)
          else if Qeq_bool c 0 then Some (d, l) else if Qeq_bool d 0 then Some (c, k) else None
      | _, _ => None
      end
  | EPow a n => match mono a with Some (c, k) => Some (qpow c n, (k * n)%nat) | None => None end
  | _ => None
  end.
Definition fold_constants (e : expr) : expr :=
  match mono e with Some (c, k) => EBin BMul (ENum c) (EPow (EVar 0) k) | None => e end.

Lemma Q2R_pow c n : Q2R (qpow c n) = Q2R c ^ n.
Proof. induction n as [|n IH]; simpl; [apply Q2R_1|]. now rewrite Q2R_mult, IH. Qed.

Lemma mono_sound s e : forall c k, mono e = Some (c, k) -> eval s e = Q2R c * s 0%nat ^ k.
Proof.
  induction e as [q|i|u e IH|o a IHa b IHb|e IH n|c1 IH1 a1 IH2 b1 IH3]; intros c k H; simpl in H; try discriminate.
  - injection H as <- <-. simpl. ring.
  - destruct i; [|discriminate]. injection H as <- <-. simpl. rewrite Q2R_1. ring.
  - destruct o; try discriminate.
    + destruct (mono a) as [[ca ka]|]; [|discriminate]. destruct (mono b) as [[cb kb]|]; [|discriminate].
      simpl. rewrite (IHa _ _ eq_refl), (IHb _ _ eq_refl).
      destruct (Nat.eqb_spec ka kb) as [->|_].
      * injection H as <- <-. rewrite Q2R_plus. ring.
      * destruct (Qeq_bool ca 0) eqn:E1.
        -- injection H as <- <-. apply Qeq_bool_eq, Qeq_eqR in E1. rewrite E1, Q2R_0. ring.
        -- destruct (Qeq_bool cb 0) eqn:E2; [|discriminate].
           injection H as <- <-. apply Qeq_bool_eq, Qeq_eqR in E2. rewrite E2, Q2R_0. ring.
    + destruct (mono a) as [[ca ka]|]; [|discriminate]. destruct (mono b) as [[cb kb]|]; [|discriminate].
      injection H as <- <-. simpl. rewrite (IHa _ _ eq_refl), (IHb _ _ eq_refl), Q2R_mult, pow_add. ring.
  - destruct (mono e) as [[ce ke]|]; [|discriminate]. injection H as <- <-. simpl.
    rewrite (IH _ _ eq_refl), Q2R_pow, Rpow_mult_distr, pow_mult. reflexivity.
Qed.
Lemma fold_constants_sound s e : eval s (fold_constants e) = eval s e.
Proof.
  unfold fold_constants. destruct (mono e) as [[c k]|] eqn:E; [|reflexivity].
  rewrite (mono_sound s e c k E). reflexivity.
Qed.

(** V = (x/50)^2 = 0.0004 x^2 is rounded to 0, its gradient 0.0008 x to 0.001 x. *)
Definition flat_net : network :=
  {| in_size := 1; hidden := [({| weight := [[1#50]]%Q; bias := None |}, ASquare)];
     last := {| weight := [[1]]%Q; bias := None |} |}.
Theorem C22_cvc5_rounding_refuted :
  wf_net flat_net /\ smooth_net flat_net /\
  (forall s e, eval s (fold_constants e) = eval s e) /\
  exists V Vdot,
    translate_ct SCVC5 fold_constants 3 false flat_net (new_vars 1) [ENum 1] = Some (V, Vdot) /\
    (forall s, eval s V = 0) /\ (forall s, eval s Vdot = 1/1000 * s 0%nat) /\
    ~ lie_derivative 1 (field [ENum 1]) (sem V) (sem Vdot).
Proof.
  split. { exists 1%nat. simpl. unfold wf_layer. simpl. repeat split; auto; repeat constructor; discriminate. }
  split. { repeat constructor; discriminate. }
  split; [exact fold_constants_sound|].
  eexists. eexists. split; [vm_compute; reflexivity|].
  assert (HV : forall s, eval s (EBin BMul (EBin BMul (ENum (0 # 1000)) (EPow (EVar 0) 2)) (ENum 1)) = 0).
  { intros s. cbn [eval binop_eval]. q2r. field. }
  match goal with |- (forall s, eval s ?A = 0) /\ (forall s, eval s ?B = _) /\ _ => set (VV := A); set (WW := B) end.
  assert (E1 : forall s, eval s VV = 0).
  { intros s. unfold VV. cbn [eval binop_eval]. q2r. field. }
  assert (E2 : forall s, eval s WW = 1/1000 * s 0%nat).
  { intros s. unfold WW. cbn [eval binop_eval]. q2r. field. }
  split; [exact E1|]. split; [exact E2|].
  intros HL. specialize (HL (fun t _ => t) 1). unfold sem in HL.
  assert (HF : follows 1 (field [ENum 1]) (fun t _ => t) 1).
  { intros i Hi. replace i with 0%nat by lia. unfold field. simpl. rewrite Q2R_1. auto_derive; auto. }
  specialize (HL HF). rewrite E2 in HL.
  assert (HL' : is_derive (fun u : R => 0) 1 (1/1000 * 1)).
  { apply (is_derive_ext (fun u : R => eval (fun _ : nat => u) VV)); [|exact HL]. intros u. apply E1. }
  apply is_derive_unique in HL'. rewrite Derive_const in HL'. lra.
Qed.

(** ** Discrete time with the quadratic factor: the next value is not multiplied by
    the factor.  V = x^4 with f(x) = 2x is certified as decreasing on 3 <= |x| <= 5. *)
Definition dt_net : network :=
  {| in_size := 1; hidden := [({| weight := [[1]]%Q; bias := None |}, ASquare)];
     last := {| weight := [[1]]%Q; bias := None |} |}.
Definition dt_pair : expr * expr :=
  match translate_dt SDREAL (-1) true dt_net (new_vars 1) [EBin BMul (ENum 2) (EVar 0)] with
  | Some p => p | None => (ENum 0, ENum 0) end.
Definition dt_sets : sets := fun l =>
  match l with XD => generate_domain (MinusS (iv (-5) 5) (Sph [0]%Q 3 None)) (new_vars 1) | _ => FTrue end.

Theorem C23_quadratic_factor_refuted :
  translate_dt SDREAL (-1) true dt_net (new_vars 1) [EBin BMul (ENum 2) (EVar 0)] = Some dt_pair /\
  certified (lyapunov_constraints false (new_vars 1) dt_sets (fst dt_pair) (snd dt_pair)) /\
  (forall s, eval s (fst dt_pair) = cert_value true dt_net s) /\
  (* yet V grows sixteen-fold at every step *)
  forall x, run 1 (field [EBin BMul (ENum 2) (EVar 0)]) x ->
    forall k, eval (x (S k)) (fst dt_pair) = 16 * eval (x k) (fst dt_pair).
Proof.
  assert (EV : forall s, eval s (fst dt_pair) = s 0%nat ^ 4).
  { intros s. cbn -[Q2R]. q2r. field. }
  assert (EW : forall s, eval s (snd dt_pair) = 4 * s 0%nat ^ 2 - s 0%nat ^ 4).
  { intros s. cbn -[Q2R]. q2r. field. }
  split; [reflexivity|]. split; [|split].
  - apply refuted_certified;
      [apply (C01_certificate_labels_distinct false (new_vars 1) dt_sets 0
                (fst dt_pair) (fst dt_pair) (snd dt_pair) (snd dt_pair))|].
    apply C06_lyapunov_obligations. intros s Hs Ho. unfold inside, dt_sets in Hs.
    rewrite (C27_formula_denotes_set _ 1 s) in Hs by (simpl; auto). simpl in Hs.
    destruct Hs as [Hs Hn]. unfold dist2, coord, qn in Hn. simpl in Hn. q2r_in Hn.
    unfold sem. rewrite EV, EW.
    assert (H9 : 9 < s 0%nat ^ 2) by (simpl in *; lra).
    split; [intros _; nra|]. nra.
  - intros s. rewrite EV. unfold cert_value, net_value, neuron, weight_of, bias_of. cbn -[Q2R].
    unfold neuron, weight_of, bias_of. cbn -[Q2R]. q2r. field.
  - intros x Hx k. rewrite !EV. rewrite (Hx k 0%nat) by lia. unfold field. cbn -[Q2R]. q2r. field.
Qed.

(** ** EVEN_POLY activations contain a constant block, so even a bias-free network
    need not vanish at the origin: fossil's own network realises 10 - x^2 and certifies
    the unstable system x' = x (compare C13_unstable_system_certified). *)
Definition hill_net : network :=
  {| in_size := 1; hidden := [({| weight := [[1]; [1]; [1]; [1]]%Q; bias := None |}, AEvenPolyN 4)];
     last := {| weight := [[10; -1; 0; 0]]%Q; bias := None |} |}.
Lemma hill_net_wf : wf_net hill_net.
Proof. exists 4%nat. simpl. unfold wf_layer. simpl. repeat split; auto; repeat constructor; discriminate. Qed.
Definition hill_pair : expr * expr :=
  match translate_ct SZ3 (fun e => e) 3 false hill_net (new_vars 1) [EVar 0] with
  | Some p => p | None => (ENum 0, ENum 0) end.

Theorem C13_unstable_system_certified_by_network :
  activation_fcn EVEN_POLY_4 = Some (AEvenPolyN 4) /\ wf_net hill_net /\
  translate_ct SZ3 (fun e => e) 3 false hill_net (new_vars 1) [EVar 0] = Some hill_pair /\
  certified (lyapunov_constraints false (new_vars 1) hill_sets (fst hill_pair) (snd hill_pair)) /\
  neighbourhood 1 1 (inside hill_sets XD) /\
  ~ stable 1 (field [EVar 0]).
Proof.
  destruct C13_unstable_system_certified as (_ & _ & HN & HS).
  assert (EV : forall s, eval s (fst hill_pair) = 10 - s 0%nat ^ 2).
  { intros s.
    rewrite (translate_ct_value SZ3 (fun e => e) 3 false hill_net [EVar 0] _ (snd hill_pair)).
    - unfold cert_value, net_value. cbn -[Q2R round_num]. unfold neuron, weight_of, bias_of. cbn -[Q2R round_num].
      q2r. field.
    - discriminate.
    - exact hill_net_wf.
    - reflexivity. }
  assert (EW : forall s, s 0%nat <> 0 -> eval s (snd hill_pair) = - 2 * s 0%nat ^ 2).
  { intros s Hs. cbn -[Q2R round_num]. q2r. field. auto. }
  split; [reflexivity|]. split; [exact hill_net_wf|]. split; [reflexivity|]. split; [|split; [exact HN|]].
  - apply refuted_certified;
      [apply (C01_certificate_labels_distinct false (new_vars 1) hill_sets 0
                (fst hill_pair) (fst hill_pair) (snd hill_pair) (snd hill_pair))|].
    apply C06_lyapunov_obligations. intros s Hs Ho. unfold inside, hill_sets, unit_interval in Hs.
    simpl in Hs. rewrite Q2R_m1, Q2R_1 in Hs. unfold sem.
    assert (Hne : s 0%nat <> 0).
    { intros E. apply Ho. intros i Hi. replace i with 0%nat by lia. exact E. }
    rewrite EV, EW by auto. assert (0 < s 0%nat * s 0%nat) by (destruct (Rdichotomy _ _ Hne); nra).
    split; [intros _|]; nra.
  - intros H. apply HS. intros e He. destruct (H e He) as (d & Hd & Hstab). exists d. split; auto.
    intros x T HT Hx. apply Hstab; auto. intros t Ht i Hi. assert (E := Hx t Ht i Hi).
    unfold field. replace i with 0%nat in * by lia. exact E.
Qed.
