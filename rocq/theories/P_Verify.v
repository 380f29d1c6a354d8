(** Property C54: what fossil's [verify] of a user-supplied certificate establishes. *)
From Coquelicot Require Import Coquelicot.
From Coq Require Import Reals QArith Qreals List Bool Arith ZArith Lra Lia.
From Verif Require Import M_Syntax M_Certificates M_Verifier M_BetaSearch M_Domains M_Activations M_Network M_Learner M_Cegis M_Fossil M_Verify
  S_Verifier S_Certificates S_Success S_Dynamics S_Domains S_Network S_Learner S_Cegis S_Fossil S_Verify
  L_Holds L_Verifier L_Table L_Calculus L_Domains L_Activations L_Network L_Learner L_Success L_Continuity L_Smooth L_Demo
  P_Verifier P_Certificates P_BetaSearch P_Safety P_Stability P_Domains P_Examples P_Translator P_TranslatorBugs P_Fossil
  P_FossilExamples.
Import ListNotations.
Local Open Scope R_scope.

Lemma uses_below n e : uses_only n e <-> vars_below n e.
Proof. induction e; simpl; tauto. Qed.

(** ** The derivative of an expression *)
Definition dval (n : nat) (v : nat -> R) (s : state) (e : expr) : R :=
  sum_below n (fun i => match diff i e with Some d => eval s d | None => 0 end * v i).

Lemma constant_along n e (x : R -> state) u t :
  uses_only n e -> (forall i, (i < n)%nat -> mentions i e = false) -> eval (x u) e = eval (x t) e.
Proof.
  induction e as [q|j|o a IH|o a IHa b IHb|a IH k|c IHc a IHa b IHb]; cbn [uses_only mentions eval]; intros U M; auto.
  - specialize (M j U). rewrite Nat.eqb_refl in M. discriminate.
  - now rewrite IH.
  - rewrite IHa, IHb; try tauto; intros i Hi; specialize (M i Hi); apply orb_false_iff in M; tauto.
  - now rewrite IH.
  - assert (M' : forall i, (i < n)%nat -> mentions i c = false /\ mentions i a = false /\ mentions i b = false).
    { intros i Hi. specialize (M i Hi). apply orb_false_iff in M. destruct M as [M1 M2]. apply orb_false_iff in M1. tauto. }
    rewrite IHc, IHa, IHb; try tauto; intros i Hi; specialize (M' i Hi); tauto.
Qed.

Definition differentiable_in (n : nat) (e : expr) : Prop := forall i, (i < n)%nat -> exists d, diff i e = Some d.

Lemma unop_derive u y : (u = ULog -> 0 < y) -> is_derive (unop_eval u) y
  match u with
  | UNeg => -1 | UExp => exp y | ULog => / y | USin => cos y | UCos => - sin y
  | UTanh => 1 - tanh y ^ 2 | USinh => cosh y | UCosh => sinh y
  end.
Proof.
  intros H. destruct u.
  - change (is_derive (fun y => - y) y (-1)). auto_derive; auto.
  - change (is_derive (fun y => exp y) y (exp y)). auto_derive; auto; ring.
  - specialize (H eq_refl). change (is_derive (fun y => ln y) y (/ y)). auto_derive; auto. field. lra.
  - change (is_derive (fun y => sin y) y (cos y)). auto_derive; auto; ring.
  - change (is_derive (fun y => cos y) y (- sin y)). auto_derive; auto; ring.
  - apply is_derive_tanh.
  - change (is_derive (fun y => (exp y - exp (- y)) / 2) y (cosh y)). unfold cosh. auto_derive; auto. field.
  - change (is_derive (fun y => (exp y + exp (- y)) / 2) y (sinh y)). unfold sinh. auto_derive; auto. field.
Qed.

(** Chain rule. *)
Lemma diff_correct n e (x : R -> state) (t : R) (v : nat -> R) :
  uses_only n e -> defined_at (x t) e -> differentiable_in n e ->
  (forall i, (i < n)%nat -> is_derive (fun u => x u i) t (v i)) ->
  is_derive (fun u => eval (x u) e) t (dval n v (x t) e).
Proof.
  intros U D F Hx. revert U D F.
  induction e as [q|j|o a IH|o a IHa b IHb|a IH k|c IHc a IHa b IHb]; intros U D F.
  - unfold dval. rewrite sum_below_zero; [apply (is_derive_const (K := R_AbsRing) (V := R_NormedModule) (Q2R q) t)|]. intros i _. cbn [diff eval]. rewrite Q2R_0. ring.
  - cbn [uses_only] in U. cbn [eval].
    replace (dval n v (x t) (EVar j)) with (v j); [now apply Hx|].
    unfold dval. clear -U. induction n as [|n IH]; [lia|]. cbn [sum_below diff eval].
    destruct (Nat.eq_dec n j) as [->|Hn].
    + rewrite Nat.eqb_refl, Q2R_1. rewrite sum_below_zero; [ring|].
      intros i Hi. replace (i =? j)%nat with false by (symmetry; apply Nat.eqb_neq; lia). cbn [eval]. rewrite Q2R_0. ring.
    + replace (n =? j)%nat with false by (symmetry; apply Nat.eqb_neq; lia). rewrite Q2R_0. rewrite IH by lia.
      cbn [diff eval]. ring.
  - assert (Fa : differentiable_in n a).
    { intros i Hi. destruct (F i Hi) as [d E]. cbn [diff] in E. destruct (diff i a) as [a'|]; [eauto|discriminate]. }
    assert (Da : defined_at (x t) a /\ (o = ULog -> 0 < eval (x t) a)).
    { destruct o; cbn [defined_at] in D; split; try tauto; intros; discriminate. }
    cbn [uses_only] in U. specialize (IH U (proj1 Da) Fa).
    assert (K := is_derive_comp_R (fun u => eval (x u) a) (unop_eval o) t _ _ (unop_derive o (eval (x t) a) (proj2 Da)) IH).
    cbn [eval]. replace (dval n v (x t) (EUn o a)) with
      (match o with
       | UNeg => -1 | UExp => exp (eval (x t) a) | ULog => / eval (x t) a | USin => cos (eval (x t) a) | UCos => - sin (eval (x t) a)
       | UTanh => 1 - tanh (eval (x t) a) ^ 2 | USinh => cosh (eval (x t) a) | UCosh => sinh (eval (x t) a) end * dval n v (x t) a);
      [exact K|].
    unfold dval. rewrite <- sum_below_scal. apply sum_below_ext. intros i Hi. destruct (Fa i Hi) as [d E]. cbn [diff]. rewrite E.
    cbn [option_bind]. destruct o; cbn [diff_un eval unop_eval binop_eval]; rewrite ?Q2R_1; try ring; unfold Rdiv; ring.
  - cbn [uses_only] in U. destruct U as [Ua Ub].
    destruct o.
    + assert (Fa : differentiable_in n a /\ differentiable_in n b).
      { split; intros i Hi; destruct (F i Hi) as [d E]; cbn [diff] in E; destruct (diff i a); try discriminate; eauto;
        cbn [option_bind] in E; destruct (diff i b); try discriminate; eauto. }
      destruct Fa as [Fa Fb]. cbn [defined_at] in D. specialize (IHa Ua (proj1 D) Fa). specialize (IHb Ub (proj2 D) Fb).
      replace (dval n v (x t) (a + b)%E) with (dval n v (x t) a + dval n v (x t) b);
        [apply (is_derive_plus (V := R_NormedModule) (fun u => eval (x u) a) (fun u => eval (x u) b) t _ _ IHa IHb)|].
      unfold dval. rewrite <- sum_below_plus. apply sum_below_ext. intros i Hi. destruct (Fa i Hi) as [d E], (Fb i Hi) as [d' E'].
      cbn [diff]. rewrite E, E'. cbn. ring.
    + assert (Fa : differentiable_in n a /\ differentiable_in n b).
      { split; intros i Hi; destruct (F i Hi) as [d E]; cbn [diff] in E; destruct (diff i a); try discriminate; eauto;
        cbn [option_bind] in E; destruct (diff i b); try discriminate; eauto. }
      destruct Fa as [Fa Fb]. cbn [defined_at] in D. specialize (IHa Ua (proj1 D) Fa). specialize (IHb Ub (proj2 D) Fb).
      replace (dval n v (x t) (a - b)%E) with (dval n v (x t) a - dval n v (x t) b);
        [apply (is_derive_minus (V := R_NormedModule) (fun u => eval (x u) a) (fun u => eval (x u) b) t _ _ IHa IHb)|].
      unfold dval. replace (sum_below n (fun i => match diff i a with Some d => eval (x t) d | None => 0 end * v i) - sum_below n (fun i => match diff i b with Some d => eval (x t) d | None => 0 end * v i))
        with (sum_below n (fun i => match diff i a with Some d => eval (x t) d | None => 0 end * v i) + (-1) * sum_below n (fun i => match diff i b with Some d => eval (x t) d | None => 0 end * v i)) by ring.
      rewrite <- sum_below_scal, <- sum_below_plus. apply sum_below_ext. intros i Hi. destruct (Fa i Hi) as [d E], (Fb i Hi) as [d' E'].
      cbn [diff]. rewrite E, E'. cbn. ring.
    + assert (Fa : differentiable_in n a /\ differentiable_in n b).
      { split; intros i Hi; destruct (F i Hi) as [d E]; cbn [diff] in E; destruct (diff i a); try discriminate; eauto;
        cbn [option_bind] in E; destruct (diff i b); try discriminate; eauto. }
      destruct Fa as [Fa Fb]. cbn [defined_at] in D. specialize (IHa Ua (proj1 D) Fa). specialize (IHb Ub (proj2 D) Fb).
      replace (dval n v (x t) (a * b)%E) with (dval n v (x t) a * eval (x t) b + eval (x t) a * dval n v (x t) b);
        [apply (is_derive_mult (fun u => eval (x u) a) (fun u => eval (x u) b) t _ _ IHa IHb); intros; apply Rmult_comm|].
      unfold dval. rewrite (Rmult_comm _ (eval (x t) b)), <- !sum_below_scal, <- sum_below_plus.
      apply sum_below_ext. intros i Hi. destruct (Fa i Hi) as [d E], (Fb i Hi) as [d' E'].
      cbn [diff]. rewrite E, E'. cbn. ring.
    + assert (Fa : differentiable_in n a /\ differentiable_in n b).
      { split; intros i Hi; destruct (F i Hi) as [d E]; cbn [diff] in E; destruct (diff i a); try discriminate; eauto;
        cbn [option_bind] in E; destruct (diff i b); try discriminate; eauto. }
      destruct Fa as [Fa Fb]. cbn [defined_at] in D. destruct D as (Da & Db & Hz). specialize (IHa Ua Da Fa). specialize (IHb Ub Db Fb).
      replace (dval n v (x t) (a / b)%E) with ((dval n v (x t) a * eval (x t) b - eval (x t) a * dval n v (x t) b) / eval (x t) b ^ 2);
        [apply (is_derive_div (fun u => eval (x u) a) (fun u => eval (x u) b) t _ _ IHa IHb Hz)|].
      unfold dval.
      transitivity (eval (x t) b / eval (x t) b ^ 2 * sum_below n (fun i => match diff i a with Some d => eval (x t) d | None => 0 end * v i)
        + - eval (x t) a / eval (x t) b ^ 2 * sum_below n (fun i => match diff i b with Some d => eval (x t) d | None => 0 end * v i)).
      { field. exact Hz. }
      rewrite <- !sum_below_scal, <- sum_below_plus. apply sum_below_ext. intros i Hi. destruct (Fa i Hi) as [d E], (Fb i Hi) as [d' E'].
      cbn [diff]. rewrite E, E'. cbn. field. exact Hz.
    + assert (M : forall i, (i < n)%nat -> mentions i a = false /\ mentions i b = false).
      { intros i Hi. destruct (F i Hi) as [d E]. cbn [diff] in E. destruct (mentions i a || mentions i b) eqn:Em; [discriminate|].
        now apply orb_false_iff. }
      unfold dval. rewrite sum_below_zero.
      * apply (is_derive_ext (fun _ => eval (x t) (EBin BMax a b))); [|apply (is_derive_const (K := R_AbsRing) (V := R_NormedModule))].
        intros u. apply (constant_along n); [now split|]. intros i Hi. cbn [mentions]. apply orb_false_iff. auto.
      * intros i Hi. cbn [diff]. destruct (M i Hi) as [-> ->]. cbn. rewrite Q2R_0. ring.
  - assert (Fa : differentiable_in n a).
    { intros i Hi. destruct (F i Hi) as [d E]. cbn [diff] in E. destruct (diff i a) as [a'|]; [eauto|discriminate]. }
    cbn [uses_only] in U. cbn [defined_at] in D. specialize (IH U D Fa).
    assert (P : is_derive (fun y => y ^ k) (eval (x t) a) (INR k * eval (x t) a ^ (k - 1))).
    { auto_derive; auto. rewrite Nat.sub_1_r. ring. }
    assert (K := is_derive_comp_R (fun u => eval (x u) a) (fun y => y ^ k) t _ _ P IH).
    cbn [eval]. replace (dval n v (x t) (a ^ k)%E) with (INR k * eval (x t) a ^ (k - 1) * dval n v (x t) a); [exact K|].
    unfold dval. rewrite <- sum_below_scal. apply sum_below_ext. intros i Hi. destruct (Fa i Hi) as [d E]. cbn [diff]. rewrite E.
    cbn [option_bind eval binop_eval]. replace (Q2R (Z.of_nat k # 1)) with (INR k); [ring|].
    unfold Q2R. cbn [Qnum Qden]. rewrite <- INR_IZR_INZ. field.
  - assert (M : forall i, (i < n)%nat -> mentions i c = false /\ mentions i a = false /\ mentions i b = false).
    { intros i Hi. destruct (F i Hi) as [d E]. cbn [diff] in E. destruct (mentions i c || mentions i a || mentions i b) eqn:Em; [discriminate|].
      apply orb_false_iff in Em. destruct Em as [E1 E2]. apply orb_false_iff in E1. tauto. }
    unfold dval. rewrite sum_below_zero.
    + apply (is_derive_ext (fun _ => eval (x t) (EIfPos c a b))); [|apply (is_derive_const (K := R_AbsRing) (V := R_NormedModule))].
      intros u. apply (constant_along n); [exact U|]. intros i Hi. cbn [mentions]. destruct (M i Hi) as (-> & -> & ->). reflexivity.
    + intros i Hi. cbn [diff]. destruct (M i Hi) as (-> & -> & ->). cbn. rewrite Q2R_0. ring.
Qed.

(** ** The gradient *)
Lemma gradient_some is_ e ds : gradient is_ e = Some ds ->
  length ds = length is_ /\ forall k, (k < length is_)%nat -> diff (nth k is_ O) e = Some (nth k ds (ENum 0)).
Proof.
  revert ds. induction is_ as [|i is_ IH]; intros ds H; cbn [gradient] in H.
  - injection H as <-. split; [reflexivity|]. simpl. lia.
  - destruct (diff i e) as [d|] eqn:E; cbn [option_bind] in H; [|discriminate].
    destruct (gradient is_ e) as [l|] eqn:E'; cbn [option_bind] in H; [|discriminate]. injection H as <-.
    destruct (IH l eq_refl) as [L N]. split; [simpl; now rewrite L|].
    intros [|k] Hk; simpl in *; auto. apply N. lia.
Qed.
Lemma gradient_diff n e ds : gradient (seq 0 n) e = Some ds ->
  length ds = n /\ forall k, (k < n)%nat -> diff k e = Some (nth k ds (ENum 0)).
Proof.
  intros H. destruct (gradient_some _ _ _ H) as [L N]. rewrite seq_length in *. split; auto.
  intros k Hk. specialize (N k Hk). now rewrite seq_nth in N by auto.
Qed.

Lemma cont_un n u h p : cont_at n h p -> (u = ULog -> 0 < h p) -> cont_at n (fun s => unop_eval u (h s)) p.
Proof. intros H1 H2. apply (cont_comp n (unop_eval u) h p H1). now apply unop_continuous. Qed.
Lemma cont_div n h k p : cont_at n h p -> cont_at n k p -> k p <> 0 -> cont_at n (fun s => h s / k s) p.
Proof.
  intros H1 H2 H3. apply cont_mult; [exact H1|]. apply (cont_comp n Rinv k p H2).
  apply (ex_derive_continuous (V := R_NormedModule)). auto_derive. exact H3.
Qed.
Lemma cont_local n h p : (forall s, h s = h p) -> cont_at n h p.
Proof. intros H. apply (cont_ext n (fun _ => h p)); [intros s; symmetry; apply H|apply cont_const]. Qed.

(** A differentiable expression and its partial derivatives are continuous. *)
Lemma diff_cont n e p :
  uses_only n e -> defined_at p e -> differentiable_in n e ->
  cont_at n (fun s => eval s e) p /\ forall i d, (i < n)%nat -> diff i e = Some d -> cont_at n (fun s => eval s d) p.
Proof.
  induction e as [q|j|o a IH|o a IHa b IHb|a IH k|c IHc a IHa b IHb]; intros U D F.
  - cbn [eval]. split; [apply cont_const|]. intros i d Hi H. cbn [diff] in H. injection H as <-. cbn [eval]. apply cont_const.
  - split; [now apply cont_proj|]. intros i d Hi H. cbn [diff] in H. injection H as <-. cbn [eval]. apply cont_const.
  - assert (Fa : differentiable_in n a).
    { intros i Hi. destruct (F i Hi) as [d E]. cbn [diff] in E. destruct (diff i a) as [a'|]; [eauto|discriminate]. }
    assert (Da : defined_at p a /\ (o = ULog -> 0 < eval p a)).
    { destruct o; cbn [defined_at] in D; split; try tauto; intros; discriminate. }
    destruct Da as [Da Hl]. cbn [uses_only] in U. destruct (IH U Da Fa) as [Ca Cd].
    split; [now apply (cont_un n o)|]. intros i d Hi H. cbn [diff] in H. destruct (Fa i Hi) as [a' E]. rewrite E in H.
    cbn [option_bind] in H. injection H as <-. specialize (Cd i a' Hi E).
    assert (T : forall u, u <> ULog -> cont_at n (fun s => eval s (EUn u a)) p).
    { intros u Hu. apply (cont_un n u); [exact Ca|easy]. }
    destruct o; cbn [diff_un eval unop_eval binop_eval].
    + now apply cont_neg.
    + apply cont_mult; [now apply (T UExp)|exact Cd].
    + apply cont_div; auto. apply Rgt_not_eq. now apply Hl.
    + apply cont_mult; [now apply (T UCos)|exact Cd].
    + apply cont_neg. apply cont_mult; [now apply (T USin)|exact Cd].
    + apply cont_mult; [|exact Cd]. apply cont_minus; [apply cont_const|]. apply (cont_pow n (fun s => tanh (eval s a))). now apply (T UTanh).
    + apply cont_mult; [now apply (T UCosh)|exact Cd].
    + apply cont_mult; [now apply (T USinh)|exact Cd].
  - cbn [uses_only] in U. destruct U as [Ua Ub].
    destruct (match o with BMax => true | _ => false end) eqn:Eo.
    + destruct o; try discriminate.
      assert (M : forall i, (i < n)%nat -> mentions i a = false /\ mentions i b = false).
      { intros i Hi. destruct (F i Hi) as [d E]. cbn [diff] in E. destruct (mentions i a || mentions i b) eqn:Em; [discriminate|].
        now apply orb_false_iff. }
      split.
      * apply cont_local. intros s.
        assert (K := constant_along n (EBin BMax a b) (fun u => if Rlt_dec u 0 then s else p) (-1) 0).
        cbv beta in K. destruct (Rlt_dec (-1) 0); [|lra]. destruct (Rlt_dec 0 0); [lra|]. apply K; [now split|].
        intros i Hi. cbn [mentions]. apply orb_false_iff. auto.
      * intros i d Hi H. cbn [diff] in H. destruct (M i Hi) as [E1 E2]. rewrite E1, E2 in H. injection H as <-. cbn [eval]. apply cont_const.
    + assert (FF : differentiable_in n a /\ differentiable_in n b).
      { split; intros i Hi; destruct (F i Hi) as [d E]; cbn [diff] in E; destruct o; try discriminate;
        destruct (diff i a); try discriminate; eauto;
        cbn [option_bind] in E; destruct (diff i b); try discriminate; eauto. }
      assert (DD : defined_at p a /\ defined_at p b /\ (o = BDiv -> eval p b <> 0)).
      { destruct o; cbn [defined_at] in D; repeat split; try tauto; intros; discriminate. }
      destruct FF as [Fa Fb], DD as (Da & Db & Hz). destruct (IHa Ua Da Fa) as [Ca Cda], (IHb Ub Db Fb) as [Cb Cdb]. split.
      * destruct o; try discriminate; cbn [eval binop_eval].
        -- now apply cont_plus. -- now apply cont_minus. -- now apply cont_mult. -- apply cont_div; auto.
      * intros i d Hi H. destruct (Fa i Hi) as [a' E], (Fb i Hi) as [b' E']. specialize (Cda i a' Hi E). specialize (Cdb i b' Hi E').
        cbn [diff] in H. rewrite E, E' in H. cbn [option_bind] in H.
        destruct o; try discriminate; injection H as <-; cbn [eval binop_eval].
        -- now apply cont_plus.
        -- now apply cont_minus.
        -- apply cont_plus; now apply cont_mult.
        -- apply cont_div.
           ++ apply cont_minus; now apply cont_mult.
           ++ now apply (cont_pow n (fun s => eval s b)).
           ++ apply pow_nonzero. auto.
  - assert (Fa : differentiable_in n a).
    { intros i Hi. destruct (F i Hi) as [d E]. cbn [diff] in E. destruct (diff i a) as [a'|]; [eauto|discriminate]. }
    cbn [uses_only] in U. cbn [defined_at] in D. destruct (IH U D Fa) as [Ca Cd].
    split; [now apply (cont_pow n (fun s => eval s a))|]. intros i d Hi H. cbn [diff] in H. destruct (Fa i Hi) as [a' E]. rewrite E in H.
    cbn [option_bind] in H. injection H as <-. cbn [eval binop_eval]. apply cont_mult; [|eauto].
    apply cont_mult; [apply cont_const|]. now apply (cont_pow n (fun s => eval s a)).
  - assert (M : forall i, (i < n)%nat -> mentions i c = false /\ mentions i a = false /\ mentions i b = false).
    { intros i Hi. destruct (F i Hi) as [d E]. cbn [diff] in E. destruct (mentions i c || mentions i a || mentions i b) eqn:Em; [discriminate|].
      apply orb_false_iff in Em. destruct Em as [E1 E2]. apply orb_false_iff in E1. tauto. }
    split.
    + apply cont_local. intros s.
      assert (K := constant_along n (EIfPos c a b) (fun u => if Rlt_dec u 0 then s else p) (-1) 0).
      cbv beta in K. destruct (Rlt_dec (-1) 0); [|lra]. destruct (Rlt_dec 0 0); [lra|]. apply K; [exact U|].
      intros i Hi. cbn [mentions]. destruct (M i Hi) as (-> & -> & ->). reflexivity.
    + intros i d Hi H. cbn [diff] in H. destruct (M i Hi) as (E1 & E2 & E3). rewrite E1, E2, E3 in H. injection H as <-. cbn [eval]. apply cont_const.
Qed.

(** * C54 *)
(** The pair handed to the solver: the candidate and its exact derivative along the motions of
    the system. *)
Lemma accepted_inv {K} (pb : problem K) C xdot :
  accepted pb C xdot -> elementary (pb_n pb) C ->
  exists Cdot gs, candidate_constraints pb C Cdot = Some gs /\ certified gs /\
    lie_derivative (pb_n pb) (field xdot) (sem C) (sem Cdot) /\
    (forall p, cont_at (pb_n pb) (sem C) p) /\
    ((forall i p, cont_at (pb_n pb) (fun s => field xdot s i) p) -> forall p, cont_at (pb_n pb) (sem Cdot) p).
Proof.
  intros (be & noise & ctrl & cand & v & Ht & Hx & Hl & Hc & Hv & Hf) [U D].
  unfold verify_candidate in Hv. rewrite Hx, Hc in Hv. cbn [option_bind] in Hv.
  destruct (pb_symb pb); try discriminate.
  destruct (gradient (seq 0 (pb_n pb)) C) as [ds|] eqn:Eg; cbn [option_bind] in Hv; [|discriminate].
  destruct (candidate_constraints pb C (edot ds xdot)) as [gs|] eqn:Ec; cbn [option_bind] in Hv; [|discriminate].
  injection Hv as <-. destruct (gradient_diff _ _ _ Eg) as [L N].
  assert (F : differentiable_in (pb_n pb) C) by (intros i Hi; eauto).
  exists (edot ds xdot), gs. split; [exact Ec|]. split; [|split; [|split]].
  - exists be, noise. split; [eauto|exact Hf].
  - intros x t Hfo. unfold sem. rewrite (eval_edot _ _ _ (pb_n pb) L Hl).
    assert (K' := diff_correct (pb_n pb) C x t (fun i => eval (x t) (nth i xdot (ENum 0))) U (D _) F Hfo).
    unfold dval in K'. erewrite sum_below_ext; [exact K'|]. intros i Hi. cbv beta. now rewrite (N i Hi).
  - intros p. now apply diff_cont.
  - intros Hcont p. unfold sem. apply (cont_ext _ (fun s => sum_below (pb_n pb) (fun j => eval s (nth j ds (ENum 0)) * field xdot s j))).
    + intros s. now rewrite (eval_edot _ _ _ (pb_n pb) L Hl).
    + apply (cont_sum (pb_n pb) (pb_n pb) (fun j s => eval s (nth j ds (ENum 0)) * field xdot s j)). intros j Hj.
      apply (cont_mult (pb_n pb) (fun s => eval s (nth j ds (ENum 0)))); [|apply Hcont].
      apply (proj2 (diff_cont _ C p U (D p) F) j); auto.
Qed.

(** The derivative condition is about the true derivative, for every certificate type. *)
Theorem C54_candidate_lie_derivative :
  forall K (pb : problem K) C xdot,
    accepted pb C xdot -> elementary (pb_n pb) C ->
    exists Cdot gs, candidate_constraints pb C Cdot = Some gs /\ refuted gs /\
      lie_derivative (pb_n pb) (field xdot) (sem C) (sem Cdot).
Proof.
  intros K pb C xdot Ha He. destruct (accepted_inv pb C xdot Ha He) as (Cdot & gs & Ec & Hc & Hl & _).
  exists Cdot, gs. split; [exact Ec|]. split; [|exact Hl]. apply certified_refuted; [|exact Hc].
  assert (D := C01_certificate_labels_distinct (pb_llo pb) (new_vars (pb_n pb)) (pb_sets pb) 0 C C Cdot Cdot).
  unfold candidate_constraints, fossil_constraints in Ec. destruct (pb_type pb); try discriminate; injection Ec as <-; tauto.
Qed.

Theorem C54_lyapunov_candidate_stable :
  forall K (pb : problem K) C xdot r,
    pb_type pb = LYAPUNOV -> pb_llo pb = false ->
    accepted pb C xdot -> elementary (pb_n pb) C ->
    (forall s, origin (pb_n pb) s -> sem C s = 0) ->
    neighbourhood (pb_n pb) r (inside (pb_sets pb) XD) ->
    stable (pb_n pb) (field xdot) /\
    ((forall i p, cont_at (pb_n pb) (fun s => field xdot s i) p) -> attractive (pb_n pb) (field xdot)).
Proof.
  intros K pb C xdot r Ht Hll Ha He H0 Hn. destruct (accepted_inv pb C xdot Ha He) as (Cdot & gs & Ec & Hc & Hl & Hk & Hk').
  unfold candidate_constraints, fossil_constraints in Ec. rewrite Ht in Ec. injection Ec as <-. rewrite Hll in Hc.
  destruct (C13_lyapunov_stability _ _ _ _ _ _ Hc Hl Hk H0 Hn) as (S1 & S2 & _). split; auto.
Qed.

Theorem C54_barrier_candidate_safe :
  forall K (pb : problem K) C xdot,
    pb_type pb = BARRIER \/ pb_type pb = BARRIERALT ->
    accepted pb C xdot -> elementary (pb_n pb) C ->
    forall x T, solves (pb_n pb) (field xdot) x T -> inside (pb_sets pb) XI (x 0) ->
      (forall t, 0 <= t <= T -> inside (pb_sets pb) XD (x t)) ->
      forall t, 0 <= t <= T -> ~ inside (pb_sets pb) XU (x t).
Proof.
  intros K pb C xdot Ht Ha He. destruct (accepted_inv pb C xdot Ha He) as (Cdot & gs & Ec & Hc & Hl & _).
  unfold candidate_constraints, fossil_constraints in Ec.
  destruct Ht as [Ht|Ht]; rewrite Ht in Ec; injection Ec as <-.
  - now apply (C15_barrier_safety _ _ _ _ _ Hc Hl).
  - now apply (C16_barrier_alt_safety_continuous _ _ _ _ _ Hc Hl).
Qed.

Theorem C54_reach_while_stay_candidate :
  forall K (pb : problem K) C xdot m,
    In (pb_type pb) [RWS; RWA; RSWS; RSWA] ->
    accepted pb C xdot -> elementary (pb_n pb) C ->
    rws_geometry (pb_n pb) (pb_sets pb) -> (forall s, inside (pb_sets pb) XS s -> m <= sem C s) ->
    forall x T, solves (pb_n pb) (field xdot) x T -> inside (pb_sets pb) XI (x 0) ->
      (sem C (x 0) - m) / (1/100) < T ->
      reach_while_stay (inside (pb_sets pb) XS) (inside (pb_sets pb) XG) x T.
Proof.
  intros K pb C xdot m Ht Ha He. destruct (accepted_inv pb C xdot Ha He) as (Cdot & gs & Ec & Hc & Hl & _).
  unfold candidate_constraints, fossil_constraints in Ec. intros Hg Hm.
  assert (E : gs = rws_constraints (pb_sets pb) C Cdot).
  { simpl in Ht. destruct Ht as [Ht|[Ht|[Ht|[Ht|[]]]]]; rewrite <- Ht in Ec; now injection Ec. }
  subst gs. now apply (C17_rws_reach_while_stay _ _ _ _ _ _ Hc Hl Hg Hm).
Qed.

(** Only candidates for the dReal verifier, of a single expression and of a kind that needs no
    learned level, get an answer. *)
Theorem C54_other_candidates_raise :
  forall K (pb : problem K) be noise ctrl candidate,
    pb_symb pb <> SDREAL \/ In (pb_type pb) [ROA; STABLESAFE; RAR] ->
    verify_candidate pb be noise ctrl candidate = None.
Proof.
  intros K pb be noise ctrl cand H. unfold verify_candidate.
  destruct (pb_xdot pb ctrl) as [xdot|]; [|reflexivity]. cbn [option_bind].
  destruct (cand (new_vars (pb_n pb))) as [C|]; [|reflexivity]. cbn [option_bind].
  destruct (pb_symb pb); try reflexivity.
  destruct (gradient (seq 0 (pb_n pb)) C) as [ds|]; [|reflexivity]. cbn [option_bind].
  destruct H as [H|H]; [congruence|]. unfold candidate_constraints, fossil_constraints.
  simpl in H. destruct H as [<-|[<-|[<-|[]]]]; reflexivity.
Qed.

(** ** Instances *)
Definition cand_pb (ty : cert_type) (llo disc : bool) (d : sets) (xdot : list expr) : problem unit :=
  {| pb_type := ty; pb_n := 1; pb_llo := llo; pb_quad := false; pb_discrete := disc; pb_rounding := 3;
     pb_max_iters := 10; pb_control := false; pb_symb := SDREAL; pb_sets := d; pb_xdot := fun _ => Some xdot;
     pb_f := fun _ p => p |}.
(** A dReal that knows exactly the conditions [fs] to be unsatisfiable. *)
Definition knowing (fs : list fml) : backend :=
  dreal_backend (fun _ _ f => if in_dec fml_dec f fs then None else Some []) (new_vars 1).
Lemma accept (pb : problem unit) C xdot ds gs :
  pb_symb pb = SDREAL -> pb_xdot pb tt = Some xdot -> length xdot = pb_n pb ->
  gradient (seq 0 (pb_n pb)) C = Some ds -> candidate_constraints pb C (edot ds xdot) = Some gs ->
  distinct_labels gs -> refuted gs -> accepted pb C xdot.
Proof.
  intros Hs Hx Hl Hg Hc Hd Hr.
  exists (knowing (map snd (concat gs))), (fun _ _ _ => 0), tt, (fun _ => Some C), (verify (knowing (map snd (concat gs))) (fun _ _ _ => 0) gs).
  assert (B : forall k f, b_is_unsat (knowing (map snd (concat gs))) (b_solve (knowing (map snd (concat gs))) k f) = true -> In f (map snd (concat gs))).
  { intros k f. cbn. unfold dreal_solve. destruct (in_dec fml_dec f (map snd (concat gs))); [auto|]. cbn. discriminate. }
  split; [|split; [exact Hx|split; [exact Hl|split; [reflexivity|split]]]].
  - intros _ gs' _. split.
    + intros k g l f _ _ H. apply B in H. apply in_map_iff in H. destruct H as ([l' f'] & <- & H). apply in_concat in H.
      destruct H as (g' & H1 & H2). exact (Hr g' l' f' H1 H2).
    + intros k f. cbn. unfold dreal_solve. destruct (in_dec fml_dec f (map snd (concat gs))); cbn; [discriminate|reflexivity].
  - unfold verify_candidate. rewrite Hx. cbn [option_bind]. rewrite Hs, Hg. cbn [option_bind]. rewrite Hc. reflexivity.
  - apply verify_found_complete; auto. intros i j l f (g & Hg' & Hf). cbn. unfold dreal_solve.
    destruct (in_dec fml_dec f (map snd (concat gs))) as [|n]; [reflexivity|]. elim n. apply in_map_iff. exists (l, f). split; auto.
    apply in_concat. exists g. split; eapply nth_error_In; eauto.
Qed.

Lemma sinh_sign y : y <> 0 -> 0 < y * sinh y /\ 1 < cosh y.
Proof.
  intros Hy. assert (E : exp y * exp (- y) = 1) by (rewrite <- exp_plus, Rplus_opp_r; apply exp_0).
  assert (P := exp_pos y). assert (P' := exp_pos (- y)). unfold sinh, cosh.
  assert (Hd : 0 < y * (exp y - exp (- y))).
  { destruct (Rdichotomy _ _ Hy) as [H|H]; [assert (exp y < exp (- y)) by (apply exp_increasing; lra)|
      assert (exp (- y) < exp y) by (apply exp_increasing; lra)]; nra. }
  split; [lra|]. assert (exp y <> exp (- y)) by (intros K; rewrite K in Hd; lra).
  assert (0 < (exp y - exp (- y)) * (exp y - exp (- y))) by (destruct (Rdichotomy _ _ H); nra). nra.
Qed.

(** C = cosh(x0) - 1 for x' = -x. *)
Definition cosh_cand : expr := EBin BSub (EUn UCosh (EVar 0)) (ENum 1).
Example C54_lyapunov_example :
  let pb := cand_pb LYAPUNOV false false ex_sets minus_x in
  accepted pb cosh_cand minus_x /\ elementary 1 cosh_cand /\
  (forall s, origin 1 s -> sem cosh_cand s = 0) /\ neighbourhood 1 4 (inside ex_sets XD) /\
  (forall i p, cont_at 1 (fun s => field minus_x s i) p).
Proof.
  intros pb. split; [|split; [|split; [|split]]].
  - eapply (accept pb cosh_cand minus_x); try reflexivity.
    + apply (C01_certificate_labels_distinct false (new_vars 1) ex_sets 0 cosh_cand cosh_cand
        (edot [EBin BSub (EBin BMul (EUn USinh (EVar 0)) (ENum 1)) (ENum 0)] minus_x) (edot [EBin BSub (EBin BMul (EUn USinh (EVar 0)) (ENum 1)) (ENum 0)] minus_x)).
    + apply C06_lyapunov_obligations. intros s Hs Ho. unfold sem. cbn -[Q2R sinh cosh].
      rewrite Q2R_1, Q2R_0. assert (Hne : s 0%nat <> 0).
      { intros E. apply Ho. intros i Hi. cbn in Hi. replace i with 0%nat by lia. exact E. }
      destruct (sinh_sign _ Hne). split; [intros _; lra|]. nra.
  - split; simpl; repeat split; auto; lia.
  - intros s Hs. unfold sem. cbn -[Q2R cosh]. rewrite (Hs 0%nat) by lia. rewrite Q2R_1. unfold cosh. rewrite Ropp_0, exp_0. lra.
  - apply C13_example.
  - intros i p. now apply minus_x_cont.
Qed.
Example C54_barrier_example :
  let pb := cand_pb BARRIER false false ex_sets minus_x in
  accepted pb (ex_minus 2) minus_x /\ elementary 1 (ex_minus 2) /\
  solves_forever 1 (field minus_x) ex_x /\ inside ex_sets XI (ex_x 0) /\ (forall t, 0 <= t -> inside ex_sets XD (ex_x t)).
Proof.
  intros pb. assert (F : solves_forever 1 (field minus_x) ex_x).
  { intros t Ht i Hi. assert (E := ex_solves t Ht i Hi). replace i with 0%nat in * by lia. exact E. }
  destruct C15_example as (_ & _ & _ & Hi & Hd & _). split; [|split; [|auto]].
  - eapply (accept pb (ex_minus 2) minus_x); try reflexivity.
    + match goal with |- distinct_labels (barrier_constraints _ ?b ?c) => apply (C01_certificate_labels_distinct false (new_vars 1) ex_sets 0 b b c c) end.
    + apply C08_barrier_obligations. unfold barrier_conditions, sem. cbn -[Q2R ex_sets]. split; [|split].
      * intros s H1 H2. exnum. simpl in *. rewrite ?Rmult_1_r. nra.
      * intros s H1 H2. exnum. simpl in *. rewrite ?Rmult_1_r. nra.
      * intros s H1 H2. q2r_in H2. q2r. exnum. simpl in *. nra.
  - split; simpl; repeat split; auto; lia.
Qed.

Ltac labels_ok := match goal with
  | |- distinct_labels (lyapunov_constraints ?l ?xs ?d ?b ?c) => apply (C01_certificate_labels_distinct l xs d 0 b b c c)
  | |- distinct_labels (barrier_constraints ?d ?b ?c) => apply (C01_certificate_labels_distinct false (new_vars 1) d 0 b b c c)
  | |- distinct_labels (rws_constraints ?d ?b ?c) => apply (C01_certificate_labels_distinct false (new_vars 1) d 0 b b c c)
  end.

Example C54_reach_example :
  let pb := cand_pb RWS false false ex_sets minus_x in
  accepted pb ex_C minus_x /\ elementary 1 ex_C /\ rws_geometry 1 ex_sets /\
  (forall s, inside ex_sets XS s -> -3 <= sem ex_C s) /\
  solves 1 (field minus_x) ex_x 101 /\ inside ex_sets XI (ex_x 0) /\ (sem ex_C (ex_x 0) - -3) / (1/100) < 101.
Proof.
  intros pb. destruct C17_example as (_ & _ & G & M & _ & I & L). split; [|split; [|split; [exact G|split; [exact M|split; [|auto]]]]].
  - eapply (accept pb ex_C minus_x); try reflexivity; [labels_ok|].
    apply C10_rws_obligations. destruct ex_rws as (R1 & R2 & R3). split; [exact R1|split; [exact R2|]].
    intros s H1 H2 H3. specialize (R3 s H1 H2 H3). unfold sem in *. cbn -[Q2R] in *. q2r_in R3. q2r. nra.
  - split; simpl; repeat split; auto; lia.
  - intros t Ht i Hi. assert (E := ex_solves t (proj1 Ht) i Hi). replace i with 0%nat in * by lia. exact E.
Qed.

(** In discrete time the candidate is still checked against the gradient times the next state:
    x(k+1) = -2 x(k) is accepted with C = x^2, which grows fourfold at every step. *)
Theorem C54_discrete_candidate_refuted :
  exists pb C xdot, pb_type pb = LYAPUNOV /\ pb_llo pb = false /\ pb_discrete pb = true /\
    accepted (K := unit) pb C xdot /\ elementary (pb_n pb) C /\
    neighbourhood (pb_n pb) 4 (inside (pb_sets pb) XD) /\
    forall x, run (pb_n pb) (field xdot) x -> forall k, sem C (x (Datatypes.S k)) = 4 * sem C (x k).
Proof.
  exists (cand_pb LYAPUNOV false true ex_sets [EBin BMul (ENum (-2)) (EVar 0)]), ex_V, [EBin BMul (ENum (-2)) (EVar 0)].
  split; [reflexivity|]. split; [reflexivity|]. split; [reflexivity|]. split; [|split; [|split; [apply C13_example|]]].
  - eapply accept; try reflexivity; [labels_ok|].
    apply C06_lyapunov_obligations. intros s Hs Ho. apply ex_not_origin in Ho. unfold sem. cbn -[Q2R]. q2r. split; [intros _|]; nra.
  - split; simpl; repeat split; auto; lia.
  - intros x Hx k. unfold sem. cbn [eval ex_V]. rewrite (Hx k 0%nat); [|simpl; lia]. unfold field. cbn -[Q2R]. q2r. field.
Qed.

(** With LLO the sign of the candidate is not checked (the certificate assumes a network built
    to be positive): x' = x is accepted with C = -x^2. *)
Theorem C54_llo_candidate_refuted :
  exists pb C xdot, pb_type pb = LYAPUNOV /\ pb_discrete pb = false /\
    accepted (K := unit) pb C xdot /\ elementary (pb_n pb) C /\
    (forall s, origin (pb_n pb) s -> sem C s = 0) /\ neighbourhood (pb_n pb) 4 (inside (pb_sets pb) XD) /\
    ~ stable (pb_n pb) (field xdot).
Proof.
  exists (cand_pb LYAPUNOV true false ex_sets [EVar 0]), (EUn UNeg ex_V), [EVar 0].
  split; [reflexivity|]. split; [reflexivity|]. split; [|split; [|split; [|split; [apply C13_example|]]]].
  - eapply accept; try reflexivity; [labels_ok|].
    apply C06_lyapunov_obligations. intros s Hs Ho. apply ex_not_origin in Ho. unfold sem. cbn -[Q2R]. q2r. split; [discriminate|]. nra.
  - split; simpl; repeat split; auto; lia.
  - intros s Hs. unfold sem. cbn -[Q2R]. rewrite (Hs 0%nat) by (simpl; lia). ring.
  - apply C13_unstable_system_certified_by_network.
Qed.

(** RSWS promises to stay in the goal; [verify] accepts a candidate without searching for the
    level that makes the goal invariant. *)
Theorem C54_stay_candidate_refuted :
  exists pb C xdot x, pb_type pb = RSWS /\ pb_discrete pb = false /\
    accepted (K := unit) pb C xdot /\ elementary (pb_n pb) C /\ rsws_geometry (pb_n pb) (pb_sets pb) /\
    solves_forever (pb_n pb) (field xdot) x /\ inside (pb_sets pb) XI (x 0) /\ inside (pb_sets pb) XG (x 1) /\
    (forall t, 2 <= t -> ~ inside (pb_sets pb) XG (x t)) /\ (forall t, 3 <= t -> ~ inside (pb_sets pb) XS (x t)).
Proof.
  destruct C49_rswa_success_leaves_goal as (env & r & x & _ & _ & _ & _ & G & _ & _ & Hx & HI & HG & HN & HS).
  set (C := EBin BSub (EPow (EBin BSub (EVar 0) (ENum 1)) 2) (ENum (81#100))).
  exists (cand_pb RSWS false false rswa_sets [ENum 1]), C, [ENum 1], x.
  split; [reflexivity|]. split; [reflexivity|]. split; [|split; [|split; [exact G|split; [exact Hx|auto]]]].
  - eapply accept; try reflexivity; [labels_ok|].
    apply C10_rws_obligations. unfold rws_conditions, sem, inside. cbn [pb_sets cand_pb]. unfold rswa_sets.
    assert (EV : forall s, eval s C = (s 0%nat - 1) ^ 2 - 81/100). { intros s. cbn -[Q2R]. q2r. field. }
    split; [|split].
    + intros s _ H. rewrite iv_holds in H. q2r_in H. rewrite EV. simpl. nra.
    + intros s _ H. rewrite iv_ends_holds in H. q2r_in H. rewrite EV. destruct H as [[-> | ->] _]; simpl; lra.
    + intros s H1 H2 H3. rewrite iv_holds in *. rewrite EV in H3. q2r_in H1.
      assert (H2' : ~ (9/10 <= s 0%nat <= 2)). { intros H. apply H2. q2r. lra. }
      cbn -[Q2R]. q2r. simpl in H3. destruct (Rlt_le_dec (s 0%nat) (9/10)); nra.
  - split; simpl; repeat split; auto; lia.
Qed.
