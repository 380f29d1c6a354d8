(** Lemmas about the parser model: fuel, consumed input. *)
From Coq Require Import Reals QArith List Bool Arith Lia Decimal.
From Verif Require Import M_Activations M_Parser S_Parser.
Import ListNotations.
Local Open Scope nat_scope.

(** One step of [run]. *)
Definition step (rec : nonterm -> list token -> outcome) (n : nonterm) (ts : list token) : outcome :=
      match n with
      | Level 0 =>
          (* number | variable | func_call | nested_paren_expr | "(" expr ")" *)
          match ts with
          | TNum q :: r => Ok [PNum q] r
          | TVar k d :: r => Ok [PVar k d] r
          | TFun f :: r =>
              match rec Nested r with
              | Ok l r' => Ok [PList (PFun f :: l)] r'
              | Fail => Fail
              | Fuel => Fuel
              end
          | TLpar :: r =>
              match rec Nested ts with
              | Ok l r' => Ok l r'
              | Fuel => Fuel
              | Fail =>
                  match rec (Level top) r with
                  | Ok l (TRpar :: r') => Ok l r'
                  | Ok _ _ => Fail
                  | Fail => Fail
                  | Fuel => Fuel
                  end
              end
          | _ => Fail
          end
      | Level 1 =>
          (* unary minus *)
          match ts with
          | TOp OSub :: r =>
              match rec (Level 1) r with
              | Ok l r' => Ok [PList (PNeg :: l)] r'
              | Fail => rec (Level 0) ts
              | Fuel => Fuel
              end
          | _ => rec (Level 0) ts
          end
      | Level (S k' as k) =>
          match level_op k with
          | None => Fail
          | Some o =>
              let operand := match o with OPow => k | _ => k' end in
              match rec (Level k') ts with
              | Ok a r =>
                  match rec (Loop o operand) r with
                  | Ok [] _ => Ok a r
                  | Ok l r' => Ok [PList (a ++ l)] r'
                  | Fail => Fail
                  | Fuel => Fuel
                  end
              | x => x
              end
          end
      | Loop o k =>
          match ts with
          | TOp o' :: r =>
              if op_eqb o o'
              then match rec (Level k) r with
                   | Ok b r1 =>
                       match rec (Loop o k) r1 with
                       | Ok l r2 => Ok (POp o :: b ++ l) r2
                       | x => x
                       end
                   | Fail => Ok [] ts
                   | Fuel => Fuel
                   end
              else Ok [] ts
          | _ => Ok [] ts
          end
      | Nested =>
          match ts with
          | TLpar :: r =>
              match rec Items r with
              | Ok l (TRpar :: r') => Ok [PList l] r'
              | Ok _ _ => Fail
              | Fail => Fail
              | Fuel => Fuel
              end
          | _ => Fail
          end
      | Items =>
          match rec Nested ts with
          | Fuel => Fuel
          | Ok a r =>
              match rec Items r with
              | Ok l r' => Ok (a ++ l) r'
              | x => x
              end
          | Fail =>
              match rec (Level top) ts with
              | Fuel => Fuel
              | Fail => Ok [] ts
              | Ok a r =>
                  match rec Items r with
                  | Ok l r' => Ok (a ++ l) r'
                  | x => x
                  end
              end
          end
      end.
Lemma run_S f n ts : run (S f) n ts = step (run f) n ts.
Proof. reflexivity. Qed.

Ltac dm H :=
  match type of H with
  | context [match ?x with _ => _ end] => destruct x eqn:?
  end.
Lemma step_mono rec rec' n ts :
  (forall n t, rec n t = Fuel \/ rec' n t = rec n t) ->
  step rec n ts <> Fuel -> step rec' n ts = step rec n ts.
Proof.
  intros H. unfold step.
  Ltac use rec H n t := let E := fresh "E" in destruct (H n t) as [E|E]; rewrite E; [try congruence|].
  destruct n as [[|[|k]]| | |o k].
  - destruct ts as [|[q|v d|f|o| |] r]; auto.
    + use rec H Nested r. auto.
    + use rec H Nested (TLpar :: r). destruct (rec Nested (TLpar :: r)); auto. use rec H (Level top) r. auto.
  - assert (G : rec (Level 0) ts <> Fuel -> rec' (Level 0) ts = rec (Level 0) ts) by (use rec H (Level 0) ts; auto).
    destruct ts as [|[q|v d|f|o| |] r]; auto. destruct o; auto.
    use rec H (Level 1) r. destruct (rec (Level 1) r); auto.
  - destruct (level_op (S (S k))) as [o|]; auto.
    use rec H (Level (S k)) ts. destruct (rec (Level (S k)) ts) as [a r| |]; auto.
    match goal with |- context [rec (Loop o ?m) r] => use rec H (Loop o m) r; auto end.
  - destruct ts as [|[q|v d|f|o| |] r]; auto. use rec H Items r. auto.
  - use rec H Nested ts. destruct (rec Nested ts) as [a r| |]; auto.
    + use rec H Items r. auto.
    + use rec H (Level top) ts. destruct (rec (Level top) ts) as [a r| |]; auto. use rec H Items r. auto.
  - destruct ts as [|[q|v d|f|o'| |] r]; auto. destruct (op_eqb o o'); auto.
    use rec H (Level k) r. destruct (rec (Level k) r) as [b r1| |]; auto. use rec H (Loop o k) r1. auto.
Qed.

Lemma run_mono f : forall n ts, run f n ts <> Fuel -> run (S f) n ts = run f n ts.
Proof.
  induction f as [|f IH]; intros n ts H; [now elim H|].
  rewrite (run_S (S f)). rewrite (run_S f) in *. apply step_mono; auto.
  intros m t. destruct (run f m t) eqn:E; auto; right; rewrite IH; rewrite E; auto; discriminate.
Qed.
Lemma run_more f g n ts : f <= g -> run f n ts <> Fuel -> run g n ts = run f n ts.
Proof.
  induction 1 as [|g H IH]; auto. intros K. rewrite run_mono; auto. rewrite IH; auto.
Qed.

(** ** Balanced input *)
Fixpoint depth (d : nat) (c : list token) : option nat :=
  match c with
  | [] => Some d
  | TLpar :: c => depth (S d) c
  | TRpar :: c => match d with O => None | S d => depth d c end
  | _ :: c => depth d c
  end.
Definition balanced c := depth 0 c = Some 0.
Lemma depth_app : forall a b d, depth d (a ++ b) = option_bind (depth d a) (fun e => depth e b).
Proof.
  induction a as [|[q|v u|f|o| |] a IH]; simpl; intros b d; auto. destruct d; auto.
Qed.
Lemma depth_shift : forall c d e k, depth d c = Some e -> depth (d + k) c = Some (e + k).
Proof.
  induction c as [|[q|v u|f|o| |] c IH]; simpl; intros d e k H; auto; try congruence.
  - apply (IH (S d) e k H).
  - destruct d; [discriminate|]. simpl. apply IH; auto.
Qed.
Lemma balanced_app a b : balanced a -> balanced b -> balanced (a ++ b).
Proof. unfold balanced. intros A B. rewrite depth_app, A. exact B. Qed.
Lemma balanced_paren a : balanced a -> balanced (TLpar :: a ++ [TRpar]).
Proof. unfold balanced. intros A. simpl. rewrite depth_app. pose proof (depth_shift a 0 0 1 A) as K. simpl in K. now rewrite K. Qed.
Lemma balanced_unique : forall a b x y, balanced a -> balanced b ->
  a ++ TRpar :: x = b ++ TRpar :: y -> a = b /\ x = y.
Proof.
  assert (G : forall a b d x y, depth d a = Some 0 -> depth d b = Some 0 ->
    a ++ TRpar :: x = b ++ TRpar :: y -> a = b /\ x = y).
  { induction a as [|t a IH]; intros b d x y A B E.
    - destruct b as [|t' b]; [simpl in E; split; congruence|]. simpl in E. injection E as <- _.
      simpl in A. injection A as ->. discriminate.
    - destruct b as [|t' b].
      + simpl in E. injection E as -> _. simpl in B. injection B as ->. discriminate.
      + simpl in E. injection E as <- E.
        assert (K : exists d', depth d' a = Some 0 /\ depth d' b = Some 0).
        { destruct t; simpl in A, B; eauto. destruct d; [discriminate|]. eauto. }
        destruct K as (d' & A' & B'). destruct (IH b d' x y A' B' E) as [-> ->]. auto. }
  intros a b x y A B E. apply (G a b 0); auto.
Qed.
Lemma text_balanced t : balanced (text t).
Proof.
  induction t as [q|v d|f t IH|t IH|t IH|o a IHa b IHb]; simpl; try reflexivity.
  - apply (balanced_paren (text t)) in IH. exact IH.
  - now apply balanced_paren.
  - exact IH.
  - apply balanced_app; auto.
Qed.

Definition valuelike (p : ptree) : Prop :=
  match p with PNum _ | PVar _ _ | PList _ => True | _ => False end.
Definition shape (n : nonterm) (l : list ptree) (c : list token) : Prop :=
  match n with
  | Level _ => (exists p, l = [p] /\ valuelike p) /\ c <> []
  | Nested => (exists m, l = [PList m] /\ Forall valuelike m) /\ c <> []
  | Items => Forall valuelike l /\ (l = [] -> c = [])
  | Loop _ _ => l = [] <-> c = []
  end.
Lemma run_consumes f : forall n ts l r, run f n ts = Ok l r ->
  exists c, ts = c ++ r /\ balanced c /\ shape n l c.
Proof.
  induction f as [|f IH]; intros n ts l r E; [discriminate|].
  rewrite run_S in E. unfold step in E.
  destruct n as [[|[|k]]| | |o k].
  - destruct ts as [|[q|v d|g|o| |] t]; try discriminate.
    + injection E as <- <-. exists [TNum q]. repeat split; try easy. now exists (PNum q).
    + injection E as <- <-. exists [TVar v d]. repeat split; try easy. now exists (PVar v d).
    + destruct (run f Nested t) as [l' r'| |] eqn:E1; try discriminate. injection E as <- <-.
      destruct (IH _ _ _ _ E1) as (c & -> & B & _). exists (TFun g :: c). repeat split; try easy.
      now exists (PList (PFun g :: l')).
    + destruct (run f Nested (TLpar :: t)) as [l' r'| |] eqn:E1; try discriminate.
      * injection E as <- <-. destruct (IH _ _ _ _ E1) as (c & Ec & B & (m & -> & _) & N). exists c. repeat split; auto.
        now exists (PList m).
      * destruct (run f (Level top) t) as [l' [|[| | | | |] r']| |] eqn:E2; try discriminate.
        injection E as <- <-. destruct (IH _ _ _ _ E2) as (c & -> & B & (p & -> & V) & N).
        exists (TLpar :: c ++ [TRpar]). split; [simpl; now rewrite <- app_assoc|].
        split; [now apply balanced_paren|]. split; [now exists p|easy].
  - assert (G : run f (Level 0) ts = Ok l r -> exists c, ts = c ++ r /\ balanced c /\ shape (Level 1) l c)
      by (intros E0; exact (IH _ _ _ _ E0)).
    destruct ts as [|[q|v d|g|o| |] t]; try (now apply G). destruct o; try (now apply G).
    destruct (run f (Level 1) t) as [l' r'| |] eqn:E1; try discriminate; [|now apply G].
    injection E as <- <-. destruct (IH _ _ _ _ E1) as (c & -> & B & (p & -> & V) & N).
    exists (TOp OSub :: c). repeat split; try easy. now exists (PList [PNeg; p]).
  - destruct (level_op (S (S k))) as [o|]; [|discriminate].
    destruct (run f (Level (S k)) ts) as [a r1| |] eqn:E1; try discriminate.
    destruct (IH _ _ _ _ E1) as (c & -> & B & (p & -> & V) & N).
    match type of E with context [run f (Loop o ?m) r1] => destruct (run f (Loop o m) r1) as [[|x l'] r2| |] eqn:E2 end;
      try discriminate.
    + injection E as <- <-. exists c. repeat split; auto. now exists p.
    + injection E as <- <-. destruct (IH _ _ _ _ E2) as (c2 & -> & B2 & _).
      exists (c ++ c2). rewrite app_assoc. split; [auto|]. split; [now apply balanced_app|].
      split; [eexists; split; [reflexivity|exact I]|]. intros H. apply N. now destruct c.
  - destruct ts as [|[q|v d|g|o| |] t]; try discriminate.
    destruct (run f Items t) as [l' [|[| | | | |] r']| |] eqn:E1; try discriminate.
    injection E as <- <-. destruct (IH _ _ _ _ E1) as (c & -> & B & V & _).
    exists (TLpar :: c ++ [TRpar]). split; [simpl; now rewrite <- app_assoc|].
    split; [now apply balanced_paren|]. split; [now exists l'|easy].
  - destruct (run f Nested ts) as [a r1| |] eqn:E1; try discriminate.
    + destruct (run f Items r1) as [l' r2| |] eqn:E2; try discriminate. injection E as <- <-.
      destruct (IH _ _ _ _ E1) as (c & -> & B & (m & -> & V) & N). destruct (IH _ _ _ _ E2) as (c2 & -> & B2 & V2 & _).
      exists (c ++ c2). rewrite app_assoc. split; [auto|]. split; [now apply balanced_app|]. split; [constructor; [exact I|exact V2]|discriminate].
    + destruct (run f (Level top) ts) as [a r1| |] eqn:E3; try discriminate.
      * destruct (run f Items r1) as [l' r2| |] eqn:E2; try discriminate. injection E as <- <-.
        destruct (IH _ _ _ _ E3) as (c & -> & B & (p & -> & V) & N). destruct (IH _ _ _ _ E2) as (c2 & -> & B2 & V2 & _).
        exists (c ++ c2). rewrite app_assoc. split; [auto|]. split; [now apply balanced_app|]. split; [constructor; [exact V|exact V2]|discriminate].
      * injection E as <- <-. exists []. repeat split; constructor.
  - assert (G : Ok [] ts = Ok l r -> exists c, ts = c ++ r /\ balanced c /\ shape (Loop o k) l c).
    { intros E0. injection E0 as <- <-. exists []. repeat split. }
    destruct ts as [|[q|v d|g|o'| |] t]; try (now apply G). destruct (op_eqb o o'); [|now apply G].
    destruct (run f (Level k) t) as [b r1| |] eqn:E1; try discriminate; [|now apply G].
    destruct (run f (Loop o k) r1) as [l' r2| |] eqn:E2; try discriminate. injection E as <- <-.
    destruct (IH _ _ _ _ E1) as (c & -> & B & _). destruct (IH _ _ _ _ E2) as (c2 & -> & B2 & _).
    exists (TOp o' :: c ++ c2). simpl. rewrite app_assoc. split; [auto|]. split; [now apply balanced_app|]. easy.
Qed.

(** ** Enough fuel *)
Definition rank (n : nonterm) : nat :=
  match n with Level k => Nat.min k 6 + 1 | Nested => 0 | Items => 8 | Loop _ _ => 8 end.
Definition weight (n : nonterm) (ts : list token) : nat := 9 * length ts + rank n.
Lemma rank_max n : rank n <= 8.
Proof. destruct n; simpl; lia. Qed.
Lemma run_enough f : forall n ts, weight n ts < f -> run f n ts <> Fuel.
Proof.
  induction f as [|f IH]; intros n ts W; [lia|].
  assert (C : forall n' ts', run f n' ts' = Fuel -> weight n' ts' < f -> False) by (intros n' ts' E K; now apply (IH n' ts' K)).
  assert (Sh : forall n' ts', length ts' < length ts -> weight n' ts' < f).
  { intros n' ts' K. unfold weight in *. pose proof (rank_max n'). lia. }
  assert (Con : forall n' ts' l r, run f n' ts' = Ok l r -> length r <= length ts' /\
     match n' with Level _ | Nested => length r < length ts' | _ => True end).
  { intros n' ts' l r E. destruct (run_consumes _ _ _ _ _ E) as (c & -> & _ & S). rewrite app_length. split; [lia|].
    destruct n'; simpl in S; auto; destruct S as [_ S]; destruct c; try congruence; simpl; lia. }
  rewrite run_S. unfold step.
  destruct n as [[|[|k]]| | |o k].
  - destruct ts as [|[q|v d|g|o| |] t]; try discriminate.
    + destruct (run f Nested t) eqn:E; try discriminate. intros _. apply (C _ _ E). apply Sh. simpl. lia.
    + destruct (run f Nested (TLpar :: t)) eqn:E; try discriminate.
      * destruct (run f (Level top) t) as [l' [|[| | | | |] r']| |] eqn:E2; try discriminate.
        intros _. apply (C _ _ E2). apply Sh. simpl. lia.
      * intros _. apply (C _ _ E). unfold weight in *. simpl in *. lia.
  - assert (G : run f (Level 0) ts <> Fuel) by (intros E; apply (C _ _ E); unfold weight in *; simpl in *; lia).
    destruct ts as [|[q|v d|g|o| |] t]; auto. destruct o; auto.
    destruct (run f (Level 1) t) eqn:E; try discriminate; auto. intros _. apply (C _ _ E). apply Sh. simpl. lia.
  - destruct (level_op (S (S k))) as [o|] eqn:Eo; [|discriminate].
    assert (k <= 4) by (do 5 (destruct k as [|k]; [lia|]); discriminate).
    destruct (run f (Level (S k)) ts) as [a r1| |] eqn:E1; try discriminate.
    + destruct (Con _ _ _ _ E1) as [_ L].
      match goal with |- context [run f (Loop o ?m) r1] => destruct (run f (Loop o m) r1) as [[|x l'] r2| |] eqn:E2 end; try discriminate.
      intros _. apply (C _ _ E2). apply Sh. lia.
    + intros _. apply (C _ _ E1). unfold weight, rank in *. lia.
  - destruct ts as [|[q|v d|g|o| |] t]; try discriminate.
    destruct (run f Items t) as [l' [|[| | | | |] r']| |] eqn:E1; try discriminate.
    intros _. apply (C _ _ E1). apply Sh. simpl. lia.
  - destruct (run f Nested ts) as [a r1| |] eqn:E1; try discriminate.
    + destruct (Con _ _ _ _ E1) as [_ L].
      destruct (run f Items r1) as [l' r2| |] eqn:E2; try discriminate. intros _. apply (C _ _ E2). apply Sh. lia.
    + destruct (run f (Level top) ts) as [a r1| |] eqn:E3; try discriminate.
      * destruct (Con _ _ _ _ E3) as [_ L].
        destruct (run f Items r1) as [l' r2| |] eqn:E2; try discriminate. intros _. apply (C _ _ E2). apply Sh. lia.
      * intros _. apply (C _ _ E3). unfold weight, rank, top in *. simpl. lia.
    + intros _. apply (C _ _ E1). unfold weight, rank in *. lia.
  - destruct ts as [|[q|v d|g|o'| |] t]; try discriminate. destruct (op_eqb o o'); [|discriminate].
    destruct (run f (Level k) t) as [b r1| |] eqn:E1; try discriminate.
    + destruct (Con _ _ _ _ E1) as [L _].
      destruct (run f (Loop o k) r1) as [l' r2| |] eqn:E2; try discriminate.
      intros _. apply (C _ _ E2). apply Sh. simpl. lia.
    + intros _. apply (C _ _ E1). apply Sh. simpl. lia.
Qed.

(** The parser without fuel. *)
Definition parse (n : nonterm) (ts : list token) : outcome := run (S (weight n ts)) n ts.
Lemma parse_not_fuel n ts : parse n ts <> Fuel.
Proof. apply run_enough. lia. Qed.
Lemma run_parse f n ts : run f n ts <> Fuel -> run f n ts = parse n ts.
Proof.
  intros H. unfold parse. destruct (le_ge_dec f (S (weight n ts))) as [L|L].
  - symmetry. now apply run_more.
  - apply run_more; auto. apply parse_not_fuel.
Qed.
Lemma parse_step n ts : parse n ts = step parse n ts.
Proof.
  set (f := S (weight n ts)).
  assert (H : run (S f) n ts <> Fuel) by (apply run_enough; unfold f; lia).
  rewrite <- (run_parse (S f)) by auto. rewrite run_S in *. symmetry. apply step_mono; auto.
  intros m t. destruct (run f m t) eqn:E; auto; right; rewrite <- E; symmetry; apply run_parse; rewrite E; discriminate.
Qed.
Lemma parse_consumes n ts l r : parse n ts = Ok l r -> exists c, ts = c ++ r /\ balanced c /\ shape n l c.
Proof. apply run_consumes. Qed.
