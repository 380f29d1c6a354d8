(** The text of the shipped configuration files. *)
From Coquelicot Require Import Coquelicot.
From Coq Require Import String Ascii Reals QArith Qreals Bool Arith ZArith Decimal Lra Lia List.
From Verif Require Import M_Syntax M_Certificates M_Verifier M_Activations M_Domains M_Network M_Cegis M_Labels M_Fossil M_Double
  M_Control M_Parser M_Lexer M_Variables M_DomainParser M_Cli M_Config M_Documents S_Network S_Domains S_Dynamics S_Fossil S_Double S_Success
  S_Parser S_Lexer S_Variables S_DomainParser S_Control S_Cli S_Config S_Documents P_Parser P_TranslatorBugs P_Cli P_Config P_ConfigDouble L_Texts.
Import ListNotations.
Local Close Scope Q_scope.
Local Open Scope string_scope.
Local Open Scope list_scope.
Local Open Scope R_scope.

Ltac doc_nodup := cbn; repeat (apply NoDup_cons; [cbn; intuition discriminate|]); apply NoDup_nil.
Ltac doc_has := cbn; intuition reflexivity.
Definition properb (n : nat) (w : set_text) : bool :=
  match w with
  | TSphere c r => (length (nlist_value c) =? n)%nat && Qle_bool 0 (num_value r)
  | TRectangle lo hi => (length (nlist_value lo) =? n)%nat && (length (nlist_value hi) =? n)%nat
  | TTorus c ro ri => (length (nlist_value c) =? n)%nat && (Qle_bool 0 (num_value ri) && negb (Qle_bool (num_value ro) (num_value ri)))
  end.
Lemma properb_ok n w : properb n w = true -> proper n (set_value w).
Proof.
  destruct w; cbn [properb set_value proper]; rewrite ?andb_true_iff, ?map_length, ?Nat.eqb_eq, ?Qle_bool_iff, ?negb_true_iff.
  - intros [H1 H2]. split; [exact H1|]. apply Qle_Rle in H2. now rewrite RMicromega.Q2R_0 in H2.
  - auto.
  - intros (H1 & H2 & H3). split; [exact H1|]. apply Qle_Rle in H2. rewrite RMicromega.Q2R_0 in H2. split; [exact H2|].
    apply Qlt_Rlt. apply Qnot_le_lt. intros H. apply Qle_bool_iff in H. congruence.
Qed.
Definition sections (doc : document) : list (string * yaml) :=
  match find (fun p => String.eqb (fst p) "DOMAINS") doc with Some (_, YMap d) => d | _ => [] end.
Lemma doc_declares doc n l v : let d := sections doc in
  gives doc "DOMAINS" (YMap d) -> NoDup (map fst d) -> In (label_name l, YStr v) d ->
  seen v (see_set v) = true -> properb n (see_set v) = true -> declares doc n l (set_value (see_set v)).
Proof. intros d G N I E P. exists d, v. repeat split; auto; [now apply seen_ok|now apply properb_ok]. Qed.

(** x1 + u0, x0-x1 *)
Definition t_x0 := CVar VX (D0 Nil).
Definition t_x1 := CVar VX (D1 Nil).
Definition t_u0 := CVar VU (D0 Nil).
Definition t_u1 := CVar VU (D1 Nil).
Definition plant_trees : list tree := [CBin OAdd t_x1 t_u0; CBin OSub t_x0 t_x1].
Lemma plant_written : Forall2 written plant_trees ["x1 + u0"; "x0-x1"] /\ Forall (fun t => std Sum t /\ no_minus_power t) plant_trees.
Proof.
  split.
  - constructor; [|constructor; [|constructor]].
    + apply (written_words _ _ [("", WVar VX (D1 Nil)); (" ", WOp OAdd); (" ", WVar VU (D0 Nil))] ""); reflexivity.
    + apply (written_words _ _ [("", WVar VX (D0 Nil)); ("", WOp OSub); ("", WVar VX (D1 Nil))] ""); reflexivity.
  - repeat constructor.
Qed.
(** x1, -x1 - x0 *)
Definition spring_trees : list tree := [t_x1; CBin OSub (CNeg t_x1) t_x0].
Lemma spring_written : Forall2 written spring_trees ["x1"; "-x1 - x0"] /\ Forall (fun t => std Sum t /\ no_minus_power t) spring_trees.
Proof.
  split.
  - constructor; [|constructor; [|constructor]].
    + apply (written_words _ _ [("", WVar VX (D1 Nil))] ""); reflexivity.
    + apply (written_words _ _ [("", WOp OSub); ("", WVar VX (D1 Nil)); (" ", WOp OSub); (" ", WVar VX (D0 Nil))] ""); reflexivity.
  - constructor; [|constructor; [|constructor]]; (split; [unfold t_x0, t_x1; stdgram|cbn; auto]).
    repeat split. intros a b H. discriminate H.
Qed.
(** u1 + (0.73575*sin(x0) - 0.1*x1) / (0.0375) *)
Definition dec (i f : string) : tree := CNum (num_value (word_num i f)).
Definition pendulum_trees : list tree :=
  [CBin OAdd t_x1 t_u0;
   CBin OAdd t_u1 (CBin ODiv (CParen (CBin OSub (CBin OMul (dec "0" "73575") (CFun FSin t_x0)) (CBin OMul (dec "0" "1") t_x1))) (CParen (dec "0" "0375")))].
Lemma pendulum_written : Forall2 written pendulum_trees ["x1 + u0"; "u1 + (0.73575*sin(x0) - 0.1*x1) / (0.0375) "] /\
  Forall (fun t => std Sum t /\ no_minus_power t) pendulum_trees.
Proof.
  split.
  - constructor; [|constructor; [|constructor]].
    + apply (written_words _ _ [("", WVar VX (D1 Nil)); (" ", WOp OAdd); (" ", WVar VU (D0 Nil))] ""); reflexivity.
    + apply (written_words _ _ [("", WVar VU (D1 Nil)); (" ", WOp OAdd); (" ", WLpar); ("", WNum "0" "73575"); ("", WOp OMul); ("", WFun FSin);
        ("", WLpar); ("", WVar VX (D0 Nil)); ("", WRpar); (" ", WOp OSub); (" ", WNum "0" "1"); ("", WOp OMul); ("", WVar VX (D1 Nil)); ("", WRpar);
        (" ", WOp ODiv); (" ", WLpar); ("", WNum "0" "0375"); ("", WRpar)] " "); reflexivity.
  - constructor; [|constructor; [|constructor]]; (split; [unfold dec, t_x0, t_x1, t_u0, t_u1; stdgram|cbn; auto 20]).
Qed.

(** ** Sets *)
Lemma disc_ball q0 q1 q s : 0 <= Q2R q -> in_region (Ball (map Q2R [q0; q1]) (Q2R q)) s <-> disc (Q2R q0) (Q2R q1) (Q2R q) s.
Proof.
  intros H. cbn [in_region map]. unfold distance, disc. cbn [length sum_below nth].
  rewrite Rplus_0_l. rewrite P_DomainParser.sqrt_le_iff; [reflexivity| |exact H].
  assert (K := pow2_ge_0 (s 0%nat - Q2R q0)). assert (K2 := pow2_ge_0 (s 1%nat - Q2R q1)). lra.
Qed.
Lemma square_box a b s : Q2R a = - Q2R b -> in_region (Box (map Q2R [a; a]) (map Q2R [b; b])) s <-> square (Q2R b) s.
Proof.
  intros E. cbn [in_region map]. unfold square. rewrite <- E. split.
  - intros H. split; [apply (H 0%nat)|apply (H 1%nat)]; cbn; lia.
  - intros [H1 H2] [|[|k]] Hk; cbn in *; auto. lia.
Qed.

(** ** Trajectories *)
Lemma moves_solves (f : vfield) f0 f1 x T : (forall s, f s 0%nat = f0 s) -> (forall s, f s 1%nat = f1 s) ->
  (forall t, 0 <= t <= T -> moves f0 f1 x t) -> solves 2 f x T.
Proof.
  intros E0 E1 H t Ht [|[|j]] Hj; [rewrite E0|rewrite E1|lia]; now apply H.
Qed.
Lemma plant_solves i c x T : plant c x T -> solves 2 (system_field i 2 plant_trees (feedback_law 2 (Some 1%nat) c)) x T.
Proof. intros H. eapply moves_solves; [| |exact H]; intros s; reflexivity. Qed.
Lemma pendulum_solves i c x T : usual i -> pendulum c x T -> solves 2 (system_field i 2 pendulum_trees (feedback_law 2 (Some 2%nat) c)) x T.
Proof.
  intros (_ & U & _) H. eapply moves_solves; [| |exact H]; intros s; [reflexivity|]. unfold system_field.
  cbn -[Q2R num_value]. rewrite U. unfold fed_back.
  rewrite (eq_refl : num_value (word_num "0" "73575") = (2943 # 4000)%Q), (eq_refl : num_value (word_num "0" "1") = (1 # 10)%Q),
    (eq_refl : num_value (word_num "0" "0375") = (3 # 80)%Q).
  unfold Q2R. cbn [Qnum Qden]. lra.
Qed.

(** ** What the files ask *)
Ltac doc_asks cert time :=
  exists cert, time; split; [doc_has|]; split; [apply spelled_upper; [apply certificate_capital|reflexivity]|];
  split; [doc_has|]; apply spelled_upper; [apply time_capital|reflexivity].
Ltac doc_not_cvc5 :=
  let s := fresh in let H := fresh in let Sp := fresh in intros s H Sp; cbn in H;
  repeat (destruct H as [H|H]; [try discriminate H; try (injection H as <-; apply spelled_upper in Sp; [discriminate Sp|capitals])|]); exact H.
Ltac doc_avoids :=
  let v := fresh "v" in let H := fresh in intros v H; cbn in H;
  repeat (destruct H as [H|H]; [try discriminate H; try (injection H as <-; eexists; split; [match goal with |- YList ?l = _ => instantiate (1 := map (fun y => match y with YStr s => s | _ => "" end) l); reflexivity end|];
    let s := fresh in let w := fresh in let Hs := fresh in let Hw := fresh in let Sp := fresh in
    intros s w Hs Hw Sp; cbn in Hs, Hw;
    repeat (destruct Hs as [<-|Hs]; [repeat (destruct Hw as [<-|Hw]; [apply spelled_upper in Sp; [discriminate Sp|capitals]|]); exact Hw|]); exact Hs)|]); elim H.
Ltac doc_equations lines W := exists lines; split; [doc_has|exact W].
Lemma doc_inputs1 doc : NoDup (map fst doc) -> gives doc "CTRLAYER" (YList [YInt 5; YInt 1]) -> gives doc "CTRLACTIVATION" (YList [YStr "LINEAR"]) ->
  inputs_of doc plant_trees (Some 1%nat).
Proof.
  intros _ G1 G2. apply (some_inputs _ _ [5%nat] 1%nat ["LINEAR"]); auto; [lia| |].
  - intros d H. cbn in H. repeat (destruct H as [H|H]; [try discriminate H; try (injection H as <-; exists 0%nat; split; [lia|reflexivity])|]). destruct H.
  - intros s _ _. cbn. repeat constructor. cbn. tauto.
Qed.
Lemma doc_inputs2 doc : gives doc "CTRLAYER" (YList [YInt 8; YInt 2]) -> gives doc "CTRLACTIVATION" (YList [YStr "LINEAR"]) ->
  inputs_of doc pendulum_trees (Some 2%nat).
Proof.
  intros G1 G2. apply (some_inputs _ _ [8%nat] 2%nat ["LINEAR"]); auto; [lia| |].
  - intros d H. cbn in H. repeat (destruct H as [H|H]; [try discriminate H; try (injection H as <-; first [exists 0%nat; split; [lia|reflexivity]|exists 1%nat; split; [lia|reflexivity]])|]). destruct H.
  - intros s _ _. cbn. repeat constructor; cbn; intuition discriminate.
Qed.
