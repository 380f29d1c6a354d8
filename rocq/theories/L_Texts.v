(** Texts of numbers, sets and expressions, checked by computation. *)
From Coq Require Import Reals QArith Qreals Decimal Ascii String Bool Arith ZArith Lia Lra List.
From Verif Require Import M_Syntax M_Activations M_Domains M_Parser M_DomainParser M_Certificates M_Cli S_Parser S_DomainParser S_Lexer S_Cli S_Config P_DomainParser.
Import ListNotations.
Local Close Scope Q_scope.
Local Open Scope nat_scope.
Local Open Scope string_scope.
Local Open Scope list_scope.

(** ** Numbers: sign, digits, digits after the point *)
Definition chars := list_ascii_of_string.
Definition digitsb (t : list ascii) : bool := forallb is_digit t.
Definition numeralb (t : list ascii) : bool := match t with [] => false | _ => digitsb t end.
Lemma numeralb_ok t : numeralb t = true -> numeral t.
Proof.
  intros H. destruct t as [|c t]; [discriminate|]. split; [discriminate|]. apply Forall_forall. intros x Hx.
  unfold numeralb, digitsb in H. rewrite forallb_forall in H. apply digit_range. now apply H.
Qed.
Definition blankb (t : list ascii) : bool :=
  forallb (fun c => Ascii.eqb c " " || Ascii.eqb c "009" || Ascii.eqb c "010" || Ascii.eqb c "013")%bool t.
Lemma blankb_ok t : blankb t = true -> blank t.
Proof.
  intros H. unfold blankb in H. rewrite forallb_forall in H. apply Forall_forall. intros c Hc. specialize (H c Hc).
  rewrite !orb_true_iff, !Ascii.eqb_eq in H. tauto.
Qed.

Record num := { n_pre : string; n_neg : bool; n_int : string; n_frac : string; n_post : string }.
Definition num_text (a : num) : list ascii :=
  (if n_neg a then ["-"%char] else []) ++ chars (n_int a) ++ (match chars (n_frac a) with [] => [] | fs => ["."%char] ++ fs end).
Definition num_full (a : num) : list ascii := chars (n_pre a) ++ num_text a ++ chars (n_post a).
Definition num_value (a : num) : Q :=
  let q := Qplus (inject_Z (nat_of_digits (chars (n_int a))))
                 (Qmake (nat_of_digits (chars (n_frac a))) (Z.to_pos (10 ^ Z.of_nat (length (chars (n_frac a)))))) in
  Qred (if n_neg a then Qopp q else q).
Definition numb (a : num) : bool :=
  (blankb (chars (n_pre a)) && blankb (chars (n_post a)) && numeralb (chars (n_int a)) && digitsb (chars (n_frac a)))%bool.
Local Open Scope R_scope.
Lemma num_value_R a : Q2R (num_value a) = (if n_neg a then -1 else 1) * (whole (chars (n_int a)) + fraction (chars (n_frac a))).
Proof.
  unfold num_value. rewrite (Qeq_eqR _ _ (Qred_correct _)).
  assert (E : Q2R (Qplus (inject_Z (nat_of_digits (chars (n_int a)))) (Qmake (nat_of_digits (chars (n_frac a))) (Z.to_pos (10 ^ Z.of_nat (length (chars (n_frac a)))))))
     = whole (chars (n_int a)) + fraction (chars (n_frac a))).
  { rewrite Q2R_plus, Q2R_frac. rewrite (nat_of_digits_whole (chars (n_frac a))), whole_fraction.
    replace (Q2R (inject_Z (nat_of_digits (chars (n_int a))))) with (IZR (nat_of_digits (chars (n_int a)))) by (unfold Q2R; cbn; field).
    rewrite nat_of_digits_whole. field. apply pow_nonzero. lra. }
  destruct (n_neg a); [rewrite Q2R_opp|]; rewrite E; ring.
Qed.
Lemma num_ok a : numb a = true -> number_text (num_text a) (Q2R (num_value a)).
Proof.
  unfold numb. rewrite !andb_true_iff. intros [[_ Hi] Hf]. apply numeralb_ok in Hi. rewrite num_value_R.
  assert (Sg : sign_text (if n_neg a then ["-"%char] else []) (if n_neg a then -1 else 1)) by (destruct (n_neg a); constructor).
  unfold num_text. destruct (chars (n_frac a)) as [|c fs] eqn:E.
  - rewrite app_nil_r. cbn [fraction]. rewrite Rplus_0_r. now apply integer_text.
  - apply decimal_text; auto. apply numeralb_ok. exact Hf.
Qed.
Fixpoint nums_text (a : num) (l : list num) : list ascii :=
  match l with [] => num_full a | b :: l => num_full a ++ [","%char] ++ nums_text b l end.
Lemma nums_ok l : forall a, forallb numb (a :: l) = true -> numbers_text (nums_text a l) (map Q2R (map num_value (a :: l))).
Proof.
  induction l as [|b l IH]; intros a H; cbn [forallb] in H; apply andb_true_iff in H; destruct H as [Ha H];
    pose proof (num_ok a Ha) as N; unfold numb in Ha; rewrite !andb_true_iff in Ha; destruct Ha as [[[B1 B2] _] _];
    apply blankb_ok in B1; apply blankb_ok in B2; cbn [nums_text map]; unfold num_full.
  - now apply one_number.
  - specialize (IH b H). rewrite <- !app_assoc. now apply next_number.
Qed.

(** ** Sets *)
Record nlist := { l_pre : string; l_first : num; l_rest : list num; l_post : string }.
Definition nlist_text (l : nlist) : list ascii := chars (l_pre l) ++ ["["%char] ++ nums_text (l_first l) (l_rest l) ++ ["]"%char] ++ chars (l_post l).
Definition nlistb (l : nlist) : bool := (blankb (chars (l_pre l)) && blankb (chars (l_post l)) && forallb numb (l_first l :: l_rest l))%bool.
Definition nlist_value (l : nlist) : list Q := map num_value (l_first l :: l_rest l).
Lemma nlist_ok l : nlistb l = true -> list_text (nlist_text l) (map Q2R (nlist_value l)).
Proof.
  unfold nlistb. rewrite !andb_true_iff. intros [[B1 B2] H]. exists (chars (l_pre l)), (nums_text (l_first l) (l_rest l)), (chars (l_post l)).
  repeat split; try (now apply blankb_ok). now apply nums_ok.
Qed.
Inductive set_text := TSphere (c : nlist) (r : num) | TRectangle (lo hi : nlist) | TTorus (c : nlist) (ro ri : num).
Definition set_string (s : set_text) : list ascii :=
  match s with
  | TSphere c r => chars "Sphere" ++ ["("%char] ++ (nlist_text c ++ comma ++ num_full r) ++ [")"%char] ++ []
  | TRectangle lo hi => chars "Rectangle" ++ ["("%char] ++ (nlist_text lo ++ comma ++ nlist_text hi) ++ [")"%char] ++ []
  | TTorus c ro ri => chars "Torus" ++ ["("%char] ++ (nlist_text c ++ comma ++ num_full ro ++ comma ++ num_full ri) ++ [")"%char] ++ []
  end.
Definition set_value (s : set_text) : region :=
  match s with
  | TSphere c r => Ball (map Q2R (nlist_value c)) (Q2R (num_value r))
  | TRectangle lo hi => Box (map Q2R (nlist_value lo)) (map Q2R (nlist_value hi))
  | TTorus c ro ri => Shell (map Q2R (nlist_value c)) (Q2R (num_value ro)) (Q2R (num_value ri))
  end.
Definition setb (s : set_text) : bool :=
  (match s with
  | TSphere c r => nlistb c && numb r
  | TRectangle lo hi => nlistb lo && nlistb hi
  | TTorus c ro ri => nlistb c && (numb ro && numb ri)
  end)%bool.
Lemma one_ok a : numb a = true -> one_text (num_full a) (Q2R (num_value a)).
Proof. intros H. apply (nums_ok [] a). cbn. now rewrite H. Qed.
Lemma keyword_plain w args : keyword_text w args (chars w ++ ["("%char] ++ args ++ [")"%char] ++ []).
Proof. exists [], [], []. repeat split; try constructor. Qed.
Lemma set_ok s : setb s = true -> region_text (set_string s) (set_value s).
Proof.
  destruct s; cbn [setb set_string set_value]; rewrite ?andb_true_iff.
  - intros [H1 H2]. eapply sphere_text; [now apply nlist_ok|now apply one_ok|apply keyword_plain].
  - intros [H1 H2]. eapply rectangle_text; [now apply nlist_ok|now apply nlist_ok|apply keyword_plain].
  - intros (H1 & H2 & H3). eapply torus_text; [now apply nlist_ok|now apply one_ok|now apply one_ok|apply keyword_plain].
Qed.

(** ** Expressions: the spelling of each token and the white space before it *)
Definition fun_word (f : fname) : string :=
  match f with FSin => "sin" | FCos => "cos" | FExp => "exp" | FLog => "log" | FSqrt => "sqrt" | FTanh => "tanh" end.
Definition op_word (o : op) : string := match o with OAdd => "+" | OSub => "-" | OMul => "*" | ODiv => "/" | OPow => "**" end.
Inductive word := WNum (int frac : string) | WVar (k : vkind) (d : uint) | WFun (f : fname) | WOp (o : op) | WLpar | WRpar.
Definition word_num (int frac : string) : num := {| n_pre := ""; n_neg := false; n_int := int; n_frac := frac; n_post := "" |}.
Definition word_text (w : word) : list ascii :=
  match w with
  | WNum i f => num_text (word_num i f)
  | WVar VX d => "x"%char :: index_text d
  | WVar VU d => "u"%char :: index_text d
  | WFun f => chars (fun_word f)
  | WOp o => chars (op_word o)
  | WLpar => ["("%char] | WRpar => [")"%char]
  end.
Definition word_token (w : word) : token :=
  match w with
  | WNum i f => TNum (num_value (word_num i f)) | WVar k d => TVar k d | WFun f => TFun f | WOp o => TOp o
  | WLpar => TLpar | WRpar => TRpar
  end.
Definition wordb (w : word) : bool := match w with WNum i f => numb (word_num i f) | _ => true end.
Lemma word_ok w : wordb w = true -> token_text (word_token w) (word_text w).
Proof.
  destruct w as [i f|[] d|[]|[]| |]; cbn [wordb word_token word_text]; intros H; [|constructor..].
  unfold num_text. cbn [n_neg n_int n_frac word_num].
  pose proof (num_value_R (word_num i f)) as V. cbn [n_neg n_int n_frac word_num] in V.
  unfold numb in H. cbn [n_pre n_post n_int n_frac word_num] in H. rewrite !andb_true_iff in H. destruct H as [[_ Hi] Hf]. apply numeralb_ok in Hi.
  destruct (chars f) as [|c fs] eqn:E.
  - rewrite app_nil_r. apply tt_integer; [exact Hi|]. cbn [app]. rewrite V. cbn [fraction]. ring.
  - apply tt_decimal; [exact Hi|apply numeralb_ok; exact Hf|]. rewrite V. ring.
Qed.
Fixpoint words_text (l : list (string * word)) (last : string) : list ascii :=
  match l with [] => chars last | (b, w) :: l => chars b ++ word_text w ++ words_text l last end.
Lemma words_ok last l : forallb (fun p => blankb (chars (fst p)) && wordb (snd p))%bool l = true -> blankb (chars last) = true ->
  spaced (map word_token (map snd l)) (words_text l last).
Proof.
  intros H B. induction l as [|[b w] l IH]; [constructor; now apply blankb_ok|].
  cbn [forallb fst snd] in H. rewrite !andb_true_iff in H. destruct H as [[Hb Hw] H]. cbn [map words_text snd].
  constructor; [now apply blankb_ok|now apply word_ok|auto].
Qed.
Lemma written_words t s l last : list_ascii_of_string s = words_text l last -> S_Parser.text t = map word_token (map snd l) ->
  forallb (fun p => blankb (chars (fst p)) && wordb (snd p))%bool l = true -> blankb (chars last) = true -> written t s.
Proof. intros E1 E2 H B. unfold written. rewrite E1, E2. now apply words_ok. Qed.

(** ** A reader of set texts, checked by writing its result again *)
Fixpoint upto (c : ascii) (t : list ascii) : list ascii * list ascii :=
  match t with [] => ([], []) | d :: t => if Ascii.eqb c d then ([], t) else let '(a, b) := upto c t in (d :: a, b) end.
Definition str := string_of_list_ascii.
Fixpoint spaces (t : list ascii) : list ascii * list ascii :=
  match t with
  | [] => ([], [])
  | d :: t' => if blankb [d] then let '(a, b) := spaces t' in (d :: a, b) else ([], t)
  end.
Definition digs (t : list ascii) : list ascii * list ascii := digits t.
Definition see_num (t : list ascii) : num :=
  let '(pre, t) := spaces t in
  let '(neg, t) := match t with "-"%char :: t => (true, t) | _ => (false, t) end in
  let '(int, t) := digs t in
  let '(frac, t) := match t with "."%char :: t => digs t | _ => ([], t) end in
  {| n_pre := str pre; n_neg := neg; n_int := str int; n_frac := str frac; n_post := str t |}.
Fixpoint split (fuel : nat) (t : list ascii) : list (list ascii) :=
  match fuel with
  | O => []
  | S fuel => match t with [] => [] | _ => let '(a, b) := upto "," t in a :: split fuel b end
  end.
Definition see_list (t : list ascii) : nlist :=
  let '(pre, t) := upto "[" t in let '(mid, post) := upto "]" t in
  match split (S (length mid)) mid with
  | [] => {| l_pre := ""; l_first := see_num []; l_rest := []; l_post := "" |}
  | a :: l => {| l_pre := str pre; l_first := see_num a; l_rest := map see_num l; l_post := str post |}
  end.
Definition see_set (s : string) : set_text :=
  let '(w, t) := upto "(" (chars s) in let '(t, _) := upto ")" t in
  let '(c, t) := upto "]" t in let c := see_list (c ++ ["]"%char]) in let '(_, t) := upto "," t in
  if String.eqb (str w) "Sphere" then TSphere c (see_num t)
  else if String.eqb (str w) "Rectangle" then TRectangle c (see_list t)
  else let '(a, b) := upto "," t in TTorus c (see_num a) (see_num b).
Fixpoint chars_eqb (a b : list ascii) : bool :=
  match a, b with [], [] => true | x :: a, y :: b => Ascii.eqb x y && chars_eqb a b | _, _ => false end.
Lemma chars_eqb_ok a : forall b, chars_eqb a b = true -> a = b.
Proof.
  induction a as [|x a IH]; intros [|y b] H; try discriminate; [reflexivity|]. cbn in H. apply andb_true_iff in H. destruct H as [H1 H2].
  apply Ascii.eqb_eq in H1. rewrite H1. f_equal. auto.
Qed.
Definition seen (s : string) (w : set_text) : bool := chars_eqb (chars s) (set_string w) && setb w.
Lemma seen_ok s w : seen s w = true -> region_text (list_ascii_of_string s) (set_value w).
Proof. unfold seen. rewrite andb_true_iff. intros [E H]. apply chars_eqb_ok in E. unfold chars in E at 1. rewrite E. now apply set_ok. Qed.
