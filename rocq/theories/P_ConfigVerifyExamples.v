(** C61: configuration files with a CANDIDATE that meet every hypothesis; a discrete-time file whose accepted candidate grows. *)
From Coquelicot Require Import Coquelicot.
From Coq Require Import String Ascii Reals QArith Qreals Bool Arith ZArith Decimal Lra Lia List.
From Verif Require Import M_Syntax M_Certificates M_Verifier M_BetaSearch M_Activations M_Domains M_Network M_Learner M_Cegis M_Labels M_Fossil
  M_Control M_Parser M_Lexer M_Variables M_DomainParser M_Cli M_Config M_Verify M_ConfigVerify
  S_Verifier S_Activations S_Network S_Learner S_Cegis S_Fossil S_Dynamics S_Certificates S_Success S_Domains
  S_Parser S_Lexer S_Variables S_DomainParser S_Control S_Cli S_Config S_Verify S_ConfigVerify
  L_Holds L_Verifier L_Table L_Success L_Demo P_Verifier P_Certificates P_Safety P_Stability P_Variables P_Verify P_Cli P_Fossil P_TranslatorBugs L_Config L_Session L_Regions P_Config P_ConfigExamples L_ConfigVerify P_ConfigVerify.
Import ListNotations.
Local Open Scope string_scope.
Local Open Scope list_scope.
Local Open Scope R_scope.

(** x' = -2 x, or x(k+1) = -2 x(k). *)
Definition file (cert time cand : string) (amounts : list string) (sections : list (string * yaml)) : document :=
  [("N_VARS", YInt 1); ("SYSTEM", YList [YStr "-2*x0"]); ("CERTIFICATE", YStr cert); ("TIME_DOMAIN", YStr time);
   ("VERIFIER", YStr "dReal"); ("CANDIDATE", YList [YStr cand]);
   ("DOMAINS", YMap sections); ("N_DATA", YMap (map (fun l => (l, YInt 100)) amounts));
   ("N_HIDDEN_NEURONS", YList [YInt 1]); ("ACTIVATION", YList [YStr "Square"])].
Definition minus_two : tree := CBin OMul (CNeg (CNum 2)) (CVar VX (D0 Nil)).
Definition squared : tree := CBin OPow (CVar VX (D0 Nil)) (CNum 2).
Definition squared_minus : tree := CBin OSub squared (CNum 5).

Ltac absent := intros ? H; exfalso; cbn in H; repeat (destruct H as [H|H]; [discriminate|]); exact H.
Lemma one_digit c : (48 <= nat_of_ascii c <= 57)%nat -> numeral [c].
Proof. intros H. split; [discriminate|constructor; auto]. Qed.
Lemma digit_number c z : (48 <= nat_of_ascii c <= 57)%nat -> Z.of_nat (nat_of_ascii c - 48) = z -> Q2R (inject_Z z) = whole [c].
Proof.
  intros H <-. cbn [whole length pow]. unfold digit_value. rewrite INR_IZR_INZ. unfold Q2R. cbn [inject_Z Qnum Qden]. field.
Qed.
Lemma minus_two_text : written minus_two "-2*x0".
Proof.
  unfold written. cbn [minus_two S_Parser.text app list_ascii_of_string].
  apply (spaced_cons [] _ ["-"%char]); [constructor|constructor|].
  apply (spaced_cons [] _ ["2"%char]); [constructor|apply tt_integer; [apply (one_digit _); cbn; lia|apply (digit_number "2" 2); [cbn; lia|reflexivity]]|].
  apply (spaced_cons [] _ ["*"%char]); [constructor|constructor|].
  apply (spaced_cons [] _ ["x"%char; "0"%char] _ []); [constructor|apply (tt_state (D0 Nil))|apply (spaced_nil []); constructor].
Qed.
Lemma squared_text : written squared "x0**2".
Proof.
  unfold written. cbn [squared S_Parser.text app list_ascii_of_string].
  apply (spaced_cons [] _ ["x"%char; "0"%char]); [constructor|apply (tt_state (D0 Nil))|].
  apply (spaced_cons [] _ ["*"%char; "*"%char]); [constructor|constructor|].
  apply (spaced_cons [] _ ["2"%char] _ []); [constructor|apply tt_integer; [apply (one_digit _); cbn; lia|apply (digit_number "2" 2); [cbn; lia|reflexivity]]|apply (spaced_nil []); constructor].
Qed.
Lemma squared_minus_text : written squared_minus "x0**2 - 5".
Proof.
  unfold written. cbn [squared_minus squared S_Parser.text app list_ascii_of_string].
  apply (spaced_cons [] _ ["x"%char; "0"%char]); [constructor|apply (tt_state (D0 Nil))|].
  apply (spaced_cons [] _ ["*"%char; "*"%char]); [constructor|constructor|].
  apply (spaced_cons [] _ ["2"%char]); [constructor|apply tt_integer; [apply (one_digit _); cbn; lia|apply (digit_number "2" 2); [cbn; lia|reflexivity]]|].
  apply (spaced_cons [" "%char] _ ["-"%char]); [constructor; [now left|constructor]|constructor|].
  apply (spaced_cons [" "%char] _ ["5"%char] _ []); [constructor; [now left|constructor]|apply tt_integer; [apply (one_digit _); cbn; lia|apply (digit_number "5" 5); [cbn; lia|reflexivity]]|apply (spaced_nil []); constructor].
Qed.
Lemma squared_std : std Factor squared.
Proof. apply std_factor, std_pow; [apply std_var|apply std_factor, std_power, std_num]. Qed.

Section File.
  Context (cert time cand : string) (amounts : list string) (sections : list (string * yaml)).
  Notation doc := (file cert time cand amounts sections).
  Lemma file_nodup : NoDup (map fst doc).
  Proof. repeat (constructor; [cbn; intuition discriminate|]). constructor. Qed.
  Lemma file_equations : equations doc [minus_two].
  Proof.
    exists ["-2*x0"]. split; [cbn; auto|]. split; [constructor; [exact minus_two_text|constructor]|].
    constructor; [|constructor]. split.
    - apply std_sum, std_mul; [apply std_product, std_neg, std_factor, std_power, std_num|apply std_factor, std_power, std_var].
    - cbn. split; [split; [discriminate|exact I]|exact I].
  Qed.
  Lemma file_inputs : inputs_of doc [minus_two] None.
  Proof. apply no_inputs. absent. Qed.
  Lemma file_asks ct td : upper cert = certificate_name ct -> upper time = time_name td -> asks doc ct td.
  Proof.
    intros H H'. exists cert, time. split; [cbn; auto|]. split; [apply spelled_upper; [apply certificate_capital|exact H]|].
    split; [cbn; auto|]. apply spelled_upper; [apply (time_capital td)|exact H'].
  Qed.
  Lemma file_declares l v g n : In (label_name l, YStr v) sections -> NoDup (map fst sections) ->
    region_text (list_ascii_of_string v) g -> proper n g -> declares doc n l g.
  Proof. intros H1 H2 H3 H4. exists sections, v. split; [cbn; tauto|]. auto. Qed.
  Lemma file_llo : forall y, gives doc "LLO" y -> y = YBool false.
  Proof. absent. Qed.
End File.

(** A dReal that knows the file's conditions to be unsatisfiable accepts the candidate. *)
Lemma accept_file doc pb net ctrl lib b e xdot C ds gs :
  option_bind (read_config doc) (fun c => option_bind (get_verifier_type c) library_of) = Some (lib, b) ->
  option_bind (candidate_text doc) (parse_text 100 100) = Some e ->
  session_of math 100 100 ex_rand ex_randc doc = Some (pb, net, ctrl) ->
  pb_xdot pb ctrl = Some xdot -> candidate_expr lib (leftover (pb_n pb)) e (new_vars (pb_n pb)) = Some C -> pb_symb pb = SDREAL ->
  gradient (seq 0 (pb_n pb)) C = Some ds -> candidate_constraints pb C (edot ds xdot) = Some gs -> distinct_labels gs -> refuted gs ->
  exists be v, (forall gs, trustworthy be gs) /\
    verify_file math 100 100 ex_rand ex_randc doc be (fun _ _ _ => 0) = Some v /\ v_found v = true.
Proof.
  intros El Ee Es Ex EC Hs Eg Ec Hd Hr.
  exists (knowing (map snd (concat gs))), (verify (knowing (map snd (concat gs))) (fun _ _ _ => 0) gs).
  assert (B : forall k f, b_is_unsat (knowing (map snd (concat gs))) (b_solve (knowing (map snd (concat gs))) k f) = true -> In f (map snd (concat gs))).
  { intros k f. cbn. unfold dreal_solve. destruct (in_dec fml_dec f (map snd (concat gs))); [auto|]. cbn. discriminate. }
  split; [|split].
  - intros gs'. split.
    + intros k g l f _ _ H. apply B in H. apply in_map_iff in H. destruct H as ([l' f'] & <- & H). apply in_concat in H.
      destruct H as (g' & H1 & H2). exact (Hr g' l' f' H1 H2).
    + intros k f. cbn. unfold dreal_solve. destruct (in_dec fml_dec f (map snd (concat gs))); cbn; [discriminate|reflexivity].
  - unfold verify_file. rewrite El. cbn [option_bind]. rewrite Ee. cbn [option_bind]. rewrite Es. cbn [option_bind].
    unfold verify_candidate. rewrite Ex. cbn [option_bind]. rewrite EC. cbn [option_bind]. rewrite Hs, Eg. cbn [option_bind]. rewrite Ec. reflexivity.
  - apply verify_found_complete; auto. intros i j l f (g & Hg' & Hf). cbn. unfold dreal_solve.
    destruct (in_dec fml_dec f (map snd (concat gs))) as [|n]; [reflexivity|]. elim n. apply in_map_iff. exists (l, f). split; auto.
    apply in_concat. exists g. split; eapply nth_error_In; eauto.
Qed.

Definition all_parts (x : problem controller * network * controller) :=
  let '(pb, net, ctrl) := x in
  (net, ctrl, map (pb_sets pb) all_labels, pb_xdot pb ctrl, (pb_type pb, pb_n pb, pb_llo pb, pb_symb pb)).
Definition two_xdot : list expr := [EBin BMul (EUn UNeg (ENum 2)) (EVar 0)].
Definition lyapunov_file (time : string) : document := file "Lyapunov" time "x0**2" ["XD"] [("XD", YStr "Sphere([0], 3)")].
Definition barrier_file : document := file "Barrier" "Continuous" "x0**2 - 5" ["XD"; "XI"; "XU"]
  [("XD", YStr "Sphere([0], 4)"); ("XI", YStr "Sphere([0], 2)"); ("XU", YStr "Rectangle([3], [4])")].
Definition reach_file : document := file "RWS" "Continuous" "x0**2 - 5" ["XD"; "XI"; "XU"]
  [("XD", YStr "Sphere([0], 4)"); ("XI", YStr "Sphere([0], 2)"); ("XS", YStr "Sphere([0], 3)"); ("XG", YStr "Sphere([0], 1)")].
Definition sq : expr := EPow (EVar 0) 2.
Definition sq_minus : expr := EBin BSub sq (ENum 5).
Definition sq_grad : list expr := [EBin BMul (EBin BMul (ENum 2) (EPow (EVar 0) 1)) (ENum 1)].
Definition sq_minus_grad : list expr := [EBin BSub (EBin BMul (EBin BMul (ENum 2) (EPow (EVar 0) 1)) (ENum 1)) (ENum 0)].

Definition four : R := 1 * (digit_value "4" * 1 + 0).
Lemma four_4 : four = 4. Proof. unfold four, digit_value. change (nat_of_ascii "4" - 48)%nat with 4%nat. cbn [INR]. lra. Qed.
Lemma two_loop s : system_field math 1 [minus_two] (feedback_law 1 None hole_ctrl) s 0%nat = -2 * s 0%nat.
Proof. unfold system_field. cbn -[Q2R]. replace (Q2R 2) with 2 by (unfold Q2R; cbn; lra). lra. Qed.
Lemma squared_value s : written_value math 1 squared s = s 0%nat ^ 2.
Proof.
  unfold written_value. cbn -[Q2R pow Int_part]. replace (Q2R 2) with (INR 2) by (unfold Q2R; cbn; lra).
  now rewrite Int_part_INR, Nat2Z.id.
Qed.
Lemma two_of_state t : (t = squared \/ t = squared_minus) -> of_state 1 t /\ everywhere t.
Proof.
  intros [-> | ->]; (split; [intros k d H; cbn in H; destruct H as [H|[]]; injection H as <- <-; split; [reflexivity|]; exists 0%nat; split; [lia|reflexivity]|]); cbn.
  - split; [exact I|]. now exists 2%nat.
  - split; [split; [exact I|]; now exists 2%nat|exact I].
Qed.
Lemma two_solution : solves_forever 1 (system_field math 1 [minus_two] (feedback_law 1 None hole_ctrl)) (fun t _ => exp (- 2 * t)).
Proof. intros t Ht j Hj. replace j with 0%nat by lia. rewrite two_loop. auto_derive; auto; ring. Qed.

Lemma lyapunov_accepted time : upper time = "CONTINUOUS" \/ upper time = "DISCRETE" -> 
  option_map all_parts (session_of math 100 100 ex_rand ex_randc (lyapunov_file time)) =
    Some (lya_net, hole_ctrl, map (fun l => if label_eqb l XD then ball_fml 9 else FFalse) all_labels, Some two_xdot, (LYAPUNOV, 1%nat, false, SDREAL)) ->
  option_bind (read_config (lyapunov_file time)) (fun c => option_bind (get_verifier_type c) library_of) = Some (LibDReal, SDREAL) ->
  exists pb net be v, session_of math 100 100 ex_rand ex_randc (lyapunov_file time) = Some (pb, net, hole_ctrl) /\
    (forall gs, trustworthy be gs) /\
    verify_file math 100 100 ex_rand ex_randc (lyapunov_file time) be (fun _ _ _ => 0) = Some v /\ v_found v = true.
Proof.
  intros _ E El.
  destruct (session_get _ _ _ E) as (pb & net & ctrl & Es & H). unfold all_parts in H. injection H as -> -> HD _ _ _ _ _ _ _ _ _ Hx Ht Hn Hll Hs.
  destruct (parse_text 100 100 "x0**2") as [e|] eqn:Ee; [|vm_compute in Ee; discriminate].
  assert (EC : candidate_expr LibDReal (leftover 1) e (new_vars 1) = Some sq) by (vm_compute in Ee; injection Ee as <-; vm_compute; reflexivity).
  destruct (accept_file (lyapunov_file time) pb lya_net hole_ctrl LibDReal SDREAL e two_xdot sq sq_grad
    (lyapunov_constraints false (new_vars 1) (pb_sets pb) sq (edot sq_grad two_xdot))) as (be & v & H1 & H2 & H3);
    rewrite ?Hn; auto.
  - unfold candidate_constraints, fossil_constraints. now rewrite Ht, Hll, Hn.
  - labels_ok.
  - apply C06_lyapunov_obligations. intros s Hs' Ho. unfold sem. cbn -[Q2R pow]. q2r.
    assert (0 < s 0%nat ^ 2).
    { apply pow2_gt_0. intros K. apply Ho. intros k Hk. cbn in Hk. replace k with 0%nat by lia. exact K. }
    split; [intros _; exact H|]. cbn in *. nra.
  - now exists pb, lya_net, be, v.
Qed.
Lemma lyapunov_continuous : exists pb net be v, session_of math 100 100 ex_rand ex_randc (lyapunov_file "Continuous") = Some (pb, net, hole_ctrl) /\
    (forall gs, trustworthy be gs) /\
    verify_file math 100 100 ex_rand ex_randc (lyapunov_file "Continuous") be (fun _ _ _ => 0) = Some v /\ v_found v = true.
Proof. apply lyapunov_accepted; [now left|vm_compute; reflexivity|vm_compute; reflexivity]. Qed.
Lemma lyapunov_discrete : exists pb net be v, session_of math 100 100 ex_rand ex_randc (lyapunov_file "Discrete") = Some (pb, net, hole_ctrl) /\
    (forall gs, trustworthy be gs) /\
    verify_file math 100 100 ex_rand ex_randc (lyapunov_file "Discrete") be (fun _ _ _ => 0) = Some v /\ v_found v = true.
Proof. apply lyapunov_accepted; [now right|vm_compute; reflexivity|vm_compute; reflexivity]. Qed.

Lemma squared_candidate cert time am sections : candidate (file cert time "x0**2" am sections) squared.
Proof.
  exists "x0**2". split; [cbn; auto 10|]. split; [exact squared_text|]. split; [apply std_sum, std_product, squared_std|cbn; tauto].
Qed.
Lemma squared_minus_candidate cert time am sections : candidate (file cert time "x0**2 - 5" am sections) squared_minus.
Proof.
  exists "x0**2 - 5". split; [cbn; auto 10|]. split; [exact squared_minus_text|].
  split; [apply std_sub; [apply std_sum, std_product, squared_std|apply std_product, std_factor, std_power, std_num]|cbn; tauto].
Qed.
Lemma ball_declared cert time cand am sections l c r : (48 <= nat_of_ascii r <= 57)%nat -> c = "0"%char -> 0 < 1 * (digit_value r * 1 + 0) ->
  In (label_name l, YStr ("Sphere([" ++ String c ("], " ++ String r ")"))%string) sections -> NoDup (map fst sections) ->
  declares (file cert time cand am sections) 1 l (zero_to (1 * (digit_value r * 1 + 0))).
Proof.
  intros Hr -> Hp H1 H2. eapply file_declares; [exact H1|exact H2|apply (ball_text "0" r); [cbn; lia|exact Hr]|]. split; [reflexivity|lra].
Qed.

Example C61_stability_example : exists pb net be v gd rad, let doc := lyapunov_file "Continuous" in
  NoDup (map fst doc) /\ session_of math 100 100 ex_rand ex_randc doc = Some (pb, net, hole_ctrl) /\
  usual math /\ dimension doc 1 /\ equations doc [minus_two] /\ inputs_of doc [minus_two] None /\
  candidate doc squared /\ of_state 1 squared /\ everywhere squared /\
  (forall gs, trustworthy be gs) /\
  verify_file math 100 100 ex_rand ex_randc doc be (fun _ _ _ => 0) = Some v /\ v_found v = true /\
  asks doc LYAPUNOV CONTINUOUS /\ (forall y, gives doc "LLO" y -> y = YBool false) /\
  declares doc 1 XD gd /\ neighbourhood 1 rad (in_region gd) /\
  (forall s, origin 1 s -> written_value math 1 squared s = 0) /\ Forall everywhere [minus_two].
Proof.
  destruct lyapunov_continuous as (pb & net & be & v & E1 & E2 & E3 & E4). exists pb, net, be, v, (zero_to three), 3. cbv zeta.
  destruct (two_of_state squared) as [O1 O2]; [now left|].
  split; [apply file_nodup|]. split; [exact E1|]. split; [apply math_usual|]. split; [cbn; auto|]. split; [apply file_equations|].
  split; [apply file_inputs|]. split; [apply squared_candidate|]. split; [exact O1|]. split; [exact O2|].
  split; [exact E2|]. split; [exact E3|]. split; [exact E4|]. split; [now apply file_asks|]. split; [apply file_llo|].
  split; [|split; [|split]].
  - apply (ball_declared _ _ _ _ _ XD "0" "3"); [cbn; lia|reflexivity|fold three; rewrite three_3; lra|now left|repeat constructor; cbn; tauto].
  - split; [lra|]. intros s Hs. rewrite three_3. apply in_ball; [lra|]. specialize (Hs 0%nat ltac:(lia)). apply Rabs_def2 in Hs. lra.
  - intros s Hs. rewrite squared_value, (Hs 0%nat) by lia. ring.
  - repeat constructor.
Qed.

(** In discrete time the file is accepted in the same way, although the candidate grows fourfold at every step. *)
Theorem C61_discrete_refuted : exists doc pb net ctrl be v gd rad,
  NoDup (map fst doc) /\ session_of math 100 100 ex_rand ex_randc doc = Some (pb, net, ctrl) /\
  usual math /\ dimension doc 1 /\ equations doc [minus_two] /\ inputs_of doc [minus_two] None /\
  candidate doc squared /\ of_state 1 squared /\ everywhere squared /\
  (forall gs, trustworthy be gs) /\
  verify_file math 100 100 ex_rand ex_randc doc be (fun _ _ _ => 0) = Some v /\ v_found v = true /\
  asks doc LYAPUNOV DISCRETE /\ (forall y, gives doc "LLO" y -> y = YBool false) /\
  declares doc 1 XD gd /\ neighbourhood 1 rad (in_region gd) /\
  (forall s, origin 1 s -> written_value math 1 squared s = 0) /\ Forall everywhere [minus_two] /\
  forall x, run 1 (system_field math 1 [minus_two] (feedback_law 1 None ctrl)) x ->
    forall k, written_value math 1 squared (x (Datatypes.S k)) = 4 * written_value math 1 squared (x k).
Proof.
  destruct lyapunov_discrete as (pb & net & be & v & E1 & E2 & E3 & E4). exists (lyapunov_file "Discrete"), pb, net, hole_ctrl, be, v, (zero_to three), 3.
  destruct (two_of_state squared) as [O1 O2]; [now left|].
  split; [apply file_nodup|]. split; [exact E1|]. split; [apply math_usual|]. split; [cbn; auto|]. split; [apply file_equations|].
  split; [apply file_inputs|]. split; [apply squared_candidate|]. split; [exact O1|]. split; [exact O2|].
  split; [exact E2|]. split; [exact E3|]. split; [exact E4|]. split; [now apply file_asks|]. split; [apply file_llo|].
  split; [|split; [|split; [|split]]].
  - apply (ball_declared _ _ _ _ _ XD "0" "3"); [cbn; lia|reflexivity|fold three; rewrite three_3; lra|now left|repeat constructor; cbn; tauto].
  - split; [lra|]. intros s Hs. rewrite three_3. apply in_ball; [lra|]. specialize (Hs 0%nat ltac:(lia)). apply Rabs_def2 in Hs. lra.
  - intros s Hs. rewrite squared_value, (Hs 0%nat) by lia. ring.
  - repeat constructor.
  - intros x Hx k. rewrite !squared_value, (Hx k 0%nat) by lia. rewrite two_loop. ring.
Qed.

Lemma accepted_minus doc pb net gs :
  option_bind (read_config doc) (fun c => option_bind (get_verifier_type c) library_of) = Some (LibDReal, SDREAL) ->
  candidate_text doc = Some "x0**2 - 5" ->
  session_of math 100 100 ex_rand ex_randc doc = Some (pb, net, hole_ctrl) ->
  pb_xdot pb hole_ctrl = Some two_xdot -> pb_n pb = 1%nat -> pb_symb pb = SDREAL ->
  candidate_constraints pb sq_minus (edot sq_minus_grad two_xdot) = Some gs -> distinct_labels gs -> refuted gs ->
  exists be v, (forall gs, trustworthy be gs) /\
    verify_file math 100 100 ex_rand ex_randc doc be (fun _ _ _ => 0) = Some v /\ v_found v = true.
Proof.
  intros El Et Es Ex En Hs Ec Hd Hr.
  destruct (parse_text 100 100 "x0**2 - 5") as [e|] eqn:Ee; [|vm_compute in Ee; discriminate].
  assert (EC : candidate_expr LibDReal (leftover 1) e (new_vars 1) = Some sq_minus) by (vm_compute in Ee; injection Ee as <-; vm_compute; reflexivity).
  eapply (accept_file doc pb net hole_ctrl LibDReal SDREAL e two_xdot sq_minus sq_minus_grad); rewrite ?En; eauto. now rewrite Et.
Qed.
Lemma sq_minus_value s : sem sq_minus s = s 0%nat ^ 2 - 5.
Proof. unfold sem. cbn -[Q2R pow]. q2r. field. Qed.
Lemma sq_minus_slope s : sem (edot sq_minus_grad two_xdot) s = - 4 * s 0%nat ^ 2.
Proof. unfold sem. cbn -[Q2R]. q2r. field. Qed.

Example C61_safety_example : exists pb net be v gi gu gd, let doc := barrier_file in
  NoDup (map fst doc) /\ session_of math 100 100 ex_rand ex_randc doc = Some (pb, net, hole_ctrl) /\
  usual math /\ dimension doc 1 /\ equations doc [minus_two] /\ inputs_of doc [minus_two] None /\
  candidate doc squared_minus /\ of_state 1 squared_minus /\ everywhere squared_minus /\
  (forall gs, trustworthy be gs) /\
  verify_file math 100 100 ex_rand ex_randc doc be (fun _ _ _ => 0) = Some v /\ v_found v = true /\
  asks doc BARRIER CONTINUOUS /\ declares doc 1 XI gi /\ declares doc 1 XU gu /\ declares doc 1 XD gd /\
  exists x, solves_forever 1 (system_field math 1 [minus_two] (feedback_law 1 None hole_ctrl)) x /\
    in_region gi (x 0) /\ (forall t, 0 <= t -> in_region gd (x t)) /\ exists s, in_region gd s /\ in_region gu s.
Proof.
  destruct (session_get (session_of math 100 100 ex_rand ex_randc barrier_file) all_parts
    (bar_net, hole_ctrl, map (fun l => match l with XD => ball_fml 16 | XI => ball_fml 4 | XU => box_fml 3 4 | _ => FFalse end) all_labels, Some two_xdot,
     (BARRIER, 1%nat, false, SDREAL))) as (pb & net & ctrl & E1 & E2); [vm_compute; reflexivity|].
  unfold all_parts in E2. injection E2 as -> -> ED EU EI _ _ _ _ _ _ _ Ex Ty En El Es.
  destruct (accepted_minus barrier_file pb bar_net (barrier_constraints (pb_sets pb) sq_minus (edot sq_minus_grad two_xdot)))
    as (be & v & B1 & B2 & B3); auto.
  - unfold candidate_constraints, fossil_constraints. now rewrite Ty.
  - labels_ok.
  - apply C08_barrier_obligations. unfold barrier_conditions, inside. rewrite ED, EI, EU.
    repeat split; intros s HD H; rewrite ?sq_minus_slope; rewrite ?sq_minus_value in *; rewrite ?ball_holds, ?box_holds in *; q2r_in HD; try q2r_in H; nra.
  - exists pb, bar_net, be, v, (zero_to two), (Box [three] [four]), (zero_to four). cbv zeta.
    destruct (two_of_state squared_minus) as [O1 O2]; [now right|].
    split; [apply file_nodup|]. split; [exact E1|]. split; [apply math_usual|]. split; [cbn; auto|]. split; [apply file_equations|].
    split; [apply file_inputs|]. split; [apply squared_minus_candidate|]. split; [exact O1|]. split; [exact O2|].
    split; [exact B1|]. split; [exact B2|]. split; [exact B3|]. split; [now apply file_asks|].
    assert (Nd : NoDup (map fst [("XD", YStr "Sphere([0], 4)"); ("XI", YStr "Sphere([0], 2)"); ("XU", YStr "Rectangle([3], [4])")])).
    { repeat (constructor; [cbn; intuition discriminate|]). constructor. }
    split; [|split; [|split]].
    + apply (ball_declared _ _ _ _ _ XI "0" "2"); [cbn; lia|reflexivity|fold two; rewrite two_2; lra|cbn; auto|exact Nd].
    + eapply file_declares; [cbn; eauto|exact Nd|apply (box_text "3" "4"); cbn; lia|split; reflexivity].
    + apply (ball_declared _ _ _ _ _ XD "0" "4"); [cbn; lia|reflexivity|fold four; rewrite four_4; lra|cbn; auto|exact Nd].
    + exists (fun t _ => exp (- 2 * t)). split; [exact two_solution|]. rewrite two_2, three_3, four_4.
      split; [apply in_ball; [lra|]; rewrite Rmult_0_r, exp_0; lra|]. split.
      * intros t Ht. apply in_ball; [lra|]. assert (E := exp_pos (- 2 * t)). assert (exp (- 2 * t) <= 1); [|lra].
        rewrite <- exp_0. destruct (Req_dec t 0) as [-> |]; [rewrite Rmult_0_r; lra|]. apply Rlt_le, exp_increasing. lra.
      * exists (fun _ => 3). split; [apply in_ball; lra|]. intros [|k] Hk; cbn in *; [lra|lia].
Qed.

Example C61_reach_example : exists pb net be v gi gs gg gd, let doc := reach_file in
  NoDup (map fst doc) /\ session_of math 100 100 ex_rand ex_randc doc = Some (pb, net, hole_ctrl) /\
  usual math /\ dimension doc 1 /\ equations doc [minus_two] /\ inputs_of doc [minus_two] None /\
  candidate doc squared_minus /\ of_state 1 squared_minus /\ everywhere squared_minus /\
  (forall gs, trustworthy be gs) /\
  verify_file math 100 100 ex_rand ex_randc doc be (fun _ _ _ => 0) = Some v /\ v_found v = true /\
  asks doc RWS CONTINUOUS /\ declares doc 1 XI gi /\ declares doc 1 XS gs /\ declares doc 1 XG gg /\ declares doc 1 XD gd /\
  (forall x, in_region gi x -> in_region gs x) /\ (forall x, in_region gs x -> in_region gd x) /\
  exists x, solves_forever 1 (system_field math 1 [minus_two] (feedback_law 1 None hole_ctrl)) x /\
    in_region gi (x 0) /\ ~ in_region gg (x 0).
Proof.
  destruct (session_get (session_of math 100 100 ex_rand ex_randc reach_file) all_parts
    (bar_net, hole_ctrl, map (fun l => match l with XD => ball_fml 16 | XI => ball_fml 4 | XG => ball_fml 1 | XS => ball_fml 9
       | XS_BORDER => FCmp CEq (EBin BAdd (ENum 0) (EPow (EBin BSub (EVar 0) (ENum 0)) 2)) (ENum 9) | _ => FFalse end) all_labels, Some two_xdot,
     (RWS, 1%nat, false, SDREAL))) as (pb & net & ctrl & E1 & E2); [vm_compute; reflexivity|].
  unfold all_parts in E2. injection E2 as -> -> ED _ EI EG _ _ ES EB _ _ Ex Ty En El Es.
  destruct (accepted_minus reach_file pb bar_net (rws_constraints (pb_sets pb) sq_minus (edot sq_minus_grad two_xdot)))
    as (be & v & B1 & B2 & B3); auto.
  - unfold candidate_constraints, fossil_constraints. now rewrite Ty.
  - labels_ok.
  - apply C10_rws_obligations. unfold rws_conditions, inside. rewrite ED, EI, EG, ES, EB. split; [|split].
    + intros s _ H. rewrite sq_minus_value. rewrite ball_holds in H. q2r_in H. lra.
    + intros s _ H. rewrite sq_minus_value. cbn -[Q2R pow] in H. q2r_in H. replace (0 + (s 0%nat - 0) ^ 2) with (s 0%nat ^ 2) in H by ring. lra.
    + intros s _ H _. rewrite sq_minus_slope. rewrite ball_holds in H. q2r_in H. lra.
  - exists pb, bar_net, be, v, (zero_to two), (zero_to three), (zero_to one), (zero_to four). cbv zeta.
    destruct (two_of_state squared_minus) as [O1 O2]; [now right|].
    split; [apply file_nodup|]. split; [exact E1|]. split; [apply math_usual|]. split; [cbn; auto|]. split; [apply file_equations|].
    split; [apply file_inputs|]. split; [apply squared_minus_candidate|]. split; [exact O1|]. split; [exact O2|].
    split; [exact B1|]. split; [exact B2|]. split; [exact B3|]. split; [now apply file_asks|].
    assert (Nd : NoDup (map fst [("XD", YStr "Sphere([0], 4)"); ("XI", YStr "Sphere([0], 2)"); ("XS", YStr "Sphere([0], 3)"); ("XG", YStr "Sphere([0], 1)")])).
    { repeat (constructor; [cbn; intuition discriminate|]). constructor. }
    split; [|split; [|split; [|split; [|split; [|split]]]]].
    + apply (ball_declared _ _ _ _ _ XI "0" "2"); [cbn; lia|reflexivity|fold two; rewrite two_2; lra|cbn; auto|exact Nd].
    + apply (ball_declared _ _ _ _ _ XS "0" "3"); [cbn; lia|reflexivity|fold three; rewrite three_3; lra|cbn; auto|exact Nd].
    + apply (ball_declared _ _ _ _ _ XG "0" "1"); [cbn; lia|reflexivity|fold one; rewrite one_1; lra|cbn; auto|exact Nd].
    + apply (ball_declared _ _ _ _ _ XD "0" "4"); [cbn; lia|reflexivity|fold four; rewrite four_4; lra|cbn; auto|exact Nd].
    + intros x H. rewrite two_2 in H. rewrite three_3. apply in_ball in H; [|lra]. apply in_ball; lra.
    + intros x H. rewrite three_3 in H. rewrite four_4. apply in_ball in H; [|lra]. apply in_ball; lra.
    + exists (fun t _ => 2 * exp (- 2 * t)). rewrite two_2, one_1. split; [|split].
      * intros t Ht j Hj. replace j with 0%nat by lia. rewrite two_loop. auto_derive; auto; ring.
      * apply in_ball; [lra|]. rewrite Rmult_0_r, exp_0. lra.
      * intros H. apply in_ball in H; [|lra]. rewrite Rmult_0_r, exp_0 in H. lra.
Qed.
