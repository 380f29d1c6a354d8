(** C61: an accepted candidate with a variable which is not a state variable; a file with two candidates. *)
From Coquelicot Require Import Coquelicot.
From Coq Require Import String Ascii Reals QArith Qreals Bool Arith ZArith Decimal Lra Lia List.
From Verif Require Import M_Syntax M_Certificates M_Verifier M_BetaSearch M_Activations M_Domains M_Network M_Learner M_Cegis M_Labels M_Fossil
  M_Control M_Parser M_Lexer M_Variables M_DomainParser M_Cli M_Config M_Verify M_ConfigVerify
  S_Verifier S_Activations S_Network S_Learner S_Cegis S_Fossil S_Dynamics S_Certificates S_Success S_Domains
  S_Parser S_Lexer S_Variables S_DomainParser S_Control S_Cli S_Config S_Verify S_ConfigVerify
  L_Holds L_Verifier L_Table L_Success L_Demo P_Verifier P_Certificates P_Safety P_Stability P_Variables P_Verify P_Cli P_Fossil P_TranslatorBugs L_Config L_Session L_Regions P_Config P_ConfigExamples L_ConfigVerify P_ConfigVerify P_ConfigVerifyExamples.
Import ListNotations.
Local Open Scope string_scope.
Local Open Scope list_scope.
Local Open Scope R_scope.

Definition spread : tree := CBin OAdd squared (CBin OMul squared (CBin OPow (CVar VU (D0 Nil)) (CNum 2))).
Lemma spread_text : written spread "x0**2 + x0**2*u0**2".
Proof.
  unfold written. cbn [spread squared S_Parser.text app list_ascii_of_string].
  assert (T2 : token_text (TNum 2) ["2"%char]).
  { apply tt_integer; [apply (one_digit _); cbn; lia|apply (digit_number "2" 2); [cbn; lia|reflexivity]]. }
  apply (spaced_cons [] _ ["x"%char; "0"%char]); [constructor|apply (tt_state (D0 Nil))|].
  apply (spaced_cons [] _ ["*"%char; "*"%char]); [constructor|constructor|].
  apply (spaced_cons [] _ ["2"%char]); [constructor|exact T2|].
  apply (spaced_cons [" "%char] _ ["+"%char]); [constructor; [now left|constructor]|constructor|].
  apply (spaced_cons [" "%char] _ ["x"%char; "0"%char]); [constructor; [now left|constructor]|apply (tt_state (D0 Nil))|].
  apply (spaced_cons [] _ ["*"%char; "*"%char]); [constructor|constructor|].
  apply (spaced_cons [] _ ["2"%char]); [constructor|exact T2|].
  apply (spaced_cons [] _ ["*"%char]); [constructor|constructor|].
  apply (spaced_cons [] _ ["u"%char; "0"%char]); [constructor|apply (tt_input (D0 Nil))|].
  apply (spaced_cons [] _ ["*"%char; "*"%char]); [constructor|constructor|].
  apply (spaced_cons [] _ ["2"%char] _ []); [constructor|exact T2|apply (spaced_nil []); constructor].
Qed.
Lemma spread_std : std Sum spread.
Proof.
  apply std_add; [apply std_sum, std_product, squared_std|].
  apply std_mul; [apply std_product, squared_std|apply std_factor, std_pow; [apply std_var|apply std_factor, std_power, std_num]].
Qed.
Definition spread_file : document := file "Lyapunov" "Continuous" "x0**2 + x0**2*u0**2" ["XD"] [("XD", YStr "Sphere([0], 3)")].

Example C61_candidate_positive_example : exists pb net be v gd, let doc := spread_file in
  NoDup (map fst doc) /\ session_of math 100 100 ex_rand ex_randc doc = Some (pb, net, hole_ctrl) /\ dimension doc 1 /\
  candidate doc spread /\ (forall gs, trustworthy be gs) /\
  verify_file math 100 100 ex_rand ex_randc doc be (fun _ _ _ => 0) = Some v /\ v_found v = true /\
  asks doc LYAPUNOV CONTINUOUS /\ (forall y, gives doc "LLO" y -> y = YBool false) /\ declares doc 1 XD gd /\
  exists s, in_region gd s /\ ~ origin 1 s.
Proof.
  destruct (session_get (session_of math 100 100 ex_rand ex_randc spread_file) all_parts
    (lya_net, hole_ctrl, map (fun l => if label_eqb l XD then ball_fml 9 else FFalse) all_labels, Some two_xdot, (LYAPUNOV, 1%nat, false, SDREAL)))
    as (pb & net & ctrl & Es & H); [vm_compute; reflexivity|].
  unfold all_parts in H. injection H as -> -> HD _ _ _ _ _ _ _ _ _ Hx Ht Hn Hll Hs.
  destruct (parse_text 100 100 "x0**2 + x0**2*u0**2") as [e|] eqn:Ee; [|vm_compute in Ee; discriminate].
  set (C := EBin BAdd (EPow (EVar 0) 2) (EBin BMul (EPow (EVar 0) 2) (EPow (EVar 2) 2))).
  assert (EC : candidate_expr LibDReal (leftover 1) e (new_vars 1) = Some C).
  { vm_compute in Ee. injection Ee as <-. vm_compute. reflexivity. }
  destruct (gradient (seq 0 1) C) as [ds|] eqn:Eg; [|vm_compute in Eg; discriminate].
  destruct (accept_file spread_file pb lya_net hole_ctrl LibDReal SDREAL e two_xdot C ds
    (lyapunov_constraints false (new_vars 1) (pb_sets pb) C (edot ds two_xdot))) as (be & v & H1 & H2 & H3);
    rewrite ?Hn; auto.
  - unfold candidate_constraints, fossil_constraints. now rewrite Ht, Hll, Hn.
  - labels_ok.
  - apply C06_lyapunov_obligations. intros s Hs' Ho. vm_compute in Eg. injection Eg as <-. unfold C, sem. cbn -[Q2R pow].
    assert (0 < s 0%nat ^ 2).
    { apply pow2_gt_0. intros K. apply Ho. intros k Hk. cbn in Hk. replace k with 0%nat by lia. exact K. }
    assert (0 <= s 2%nat ^ 2) by apply pow2_ge_0. q2r.
    assert (0 <= s 0%nat ^ 2 * s 2%nat ^ 2) by (apply Rmult_le_pos; lra).
    split; [intros _; lra|]. cbn [pow] in *. nra.
  - exists pb, lya_net, be, v, (zero_to three). cbv zeta.
    split; [apply file_nodup|]. split; [exact Es|]. split; [cbn; auto|].
    split. { exists "x0**2 + x0**2*u0**2". split; [cbn; auto 10|]. split; [exact spread_text|]. split; [exact spread_std|cbn; tauto]. }
    split; [exact H1|]. split; [exact H2|]. split; [exact H3|]. split; [now apply file_asks|]. split; [apply file_llo|].
    split; [apply (ball_declared _ _ _ _ _ XD "0" "3"); [cbn; lia|reflexivity|fold three; rewrite three_3; lra|now left|repeat constructor; cbn; tauto]|].
    exists (fun _ => 1). split; [rewrite three_3; apply in_ball; lra|]. intros O. specialize (O 0%nat ltac:(lia)). cbn in O. lra.
Qed.
Example C61_one_candidate_example : exists l,
  let doc := [("CANDIDATE", YList l)] in NoDup (map fst doc) /\ gives doc "CANDIDATE" (YList l) /\ forall line, l <> [YStr line].
Proof.
  exists [YStr "x0**2"; YStr "x1**2"]. split; [repeat constructor; intros []|]. split; [now left|discriminate].
Qed.
