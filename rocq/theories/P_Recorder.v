(** Property C44: rows of the results table. *)
From Coq Require Import List String Bool Arith QArith Lia.
From Verif Require Import M_Activations M_Cegis M_Recorder.
Import ListNotations.
Local Open Scope string_scope.

(** Specification: the property a certificate is for. *)
Inductive property : cert_type -> string -> Prop :=
| p_stability : property LYAPUNOV "Stability" | p_roa : property ROA "ROA"
| p_safety : property BARRIER "Safety" | p_safety_alt : property BARRIERALT "Safety"
| p_rar : property RAR "RAR" | p_stablesafe : property STABLESAFE "SWA"
| p_rws : property RWS "RWA" | p_rwa : property RWA "RWA" | p_rsws : property RSWS "RSWA" | p_rswa : property RSWA "RSWA".
(** What each column means, by name. *)
Definition means (c : rconfig) (r : rresult) (T : Q) (column : string) (v : value) : Prop :=
  if column =? "Certificate" then exists s, property (rc_certificate c) s /\ v = VStr s
  else if column =? "N_s" then v = VNat (rc_n_vars c)
  else if column =? "N_u" then
    v = match rc_ctrlayer c with Some l => VNat (List.last l 0%nat) | None => VNat 0 end
  else if column =? "Result" then v = VBool (rr_res r)
  else if column =? "Benchmark_file" then exists s, rc_model_name c = Some s /\ v = VStr s
  else if column =? "seed" then v = VNat (rr_seed r)
  else if column =? "latex" then exists s, rc_latex c = Some s /\ v = VStr s
  else if column =? "domains" then exists s, rc_domains c = Some s /\ v = VStr s
  else if column =? "N_Data" then v = VNat (rr_N_data r)
  else if column =? "Neurons" then v = VNats (rc_neurons c)
  else if column =? "Activations" then exists s, get_activations (rc_activation c) = Some s /\ v = VStr s
  else if column =? "Ctrl_Neurons" then
    v = match rc_ctrlayer c with Some l => VNats (removelast l) | None => VNone end
  else if column =? "Ctrl_Activations" then
    v = match rc_ctrlayer c with Some _ => VActs (rc_ctrlactivation c) | None => VNone end
  else if column =? "Alt_Neurons" then
    v = if cert_eqb (rc_certificate c) STABLESAFE || cert_eqb (rc_certificate c) RAR then VNats (rc_neurons_alt c) else VNone
  else if column =? "Alt_Activations" then
    if cert_eqb (rc_certificate c) STABLESAFE || cert_eqb (rc_certificate c) RAR
    then exists s, get_activations (rc_activation_alt c) = Some s /\ v = VStr s else v = VNone
  else if column =? "Factors" then v = VStr (rc_factors c)
  else if column =? "LLO" then v = VBool (rc_llo c)
  else if column =? "Symmetric_Belt" then v = VBool (rc_symmetric_belt c)
  else if column =? "Time_Domain" then v = VStr (rc_time_domain c)
  else if column =? "Verifier" then v = VStr (rc_verifier c)
  else if column =? "Loops" then v = VNat (rr_iters r)
  else if column =? "Total_Time" then v = VNum T
  else if column =? "Learner_Time" then exists q, nth_error (rr_times r) 0 = Some q /\ v = VNum q
  else if column =? "Translator_Time" then exists q, nth_error (rr_times r) 1 = Some q /\ v = VNum q
  else if column =? "Verifier_Time" then exists q, nth_error (rr_times r) 2 = Some q /\ v = VNum q
  else if column =? "Consolidator_Time" then exists q, nth_error (rr_times r) 3 = Some q /\ v = VNum q
  else False.

Lemma Forall2_len {A B} (R : A -> B -> Prop) l m : Forall2 R l m -> List.length l = List.length m.
Proof. induction 1; cbn; auto. Qed.
Lemma last_rev {A} (l : list A) m t d : rev l = m :: t -> List.last l d = m.
Proof.
  intros H. rewrite <- (rev_involutive l), H. cbn [rev]. apply last_last.
Qed.

(** * C44 *)
Theorem C44_row_matches_header :
  forall c r T row, record_row c r T = Some row ->
    Forall2 (means c r T) HEADER row.
Proof.
  intros c r T row H. unfold record_row in H.
  destruct (rc_model_name c) as [mn|] eqn:E1; cbn [option_bind] in H; [|discriminate].
  destruct (match rc_ctrlayer c with
            | Some l => match rev l with [] => None | m :: _ => Some (VNat m, VNats (removelast l), VActs (rc_ctrlactivation c)) end
            | None => Some (VNat 0, VNone, VNone) end) as [[[nu cl] ca]|] eqn:E2; cbn [option_bind] in H; [|discriminate].
  destruct (match rc_certificate c with
            | STABLESAFE | RAR => option_bind (get_activations (rc_activation_alt c)) (fun s => Some (VNats (rc_neurons_alt c), VStr s))
            | _ => Some (VNone, VNone) end) as [[al aa]|] eqn:E3; cbn [option_bind] in H; [|discriminate].
  destruct (rc_latex c) as [la|] eqn:E4; cbn [option_bind] in H; [|discriminate].
  destruct (rc_domains c) as [dm|] eqn:E5; cbn [option_bind] in H; [|discriminate].
  destruct (property_name (rc_certificate c)) as [pn|] eqn:E6; cbn [option_bind] in H; [|discriminate].
  destruct (get_activations (rc_activation c)) as [ac|] eqn:E7; cbn [option_bind] in H; [|discriminate].
  destruct (rr_times r) as [|t0 [|t1 [|t2 [|t3 ts]]]] eqn:E8; try discriminate. injection H as <-.
  assert (N : nu = match rc_ctrlayer c with Some l => VNat (List.last l 0%nat) | None => VNat 0 end /\
              cl = match rc_ctrlayer c with Some l => VNats (removelast l) | None => VNone end /\
              ca = match rc_ctrlayer c with Some _ => VActs (rc_ctrlactivation c) | None => VNone end).
  { destruct (rc_ctrlayer c) as [l|]; [|injection E2 as <- <- <-; auto].
    destruct (rev l) as [|m t] eqn:Er; [discriminate|]. injection E2 as <- <- <-. rewrite (last_rev l m t) by auto. auto. }
  destruct N as (-> & -> & ->).
  assert (M : al = (if cert_eqb (rc_certificate c) STABLESAFE || cert_eqb (rc_certificate c) RAR then VNats (rc_neurons_alt c) else VNone) /\
              if cert_eqb (rc_certificate c) STABLESAFE || cert_eqb (rc_certificate c) RAR
              then exists s, get_activations (rc_activation_alt c) = Some s /\ aa = VStr s else aa = VNone).
  { destruct (rc_certificate c); cbn; try (injection E3 as <- <-; auto);
      (destruct (get_activations (rc_activation_alt c)) as [s|]; cbn in E3; [|discriminate]; injection E3 as <- <-; eauto). }
  destruct M as [-> M].
  assert (Pn : property (rc_certificate c) pn)
    by (destruct (rc_certificate c); cbn in E6; try discriminate; injection E6 as <-; constructor).
  unfold HEADER.
  repeat (apply Forall2_cons; [cbn; rewrite ?E8; eauto; fail|]). 
  apply Forall2_nil.
Qed.

(** Recording fails (the result is lost) exactly when a name or a string is missing; in
    particular for networks with shifted softplus activations and custom certificates. *)
Lemma all_some_none {A} (l : list (option A)) : In None l -> all_some l = None.
Proof.
  induction l as [|[a|] l IH]; intros H; [now elim H| |reflexivity].
  destruct H as [H|H]; [discriminate|]. cbn. now rewrite (IH H).
Qed.
Theorem C44_recording_raises :
  forall c r T f,
    In SHIFTED_SOFTPLUS (rc_activation c) \/ In SHIFTED_SOFTPLUS_SQUARE (rc_activation c) \/ rc_certificate c = CUSTOM ->
    record c r T f = (f, false).
Proof.
  intros c r T f H. unfold record. replace (record_row c r T) with (@None (list value)); [reflexivity|].
  symmetry. unfold record_row.
  destruct (rc_model_name c); [|reflexivity]. cbn [option_bind].
  destruct (match rc_ctrlayer c with
            | Some l => match rev l with [] => None | m :: _ => Some (VNat m, VNats (removelast l), VActs (rc_ctrlactivation c)) end
            | None => Some (VNat 0, VNone, VNone) end) as [[[nu cl] ca]|]; [|reflexivity]. cbn [option_bind].
  destruct (match rc_certificate c with
            | STABLESAFE | RAR => option_bind (get_activations (rc_activation_alt c)) (fun s => Some (VNats (rc_neurons_alt c), VStr s))
            | _ => Some (VNone, VNone) end) as [[al aa]|]; [|reflexivity]. cbn [option_bind].
  destruct (rc_latex c); [|reflexivity]. destruct (rc_domains c); [|reflexivity]. cbn [option_bind].
  destruct H as [H|[H|H]].
  - replace (get_activations (rc_activation c)) with (@None string); [now destruct (property_name _)|].
    symmetry. unfold get_activations. rewrite all_some_none; [reflexivity|].
    change (@None string) with (activation_name SHIFTED_SOFTPLUS). now apply in_map.
  - replace (get_activations (rc_activation c)) with (@None string); [now destruct (property_name _)|].
    symmetry. unfold get_activations. rewrite all_some_none; [reflexivity|].
    change (@None string) with (activation_name SHIFTED_SOFTPLUS_SQUARE). now apply in_map.
  - now rewrite H.
Qed.

(** A result is recorded exactly when the model has a name, the LaTeX and the domain strings
    exist, a controller network is not an empty list of layers, the certificate is not a
    custom one, no network has a shifted softplus (the alternative network counts for the
    certificates that have one) and there are four times. *)
Definition named (l : list act_type) : Prop := ~ In SHIFTED_SOFTPLUS l /\ ~ In SHIFTED_SOFTPLUS_SQUARE l.
Lemma all_some_iff {A} (l : list (option A)) : (exists r, all_some l = Some r) <-> ~ In None l.
Proof.
  split.
  - intros [r E] H. rewrite all_some_none in E by exact H. discriminate.
  - induction l as [|[a|] l IH]; intros H; [now exists [] | |elim H; now left].
    destruct IH as [r E]; [intros F; apply H; now right|]. exists (a :: r). cbn. now rewrite E.
Qed.
Lemma get_activations_iff l : (exists s, get_activations l = Some s) <-> named l.
Proof.
  transitivity (~ In None (map activation_name l)).
  - rewrite <- all_some_iff. unfold get_activations. split; intros [x E].
    + destruct (all_some (map activation_name l)); [eauto|discriminate].
    + rewrite E. cbn. eauto.
  - split.
    + intros H. split; intros F; apply H; [change (@None string) with (activation_name SHIFTED_SOFTPLUS)|change (@None string) with (activation_name SHIFTED_SOFTPLUS_SQUARE)];
        now apply in_map.
    + intros [H1 H2] F. apply in_map_iff in F. destruct F as (a & E & F). destruct a; try discriminate; contradiction.
Qed.
Theorem C44_recorded :
  forall c r T f,
    snd (record c r T f) = true <->
    rc_model_name c <> None /\ rc_latex c <> None /\ rc_domains c <> None /\ rc_ctrlayer c <> Some [] /\
    rc_certificate c <> CUSTOM /\ named (rc_activation c) /\
    (rc_certificate c = STABLESAFE \/ rc_certificate c = RAR -> named (rc_activation_alt c)) /\
    (4 <= List.length (rr_times r))%nat.
Proof.
  intros c r T f. transitivity (exists row, record_row c r T = Some row).
  { unfold record. destruct (record_row c r T); cbn; split; eauto; [discriminate|intros [? ?]; discriminate]. }
  rewrite <- !get_activations_iff. unfold record_row.
  destruct (rc_model_name c) as [mn|]; cbn [option_bind]; [|split; [intros [? ?]; discriminate|tauto]].
  destruct (rc_ctrlayer c) as [l|].
  1: destruct (rev l) as [|m t] eqn:Er; cbn [option_bind];
       [apply (f_equal (@rev nat)) in Er; rewrite rev_involutive in Er; cbn in Er; subst l; split; [intros [? ?]; discriminate|tauto]|];
     assert (Nl : Some l <> Some []) by (intros [= ->]; discriminate).
  all: cbn [option_bind].
  all: destruct (rc_certificate c); cbn [option_bind property_name].
  all: try (destruct (get_activations (rc_activation_alt c)) as [aa|]; cbn [option_bind];
    [|split; [intros [? ?]; discriminate|intros (_ & _ & _ & _ & _ & _ & K & _); destruct K as [? K]; [auto|discriminate K]]]).
  all: destruct (rc_latex c) as [la|]; cbn [option_bind]; [|split; [intros [? ?]; discriminate|tauto]].
  all: destruct (rc_domains c) as [dm|]; cbn [option_bind]; [|split; [intros [? ?]; discriminate|tauto]].
  all: try (split; [intros [? ?]; discriminate|tauto]).
  all: destruct (get_activations (rc_activation c)) as [ac|]; cbn [option_bind];
    [|split; [intros [? ?]; discriminate|intros (_ & _ & _ & _ & _ & [? K] & _); discriminate K]].
  all: destruct (rr_times r) as [|t0 [|t1 [|t2 [|t3 ts]]]]; cbn [List.length];
    try (split; [intros [? ?]; discriminate|intros (_ & _ & _ & _ & _ & _ & _ & K); lia]).
  all: split; [intros _|eauto]; repeat (apply conj; [try discriminate; try assumption; eauto; intros [K|K]; discriminate K|]); lia.
Qed.
(** Two activations have the same name in the table in these cases only. *)
Theorem C44_names :
  forall a b s, activation_name a = Some s -> activation_name b = Some s ->
    a = b \/ let p x y := (a = x /\ b = y) \/ (a = y /\ b = x) in
             p SQUARE POLY_2 \/ p RELU_SQUARE REQU \/ p POLY_4 EVEN_POLY_4 \/ p POLY_6 EVEN_POLY_6 \/ p POLY_8 EVEN_POLY_8.
Proof.
  intros a b s Ha Hb. cbv zeta.
  destruct a; try discriminate; injection Ha as <-; destruct b; try discriminate; tauto.
Qed.

(** The results file after any sequence of recordings, starting without a file: the
    header followed by one row per successful recording, in order. *)
Definition record_all (l : list (rconfig * rresult * Q)) (f : file) : file :=
  fold_left (fun f '(c, r, T) => fst (record c r T f)) l f.
Fixpoint rows_of (l : list (rconfig * rresult * Q)) : list (list value) :=
  match l with
  | [] => []
  | (c, r, T) :: l => match record_row c r T with Some row => row :: rows_of l | None => rows_of l end
  end.
Lemma record_all_existing l : forall old, record_all l (Some old) = Some (old ++ rows_of l)%list.
Proof.
  induction l as [|[[c r] T] l IH]; intros old; cbn [record_all fold_left rows_of]; [now rewrite app_nil_r|].
  unfold record. destruct (record_row c r T) as [row|]; cbn [fst csv_writer write_row];
    unfold record_all in IH; rewrite IH; [now rewrite <- app_assoc|reflexivity].
Qed.
Theorem C44_file :
  forall l,
    record_all l None = match rows_of l with [] => None | rows => Some (map VStr HEADER :: rows) end /\
    (forall old, record_all l (Some old) = Some (old ++ rows_of l)%list) /\
    Forall (fun row => List.length row = List.length HEADER) (rows_of l).
Proof.
  intros l. split; [|split; [apply record_all_existing|]].
  - induction l as [|[[c r] T] l IH]; [reflexivity|]. cbn [record_all fold_left rows_of].
    unfold record. destruct (record_row c r T) as [row|]; cbn [fst csv_writer write_row]; [|exact IH].
    change (record_all l (Some ([map VStr HEADER] ++ [row])%list) = Some (map VStr HEADER :: row :: rows_of l)).
    now rewrite record_all_existing.
  - induction l as [|[[c r] T] l IH]; cbn [rows_of]; [constructor|].
    destruct (record_row c r T) as [row|] eqn:E; [|exact IH].
    constructor; [|exact IH]. symmetry. eapply Forall2_len, C44_row_matches_header; eauto.
Qed.

Definition demo_config : rconfig :=
  {| rc_certificate := RAR; rc_n_vars := 2%nat; rc_neurons := [5; 5]%nat; rc_activation := [SQUARE; TANH];
     rc_ctrlayer := Some [8; 3; 1]%nat; rc_ctrlactivation := [LINEAR; LINEAR];
     rc_neurons_alt := [6]%nat; rc_activation_alt := [SIGMOID]; rc_factors := "NONE"; rc_llo := false;
     rc_symmetric_belt := true; rc_time_domain := "CONTINUOUS"; rc_verifier := "DREAL";
     rc_model_name := Some "Linear1"; rc_latex := Some "l"; rc_domains := Some "d" |}.
Definition demo_rresult : rresult :=
  {| rr_res := true; rr_iters := 3%nat; rr_N_data := 1500%nat; rr_times := [1; 2; 3; 4]%Q; rr_seed := 167%nat |}.
Example C44_example :
  exists row, record_row demo_config demo_rresult 12 = Some row /\
    nth_error row 2 = Some (VNat 1) /\ nth_error row 11 = Some (VNats [8; 3]%nat) /\ nth_error row 24 = Some (VNum 3).
Proof. eexists. split; [reflexivity|]. repeat split. Qed.

Example C44_recorded_example :
  snd (record demo_config demo_rresult 12 None) = true /\
  snd (record {| rc_certificate := LYAPUNOV; rc_n_vars := 2%nat; rc_neurons := [5; 5]%nat; rc_activation := [SQUARE; SHIFTED_SOFTPLUS];
     rc_ctrlayer := None; rc_ctrlactivation := [];
     rc_neurons_alt := []; rc_activation_alt := []; rc_factors := "NONE"; rc_llo := false;
     rc_symmetric_belt := true; rc_time_domain := "CONTINUOUS"; rc_verifier := "DREAL";
     rc_model_name := Some "Linear1"; rc_latex := Some "l"; rc_domains := Some "d" |} demo_rresult 12 None) = false.
Proof. split; reflexivity. Qed.
