(** C21, C23, C50: networks and samples that meet the hypotheses. *)
From Coq Require Import Reals QArith Qreals List Bool Arith ZArith Lra Lia.
From Verif Require Import M_Syntax M_Certificates M_Verifier M_Activations M_Domains M_Network M_Learner M_Cegis M_Learning S_Activations S_Network S_Learning
  L_Learner L_Network P_Learning P_Translator P_TranslatorBugs.
Import ListNotations.
Local Open Scope R_scope.

(** Two states, two hidden layers with biases, coefficients with more decimals than are kept. *)
Definition deep_net : network :=
  {| in_size := 2;
     hidden := [({| weight := [[12345#100000; -(1#3)]; [2; 1#2000]; [0; 1]]%Q; bias := Some [1#7; 0; -(2#3)]%Q |}, ASquare);
                ({| weight := [[1; 1#8; -(1)]; [1#10000; 3; 1]]%Q; bias := None |}, ATanh)];
     last := {| weight := [[5; -(1#6)]]%Q; bias := Some [1#9]%Q |} |}.
Lemma deep_wf : wf_net deep_net.
Proof.
  exists 2%nat. simpl. unfold wf_layer. simpl. repeat split; auto; repeat constructor; try discriminate.
  all: intros b E; injection E as <-; reflexivity.
Qed.
Definition rotation : list expr := [EBin BMul (ENum (1#2)) (EVar 1); EBin BSub (ENum 0) (EVar 0)].

(** Rounding to three decimals changes it; dReal translates its tanh, Z3 does not. *)
Example C21_example :
  wf_net deep_net /\ SDREAL <> SCVC5 /\ round_net 3 deep_net <> deep_net /\
  (exists p, translate_ct SDREAL (fun e => e) 3 true deep_net (new_vars 2) rotation = Some p) /\
  translate_ct SZ3 (fun e => e) 3 true deep_net (new_vars 2) rotation = None.
Proof.
  split; [exact deep_wf|]. split; [discriminate|]. split; [intros E; vm_compute in E; discriminate|].
  split; [eexists; vm_compute; reflexivity|vm_compute; reflexivity].
Qed.
Example C23_example :
  wf_net deep_net /\ length rotation = in_size deep_net /\
  exists V dV, translate_dt SDREAL 3 false deep_net (new_vars 2) rotation = Some (V, dV) /\
    translate_dt SDREAL 0 false deep_net (new_vars 2) rotation = None.
Proof.
  split; [exact deep_wf|]. split; [reflexivity|].
  destruct (translate_dt SDREAL 3 false deep_net (new_vars 2) rotation) as [[V dV]|] eqn:E; [|vm_compute in E; discriminate].
  exists V, dV. split; [reflexivity|vm_compute; reflexivity].
Qed.

(** A goal with samples on both sides of the level that the border samples give: V = x^2, level 1/4. *)
Definition bowl_net : network :=
  {| in_size := 1; hidden := [({| weight := [[1%Q]]; bias := None |}, ASquare)]; last := {| weight := [[1%Q]]; bias := None |} |}.
Definition goal_samples : dict :=
  [(XD, [[2]; [-3]]); (XI, [[2]]); (XU, [[4]]); (XG_BORDER, [[-1/2]; [1]]); (XG, [[1/4]; [3]])].
Example C50_goal_level_example :
  let f := map Ropp in
  images_of f None goal_samples (map (fun e => (fst e, map f (snd e))) goal_samples) /\
  (exists sd si su sb sg, dlookup XD goal_samples = Some sd /\ dlookup XI goal_samples = Some si /\ dlookup XU goal_samples = Some su /\
    dlookup XG_BORDER goal_samples = Some sb /\ dlookup XG goal_samples = Some sg /\ sb <> [] /\
    rsws_level bowl_net sb = Some (1/4) /\
    (exists x, In x sg /\ learner_value false bowl_net x <= 1/4) /\ (exists x, In x sg /\ 1/4 < learner_value false bowl_net x)).
Proof.
  cbv zeta. split; [right; split; reflexivity|]. exists [[2]; [-3]], [[2]], [[4]], [[-1/2]; [1]], [[1/4]; [3]]. do 5 (split; [reflexivity|]). split; [discriminate|].
  assert (E : forall x, net_forward bowl_net [x] = x * x).
  { intros x. unfold net_forward, affine, bias_or_zeros, map2. cbn -[Q2R]. unfold Rsum. cbn -[Q2R]. unfold Q2R; simpl. field. }
  assert (L : forall x, learner_value false bowl_net [x] = x * x) by (intros x; unfold learner_value, factor; rewrite E; ring).
  split; [|split].
  - unfold rsws_level, compute_minimum. cbn [map fold_left]. rewrite !E. f_equal. rewrite Rmin_left; lra.
  - exists [1/4]. split; [now left|]. rewrite L. lra.
  - exists [3]. split; [now right; left|]. rewrite L. lra.
Qed.
