(** Properties C40, C41, C50, C51: batches, accuracies, levels and losses in training. *)
From Coq Require Import Reals List Bool Arith Lra Lia FinFun.
From Verif Require Import M_Syntax M_Certificates M_Verifier M_Activations M_Domains M_Cegis M_Learning S_Learning.
Import ListNotations.
Local Open Scope R_scope.

(** ** Lists *)
Lemma firstn_app_l {A} (l m : list A) : firstn (length l) (l ++ m) = l.
Proof. rewrite firstn_app, firstn_all, Nat.sub_diag. now rewrite firstn_O, app_nil_r. Qed.
Lemma firstn_front {A} n (l m : list A) : n = length l -> firstn n (l ++ m) = l.
Proof. intros ->. apply firstn_app_l. Qed.
Lemma skipn_app_l {A} (l m : list A) : skipn (length l) (l ++ m) = m.
Proof. rewrite skipn_app, skipn_all, Nat.sub_diag. reflexivity. Qed.
Lemma slice_mid {A} i j (l m r : list A) : i = length l -> j = (length l + length m)%nat ->
  slice i j (l ++ m ++ r) = m.
Proof.
  intros -> ->. unfold slice. rewrite skipn_app_l. replace (length l + length m - length l)%nat with (length m) by lia.
  apply firstn_app_l.
Qed.
Lemma slice_end {A} i j (l m : list A) : i = length l -> j = (length l + length m)%nat -> slice i j (l ++ m) = m.
Proof. intros Hi Hj. rewrite <- (app_nil_r m) at 1. now apply slice_mid. Qed.
Lemma map2_map {A B C} (g : A -> B -> C) (f : A -> B) l : map2 g l (map f l) = map (fun x => g x (f x)) l.
Proof. induction l as [|x l IH]; [reflexivity|]. unfold map2 in *. simpl. now f_equal. Qed.
Lemma map2_map_l {A A' B C} (g : A' -> B -> C) (h : A -> A') (f : A -> B) l :
  map2 g (map h l) (map f l) = map (fun x => g (h x) (f x)) l.
Proof. induction l as [|x l IH]; [reflexivity|]. unfold map2 in *. simpl. now f_equal. Qed.

Lemma dlookup_map (f : point -> point) l (S : dict) :
  dlookup l (map (fun e => (fst e, map f (snd e))) S) = option_map (map f) (dlookup l S).
Proof.
  unfold dlookup. induction S as [|[a rows] S IH]; [reflexivity|]. simpl.
  destruct (label_eqb a l); [reflexivity|]. exact IH.
Qed.
Lemma cat_map (f : point -> point) order (S : dict) :
  cat order (map (fun e => (fst e, map f (snd e))) S) = option_map (map f) (cat order S).
Proof.
  induction order as [|l order IH]; [reflexivity|]. cbn [cat]. rewrite dlookup_map, IH.
  destruct (dlookup l S) as [rows|]; [|reflexivity]. cbn [option_map option_bind].
  destruct (cat order S) as [rest|]; [|reflexivity]. cbn [option_map option_bind]. now rewrite map_app.
Qed.
Lemma images_cat f f_torch S Sdot order s : images_of f f_torch S Sdot -> cat order S = Some s ->
  images f_torch s (cat order Sdot) = Some (map f s).
Proof.
  intros [[-> _]|[-> ->]] H; [reflexivity|]. unfold images. now rewrite cat_map, H.
Qed.
Lemma images_len f f_torch S Sdot : images_of f f_torch S Sdot -> (length S =? length Sdot)%nat = true.
Proof. intros [[_ H]|[_ ->]]; rewrite Nat.eqb_eq; auto. now rewrite map_length. Qed.
Lemma images_xd f f_torch S Sdot l s : images_of f f_torch S Sdot -> dlookup l S = Some s ->
  images f_torch s (dlookup l Sdot) = Some (map f s).
Proof. intros [[-> _]|[-> ->]] H; [reflexivity|]. unfold images. now rewrite dlookup_map, H. Qed.
Lemma cat_one l order S s r : dlookup l S = Some s -> cat order S = Some r -> cat (l :: order) S = Some (s ++ r).
Proof. intros H H'. cbn [cat]. now rewrite H, H'. Qed.
Lemma get_all_map value lie f s : get_all value lie s (map f s) = Some (map value s, map (fun x => lie x (f x)) s).
Proof. unfold get_all. now rewrite map_length, Nat.eqb_refl, map2_map. Qed.
Lemma cat_values_map f (S : dict) :
  cat_values (map (fun e => (fst e, map f (snd e))) S) = map f (cat_values S).
Proof. unfold cat_values. rewrite concat_map, !map_map. reflexivity. Qed.
Lemma images_values f f_torch S Sdot s : images_of f f_torch S Sdot -> s = cat_values S ->
  images f_torch s (Some (cat_values Sdot)) = Some (map f s).
Proof. intros [[-> _]|[-> ->]] ->; [reflexivity|]. unfold images. now rewrite cat_values_map. Qed.
Lemma slice_map {A B} (f : A -> B) i j l : slice i j (map f l) = map f (slice i j l).
Proof. unfold slice. now rewrite skipn_map, firstn_map. Qed.
Lemma skipn_app2 {A} n (l m r : list A) : n = (length l + length m)%nat -> skipn n (l ++ m ++ r) = r.
Proof. intros ->. rewrite app_assoc, <- app_length. apply skipn_app_l. Qed.

(** * C40 *)
(** Whatever the order of the data dictionary and the sizes of the sets, each loss
    argument is the network on exactly the samples of its own set. *)
Theorem C40_lyapunov_roa :
  forall value lie f f_torch (S Sdot : dict) sd,
    images_of f f_torch S Sdot -> dlookup XD S = Some sd ->
    lyapunov_batch value lie f_torch S Sdot = Some (map value sd, map (fun x => lie x (f x)) sd).
Proof.
  intros value lie f ft S Sdot sd Hf H. unfold lyapunov_batch. rewrite H. cbn [option_bind].
  rewrite (images_xd f ft S Sdot XD sd) by auto. cbn [option_bind]. apply get_all_map.
Qed.

Theorem C40_barrier :
  forall value lie f f_torch (S Sdot : dict) sd si su,
    images_of f f_torch S Sdot ->
    dlookup XD S = Some sd -> dlookup XI S = Some si -> dlookup XU S = Some su ->
    barrier_batch value lie f_torch S Sdot =
    Some (map value si, map value su, map value sd, map (fun x => lie x (f x)) sd).
Proof.
  intros value lie f ft S Sdot sd si su Hf Hd Hi Hu. unfold barrier_batch, guard, rows_of.
  rewrite (images_len f ft), Hd, Hi by auto. cbn [option_map option_bind].
  rewrite (cat_one XD [XI; XU] S sd (si ++ su ++ [])); [|auto|].
  2:{ apply cat_one; auto. apply cat_one; auto. }
  cbn [option_bind]. rewrite (images_cat f ft S Sdot [XD; XI; XU] (sd ++ si ++ su ++ [])); auto.
  2:{ apply cat_one; auto. apply cat_one; auto. apply cat_one; auto. }
  cbn [option_bind]. rewrite get_all_map. cbn [option_bind]. rewrite app_nil_r, !map_app.
  rewrite slice_mid by (now rewrite !map_length). rewrite skipn_app2 by (now rewrite !map_length).
  rewrite (firstn_front _ (map value sd)) by (now rewrite map_length).
  rewrite (firstn_front _ (map (fun x => lie x (f x)) sd)) by (now rewrite map_length). reflexivity.
Qed.

Theorem C40_rws :
  forall value grad f f_torch (S Sdot : dict) sd si su,
    images_of f f_torch S Sdot ->
    dlookup XD S = Some sd -> dlookup XI S = Some si -> dlookup XU S = Some su ->
    rws_batch value grad f_torch S Sdot =
    Some (map value si, map value su, map value sd, map grad sd, map f sd).
Proof.
  intros value grad f ft S Sdot sd si su Hf Hd Hi Hu. unfold rws_batch, guard, rows_of.
  rewrite (images_len f ft), Hd, Hi by auto. cbn [option_map option_bind].
  assert (E : cat [XD; XI; XU] S = Some (sd ++ si ++ su ++ [])).
  { apply cat_one; auto. apply cat_one; auto. apply cat_one; auto. }
  rewrite E. cbn [option_bind]. rewrite (images_cat f ft S Sdot [XD; XI; XU] (sd ++ si ++ su ++ [])); auto.
  cbn [option_bind]. rewrite app_nil_r, !map_app.
  rewrite slice_mid by (now rewrite !map_length). rewrite skipn_app2 by (now rewrite !map_length).
  rewrite (firstn_front _ (map value sd)) by (now rewrite map_length).
  rewrite (firstn_front _ (map grad sd)) by (now rewrite map_length).
  rewrite (firstn_front _ (map f sd)) by (now rewrite map_length). reflexivity.
Qed.

Lemma Rsum_dot g d : Rsum (map2 Rmult g d) = dot g d.
Proof.
  revert d. induction g as [|a g IH]; intros [|b d]; try reflexivity. unfold map2, Rsum in *. simpl. now rewrite IH.
Qed.
Theorem C40_rsws :
  forall value grad f f_torch (S Sdot : dict) sd si su sb sg,
    images_of f f_torch S Sdot ->
    dlookup XD S = Some sd -> dlookup XI S = Some si -> dlookup XU S = Some su ->
    dlookup XG_BORDER S = Some sb -> dlookup XG S = Some sg ->
    rsws_batch value grad f_torch S Sdot =
    Some ((map value si, map value su, map value sd, map grad sd, map f sd),
          (sb, map value sg, map (fun x => dot (grad x) (f x)) sg)).
Proof.
  intros value grad f ft S Sdot sd si su sb sg Hf Hd Hi Hu Hb Hg. unfold rsws_batch, guard, rows_of.
  rewrite (images_len f ft), Hd, Hi, Hu, Hb, Hg by auto. cbn [option_map option_bind].
  assert (E : cat [XD; XI; XU; XG_BORDER; XG] S = Some (sd ++ si ++ su ++ sb ++ sg ++ [])).
  { repeat (apply cat_one; [assumption|]). reflexivity. }
  rewrite E. cbn [option_bind]. rewrite (images_cat f ft S Sdot _ _ Hf E). cbn [option_bind].
  rewrite map_length, Nat.eqb_refl. rewrite app_nil_r.
  rewrite map2_map_l. rewrite !map_app.
  set (dd := fun x : point => Rsum (map2 Rmult (grad x) (f x))).
  assert (Ed : forall l, map dd l = map (fun x => dot (grad x) (f x)) l).
  { intros l. apply map_ext. intros x. apply Rsum_dot. }
  rewrite slice_mid by (now rewrite !map_length).
  rewrite (app_assoc (map value sd)) at 1.
  rewrite (slice_mid _ _ (map value sd ++ map value si) (map value su)) by (rewrite ?app_length, !map_length; lia).
  rewrite (firstn_front _ (map value sd)) by (now rewrite map_length).
  rewrite (firstn_front _ (map grad sd)) by (now rewrite map_length).
  rewrite (firstn_front _ (map f sd)) by (now rewrite map_length).
  replace (sd ++ si ++ su ++ sb ++ sg) with ((sd ++ si ++ su) ++ sb ++ sg) by (now rewrite <- !app_assoc).
  rewrite (slice_mid _ _ (sd ++ si ++ su) sb sg) by (rewrite ?app_length; lia).
  replace (map value sd ++ map value si ++ map value su ++ map value sb ++ map value sg)
    with ((map value sd ++ map value si ++ map value su ++ map value sb) ++ map value sg) by (now rewrite <- !app_assoc).
  rewrite (slice_end _ _ (map value sd ++ map value si ++ map value su ++ map value sb))
    by (rewrite ?app_length, !map_length; lia).
  replace (map dd sd ++ map dd si ++ map dd su ++ map dd sb ++ map dd sg)
    with ((map dd sd ++ map dd si ++ map dd su ++ map dd sb) ++ map dd sg) by (now rewrite <- !app_assoc).
  rewrite (slice_end _ _ (map dd sd ++ map dd si ++ map dd su ++ map dd sb))
    by (rewrite ?app_length, !map_length; lia).
  now rewrite Ed.
Qed.

(** STABLESAFE: right when the dictionary has the order (XD, XI, XU) or (XD, XR, XI, XU) ... *)
Theorem C40_stablesafe_in_order :
  forall v1 v2 l1 l2 f f_torch Sdot sd sr si su,
    (let S := [(XD, sd); (XI, si); (XU, su)] in
     images_of f f_torch S Sdot ->
     safe_roa_batch v1 v2 l1 l2 f_torch S Sdot =
     Some ((map v1 sd, map (fun x => l1 x (f x)) sd),
           (map v2 si, map v2 su, map v2 sd, map (fun x => l2 x (f x)) sd))) /\
    (let S := [(XD, sd); (XR, sr); (XI, si); (XU, su)] in
     images_of f f_torch S Sdot ->
     safe_roa_batch v1 v2 l1 l2 f_torch S Sdot =
     Some ((map v1 sr, map (fun x => l1 x (f x)) sr),
           (map v2 si, map v2 su, map v2 sd, map (fun x => l2 x (f x)) sd))).
Proof.
  intros v1 v2 l1 l2 f ft Sdot sd sr si su. split; cbn zeta; intros Hf;
    unfold safe_roa_batch, guard; rewrite (images_len f ft) by auto;
    unfold rows_of, dlookup; cbn [find fst snd label_eqb option_map option_bind].
  - set (S := [(XD, sd); (XI, si); (XU, su)]) in *.
    assert (E : cat_values S = sd ++ si ++ su) by (unfold S, cat_values; simpl; now rewrite app_nil_r).
    rewrite E. rewrite (images_values f ft S Sdot) by auto. cbn [option_bind].
    rewrite slice_map. rewrite get_all_map. cbn [option_bind]. rewrite get_all_map. cbn [option_bind].
    unfold slice at 1 2 5 6. rewrite !Nat.sub_0_r. cbn [skipn]. rewrite firstn_app_l. rewrite !map_app.
    rewrite slice_mid by (now rewrite !map_length).
    rewrite (app_assoc (map v2 sd)) at 1.
    rewrite (slice_end _ _ (map v2 sd ++ map v2 si)) by (rewrite ?app_length, !map_length; lia).
    rewrite (firstn_front _ (map v2 sd)) by (now rewrite map_length).
    rewrite (firstn_front _ (map (fun x => l2 x (f x)) sd)) by (now rewrite map_length). reflexivity.
  - set (S := [(XD, sd); (XR, sr); (XI, si); (XU, su)]) in *.
    assert (E : cat_values S = sd ++ sr ++ si ++ su) by (unfold S, cat_values; simpl; now rewrite app_nil_r).
    rewrite E. rewrite (images_values f ft S Sdot) by auto. cbn [option_bind].
    rewrite slice_map. rewrite get_all_map. cbn [option_bind]. rewrite get_all_map. cbn [option_bind].
    rewrite (slice_mid _ _ sd sr) by lia.
    unfold slice at 3 4. rewrite !Nat.sub_0_r. cbn [skipn]. rewrite !map_app.
    rewrite (app_assoc (map v2 sd)) at 1.
    rewrite (slice_mid _ _ (map v2 sd ++ map v2 sr)) by (rewrite ?app_length, !map_length; lia).
    replace (map v2 sd ++ map v2 sr ++ map v2 si ++ map v2 su) with
      ((map v2 sd ++ map v2 sr ++ map v2 si) ++ map v2 su) at 1 by (now rewrite <- !app_assoc).
    rewrite (slice_end _ _ (map v2 sd ++ map v2 sr ++ map v2 si)) by (rewrite ?app_length, !map_length; lia).
    rewrite (firstn_front _ (map v2 sd)) by (now rewrite map_length).
    rewrite (firstn_front _ (map (fun x => l2 x (f x)) sd)) by (now rewrite map_length). reflexivity.
Qed.

(** ... but with the initial set listed before the domain (and as many samples of each)
    the losses see the two sets exchanged. *)
Theorem C40_stablesafe_mislabelled :
  forall v1 v2 l1 l2 f f_torch Sdot sd si su,
    let S := [(XI, si); (XD, sd); (XU, su)] in
    images_of f f_torch S Sdot -> length si = length sd ->
    safe_roa_batch v1 v2 l1 l2 f_torch S Sdot =
    Some ((map v1 si, map (fun x => l1 x (f x)) si),
          (map v2 sd, map v2 su, map v2 si, map (fun x => l2 x (f x)) si)).
Proof.
  intros v1 v2 l1 l2 f ft Sdot sd si su S Hf Hl.
  unfold safe_roa_batch, guard; rewrite (images_len f ft) by auto.
  unfold rows_of, dlookup, S; cbn [find fst snd label_eqb option_map option_bind]. fold S.
  assert (E : cat_values S = si ++ sd ++ su) by (unfold S, cat_values; simpl; now rewrite app_nil_r).
  rewrite E. rewrite (images_values f ft S Sdot) by auto. cbn [option_bind].
  rewrite slice_map. rewrite get_all_map. cbn [option_bind]. rewrite get_all_map. cbn [option_bind].
  rewrite <- Hl. unfold slice at 1 2 5 6. rewrite !Nat.sub_0_r. cbn [skipn]. rewrite firstn_app_l. rewrite !map_app.
  rewrite slice_mid by (rewrite !map_length; lia).
  rewrite (app_assoc (map v2 si)) at 1.
  rewrite (slice_end _ _ (map v2 si ++ map v2 sd)) by (rewrite ?app_length, !map_length; lia).
  rewrite (firstn_front _ (map v2 si)) by (now rewrite map_length).
  rewrite (firstn_front _ (map (fun x => l2 x (f x)) si)) by (now rewrite map_length). reflexivity.
Qed.

(** ReachAvoidRemain: right whenever a controller is trained, and otherwise when the
    dictionary lists the sets in fossil's order. *)
Lemma rar_slices (v1 v2 : point -> R) (l2 : point -> point -> R) (g1 : point -> point) (f : point -> point)
  (sd si su sg sf snf sdd : list point) :
  length sdd = length sd ->
  forall s, s = sd ++ si ++ su ++ sg ++ sf ++ snf ->
  forall rest, length rest = length (si ++ su ++ sg ++ sf ++ snf) ->
  let n1 := (length sd + length si)%nat in let n2 := (n1 + length su)%nat in let n3 := (n2 + length sg)%nat in
  let n4 := (n3 + length sf)%nat in let n5 := (n4 + length snf)%nat in
  slice (length sd) n1 (map v1 s) = map v1 si /\ slice n1 n2 (map v1 s) = map v1 su /\
  slice 0 (length sd) (map v1 s) = map v1 sd /\ slice 0 (length sd) (map g1 s) = map g1 sd /\
  slice 0 (length sd) (sdd ++ rest) = sdd /\
  slice n2 n3 (map v2 s) = map v2 sg /\ slice n4 n5 (map v2 s) = map v2 snf /\
  slice n2 n5 (map v2 s) = map v2 (sg ++ sf ++ snf).
Proof.
  intros Hl s -> rest Hr n1 n2 n3 n4 n5. subst n1 n2 n3 n4 n5. repeat split.
  - rewrite slice_map. now rewrite slice_mid by lia.
  - rewrite slice_map. f_equal. rewrite app_assoc. apply slice_mid; rewrite ?app_length; lia.
  - rewrite slice_map. f_equal. unfold slice. rewrite Nat.sub_0_r. now apply firstn_front.
  - rewrite slice_map. f_equal. unfold slice. rewrite Nat.sub_0_r. now apply firstn_front.
  - unfold slice. rewrite Nat.sub_0_r. now apply firstn_front.
  - rewrite slice_map. f_equal. replace (sd ++ si ++ su ++ sg ++ sf ++ snf) with ((sd ++ si ++ su) ++ sg ++ sf ++ snf)
      by (now rewrite <- !app_assoc). apply slice_mid; rewrite ?app_length; lia.
  - rewrite slice_map. f_equal. replace (sd ++ si ++ su ++ sg ++ sf ++ snf) with ((sd ++ si ++ su ++ sg ++ sf) ++ snf)
      by (now rewrite <- !app_assoc). apply slice_end; rewrite ?app_length; lia.
  - rewrite slice_map. f_equal. replace (sd ++ si ++ su ++ sg ++ sf ++ snf) with ((sd ++ si ++ su) ++ sg ++ sf ++ snf)
      by (now rewrite <- !app_assoc). apply slice_end; rewrite ?app_length; lia.
Qed.

Theorem C40_rar :
  forall v1 v2 l2 g1 f f_torch (S Sdot : dict) sd si su sg sf snf,
    images_of f f_torch S Sdot ->
    (f_torch = None -> S = [(XD, sd); (XI, si); (XU, su); (XG, sg); (XF, sf); (XNF, snf)]) ->
    dlookup XD S = Some sd -> dlookup XI S = Some si -> dlookup XU S = Some su ->
    dlookup XG S = Some sg -> dlookup XF S = Some sf -> dlookup XNF S = Some snf ->
    rar_batch v1 v2 l2 g1 f_torch S Sdot =
    Some ((map v1 si, map v1 su, map v1 sd, map g1 sd, map f sd),
          (map v2 sg, map v2 snf, map v2 (sg ++ sf ++ snf), map (fun x => l2 x (f x)) (sg ++ sf ++ snf))).
Proof.
  intros v1 v2 l2 g1 f ft S Sdot sd si su sg sf snf Hf Ho Hd Hi Hu Hg Hff Hn.
  unfold rar_batch, guard, rows_of. rewrite (images_len f ft) by auto.
  rewrite Hd, Hi, Hu, Hg, Hff, Hn. cbn [option_map option_bind].
  assert (E : cat [XD; XI; XU; XG; XF; XNF] S = Some (sd ++ si ++ su ++ sg ++ sf ++ snf ++ [])).
  { repeat (apply cat_one; [assumption|]). reflexivity. }
  rewrite E, app_nil_r. cbn [option_bind]. set (s := sd ++ si ++ su ++ sg ++ sf ++ snf).
  assert (I : images ft s (Some (cat_values Sdot)) = Some (map f s)).
  { destruct Hf as [[-> _]|[-> ->]]; [reflexivity|]. rewrite (Ho eq_refl). unfold images. rewrite cat_values_map.
    do 2 f_equal. unfold s, cat_values. simpl. now rewrite app_nil_r. }
  rewrite I. cbn [option_bind]. rewrite get_all_map. cbn [option_bind].
  destruct (rar_slices v1 v2 l2 g1 f sd si su sg sf snf (map f sd) (map_length _ _) s eq_refl
              (map f (si ++ su ++ sg ++ sf ++ snf)) (map_length _ _)) as (A & B & C & D & F & G & H & K).
  destruct (rar_slices v1 (fun x => l2 x (f x)) l2 g1 f sd si su sg sf snf (map f sd) (map_length _ _) s eq_refl
              (map f (si ++ su ++ sg ++ sf ++ snf)) (map_length _ _)) as (_ & _ & _ & _ & _ & _ & _ & K').
  rewrite A, B, C, D, G, H, K, K'. unfold s at 1. rewrite (map_app f sd), F. reflexivity.
Qed.

(** Without a controller and with the initial set listed first (and as many samples of
    both) the gradient at a domain sample is multiplied with the dynamics at an initial
    sample. *)
Theorem C40_rar_wrong_images :
  forall v1 v2 l2 g1 f sd si su sg sf snf,
    let S := [(XI, si); (XD, sd); (XU, su); (XG, sg); (XF, sf); (XNF, snf)] in
    let Sdot := map (fun e => (fst e, map f (snd e))) S in
    length si = length sd ->
    exists bar,
      rar_batch v1 v2 l2 g1 None S Sdot =
      Some ((map v1 si, map v1 su, map v1 sd, map g1 sd, map f si), bar).
Proof.
  intros v1 v2 l2 g1 f sd si su sg sf snf S Sdot Hl.
  unfold rar_batch, guard, rows_of. rewrite (images_len f None) by (right; now split).
  unfold dlookup, S. cbn [find fst snd label_eqb option_map option_bind]. fold S.
  assert (E : cat [XD; XI; XU; XG; XF; XNF] S = Some (sd ++ si ++ su ++ sg ++ sf ++ snf ++ [])).
  { repeat (apply cat_one; [reflexivity|]). reflexivity. }
  rewrite E, app_nil_r. cbn [option_bind]. set (s := sd ++ si ++ su ++ sg ++ sf ++ snf).
  assert (I : cat_values Sdot = map f si ++ map f (sd ++ su ++ sg ++ sf ++ snf)).
  { unfold Sdot. rewrite cat_values_map. rewrite <- map_app. f_equal. unfold S, cat_values. simpl. now rewrite app_nil_r. }
  unfold images. cbn [option_bind]. unfold get_all at 1. rewrite I.
  assert (L : length s = length (map f si ++ map f (sd ++ su ++ sg ++ sf ++ snf))).
  { unfold s. rewrite !app_length, !map_length, !app_length. lia. }
  rewrite L, Nat.eqb_refl. cbn [option_bind].
  assert (L1 : length (map f si) = length sd) by (rewrite map_length; lia).
  assert (L2 : length (map f (sd ++ su ++ sg ++ sf ++ snf)) = length (si ++ su ++ sg ++ sf ++ snf))
    by (rewrite map_length, !app_length; lia).
  destruct (rar_slices v1 v2 l2 g1 f sd si su sg sf snf (map f si) L1 s eq_refl
              (map f (sd ++ su ++ sg ++ sf ++ snf)) L2) as (A & B & C & D & F & G & H & K).
  rewrite A, B, C, D, F. eexists. reflexivity.
Qed.

(** The hypotheses are met by any dictionary of data, in any order, here (XU, XI, XD). *)
Example C40_example :
  let S := [(XU, [[3]; [4]]); (XI, [[1]]); (XD, [[0]; [5]; [6]])] in
  let f := map (fun v => - v) in
  barrier_batch (fun x => nth 0 x 0) (fun x d => nth 0 x 0 * nth 0 d 0) None S
    (map (fun e => (fst e, map f (snd e))) S) =
  Some ([1], [3; 4], [0; 5; 6], [0 * - 0; 5 * - 5; 6 * - 6]).
Proof.
  cbn zeta. rewrite (C40_barrier _ _ (map (fun v => - v)) None _ _ [[0]; [5]; [6]] [[1]] [[3]; [4]]); try reflexivity.
  right. split; reflexivity.
Qed.

(** * C41 *)
Lemma Rleb_iff a b : Rleb a b = true <-> a <= b.
Proof. unfold Rleb. destruct (Rle_dec a b); split; auto; discriminate. Qed.
Lemma Rltb_iff a b : Rltb a b = true <-> a < b.
Proof. unfold Rltb. destruct (Rlt_dec a b); split; auto; discriminate. Qed.
Lemma count_le {A} (p : A -> bool) l : (count p l <= length l)%nat.
Proof. unfold count. induction l as [|x l IH]; simpl; [lia|]. destruct (p x); simpl; lia. Qed.
Lemma count_all {A} (p : A -> bool) l : count p l = length l <-> Forall (fun x => p x = true) l.
Proof.
  induction l as [|x l IH]; [split; auto|]. assert (H := count_le p l). unfold count in *. simpl. rewrite Forall_cons_iff.
  destruct (p x) eqn:E; simpl; split.
  - intros H1. split; auto. apply IH. lia.
  - intros [_ H1]. apply IH in H1. lia.
  - intros H1. lia.
  - intros [H1 _]. discriminate.
Qed.
Lemma count_compl {A} (p : A -> bool) l : (count p l + count (fun x => negb (p x)) l)%nat = length l.
Proof. unfold count. induction l as [|x l IH]; simpl; [lia|]. destruct (p x); simpl; lia. Qed.

(** Lyapunov and ROA: accuracy 100 iff every sample has a non-positive derivative and,
    without LLO, a non-negative value. *)
Theorem C41_lyapunov_roa :
  forall act llo V Vdot, length V = length Vdot -> Vdot <> [] ->
    exists loss acc,
      lyapunov_loss act llo V Vdot = Some (loss, acc) /\ 0 <= acc <= 100 /\
      (acc = 100 <-> Forall (fun v => v <= 0) Vdot /\ (llo = false -> Forall (fun v => 0 <= v) V)).
Proof.
  intros act llo V Vdot Hl Hne. unfold lyapunov_loss.
  destruct (length Vdot =? 0)%nat eqn:En.
  { apply Nat.eqb_eq in En. destruct Vdot; [contradiction|discriminate]. }
  apply Nat.eqb_neq in En. assert (Hn : 0 < INR (length Vdot)) by (apply lt_0_INR; lia).
  assert (A := count_le (fun v => Rleb v 0) Vdot). assert (B := count_le (fun v => Rleb 0 v) V).
  assert (A' := count_all (fun v => Rleb v 0) Vdot). assert (B' := count_all (fun v => Rleb 0 v) V).
  set (k := count (fun v => Rleb v 0) Vdot) in *. set (k' := count (fun v => Rleb 0 v) V) in *.
  assert (FA : Forall (fun v => Rleb v 0 = true) Vdot <-> Forall (fun v => v <= 0) Vdot).
  { rewrite !Forall_forall. split; intros H x Hx; now apply Rleb_iff, H. }
  assert (FB : Forall (fun v => Rleb 0 v = true) V <-> Forall (fun v => 0 <= v) V).
  { rewrite !Forall_forall. split; intros H x Hx; now apply Rleb_iff, H. }
  rewrite FA in A'. rewrite FB in B'. rewrite Hl in B, B'. clearbody k k'.
  assert (A1 : INR k <= INR (length Vdot)) by now apply le_INR.
  assert (B1 : INR k' <= INR (length Vdot)) by now apply le_INR.
  assert (A0 := pos_INR k). assert (B0 := pos_INR k').
  destruct llo.
  - exists (mean (map act Vdot)), (INR k * 100 / INR (length Vdot)). split; [reflexivity|].
    split; [split|].
    + apply Rmult_le_pos; [lra|]. left. now apply Rinv_0_lt_compat.
    + apply Rmult_le_reg_r with (INR (length Vdot)); auto. unfold Rdiv. rewrite Rmult_assoc, Rinv_l by lra. lra.
    + rewrite <- A'. split.
      * intros H. split; [|discriminate]. apply INR_eq. apply (f_equal (fun z => z * INR (length Vdot))) in H.
        unfold Rdiv in H. rewrite Rmult_assoc, Rinv_l in H by lra. lra.
      * intros [-> _]. field. lra.
  - eexists _, _. split; [reflexivity|]. split; [split|].
    + apply Rmult_le_pos; [lra|]. left. now apply Rinv_0_lt_compat.
    + apply Rmult_le_reg_r with (INR (length Vdot)); auto. unfold Rdiv. rewrite !Rmult_assoc, Rinv_l by lra. lra.
    + rewrite <- A'. split.
      * intros H. apply (f_equal (fun z => z * INR (length Vdot))) in H.
        unfold Rdiv in H. rewrite !Rmult_assoc, Rinv_l in H by lra.
        split; [apply INR_eq; lra|]. intros _. apply B'. apply INR_eq. lra.
      * intros [-> H]. rewrite (proj2 B' (H eq_refl)). field. lra.
Qed.

Lemma percent_some k n : (0 < n)%nat -> percent k n = Some (INR (k * 100) / INR n).
Proof. intros H. unfold percent. destruct (n =? 0)%nat eqn:E; auto. apply Nat.eqb_eq in E. lia. Qed.
Lemma percent_100 k n p : percent k n = Some p -> (is100 p = true <-> k = n).
Proof.
  unfold percent. destruct (n =? 0)%nat eqn:E; [discriminate|]. apply Nat.eqb_neq in E. intros [= <-].
  assert (Hn : 0 < INR n) by (apply lt_0_INR; lia). unfold is100.
  destruct (Req_EM_T _ 100) as [H|H]; split; auto; try discriminate.
  - intros _. apply (f_equal (fun z => z * INR n)) in H. unfold Rdiv in H. rewrite Rmult_assoc, Rinv_l in H by lra.
    rewrite mult_INR in H. apply INR_eq. replace (INR 100) with 100 in H by (simpl; lra). lra.
  - intros ->. exfalso. apply H. rewrite mult_INR. replace (INR 100) with 100 by (simpl; lra). field. lra.
Qed.
(** 99.9 percent: at most one sample in a thousand fails. *)
Lemma percent_999 k n p : percent k n = Some p -> (k <= n)%nat -> (ge999 p = true <-> (1000 * (n - k) <= n)%nat).
Proof.
  unfold percent. destruct (n =? 0)%nat eqn:E; [discriminate|]. apply Nat.eqb_neq in E. intros [= <-] Hk.
  assert (Hn : 0 < INR n) by (apply lt_0_INR; lia). unfold ge999. rewrite Rleb_iff, mult_INR.
  replace (INR 100) with 100 by (simpl; lra).
  assert (Hi : 999 / 10 <= INR k * 100 / INR n <-> 999 * INR n <= 1000 * INR k).
  { split; intros H.
    - apply (Rmult_le_compat_r (INR n)) in H; [|lra]. unfold Rdiv in H. rewrite (Rmult_assoc (INR k * 100)), Rinv_l in H by lra. lra.
    - apply Rmult_le_reg_r with (INR n); auto. unfold Rdiv. rewrite (Rmult_assoc (INR k * 100)), Rinv_l by lra. lra. }
  rewrite Hi. replace 999 with (INR 999) by (simpl; lra). replace 1000 with (INR 1000) by (simpl; lra).
  rewrite <- !mult_INR. split; intros H; [apply INR_le in H; lia|apply le_INR; lia].
Qed.
Lemma percent_ge100 k n p : percent k n = Some p -> (k <= n)%nat -> (Rleb 100 p = true <-> k = n).
Proof.
  intros H Hk. rewrite <- (percent_100 k n p H). unfold is100. rewrite Rleb_iff. destruct (Req_EM_T p 100) as [->|Hne]; split; auto; try lra; try discriminate.
  intros H1. exfalso. apply Hne. unfold percent in H. destruct (n =? 0)%nat eqn:E; [discriminate|]. apply Nat.eqb_neq in E.
  injection H as <-. apply Rle_antisym; auto. assert (Hn : 0 < INR n) by (apply lt_0_INR; lia).
  apply Rmult_le_reg_r with (INR n); auto. unfold Rdiv. rewrite Rmult_assoc, Rinv_l by lra.
  rewrite mult_INR. apply le_INR in Hk. replace (INR 100) with 100 by (simpl; lra). lra.
Qed.

Lemma select_length {A} mask (l : list A) : length mask = length l ->
  length (select mask l) = count (fun b => b) mask.
Proof.
  revert l. induction mask as [|b mask IH]; intros [|x l] H; try discriminate; [reflexivity|].
  unfold count in *. simpl. destruct b; simpl; rewrite IH; auto.
Qed.
Lemma select_filter {A B} (p : A -> bool) (l : list A) : forall m : list B,
  select (map p l) m = map snd (filter (fun e => p (fst e)) (combine l m)).
Proof.
  induction l as [|a l IH]; intros [|b m]; try reflexivity. simpl. destruct (p a); simpl; now rewrite IH.
Qed.
Lemma count_map {A B} (g : A -> B) p l : count p (map g l) = count (fun x => p (g x)) l.
Proof. unfold count. induction l as [|x l IH]; [reflexivity|]. simpl. destruct (p (g x)); simpl; now rewrite IH. Qed.
Lemma count_filter {A} (p q : A -> bool) l : count p (filter q l) = count (fun x => q x && p x) l.
Proof. unfold count. induction l as [|x l IH]; [reflexivity|]. simpl. destruct (q x); simpl; auto. destruct (p x); simpl; now rewrite IH. Qed.
Lemma count_ext {A} (p q : A -> bool) l : (forall x, p x = q x) -> count p l = count q l.
Proof. intros H. unfold count. now rewrite (filter_ext _ _ H). Qed.
Lemma acc_iff k1 n1 k2 n2 : (k1 <= n1)%nat -> (k2 <= n2)%nat -> ((k1 + k2 = n2 + n1)%nat <-> k1 = n1 /\ k2 = n2).
Proof. lia. Qed.

Lemma two_sets (c : R) B_i B_u p :
  percent (count (fun v => Rleb v (- c)) B_i + count (fun v => Rleb c v) B_u) (length B_u + length B_i) = Some p ->
  (is100 p = true <-> Forall (fun v => v <= - c) B_i /\ Forall (fun v => c <= v) B_u).
Proof.
  intros H. rewrite (percent_100 _ _ _ H). rewrite acc_iff by apply count_le. rewrite !count_all, !Forall_forall.
  split; intros [A B]; split; intros x Hx; apply Rleb_iff; auto.
Qed.

Lemma barrier_loss_none act sym B_i B_u B_d Bdot_d :
  barrier_loss act sym B_i B_u B_d Bdot_d = None <-> B_i = [] /\ B_u = [].
Proof.
  unfold barrier_loss, percent. destruct (length B_u + length B_i =? 0)%nat eqn:E.
  - apply Nat.eqb_eq in E. split; auto. intros _. destruct B_i, B_u; simpl in E; try lia; auto.
  - apply Nat.eqb_neq in E. cbn [option_bind]. destruct (length (select _ Bdot_d) =? 0)%nat; split; try discriminate;
      intros [-> ->]; now elim E.
Qed.

(** Counting positions. *)
Lemma number_of_unique P k k' : number_of P k -> number_of P k' -> k = k'.
Proof.
  intros (l & N & H & L) (l' & N' & H' & L'). subst.
  apply Nat.le_antisymm; apply NoDup_incl_length; auto; intros i Hi; [apply H', H|apply H, H']; auto.
Qed.
Lemma number_of_ext (P Q : nat -> Prop) k : (forall i, P i <-> Q i) -> number_of P k -> number_of Q k.
Proof. intros E (l & N & H & L). exists l. repeat split; auto. - intros. apply E, H; auto. - intros. apply H, E; auto. Qed.
Lemma number_of_count {A} (p : A -> bool) (l : list A) :
  number_of (fun i => exists x, nth_error l i = Some x /\ p x = true) (count p l).
Proof.
  unfold count. induction l as [|x l (ps & N & H & L)].
  - exists []. split; [constructor|]. split; [|reflexivity]. intros i. split; [easy|]. intros (x & E & _). now destruct i.
  - assert (N' : NoDup (map S ps)).
    { apply FinFun.Injective_map_NoDup; auto. intros a b. lia. }
    assert (H' : forall i, In (S i) (map S ps) <-> In i ps).
    { intros i. rewrite in_map_iff. split; [intros (j & [= ->] & Hj); auto|intros Hi; now exists i]. }
    assert (Z : ~ In O (map S ps)) by (rewrite in_map_iff; intros (j & E & _); discriminate).
    simpl. destruct (p x) eqn:Ep.
    + exists (O :: map S ps). split; [now constructor|]. split; [|simpl; now rewrite map_length, L].
      intros [|i]; simpl.
      * split; [intros _; now exists x|now left].
      * rewrite <- H, <- H'. intuition discriminate.
    + exists (map S ps). split; [auto|]. split; [|now rewrite map_length].
      intros [|i]; simpl.
      * split; [easy|]. intros (y & [= <-] & E). congruence.
      * rewrite <- H. apply H'.
Qed.
Lemma nth_error_combine {A B} (l : list A) : forall (m : list B) i e,
  nth_error (combine l m) i = Some e <-> nth_error l i = Some (fst e) /\ nth_error m i = Some (snd e).
Proof.
  induction l as [|a l IH]; intros [|b m] [|i] [x y]; simpl; try (split; [discriminate|now intros []]).
  - split; [intros [= <- <-]; auto|intros [[= <-] [= <-]]; auto].
  - apply IH.
Qed.
Lemma number_both (p : R -> R -> bool) (P : R -> R -> Prop) (l m : list R) :
  (forall a b, p a b = true <-> P a b) ->
  number_of (where_both l m P) (count (fun e => p (fst e) (snd e)) (combine l m)).
Proof.
  intros HP. eapply number_of_ext; [|apply number_of_count]. intros i. unfold where_both. split.
  - intros ([a b] & E & Hp). apply nth_error_combine in E. exists a, b. simpl in *. rewrite <- HP. tauto.
  - intros (a & b & E1 & E2 & Hp). exists (a, b). rewrite nth_error_combine. simpl. rewrite HP. tauto.
Qed.

(** The share of a selected sub-batch: [sel] selects on the first batch, [good] tests the second. *)
Lemma selected_share (sel good : R -> bool) (l m : list R) n_sel n_bad :
  number_of (where_both l m (fun a _ => sel a = true)) n_sel ->
  number_of (where_both l m (fun a b => sel a = true /\ good b = false)) n_bad ->
  let chosen := select (map sel l) m in
  length chosen = n_sel /\ (length chosen - count good chosen)%nat = n_bad /\
  (percent (count good chosen) (length chosen) = None <-> n_sel = O) /\
  (forall p, percent (count good chosen) (length chosen) = Some p ->
    (ge999 p = true <-> (1000 * n_bad <= n_sel)%nat) /\ (Rleb 100 p = true <-> n_bad = O)).
Proof.
  intros Hs Hb chosen.
  assert (E : chosen = map snd (filter (fun e => sel (fst e)) (combine l m))) by apply select_filter.
  assert (L : length chosen = n_sel).
  { rewrite E, map_length. change (count (fun e => sel (fst e)) (combine l m) = n_sel).
    eapply number_of_unique; [|exact Hs]. apply (number_both (fun a _ => sel a)). tauto. }
  assert (B : (length chosen - count good chosen)%nat = n_bad).
  { rewrite <- (count_compl good chosen). replace (count good chosen + count (fun x => negb (good x)) chosen - count good chosen)%nat
      with (count (fun x => negb (good x)) chosen) by lia. rewrite E, count_map, count_filter.
    eapply number_of_unique; [|exact Hb]. apply (number_both (fun a b => sel a && negb (good b))).
    intros a b. rewrite andb_true_iff, negb_true_iff. tauto. }
  assert (C := count_le good chosen). split; [exact L|]. split; [exact B|]. split.
  - unfold percent. destruct (length chosen =? 0)%nat eqn:Ez; [apply Nat.eqb_eq in Ez|apply Nat.eqb_neq in Ez]; split; auto; try discriminate; lia.
  - intros p Hp. split.
    + rewrite (percent_999 _ _ _ Hp C), B, L. reflexivity.
    + rewrite (percent_ge100 _ _ _ Hp C). lia.
Qed.
Lemma number_exists (p : R -> R -> bool) (P : R -> R -> Prop) l m : (forall a b, p a b = true <-> P a b) ->
  exists k, number_of (where_both l m P) k.
Proof. intros H. eexists. now apply (number_both p). Qed.

(** Barrier: the training test holds iff every initial sample is non-positive, every
    unsafe sample non-negative, the belt is not empty, and at most one in a thousand of
    its samples has a positive derivative. *)
Theorem C41_barrier :
  forall act symmetric B_i B_u B_d Bdot_d,
    (B_i <> [] \/ B_u <> []) ->
    exists ok n_belt n_bad, barrier_ok act symmetric (B_i, B_u, B_d, Bdot_d) = Some ok /\
      number_of (where_both B_d Bdot_d (fun b _ => in_belt symmetric b)) n_belt /\
      number_of (where_both B_d Bdot_d (fun b d => in_belt symmetric b /\ 0 < d)) n_bad /\
      (ok = true <-> Forall (fun v => v <= 0) B_i /\ Forall (fun v => 0 <= v) B_u /\
                     (0 < n_belt)%nat /\ (1000 * n_bad <= n_belt)%nat).
Proof.
  intros act sym B_i B_u B_d Bdot_d Hne.
  set (sel := fun v => if sym then Rleb (Rabs v) (1/2) else Rleb 0 v).
  set (good := fun v => Rleb v 0).
  assert (Hsel : forall b, sel b = true <-> in_belt sym b).
  { intros b. unfold sel, in_belt. destruct sym; apply Rleb_iff. }
  assert (Hgood : forall d, good d = false <-> 0 < d).
  { intros d. unfold good. rewrite <- not_true_iff_false, Rleb_iff. lra. }
  destruct (number_exists (fun a _ => sel a) (fun b _ => in_belt sym b) B_d Bdot_d) as [n_belt N1]; [auto|].
  destruct (number_exists (fun a b => sel a && negb (good b)) (fun b d => in_belt sym b /\ 0 < d) B_d Bdot_d) as [n_bad N2].
  { intros a b. now rewrite andb_true_iff, negb_true_iff, Hsel, Hgood. }
  destruct (selected_share sel good B_d Bdot_d n_belt n_bad) as (L & B & P0 & P1).
  { eapply number_of_ext; [|exact N1]. intros i. unfold where_both. split; intros (a & b & H1 & H2 & H3); exists a, b; firstorder. }
  { eapply number_of_ext; [|exact N2]. intros i. unfold where_both. split; intros (a & b & H1 & H2 & H3); exists a, b; firstorder. }
  unfold barrier_ok, barrier_loss.
  destruct (percent _ (length B_u + length B_i)) as [acc|] eqn:Ea.
  2:{ unfold percent in Ea. destruct (_ =? 0)%nat eqn:Ez; [|discriminate]. apply Nat.eqb_eq in Ez.
      destruct B_i, B_u; simpl in Ez; try lia. destruct Hne; contradiction. }
  assert (H2 := two_sets 0 B_i B_u acc). rewrite Ropp_0 in H2. specialize (H2 Ea).
  cbn [option_bind]. fold sel. fold good.
  destruct (percent (count good (select (map sel B_d) Bdot_d)) (length (select (map sel B_d) Bdot_d))) as [p|] eqn:Ep.
  - exists (is100 acc && ge999 p), n_belt, n_bad. split; [reflexivity|]. split; [exact N1|]. split; [exact N2|].
    destruct (P1 p eq_refl) as [P2 _]. rewrite andb_true_iff, H2, P2.
    assert (n_belt <> O) by (intros Z; apply P0 in Z; discriminate). intuition lia.
  - exists (is100 acc && ge999 0), n_belt, n_bad. split; [reflexivity|]. split; [exact N1|]. split; [exact N2|].
    assert (n_belt = O) by now apply P0. rewrite andb_true_iff. unfold ge999. rewrite Rleb_iff.
    split; [intros [_ H3]; lra|lia].
Qed.

Lemma few_bad n_bad n : (n < 1000)%nat -> (1000 * n_bad <= n)%nat -> n_bad = O.
Proof. lia. Qed.
Lemma number_bound l m P k : number_of (where_both l m P) k -> (k <= length l)%nat.
Proof.
  intros (ps & N & H & <-). rewrite <- (seq_length (length l) 0). apply NoDup_incl_length; auto.
  intros i Hi. apply H in Hi. destruct Hi as (a & b & E & _). apply in_seq. split; [lia|]. simpl.
  apply nth_error_Some. congruence.
Qed.
Lemma number_zero l m (P : R -> R -> Prop) : number_of (where_both l m P) 0 -> at_same_place l m (fun a b => ~ P a b).
Proof.
  intros (ps & _ & H & L) i a b E1 E2 HP. destruct ps; [|discriminate]. apply (H i). exists a, b. auto.
Qed.

(** With fewer than 1000 domain samples: no exception at all. *)
Theorem C41_barrier_small :
  forall act symmetric B_i B_u B_d Bdot_d,
    (B_i <> [] \/ B_u <> []) -> (length B_d < 1000)%nat ->
    barrier_ok act symmetric (B_i, B_u, B_d, Bdot_d) = Some true ->
    Forall (fun v => v <= 0) B_i /\ Forall (fun v => 0 <= v) B_u /\
    (exists i, where_both B_d Bdot_d (fun b _ => in_belt symmetric b) i) /\
    at_same_place B_d Bdot_d (fun b d => in_belt symmetric b -> d <= 0).
Proof.
  intros act sym B_i B_u B_d Bdot_d Hne Hl H.
  destruct (C41_barrier act sym B_i B_u B_d Bdot_d Hne) as (ok & n & bad & E & N1 & N2 & K).
  rewrite E in H. injection H as ->. destruct (proj1 K eq_refl) as (A & B & C & D).
  split; [exact A|]. split; [exact B|]. split.
  - destruct N1 as ([|i ps] & _ & H & L); simpl in L; [lia|]. exists i. apply H. now left.
  - assert (n <= length B_d)%nat by (eapply number_bound; eauto). rewrite (few_bad bad n) in N2 by lia.
    apply number_zero in N2. intros i a b E1 E2 Hb. specialize (N2 i a b E1 E2). simpl in N2.
    apply Rnot_lt_le. tauto.
Qed.

(** BarrierAlt: margin 0.05 everywhere. *)
Theorem C41_barrier_alt :
  forall B_i B_u B_d Bdot_d, (B_i <> [] \/ B_u <> []) -> Bdot_d <> [] ->
    exists ok n_bad, barrier_alt_ok (B_i, B_u, B_d, Bdot_d) = Some ok /\
      number_of (fun i => exists d, nth_error Bdot_d i = Some d /\ - (5/100) < d) n_bad /\
      (ok = true <-> Forall (fun v => v <= - (5/100)) B_i /\ Forall (fun v => 5/100 <= v) B_u /\
                     (1000 * n_bad <= length Bdot_d)%nat).
Proof.
  intros B_i B_u B_d Bdot_d Hne Hd. unfold barrier_alt_ok, barrier_alt_loss.
  destruct (percent _ (length B_u + length B_i)) as [acc|] eqn:Ea.
  2:{ unfold percent in Ea. destruct (_ =? 0)%nat eqn:Ez; [|discriminate]. apply Nat.eqb_eq in Ez.
      destruct B_i, B_u; simpl in Ez; try lia. destruct Hne; contradiction. }
  assert (H2 := two_sets alt_margin B_i B_u acc Ea). cbn [option_bind].
  set (good := fun v => Rleb v (- alt_margin)).
  assert (C := count_le good Bdot_d).
  destruct (percent (count good Bdot_d) (length Bdot_d)) as [p|] eqn:Ep.
  2:{ unfold percent in Ep. destruct (_ =? 0)%nat eqn:Ez; [|discriminate]. apply Nat.eqb_eq in Ez.
      destruct Bdot_d; [contradiction|discriminate]. }
  cbn [option_bind option_map]. exists (is100 acc && ge999 p), (count (fun d => negb (good d)) Bdot_d).
  split; [reflexivity|]. split.
  - eapply number_of_ext; [|apply number_of_count]. intros i. split; intros (d & E & Hg); exists d; split; auto.
    + rewrite negb_true_iff, <- not_true_iff_false in Hg. unfold good in Hg. rewrite Rleb_iff in Hg. unfold alt_margin in Hg. lra.
    + rewrite negb_true_iff, <- not_true_iff_false. unfold good. rewrite Rleb_iff. unfold alt_margin. lra.
  - rewrite andb_true_iff, H2, (percent_999 _ _ _ Ep C). assert (K := count_compl good Bdot_d).
    replace (length Bdot_d - count good Bdot_d)%nat with (count (fun d => negb (good d)) Bdot_d) by lia.
    unfold alt_margin. tauto.
Qed.

(** RWS (also RSWS and the first half of RAR): the derivative is tested where V is
    negative, against -0.01. *)
Lemma dots_nth g f i d : nth_error (map2 (fun a b => Rsum (map2 Rmult a b)) g f) i = Some d ->
  exists a b, nth_error g i = Some a /\ nth_error f i = Some b /\ d = dot a b.
Proof.
  unfold map2 at 1. revert f i. induction g as [|a g IH]; intros [|b f] [|i] H; simpl in H; try discriminate.
  - injection H as <-. exists a, b. rewrite <- Rsum_dot. auto.
  - apply IH in H. exact H.
Qed.
Lemma dots_eq g f : map2 (fun a b => Rsum (map2 Rmult a b)) g f = map (fun e => dot (fst e) (snd e)) (combine g f).
Proof.
  unfold map2 at 1. apply map_ext. intros [a b]. apply Rsum_dot.
Qed.
Theorem C41_rws :
  forall V_i V_u V_d gradV f, (V_i <> [] \/ V_u <> []) ->
    let Vdot := map (fun e => dot (fst e) (snd e)) (combine gradV f) in
    exists ok n_neg n_bad, rws_ok (V_i, V_u, V_d, gradV, f) = Some ok /\
      number_of (where_both V_d Vdot (fun v _ => v < 0)) n_neg /\
      number_of (where_both V_d Vdot (fun v d => v < 0 /\ - (1/100) < d)) n_bad /\
      (ok = true <-> Forall (fun v => v <= 0) V_i /\ Forall (fun v => 0 <= v) V_u /\
                     (0 < n_neg)%nat /\ (1000 * n_bad <= n_neg)%nat).
Proof.
  intros V_i V_u V_d gradV f Hne Vdot.
  set (sel := fun v => Rltb v 0). set (good := fun v => Rleb v (- rws_gamma)).
  assert (Hsel : forall b, sel b = true <-> b < 0) by (intros; apply Rltb_iff).
  assert (Hgood : forall d, good d = false <-> - (1/100) < d).
  { intros d. unfold good. rewrite <- not_true_iff_false, Rleb_iff. unfold rws_gamma. lra. }
  destruct (number_exists (fun a _ => sel a) (fun b _ => b < 0) V_d Vdot) as [n N1]; [auto|].
  destruct (number_exists (fun a b => sel a && negb (good b)) (fun b d => b < 0 /\ - (1/100) < d) V_d Vdot) as [n_bad N2].
  { intros a b. now rewrite andb_true_iff, negb_true_iff, Hsel, Hgood. }
  destruct (selected_share sel good V_d Vdot n n_bad) as (L & B & P0 & P1).
  { eapply number_of_ext; [|exact N1]. intros i. unfold where_both. split; intros (a & b & H1 & H2 & H3); exists a, b; firstorder. }
  { eapply number_of_ext; [|exact N2]. intros i. unfold where_both. split; intros (a & b & H1 & H2 & H3); exists a, b; firstorder. }
  unfold rws_ok, rws_loss. rewrite dots_eq. fold Vdot. fold sel good. rewrite (Nat.add_comm (length V_i)).
  destruct (percent _ (length V_u + length V_i)) as [acc|] eqn:Ea.
  2:{ unfold percent in Ea. destruct (_ =? 0)%nat eqn:Ez; [|discriminate]. apply Nat.eqb_eq in Ez.
      destruct V_i, V_u; simpl in Ez; try lia. destruct Hne; contradiction. }
  assert (H2 := two_sets 0 V_i V_u acc). rewrite Ropp_0 in H2. specialize (H2 Ea).
  cbn [option_bind].
  destruct (percent (count good (select (map sel V_d) Vdot)) (length (select (map sel V_d) Vdot))) as [p|] eqn:Ep.
  - exists (is100 acc && ge999 p), n, n_bad. split; [reflexivity|]. split; [exact N1|]. split; [exact N2|].
    destruct (P1 p eq_refl) as [P2 _]. rewrite andb_true_iff, H2, P2.
    assert (n <> O) by (intros Z; apply P0 in Z; discriminate). intuition lia.
  - exists (is100 acc && ge999 0), n, n_bad. split; [reflexivity|]. split; [exact N1|]. split; [exact N2|].
    assert (n = O) by now apply P0. rewrite andb_true_iff. unfold ge999. rewrite Rleb_iff.
    split; [intros [_ H3]; lra|lia].
Qed.

(** ReachAvoidRemain: both halves, no tolerance for the derivative of V. *)
Theorem C41_rar :
  forall symmetric V_i V_u V_d gradV f B_i B_u B_d Bdot_d,
    (V_i <> [] \/ V_u <> []) -> (B_i <> [] \/ B_u <> []) ->
    let Vdot := map (fun e => dot (fst e) (snd e)) (combine gradV f) in
    exists ok n_neg n_belt n_bad,
      rar_ok symmetric ((V_i, V_u, V_d, gradV, f), (B_i, B_u, B_d, Bdot_d)) = Some ok /\
      number_of (where_both V_d Vdot (fun v _ => v < 0)) n_neg /\
      number_of (where_both B_d Bdot_d (fun b _ => in_belt symmetric b)) n_belt /\
      number_of (where_both B_d Bdot_d (fun b d => in_belt symmetric b /\ 0 < d)) n_bad /\
      (ok = true <->
        Forall (fun v => v <= 0) V_i /\ Forall (fun v => 0 <= v) V_u /\
        (0 < n_neg)%nat /\ at_same_place V_d Vdot (fun v d => v < 0 -> d <= - (1/100)) /\
        Forall (fun v => v <= 0) B_i /\ Forall (fun v => 0 <= v) B_u /\
        (0 < n_belt)%nat /\ (1000 * n_bad <= n_belt)%nat).
Proof.
  intros sym V_i V_u V_d gradV f B_i B_u B_d Bdot_d Hne Hne' Vdot.
  destruct (C41_barrier (splu 1) sym B_i B_u B_d Bdot_d Hne') as (okb & n_belt & n_bad & Eb & Nb1 & Nb2 & Kb).
  set (sel := fun v => Rltb v 0). set (good := fun v => Rleb v (- rws_gamma)).
  assert (Hsel : forall b, sel b = true <-> b < 0) by (intros; apply Rltb_iff).
  assert (Hgood : forall d, good d = false <-> - (1/100) < d).
  { intros d. unfold good. rewrite <- not_true_iff_false, Rleb_iff. unfold rws_gamma. lra. }
  destruct (number_exists (fun a _ => sel a) (fun b _ => b < 0) V_d Vdot) as [n N1]; [auto|].
  destruct (number_exists (fun a b => sel a && negb (good b)) (fun b d => b < 0 /\ - (1/100) < d) V_d Vdot) as [m N2].
  { intros a b. now rewrite andb_true_iff, negb_true_iff, Hsel, Hgood. }
  destruct (selected_share sel good V_d Vdot n m) as (L & B & P0 & P1).
  { eapply number_of_ext; [|exact N1]. intros i. unfold where_both. split; intros (a & b & H1 & H2 & H3); exists a, b; firstorder. }
  { eapply number_of_ext; [|exact N2]. intros i. unfold where_both. split; intros (a & b & H1 & H2 & H3); exists a, b; firstorder. }
  assert (Hm : m = O <-> at_same_place V_d Vdot (fun v d => v < 0 -> d <= - (1/100))).
  { split.
    - intros ->. apply number_zero in N2. intros i a b E1 E2 Ha. specialize (N2 i a b E1 E2). simpl in N2.
      apply Rnot_lt_le. tauto.
    - intros H. destruct N2 as ([|i ps] & _ & Hp & <-); [reflexivity|]. exfalso.
      destruct (proj1 (Hp i) (or_introl eq_refl)) as (a & b & E1 & E2 & Ha & Hb). specialize (H i a b E1 E2 Ha). lra. }
  unfold rar_ok, rws_loss. rewrite dots_eq. fold Vdot. fold sel good. rewrite (Nat.add_comm (length V_i)).
  destruct (percent _ (length V_u + length V_i)) as [acc|] eqn:Ea.
  2:{ unfold percent in Ea. destruct (_ =? 0)%nat eqn:Ez; [|discriminate]. apply Nat.eqb_eq in Ez.
      destruct V_i, V_u; simpl in Ez; try lia. destruct Hne; contradiction. }
  assert (H2 := two_sets 0 V_i V_u acc). rewrite Ropp_0 in H2. specialize (H2 Ea).
  unfold barrier_ok in Eb.
  destruct (barrier_loss (splu 1) sym B_i B_u B_d Bdot_d) as [[[bl gf] belt]|] eqn:El; [|discriminate].
  cbn [option_map] in Eb. injection Eb as Eb.
  assert (Hgf : Rleb 100 gf = is100 gf).
  { unfold barrier_loss in El. destruct (percent _ (length B_u + length B_i)) as [gf'|] eqn:Eg; [|discriminate].
    cbn [option_bind] in El.
    assert (gf' = gf) by (destruct (percent _ (length (select _ Bdot_d))); injection El; auto). subst gf'.
    apply eq_true_iff_eq. rewrite (percent_100 _ _ _ Eg). apply (percent_ge100 _ _ _ Eg).
    assert (C1 := count_le (fun v => Rleb v 0) B_i). assert (C2 := count_le (fun v => Rleb 0 v) B_u). lia. }
  cbn [option_bind].
  destruct (percent (count good (select (map sel V_d) Vdot)) (length (select (map sel V_d) Vdot))) as [p|] eqn:Ep.
  - exists (is100 acc && Rleb 100 p && Rleb 100 gf && ge999 belt), n, n_belt, n_bad. cbn [option_bind].
    split; [reflexivity|]. split; [exact N1|]. split; [exact Nb1|]. split; [exact Nb2|].
    destruct (P1 p eq_refl) as [_ P2]. rewrite Hgf, <- andb_assoc, Eb, !andb_true_iff, H2, P2, Kb, Hm.
    assert (n <> O) by (intros Z; apply P0 in Z; discriminate). intuition lia.
  - exists (is100 acc && Rleb 100 0 && Rleb 100 gf && ge999 belt), n, n_belt, n_bad. cbn [option_bind].
    split; [reflexivity|]. split; [exact N1|]. split; [exact Nb1|]. split; [exact Nb2|].
    assert (n = O) by now apply P0. rewrite !andb_true_iff, Rleb_iff. split; [lra|lia].
Qed.

(** ** Samples: batching and test together *)
Lemma at_same_place_map {A} (g h : A -> R) (s : list A) P :
  at_same_place (map g s) (map h s) P -> forall x, In x s -> P (g x) (h x).
Proof.
  intros H x Hx. destruct (In_nth_error _ _ Hx) as [i Hi]. apply (H i); rewrite nth_error_map, Hi; reflexivity.
Qed.
Lemma Forall_map_in {A} (g : A -> R) (P : R -> Prop) s : Forall P (map g s) -> forall x, In x s -> P (g x).
Proof. rewrite Forall_map, Forall_forall. auto. Qed.
Lemma map_nonempty {A B} (g : A -> B) s : s <> [] -> map g s <> [].
Proof. destruct s; [congruence|discriminate]. Qed.

(** When the training test of a continuous- or discrete-time barrier holds, the learned
    conditions hold of every sample (fewer than 1000 domain samples). *)
Theorem C41_barrier_samples :
  forall act symmetric value lie f f_torch (S Sdot : dict) sd si su b,
    images_of f f_torch S Sdot ->
    dlookup XD S = Some sd -> dlookup XI S = Some si -> dlookup XU S = Some su ->
    si <> [] -> (length sd < 1000)%nat ->
    barrier_batch value lie f_torch S Sdot = Some b -> barrier_ok act symmetric b = Some true ->
    (forall x, In x si -> value x <= 0) /\ (forall x, In x su -> 0 <= value x) /\
    (forall x, In x sd -> in_belt symmetric (value x) -> lie x (f x) <= 0).
Proof.
  intros act sym value lie f ft S Sdot sd si su b Hf Hd Hi Hu Hne Hl Hb Hok.
  rewrite (C40_barrier value lie f ft S Sdot sd si su) in Hb by auto. injection Hb as <-.
  destruct (C41_barrier_small act sym (map value si) (map value su) (map value sd) (map (fun x => lie x (f x)) sd))
    as (A & B & _ & C); auto.
  - left. now apply map_nonempty.
  - now rewrite map_length.
  - split; [exact (Forall_map_in value _ si A)|]. split; [exact (Forall_map_in value _ su B)|].
    intros x Hx. exact (at_same_place_map value (fun x => lie x (f x)) sd _ C x Hx).
Qed.
Theorem C41_lyapunov_roa_samples :
  forall act llo value lie f f_torch (S Sdot : dict) sd b,
    images_of f f_torch S Sdot -> dlookup XD S = Some sd -> sd <> [] ->
    lyapunov_batch value lie f_torch S Sdot = Some b ->
    (lyapunov_ok act llo b = Some true <->
     forall x, In x sd -> lie x (f x) <= 0 /\ (llo = false -> 0 <= value x)).
Proof.
  intros act llo value lie f ft S Sdot sd b Hf Hd Hne Hb.
  rewrite (C40_lyapunov_roa value lie f ft S Sdot sd) in Hb by auto. injection Hb as <-.
  destruct (C41_lyapunov_roa act llo (map value sd) (map (fun x => lie x (f x)) sd)) as (loss & acc & E & _ & K).
  { now rewrite !map_length. }
  { now apply map_nonempty. }
  unfold lyapunov_ok. cbn [fst snd]. rewrite E. cbn [option_map].
  assert (I : is100 acc = true <-> acc = 100).
  { unfold is100. destruct (Req_EM_T acc 100); split; auto; discriminate. }
  split.
  - intros [= H]. apply I, K in H. destruct H as [A B]. intros x Hx. split.
    + exact (Forall_map_in (fun x => lie x (f x)) _ sd A x Hx).
    + intros L. exact (Forall_map_in value _ sd (B L) x Hx).
  - intros H. f_equal. apply I, K. rewrite !Forall_map, !Forall_forall. split; [|intros L]; intros x Hx; now apply H.
Qed.
Theorem C41_rws_samples :
  forall value grad f f_torch (S Sdot : dict) sd si su b,
    images_of f f_torch S Sdot ->
    dlookup XD S = Some sd -> dlookup XI S = Some si -> dlookup XU S = Some su ->
    si <> [] -> (length sd < 1000)%nat ->
    rws_batch value grad f_torch S Sdot = Some b -> rws_ok b = Some true ->
    (forall x, In x si -> value x <= 0) /\ (forall x, In x su -> 0 <= value x) /\
    (forall x, In x sd -> value x < 0 -> dot (grad x) (f x) <= - (1/100)).
Proof.
  intros value grad f ft S Sdot sd si su b Hf Hd Hi Hu Hne Hl Hb Hok.
  rewrite (C40_rws value grad f ft S Sdot sd si su) in Hb by auto. injection Hb as <-.
  destruct (C41_rws (map value si) (map value su) (map value sd) (map grad sd) (map f sd)) as (ok & n & bad & E & N1 & N2 & K).
  { left. now apply map_nonempty. }
  assert (E' : Some ok = Some true) by (rewrite <- Hok; symmetry; exact E). injection E' as ->.
  destruct (proj1 K eq_refl) as (A & B & C & D).
  match type of N2 with number_of (where_both _ ?v _) _ => assert (Ec : v = map (fun x => dot (grad x) (f x)) sd) end.
  { clear. induction sd as [|x sd IH]; [reflexivity|]. simpl. now rewrite IH. }
  rewrite Ec in N1, N2. clear Ec K.
  split; [exact (Forall_map_in value _ si A)|]. split; [exact (Forall_map_in value _ su B)|].
  assert (n <= length (map value sd))%nat by (eapply number_bound; eauto). rewrite map_length in *.
  rewrite (few_bad bad n) in N2 by lia. apply number_zero in N2.
  intros x Hx Hv. apply Rnot_lt_le. intros L. apply (at_same_place_map value (fun x => dot (grad x) (f x)) sd _ N2 x Hx). auto.
Qed.

(** From 1000 belt samples on, a violation passes the test. *)
Theorem C41_tolerance :
  forall N, (1000 <= N)%nat ->
    exists B_d Bdot_d, length B_d = N /\ length Bdot_d = N /\
      barrier_ok relu false ([-1], [1], B_d, Bdot_d) = Some true /\ Exists (fun d => 0 < d) Bdot_d.
Proof.
  intros N HN. destruct N as [|M]; [lia|]. exists (repeat 0 (S M)), (1 :: repeat 0 M).
  split; [apply repeat_length|]. split; [cbn [length]; now rewrite repeat_length|]. split.
  2:{ constructor. lra. }
  destruct (C41_barrier relu false [-1] [1] (repeat 0 (S M)) (1 :: repeat 0 M)) as (ok & n & bad & E & N1 & N2 & K).
  { left. discriminate. }
  rewrite E. f_equal. apply K. split; [repeat constructor; lra|]. split; [repeat constructor; lra|].
  assert (Hn : n = S M).
  { eapply number_of_unique; [exact N1|]. exists (seq 0 (S M)). split; [apply seq_NoDup|]. split; [|apply seq_length].
    intros i. rewrite in_seq. split.
    - intros [_ Hi]. exists 0, (if (i =? 0)%nat then 1 else 0). split.
      + apply nth_error_repeat. lia.
      + split; [|simpl; lra]. destruct i; [reflexivity|]. cbn [nth_error Nat.eqb]. apply nth_error_repeat. lia.
    - intros (a & b & E1 & _). split; [lia|].
      assert (i < length (repeat 0%R (S M)))%nat by (apply nth_error_Some; congruence). rewrite repeat_length in *. lia. }
  assert (Hb : bad = 1%nat).
  { eapply number_of_unique; [exact N2|]. exists [O]. split; [repeat constructor; intros []|]. split; [|reflexivity].
    intros i. split.
    - intros [<-|[]]. exists 0, 1. split; [reflexivity|]. split; [reflexivity|]. simpl. lra.
    - intros (a & b & E1 & E2 & _ & Hb). left. destruct i; [reflexivity|]. exfalso. cbn [nth_error] in E2.
      apply nth_error_In, repeat_spec in E2. subst. lra. }
  lia.
Qed.
