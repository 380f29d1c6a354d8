(** Model of fossil/domains.py: sets, their symbolic descriptions, numeric
    membership tests and samplers.  No proofs in this file.

    Floats are idealised: parameters are rationals, numeric points are real.
    Plotting, pickling helpers ([_generate_data] is a [partial] of
    [generate_data]) and [AutoSets] are not modelled. *)
From Coq Require Import Reals QArith Qreals List Bool Arith.
From Verif Require Import M_Syntax M_Verifier.
Import ListNotations.
Local Open Scope E.

(** [dim_select]: [None] or a list of coordinates ([if self.dim_select] treats the
    empty list like None). *)
Definition dimsel := option (list nat).

(** The classes of domains.py:378-1173 with their constructor arguments. *)
Inductive fset :=
| Rect (lb ub : list Q)                                  (* 477-600 Rectangle *)
| OpenRect (lb ub : list Q)                              (* 603-630 OpenRectangle *)
| Sph (c : list Q) (r : Q) (sel : dimsel)                (* 633-736 Sphere *)
| OpenSph (c : list Q) (r : Q) (sel : dimsel)            (* 739-762 OpenSphere *)
| Ell (a c : list Q) (r : Q) (sel : dimsel)              (* 765-900 Ellipse *)
| OrthSph (c : list Q) (r : Q)                           (* 903-943 PositiveOrthantSphere *)
| Tor (c : list Q) (ro ri : Q) (sel : dimsel)            (* 946-1046 Torus *)
| Bean (c0 c1 r : Q)                                     (* 1049-1103 Bean2D *)
| EmptyS                                                 (* 1106-1124 EmptySet *)
| RealsS (n : nat)                                       (* 1127-1139 Reals *)
| UnionS (s1 s2 : fset)                                  (* 378-410 Union *)
| InterS (s1 s2 : fset)                                  (* 413-435 Intersection *)
| MinusS (s1 s2 : fset)                                  (* 438-474 SetMinus *)
| ComplS (s : fset).                                     (* 1142-1173 Complement *)

Definition map2 {A B C} (f : A -> B -> C) (l1 : list A) (l2 : list B) : list C :=
  map (fun p => f (fst p) (snd p)) (combine l1 l2).

(** [x = [x[i] for i in self.dim_select]] (an index out of range raises in
    Python; the default is never used for well-formed sets). *)
Definition pick {A} (d : A) (sel : dimsel) (xs : list A) : list A :=
  match sel with
  | Some (i :: l) => map (fun i => nth i xs d) (i :: l)
  | _ => xs
  end.

(** [sum([(x[i] - centre[i]) ** 2 ...])], e.g. domains.py:651-653. *)
Definition sqdist (xs : list expr) (c : list Q) : expr :=
  esum (map2 (fun x ci => (x - ENum ci) ^ 2) xs c).
(** [sum([(coeffs[i] * x[i] - centre[i]) ** 2 ...])], domains.py:791-794. *)
Definition sqell (a : list Q) (xs : list expr) (c : list Q) : expr :=
  esum (map2 (fun ax ci => (ax - ENum ci) ^ 2) (map2 (fun ai x => ENum ai * x) a xs) c).

(** domains.py:1066-1069: x := x - centre[0], y := y - centre[1];
    (x**2 + y**2) ** 2 - radius * (x**3 - y**3). *)
Definition bean_expr (c0 c1 r : Q) (xs : list expr) : expr :=
  let x := nth 0 xs (ENum 0) - ENum c0 in
  let y := nth 1 xs (ENum 0) - ENum c1 in
  (x ^ 2 + y ^ 2) ^ 2 - ENum r * (x ^ 3 - y ^ 3).

Definition sq (r : Q) : expr := ENum (r * r).

(** [generate_domain] of each class. *)
Fixpoint generate_domain (S : fset) (xs : list expr) : fml :=
  match S with
  | Rect lb ub =>            (* 488-496 *)
      fand [fand (map2 (fun l x => ENum l <= x) lb xs);
            fand (map2 (fun x u => x <= ENum u) xs ub)]
  | OpenRect lb ub =>        (* 610-618 *)
      fand [fand (map2 (fun l x => ENum l < x) lb xs);
            fand (map2 (fun x u => x < ENum u) xs ub)]
  | Sph c r sel =>           (* 643-653 *)
      sqdist (pick (ENum 0) sel xs) c <= sq r
  | OpenSph c r sel =>       (* 746-756 *)
      sqdist (pick (ENum 0) sel xs) c < sq r
  | Ell a c r sel =>         (* 781-794 *)
      sqell a (pick (ENum 0) sel xs) c <= sq r
  | OrthSph c r =>           (* 913-925 *)
      fand (map (fun x => x > ENum 0) xs ++ [sqdist xs c <= sq r])
  | Tor c ro ri sel =>       (* 963-976 *)
      let xs := pick (ENum 0) sel xs in
      fand [sq ri <= sqdist xs c; sqdist xs c <= sq ro]
  | Bean c0 c1 r => bean_expr c0 c1 r xs <= ENum 0       (* 1061-1070 *)
  | EmptyS => FFalse         (* 1112-1114 *)
  | RealsS _ => FTrue        (* 1137-1139 *)
  | UnionS s1 s2 => for_ [generate_domain s1 xs; generate_domain s2 xs]     (* 391-393 *)
  | InterS s1 s2 => fand [generate_domain s1 xs; generate_domain s2 xs]     (* 426-428 *)
  | MinusS s1 s2 => fand [generate_domain s1 xs; FNot (generate_domain s2 xs)] (* 451-455 *)
  | ComplS s => FNot (generate_domain s xs)              (* 1152-1154 *)
  end.

(** [generate_complement], domains.py:327-337. *)
Definition generate_complement (S : fset) (xs : list expr) : fml :=
  FNot (generate_domain S xs).

(** [generate_boundary]; [None] where the class does not define it.  Note that
    OpenRectangle inherits Rectangle's, OpenSphere Sphere's; Rectangle calls
    [self.generate_domain], so an OpenRectangle conjoins its own open domain. *)
Fixpoint generate_boundary (S : fset) (xs : list expr) : option fml :=
  match S with
  | Rect lb ub | OpenRect lb ub =>   (* 498-521 *)
      Some (fand [for_ (concat (map2 (fun x lu => [x == ENum (fst lu); x == ENum (snd lu)])
                                     xs (combine lb ub)));
                  generate_domain S xs])
  | Sph c r sel | OpenSph c r sel => (* 655-666 *)
      Some (sqdist (pick (ENum 0) sel xs) c == sq r)
  | Ell a c r sel =>                 (* 796-814 *)
      Some (sqell a (pick (ENum 0) sel xs) c == sq r)
  | Tor c ro ri _ =>                 (* 978-991: dim_select is not applied *)
      Some (for_ [sqdist xs c == sq ri; sqdist xs c == sq ro])
  | Bean c0 c1 r => Some (bean_expr c0 c1 r xs == ENum 0) (* 1072-1081 *)
  | EmptyS => Some FFalse            (* 1116-1118 *)
  | MinusS s1 s2 =>                  (* 457-462 *)
      match generate_boundary s1 xs, generate_boundary s2 xs with
      | Some b1, Some b2 => Some (for_ [b1; b2])
      | _, _ => None
      end
  | ComplS s => generate_boundary s xs  (* 1162-1167 *)
  | OrthSph _ _ | RealsS _ | UnionS _ _ | InterS _ _ => None
  end.

(** [generate_interior]: Rectangle 523-532, Sphere 668-683, Ellipse 816-838. *)
Definition generate_interior (S : fset) (xs : list expr) : option fml :=
  match S with
  | Rect lb ub | OpenRect lb ub =>
      Some (fand [fand (map2 (fun l x => ENum l < x) lb xs);
                  fand (map2 (fun x u => x < ENum u) xs ub)])
  | Sph c r sel | OpenSph c r sel =>
      Some (sqdist (pick (ENum 0) sel xs) c < sq r)
  | Ell a c r sel =>
      Some (sqell a (pick (ENum 0) sel xs) c < sq r)
  | _ => None
  end.

(** ** Numeric membership: [check_containment] on one row. *)
Local Open Scope R_scope.
Definition Rleb (a b : R) : bool := if Rle_dec a b then true else false.

Definition Rsum (l : list R) : R := fold_right Rplus 0 l.
(** [(x - c).norm(2)]. *)
Definition norm2 (l : list R) : R := sqrt (Rsum (map (fun a => a * a) l)).
Definition minus_c (x : list R) (c : list Q) : list R := map2 (fun a ci => a - Q2R ci) x c.

(** [None]: the method is missing (Union, Intersection, PositiveOrthantSphere,
    Bean2D, Reals) and Python raises. *)
Fixpoint check_containment (S : fset) (x : list R) : option bool :=
  match S with
  | Rect lb ub =>      (* 561-571 *)
      Some (forallb (fun p => Rleb (snd p) (Q2R (fst (fst p))) && Rleb (Q2R (snd (fst p))) (snd p))
              (combine (combine ub lb) x))
  | OpenRect lb ub =>  (* 620-630 *)
      Some (forallb (fun p => Rltb (snd p) (Q2R (fst (fst p))) && Rltb (Q2R (snd (fst p))) (snd p))
              (combine (combine ub lb) x))
  | Sph c r None =>     (* 699-703 *)
      Some (Rleb (norm2 (minus_c x c)) (Q2R r * Q2R r))
  | OpenSph c r None => (* 758-762 *)
      Some (Rltb (norm2 (minus_c x c)) (Q2R r * Q2R r))
  | Ell a c r None =>   (* 863-868 *)
      Some (Rleb (norm2 (minus_c (map2 (fun ai xi => Q2R ai * xi) a x) c)) (Q2R r * Q2R r))
  | Tor c ro ri None => (* 1009-1016 *)
      Some (Rleb (Q2R ri) (norm2 (minus_c x c)) && Rleb (norm2 (minus_c x c)) (Q2R ro * Q2R ro))
  | EmptyS => Some false (* 1120-1121 *)
  | MinusS s1 s2 =>      (* 473-474 *)
      match check_containment s1 x, check_containment s2 x with
      | Some a, Some b => Some (a && negb b)
      | _, _ => None
      end
  | ComplS s =>          (* 1156-1157 *)
      match check_containment s x with Some a => Some (negb a) | None => None end
  (* with dim_select, [x] becomes a Python list of tensors and the arithmetic raises *)
  | Sph _ _ (Some _) | OpenSph _ _ (Some _) | Ell _ _ _ (Some _) | Tor _ _ _ (Some _) => None
  | OrthSph _ _ | Bean _ _ _ | RealsS _ | UnionS _ _ | InterS _ _ => None
  end.

(** ** Samplers.  A random source: [rnd k i j] is entry (i,j) of the k-th
    torch.rand (uniform on [0,1)) and [gauss k i j] of the k-th torch.randn. *)
Record source := { rnd : nat -> nat -> nat -> R; gauss : nat -> nat -> nat -> R }.
(** Independent streams for the two halves of a compound sampler. *)
Definition left_source (s : source) : source :=
  {| rnd := fun k => rnd s (2 * k); gauss := fun k => gauss s (2 * k) |}.
Definition right_source (s : source) : source :=
  {| rnd := fun k => rnd s (2 * k + 1); gauss := fun k => gauss s (2 * k + 1) |}.

(** [v ** (1.0 / d)] for 0 <= v. *)
Definition root (d : nat) (v : R) : R := if Req_EM_T v 0 then 0 else Rpower v (/ INR d).

Definition indexed {A} (l : list A) : list (nat * A) := combine (seq 0 (length l)) l.

(** domains.py:71-82 [square_init_data], one row. *)
Definition square_row (s : source) (lb ub : list Q) (i : nat) : list R :=
  map (fun p => let '(j, (r1, r2)) := p in (Q2R r1 - Q2R r2) * rnd s 0 i j + Q2R r2)
      (indexed (combine lb ub)).

Definition add_c (c : list Q) (off : list R) : list R := map2 (fun ci o => Q2R ci + o) c off.

(** domains.py:139-163 [circle_init_data]: [int(batch/10)] border rows at the end. *)
Definition circle_rows (s : source) (c : list Q) (r : R) (batch : nat) (on_border : bool)
  : list (list R) :=
  let border := (batch / 10)%nat in
  let internal := (batch - border)%nat in
  let r := sqrt r in
  map (fun i =>
         let angle := 2 * PI * rnd s 0 i 0 in
         let radius := if on_border then r * 1 else r * rnd s 1 i 0 in
         add_c c [radius * cos angle; radius * sin angle]) (seq 0 internal) ++
  map (fun i =>
         let angle := 2 * PI * rnd s 2 i 0 in
         add_c c [r * cos angle; r * sin angle]) (seq 0 border).

(** domains.py:168-191 [sphere_init_data]. *)
Definition sphere_rows (s : source) (c : list Q) (r : R) (batch : nat) (on_border : bool)
  : list (list R) :=
  map (fun i =>
         let theta := 2 * PI * rnd s 0 i 0 in
         let phi := PI * rnd s 1 i 0 in
         let r := sqrt r in
         let radius := if on_border then r * 1 else r * rnd s 2 i 0 in
         add_c c [radius * sin theta * cos phi; radius * sin theta * sin phi;
                  radius * cos theta]) (seq 0 batch).

(** domains.py:197-209 [n_dim_sphere_init_data]; [radius] is whatever the caller
    passes (the callers pass radius**2). *)
Definition n_dim_rows (s : source) (c : list Q) (radius : R) (batch : nat) (on_border : bool)
  : list (list R) :=
  let dim := length c in
  map (fun i =>
         let u := map (gauss s 0 i) (seq 0 dim) in
         let norm := norm2 u in
         map (fun p => let '(j, ci) := p in
                let r := if on_border then radius * 1 else radius * root dim (rnd s 1 i j) in
                r * gauss s 0 i j / norm + Q2R ci) (indexed c)) (seq 0 batch).

(** domains.py:273-274 [segment]. *)
Definition segment_rows (s : source) (a b : R) (batch : nat) : list (list R) :=
  map (fun i => [(b - a) * rnd s 0 i 0 + a]) (seq 0 batch).

(** domains.py:86-101 [round_init_data]. *)
Definition round_rows (s : source) (c : list Q) (r : R) (batch : nat) (on_border : bool)
  : list (list R) :=
  match c with
  | [c0] => segment_rows s (Q2R c0 - r) (Q2R c0 + r) batch
  | [_; _] => circle_rows s c r batch on_border
  | [_; _; _] => sphere_rows s c r batch on_border
  | _ => n_dim_rows s c r batch on_border
  end.

(** domains.py:214-231 [n_dim_ellipse_init_data]. *)
Definition ellipse_rows (s : source) (a c : list Q) (radius : R) (batch : nat) (on_border : bool)
  : list (list R) :=
  let dim := length c in
  map (fun i =>
         let u := map (gauss s 0 i) (seq 0 dim) in
         let norm := norm2 u in
         map (fun p => let '(j, (ai, ci)) := p in
                let r := (if on_border then radius * 1 else radius * root dim (rnd s 1 i j)) / Q2R ai in
                r * gauss s 0 i j / norm + Q2R ci / Q2R ai) (indexed (combine a c))) (seq 0 batch).

(** domains.py:121-135 [slice_init_data] and 235-255 [slice_3d_init_data], chosen by
    104-117 [slice_nd_init_data] (ValueError for other dimensions). *)
Definition slice_rows (s : source) (c : list Q) (r : R) (batch : nat) : option (list (list R)) :=
  match c with
  | [_; _] => Some (map (fun i =>
       let r := sqrt r in
       let angle := PI / 2 * rnd s 0 i 0 in
       let radius := r * rnd s 1 i 0 in
       add_c c [radius * cos angle; radius * sin angle]) (seq 0 batch))
  | [_; _; _] => Some (map (fun i =>
       let theta := PI / 2 * rnd s 0 i 0 in
       let phi := PI / 2 * rnd s 1 i 0 in
       let r := sqrt r in
       let radius := r * rnd s 2 i 0 in
       add_c c [radius * sin theta * cos phi; radius * sin theta * sin phi; radius * cos theta])
       (seq 0 batch))
  | _ => None
  end.

(** Rows kept by a boolean mask [data[mask]]; a missing method raises. *)
Fixpoint mask_rows (f : list R -> option bool) (rows : list (list R)) : option (list (list R)) :=
  match rows with
  | [] => Some []
  | x :: rows =>
      match f x, mask_rows f rows with
      | Some b, Some l => Some (if b then x :: l else l)
      | _, _ => None
      end
  end.

Definition onegb (o : option bool) : option bool :=
  match o with Some b => Some (negb b) | None => None end.

(** [generate_data]; [None] = no rows (EmptySet returns None) or an exception. *)
Fixpoint generate_data (S : fset) (s : source) (batch : nat) : option (list (list R)) :=
  match S with
  | Rect lb ub | OpenRect lb ub =>      (* 534-539 *)
      Some (map (square_row s lb ub) (seq 0 batch))
  | Sph c r _ | OpenSph c r _ =>        (* 685-690 *)
      Some (round_rows s c (Q2R r * Q2R r) batch false)
  | Ell a c r sel =>                    (* 840-852 *)
      Some (ellipse_rows s (pick 0%Q sel a) (pick 0%Q sel c) (Q2R r) batch false)
  | OrthSph c r => slice_rows s c (Q2R r * Q2R r) batch   (* 927-932 *)
  | Tor c ro _ _ => Some (round_rows s c (Q2R ro * Q2R ro) batch false)  (* 993-998 *)
  | UnionS s1 s2 =>                     (* 395-398 *)
      match generate_data s1 (left_source s) (batch / 2)%nat,
            generate_data s2 (right_source s) (batch / 2)%nat with
      | Some x1, Some x2 => Some (x1 ++ x2)
      | _, _ => None
      end
  | InterS s1 s2 =>                     (* 430-435 *)
      match generate_data s1 (left_source s) batch, generate_data s2 (right_source s) batch with
      | Some x1, Some x2 =>
          match mask_rows (check_containment s2) x1, mask_rows (check_containment s1) x2 with
          | Some y1, Some y2 => Some (y1 ++ y2)
          | _, _ => None
          end
      | _, _ => None
      end
  | MinusS s1 s2 =>                     (* 464-467 *)
      match generate_data s1 s batch with
      | Some x1 => mask_rows (fun x => onegb (check_containment s2 x)) x1
      | None => None
      end
  | Bean _ _ _ | EmptyS | RealsS _ | ComplS _ => None
  end.

(** domains.py:54-60 [sphere_to_cube]. *)
Definition maxabs (x : list R) : R := fold_right (fun a m => Rmax (Rabs a) m) 0 x.
Definition sphere_to_cube (x : list R) : list R :=
  if forallb (fun a => if Req_EM_T a 0 then true else false) x then x
  else map (fun a => a * (norm2 x / maxabs x)) x.
(** domains.py:63-68 [cube_move]. *)
Definition cube_move (x : list R) (lb ub : list Q) : list R :=
  map2 (fun a lu => (a + 1) * (Q2R (snd lu) - Q2R (fst lu)) / 2 + Q2R (fst lu)) x (combine lb ub).

(** [sample_border]: Rectangle 541-559, Sphere 692-697, Ellipse 854-861, Torus
    1000-1007, Union 400-406, Complement 1169-1170. *)
Fixpoint sample_border (S : fset) (s : source) (batch : nat) : option (list (list R)) :=
  match S with
  | Rect lb ub | OpenRect lb ub =>
      Some (map (fun x => cube_move (sphere_to_cube x) lb ub)
                (round_rows s (map (fun _ => 0%Q) lb) 1 batch true))
  | Sph c r _ | OpenSph c r _ => Some (round_rows s c (Q2R r * Q2R r) batch true)
  | Ell a c r _ => Some (ellipse_rows s a c (Q2R r) batch true)
  | Tor c ro _ _ => Some (round_rows s c (Q2R ro * Q2R ro) batch true)
  | UnionS s1 s2 =>
      match sample_border s1 (left_source s) (batch / 2)%nat,
            sample_border s2 (right_source s) (batch / 2)%nat with
      | Some x1, Some x2 => Some (x1 ++ x2)
      | _, _ => None
      end
  | ComplS s' => sample_border s' s batch
  | _ => None
  end.
