(** Model of fossil/activations.py and of the function tables of consts.py.
    No proofs in this file. *)
From Coq Require Import Reals QArith List Bool Arith.
From Verif Require Import M_Syntax.
Import ListNotations.
Local Open Scope E.

(** consts.py:20-46 [ActivationType]. *)
Inductive act_type :=
| IDENTITY | RELU | LINEAR | SQUARE | POLY_2 | RELU_SQUARE | REQU
| POLY_3 | POLY_4 | POLY_5 | POLY_6 | POLY_7 | POLY_8
| EVEN_POLY_4 | EVEN_POLY_6 | EVEN_POLY_8 | EVEN_POLY_10 | RATIONAL
| TANH | TANH_SQUARE | SIGMOID | SOFTPLUS | SHIFTED_SOFTPLUS | SHIFTED_SOFTPLUS_SQUARE | COSH.

(** The classes of activations.py:61-336. *)
Inductive act :=
| AIdentity | AReLU | ASquare | APoly2 | ATanh | ATanhSquared | ASigmoid
| ASoftplus | AShiftedSoftplus | AShiftedSoftplusSquare | ACosh
| APolyN (n : nat) | AEvenPolyN (n : nat).

(** activations.py:339-391 [activation_fcn]; no branch for RATIONAL: returns None. *)
Definition activation_fcn (t : act_type) : option act :=
  match t with
  | IDENTITY => Some AIdentity
  | RELU => Some AReLU
  | LINEAR => Some AIdentity
  | SQUARE => Some ASquare
  | POLY_2 => Some APoly2
  | RELU_SQUARE => Some AReLU
  | REQU => Some AReLU
  | TANH => Some ATanh
  | TANH_SQUARE => Some ATanhSquared
  | SIGMOID => Some ASigmoid
  | SOFTPLUS => Some ASoftplus
  | SHIFTED_SOFTPLUS => Some AShiftedSoftplus
  | SHIFTED_SOFTPLUS_SQUARE => Some AShiftedSoftplusSquare
  | COSH => Some ACosh
  | POLY_3 => Some (APolyN 3)
  | POLY_4 => Some (APolyN 4)
  | POLY_5 => Some (APolyN 5)
  | POLY_6 => Some (APolyN 6)
  | POLY_7 => Some (APolyN 7)
  | POLY_8 => Some (APolyN 8)
  | EVEN_POLY_4 => Some (AEvenPolyN 4)
  | EVEN_POLY_6 => Some (AEvenPolyN 6)
  | EVEN_POLY_8 => Some (AEvenPolyN 8)
  | EVEN_POLY_10 => Some (AEvenPolyN 10)
  | RATIONAL => None
  end.

(** The symbolic library recognised by activations.py:28-38 [get_symbolic_functions]. *)
Inductive symb := SZ3 | SDREAL | SCVC5 | SSYMPY.

(** consts.py:290-347: Z3_FNCS, DREAL_FNCS, CVC5_FNCS, SP_FNCS; a missing key raises
    KeyError ([None]).  [simplify] does not change the meaning and is dropped. *)
Definition fn_exp (b : symb) : option (expr -> expr) :=
  match b with SZ3 => None | _ => Some (EUn UExp) end.
Definition fn_tanh (b : symb) : option (expr -> expr) :=
  match b with
  | SDREAL => Some (EUn UTanh)
  | SCVC5 => Some (fun x => (EUn UExp x - EUn UExp (- x)) / (EUn UExp x + EUn UExp (- x)))
  | _ => None
  end.
Definition fn_relu (b : symb) : option (expr -> expr) :=
  match b with
  | SZ3 | SCVC5 => Some (fun x => EIfPos x x (ENum 0))
  | SDREAL => Some (fun x => EBin BMax x (ENum 0))
  | SSYMPY => None
  end.
Definition fn_ifpos (b : symb) : option (expr -> expr) :=
  match b with SSYMPY => None | _ => Some (fun x => EIfPos x (ENum 1) (ENum 0)) end.

(** Classes that call dreal functions directly (204-280): only with dReal objects. *)
Definition dreal_only (b : symb) (f : expr -> expr) : option (expr -> expr) :=
  match b with SDREAL => Some f | _ => None end.

Definition option_bind {A B} (o : option A) (f : A -> option B) : option B :=
  match o with Some a => f a | None => None end.
Definition app_all (f : option (expr -> expr)) (xs : list expr) : option (list expr) :=
  option_bind f (fun f => Some (map f xs)).

(** The slices of PolyN/EvenPolyN (291-294, 319-322): [n-1] slices of width
    [int(width/n)] and the rest. *)
Definition part {A} (n : nat) (xs : list A) (i : nat) : list A :=
  let h := (length xs / n)%nat in
  if (i <? n - 1)%nat then firstn h (skipn (i * h) xs) else skipn ((n - 1) * h) xs.
Definition by_part {A B} (n : nat) (g : nat -> A -> B) (xs : list A) : list B :=
  concat (map (fun i => map (g i) (part n xs i)) (seq 0 n)).

Definition e1 : expr := ENum 1.
Definition eexp (x : expr) : expr := EUn UExp x.
Definition elog (x : expr) : expr := EUn ULog x.

(** [forward_symbolic] of each class. *)
Definition forward_symbolic (b : symb) (a : act) (xs : list expr) : option (list expr) :=
  match a with
  | AIdentity => Some xs                                            (* 67-68 *)
  | AReLU => app_all (fn_relu b) xs                                 (* 80-88 *)
  | ASquare => Some (map (fun x => x ^ 2) xs)                       (* 106-107 *)
  | APoly2 =>                                                       (* 121-124 *)
      let h := (length xs / 2)%nat in
      Some (firstn h xs ++ map (fun x => x ^ 2) (skipn h xs))
  | ATanh => app_all (fn_tanh b) xs                                 (* 138-144 *)
  | ATanhSquared =>                                                 (* 161-167 *)
      option_bind (fn_tanh b) (fun tanh => Some (map (fun x => (tanh x) ^ 2) xs))
  | ASigmoid =>                                                     (* 184-190 *)
      option_bind (fn_exp b) (fun exp => Some (map (fun x => e1 / (e1 + exp (- x))) xs))
  | ASoftplus =>                                                    (* 207-211 *)
      app_all (dreal_only b (fun x => elog (e1 + eexp x))) xs
  | AShiftedSoftplus =>                                             (* 226-230 *)
      app_all (dreal_only b (fun x => elog (e1 + eexp x) - elog (ENum 2))) xs
  | AShiftedSoftplusSquare =>                                       (* 245-249 *)
      app_all (dreal_only b (fun x => (elog (e1 + eexp x) - elog (ENum 2)) ^ 2)) xs
  | ACosh => app_all (dreal_only b (fun x => EUn UCosh x - e1)) xs  (* 269-273 *)
  | APolyN n => Some (by_part n (fun i x => x ^ (i + 1)) xs)        (* 296-301 *)
  | AEvenPolyN n => Some (by_part n (fun i x => x ^ (2 * i)) xs)    (* 324-329 *)
  end.

(** [derivative_symbolic] of each class. *)
Definition derivative_symbolic (b : symb) (a : act) (xs : list expr) : option (list expr) :=
  match a with
  | AIdentity => Some (map (fun _ => e1) xs)                        (* 70-71 *)
  | AReLU => app_all (fn_ifpos b) xs                                (* 90-97 *)
  | ASquare => Some (map (fun x => ENum 2 * x) xs)                  (* 109-110 *)
  | APoly2 =>                                                       (* 126-129 *)
      let h := (length xs / 2)%nat in
      Some (map (fun _ => e1) (firstn h xs) ++ map (fun x => ENum 2 * x) (skipn h xs))
  | ATanh =>                                                        (* 146-152 *)
      option_bind (fn_tanh b) (fun tanh => Some (map (fun x => e1 - (tanh x) ^ 2) xs))
  | ATanhSquared =>                                                 (* 169-175 *)
      option_bind (fn_tanh b)
        (fun tanh => Some (map (fun x => ENum 2 * tanh x * (e1 - (tanh x) ^ 2)) xs))
  | ASigmoid =>                                                     (* 192-198 *)
      option_bind (fn_exp b)
        (fun exp => Some (map (fun x => exp (- x) / ((e1 + exp (- x)) ^ 2)) xs))
  | ASoftplus | AShiftedSoftplus =>                                 (* 213-217, 232-236 *)
      app_all (dreal_only b (fun x => e1 / (e1 + eexp (- x)))) xs
  | AShiftedSoftplusSquare =>                                       (* 251-260 *)
      app_all (dreal_only b (fun x =>
        ENum 2 * eexp x * elog (ENum (1#2) * (e1 + eexp x)) / (e1 + eexp x))) xs
  | ACosh => app_all (dreal_only b (EUn USinh)) xs                  (* 275-279 *)
  | APolyN n => Some (by_part n (fun i x => ENum (Z.of_nat (i + 1) # 1) * x ^ i) xs)  (* 303-308 *)
  | AEvenPolyN n =>                                                 (* 331-336; x ** -1 for i = 0 *)
      Some (by_part n (fun i x =>
        match i with
        | O => ENum 0 * (e1 / x)
        | S _ => ENum (Z.of_nat (2 * i) # 1) * x ^ (2 * i - 1)
        end) xs)
  end.

(** ** Numeric [forward] on one row. *)
Local Open Scope R_scope.

(** torch.nn.functional.softplus: beta=1, reverts to the identity above threshold 20. *)
Definition torch_softplus (x : R) : R := if Rlt_dec 20 x then x else ln (1 + exp x).
Definition torch_sigmoid (x : R) : R := / (1 + exp (- x)).

Definition forward (a : act) (xs : list R) : list R :=
  match a with
  | AIdentity => xs                                            (* 64-65 *)
  | AReLU => map (fun x => Rmax 0 x) xs                        (* 77-78 *)
  | ASquare => map (fun x => x ^ 2) xs                         (* 103-104 *)
  | APoly2 =>                                                  (* 116-119 *)
      let h := (length xs / 2)%nat in firstn h xs ++ map (fun x => x ^ 2) (skipn h xs)
  | ATanh => map tanh xs                                       (* 135-136 *)
  | ATanhSquared => map (fun x => (tanh x) ^ 2) xs             (* 158-159 *)
  | ASigmoid => map torch_sigmoid xs                           (* 181-182 *)
  | ASoftplus => map torch_softplus xs                         (* 204-205 *)
  | AShiftedSoftplus => map (fun x => torch_softplus x - ln 2) xs          (* 223-224 *)
  | AShiftedSoftplusSquare => map (fun x => (torch_softplus x - ln 2) ^ 2) xs  (* 242-243 *)
  | ACosh => map (fun x => cosh x - 1) xs                      (* 266-267 *)
  | APolyN n => by_part n (fun i x => x ^ (i + 1)) xs          (* 289-294 *)
  | AEvenPolyN n => by_part n (fun i x => x ^ (2 * i)) xs      (* 317-322 *)
  end.
