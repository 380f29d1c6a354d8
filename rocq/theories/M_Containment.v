(** Model of [check_containment_grad] (domains.py), one row of a two-dimensional tensor of points. *)
From Coq Require Import Reals QArith Qreals List.
From Verif Require Import M_Syntax M_Domains.
Import ListNotations.
Local Open Scope R_scope.

(** [torch.relu]. *)
Definition relu_of (a : R) : R := Rmax 0 a.
(** [None]: Python raises, because the class has no such method, or because a set with dim_select indexes a third
    axis ([x[:, :, self.dim_select]], 709, 1022; 875 for ellipses) that a table of points does not have. *)
Fixpoint containment_grad (S : fset) (x : list R) : option R :=
  match S with
  | Rect lb ub | OpenRect lb ub =>  (* 573-581; OpenRectangle inherits it *)
      Some (relu_of (Rsum (map2 (fun a u => a - Q2R u) x ub)) + relu_of (Rsum (map2 (fun a l => Q2R l - a) x lb)))
  | Sph c r (None | Some []) | OpenSph c r (None | Some []) =>  (* 705-713; OpenSphere inherits it *)
      Some (relu_of (norm2 (minus_c x c) - Q2R r * Q2R r))
  | Ell a c r (None | Some []) =>  (* 870-879 *)
      Some (relu_of (norm2 (minus_c (map2 (fun ai xi => Q2R ai * xi) a x) c) - Q2R r * Q2R r))
  | Tor c ro ri (None | Some []) =>  (* 1018-1029 *)
      Some (relu_of (Q2R ri - norm2 (minus_c x c)) + relu_of (norm2 (minus_c x c) - Q2R ro * Q2R ro))
  | ComplS s => option_map Ropp (containment_grad s x)  (* 1159-1160 *)
  | _ => None
  end.
