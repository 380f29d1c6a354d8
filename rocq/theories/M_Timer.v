(** Model of fossil/utils.py:468-527: [Timer] and the decorator [timer].  No proofs in
    this file.  Clock readings are rationals (floats idealised). *)
From Coq Require Import QArith List Bool.
Import ListNotations.

Record timer := { t_min : Q; t_max : Q; t_n : nat; t_sum : Q; t_start : Q }.
(** utils.py:485-499 [__init__], [reset]. *)
Definition reset : timer := {| t_min := inject_Z (2 ^ 63); t_max := 0; t_n := 0; t_sum := 0; t_start := 0 |}.
(** utils.py:501-502 [start]. *)
Definition start (now : Q) (t : timer) : timer :=
  {| t_min := t_min t; t_max := t_max t; t_n := t_n t; t_sum := t_sum t; t_start := now |}.
(** Python's min and max of two numbers. *)
Definition qmin (a b : Q) : Q := if Qlt_le_dec b a then b else a.
Definition qmax (a b : Q) : Q := if Qlt_le_dec a b then b else a.
(** utils.py:504-512 [stop]; [None]: the assertion fails. *)
Definition stop (now : Q) (t : timer) : option timer :=
  let diff := now - t_start t in
  if Qle_bool (t_start t) now && negb (Qle_bool (t_start t) 0)
  then Some {| t_min := qmin (t_min t) diff; t_max := qmax (t_max t) diff; t_n := S (t_n t);
               t_sum := t_sum t + diff; t_start := 0 |}
  else None.
(** utils.py:514-519 [avg]; [None]: the assertion fails. *)
Definition avg (t : timer) : option Q :=
  match t_n t with
  | O => Some 0
  | n => if Qle_bool (t_sum t) 0 then None else Some (t_sum t / inject_Z (Z.of_nat n))
  end.

Inductive call := Start (now : Q) | Stop (now : Q) | Reset.
Definition call_timer (t : option timer) (c : call) : option timer :=
  match t with
  | None => None
  | Some t => match c with Start n => Some (start n t) | Stop n => stop n t | Reset => Some reset end
  end.
(** A sequence of method calls on a new timer. *)
Definition calls (cs : list call) : option timer := fold_left call_timer cs (Some reset).

(** utils.py:468-481: a call of a function decorated with [timer(t)], entered at [a] and
    left at [b], whose body performs the timer calls [body]. *)
Definition timed (a : Q) (body : list call) (b : Q) : list call := Start a :: body ++ [Stop b].
