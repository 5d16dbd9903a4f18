(** Model of the bracketing root finder [fzero_brent]: karta/geodesy.py:734-818.  Numbers
    are reals and the function is an arbitrary total function that gives the same value
    each time it is asked (rounding and stateful or raising functions are not modelled).
    Division by zero is an outcome of its own. *)
From Coq Require Import Reals Bool Arith.
From Verif Require Import Sphere_Model.
Open Scope R_scope.

(** What a call does: returns a number or raises. geodesy.py:734-818 [fzero_brent]. *)
Inductive brent_result : Type :=
| Root (x : R)
| NotBracketed          (* geodesy.py:760-761 ValueError *)
| TooManyIterations     (* geodesy.py:818 RuntimeError *)
| ZeroDivision.         (* a Python float division by zero *)

(** The loop variables a, b, c, d, fa, fb and mflag; [d] is None for the initial nan.
    geodesy.py:755-768. *)
Record brent_state : Type := BState
  { st_a : R; st_b : R; st_c : R; st_d : option R; st_fa : R; st_fb : R; st_mflag : bool }.

(** geodesy.py:773-781, the trial point by inverse quadratic interpolation or the secant;
    None when a divisor is 0. *)
Definition trial (f : R -> R) (st : brent_state) : option R :=
  let a := st_a st in let b := st_b st in let c := st_c st in
  let fa := st_fa st in let fb := st_fb st in let fc := f c in
  if negb (req fa fc) && negb (req fb fc) then
    if req ((fa - fb) * (fa - fc)) 0 || req ((fb - fa) * (fb - fc)) 0 || req ((fc - fa) * (fc - fb)) 0 then None else
    Some (a * fb * fc / ((fa - fb) * (fa - fc)) + b * fa * fc / ((fb - fa) * (fb - fc)) + c * fa * fb / ((fc - fa) * (fc - fb)))
  else if req (fb - fa) 0 then None else Some (b - fb * (b - a) / (fb - fa)).

(** A comparison with |c - d|: every comparison with nan is False. geodesy.py:783-787. *)
Definition cmp_d (d : option R) (test : R -> bool) : bool := match d with Some x => test x | None => false end.

(** geodesy.py:783-787, whether the trial point is rejected in favour of bisection.
    [~mflag] is the integer -2 or -1 in Python, which is always true. *)
Definition rejected (st : brent_state) (s : R) : bool :=
  let a := st_a st in let b := st_b st in let c := st_c st in
  let third := 25 / 100 * (3 * a + b) in
  let delta := 1 / 10000000000 in
  (negb (rlt third s && rlt s b) && negb (rlt b s && rlt s third))
  || (st_mflag st && rle (5 / 10 * Rabs (b - c)) (Rabs (s - b)))
  || cmp_d (st_d st) (fun d => rle (5 / 10 * Rabs (c - d)) (Rabs (s - b)))
  || (st_mflag st && rlt (Rabs (b - c)) (Rabs delta))
  || cmp_d (st_d st) (fun d => rlt (Rabs (c - d)) (Rabs delta)).

(** geodesy.py:771-816, one pass through the loop: an answer or the next state. *)
Definition brent_step (f : R -> R) (tol : R) (st : brent_state) : brent_result + brent_state :=
  match trial f st with
  | None => inl ZeroDivision
  | Some s0 =>
    let a := st_a st in let b := st_b st in
    let bisect := rejected st s0 in
    let s := if bisect then 5 / 10 * (a + b) else s0 in
    let fs := f s in
    let d := st_c st in
    let c := b in
    let fa := f a in let fb := f b in
    let '(a, fa, b, fb) := if rlt (fa * fs) 0 then (a, fa, s, fs) else (s, fs, b, fb) in
    let '(a, fa, b, fb) := if rlt (Rabs fa) (Rabs fb) then (b, fb, a, fa) else (a, fa, b, fb) in
    if req fb 0 then inl (Root b)
    else if req (f s) 0 then inl (Root s)
    else if rlt (Rabs (b - a)) tol then inl (Root b)
    else inr (BState a b c (Some d) fa fb bisect)
  end.

(** geodesy.py:770-818, the loop; [n] is the number of passes left. *)
Fixpoint brent_loop (f : R -> R) (tol : R) (n : nat) (st : brent_state) : brent_result :=
  match n with
  | O => TooManyIterations
  | S n' => match brent_step f tol st with inl r => r | inr st' => brent_loop f tol n' st' end
  end.

(** geodesy.py:755-768, the state before the loop: the brackets may be exchanged, but the
    values [fa] and [fb] are not. *)
Definition brent_start (f : R -> R) (a b : R) : brent_state :=
  let fa := f a in let fb := f b in
  let '(a, b) := if rlt (Rabs fa) (Rabs fb) then (b, a) else (a, b) in
  BState a b a None fa fb true.

(** geodesy.py:734-818 [fzero_brent]; 1000 passes are allowed. *)
Definition fzero_brent (a b : R) (f : R -> R) (tol : R) : brent_result :=
  let fa := f a in let fb := f b in
  if req fa 0 then Root a
  else if req fb 0 then Root b
  else if rlt 0 (fa * fb) then NotBracketed
  else brent_loop f tol 1000 (brent_start f a b).
