(** * Seconds: times as numbers of seconds in a double, and comparison of times (model).

    A time is its 32.32 fixed-point word (Values.v); a double is given by its bits and means what
    [dec] of Numeric.v makes of them; operations round to nearest, ties to even. *)
From Verif Require Import Base Values Numeric.

(** a result of the processor: the exact value rounded to a double *)
Definition rounded (v : fval) : fval := dec binary64 (enc binary64 v).
(** addition of doubles (IEEE 754; the sign of a zero is not told apart by anything below) *)
Definition fadd (x y : fval) : fval :=
  match x, y with
  | FNan, _ | _, FNan => FNan
  | FInf a, FInf b => if Bool.eqb a b then FInf a else FNan
  | FInf a, _ => FInf a
  | _, FInf b => FInf b
  | FFin n1 a1 e1, FFin n2 a2 e2 =>
    let e := Z.min e1 e2 in let s := smant n1 a1 * 2 ^ (e1 - e) + smant n2 a2 * 2 ^ (e2 - e) in
    rounded (FFin (s <? 0) (Z.abs s) e)
  end.
(** std::ldexp of a double by [k] *)
Definition fldexp (x : fval) (k : Z) : fval :=
  match x with FFin n a e => rounded (FFin n a (e + k)) | _ => x end.
(** src: fast_positive/tuples/types/datetime.h:163-165; the uint32_t becomes a double first *)
Definition fractional_seconds (t : Z) : fval := fldexp (of_int binary64 (fractional t)) (-32).
(** src: datetime.h:166; the uint32_t becomes a double *)
Definition seconds (t : Z) : fval := fadd (fractional_seconds t) (of_int binary64 (utc_seconds t)).

(** src: datetime.h:191-192; [sec] is a time_t *)
Definition from_time_t (sec : Z) : Z := u64 (Z.shiftl (u64 sec) 32).
(** src: datetime.h:254-271 *)
Definition dt_eq (l r : Z) : bool := l =? r.
Definition dt_ne (l r : Z) : bool := negb (dt_eq l r).
Definition dt_lt (l r : Z) : bool := l <? r.
Definition dt_gt (l r : Z) : bool := dt_lt r l.
Definition dt_le (l r : Z) : bool := negb (dt_gt l r).
Definition dt_ge (l r : Z) : bool := negb (dt_lt l r).
