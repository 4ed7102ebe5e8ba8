(** * Assign: the assignment operators of accessors, [tuple\[token\] = value] (model).

    src: fast_positive/tuples/details/rw.h:404-410, 808-872; fast_positive/tuples/string_view.h:70-81. *)
From Verif Require Import Base Tag Codec Gear GearBase Tuple TupleMore Values Typed Numeric Named.

(** ** What may stand on the right, by the overload that the compiler takes for it.
    src: rw.h:817-871.  Overloads of set_number: rw.h:544-806; the narrow integers are promoted to int.
    [SChars b]: a pointer to, or an array of, the characters [b] (for both the same overload of string_view);
    [SNull]: a null pointer to characters; [SOther n a]: the argument of the setter [n];
    [SField]: the accessor of another field with a token of the same C++ type (the defaulted operator).
    Simplification: the overload for std::array<char, n> is left out, it compiles for no n (string_view has no such
    constructor). *)
Inductive source :=
| SText (b : list Z) | SChars (b : list Z) | SNull | SBool (b : bool)
| SI8 (z : Z) | SU8 (z : Z) | SI16 (z : Z) | SU16 (z : Z) | SI32 (z : Z) | SU32 (z : Z) | SI64 (z : Z) | SU64 (z : Z)
| SF32 (bits : Z) | SF64 (bits : Z) | SOther (n : name) (a : arg) | SField (desc : Z).
(** the setters that have an overload of their own type.  src: rw.h:818-819, 831-847 *)
Definition other (n : name) : bool :=
  match n with
  | NNested | NProperty | NDecimal | NDatetime | NUuid | NInt128 | NUint128 | NBin96 | NBin128 | NBin160 | NBin192 | NBin224 | NBin256
  | NBin320 | NBin384 | NBin512 | NIp | NMac | NIpNet => true
  | _ => false
  end.
(** strlen; [None]: the end is not found in the array.  src: string_view.h:70-73 *)
Fixpoint c_string (b : list Z) : option (list Z) :=
  match b with
  | [] => None
  | x :: b => if x =? 0 then Some [] else option_map (cons x) (c_string b)
  end.

(** a call of the tuple; an exception before it; only the accessor on the left is changed; undefined *)
Inductive effect := Does (o : op) | Refuses | Rebinds | Undefined.
Definition by_name (desc : Z) (disc : bool) (n : name) (a : arg) : effect :=
  match set_op desc disc n a with Some o => Does o | None => Refuses end.
Definition by_plan (desc : Z) (disc : bool) (p : plan) : effect :=
  match plan_tv (descriptor2genus desc) p with Some v => Does (OSet desc disc v) | None => Refuses end.
(** src: rw.h:810-871 *)
Definition assigned (desc : Z) (disc : bool) (x : source) : effect :=
  let g := descriptor2genus desc in
  match x with
  | SText b => by_name desc disc NString (AVal (TText b))
  | SChars b => match c_string b with Some t => by_name desc disc NString (AVal (TText t)) | None => Undefined end
  | SNull => by_name desc disc NString (AVal (TText []))
  | SBool b => by_name desc disc NBool (ABool b)
  | SI8 z | SU8 z | SI16 z | SU16 z | SI32 z => by_plan desc disc (call_plan g (CNum32 z))
  | SU32 z => by_plan desc disc (call_plan g (CNumU32 z))
  | SI64 z => by_plan desc disc (call_plan g (CNum64 z))
  | SU64 z => by_plan desc disc (call_plan g (CNumU64 z))
  | SF32 b => match set_number_float binary32 g b with Some p => by_plan desc disc p | None => Undefined end
  | SF64 b => match set_number_float binary64 g b with Some p => by_plan desc disc p | None => Undefined end
  | SOther n a => if other n then by_name desc disc n a else Undefined
  | SField _ => Rebinds
  end.
(** src: rw.h:811-815: the value is set *)
Definition put (s : st) (desc : Z) (disc : bool) (x : source) : res unit :=
  match assigned desc disc x with
  | Does o => run1 asis s o
  | Refuses => Throw s
  | Rebinds => Ok tt s
  | Undefined => Bad
  end.
(** [t\[d1\] = t\[d2\] = … = x]: every assignment gives its value to the one on its left.
    src: rw.h:811-815, 849-871; the right side first, as C++17 says and as CMakeLists.txt:108-119 asks for *)
Fixpoint chain (s : st) (l : list (Z * bool)) (x : source) : res unit :=
  match l with
  | [] => Ok tt s
  | (desc, disc) :: l => bind (chain s l x) (fun _ s => put s desc disc x)
  end.
