(** * Named: the setters, getters and insertions called by the name of a type (model).

    src: fast_positive/tuples/details/rw.h:413-463 (accessor_rw::set_...), 531-543 (128-bit integers),
    1206-1215 (tuple_rw::set_...); details/getter.h:279-348 (accessor_ro::get_...), 416-429;
    src/rw.cxx:141-190 (set_... by a token), 205-255, 326-342 (insert_...).
    The setters and getters for any integer or number are in Numeric.v. *)
From Verif Require Import Base Tag Codec Gear Tuple TupleMore Traits Values Numeric Typed.

Inductive name :=
| NString | NVarbinary | NNested | NProperty | NBool | NEnum
| NI8 | NU8 | NI16 | NU16 | NI32 | NU32 | NI64 | NU64 | NF32 | NF64 | NDecimal | NDatetime | NUuid | NInt128 | NUint128
| NBin96 | NBin128 | NBin160 | NBin192 | NBin224 | NBin256 | NBin320 | NBin384 | NBin512 | NIp | NMac | NIpNet.
Definition all_names : list name :=
  [NString; NVarbinary; NNested; NProperty; NBool; NEnum; NI8; NU8; NI16; NU16; NI32; NU32; NI64; NU64; NF32; NF64; NDecimal;
   NDatetime; NUuid; NInt128; NUint128; NBin96; NBin128; NBin160; NBin192; NBin224; NBin256; NBin320; NBin384; NBin512; NIp; NMac; NIpNet].

(** The type of field that [set_NAME] assigns to, given the type of the field it is called for: any
    other type is refused.  [-1]: an integer setter is called, which refuses what is not of its signedness.
    src: rw.h:413-463, 531-543; essentials.h:105, 110 (boolean is i8, enumeration is i16) *)
Definition set_type (n : name) (g : Z) : Z :=
  match n with
  | NString => g_text | NVarbinary => g_varbin | NNested => g_nested | NProperty => g_property
  | NBool => g_i8 | NEnum => g_i16 | NI8 => g_i8 | NU8 => g_u8 | NI16 => g_i16 | NU16 => g_u16
  | NI32 => g_i32 | NU32 => g_u32 | NI64 => g_i64 | NU64 => g_u64 | NF32 => g_f32 | NF64 => g_f64
  | NDecimal => g_d64 | NDatetime => if g =? g_t32 then g_t32 else g_t64
  | NUuid => g_bin128
  | NInt128 => if (g =? g_bin128) || signed_genus g then g else -1
  | NUint128 => if (g =? g_bin128) || unsigned_genus g then g else -1
  | NBin96 => g_bin96 | NBin128 => g_bin128 | NBin160 => g_bin160 | NBin192 => g_bin192 | NBin224 => g_bin224
  | NBin256 => g_bin256 | NBin320 => g_bin320 | NBin384 => g_bin384 | NBin512 => g_bin512
  | NIp => g_ip | NMac => g_mac | NIpNet => g_ipnet
  end.
(** the type [get_NAME] reads.  src: getter.h:279-348, 416-429 *)
Definition get_type (n : name) (g : Z) : Z :=
  match n with
  | NString => g_text | NVarbinary => g_varbin | NNested => g_nested | NProperty => g_property
  | NBool => g_i8 | NEnum => g_i16 | NI8 => g_i8 | NU8 => g_u8 | NI16 => g_i16 | NU16 => g_u16
  | NI32 => g_i32 | NU32 => g_u32 | NI64 => g_i64 | NU64 => g_u64 | NF32 => g_f32 | NF64 => g_f64
  | NDecimal => g_d64 | NDatetime => if g =? g_t32 then g_t32 else g_t64
  | NUuid => g_bin128
  | NInt128 => if (g =? g_bin128) || signed_genus g then g else -1
  | NUint128 => if (g =? g_bin128) || unsigned_genus g then g else -1
  | NBin96 => g_bin96 | NBin128 => g_bin128 | NBin160 => g_bin160 | NBin192 => g_bin192 | NBin224 => g_bin224
  | NBin256 => g_bin256 | NBin320 => g_bin320 | NBin384 => g_bin384 | NBin512 => g_bin512
  | NIp => g_ip | NMac => g_mac | NIpNet => g_ipnet
  end.
(** the type [insert_NAME] appends to.  src: rw.cxx:205-255, 326-342 *)
Definition insert_type (n : name) (g : Z) : Z :=
  match n with
  | NNested => g_nested | NString => g_text | NVarbinary => g_varbin | NProperty => g_property
  | NBool => g_i8 | NEnum => g_i16 | NI8 => g_i8 | NU8 => g_u8 | NI16 => g_i16 | NU16 => g_u16
  | NI32 => g_i32 | NU32 => g_u32 | NI64 => g_i64 | NU64 => g_u64 | NF32 => g_f32 | NF64 => g_f64
  | NDecimal => g_d64 | NDatetime => g_t64
  | NBin96 => g_bin96 | NBin128 => g_bin128 | NBin160 => g_bin160 | NBin192 => g_bin192 | NBin224 => g_bin224
  | NBin256 => g_bin256 | NBin320 => g_bin320 | NBin384 => g_bin384 | NBin512 => g_bin512
  | NIp => g_ip | NMac => g_mac | NIpNet => g_ipnet
  | NUuid => g_bin128
  | NInt128 => if (g =? g_bin128) || signed_genus g then g else -1
  | NUint128 => if (g =? g_bin128) || unsigned_genus g then g else -1
  end.

(** What callers pass and get: a truth value, a number (an integer; the bits of a float, a decimal or a hardware
    address; the 32.32 number of a date), or a value given by its bytes. *)
Inductive arg := ABool (b : bool) | ANum (z : Z) | AVal (v : tval).
Definition fixed (g z : Z) : tval := TFixed (le_bytes (Z.to_nat (value_size g)) z).
(** the value handed to assign<> or append_field<>, for a field of type [g]; [None]: an exception.
    src: rw.h:425 (bool to int8_t), 441-445 (dates), 531-543 (128-bit integers), rw.cxx:326-342 *)
Definition pass (n : name) (g : Z) (a : arg) : option tval :=
  match n, a with
  | NBool, ABool b => Some (fixed g (if b then 1 else 0))
  | NDatetime, ANum t => Some (fixed g (if g =? g_t32 then utc_seconds t else t))
  | NInt128, ANum z => if g =? g_bin128 then Some (fixed g z)
                       else match set_int128 g z with PInt y => Some (fixed g y) | _ => None end
  | NUint128, ANum z => if g =? g_bin128 then Some (fixed g z)
                        else match set_uint128 g z with PInt y => Some (fixed g y) | _ => None end
  | _, ANum z => Some (fixed g z)
  | _, AVal v => Some v
  | _, ABool _ => None
  end.
(** integers are given back with their sign; other numbers as bits *)
Definition number (n : name) (g : Z) (b : list Z) : Z :=
  match n with
  | NEnum | NI8 | NI16 | NI32 | NI64 => sgn (8 * value_size g) (le_value b)
  | NInt128 => if (g =? g_bin128) || signed_genus g then sgn (8 * value_size g) (le_value b) else le_value b
  | _ => le_value b
  end.
(** what a getter makes of the value it has read.  src: getter.h:285 (bool), 298-301 (dates), 416-429 *)
Definition take (n : name) (g : Z) (v : tval) : arg :=
  match n, v with
  | NBool, TFixed b => ABool (negb (sgn 8 (le_value b) =? 0))
  | NDatetime, TFixed b => ANum (if g =? g_t32 then from_seconds (le_value b) else le_value b)
  | (NEnum | NI8 | NU8 | NI16 | NU16 | NI32 | NU32 | NI64 | NU64 | NF32 | NF64 | NDecimal | NMac | NInt128 | NUint128), TFixed b => ANum (number n g b)
  | _, _ => AVal v
  end.

Inductive got := Gave (a : arg) | FromPool | NoField | WrongType.
(** the call of the tuple that a setter comes to; [None]: an exception before it, either for the type of
    the field or for the value (too long, or out of range).  src: rw.h:413-463 with 1319-1441 *)
Definition set_op (desc : Z) (disc : bool) (n : name) (a : arg) : option op :=
  let g := descriptor2genus desc in
  if g =? set_type n g then
    match pass n g a with
    | Some v => match to_tv g v with Some t => Some (OSet desc disc t) | None => None end
    | None => None
    end
  else None.
(** [coll]: the token is one of a collection.  src: rw.cxx:205-255, 326-342; rw.h:1445-1501 *)
Definition insert_op (desc : Z) (coll disc : bool) (n : name) (a : arg) : option op :=
  let g := descriptor2genus desc in
  if (g =? insert_type n g) && coll then
    match pass n g a with
    | Some v => match to_tv g v with Some t => Some (OAppend desc disc t) | None => None end
    | None => None
    end
  else None.
Definition named_call (s : st) (o : option op) : res unit := match o with Some o => run1 asis s o | None => Throw s end.
Definition answer (n : name) (g : Z) (x : seen) : got :=
  match x with
  | Seen (Some v) => Gave (take n g v)
  | Seen None => FromPool
  | Missing => NoField
  end.
(** src: getter.h:123-180, 279-348, 416-429 *)
Definition named_get (s : st) (desc : Z) (disc : bool) (n : name) : got :=
  let g := descriptor2genus desc in
  if g =? get_type n g then answer n g (see s desc disc) else WrongType.

(** ** The wrappers of the public classes *)
(** how a getter of the accessor gives its result: a value, or a reference into the tuple (or to a constant).
    src: getter.h:279-348, 416-429 *)
Inductive handing := ByValue | ByReference.
Definition accessor_hands (n : name) : handing :=
  match n with
  | NUuid | NBin96 | NBin128 | NBin160 | NBin192 | NBin224 | NBin256 | NBin320 | NBin384 | NBin512 | NIp | NIpNet => ByReference
  | _ => ByValue
  end.
(** the return type of the wrapper in the classes tuple_ro_weak, tuple_ro_managed, tuple_rw_fixed and tuple_rw_managed.
    src: tuples.h:247-291, 613-657 *)
Definition wrapper_hands (n : name) : handing :=
  match n with
  | NUuid | NInt128 | NUint128 | NBin96 | NBin128 | NBin160 | NBin192 | NBin224 | NBin256 | NBin320 | NBin384 | NBin512 | NIp | NIpNet => ByReference
  | _ => ByValue
  end.
(** [None]: the reference is to a temporary object that is gone when the wrapper returns *)
Definition wrapped_get (s : st) (desc : Z) (disc : bool) (n : name) : option got :=
  match wrapper_hands n, accessor_hands n, named_get s desc disc n with
  | ByReference, ByValue, Gave _ => None
  | _, _, x => Some x
  end.
