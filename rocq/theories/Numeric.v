(** * Numeric: the generic integer, unsigned and number setters and getters (model).

    src: fast_positive/tuples/details/rw.h:43-126, 466-815; src/rw.cxx:257-606;
    fast_positive/tuples/details/getter.h:350-429; essentials.h:84-90; meta.h:51-378.

    [float] and [double] are IEEE 754 binary32 and binary64 given by their bits; conversions
    round to nearest, ties to even.  The setters of an existing field ([set_...], rw.h) and the
    insertions into a collection ([insert_...], rw.cxx) have the same bodies and are modelled
    once: a function from the type of the field and the value to what is handed to the typed
    setter. *)
From Verif Require Import Base Tag Gear Tuple TupleMore.

(** ** Floating point *)
Inductive fval := FNan | FInf (neg : bool) | FFin (neg : bool) (a e : Z).   (* a * 2^e, a >= 0 *)
Definition smant (neg : bool) (a : Z) : Z := if neg then - a else a.
(** a format: precision [p] including the hidden bit, [w] bits in all *)
Record fmt := mkF { f_p : Z; f_w : Z }.
Definition binary32 : fmt := mkF 24 32.
Definition binary64 : fmt := mkF 53 64.
Definition f_bias (f : fmt) : Z := 2 ^ (f_w f - f_p f - 1) - 1.
Definition f_emin (f : fmt) : Z := 1 - f_bias f - (f_p f - 1).
Definition f_expmax (f : fmt) : Z := 2 ^ (f_w f - f_p f) - 1.
Definition f_inf (f : fmt) : Z := f_expmax f * 2 ^ (f_p f - 1).
Definition dec (f : fmt) (b : Z) : fval :=
  let neg := negb (b / 2 ^ (f_w f - 1) =? 0) in
  let ex := (b / 2 ^ (f_p f - 1)) mod 2 ^ (f_w f - f_p f) in
  let fr := b mod 2 ^ (f_p f - 1) in
  if ex =? f_expmax f then (if fr =? 0 then FInf neg else FNan)
  else if ex =? 0 then FFin neg fr (f_emin f)
  else FFin neg (2 ^ (f_p f - 1) + fr) (ex - 1 + f_emin f).
(** nearest integer to n / 2^k, ties to even *)
Definition rne (n k : Z) : Z :=
  if k <=? 0 then n * 2 ^ (- k)
  else let q := n / 2 ^ k in let r := n mod 2 ^ k in let half := 2 ^ (k - 1) in
       if r <? half then q else if half <? r then q + 1 else if Z.even q then q else q + 1.
Definition enc (f : fmt) (v : fval) : Z :=
  match v with
  | FNan => f_inf f + 2 ^ (f_p f - 2)
  | FInf neg => (if neg then 2 ^ (f_w f - 1) else 0) + f_inf f
  | FFin neg a e =>
    (if neg then 2 ^ (f_w f - 1) else 0) +
    (if a =? 0 then 0
     else let q := Z.max (Z.log2 a + e - (f_p f - 1)) (f_emin f) in
          Z.min (f_inf f) ((q - f_emin f) * 2 ^ (f_p f - 1) + rne a (q - e)))
  end.
(** static_cast<float/double>(integer) *)
Definition int_bits (f : fmt) (z : Z) : Z := enc f (FFin (z <? 0) (Z.abs z) 0).
Definition of_int (f : fmt) (z : Z) : fval := dec f (int_bits f z).
(** comparison *)
Definition cmp_fin (n1 : bool) (a1 e1 : Z) (n2 : bool) (a2 e2 : Z) : comparison :=
  let e := Z.min e1 e2 in (smant n1 a1 * 2 ^ (e1 - e)) ?= (smant n2 a2 * 2 ^ (e2 - e)).
Definition fcmp (x y : fval) : option comparison :=
  match x, y with
  | FNan, _ | _, FNan => None
  | FInf a, FInf b => Some (if Bool.eqb a b then Eq else if a then Lt else Gt)
  | FInf a, _ => Some (if a then Lt else Gt)
  | _, FInf b => Some (if b then Gt else Lt)
  | FFin n1 a1 e1, FFin n2 a2 e2 => Some (cmp_fin n1 a1 e1 n2 a2 e2)
  end.
Definition flt (x y : fval) : bool := match fcmp x y with Some Lt => true | _ => false end.
Definition fle (x y : fval) : bool := match fcmp x y with Some Lt | Some Eq => true | _ => false end.
(** static_cast<integer>(float/double): truncation; defined only if the result is representable *)
Definition ftrunc (v : fval) : option Z :=
  match v with
  | FFin neg a e => Some (smant neg (if 0 <=? e then a * 2 ^ e else a / 2 ^ (- e)))
  | _ => None
  end.
Definition fnan (v : fval) : bool := match v with FNan => true | _ => false end.
Definition finf (v : fval) : bool := match v with FInf _ => true | _ => false end.

(** ** Integer types *)
Definition signed_genus (g : Z) : bool := (g =? g_i8) || (g =? g_i16) || (g =? g_i32) || (g =? g_i64).
Definition unsigned_genus (g : Z) : bool := (g =? g_u8) || (g =? g_u16) || (g =? g_u32) || (g =? g_u64).
Definition int_genus (g : Z) : bool := signed_genus g || unsigned_genus g.
Definition nbits (g : Z) : Z :=
  if (g =? g_i8) || (g =? g_u8) then 8 else if (g =? g_i16) || (g =? g_u16) then 16
  else if (g =? g_i32) || (g =? g_u32) || (g =? g_f32) then 32 else 64.
Definition int_min (g : Z) : Z := if signed_genus g then - 2 ^ (nbits g - 1) else 0.
Definition int_max (g : Z) : Z := if signed_genus g then 2 ^ (nbits g - 1) - 1 else 2 ^ nbits g - 1.
(** static_cast to the value type of an integer field *)
Definition icast (g x : Z) : Z := if signed_genus g then sgn (nbits g) x else x mod 2 ^ nbits g.

(** ** What a setter hands over: an integer to set_i8..set_u64, a number to set_f32/set_f64 (the
    bits), or an exception *)
Inductive plan := PInt (z : Z) | PFlt (bits : Z) | PRange | PMismatch.

(** src: rw.h:477-496, rw.cxx:268-288 *)
Definition set_integer_i64 (g v : Z) : plan :=
  if g =? g_i64 then PInt v
  else if signed_genus g then (if v =? icast g v then PInt (icast g v) else PRange)
  else PMismatch.
(** src: rw.h:498-502, rw.cxx:290-295 *)
Definition set_integer_u64 (g v : Z) : plan :=
  if v >? 2 ^ 63 - 1 then PRange else set_integer_i64 g (sgn 64 v).
(** src: rw.h:504-523, rw.cxx:297-317 *)
Definition set_unsigned_u64 (g v : Z) : plan :=
  if g =? g_u64 then PInt v
  else if unsigned_genus g then (if v =? icast g v then PInt (icast g v) else PRange)
  else PMismatch.
(** src: rw.h:525-529, rw.cxx:319-324: goes on with the signed variant *)
Definition set_unsigned_i64 (g v : Z) : plan :=
  if v <? 0 then PRange else set_integer_u64 g (u64 v).
(** src: rw.h:531-543, rw.cxx:326-342 for types other than bin128: the value is narrowed first *)
Definition set_int128 (g v : Z) : plan := set_integer_i64 g (sgn 64 v).
Definition set_uint128 (g v : Z) : plan := set_unsigned_u64 g (u64 v).

(** the four integer variants of set_number; [lo]/[hi] are the limits of the argument's type, a
    comparison that cannot fail for that type is not written in the code.
    src: rw.h:545-706, rw.cxx:344-501; essentials.h:84-90 *)
Definition safe32 : Z := 2097151.
Definition safe64 : Z := 9007199254740991.
Definition set_number_int (lo hi : Z) (g v : Z) : plan :=
  if g =? g_f32 then (if (v <? - safe32) || (v >? safe32) then PRange else PFlt (int_bits binary32 v))
  else if g =? g_f64 then (if (lo <? - safe64) && (v <? - safe64) || (hi >? safe64) && (v >? safe64) then PRange else PFlt (int_bits binary64 v))
  else if int_genus g then
    (if (lo <? int_min g) && (v <? int_min g) || (hi >? int_max g) && (v >? int_max g) then PRange else PInt (icast g v))
  else PMismatch.
Definition set_number_i32 := set_number_int (- 2 ^ 31) (2 ^ 31 - 1).
Definition set_number_u32 := set_number_int 0 (2 ^ 32 - 1).
Definition set_number_i64 := set_number_int (- 2 ^ 63) (2 ^ 63 - 1).
Definition set_number_u64 := set_number_int 0 (2 ^ 64 - 1).

(** ** Floating point to integer.  src: rw.h:43-126 *)
Definition roundtrip_upper (f : fmt) (g : Z) : fval :=
  of_int f (int_max g - (if f_w f =? 64 then (if g =? g_u64 then 2047 else if g =? g_i64 then 1023 else 0)
                         else (if g =? g_u64 then 1099511627775 else if g =? g_i64 then 549755813887 else if g =? g_u32 then 255 else 127))).
Definition roundtrip_lower (f : fmt) (g : Z) : fval :=
  if signed_genus g then
    of_int f (int_min g + (if f_w f =? 64 then (if g =? g_i64 then 1024 else 1) else (if g =? g_i64 then 549755813888 else 128)))
  else FFin false 0 0.
Definition is_safe_roundtrip (f : fmt) (g : Z) (v : fval) : bool :=
  fle (roundtrip_lower f g) v && fle v (roundtrip_upper f g).
(** FLT_MAX *)
Definition flt_max : fval := FFin false (2 ^ 24 - 1) 104.
Definition flt_lowest : fval := FFin true (2 ^ 24 - 1) 104.
Definition is_float_genus (g : Z) : bool := (g =? g_f32) || (g =? g_f64).
(** [None]: the conversion is undefined.
    src: rw.h:708-811, rw.cxx:503-606; essentials.h:381-382 (mask_float) *)
Definition to_int (g : Z) (v : fval) : option plan :=
  match ftrunc v with
  | Some t => if (int_min g <=? t) && (t <=? int_max g) then Some (PInt t) else None
  | None => None
  end.
Definition set_number_float (f : fmt) (g : Z) (b : Z) : option plan :=
  let v := dec f b in
  if fnan v && negb (is_float_genus g || (g =? g_d64)) then Some PRange
  else if g =? g_f32 then
    (if f_w f =? 64
     then if negb (finf v) && (flt flt_max v || flt v flt_lowest) then Some PRange else Some (PFlt (enc binary32 v))
     else Some (PFlt b))
  else if g =? g_f64 then Some (PFlt (if f_w f =? 64 then b else enc binary64 v))
  else if (g =? g_i8) || (g =? g_i16) || (g =? g_u8) || (g =? g_u16) then
    (if flt v (of_int f (int_min g)) || flt (of_int f (int_max g)) v then Some PRange else to_int g v)
  else if int_genus g then (if negb (is_safe_roundtrip f g v) then Some PRange else to_int g v)
  else Some PMismatch.
(** set_float / insert_float.  src: rw.h:466-475, rw.cxx:257-266; [set_f64] refuses other types *)
Definition set_float (g : Z) (b : Z) : plan :=
  let v := dec binary64 b in
  if g =? g_f32 then (if negb (finf v) && (flt flt_max v || flt v flt_lowest) then PRange else PFlt (enc binary32 v))
  else if g =? g_f64 then PFlt b else PMismatch.

(** ** Storing *)
(** units of a loose field.  src: meta.h:89-96, 143-148, 193-198 *)
Definition int_units (g z : Z) : list Z :=
  if nbits g <=? 16 then [u16 z] else if nbits g =? 32 then [u32 z] else [u32 z; u32 (z / 2 ^ 32)].
(** [is_empty]: value == 0; for floating point also the negative zero *)
Definition fzero (w b : Z) : bool := (b =? 0) || (b =? 2 ^ (w - 1)).
Definition plan_tv (g : Z) (p : plan) : option tv :=
  match p with
  | PInt z => Some (mkV (z =? 0) (int_units g z))
  | PFlt b => Some (mkV (fzero (nbits g) b) (int_units g b))
  | _ => None
  end.
Definition store_loose (s : st) (desc : Z) (disc : bool) (p : plan) : res unit :=
  match plan_tv (descriptor2genus desc) p with
  | Some v => run1 asis s (OSet desc disc v)
  | None => Throw s
  end.
(** bytes of a preplaced field.  src: meta.h:84-88, 137-142, 187-192 *)
Fixpoint le_bytes (n : nat) (x : Z) : list Z := match n with O => [] | S m => x mod 256 :: le_bytes m (x / 256) end.
Fixpoint le_value (l : list Z) : Z := match l with [] => 0 | b :: l => b + 256 * le_value l end.
Definition int_bytes (g z : Z) : list Z := le_bytes (Z.to_nat (nbits g / 8)) z.
Definition store_preplaced (g : Z) (disc : bool) (m : img) (off : Z) (p : plan) : option img :=
  match p with
  | PInt z | PFlt z => fixed_set g disc m off (int_bytes g z)
  | _ => None
  end.

(** ** Reading.  src: getter.h:350-413 *)
Inductive reading := Got (n : Z) | GotF (v : fval) | RAbs | RMis | RRange.
Definition raw_units (g : Z) (ws : list Z) : Z :=
  if nbits g =? 64 then nth 0 ws 0 + 2 ^ 32 * nth 1 ws 0 else nth 0 ws 0.
(** the typed getter of a loose field: get_i8 .. get_u64 *)
Definition loose_int (g : Z) (disc : bool) (ws : option (list Z)) : reading :=
  match ws with
  | Some ws => Got (icast g (raw_units g ws))
  | None => if disc then RAbs else Got 0
  end.
Definition preplaced_int (g : Z) (disc : bool) (m : img) (off : Z) : reading :=
  match fixed_get g disc m off with
  | RVal bs => Got (icast g (le_value bs))
  | RAbsent => RAbs
  | REmpty => Got 0
  end.
Definition get_integer (g : Z) (typed : reading) : reading := if signed_genus g then typed else RMis.
Definition get_unsigned (g : Z) (typed : reading) : reading := if unsigned_genus g then typed else RMis.
(** get_f32/get_f64 give the bits, see [loose_bits] *)
Definition loose_bits (g : Z) (disc : bool) (ws : option (list Z)) : reading :=
  match ws with
  | Some ws => GotF (dec (if g =? g_f32 then binary32 else binary64) (raw_units g ws))
  | None => if disc then RAbs else GotF (FFin false 0 0)
  end.
(** a preplaced floating point field *)
Definition preplaced_bits (g : Z) (disc : bool) (m : img) (off : Z) : reading :=
  match fixed_get g disc m off with
  | RVal bs => GotF (dec (if g =? g_f32 then binary32 else binary64) (le_value bs))
  | RAbsent => RAbs
  | REmpty => GotF (FFin false 0 0)
  end.
Definition get_double (g : Z) (typed : reading) : reading :=
  if g =? g_f32 then match typed with GotF v => GotF (dec binary64 (enc binary64 v)) | r => r end
  else if g =? g_f64 then typed
  else if int_genus g then
    match typed with
    | Got n =>
      if (g =? g_i64) && ((n <? - safe64) || (n >? safe64)) || (g =? g_u64) && (n >? safe64) then RRange
      else GotF (of_int binary64 n)
    | r => r
    end
  else RMis.

(** ** The calls *)
Inductive call :=
| CInt (v : Z) | CIntU (v : Z)          (* set_integer(int64_t), set_integer(uint64_t) *)
| CUns (v : Z) | CUnsI (v : Z)          (* set_unsigned(uint64_t), set_unsigned(int64_t) *)
| CNum32 (v : Z) | CNumU32 (v : Z) | CNum64 (v : Z) | CNumU64 (v : Z).   (* set_number *)
Definition call_arg (c : call) : Z :=
  match c with CInt v | CIntU v | CUns v | CUnsI v | CNum32 v | CNumU32 v | CNum64 v | CNumU64 v => v end.
(** the argument is a value of the parameter's type *)
Definition call_ok (c : call) : Prop :=
  match c with
  | CInt v | CUnsI v | CNum64 v => - 2 ^ 63 <= v <= 2 ^ 63 - 1
  | CIntU v | CUns v | CNumU64 v => 0 <= v <= 2 ^ 64 - 1
  | CNum32 v => - 2 ^ 31 <= v <= 2 ^ 31 - 1
  | CNumU32 v => 0 <= v <= 2 ^ 32 - 1
  end.
Definition call_plan (g : Z) (c : call) : plan :=
  match c with
  | CInt v => set_integer_i64 g v | CIntU v => set_integer_u64 g v
  | CUns v => set_unsigned_u64 g v | CUnsI v => set_unsigned_i64 g v
  | CNum32 v => set_number_i32 g v | CNumU32 v => set_number_u32 g v
  | CNum64 v => set_number_i64 g v | CNumU64 v => set_number_u64 g v
  end.
(** insertion into a collection *)
Definition insert_loose (s : st) (desc : Z) (disc : bool) (p : plan) : res unit :=
  match plan_tv (descriptor2genus desc) p with
  | Some v => run1 asis s (OAppend desc disc v)
  | None => Throw s
  end.
