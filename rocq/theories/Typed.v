(** * Typed: values of the field types as callers see them, and the units they are kept in.

    src: fast_positive/tuples/details/meta.h (genus_traits<>::write, read, is_empty, empty,
    estimate_space), getter.h:123-180, rw.h:1319-1441.
    A chunk of a tuple is a list of 32-bit units here and a list of bytes in Codec.v; a unit is four
    bytes, little-endian.  Simplification: the values are written to a chunk of zeros; C77 shows that
    the old contents of a chunk never matter. *)
From Verif Require Import Base Tag Codec Gear Tuple TupleMore Traits.

Fixpoint pack (l : list Z) : list Z :=
  match l with
  | a :: b :: c :: d :: r => (a + 256 * b + 65536 * c + 16777216 * d) :: pack r
  | [a; b; c] => [a + 256 * b + 65536 * c]
  | [a; b] => [a + 256 * b]
  | [a] => [a]
  | [] => []
  end.
Definition unpack (ws : list Z) : list Z := flat_map unit_bytes ws.

(** values: text, binary, nested tuple (or a null pointer), property, and the bytes of an object of
    fixed size *)
Inductive tval :=
| TText (b : list Z) | TBin (b : list Z) | TNested (t : option (list Z)) | TProp (b : list Z) (id : Z)
| TFixed (b : list Z).

Definition blank (n : Z) : list Z := repeat 0 (Z.to_nat (4 * n)).
(** the number kept in the index for the in-place types.  src: meta.h:90-97 *)
Definition cell (g : Z) (b : list Z) : Z :=
  if g =? g_i8 then u16 (sgn 8 (nth 0 b 0)) else if g =? g_u8 then nth 0 b 0 else nth 0 b 0 + 256 * nth 1 b 0.
(** is_empty.  src: meta.h:78-80 (in-place), 130-132 (f32: the comparison of floats also takes -0.0),
    181-183, 233-235, 367-369, 379-381, 393-395 (f64, likewise), 405-407, 416-418, 489-491, 519-521,
    546-548, 578-580, 605-607, 613-615.  Simplification: decimal64 is the fallback union of
    types/decimal.h:57-75, compared as a 64-bit integer. *)
Definition is_empty (g : Z) (v : tval) : bool :=
  match v with
  | TText b | TBin b => match b with [] => true | _ => false end
  | TNested None => true
  | TNested (Some t) => u16_at t 0 <? 2
  | TProp b id => match b with [] => id =? 0 | _ => false end
  | TFixed b => forallb (fun x => x =? 0) b ||
      (((g =? g_f32) || (g =? g_f64)) && forallb (fun x => x =? 0) (removelast b) && (last b 0 =? 128))
  end.
(** empty.  src: meta.h:74-76, 126-128, 177-179, 228-231, 413-415, 478-480, 509-511, 539, 566-568 *)
Definition empty_value (g : Z) : tval :=
  if g =? g_text then TText [] else if g =? g_varbin then TBin [] else if g =? g_nested then TNested None
  else if g =? g_property then TProp [] 0 else TFixed (repeat 0 (Z.to_nat (value_size g))).
(** estimate_space and write; [None]: the value is too long, or not of the type.
    src: meta.h:86-97, 138-148, 189-199, 241-274, 492-498, 522-528, 549-555, 581-587 *)
Definition to_tv (g : Z) (v : tval) : option tv :=
  match v with
  | TText b =>
    if g =? g_text then
      match string_estimate (zlen b) with
      | Some n => Some (mkV (is_empty g v) (pack (string_store (blank n) b)))
      | None => None
      end
    else None
  | TBin b =>
    if g =? g_varbin then
      match varbin_estimate (zlen b) with
      | Some n => Some (mkV (is_empty g v) (pack (varbin_store (blank n) b)))
      | None => None
      end
    else None
  | TNested t =>
    if g =? g_nested then
      Some (mkV (is_empty g v) (match t with Some _ => pack (nested_store (blank (nested_estimate t)) t) | None => [] end))
    else None
  | TProp b id =>
    if g =? g_property then
      match property_estimate (zlen b) with
      | Some n => Some (mkV (is_empty g v) (pack (property_store (blank n) b id)))
      | None => None
      end
    else None
  | TFixed b =>
    if (g_i8 <=? g) && (g <? g_hole) && (zlen b =? value_size g)
    then Some (mkV (is_empty g v) (if is_inplaced_genus g then [cell g b] else pack b))
    else None
  end.
(** read.  [None]: a string from the pool.  src: meta.h:63-73, 117-125, 168-176, 219-227, 481-487, 512-517,
    540-544, 569-576 *)
Definition from_bytes (g : Z) (m : list Z) : option tval :=
  if g =? g_text then match string_read m with Str b => Some (TText b) | Pool => None end
  else if g =? g_varbin then Some (TBin (varbin_read m []))
  else if g =? g_nested then Some (TNested (Some m))
  else if g =? g_property then Some (TProp (fst (property_read m)) (snd (property_read m)))
  else Some (TFixed (firstn (Z.to_nat (value_size g)) m)).
Definition from_units (g : Z) (ws : list Z) : option tval := from_bytes g (unpack ws).

(** what a getter gives: a value ([None]: a string from the pool), or the exception field_absent.
    src: getter.h:123-180 *)
Inductive seen := Seen (v : option tval) | Missing.
Definition seen_of (g : Z) (r : rd) : seen :=
  match r with RVal ws => Seen (from_units g ws) | REmpty => Seen (Some (empty_value g)) | RAbsent => Missing end.
Definition see (s : st) (desc : Z) (disc : bool) : seen := seen_of (descriptor2genus desc) (read_loose s desc disc).
Definition see_slot (s : st) (j : nat) (disc : bool) : seen := seen_of (stype s j) (read_slot s j disc).
