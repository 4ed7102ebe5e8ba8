(** * Native: structures of C++ laid over the preplaced part of a tuple, and the tokens made from
    their members (fast_positive/tuples/token.h, details/type2genus.h, details/meta.h). *)
From Verif Require Import Base Tag Codec Gear Tuple TupleMore Hippeus Scan Schema.

(** ** Types of members.
    src: details/type2genus.h:85-114: the types that have a field type; an enumeration of any
    underlying type (62-79), here with its size in bytes *)
Inductive ctype :=
| CBool | CI8 | CU8 | CI16 | CU16 | CI32 | CU32 | CF32 | CI64 | CU64 | CF64 | CDatetime | CDecimal
| CMac | CIp | CUuid | CBin96 | CBin128 | CBin160 | CBin192 | CBin224 | CBin256 | CBin320 | CBin384 | CBin512
| CString | CVarbin | CNested | CProperty
| CEnum (bytes : Z).
(** src: details/type2genus.h:85-114; essentials.h (boolean = i8, enumeration = i16) *)
Definition type2genus (t : ctype) : Z :=
  match t with
  | CBool => g_i8 | CI8 => g_i8 | CU8 => g_u8 | CI16 => g_i16 | CU16 => g_u16
  | CI32 => g_i32 | CU32 => g_u32 | CF32 => g_f32
  | CI64 => g_i64 | CU64 => g_u64 | CF64 => g_f64 | CDatetime => g_t64 | CDecimal => g_d64
  | CMac => g_mac | CIp => g_ip | CUuid => g_bin128
  | CBin96 => g_bin96 | CBin128 => g_bin128 | CBin160 => g_bin160 | CBin192 => g_bin192 | CBin224 => g_bin224
  | CBin256 => g_bin256 | CBin320 => g_bin320 | CBin384 => g_bin384 | CBin512 => g_bin512
  | CString => g_text | CVarbin => g_varbin | CNested => g_nested | CProperty => g_property
  | CEnum _ => g_i16
  end.
(** sizeof: of the fundamental types on the machines the library is made for, of
    types/fixed_binary.h:26-87, types/ip_address.h:24-46, types/datetime.h, types/decimal.h;
    a reference is one uint16_t (details/field.h:34, 355-398, 463-470, packed) *)
Definition csize (t : ctype) : Z :=
  match t with
  | CBool | CI8 | CU8 => 1
  | CI16 | CU16 => 2
  | CI32 | CU32 | CF32 => 4
  | CI64 | CU64 | CF64 | CDatetime | CDecimal | CMac => 8
  | CIp | CUuid | CBin128 => 16
  | CBin96 => 12 | CBin160 => 20 | CBin192 => 24 | CBin224 => 28 | CBin256 => 32
  | CBin320 => 40 | CBin384 => 48 | CBin512 => 64
  | CString | CVarbin | CNested | CProperty => 2
  | CEnum n => n
  end.
(** alignof; the fixed binaries and the references are packed *)
Definition calign (t : ctype) : Z :=
  match t with
  | CI16 | CU16 => 2
  | CI32 | CU32 | CF32 => 4
  | CI64 | CU64 | CF64 | CDatetime | CDecimal | CMac | CIp => 8
  | CEnum n => n
  | _ => 1
  end.
(** enumerations are of 1, 2, 4 or 8 bytes *)
Definition wf_ctype (t : ctype) : bool :=
  match t with CEnum n => (n =? 1) || (n =? 2) || (n =? 4) || (n =? 8) | _ => true end.
Definition is_reference (t : ctype) : bool :=
  match t with CString | CVarbin | CNested | CProperty => true | _ => false end.

(** ** Structures of standard layout: members one after the other, each at the next multiple of its
    alignment, or without gaps under pragma pack(1).  Arrays, bit fields and members that are
    structures themselves have no field type and are left out. *)
Definition align_up (x a : Z) : Z := (x + a - 1) / a * a.
Fixpoint arrange (packed : bool) (at_ : Z) (l : list ctype) : list (Z * ctype) :=
  match l with
  | [] => []
  | t :: r => let o := if packed then at_ else align_up at_ (calign t) in (o, t) :: arrange packed (o + csize t) r
  end.
(** behind the last member, and sizeof the structure *)
Fixpoint members_end (packed : bool) (at_ : Z) (l : list ctype) : Z :=
  match l with
  | [] => at_
  | t :: r => members_end packed ((if packed then at_ else align_up at_ (calign t)) + csize t) r
  end.
Definition struct_align (packed : bool) (l : list ctype) : Z :=
  if packed then 1 else fold_right (fun t a => Z.max (calign t) a) 1 l.
Definition struct_size (packed : bool) (l : list ctype) : Z :=
  align_up (members_end packed 0 l) (struct_align packed l).

(** ** Tokens of members.
    src: token.h:317-330 (token_native), 470-474 (FPTU_TOKEN, offsetof): the size in the token is
    sizeof of the member; nothing is checked (the constructor that checks offsets is not used).
    Whether tokens of members that are references compile at all depends on is_trivial of a class
    with a deleted default constructor (token.h:326-328); the example in token.h:476-497 makes
    them. *)
Definition token_native (o : Z) (t : ctype) : Z := tag_from_offset o (type2genus t) (csize t) false false.
(** src: schema.cxx:270-287: a member entered into a schema under its token *)
Definition import_member (m : name * (Z * ctype)) : def :=
  DImport (fst m) (token_native (fst (snd m)) (snd (snd m))) None false.

(** ** Access to members, [m] being the bytes from the pivot on *)
(** through the structure *)
Definition member (m : img) (o : Z) (t : ctype) : list Z := pread m o (csize t).
(** by the token: offset and type are those the token carries.
    src: getter.h:127-137, rw.h:1323-1338, rw.cxx:113-116, rw.h:1037-1046 *)
Definition get_by (m : img) (tag : Z) : rd := fixed_get (tag2genus tag) (is_discernible_null tag) m (tag2offset tag).
Definition set_by (m : img) (tag : Z) (v : list Z) : img := pwrite m (tag2offset tag) v.
Definition erase_by (m : img) (tag : Z) : bool * img :=
  erase_token_fixed (tag2genus tag) (is_discernible_null tag) m (tag2offset tag).
(** numbers in memory, low byte first *)
Fixpoint le_bytes (n : nat) (v : Z) : list Z :=
  match n with O => [] | S k => v mod 256 :: le_bytes k (v / 256) end.
Fixpoint le_value (l : list Z) : Z := match l with [] => 0 | b :: r => b + 256 * le_value r end.
Definition le_signed (l : list Z) : Z :=
  let n := 256 ^ Z.of_nat (length l) in let v := le_value l in if v <? n / 2 then v else v - n.
(** src: rw.h:430 (a short), 1323-1338 *)
Definition set_enum (m : img) (tag v : Z) : img := set_by m tag (le_bytes 2 v).
(** src: getter.h:286 *)
Definition get_enum (m : img) (tag : Z) : option Z :=
  match get_by m tag with RVal l => Some (le_signed l) | _ => None end.
(** src: rw.h:429, 431; getter.h:285 *)
Definition set_bool (m : img) (tag : Z) (b : bool) : img := set_by m tag [if b then 1 else 0].
Definition set_i8 (m : img) (tag v : Z) : img := set_by m tag (le_bytes 1 v).
Definition get_bool (m : img) (tag : Z) : option bool :=
  match get_by m tag with RVal l => Some (negb (le_signed l =? 0)) | _ => None end.
(** a member of type bool holds 0 or 1 *)
Definition bool_ok (m : img) (o : Z) : bool := (m o =? 0) || (m o =? 1).

(** calls on members: a value of the length of the type, or erasing by the token *)
Inductive mop := MSet (i : nat) (v : list Z) | MErase (i : nat).
Definition mapply (toks : list Z) (m : img) (o : mop) : img :=
  match o with
  | MSet i v => set_by m (nth i toks 0) v
  | MErase i => snd (erase_by m (nth i toks 0))
  end.
Definition mrun (toks : list Z) (m : img) (l : list mop) : img := fold_left (mapply toks) l m.

(** ** References read through the structure.
    src: meta.h:852-893, ro.cxx:293-322 (value), tuples.h:1422-1429; [nil] looks at the same
    reference as the getter by token (getter.h:152-180) *)
Inductive gave := Gave (v : list Z) | GaveEmpty | ThrewAbsent.
Definition value_nothrow (s : st) (j : nat) : gave :=
  match get_slot s j with Some p => Gave p | None => GaveEmpty end.
Definition value_or_throw (s : st) (j : nat) : gave :=
  match get_slot s j with Some p => Gave p | None => ThrewAbsent end.

(** The reference of a member laid [o] bytes behind the address [at_], and the address it stands for.
    src: field.h:372-392; internals.cxx:148-154 (test/modern) lays a structure over data(), which is
    the address of the header (details/ro.h:572), not of the preplaced part (ro.h:576) *)
Definition laid_reference (m : bmem) (at_ o : Z) : Z := half m (at_ + o).
Definition laid_payload (m : bmem) (at_ o : Z) : Z := payload_at (at_ + o) (laid_reference m at_ o).
