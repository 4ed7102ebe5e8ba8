(** * Aligned: the addresses of typed reads and writes (model).

    src: fast_positive/tuples/details/meta.h:51-235: values are read, compared with the designated value of
    "no value" and, for one and two units, written through a plain pointer to their type, so the address has
    to suit the type (otherwise the behaviour is undefined).  field.h:339-352 has unaligned members for the
    64-bit types; the functions of meta.h do not use them.  The copies with memcpy (meta.h:241-283) and the
    scans of the index (loads of any address) ask for nothing and are left out.

    src: rw.h:216-263: on a 64-bit machine area_ begins 40 bytes behind the beginning of the tuple; a unit is
    four bytes. *)
From Verif Require Import Base Tag Codec Gear Tuple TupleMore Hippeus Scan Audit Image References.

(** alignof(value_type).  src: meta.h:288-466, 592-622; types/fixed_binary.h:24-89 (packed),
    types/ip_address.h:24-46 (a union with 64-bit members; the network is packed), types/mac_address.h:22-33,
    types/decimal.h:57-61, types/datetime.h:95-102.  Variable-length types are read as bytes and 16-bit
    lengths of packed structures (field.h:86, 143-185). *)
Definition value_align (g : Z) : Z :=
  if (g =? g_i16) || (g =? g_u16) then 2
  else if (g_i32 <=? g) && (g <=? g_t32) || (g =? g_app128) then 4
  else if (g_i64 <=? g) && (g <=? g_t64) || (g =? g_app64) || (g =? g_mac) || (g =? g_ip) then 8
  else 1.
(** alignof(int128_t); src: getter.h:416-428, types/integer128.h:26-27: a value of
    128 bits read as a number *)
Definition int128_align : Z := 16.

Definition area_offset : Z := 40.
(** the address of a unit of the area, in bytes; [base]: where the tuple is *)
Definition address (base x : Z) : Z := base + area_offset + 4 * x.
Definition suits (a align : Z) : bool := a mod align =? 0.

(** ** Loose fields *)
(** where the value is: in the entry of the index, whose first half it is (field.h:404-417), or apart.
    src: meta.h:66-73, 121-125, 172-176, 223-227 *)
Definition loose_at (s : st) (k : nat) : Z := if is_inplaced_genus (egenus (idx s k)) then own s k else addr s k.
Inductive typed := TAbsent | TValue (v : list Z) | TMisaligned.
(** src: getter.h:139-190 *)
Definition typed_get (base : Z) (s : st) (desc : Z) : typed :=
  match lookup_gid s desc with
  | None => TAbsent
  | Some k => if suits (address base (loose_at s k)) (value_align (descriptor2genus desc)) then TValue (value s (RL k)) else TMisaligned
  end.
(** src: getter.h:416-428 with a loose field of 128 bits *)
Definition get_int128 (base : Z) (s : st) (id : Z) : typed :=
  match lookup_gid s (g_bin128 * 2048 + id) with
  | None => TAbsent
  | Some k => if suits (address base (addr s k)) int128_align then TValue (value s (RL k)) else TMisaligned
  end.
(** the same field of the read-only form of the tuple that begins at [ptr].  src: rw.cxx:632-646, ro.h;
    the header lies before the index *)
Definition ro_address (ptr : Z) (s : st) (x : Z) : Z := ptr + 4 * (x - (head s - 1)).
Definition typed_get_ro (ptr : Z) (s : st) (desc : Z) : typed :=
  match lookup_gid s desc with
  | None => TAbsent
  | Some k => if suits (ro_address ptr s (loose_at s k)) (value_align (descriptor2genus desc)) then TValue (value s (RL k)) else TMisaligned
  end.
(** the reference a getter gives is bound to an object of the type; the zeroes it gives instead begin at a
    multiple of 64.  src: meta.h:219-230, tablets.cxx:29 *)
Definition reference_suits (base g : Z) (p : place) : bool :=
  match p with InTuple a _ => suits (address base a) (value_align g) | Zeros _ => true end.

(** ** Preplaced fields of fixed size.  src: getter.h:127-137, meta.h:55-65, 112-120, 163-171, 214-222;
    [off] bytes behind the pivot *)
Definition pre_address (base : Z) (s : st) (off : Z) : Z := address base (pivot s) + off.
Definition pre_suits (base : Z) (s : st) (off g : Z) : bool := suits (pre_address base s off) (value_align g).
Inductive typed_rd := PRead (r : rd) | PMisaligned.
Definition typed_pre (base : Z) (s : st) (g : Z) (disc : bool) (m : img) (off : Z) : typed_rd :=
  if pre_suits base s off g then PRead (fixed_get g disc m off) else PMisaligned.
