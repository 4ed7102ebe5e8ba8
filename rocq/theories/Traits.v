(** * Traits: the tables of the field types (fast_positive/tuples/details/meta.h).
    Convertibility between types, and how values of fixed size are copied into a tuple. *)
From Verif Require Import Base Tag.

(** ** Masks of types *)
(** src: details/utils.h:57-66 (bitset_mask), essentials.h:157 (genus_mask_t is uint32_t) *)
Definition mask (l : list Z) : Z := fold_right (fun g m => Z.lor (Z.shiftl 1 g) m) 0 l.
(** src: details/utils.h:68-71 *)
Definition test_bit (m b : Z) : bool := negb (Z.land m (u32 (Z.shiftl 1 b)) =? 0).

(** src: meta.h:288-317, the in-place types *)
Definition from_i8 : Z := mask [g_i8].
Definition from_u8 : Z := mask [g_i8].
Definition from_i16 : Z := Z.lor (Z.lor (mask [g_i16]) from_i8) from_u8.
Definition from_u16 : Z := Z.lor (mask [g_u16]) from_u8.
(** src: meta.h:321-355, 32 bits *)
Definition from_i32 : Z := Z.lor (Z.lor (mask [g_i32]) from_i16) from_u16.
Definition from_u32 : Z := Z.lor (mask [g_u32]) from_u16.
Definition from_f32 : Z := Z.lor (Z.lor (mask [g_f32]) from_i16) from_u16.
Definition from_t32 : Z := mask [g_t32; g_t64].
(** src: meta.h:359-420, 64 bits *)
Definition from_i64 : Z := Z.lor (Z.lor (mask [g_i64]) from_i32) from_u32.
Definition from_u64 : Z := Z.lor (mask [g_u64]) from_u32.
Definition from_f64 : Z := Z.lor (mask [g_i32; g_u32; g_f64]) from_f32.
Definition from_t64 : Z := mask [g_t32; g_t64].
(** src: meta.h:288-622, genus_traits<g>::trivially_convertible_from; all types not listed convert
    from themselves only, networks also from addresses (597-600) *)
Definition convertible_from (g : Z) : Z :=
  if g =? g_i8 then from_i8 else if g =? g_u8 then from_u8
  else if g =? g_i16 then from_i16 else if g =? g_u16 then from_u16
  else if g =? g_i32 then from_i32 else if g =? g_u32 then from_u32
  else if g =? g_f32 then from_f32 else if g =? g_t32 then from_t32
  else if g =? g_i64 then from_i64 else if g =? g_u64 then from_u64
  else if g =? g_f64 then from_f64 else if g =? g_t64 then from_t64
  else if g =? g_ipnet then mask [g_ip; g_ipnet]
  else mask [g].
(** src: tablets.cxx:124-162 and meta.h:637-641 (the table in the library) *)
Definition conv_table : list Z := map (fun k => convertible_from (Z.of_nat k)) (seq 0 31) ++ [mask [g_hole]].
Definition convertible_dynamic (from to : Z) : bool := test_bit (nth (Z.to_nat to) conv_table 0) from.
(** src: meta.h:736-783 (the switch for constant expressions) *)
Definition convertible_constexpr (from to : Z) : bool :=
  if to =? g_hole then from =? g_hole else test_bit (convertible_from to) from.

(** ** Values of fixed size *)
(** sizeof(value_type); src: meta.h:288-466, 592-622, types/fixed_binary.h:26-87, types/ip_address.h:37-46
    (a network is packed: 16 bytes of address and one byte of prefix length) *)
Definition value_size (g : Z) : Z :=
  if (g =? g_i8) || (g =? g_u8) then 1 else if (g =? g_i16) || (g =? g_u16) then 2
  else if (8 <=? g) && (g <=? 11) then 4
  else if ((12 <=? g) && (g <=? 16)) || (g =? g_app64) || (g =? g_mac) then 8
  else if g =? g_bin96 then 12 else if g =? g_bin128 then 16 else if g =? g_bin160 then 20
  else if g =? g_bin192 then 24 else if g =? g_bin224 then 28 else if g =? g_bin256 then 32
  else if g =? g_bin320 then 40 else if g =? g_bin384 then 48 else if g =? g_bin512 then 64
  else if (g =? g_app128) || (g =? g_ip) then 16 else if g =? g_ipnet then 17 else 0.
(** the templates unit_n copy with memcpy; the others assign *)
Definition by_memcpy (g : Z) : bool :=
  ((17 <=? g) && (g <=? 25)) || (g =? g_app128) || (g =? g_ip) || (g =? g_ipnet).

(** memcpy; [None] = it reads behind the source object, which has [length src] readable bytes *)
Definition copy_bytes (m : Z -> Z) (dst : Z) (src : list Z) (n : Z) : option (Z -> Z) :=
  if n <=? Z.of_nat (length src)
  then Some (fun x => if (dst <=? x) && (x <? dst + n) then nth (Z.to_nat (x - dst)) src 0 else m x)
  else None.
Definition fill_zero (m : Z -> Z) (dst n : Z) : Z -> Z :=
  fun x => if (dst <=? x) && (x <? dst + n) then 0 else m x.
(** Writing the object at [src] (its bytes, and whatever is readable behind it) to [dst].
    src: meta.h:86-96, 138-148, 189-199 (assignment), 241-277 (memcpy of preplaced_bytes, then the
    padding is cleared); the same for preplaced and loose fields *)
Definition write_value (g : Z) (m : Z -> Z) (dst : Z) (src : list Z) : option (Z -> Z) :=
  if by_memcpy g then
    match copy_bytes m dst src (preplaced_bytes g) with
    | Some m => Some (if preplaced_bytes g =? value_size g then m
                      else fill_zero m (dst + value_size g) (preplaced_bytes g - value_size g))
    | None => None
    end
  else copy_bytes m dst src (value_size g).
(** src: meta.h:63-73, 117-125, 168-176, 219-227 (the object is read in place) *)
Definition read_value (g : Z) (m : Z -> Z) (dst : Z) : list Z :=
  map (fun i => m (dst + Z.of_nat i)) (seq 0 (Z.to_nat (value_size g))).
