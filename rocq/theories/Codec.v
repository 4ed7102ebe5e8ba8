(** * Codec: variable-length payload formats (model).

    src: fast_positive/tuples/details/field.h:39-336.
    A payload is modelled as the list of its bytes (little-endian target);
    writing through a pointer is [blit].  A [store] function receives the old
    contents of the memory chunk, as the C++ code does, so that stale bytes left in
    the result would be visible. *)
From Verif Require Import Base.

(** Copy [bs] over [m] starting at byte [off] (memcpy / assignment through a pointer). *)
Definition blit (m : list Z) (off : Z) (bs : list Z) : list Z :=
  firstn (Z.to_nat off) m ++ bs ++ skipn (Z.to_nat off + length bs) m.

(** Read [n] bytes starting at byte [off]. *)
Definition peek (m : list Z) (off n : Z) : list Z :=
  firstn (Z.to_nat n) (skipn (Z.to_nat off) m).

Definition byte_at (m : list Z) (i : Z) : Z := nth (Z.to_nat i) m 0.
Definition u16_at (m : list Z) (i : Z) : Z := byte_at m i + 256 * byte_at m (i + 1).
Definition u32_at (m : list Z) (i : Z) : Z := u16_at m i + 65536 * u16_at m (i + 2).
Definition u16_bytes (x : Z) : list Z := [u16 x mod 256; u16 x / 256].

Definition zlen {A} (l : list A) : Z := Z.of_nat (length l).

(** ** Strings.  src: field.h:39-111 *)
Definition tiny_threshold : Z := 254.
Definition string_max_length : Z := 65535 * 2 + 255.

(** src: field.h:72-73, 82-84 *)
Definition string_units (n : Z) : Z :=
  bytes2units (n + (if n <? tiny_threshold then 1 else 3)).

(** src: field.h:69-77; [None] = throw_value_too_long *)
Definition string_estimate (n : Z) : option Z :=
  if n >? string_max_length then None else Some (string_units n).

(** src: field.h:79-99 (asserts omitted) *)
Definition string_store (m v : list Z) : list Z :=
  let n := zlen v in
  let m1 := blit m (4 * (string_units n - 1)) [0; 0; 0; 0] in
  let m2 := blit m1 0 [u8 n] in
  if n >=? tiny_threshold then
    let prefix := u8 (tiny_threshold + Z.land n 1) in
    let suffix := u16 (Z.shiftr (n - prefix) 1) in
    let m3 := blit m2 0 [prefix] in
    let m4 := blit m3 1 (u16_bytes suffix) in
    blit m4 3 v
  else blit m2 1 v.

(** src: field.h:56-62 *)
Definition string_is_tiny (m : list Z) : bool := byte_at m 0 <? tiny_threshold.
Definition string_length (m : list Z) : Z :=
  if string_is_tiny m then byte_at m 0 else byte_at m 0 + u16_at m 1 * 2.

(** src: field.h:63-67 *)
Definition string_brutto_units (m : list Z) : Z :=
  bytes2units (if string_is_tiny m then 1 + byte_at m 0
               else 3 + byte_at m 0 + u16_at m 1 * 2).

(** src: field.h:53-55 *)
Definition string_is_pool_tag (m : list Z) : bool :=
  (byte_at m 0 =? 0) && (u32_at m 0 >? 0).

Inductive text_value := Pool | Str (bytes : list Z).

(** src: details/meta.h:481-487 (genus_traits<text>::read) with field.h:101-104 *)
Definition string_read (m : list Z) : text_value :=
  if string_is_pool_tag m then Pool
  else Str (peek m (if string_is_tiny m then 1 else 3) (string_length m)).

(** ** Variable-length binary.  src: field.h:113-159 *)

(** src: field.h:127-132; [None] = throw_value_too_long *)
Definition varbin_estimate (n : Z) : option Z :=
  let brutto := bytes2units n + 1 in
  if brutto >? 65535 then None else Some brutto.

(** src: field.h:134-147 *)
Definition varbin_store (m v : list Z) : list Z :=
  let n := zlen v in
  let brutto := bytes2units n + 1 in
  let m1 := blit m (4 * (brutto - 1)) [0; 0; 0; 0] in
  let m2 := blit m1 0 (u16_bytes brutto) in
  let m3 := blit m2 2 (u16_bytes (Z.land n 3)) in
  blit m3 4 v.

(** src: field.h:120-125; the result is a 64-bit [size_t] *)
Definition varbin_length (m : list Z) : Z :=
  u64 (units2bytes (u16_at m 0) - 4 + Z.land (u16_at m 2) 3).

(** src: field.h:301-317 with 115 (brutto_units member) *)
Definition varbin_brutto_units (m : list Z) : Z := u16_at m 0.

(** src: details/meta.h:512-517 (genus_traits<varbin>::read); the memory after the chunk
    is passed explicitly because the length may exceed the chunk. *)
Definition varbin_read (m after : list Z) : list Z := peek (m ++ after) 4 (varbin_length m).

(** ** Properties.  src: field.h:255-292 *)

(** src: field.h:272-277; [None] = throw_value_too_long *)
Definition property_estimate (n : Z) : option Z :=
  if n >? 255 then None else Some (bytes2units (n + 2)).

(** src: field.h:279-288 *)
Definition property_store (m v : list Z) (id : Z) : list Z :=
  let n := zlen v in
  let m1 := blit m (4 * (bytes2units (n + 2) - 1)) [0; 0; 0; 0] in
  let m2 := blit m1 0 [u8 n] in
  let m3 := blit m2 1 [u8 id] in
  blit m3 2 v.

(** src: field.h:263-270 *)
Definition property_brutto_units (m : list Z) : Z := bytes2units (2 + byte_at m 0).

(** src: details/meta.h:569-576 (genus_traits<property>::read) *)
Definition property_read (m : list Z) : list Z * Z := (peek m 2 (byte_at m 0), byte_at m 1).

(** ** Nested tuples.  src: field.h:161-253 *)

(** src: field.h:199-202 ([None] argument = nullptr) *)
Definition nested_estimate (v : option (list Z)) : Z :=
  match v with Some t => u16_at t 0 | None => 0 end.

(** src: field.h:204-212 *)
Definition nested_store (m : list Z) (v : option (list Z)) : list Z :=
  let m1 := blit m 0 (u16_bytes 0) in
  let m2 := blit m1 2 (u16_bytes 0) in
  match v with
  | Some t => blit m2 0 (peek t 0 (units2bytes (u16_at t 0)))
  | None => m2
  end.

(** src: field.h:178-197 *)
Definition nested_brutto_units (m : list Z) : Z := u16_at m 0.
Definition nested_index_size (m : list Z) : Z := Z.shiftr (u16_at m 2) 3.
Definition nested_is_sorted (m : list Z) : bool := negb (Z.land (u16_at m 2) 1 =? 0).
Definition nested_have_preplaced (m : list Z) : bool := negb (Z.land (u16_at m 2) 2 =? 0).

(** src: field.h:181-185 (asserts omitted) *)
Definition looseitems_flags (count flags : Z) : Z := u16 (Z.shiftl count 3 + flags).

(** ** Size of any variable-length payload.  src: field.h:301-317 *)
Definition stretchy_brutto_units (genus : Z) (m : list Z) : Z :=
  if genus =? 0 then string_brutto_units m
  else if genus =? 1 then varbin_brutto_units m
  else if genus =? 2 then nested_brutto_units m
  else property_brutto_units m.
