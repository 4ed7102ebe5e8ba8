(** * Tag: field tags and tokens (model).

    src: fast_positive/tuples/essentials.h:160-371, token.h:40-412. *)
From Verif Require Import Base.

(** ** Constants.  src: essentials.h:193-222 (tag_bits) *)
Definition genus_shift : Z := 11.
Definition id_mask : Z := 2047.                    (* (1u << ident_bitness) - 1u *)
Definition discernible_null_flag : Z := Z.shiftl 1 16.
Definition saturation_flag : Z := Z.shiftl 1 17.
Definition loose_collection_flag : Z := Z.shiftl 1 18.
Definition inlay_flag : Z := Z.shiftl 1 10.
Definition offset_shift : Z := 18.
Definition max_preplaced_offset : Z := Z.shiftl 1 14 - 3.
Definition max_ident : Z := 2047.
Definition loose_threshold : Z := Z.shiftl (max_preplaced_offset + 1) offset_shift.
Definition collection_threshold : Z := loose_threshold + loose_collection_flag.
Definition inlay_pattern : Z := loose_threshold + inlay_flag.

(** ** Genus numbers.  src: essentials.h:97-151 *)
Definition g_text := 0.   Definition g_varbin := 1.  Definition g_nested := 2.
Definition g_property := 3. Definition g_i8 := 4.    Definition g_u8 := 5.
Definition g_i16 := 6.    Definition g_u16 := 7.     Definition g_i32 := 8.
Definition g_u32 := 9.    Definition g_f32 := 10.    Definition g_t32 := 11.
Definition g_i64 := 12.   Definition g_u64 := 13.    Definition g_f64 := 14.
Definition g_d64 := 15.   Definition g_t64 := 16.    Definition g_bin96 := 17.
Definition g_bin128 := 18. Definition g_bin160 := 19. Definition g_bin192 := 20.
Definition g_bin224 := 21. Definition g_bin256 := 22. Definition g_bin320 := 23.
Definition g_bin384 := 24. Definition g_bin512 := 25. Definition g_app64 := 26.
Definition g_app128 := 27. Definition g_mac := 28.   Definition g_ip := 29.
Definition g_ipnet := 30. Definition g_hole := 31.

(** src: essentials.h:231-233 *)
Definition is_fixed_size (tag : Z) : bool := negb (Z.land tag 0xE000 =? 0).
(** src: essentials.h:235-238 (bitset of i8,u8,i16,u16) *)
Definition is_inplaced_genus (g : Z) : bool :=
  (g =? g_i8) || (g =? g_u8) || (g =? g_i16) || (g =? g_u16).
(** src: essentials.h:240-243 *)
Definition tag2genus_and_id (tag : Z) : Z := u16 tag.
(** src: essentials.h:245-247 *)
Definition tag2genus (tag : Z) : Z := Z.shiftr (u16 tag) genus_shift.
(** src: essentials.h:249-251 *)
Definition is_inplaced (tag : Z) : bool := is_inplaced_genus (tag2genus tag).
(** src: essentials.h:253-259 *)
Definition is_loose (tag : Z) : bool := loose_threshold <=? tag.
Definition is_preplaced (tag : Z) : bool := tag <? loose_threshold.
(** src: essentials.h:261-280 *)
Definition is_saturated (tag : Z) : bool := negb (Z.land tag saturation_flag =? 0).
Definition is_inlay (tag : Z) : bool := negb (Z.land tag inlay_flag =? 0).
Definition is_loose_inlay (tag : Z) : bool := Z.land tag inlay_pattern =? inlay_pattern.
Definition is_loose_collection (tag : Z) : bool := collection_threshold <=? tag.
Definition is_discernible_null (tag : Z) : bool := negb (Z.land tag discernible_null_flag =? 0).
(** src: essentials.h:282-295 *)
Definition tag2offset (tag : Z) : Z := Z.shiftr tag offset_shift.
Definition tag2indysize (tag : Z) : Z := Z.land tag id_mask.
Definition tag2id (tag : Z) : Z := Z.land tag id_mask.
(** src: essentials.h:297-305 *)
Definition descriptor2id (d : Z) : Z := Z.land d id_mask.
Definition descriptor2genus (d : Z) : Z := Z.shiftr d genus_shift.

Definition flag (b : bool) (f : Z) : Z := if b then f else 0.

(** src: essentials.h:307-317 (the constexpr_assert is a debug check only) *)
Definition make_tag (type id : Z) (collection discernible saturated : bool) : Z :=
  u32 (loose_threshold + Z.shiftl type genus_shift + id
       + flag collection loose_collection_flag
       + flag discernible discernible_null_flag
       + flag saturated saturation_flag).

(** src: essentials.h:319-328 *)
Definition make_tag_desc (desc : Z) (collection discernible saturated : bool) : Z :=
  u32 (loose_threshold + desc
       + flag collection loose_collection_flag
       + flag discernible discernible_null_flag
       + flag saturated saturation_flag).

(** src: essentials.h:330-335 (the constexpr_assert is a debug check only) *)
Definition make_hole (units : Z) : Z :=
  u32 (collection_threshold + Z.shiftl g_hole genus_shift + units).

(** src: essentials.h:337-349 *)
Definition tag_from_offset (offset type indysize : Z) (discernible saturated : bool) : Z :=
  u32 (Z.shiftl type genus_shift + Z.shiftl offset offset_shift + indysize
       + flag discernible discernible_null_flag
       + flag saturated saturation_flag).

(** src: essentials.h:351-363 *)
Definition normalize_tag (tag : Z) : Z :=
  Z.lor tag (if is_preplaced tag
             then Z.lor discernible_null_flag saturation_flag
             else Z.lor (Z.lor discernible_null_flag saturation_flag) loose_collection_flag).

(** src: essentials.h:365-371 *)
Definition tag_less (a b : Z) : bool := normalize_tag a <? normalize_tag b.
Definition tag_same (a b : Z) : bool := normalize_tag a =? normalize_tag b.

(** src: token.h:204-212 *)
Definition enforce_discernible_null (tag : Z) (v : bool) : Z :=
  if v then Z.lor tag discernible_null_flag
  else Z.land tag (2 ^ 32 - 1 - discernible_null_flag).
Definition enforce_saturation (tag : Z) (v : bool) : Z :=
  if v then Z.lor tag saturation_flag
  else Z.land tag (2 ^ 32 - 1 - saturation_flag).

(** src: token.h:392-396, 349-358: public constructor of a loose token,
    [None] = throw_invalid_argument. *)
Definition token_loose (type id : Z) (c d s : bool) : option Z :=
  if type >=? g_hole then None
  else if id >? max_ident then None
  else Some (make_tag type id c d s).

(** src: src/tablets.cxx:86-123 (genus2preplacedbytes_array) with
    fast_positive/tuples/details/meta.h:51-284 (inplaced, unit_1, unit_2, unit_n)
    and 286-622 (genus_traits specialisations; the four variable-length ones inherit
    preplaced_bytes = 4 from unit_1). *)
Definition preplaced_bytes (g : Z) : Z :=
  match g with
  | 0 | 1 | 2 | 3 => 4
  | 4 | 5 => 1
  | 6 | 7 => 2
  | 8 | 9 | 10 | 11 => 4
  | 12 | 13 | 14 | 15 | 16 => 8
  | 17 => 12 | 18 => 16 | 19 => 20 | 20 => 24 | 21 => 28
  | 22 => 32 | 23 => 40 | 24 => 48 | 25 => 64
  | 26 => 8 | 27 => 16 | 28 => 8 | 29 => 16 | 30 => 20
  | _ => 0
  end.

(** src: src/tablets.cxx:48-86 (genus2looseunits_array) with meta.h as above:
    payload units of a loose field of fixed size; 0 for variable-length types
    (meta.h:473, 504, 535, 562), for in-place types (meta.h:57) and for holes. *)
Definition loose_units (g : Z) : Z :=
  match g with
  | 8 | 9 | 10 | 11 => 1
  | 12 | 13 | 14 | 15 | 16 => 2
  | 17 => 3 | 18 => 4 | 19 => 5 | 20 => 6 | 21 => 7
  | 22 => 8 | 23 => 10 | 24 => 12 | 25 => 16
  | 26 => 2 | 27 => 4 | 28 => 2 | 29 => 4 | 30 => 5
  | _ => 0
  end.

(** src: token.h:398-403, 359-370: public constructor of a preplaced token,
    [None] = throw_invalid_argument. *)
Definition token_preplaced (offset type : Z) (d s : bool) : option Z :=
  if u64 offset >? max_preplaced_offset then None
  else if type >? g_hole then None
  else Some (tag_from_offset (u64 offset) type (preplaced_bytes type) d s).
