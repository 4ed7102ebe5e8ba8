(** * Kinds: the predicates of a token on the kind of its values (model).

    src: fast_positive/tuples/token.h:147-175; essentials.h:97-157, 375-389; details/utils.h:57-71. *)
From Verif Require Import Base Tag Gear Tuple TupleMore Numeric.

(** src: utils.h:57-66.  The masks fit into the 32 bits of genus_mask_t (essentials.h:157). *)
Fixpoint bitset_mask (items : list Z) : Z :=
  match items with [] => 0 | one :: others => Z.lor (Z.shiftl 1 one) (bitset_mask others) end.
(** src: utils.h:68-71; [MASK] is genus_mask_t *)
Definition test_bit (mask bit : Z) : bool := negb (Z.land mask (u32 (Z.shiftl 1 bit)) =? 0).

(** src: essentials.h:378-379 *)
Definition mask_integer : Z := bitset_mask [g_i8; g_u8; g_i16; g_u16; g_i32; g_u32; g_i64; g_u64].
(** src: essentials.h:381-382 *)
Definition mask_float : Z := bitset_mask [g_f32; g_f64; g_d64].
(** src: essentials.h:384-385 *)
Definition mask_signed : Z := Z.lor (bitset_mask [g_i8; g_i16; g_i32; g_i64]) mask_float.
(** src: essentials.h:387 *)
Definition mask_unsigned : Z := Z.land mask_integer (2 ^ 32 - 1 - mask_signed).
(** src: essentials.h:389 *)
Definition mask_number : Z := Z.lor mask_integer mask_float.

(** src: token.h:147-149 *)
Definition token_stretchy (t : Z) : bool := negb (is_fixed_size t).
(** src: token.h:151-153, essentials.h:105 (boolean = i8) *)
Definition token_bool (t : Z) : bool := tag2genus t =? g_i8.
(** src: token.h:154-156, essentials.h:110 (enumeration = i16) *)
Definition token_enum (t : Z) : bool := tag2genus t =? g_i16.
(** src: token.h:157 *)
Definition token_text (t : Z) : bool := tag2genus t =? g_text.
(** src: token.h:158-160 *)
Definition token_number (t : Z) : bool := test_bit mask_number (tag2genus t).
(** src: token.h:161-163 *)
Definition token_integer (t : Z) : bool := test_bit mask_integer (tag2genus t).
(** src: token.h:164-166 *)
Definition token_signed (t : Z) : bool := test_bit mask_signed (tag2genus t).
(** src: token.h:167-169 *)
Definition token_unsigned (t : Z) : bool := test_bit mask_unsigned (tag2genus t).
(** src: token.h:170-172 *)
Definition token_float (t : Z) : bool := test_bit mask_float (tag2genus t).
(** src: token.h:173-175 *)
Definition token_decimal (t : Z) : bool := tag2genus t =? g_d64.

(** [get_float]: get_f32, widened, for f32, otherwise get_f64, which throws unless the type is f64 (getter.h:
    127-129).  [typed] is the outcome of the getter of the field's own type.  src: getter.h:350-352 *)
Definition get_float (g : Z) (typed : reading) : reading :=
  if g =? g_f32 then match typed with GotF v => GotF (dec binary64 (enc binary64 v)) | r => r end
  else if negb (g =? g_f64) then RMis else typed.
