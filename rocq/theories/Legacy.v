(** * Legacy: the C interface (model).

    src: src/compat_common.cxx, src/compat_field.cxx, src/compat_ro.cxx, src/compat_rw.cxx,
    fast_positive/tuples/legacy.h, fast_positive/tuples/details/legacy_compat.h.

    Built on top of Tuple.v and Codec.v.  A position [k] of the index stands for the pointer
    [end_index() - 1 - k]; hence the range from [begin] to [end] of a scan is the list of the
    positions [n - 1, ..., 0] in this order. *)
From Verif Require Import Base Tag Codec Gear Tuple TupleMore.

(** ** Types and filters *)
(** src: legacy_compat.h:23-25 *)
Definition genus2legacy (g : Z) : Z := make_tag g 0 true true false.
(** src: legacy.h:176, 200, 255 *)
Definition fptu_max_cols : Z := max_ident.
Definition fptu_null : Z := 2 ^ 32 - 1.
Definition fptu_flag_not_filter : Z := Z.shiftl 1 31.
(** src: essentials.h:375-389, legacy.h:256-260 *)
Definition genus_set (l : list Z) : Z := fold_right (fun g m => Z.lor (Z.shiftl 1 g) m) 0 l.
Definition fptu_any : Z := 2 ^ 32 - 1 - Z.shiftl 1 g_hole.
Definition fptu_any_int : Z := genus_set [g_i8; g_u8; g_i16; g_u16; g_i32; g_u32; g_i64; g_u64].
Definition fptu_any_fp : Z := genus_set [g_f32; g_f64; g_d64].
Definition mask_signed : Z := Z.lor (genus_set [g_i8; g_i16; g_i32; g_i64]) fptu_any_fp.
Definition fptu_any_uint : Z := Z.land fptu_any_int (2 ^ 32 - 1 - mask_signed).
Definition fptu_any_number : Z := Z.lor fptu_any_int fptu_any_fp.
(** src: legacy.h:264-266 *)
Definition fptu_filter_mask (type : Z) : Z := Z.shiftl 1 (tag2genus type).
(** src: compat_common.cxx:58-60 *)
Definition is_filter (tf : Z) : bool := Z.land tf fptu_flag_not_filter =? 0.
(** src: compat_common.cxx:62-66 (id_shift = 0) *)
Definition colid2tag (tf column : Z) : Z := u32 (tf + column).
(** src: legacy_compat.h:32-35 *)
Definition colnum (e : ent) : Z := descriptor2id (gid e).
Definition legacy_type (e : ent) : Z := genus2legacy (descriptor2genus (gid e)).
(** src: compat_common.cxx:68-74 *)
Definition match_filter (column tf : Z) (e : ent) : bool :=
  negb (is_hole e) && (colnum e =? column) && negb (Z.land tf (fptu_filter_mask (legacy_type e)) =? 0).

(** ** Lookups and counts *)
(** the condition of a scan.  src: compat_common.cxx:76-92; [lookup] without sorting compares
    the 16-bit descriptors (scan_portable.cxx) *)
Definition wanted (column tf : Z) (e : ent) : bool :=
  if is_filter tf then match_filter column tf e
  else gid e =? tag2genus_and_id (colid2tag tf column).
(** src: compat_common.cxx:76-98; [None] = end *)
Definition fptu_first (s : st) (n : nat) (column tf : Z) : option nat :=
  scan_down (wanted column tf) (idx s) n.
Definition fptu_next (s : st) (k : nat) (column tf : Z) : option nat := fptu_first s k column tf.
(** src: compat_rw.cxx:240-247 *)
Definition fptu_lookup (s : st) (column tf : Z) : option nat := fptu_first s (cnt s) column tf.
(** src: compat_common.cxx:122-130, 143-146.  Every turn goes to a lower position: as many turns
    as the range has positions are enough. *)
Fixpoint count_loop (fuel : nat) (s : st) (column tf : Z) (pf : option nat) (result : Z) : Z :=
  match fuel with
  | O => result
  | S fuel => match pf with
              | None => result
              | Some k => count_loop fuel s column tf (fptu_next s k column tf) (result + 1)
              end
  end.
Definition fptu_field_count (s : st) (column tf : Z) : Z :=
  count_loop (S (cnt s)) s column tf (fptu_first s (cnt s) column tf) 0.
(** scans with a filter function.  src: compat_common.cxx:100-118, 132-141 *)
Definition fptu_first_ex (s : st) (n : nat) (f : ent -> bool) : option nat :=
  scan_down (fun e => negb (is_hole e) && f e) (idx s) n.
Fixpoint count_ex_loop (fuel : nat) (s : st) (f : ent -> bool) (pf : option nat) (result : Z) : Z :=
  match fuel with
  | O => result
  | S fuel => match pf with
              | None => result
              | Some k => count_ex_loop fuel s f (fptu_first_ex s k f) (result + 1)
              end
  end.
Definition fptu_field_count_ex (s : st) (f : ent -> bool) : Z :=
  count_ex_loop (S (cnt s)) s f (fptu_first_ex s (cnt s) f) 0.
(** src: compat_field.cxx:22-31 *)
Definition fptu_field_is_dead (e : ent) : bool := is_hole e.
Definition fptu_field_type (e : ent) : Z := legacy_type e.
Definition fptu_field_column (e : ent) : Z := colnum e.

(** ** Erasing *)
(** src: legacy.h:126 *)
Definition FPTU_EINVAL : Z := 22.
(** src: compat_field.cxx:33-36 *)
Definition fptu_erase_field (s : st) (k : nat) : res unit :=
  if is_hole (idx s k) then Ok tt s else erase_loose s k.
(** src: compat_common.cxx:163-182; [end] does not move, positions below the erased one keep
    their places *)
Fixpoint erase_loop (fuel : nat) (s : st) (column tf : Z) (pf : option nat) (result : Z) : res Z :=
  match fuel with
  | O => Ok result s
  | S fuel =>
    match pf with
    | None => Ok result s
    | Some k =>
      bind (fptu_erase_field s k) (fun _ s =>
        if negb (is_filter tf) then Ok (result + 1) s
        else erase_loop fuel s column tf (fptu_next s k column tf) (result + 1))
    end
  end.
Definition fptu_erase (s : st) (column tf : Z) : res Z :=
  if column >? fptu_max_cols then Ok (- FPTU_EINVAL) s
  else erase_loop (S (cnt s)) s column tf (fptu_first s (cnt s) column tf) 0.

(** ** Writing.  src: compat_common.cxx:34-47 (error codes); the exceptions of the model's
    writes are all insufficient_space (alloc_loose, tail_alloc, realloc_data in Gear.v) *)
Inductive code := FOk | FNoSpace | FNoField | FInval.
Inductive out := Done (c : code) (s : st) | Undefined.
Definition finish (r : res unit) : out :=
  match r with Ok _ s => Done FOk s | Throw s => Done FNoSpace s | Bad => Undefined end.
(** The functions are instances of one scheme: a token of some type is made for the column and
    a value of some type is assigned through it.  The pair is (type of the token, type of the
    value).  src: compat_rw.cxx:251-345, 433-518.  [datetime] is stored through a token t64,
    for which set_datetime assigns t64 (rw.h accessor). *)
Inductive kind := Kuint16 | Kbool | Kint32 | Kuint32 | Kint64 | Kuint64 | Kfp64 | Kfp32 | Kdatetime
| K96 | K128 | K160 | K256 | Kstring | Kopaque | Knested.
Definition value_genus (k : kind) : Z :=
  match k with
  | Kuint16 => g_u16 | Kbool => g_i8 | Kint32 => g_i32 | Kuint32 => g_u32 | Kint64 => g_i64
  | Kuint64 => g_u64 | Kfp64 => g_f64 | Kfp32 => g_f32 | Kdatetime => g_t64
  | K96 => g_bin96 | K128 => g_bin128 | K160 => g_bin160 | K256 => g_bin256
  | Kstring => g_text | Kopaque => g_varbin | Knested => g_nested
  end.
Definition upsert_genus (k : kind) : Z :=
  match k with Knested => g_varbin | _ => value_genus k end.   (* compat_rw.cxx:338 *)
Definition update_genus (k : kind) : Z := value_genus k.
(** src: compat_rw.cxx:251-345; the type check is rw.h:1325-1326, 1370-1371 *)
Definition fptu_upsert (q : quirks) (s : st) (k : kind) (column : Z) (v : tv) : out :=
  match token_loose (upsert_genus k) column false true false with
  | None => Done FInval s
  | Some t =>
    if negb (tag2genus t =? value_genus k) then Done FInval s
    else finish (run1 q s (OSet (tag2genus_and_id t) (is_discernible_null t) v))
  end.
(** src: compat_rw.cxx:433-518 with rw.h:1213-1220 (legacy_update: absent -> throw_field_absent,
    else the accessor at the field found is assigned) *)
Definition fptu_update (q : quirks) (s : st) (k : kind) (column : Z) (v : tv) : out :=
  match token_loose (update_genus k) column true true false with
  | None => Done FInval s
  | Some t =>
    match lookup_gid s (tag2genus_and_id t) with
    | None => Done FNoField s
    | Some _ =>
      if negb (tag2genus t =? value_genus k) then Done FInval s
      else finish (run1 q s (OSet (tag2genus_and_id t) (is_discernible_null t) v))
    end
  end.
(** src: compat_rw.cxx:349-431; the tokens of the fixed binaries are made without the
    discernible flag (line 376) *)
Definition insert_disc (k : kind) : bool :=
  match k with K96 | K128 | K160 | K256 => false | _ => true end.
Definition fptu_insert (q : quirks) (s : st) (k : kind) (column : Z) (v : tv) : out :=
  match token_loose (value_genus k) column true (insert_disc k) false with
  | None => Done FInval s
  | Some t => finish (run1 q s (OAppend (tag2genus_and_id t) (is_discernible_null t) v))
  end.

(** ** Reading by column.  src: compat_ro.cxx:75-134: the token is made without the
    discernible flag; only the getter of strings looks the field up first *)
Inductive got := GValue (p : list Z) | GEmpty | GNoField | GInval.
Definition fptu_get (s : st) (k : kind) (column : Z) : got :=
  match k with
  | Kstring =>
    match fptu_lookup s column (genus2legacy g_text) with
    | None => GNoField
    | Some i => if rel (idx s i) =? 0 then GEmpty else GValue (value s (RL i))
    end
  | _ =>
    match token_loose (value_genus k) column false false false with
    | None => GInval
    | Some t => match read_loose s (tag2genus_and_id t) (is_discernible_null t) with
                | RVal p => GValue p | REmpty => GEmpty | RAbsent => GNoField end
    end
  end.

(** ** A field as a block of bytes.  src: compat_field.cxx:40-55, field.h:319-335.  [m] are the
    bytes of the payload (for the in-place types: of the 16-bit number); the result are the
    bytes the returned block covers. *)
Definition stretchy_length (g : Z) (m : list Z) : Z :=
  if g =? g_text then string_length m
  else if g =? g_varbin then varbin_length m
  else if g =? g_nested then units2bytes (nested_brutto_units m)
  else 2 + Codec.byte_at m 0.
Definition as_iovec (g : Z) (m after : list Z) : list Z :=
  if is_inplaced_genus g then peek (m ++ after) 0 (loose_units g)
  else if fixed_genus g then peek (m ++ after) 0 (loose_units g)
  else peek (m ++ after) 0 (stretchy_length g m).

(** ** Strings of C *)
(** the string that starts at the beginning of a block of memory; [None]: no terminating zero *)
Fixpoint c_string (m : list Z) : option (list Z) :=
  match m with
  | [] => None
  | b :: m => if b =? 0 then Some [] else option_map (cons b) (c_string m)
  end.
(** src: compat_field.cxx:104-120; [None] = nullptr; the result is the memory the returned
    pointer shows: the payload itself and what follows it, or the copy *)
Definition string_view_to_CAPI (data v : list Z) (inside : bool) : option (list Z) :=
  match v with
  | [] => None
  | _ => Some (if inside then data else v ++ [0])
  end.
(** src: compat_field.cxx:122-137 for a text field with payload [m] followed by [after] *)
Definition fptu_field_cstr (m after : list Z) : option (list Z) :=
  let field_end := 4 * string_brutto_units m in
  match string_read m with
  | Pool => None
  | Str v =>
    let start := if string_is_tiny m then 1 else 3 in
    string_view_to_CAPI (skipn (Z.to_nat start) (m ++ after)) v (start + zlen v <? field_end)
  end.
(** the unit of the buffer that fptu_field_cstr reads before it looks at the type of the field.
    src: compat_field.cxx:126-129 *)
Definition cstr_first_read (s : st) (k : nat) : Z := addr s k.

(** ** Comparison *)
Inductive lge := Lic | Leq | Llt | Lgt.
(** std::memcmp of the first [n] bytes: the difference of the first bytes that differ *)
Fixpoint memcmp (a b : list Z) (n : nat) : Z :=
  match n, a, b with
  | S n, x :: a, y :: b => if x =? y then memcmp a b n else x - y
  | _, _, _ => 0
  end.
(** src: legacy_compat.h:127-136, 155-157 *)
Definition diff2lge (d : Z) : lge := if d =? 0 then Leq else if d <? 0 then Llt else Lgt.
Definition cmp2int (l r : Z) : Z := if r >? l then -1 else if l >? r then 1 else 0.
(** src: compat_common.cxx:249-256 *)
Definition fptu_cmp_binary (l r : list Z) : lge :=
  let d := memcmp l r (Nat.min (length l) (length r)) in
  diff2lge (if d =? 0 then cmp2int (zlen l) (zlen r) else d).
(** src: compat_ro.cxx:155-163 *)
Definition fptu_cmp_opaque (field : option (list Z)) (v : list Z) : lge :=
  match field with
  | None => match v with [] => Leq | _ => Lic end
  | Some p => fptu_cmp_binary p v
  end.
(** src: compat_ro.cxx:138-153 with legacy_compat.h:171-174; [None] as a value = nullptr *)
Definition fptu_cmp_fixed (field value : option (list Z)) (bytes : nat) : lge :=
  match value, field with
  | Some v, Some p => diff2lge (memcmp p v bytes)
  | _, _ => Lic
  end.
