(** * Schema: definitions of fields, the token table and its searches (model).

    src: src/schema.cxx, fast_positive/tuples/schema.h, token.h. *)
From Verif Require Import Base Tag Gear Tuple TupleMore.

(** A field name is a sequence of bytes.  src: schema.h:43-50 *)
Definition name := list Z.
Definition name_eqb (a b : name) : bool := if list_eq_dec Z.eq_dec a b then true else false.

(** The data members of [schema] and [schema_impl]; the two hash maps are association lists
    (first match wins; the order of buckets is not visible through [find] and [count]).
    src: schema.h:254-258, schema.cxx:46-50 *)
Record schema := mkSch {
  n2t : list (name * Z);      (* name2token_ *)
  t2n : list (Z * name);      (* token2name_, keys compared by token::same *)
  toks : list Z;              (* sorted_tokens_ *)
  image : list Z;             (* preplaced_image_ *)
  npre : Z;                   (* number_of_preplaced_ *)
  nstr : Z                    (* number_of_stretchy_preplaced_ *)
}.
(** src: schema.cxx:29-30, schema.h:119 (create) *)
Definition empty_schema : schema := mkSch [] [] [] [] 0 0.
Definition zlen {A} (l : list A) : Z := Z.of_nat (length l).
(** src: schema.h:220-222 *)
Definition bytes_of (s : schema) : Z := zlen (image s).

(** Outcome of a definition: the new token, an exception that leaves the schema as it was, or
    undefined behaviour. *)
Inductive outcome := Defined (t : Z) (s : schema) | Refused | Undefined.

(** src: schema.cxx:90-93 *)
Definition is_inside (point t : Z) : bool :=
  (point >=? tag2offset t) && (point <? tag2offset t + tag2indysize t).
(** src: schema.cxx:95-98.  The sum is taken in size_t and passed as ptrdiff_t: for an empty field
    at offset 0 the point is -1. *)
Definition is_crossing (a b : Z) : bool :=
  negb (Bool.eqb (is_inside (tag2offset a) b) (is_inside (tag2offset a + tag2indysize a - 1) b)).
(** src: schema.cxx:100-108 *)
Definition is_overlapped (a b : Z) : bool :=
  if tag2offset a + tag2indysize a <=? tag2offset b then false
  else if tag2offset a >=? tag2offset b + tag2indysize b then false
  else true.

(** src: schema.cxx:135-150: the loop over the preplaced tokens; [true] = no exception *)
Fixpoint no_collision (ident : Z) (l : list Z) : bool :=
  match l with
  | [] => true
  | scan :: r =>
    if negb (is_preplaced scan) then true
    else if is_crossing ident scan then false
    else if negb (tag2genus ident =? g_hole) && negb (tag2genus scan =? g_hole)
            && is_overlapped ident scan then false
    else no_collision ident r
  end.

(** src: schema.cxx:193 (std::sort with operator<, token.h:231-235).  The keys are pairwise
    different (schema.cxx:128), so that every sorting routine gives the same result; insertion
    sort here. *)
Fixpoint insert_token (t : Z) (l : list Z) : list Z :=
  match l with
  | [] => [t]
  | x :: r => if tag_less x t then x :: insert_token t r else t :: l
  end.
Definition sort_tokens (l : list Z) : list Z := fold_right insert_token [] l.

(** The bytes the initial value pointer gives for a field of [n] bytes (the caller has to supply
    that many). *)
Definition given (v : list Z) (n : Z) : list Z := map (fun i => nth i v 0) (seq 0 (Z.to_nat n)).
(** src: meta.h:797-840 with 98-101, 149-153, 200-204, 279-283: the bytes written for an absent
    value.  As [fixed_erase] in TupleMore.v; variable-length fields are erased as one unit. *)
Definition erased (g : Z) (disc : bool) : list Z :=
  if disc && negb (g =? g_ipnet) then denil g else repeat 0 (Z.to_nat (preplaced_bytes g)).
(** replace the bytes of [l] from position [o] on by [b] *)
Definition overwrite (l : list Z) (o : Z) (b : list Z) : list Z :=
  map (fun i => let k := Z.of_nat i in
                if (o <=? k) && (k <? o + zlen b) then nth (Z.to_nat (k - o)) b 0 else nth i l 0)
      (seq 0 (length l)).

(** src: schema.cxx:156-176: the new image of the preplaced part.  [None] = undefined behaviour:
    [preplaced_erase] of a hole (meta.h:800-803, 838), or a write behind the end of the string. *)
Definition new_image (im : list Z) (ident : Z) (init : option (list Z)) : option (list Z) :=
  let o := tag2offset ident in
  let size := tag2indysize ident in
  let im1 := im ++ repeat 0 (Z.to_nat (o - zlen im)) in
  match init with
  | Some v => Some (im1 ++ given v size)
  | None =>
    let im2 := im1 ++ repeat 0 (Z.to_nat size) in
    if tag2genus ident =? g_hole then None
    else let e := erased (tag2genus ident) (is_discernible_null ident) in
         if o + zlen e <=? zlen im2 then Some (overwrite im2 o e) else None
  end.

(** src: schema.cxx:151-152: [std::string::reserve] of a difference taken in size_t; it throws
    std::length_error when the difference is negative (the value is then close to 2^64). *)
Definition reserve_ok (im : list Z) (ident : Z) : bool :=
  zlen im <=? tag2offset ident + tag2indysize ident.

(** src: schema.cxx:122-194 *)
Definition add_definition (s : schema) (n : name) (ident : Z) (init : option (list Z)) : outcome :=
  if zlen n >? 42 then Refused
  else if existsb (fun p => name_eqb (fst p) n) (n2t s) then Refused
  else if existsb (fun p => tag_same (fst p) ident) (t2n s) then Refused
  else if is_preplaced ident then
    if negb (no_collision ident (toks s)) then Refused
    else if negb (reserve_ok (image s) ident) then Refused
    else match new_image (image s) ident init with
         | None => Undefined
         | Some im => Defined ident (mkSch ((n, ident) :: n2t s) ((ident, n) :: t2n s)
                        (sort_tokens (toks s ++ [ident])) im (npre s + 1)
                        (nstr s + Z.b2z (negb (is_fixed_size ident))))
         end
  else Defined ident (mkSch ((n, ident) :: n2t s) ((ident, n) :: t2n s)
                        (sort_tokens (toks s ++ [ident])) (image s) (npre s) (nstr s)).

(** src: schema.cxx:205-207, 239-241: the next aligned offset; [align] is a power of two *)
Definition aligned (unaligned align : Z) : Z :=
  unaligned + Z.land (u64 (align - unaligned)) (align - 1).

(** src: schema.cxx:196-217 *)
Definition define_preplaced (s : schema) (n : name) (type : Z) (disc sat : bool)
    (init : option (list Z)) : outcome :=
  if type >=? g_hole then Refused
  else
    let length := preplaced_bytes type in
    let align := if length >? 4 then 4 else length in
    let offset := aligned (bytes_of s) align in
    if offset >? max_preplaced_offset then Refused
    else match token_preplaced offset type disc sat with
         | None => Refused
         | Some ident => add_definition s n ident init
         end.

(** src: schema.cxx:219-245 with essentials.h:79 (max_preplaced_size), max_align_t of 16 bytes;
    the token is made from the offset and the type alone, the size asked for is not kept *)
Definition define_opacity (s : schema) (n : name) (size align : Z) (init : option (list Z)) : outcome :=
  if size >=? 2047 then Refused
  else if size <? 1 then Refused
  else if align >=? 16 then Refused
  else
    let align1 := if align =? 0 then (if size >? 4 then 4 else size) else align in
    if negb (align =? 0) && negb (Z.land align (align - 1) =? 0) then Refused
    else
      let offset := aligned (bytes_of s) align1 in
      if offset >? max_preplaced_offset then Refused
      else match token_preplaced offset g_hole false false with
           | None => Refused
           | Some ident => add_definition s n ident init
           end.

(** the elements before the first one that [p] does not hold for *)
Fixpoint take_while (p : Z -> bool) (l : list Z) : list Z :=
  match l with [] => [] | x :: r => if p x then x :: take_while p r else [] end.

(** src: schema.cxx:110-120.  [std::upper_bound] on the sorted table = the end of the longest
    prefix of tokens that are not greater than [ident]. *)
Definition get_next_loose_id (s : schema) (type : Z) : Z :=
  let ident := make_tag type max_ident false false false in
  match rev (take_while (fun e => negb (tag_less ident e)) (toks s)) with
  | [] => 0
  | e :: _ => if negb (is_preplaced e) && (tag2genus e =? type) then tag2id e + 1 else 0
  end.

(** src: essentials.h:214 *)
Definition loose_end : Z := 1024.
(** src: schema.cxx:247-268 *)
Definition define_loose (s : schema) (n : name) (type : Z) (coll disc sat : bool) : outcome :=
  if type >=? g_hole then Refused
  else
    let id := get_next_loose_id s type in
    if id >=? loose_end then Refused
    else match token_loose type id coll disc sat with
         | None => Refused
         | Some ident => add_definition s n ident None
         end.

(** src: schema.cxx:270-287 *)
Definition import_definition (s : schema) (n : name) (ident : Z) (init : option (list Z))
    (renominate : bool) : outcome :=
  if negb renominate then add_definition s n ident init
  else if is_preplaced ident then
    if tag2genus ident =? g_hole then Refused
    else define_preplaced s n (tag2genus ident) (is_discernible_null ident) (is_saturated ident) init
  else define_loose s n (tag2genus ident) (is_loose_collection ident) (is_discernible_null ident)
         (is_saturated ident).

(** ** Lookups by name and by token *)
(** src: schema.h:176-180, schema.cxx:289-304 (0 = the invalid token) *)
Definition enforce (o : option bool) (f : Z -> bool -> Z) (t : Z) : Z :=
  match o with None => t | Some b => f t b end.
Definition get_token (s : schema) (n : name) (disc sat : option bool) : Z :=
  match find (fun p => name_eqb (fst p) n) (n2t s) with
  | None => 0
  | Some (_, t) => enforce sat enforce_saturation (enforce disc enforce_discernible_null t)
  end.
(** src: schema.cxx:318-327 ([None] = nil) *)
Definition get_name (s : schema) (ident : Z) : option name :=
  match find (fun p => tag_same (fst p) ident) (t2n s) with None => None | Some (_, n) => Some n end.

(** ** Searches in the table *)
Definition tok (l : list Z) (i : Z) : Z := nth (Z.to_nat i) l 0.

(** src: schema.cxx:347-358, 398-407: the halving loop, [less] is the test on the middle element;
    the fuel is the length of the table *)
Fixpoint halve (fuel : nat) (less : Z -> bool) (l : list Z) (iter span : Z) : Z * Z :=
  match fuel with
  | O => (iter, span)
  | S f =>
    if span >? 3 then
      let half := Z.shiftr span 1 in
      let middle := iter + half in
      if less (tok l middle) then halve f less l (middle + 1) (span - half - 1)
      else halve f less l iter half
    else (iter, span)
  end.
(** src: schema.cxx:360-382, 409-437: the unrolled rest, from [case 3] downwards *)
Definition rest1 (less : Z -> bool) (l : list Z) (iter : Z) : Z :=
  if negb (less (tok l iter)) then iter else iter + 1.
Definition rest2 (less : Z -> bool) (l : list Z) (iter : Z) : Z :=
  if negb (less (tok l iter)) then iter else rest1 less l (iter + 1).
Definition rest3 (less : Z -> bool) (l : list Z) (iter : Z) : Z :=
  if negb (less (tok l iter)) then iter else rest2 less l (iter + 1).
Definition rest (less : Z -> bool) (l : list Z) (iter span : Z) : Z :=
  if span =? 3 then rest3 less l iter
  else if span =? 2 then rest2 less l iter
  else if span =? 1 then rest1 less l iter
  else iter.
Definition lower (less : Z -> bool) (l : list Z) (iter span : Z) : Z :=
  let '(i, n) := halve (length l) less l iter span in rest less l i n.

(** src: schema.cxx:334-384: position of the first preplaced token at [offset] or behind *)
Definition search_preplaced (s : schema) (offset : Z) : Z :=
  let tag := u32 (Z.shiftl offset offset_shift) in
  lower (fun t => t <? tag) (toks s) 0 (npre s).

(** src: schema.cxx:386-443.  The unrolled part returns the token it stops at when it is the
    one looked for, otherwise (or at the end of the table) the invalid token. *)
Definition by_loose (s : schema) (desc : Z) : Z :=
  let span := zlen (toks s) - npre s in
  if span =? 0 then 0
  else
    let key := normalize_tag (make_tag_desc desc false false false) in
    let i := lower (fun t => normalize_tag t <? key) (toks s) (npre s) span in
    if (i <? zlen (toks s)) && (tag2genus_and_id (tok (toks s) i) =? desc) then tok (toks s) i else 0.

(** src: schema.cxx:445-456 *)
Definition by_offset (s : schema) (offset : Z) : Z :=
  if (offset >=? 0) && (offset <? bytes_of s) then
    let i := search_preplaced s offset in
    if (i <? npre s) && (offset =? tag2offset (tok (toks s) i)) then tok (toks s) i else 0
  else 0.

(** src: schema.cxx:458-473 *)
Definition next_by_offset (s : schema) (offset : Z) : Z :=
  if (offset >=? 0) && (offset <? bytes_of s) then
    let i := search_preplaced s offset in
    if i <? npre s then
      let j := i + Z.b2z (tag2offset (tok (toks s) i) =? offset) in
      if j <? npre s then tok (toks s) j else 0
    else 0
  else 0.

(** src: schema.cxx:475-486.  [None] = undefined behaviour (a step to before the beginning of the
    vector). *)
Definition prev_by_offset (s : schema) (offset : Z) : option Z :=
  if (offset >? 0) && (offset <=? bytes_of s) then
    let i := search_preplaced s offset - 1 in
    if i >=? 0 then Some (tok (toks s) i) else None
  else Some 0.

(** ** Histories of definitions *)
Inductive def :=
| DPreplaced (n : name) (type : Z) (disc sat : bool) (init : option (list Z))
| DOpacity (n : name) (size align : Z) (init : option (list Z))
| DLoose (n : name) (type : Z) (coll disc sat : bool)
| DImport (n : name) (ident : Z) (init : option (list Z)) (renominate : bool).
Definition def_name (d : def) : name :=
  match d with DPreplaced n _ _ _ _ | DOpacity n _ _ _ | DLoose n _ _ _ _ | DImport n _ _ _ => n end.
Definition define (s : schema) (d : def) : outcome :=
  match d with
  | DPreplaced n type disc sat init => define_preplaced s n type disc sat init
  | DOpacity n size align init => define_opacity s n size align init
  | DLoose n type coll disc sat => define_loose s n type coll disc sat
  | DImport n ident init renominate => import_definition s n ident init renominate
  end.

(** A history of definitions from the schema [s]: the schema at the end and the names with the
    tokens returned, oldest first.  [None] = undefined behaviour on the way. *)
Fixpoint definitions (s : schema) (ds : list def) : option (schema * list (name * Z)) :=
  match ds with
  | [] => Some (s, [])
  | d :: r =>
    match define s d with
    | Undefined => None
    | Refused => definitions s r
    | Defined t s' =>
      match definitions s' r with
      | None => None
      | Some (s2, log) => Some (s2, (def_name d, t) :: log)
      end
    end
  end.

(** ** References of preplaced variable-length fields, by byte address.
    src: field.h:386-392 (set_payload).  The difference of two unit_t pointers is the byte
    difference divided by four, rounded down as compilers do; formally it is only defined for
    multiples of four. *)
Definition set_payload (field payload : Z) : Z := u16 ((payload - field) / 4).
(** src: field.h:372-385 (base, payload) *)
Definition payload_at (field offset : Z) : Z := field + 4 * offset.

(** ** A new tuple of a schema.  src: rw.h:192-209, rw.cxx:611-630: the preplaced part is a copy of
    the image and takes [preplaced_units] (schema.h:223-225) behind the pivot. *)
Definition preplaced_units (s : schema) : Z := bytes2units (bytes_of s).
Definition image_bytes (s : schema) : img := fun x => tok (image s) x.
(** the variable-length preplaced fields, in the order of the table *)
Definition slots (s : schema) : list Z := filter (fun t => is_preplaced t && negb (is_fixed_size t)) (toks s).
Definition slot_off (s : schema) (j : nat) : Z := tag2offset (nth j (slots s) 0) / 4.
Definition slot_type (s : schema) (j : nat) : Z := tag2genus (nth j (slots s) 0).
