(** * Tokens: comparing, ordering and hashing tokens; iterators and tokens (model).

    src: fast_positive/tuples/token.h:186-267 (token_nonstatic_tag), 292-299 (token_static),
    fast_positive/tuples/details/ro.h:104-131 (loose_iterator_ro), 409-435 (field_iterator_ro),
    src/ro.cxx:39-77; fast_positive/tuples/details/getter.h:603-608 (have).

    A token is its tag, a number of 32 bits.  [None] is an exception (schema_no_such_field). *)
From Verif Require Import Base Tag Codec Gear Tuple TupleMore Schema Audit Iterators.

(** ** Comparisons.  == compares the tags as they are, the order compares them without their flags. *)
(** src: token.h:214-223, 292-299 *)
Definition tok_eq (a b : Z) : bool := a =? b.
Definition tok_ne (a b : Z) : bool := negb (tok_eq a b).
(** src: token.h:224-243 *)
Definition tok_lt (a b : Z) : bool := tag_less a b.
Definition tok_ge (a b : Z) : bool := negb (tok_lt a b).
Definition tok_gt (a b : Z) : bool := tok_lt b a.
Definition tok_le (a b : Z) : bool := negb (tok_gt a b).

(** src: token.h:245-251.  The product of a 32-bit number and a size_t is a size_t of 64 bits. *)
Definition tok_hash (a : Z) : Z :=
  let m := u64 (normalize_tag a * 2709533891) in Z.lxor m (Z.shiftr m 19).

(** ** Iterators over the index: the entry has the descriptor [desc] *)
(** src: ro.h:113-131 *)
Definition loose_is (desc t : Z) : bool := is_loose t && (desc =? u16 t).
(** src: ro.cxx:39-48, ro.h:97-100 *)
Definition loose_token (s : option schema) (desc : Z) : option Z :=
  match s with
  | None => None
  | Some s => let t := by_loose s desc in if t =? 0 then None else Some t
  end.
(** the token an accessor made by an iterator over the index holds.  src: ro.h:80-94, 101-105 *)
Definition loose_plain (desc : Z) : Z := make_tag_desc desc false false false.

(** ** Iterators over all fields; [desc k] is the descriptor of the entry [k] of the index *)
(** src: ro.cxx:61-70 *)
Definition preplaced_token (s : option schema) (p : Z) : option Z :=
  match s with
  | None => None
  | Some s => let t := by_offset s p in if t =? 0 then None else Some t
  end.
Definition entry_of (p : Z) : nat := Z.to_nat (- p / 4 - 1).
(** src: ro.cxx:72-77, ro.h:420-427: && does not look for the token when [t] is not preplaced *)
Definition field_is (s : option schema) (desc : nat -> Z) (p t : Z) : option bool :=
  if p >=? 0 then
    if is_preplaced t then match preplaced_token s p with None => None | Some u => Some (tok_eq u t) end
    else Some false
  else Some (is_loose t && (desc (entry_of p) =? tag2genus_and_id t)).
(** src: ro.cxx:50-59, ro.h:409-412 *)
Definition field_token (s : option schema) (desc : nat -> Z) (p : Z) : option Z :=
  if p >=? 0 then preplaced_token s p else loose_token s (desc (entry_of p)).

(** ** [std::find(begin_loose(), end_loose(), t)]: the first entry of the index, from its end, the
    iterator to which equals the token; [None] = end_loose().  src: rw.h:1303-1314 *)
Definition find_loose (s : st) (t : Z) : option nat :=
  find (fun k => loose_is (gid (idx s k)) t) (seq 0 (cnt s)).
(** src: getter.h:603-608 with 582-590 and rw.h:905-924 (collect), 561-580 (at) and 212-217 (exist): the
    presence of the loose field that the token [t] denotes *)
Definition have_loose (s : st) (t : Z) : bool :=
  if is_loose_collection t then negb (match collect s (u16 t) with [] => true | _ => false end)
  else exist_loose s (u16 t).
