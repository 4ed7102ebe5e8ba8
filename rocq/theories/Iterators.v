(** * Iterators: iteration over the fields of a tuple (model).

    src: fast_positive/tuples/details/ro.h:60-240 (loose_iterator_ro), 241-516 (field_iterator_ro);
    src/ro.cxx:61-183; fast_positive/tuples/details/rw.h:1280-1314; getter.h:430-552.

    A position is a distance from pivot_: in units for iterators over the index (the entry number k
    of the index lies at -1 - k), in bytes for iterators over all fields. *)
From Verif Require Import Base Tag Codec Gear Tuple TupleMore Schema Audit.

(** ** Iteration over the index *)
(** src: ro.h:604-609, rw.h:1303-1308 *)
Definition loose_begin : Z := -1.
Definition loose_stop (n : Z) : Z := - n - 1.
(** src: ro.h:181-184, 189-192 (prefix forms) *)
Definition loose_inc (p : Z) : Z := p - 1.
Definition loose_dec (p : Z) : Z := p + 1.
(** src: ro.h:185-188, 193-196 (postfix forms): the iterator afterwards, and the value of the
    expression.  The forms are const and step a copy, in the other direction. *)
Definition loose_post_inc (p : Z) : Z * Z := (p, loose_dec p).
Definition loose_post_dec (p : Z) : Z * Z := (p, loose_inc p).
(** src: ro.h:197-229, 150-179 *)
Definition loose_plus (p n : Z) : Z := p - n.
Definition loose_minus (p n : Z) : Z := p + n.
Definition loose_diff (a b : Z) : Z := b - a.
Definition loose_lt (a b : Z) : bool := a >? b.
Definition loose_le (a b : Z) : bool := a >=? b.
(** src: ro.h:80-94: the entry an expression like it[n] refers to *)
Definition loose_at (p n : Z) : Z := p - n.

(** ** Iteration over all fields *)
(** [null off t]: the preplaced value at byte [off] read with the type of the token [t] is absent
    (tablets.cxx:164-211) *)
Section Fields.
  Variable s : schema.
  Variable null : Z -> Z -> bool.

  (** the first position in the index: loose_field_ptr(pivot_) - 1 *)
  Definition first_loose : Z := -4.
  (** src: ro.h:329-333 with 593-596, rw.h:1289-1293: [n] is the number of entries of the index *)
  Definition it_end (n : Z) : Z := -4 * (n + 1).
  (** src: ro.cxx:153-183.  The value of the first token is read at pivot_, whatever its offset. *)
  Fixpoint begin_loop (toks : list Z) (off : Z) : Z :=
    match toks with
    | [] => first_loose
    | t :: r => if null off t then begin_loop r (match r with u :: _ => tag2offset u | [] => off end) else off
    end.
  Definition it_begin : Z :=
    if npre s =? 0 then first_loose else begin_loop (firstn (Z.to_nat (npre s)) (toks s)) 0.
  (** src: ro.cxx:79-109.  [None]: the loop has not ended after [fuel] rounds. *)
  Fixpoint next_loop (fuel : nat) (off : Z) : option Z :=
    match fuel with
    | O => None
    | S f =>
      let t := next_by_offset s off in
      if (t =? 0) || negb (is_preplaced t) then Some first_loose
      else let off := tag2offset t in
           if null off t then next_loop f off else Some off
    end.
  Definition it_inc (fuel : nat) (p : Z) : option Z :=
    if p >=? 0 then next_loop fuel p else Some (p - 4).
  (** src: ro.cxx:130-148.  [None]: undefined behaviour or no end *)
  Fixpoint prev_loop (fuel : nat) (off : Z) : option Z :=
    match fuel with
    | O => None
    | S f =>
      match prev_by_offset s off with
      | None => None
      | Some t =>
        let off := tag2offset t in
        if off =? 0 then Some off else if null off t then prev_loop f off else Some off
      end
    end.
  (** src: ro.cxx:111-151 *)
  Definition it_dec (fuel : nat) (p : Z) : option Z :=
    if p <? 0 then
      if negb (p + 4 =? 0) then Some (p + 4)
      else if bytes_of s =? 0 then Some 0
      else prev_loop fuel (bytes_of s)
    else prev_loop fuel p.
  (** src: ro.cxx:61-70, ro.h:390-407: what the iterator shows: the token of a preplaced field
      ([None] = schema_no_such_field), or the entry of the index *)
  Inductive shown := SPre (t : Z) | SLoose (k : Z).
  Definition it_show (p : Z) : option shown :=
    if p >=? 0 then (let t := by_offset s p in if t =? 0 then None else Some (SPre t))
    else Some (SLoose (- p / 4 - 1)).

  (** src: ro.h:507-510, 512-515 (postfix forms): the iterator afterwards, and the value *)
  Definition it_post_inc (fuel : nat) (p : Z) : Z * option Z := (p, it_inc fuel p).
  Definition it_post_dec (fuel : nat) (p : Z) : Z * option Z := (p, it_dec fuel p).
  (** src: ro.h:335-347 with 446-465: the order of two iterators *)
  Definition it_pos (p : Z) : Z := if p >=? 0 then p else max_tuple_bytes_netto - p.
  Definition it_lt (a b : Z) : bool := it_pos a - it_pos b <? 0.

  (** a loop [for (it = a; it != b; step)]: the positions it stops at; [None] when it does not end
      within [n] rounds or is undefined *)
  Fixpoint walk (n : nat) (step : Z -> option Z) (p e : Z) : option (list Z) :=
    if p =? e then Some []
    else match n with
    | O => None
    | S n => match step p with
             | None => None
             | Some q => option_map (cons p) (walk n step q e)
             end
    end.
End Fields.

(** src: tablets.cxx:164-211: the absence of the preplaced value at [off] in the preplaced bytes [m]
    of a tuple *)
Definition field_null (m : img) (off t : Z) : bool :=
  if tag2genus t =? g_hole then forallb (fun b => b =? 0) (pread m off (tag2indysize t))
  else (negb (is_fixed_size t) || is_discernible_null t) && is_denil (tag2genus t) m off.
