(** * Gear: the in-place allocator of a read-write tuple (model).

    src: src/gear.cxx (class gear), fast_positive/tuples/details/rw.h:216-295
    (members of tuple_rw), fast_positive/tuples/details/field.h:355-456.

    Memory layout.  A read-write tuple is an array of 32-bit units [area_[0 .. end_)].
    The index of loose fields occupies [area_[head_ .. pivot_)] and grows downwards, the
    payload occupies [area_[pivot_ .. tail_)] and grows upwards; it begins with the
    preplaced part of the schema.  In the model the index is a map from positions counted
    from the pivot outwards: position [k] is the unit [area_[pivot_ - 1 - k]], position
    [cnt - 1] is [begin_index()].  Positions [>= cnt] are the (still readable) memory below
    [head_].

    Release (NDEBUG) semantics: assertions are not executed.  [Bad] is the outcome of a scan
    that runs off the index ([left_holes > 0] at [end_index()]), which in the code is a read
    of payload as if it were index.

    Simplifications: [head_], [tail_], [pivot_], [end_] are integers (in the code they are
    [unsigned]); the 16-bit counters and offsets do wrap.  The two-byte references of
    preplaced variable-length fields are kept in a map of their own ([pre]) rather than inside
    [dat]; they are assumed to be unit aligned (fields made by schema::define_preplaced are). *)
From Verif Require Import Base Tag.

(** src: field.h:409-420; [rel] is [relative.offset_uint16] or [inplaced]. *)
Record ent := mkE { rel : Z; gid : Z }.

(** src: rw.h:216-263 *)
Record st := mkS {
  idx : nat -> ent;     (* index slots, counted from the pivot *)
  cnt : nat;            (* pivot_ - head_ *)
  pre : nat -> Z;       (* offset_uint16 of the preplaced variable-length slots *)
  dat : Z -> Z;         (* units of area_ *)
  tail : Z;             (* tail_ *)
  jc : Z;               (* junk_.count *)
  jv : Z;               (* junk_.volume *)
  pivot : Z;            (* pivot_ *)
  end_ : Z;             (* end_ *)
  pp : Z;               (* schema_->preplaced_units() or 0 *)
  nslots : nat;         (* number of preplaced variable-length fields *)
  soff : nat -> Z;      (* their unit offsets from the pivot *)
  stype : nat -> Z      (* their types *)
}.

Definition with_idx s v := mkS v (cnt s) (pre s) (dat s) (tail s) (jc s) (jv s)
  (pivot s) (end_ s) (pp s) (nslots s) (soff s) (stype s).
Definition with_cnt s v := mkS (idx s) v (pre s) (dat s) (tail s) (jc s) (jv s)
  (pivot s) (end_ s) (pp s) (nslots s) (soff s) (stype s).
Definition with_pre s v := mkS (idx s) (cnt s) v (dat s) (tail s) (jc s) (jv s)
  (pivot s) (end_ s) (pp s) (nslots s) (soff s) (stype s).
Definition with_dat s v := mkS (idx s) (cnt s) (pre s) v (tail s) (jc s) (jv s)
  (pivot s) (end_ s) (pp s) (nslots s) (soff s) (stype s).
Definition with_tail s v := mkS (idx s) (cnt s) (pre s) (dat s) v (jc s) (jv s)
  (pivot s) (end_ s) (pp s) (nslots s) (soff s) (stype s).
Definition with_jc s v := mkS (idx s) (cnt s) (pre s) (dat s) (tail s) (u16 v) (jv s)
  (pivot s) (end_ s) (pp s) (nslots s) (soff s) (stype s).
Definition with_jv s v := mkS (idx s) (cnt s) (pre s) (dat s) (tail s) (jc s) (u16 v)
  (pivot s) (end_ s) (pp s) (nslots s) (soff s) (stype s).

Definition fupd {A} (f : nat -> A) (k : nat) (v : A) : nat -> A :=
  fun i => if Nat.eqb i k then v else f i.
Definition set_ent (s : st) (k : nat) (e : ent) : st := with_idx s (fupd (idx s) k e).

(** Outcome of an operation: [Throw] is [throw_insufficient_space], it carries the state
    the tuple is left in. *)
Inductive res (A : Type) :=
| Ok (a : A) (s : st)
| Throw (s : st)
| Bad.
Arguments Ok {A}. Arguments Throw {A}. Arguments Bad {A}.

Definition bind {A B} (r : res A) (f : A -> st -> res B) : res B :=
  match r with Ok a s => f a s | Throw s => Throw s | Bad => Bad end.

(** ** Index entries *)
(** address of an index slot, in units of area_ *)
Definition own (s : st) (k : nat) : Z := pivot s - 1 - Z.of_nat k.
(** src: field.h:377-381 (relative_offset::payload) *)
Definition addr (s : st) (k : nat) : Z := own s k + rel (idx s k).
(** src: field.h:422-423 *)
Definition is_hole (e : ent) : bool := descriptor2genus (gid e) =? g_hole.
(** src: field.h:428-431 *)
Definition hunits (e : ent) : Z := descriptor2id (gid e).
(** src: field.h:432-434 (truncated to 16 bits) *)
Definition set_units (e : ent) (u : Z) : ent := mkE (rel e) (u16 (make_hole u)).
(** src: field.h:445-452 *)
Definition purged : ent := mkE 0 (u16 (make_hole 0)).
(** src: field.h:359-367 *)
Definition add_delta (e : ent) (d : Z) : ent := mkE (u16 (rel e + d)) (gid e).
(** src: field.h:386-392 *)
Definition set_payload (s : st) (k : nat) (e : ent) (target : Z) : ent :=
  mkE (u16 (target - own s k)) (gid e).
(** src: field.h:435-439 *)
Definition hole_begin (s : st) (k : nat) : Z := addr s k.
Definition hole_end (s : st) (k : nat) : Z := addr s k + hunits (idx s k).

(** src: rw.h:1093-1099 *)
Definition head_space (s : st) : Z := pivot s - Z.of_nat (cnt s).
Definition tail_space (s : st) : Z := end_ s - tail s.

Definition is_begin (s : st) (k : nat) : bool := Nat.eqb (S k) (cnt s).

(** ** Searching *)
(** first match from begin_index() to end_index(), i.e. from the highest position down.
    src: src/scan_linear.cxx (lookup over an unsorted index; is_sorted() is always false,
    rw.h:1140-1143).  The scanning kernels themselves are modelled in Scan.v. *)
Fixpoint scan_down (p : ent -> bool) (f : nat -> ent) (n : nat) : option nat :=
  match n with
  | O => None
  | S m => if p (f m) then Some m else scan_down p f m
  end.
Definition lookup_gid (s : st) (g : Z) : option nat :=
  scan_down (fun e => gid e =? g) (idx s) (cnt s).

(** src: gear.cxx:97-114 (unsigned differences wrap) *)
Definition best_fit (s : st) (units : Z) (l : option nat) (r : nat) : nat :=
  match l with
  | None => r
  | Some l =>
    let el := u32 (hunits (idx s l) - units) in
    let er := u32 (hunits (idx s r) - units) in
    if el <? er then l else if el >? er then r
    else if hole_begin s l <? hole_begin s r then l else r
  end.

(** src: gear.cxx:131-146, the loop of lookup_hole<best_fit>; [None] = ran off the index. *)
Fixpoint fit_loop (s : st) (units : Z) (n : nat) (left : Z) (found : option nat)
  : option (option nat) :=
  if left <=? 0 then Some found
  else match n with
  | O => None
  | S m =>
    if negb (is_hole (idx s m)) then fit_loop s units m left found
    else
      let found' := if hunits (idx s m) >=? units then Some (best_fit s units found m)
                    else found in
      fit_loop s units m (left - 1) found'
  end.

(** src: gear.cxx:116-147, MODE = exactly_size, and the units = 0 case *)
Definition lookup_exact (s : st) (units : Z) : option nat :=
  if (jc s <? 1) || (jv s <? units) then None
  else lookup_gid s (u16 (make_hole units)).

(** src: gear.cxx:116-147, MODE = best_fit *)
Definition lookup_fit (s : st) (units : Z) : option (option nat) :=
  if (jc s <? 1) || (jv s <? units) then Some None
  else if units =? 0 then Some (lookup_gid s (u16 (make_hole units)))
  else fit_loop s units (cnt s) (jc s) None.

(** src: gear.cxx:149-168 *)
Fixpoint adj_loop (s : st) (b e : Z) (n : nat) (left : Z) (bf af : option nat)
  : option (option nat * option nat) :=
  if left <=? 0 then Some (bf, af)
  else match n with
  | O => None
  | S m =>
    if negb (is_hole (idx s m)) then adj_loop s b e m left bf af
    else if negb (hunits (idx s m) =? 0) then
      let af' := if e =? hole_begin s m then Some m else af in
      let bf' := if hole_end s m =? b then Some m else bf in
      adj_loop s b e m (left - 1) bf' af'
    else adj_loop s b e m (left - 1) bf af
  end.
Definition lookup_adjacent (s : st) (b e : Z) : option (option nat * option nat) :=
  adj_loop s b e (cnt s) (jc s) None None.

(** ** Primitive steps *)
(** src: gear.cxx:170-207; called with the hole at begin_index() *)
Fixpoint trim_from (n : nat) (s : st) : st :=
  match n with
  | O => s
  | S m =>
    let s1 := with_cnt (with_jc s (jc s - 1)) m in
    match m with
    | O => s1
    | S p =>
      let e := idx s1 p in
      if negb (is_hole e) then s1
      else let u := hunits e in
      if u =? 0 then trim_from m s1
      else if negb (hole_end s1 p =? tail s1) then s1
      else trim_from m (with_tail (with_jv s1 (jv s1 - u)) (tail s1 - u))
    end
  end.
Definition trim_hole (s : st) : st := trim_from (cnt s) s.

(** purge an entry, and trim the index if it is the first one
    (src: gear.cxx:246-250, 316-318, 325-326, 361-363, 385-387, 596-598) *)
Definition purge (s : st) (k : nat) : st := set_ent s k purged.
Definition purge_trim (s : st) (k : nat) : st :=
  let s1 := purge s k in if is_begin s1 k then trim_hole s1 else s1.

(** src: gear.cxx:209-216 *)
Definition tail_alloc (s : st) (units : Z) : res Z :=
  if tail_space s <? units then Throw s
  else Ok (tail s) (with_tail s (tail s + units)).

(** src: gear.cxx:218-233 *)
Definition index_alloc (s : st) : res nat :=
  match (if jc s >? 0 then lookup_gid s (u16 (make_hole 0)) else None) with
  | Some k => Ok k (with_jc s (jc s - 1))
  | None => if head_space s <? 1 then Throw s else Ok (cnt s) (with_cnt s (S (cnt s)))
  end.

(** src: gear.cxx:235-259 *)
Definition alloc_data_at (s : st) (units : Z) (hole : option nat) : res Z :=
  match hole with
  | None => tail_alloc s units
  | Some h =>
    let s1 := with_jv s (jv s - units) in
    let excess := u32 (hunits (idx s1 h) - units) in
    let chunk := addr s1 h in
    if excess =? 0 then Ok chunk (purge_trim s1 h)
    else Ok chunk (set_ent s1 h (set_units (add_delta (idx s1 h) units) excess))
  end.
(** src: gear.cxx:74-77 *)
Definition alloc_data (s : st) (units : Z) : res Z :=
  match lookup_fit s units with
  | None => Bad
  | Some h => alloc_data_at s units h
  end.

(** Which of the two slips of the code is present.  [asis] is the code; [repaired] is used
    only as a proof device: every theorem about the code is stated for [asis].
    [q_split]: gear.cxx:300 advances the remaining hole by its own size instead of by the size
    of the new field.  [q_swap]: gear.cxx:591 compares [chunk] with the end of the data where
    [chunk + have] is meant. *)
Record quirks := { q_split : bool; q_swap : bool }.
Definition asis : quirks := {| q_split := true; q_swap := true |}.
Definition repaired : quirks := {| q_split := false; q_swap := false |}.

(** src: gear.cxx:261-305 *)
Definition alloc_loose (q : quirks) (s : st) (tag units : Z) : res nat :=
  if units =? 0 then
    bind (index_alloc s) (fun k s1 => Ok k (set_ent s1 k (mkE 0 (u16 tag))))
  else match lookup_fit s units with
  | None => Bad
  | Some None =>
    if tail_space s <? units then Throw s
    else bind (index_alloc s) (fun k s1 =>
      Ok k (with_tail (set_ent s1 k (set_payload s1 k (mkE 0 (u16 tag)) (tail s1)))
              (tail s1 + units)))
  | Some (Some h) =>
    let excess := u32 (hunits (idx s h) - units) in
    if excess =? 0 then
      Ok h (set_ent (with_jc (with_jv s (jv s - units)) (jc s - 1)) h
              (mkE (rel (idx s h)) (u16 tag)))
    else bind (index_alloc s) (fun k s1 =>
      let s2 := set_ent s1 k (set_payload s1 k (mkE 0 (u16 tag)) (hole_begin s1 h)) in
      let d := if q_split q then excess else units in
      let s3 := set_ent s2 h (set_units (add_delta (idx s2 h) d) excess) in
      Ok k (with_jv s3 (jv s3 - units)))
  end.

(** src: gear.cxx:307-329 *)
Definition merge_holes (s : st) (f g : nat) : nat * st :=
  let units := hunits (idx s f) + hunits (idx s g) in
  if negb (is_begin s f) then
    let s1 := set_ent s f (set_units (idx s f) units) in
    (f, purge_trim s1 g)
  else
    let s1 := set_ent s g
                (set_units (add_delta (idx s g) (- hunits (idx s f))) units) in
    (g, trim_hole (purge s1 f)).

(** src: gear.cxx:331-364 *)
Definition release_loose (s : st) (k : nat) (units : Z) : res unit :=
  let s := with_jc s (jc s + 1) in
  if units =? 0 then Ok tt (purge_trim s k)
  else
    let s := with_jv (set_ent s k (set_units (idx s k) units)) (jv s + units) in
    match lookup_adjacent s (hole_begin s k) (hole_end s k) with
    | None => Bad
    | Some (bf, af) =>
      let '(k, s) := match bf with Some b => merge_holes s b k | None => (k, s) end in
      let '(k, s) := match af with Some a => merge_holes s k a | None => (k, s) end in
      if negb (hole_end s k =? tail s) then Ok tt s
      else
        let u := hunits (idx s k) in
        let s := with_jv (with_tail s (tail s - u)) (jv s - u) in
        Ok tt (purge_trim s k)
    end.

(** src: gear.cxx:366-429; the result is the hole that received the chunk, if any *)
Definition release_data_at (s : st) (chunk units : Z) (ba : option nat * option nat)
    (hole0 : option nat) : res (option nat) :=
  let '(bf, af) := ba in
  if chunk + units =? tail s then
    let s := with_tail s (tail s - units) in
    match bf with
    | None => Ok None s
    | Some b =>
      let u := hunits (idx s b) in
      let s := with_jv (with_tail s (tail s - u)) (jv s - u) in
      Ok None (purge_trim s b)
    end
  else
    let s := with_jv s (jv s + units) in
    let '(merged, s) :=
      match bf with
      | Some b => (Some b, set_ent s b (set_units (idx s b) (units + hunits (idx s b))))
      | None => (None, s)
      end in
    let '(merged, s) :=
      match af with
      | Some a =>
        match merged with
        | Some m => let '(m, s) := merge_holes s m a in (Some m, s)
        | None =>
          (Some a, set_ent s a (set_units (add_delta (idx s a) (- units))
                                  (units + hunits (idx s a))))
        end
      | None => (merged, s)
      end in
    match merged with
    | Some m => Ok (Some m) s
    | None =>
      bind (match hole0 with
            | Some h => Ok h s
            | None => bind (index_alloc s) (fun h s => Ok h (with_jc s (jc s + 1)))
            end) (fun h s =>
        Ok (Some h) (set_ent s h (set_payload s h (set_units (idx s h) units) chunk)))
    end.
(** src: gear.cxx:85-90 *)
Definition release_data (s : st) (chunk units : Z) : res unit :=
  match lookup_adjacent s chunk (chunk + units) with
  | None => Bad
  | Some ba => bind (release_data_at s chunk units ba None) (fun _ s => Ok tt s)
  end.

(** ** References to payload: a loose field or a preplaced slot.
    src: the [relative_offset &ref] argument of realloc_data (gear.cxx:431); rw.h:1398-1401 *)
Inductive ref := RL (k : nat) | RP (j : nat).
Definition rown (s : st) (r : ref) : Z :=
  match r with RL k => own s k | RP j => pivot s + soff s j end.
Definition rrel (s : st) (r : ref) : Z :=
  match r with RL k => rel (idx s k) | RP j => pre s j end.
Definition raddr (s : st) (r : ref) : Z := rown s r + rrel s r.
Definition set_rrel (s : st) (r : ref) (v : Z) : st :=
  match r with
  | RL k => set_ent s k (mkE v (gid (idx s k)))
  | RP j => with_pre s (fupd (pre s) j v)
  end.
(** src: field.h:386-392 *)
Definition set_rpayload (s : st) (r : ref) (target : Z) : st :=
  set_rrel s r (u16 (target - rown s r)).

(** src: gear.cxx:534-565 (the label release_and_alloc) *)
Definition release_and_alloc (s : st) (r : ref) (have needed : Z)
    (ba : option nat * option nat) (hole4release hole4alloc : option nat) : res unit :=
  bind (release_data_at s (raddr s r) have ba hole4release) (fun hole4release s =>
    let again := lookup_fit s needed in
    let choice :=
      match hole4alloc with
      | Some h =>
        if Nat.ltb h (cnt s) && negb (hunits (idx s h) =? 0)
        then Some (Some (best_fit s needed hole4release h))
        else again
      | None => again
      end in
    match choice with
    | None => Bad
    | Some hole4alloc =>
      bind (alloc_data_at s needed hole4alloc) (fun chunk s => Ok tt (set_rpayload s r chunk))
    end).

(** src: gear.cxx:431-631 *)
Definition realloc_data (q : quirks) (s : st) (r : ref) (have needed : Z) : res unit :=
  let chunk := raddr s r in
  if jv s =? 0 then
    if chunk + have =? tail s then
      if (have <? needed) && (tail_space s <? needed - have) then Throw s
      else Ok tt (with_tail s (tail s - have + needed))
    else if needed >? have then
      if (tail_space s <? needed) || (head_space s + jc s <? 1) then Throw s
      else bind (index_alloc s) (fun h s =>
        let s := set_ent s h (set_payload s h (set_units (idx s h) have) (raddr s r)) in
        let s := with_jv (with_jc s (jc s + 1)) (jv s + have) in
        bind (tail_alloc s needed) (fun chunk s => Ok tt (set_rpayload s r chunk)))
    else bind (index_alloc s) (fun h s =>
        let s := set_ent s h
                   (set_payload s h (set_units (idx s h) (have - needed)) (raddr s r + needed)) in
        Ok tt (with_jv (with_jc s (jc s + 1)) (jv s + (have - needed))))
  else match lookup_adjacent s chunk (chunk + have) with
  | None => Bad
  | Some ba =>
    let hu o := match o with Some k => hunits (idx s k) | None => 0 end in
    let adjacent := hu (fst ba) + hu (snd ba) in
    if (have <? needed) && (have + adjacent >=? needed) then
      release_and_alloc s r have needed ba None None
    else
      let hole4release :=
        if (adjacent >? 0) || (head_space s >? 0) then None else lookup_exact s 0 in
      let can_add := (adjacent >? 0) || (head_space s >? 0) ||
        match hole4release with Some _ => true | None => false end in
      if negb can_add then
        match lookup_exact s needed with
        | Some h =>
          let s1 := set_rpayload s r (hole_begin s h) in
          let s1 := set_ent s1 h (set_units (set_payload s1 h (idx s1 h) chunk) have) in
          let s1 := with_jv s1 (jv s1 + u16 (have - needed)) in
          if (if q_swap q then chunk else chunk + have) =? tail s1 then
            let s1 := with_jv (with_tail s1 (tail s1 - have)) (jv s1 - have) in
            Ok tt (purge_trim s1 h)
          else Ok tt s1
        | None =>
          if chunk + have =? tail s then
            if (have <? needed) && (tail_space s <? needed - have) then Throw s
            else Ok tt (with_tail s (tail s - have + needed))
          else Throw s
        end
      else if (have >? needed) || (needed <=? tail_space s) then
        release_and_alloc s r have needed ba hole4release None
      else match lookup_fit s needed with
      | None => Bad
      | Some (Some h) => release_and_alloc s r have needed ba hole4release (Some h)
      | Some None => Throw s
      end
  end.
