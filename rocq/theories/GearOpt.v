(** * GearOpt: compaction and sorting of a modifiable tuple (model).

    src: src/gear.cxx:635-953, 985-1002.

    [std::sort] is not stable and its order of equal items is not specified, so the sorting
    function is a parameter everywhere ([srt]); the theorems hold for every function that
    returns a sorted permutation.  The arena that holds the vectors is the subject of Arena.v. *)
From Verif Require Import Base Tag Codec Gear GearBase Tuple Hippeus Scan Audit Image.
From Coq Require Import Permutation Sorted.

(** ** Moving units.  Reads see the whole of [area_] ([Image.word]); writes go above the
    preplaced part. *)
(** src: gear.cxx:648-681: the fall-through switch copies the lowest unit first *)
Fixpoint copy_up (s : st) (dst src : Z) (n : nat) : st :=
  match n with
  | O => s
  | S m => copy_up (with_dat s (fun x => if x =? dst then word s src else dat s x)) (dst + 1) (src + 1) m
  end.
Definition memmove_units (s : st) (dst src n : Z) : st :=
  with_dat s (fun x => if (dst <=? x) && (x <? dst + n) then word s (src + (x - dst)) else dat s x).
(** src: gear.cxx:635-683; [count = 0] reaches memmove with zero bytes *)
Definition overlapped_copy (s : st) (dst src n : Z) : st :=
  if (1 <=? n) && (n <=? 16) then copy_up s dst src (Z.to_nat n) else memmove_units s dst src n.

(** ** Compaction, step one: holes leave the index.  src: gear.cxx:768-795.
    [sub_delta] (field.h:368-370) is applied to every type that is not in-place, whether or not
    the field has a payload *)
Definition sub_delta (e : ent) (d : Z) : ent := mkE (u16 (rel e - d)) (gid e).
Definition shifted (e : ent) (d : Z) : ent :=
  if d =? 0 then e else if is_inplaced_genus (egenus e) then e else sub_delta e d.
Fixpoint squeeze (n : nat) (src dst : nat) (s : st) : st :=
  match n with
  | O => s
  | S m =>
    if is_hole (idx s src) then squeeze m (S src) dst s
    else squeeze m (S src) (S dst)
           (if Nat.eqb src dst then s else set_ent s dst (shifted (idx s src) (Z.of_nat src - Z.of_nat dst)))
  end.
Definition drop_holes (s : st) : st :=
  if jc s =? 0 then s
  else with_jc (with_cnt (squeeze (cnt s) 0 0 s) (Z.to_nat (Z.of_nat (cnt s) - jc s))) 0.

(** ** Step two: payload moves down.  src: gear.cxx:685-752 (compact_item) *)
Record chunk := mkC { c_off : Z; c_len : Z; c_ref : ref }.
Definition chunk_src (s : st) (c : chunk) : Z := head s + c_off c.
(** src: gear.cxx:728-735 *)
Definition loose_chunk (s : st) (k : nat) : chunk :=
  mkC (u16 (addr s k - head s))
      (u16 (let g := egenus (idx s k) in if fixed_genus g then loose_units g else brutto g (dat s (addr s k))))
      (RL k).
(** src: gear.cxx:738-751; called for every variable-length preplaced field, also for one
    without payload: its [payload()] is then the place of the reference itself *)
Definition slot_chunk (s : st) (j : nat) : chunk :=
  mkC (u16 (raddr s (RP j) - head s)) (u16 (brutto (stype s j) (word s (raddr s (RP j))))) (RP j).
(** src: gear.cxx:826-845 *)
Definition chunks (s : st) : list chunk :=
  map (slot_chunk s) (seq 0 (nslots s)) ++
  map (loose_chunk s)
    (filter (fun k => negb (is_inplaced_genus (egenus (idx s k))) && negb (rel (idx s k) =? 0)) (seq 0 (cnt s))).
(** src: gear.cxx:859-868 *)
Definition move_chunk (acc : Z * st) (c : chunk) : Z * st :=
  let '(dst, s) := acc in
  let src := chunk_src s c in
  (dst + c_len c,
   if src =? dst then s
   else overlapped_copy (set_rrel s (c_ref c) (u16 (rrel s (c_ref c) - (src - dst)))) dst src (c_len c)).
Definition move_chunks (s : st) (dst : Z) (l : list chunk) : Z * st := fold_left move_chunk l (dst, s).
Definition pack_data (srt : list chunk -> list chunk) (s : st) : st :=
  if jv s =? 0 then s
  else let s' := snd (move_chunks s (base s) (srt (chunks s))) in
       with_jv (with_tail s' (tail s' - jv s')) 0.
(** src: gear.cxx:757-875 *)
Definition compactify (srt : list chunk -> list chunk) (s : st) : st := pack_data srt (drop_holes s).

(** what std::sort guarantees *)
Definition sorter {A} (key : A -> Z) (srt : list A -> list A) : Prop :=
  forall l, Permutation l (srt l) /\ StronglySorted (fun a b => key a <= key b) (srt l).

(** ** Sorting the index.  src: gear.cxx:879-908 (sort_item) *)
Record sitem := mkI { i_desc : Z; i_off : Z }.
Definition sort_item (s : st) (k : nat) : sitem :=
  mkI (gid (idx s k))
      (if is_inplaced_genus (egenus (idx s k)) || (rel (idx s k) =? 0) then rel (idx s k)
       else u16 (addr s k - head s)).
(** std::is_sorted with [>], from begin_index() (the highest position).  src: gear.cxx:914-917 *)
Definition descending (s : st) : bool :=
  forallb (fun k => negb (gid (idx s k) >? gid (idx s (S k)))) (seq 0 (cnt s - 1)).
(** writing one unit of [area_] *)
Definition set_word (s : st) (x lo hi : Z) : st :=
  if (head s <=? x) && (x <? pivot s) then set_ent s (Z.to_nat (pivot s - 1 - x)) (mkE lo hi)
  else
    let s' := with_dat s (fun y => if y =? x then lo + 65536 * hi else dat s y) in
    if (pivot s <=? x) && (x <? base s) then
      match slot_at s (x - pivot s) with Some j => with_pre s' (fupd (pre s') j lo) | None => s' end
    else s'.
(** src: gear.cxx:935-942: one item goes to the unit [x] *)
Definition put_item (s : st) (hd : Z) (x : Z) (i : sitem) : st :=
  set_word s x (if negb (is_inplaced_genus (descriptor2genus (i_desc i))) && negb (i_off i =? 0)
                then u16 (hd + i_off i - x) else i_off i) (i_desc i).
Fixpoint put_items (s : st) (hd x : Z) (l : list sitem) : st :=
  match l with [] => s | i :: l => put_items (put_item s hd x i) hd (x + 1) l end.
(** src: gear.cxx:912-953.  [presize] is what the code does: the vector is constructed with
    index_size() zero items, and as many again are appended *)
Definition sort_index (presize : bool) (srt : list sitem -> list sitem) (s : st) : bool * st :=
  if descending s then (false, s)
  else
    let items := map (sort_item s) (rev (seq 0 (cnt s))) in
    (true, put_items s (head s) (head s) (srt ((if presize then repeat (mkI 0 0) (cnt s) else []) ++ items))).

(** ** optimize().  src: gear.cxx:985-1002; rw.h:1058-1078, 1123-1126 (loose_count), 1140-1143
    (is_sorted() is false) *)
Record opt_flags := mkOF { f_compact : bool; f_sort : bool; f_force : bool }.
Definition optimize (srt : list chunk -> list chunk) (srt' : list sitem -> list sitem) (f : opt_flags) (s : st) : bool * st :=
  let '(inv, s) := if f_compact f && negb ((jc s =? 0) && (jv s =? 0)) then (jc s >? 0, compactify srt s) else (false, s) in
  if (f_sort f && (256 <=? Z.of_nat (cnt s) - jc s)) || f_force f
  then let '(inv', s) := sort_index true srt' s in (inv || inv', s) else (inv, s).

(** ** Taking a readable view.  The flag says whether iterators became invalid. *)
(** optimize_flags::all.  src: rw.h:1058-1064 *)
Definition opt_all : opt_flags := mkOF true true false.
(** take_optimized(); the view itself is Image.v.  src: rw.cxx:648-651; tuples.h:846-849 *)
Definition take_optimized (srt : list chunk -> list chunk) (srt' : list sitem -> list sitem) (s : st) : bool * st := optimize srt srt' opt_all s.
(** src: tuples.h:852-855; take_managed_clone (tuples.h:886-894) chooses in the same way *)
Definition take_weak (srt : list chunk -> list chunk) (srt' : list sitem -> list sitem) (dont_optimize : bool) (s : st) : bool * st :=
  if dont_optimize then take_optimized srt srt' s else (false, s).
(** src: tuples.h:857-861; the handle goes to the readable tuple (Managed.v) *)
Definition move_to_ro (srt : list chunk -> list chunk) (srt' : list sitem -> list sitem) (dont_optimize : bool) (s : st) : st :=
  if negb dont_optimize then snd (optimize srt srt' opt_all s) else s.
