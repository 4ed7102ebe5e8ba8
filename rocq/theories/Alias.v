(** * Alias: storing in a tuple a value that lies in the same tuple (model).

    src: fast_positive/tuples/details/meta.h:481-487, 512-517, 540-544, 569-576: the getters of the
    variable-length types do not copy; they give a view into the tuple (a pointer and a length, for a
    nested tuple a pointer).  rw.h:1364-1501: the setters take such a view, find room first and read the
    bytes behind the view only then, in genus_traits<>::write (meta.h:492-498, 522-528, 549-555,
    581-587), i.e. in the [store] functions of field.h:79-99, 134-147, 204-212, 279-288.
    src/autogrowth.cxx:22-231: the setters of a managed tuple call again with the same view after room
    has been made.

    The memory between begin_data_bytes and end_data_bytes is [dat], 32-bit units, as in Gear.v.
    Simplification: a memcpy between overlapping ranges, which C++ leaves undefined, is taken in its best
    reading, as a memmove. *)
From Verif Require Import Base Tag Codec Gear Tuple TupleMore Traits Typed Growth Image GearOpt.

(** byte [p] of the area, and [n] bytes from there *)
Definition area_byte (s : st) (p : Z) : Z := nth (Z.to_nat (p mod 4)) (unit_bytes (dat s (p / 4))) 0.
Definition area_bytes (s : st) (p n : Z) : list Z := map (fun i => area_byte s (p + Z.of_nat i)) (seq 0 (Z.to_nat n)).

(** ** The store functions up to their memcpy *)
(** src: field.h:79-94 *)
Definition string_head (m : list Z) (n : Z) : list Z :=
  let m1 := blit m (4 * (string_units n - 1)) [0; 0; 0; 0] in
  let m2 := blit m1 0 [u8 n] in
  if n >=? tiny_threshold then
    let prefix := u8 (tiny_threshold + Z.land n 1) in
    let suffix := u16 (Z.shiftr (n - prefix) 1) in
    blit (blit m2 0 [prefix]) 1 (u16_bytes suffix)
  else m2.
(** src: field.h:88, 95-98 *)
Definition string_place (n : Z) : Z := if n >=? tiny_threshold then 3 else 1.
(** src: field.h:134-144 *)
Definition varbin_head (m : list Z) (n : Z) : list Z :=
  let brutto := bytes2units n + 1 in
  blit (blit (blit m (4 * (brutto - 1)) [0; 0; 0; 0]) 0 (u16_bytes brutto)) 2 (u16_bytes (Z.land n 3)).
(** src: field.h:279-286 *)
Definition property_head (m : list Z) (n id : Z) : list Z :=
  blit (blit (blit m (4 * (bytes2units (n + 2) - 1)) [0; 0; 0; 0]) 0 [u8 n]) 1 [u8 id].
(** src: field.h:205-207 *)
Definition nested_head (m : list Z) : list Z := blit (blit m 0 (u16_bytes 0)) 2 (u16_bytes 0).

(** ** Views.  [p] is a byte of the area, [u] a unit *)
Inductive lent :=
| LText (p n : Z) | LBin (p n : Z) | LProp (p n id : Z) | LNested (u : Z).
(** what is behind a view *)
Definition lent_value (s : st) (le : lent) : tval :=
  match le with
  | LText p n => TText (area_bytes s p n)
  | LBin p n => TBin (area_bytes s p n)
  | LProp p n id => TProp (area_bytes s p n) id
  | LNested u => TNested (Some (unpack (read_units s u (dat s u mod 65536))))
  end.
(** the view a getter gives.  src: meta.h:481-487 with field.h:56-62, 101-104; 512-517 with 120-125,
    149-151; 540-544; 569-576 *)
Definition lend (s : st) (r : ref) : lent :=
  let a := raddr s r in
  let m := unpack (value s r) in
  let g := rgenus s r in
  if g =? g_text then LText (4 * a + (if string_is_tiny m then 1 else 3)) (string_length m)
  else if g =? g_varbin then LBin (4 * a + 4) (varbin_length m)
  else if g =? g_nested then LNested a
  else LProp (4 * a + 2) (byte_at m 0) (byte_at m 1).

(** what a store function leaves in the chunk of [units] units at [c]: everything before the memcpy is
    written first, then the bytes behind the view are read *)
Definition late (le : lent) (units : Z) (s : st) (c : Z) : list Z :=
  let m := unpack (read_units s c units) in
  match le with
  | LText p n =>
    let m := string_head m n in
    pack (blit m (string_place n) (area_bytes (write_units s c (pack m)) p n))
  | LBin p n =>
    let m := varbin_head m n in
    pack (blit m 4 (area_bytes (write_units s c (pack m)) p n))
  | LProp p n id =>
    let m := property_head m n id in
    pack (blit m 2 (area_bytes (write_units s c (pack m)) p n))
  | LNested u =>
    let m := nested_head m in
    let s2 := write_units s c (pack m) in
    pack (blit m 0 (area_bytes s2 (4 * u) (4 * (dat s2 u mod 65536))))
  end.

(** ** The setters with the units computed when the chunk is there *)
(** src: rw.h:1398-1441 (Tuple.assign_ref with [w] for the write) *)
Definition assign_ref_by (q : quirks) (s : st) (r : ref) (n : Z) (w : st -> Z -> list Z) : res unit :=
  if negb (rrel s r =? 0) then
    let have := brutto (rgenus s r) (dat s (raddr s r)) in
    if n =? have then Ok tt (write_units s (raddr s r) (w s (raddr s r)))
    else if n =? 0 then
      match r with
      | RL k => release_loose s k have
      | RP j => bind (release_data s (raddr s r) have) (fun _ s => Ok tt (set_rrel s r 0))
      end
    else bind (realloc_data q s r have n)
           (fun _ s => Ok tt (write_units s (raddr s r) (w s (raddr s r))))
  else if n =? 0 then Ok tt s
  else bind (alloc_data s n) (fun chunk s =>
         let s := set_rpayload s r chunk in Ok tt (write_units s chunk (w s chunk))).
(** a new loose field.  src: rw.h:1381-1390, 1483-1501 *)
Definition new_by (q : quirks) (s : st) (desc n : Z) (w : st -> Z -> list Z) : res unit :=
  bind (alloc_loose q s desc n) (fun k s => Ok tt (write_units s (addr s k) (w s (addr s k)))).

(** where the value goes: a loose field, a new member of a collection, a preplaced field *)
Inductive goal := ToLoose (desc : Z) | ToMember (desc : Z) | ToSlot (j : nat).
Definition goal_genus (s : st) (t : goal) : Z :=
  match t with ToLoose desc | ToMember desc => descriptor2genus desc | ToSlot j => stype s j end.
Definition goal_op (t : goal) (disc : bool) (v : tv) : op :=
  match t with ToLoose desc => OSet desc disc v | ToMember desc => OAppend desc disc v | ToSlot j => OSlot j disc v end.
(** src: rw.h:1364-1397, 1446-1501, 1015-1046 *)
Definition store_by (q : quirks) (s : st) (t : goal) (disc empty : bool) (units : Z) (w : st -> Z -> list Z) : res unit :=
  let n := if disc || negb empty then units else 0 in
  match t with
  | ToLoose desc =>
    match lookup_gid s desc with
    | None => if n =? 0 then Ok tt s else new_by q s desc n w
    | Some k => assign_ref_by q s (RL k) n w
    end
  | ToMember desc => if negb disc && empty then Ok tt s else new_by q s desc units w
  | ToSlot j => assign_ref_by q s (RP j) n w
  end.
(** a setter given a view into the tuple itself; emptiness and space are found before anything is changed
    ([to_tv]: value_too_long and type_mismatch are exceptions too) *)
Definition store_lent (q : quirks) (s : st) (t : goal) (disc : bool) (le : lent) : res unit :=
  match to_tv (goal_genus s t) (lent_value s le) with
  | None => Throw s
  | Some v => store_by q s t disc (v_empty v) (Z.of_nat (length (pay v))) (late le (Z.of_nat (length (pay v))))
  end.

(** ** Managed tuples.  src: autogrowth.cxx:207-231 *)
(** room is made inside the buffer.  src: autogrowth.cxx:28-40 *)
Definition stays (s : st) (wi wd : Z) : bool := wd + wi <=? jv s + jc s + unallocated s.
(** the outcome of a managed setter given a view into the tuple.  [Dangling]: the buffer behind the view
    has been released (autogrowth.cxx:198-204) and the view is read again *)
Inductive lasting := Done (ok : bool) (s : st) | Dangling | Stuck.
Fixpoint retry_lent (fuel : nat) (mg : st -> Z -> Z -> grown) (s : st) (t : goal) (disc : bool) (le : lent) : lasting :=
  match store_lent asis s t disc le with
  | Bad => Stuck
  | Ok _ s' => Done true s'
  | Throw s' =>
    match fuel, to_tv (goal_genus s t) (lent_value s le) with
    | S f, Some v =>
      let '(wi, wd) := wants s' (goal_op t disc v) in
      match mg s' wi wd with
      | Room s2 => if stays s' wi wd then retry_lent f mg s2 t disc le else Dangling
      | Failed s2 => Done false s2
      | Wild => Stuck
      end
    | S _, None => Done false s'
    | O, _ => Stuck
    end
  end.
