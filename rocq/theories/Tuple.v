(** * Tuple: reading and writing the fields of a modifiable tuple (model).

    src: fast_positive/tuples/details/rw.h:339-366, 1015-1046, 1319-1528,
    fast_positive/tuples/details/getter.h:72-190, 549-590,
    fast_positive/tuples/details/meta.h:51-284.

    Built on top of Gear.v.  A value is represented by what [genus_traits<>::write] puts in
    memory: one 16-bit number for the in-place types, the 32-bit units of the payload for the
    others.  The translation of API values into units is the subject of Codec.v (strings,
    binaries, nested tuples, properties).

    Simplification: the bytes of preplaced fields of fixed size are kept in a map of their own
    ([img], byte offset from the pivot), like the references of the preplaced variable-length
    fields ([pre] of Gear.v). *)
From Verif Require Import Base Tag Codec Gear.

(** the four bytes of a unit (little-endian) *)
Definition unit_bytes (w : Z) : list Z :=
  [w mod 256; (w / 256) mod 256; (w / 65536) mod 256; (w / 16777216) mod 256].

(** size of a variable-length payload as computed from its first unit.
    src: field.h:301-317 (Codec.stretchy_brutto_units reads only the first unit) *)
Definition brutto (g : Z) (w : Z) : Z := stretchy_brutto_units g (unit_bytes w).

(** ** Memory *)
Definition read_units (s : st) (a n : Z) : list Z :=
  map (fun i => dat s (a + Z.of_nat i)) (seq 0 (Z.to_nat n)).
Definition write_units (s : st) (a : Z) (ws : list Z) : st :=
  with_dat s (fun x => if (a <=? x) && (x <? a + Z.of_nat (length ws))
                       then nth (Z.to_nat (x - a)) ws 0 else dat s x).

(** type of a field *)
Definition egenus (e : ent) : Z := descriptor2genus (gid e).
Definition rgenus (s : st) (r : ref) : Z :=
  match r with RL k => egenus (idx s k) | RP j => stype s j end.
Definition fixed_genus (g : Z) : bool := 4 <=? g.   (* essentials.h:231-233 *)

(** payload length of a field in units.
    src: rw.h:361-363 with field.h:440-444; rw.h:1403-1405 *)
Definition plen (s : st) (r : ref) : Z :=
  let g := rgenus s r in
  if match r with RL _ => fixed_genus g | RP _ => false end then loose_units g
  else if rrel s r =? 0 then 0 else brutto g (dat s (raddr s r)).

(** contents of a field.  src: meta.h:70-76 (in-place), 126-131, 176-181, 229-234 and the
    [read] functions of the variable-length types *)
Definition value (s : st) (r : ref) : list Z :=
  if match r with RL _ => is_inplaced_genus (rgenus s r) | RP _ => false end then [rrel s r]
  else read_units s (raddr s r) (plen s r).

(** ** Writing to an existing loose field of fixed size.
    src: meta.h:89-96 (in-place), 143-148, 193-198, 252-274 *)
Definition write_fixed (s : st) (k : nat) (v : list Z) : st :=
  if is_inplaced_genus (egenus (idx s k))
  then set_ent s k (mkE (u16 (nth 0 v 0)) (gid (idx s k)))
  else write_units s (addr s k) v.

(** A value to be stored: is it the "empty" value of its type ([genus_traits<>::is_empty]),
    and the units (or the 16-bit number) that represent it.  [pay = []] is possible only for
    a nested tuple given as a null pointer (estimate_space = 0). *)
Record tv := mkV { v_empty : bool; pay : list Z }.

(** ** Setting a loose field of fixed size.  src: rw.h:1319-1362
    (the type check is by construction of [desc] = type * 2048 + id) *)
Definition assign_fixed (q : quirks) (s : st) (desc : Z) (disc : bool) (v : tv)
    : res (option nat) :=
  match lookup_gid s desc with
  | None =>
    if negb disc && v_empty v then Ok None s
    else bind (alloc_loose q s desc (loose_units (descriptor2genus desc)))
           (fun k s => Ok (Some k) (write_fixed s k (pay v)))
  | Some k =>
    if negb disc && v_empty v then
      bind (release_loose s k (loose_units (descriptor2genus desc))) (fun _ s => Ok None s)
    else Ok (Some k) (write_fixed s k (pay v))
  end.

(** units needed by a variable-length value.  src: rw.h:1374-1378 *)
Definition needed (disc : bool) (v : tv) : Z :=
  if disc || negb (v_empty v) then Z.of_nat (length (pay v)) else 0.

(** ** Changing the payload of an existing loose or preplaced variable-length field.
    src: rw.h:1398-1441 *)
Definition assign_ref (q : quirks) (s : st) (r : ref) (disc : bool) (v : tv) : res unit :=
  let n := needed disc v in
  if negb (rrel s r =? 0) then
    let have := brutto (rgenus s r) (dat s (raddr s r)) in
    if n =? have then Ok tt (write_units s (raddr s r) (pay v))
    else if n =? 0 then
      match r with
      | RL k => release_loose s k have
      | RP j => bind (release_data s (raddr s r) have) (fun _ s => Ok tt (set_rrel s r 0))
      end
    else bind (realloc_data q s r have n)
           (fun _ s => Ok tt (write_units s (raddr s r) (pay v)))
  else if n =? 0 then Ok tt s
  else bind (alloc_data s n) (fun chunk s =>
         let s := set_rpayload s r chunk in Ok tt (write_units s chunk (pay v))).

(** src: rw.h:1364-1397 (loose part) *)
Definition assign_stretchy (q : quirks) (s : st) (desc : Z) (disc : bool) (v : tv) : res unit :=
  match lookup_gid s desc with
  | None =>
    if needed disc v =? 0 then Ok tt s
    else bind (alloc_loose q s desc (needed disc v))
           (fun k s => Ok tt (write_units s (addr s k) (pay v)))
  | Some k => assign_ref q s (RL k) disc v
  end.

(** ** Adding a member to a collection.  src: rw.h:1446-1501 *)
Definition append_loose (q : quirks) (s : st) (desc : Z) (disc : bool) (v : tv)
    : res (option nat) :=
  let g := descriptor2genus desc in
  if negb disc && v_empty v then Ok None s
  else if fixed_genus g then
    bind (alloc_loose q s desc (loose_units g)) (fun k s => Ok (Some k) (write_fixed s k (pay v)))
  else
    bind (alloc_loose q s desc (Z.of_nat (length (pay v))))
      (fun k s => Ok (Some k) (write_units s (addr s k) (pay v))).

(** ** Removing a loose field.  src: rw.h:357-366 *)
Definition erase_loose (s : st) (k : nat) : res unit := release_loose s k (plen s (RL k)).

(** src: rw.h:339-350 (variable-length part) *)
Definition erase_slot (s : st) (j : nat) : res unit :=
  if rrel s (RP j) =? 0 then Ok tt s
  else bind (release_data s (raddr s (RP j)) (brutto (stype s j) (dat s (raddr s (RP j)))))
         (fun _ s => Ok tt (set_rrel s (RP j) 0)).

(** ** Removing all members of a collection.  src: src/rw.cxx:126-137 with the iterator step
    rw.h:917-924: after a removal the scan goes on at the next higher address, i.e. at the next
    lower position, up to end_index() *)
Fixpoint erase_all_from (s : st) (desc : Z) (n : nat) : res unit :=
  match n with
  | O => Ok tt s
  | S m => if gid (idx s m) =? desc
           then bind (erase_loose s m) (fun _ s => erase_all_from s desc m)
           else erase_all_from s desc m
  end.
Definition erase_all (s : st) (desc : Z) : res unit :=
  match lookup_gid s desc with
  | None => Ok tt s
  | Some k => erase_all_from s desc (S k)
  end.

(** ** Operations of the API on loose fields and preplaced variable-length fields *)
Inductive op :=
| OSet (desc : Z) (disc : bool) (v : tv)        (* set/insert/upsert by a loose token *)
| ORemove (desc : Z)                            (* remove by a loose token *)
| OAppend (desc : Z) (disc : bool) (v : tv)     (* insert into a collection *)
| OEraseAll (desc : Z)                          (* erase a collection *)
| OErase (k : nat)                              (* erase through an iterator/accessor *)
| OSlot (j : nat) (disc : bool) (v : tv)        (* set by a preplaced token *)
| OSlotDel (j : nat).                           (* tuple_rw::erase(field_preplaced..) *)

Definition void {A} (r : res A) : res unit := bind r (fun _ s => Ok tt s).

(** src: rw.h:1015-1046 *)
Definition run1 (q : quirks) (s : st) (o : op) : res unit :=
  match o with
  | OSet desc disc v =>
    if fixed_genus (descriptor2genus desc) then void (assign_fixed q s desc disc v)
    else assign_stretchy q s desc disc v
  | ORemove desc => match lookup_gid s desc with None => Ok tt s | Some k => erase_loose s k end
  | OAppend desc disc v => void (append_loose q s desc disc v)
  | OEraseAll desc => erase_all s desc
  | OErase k => erase_loose s k
  | OSlot j disc v => assign_ref q s (RP j) disc v
  | OSlotDel j => erase_slot s j
  end.

(** a sequence of operations; an operation that throws leaves its state and the caller goes on.
    [None] = undefined behaviour was met *)
Fixpoint run (q : quirks) (s : st) (l : list op) : option (list bool * st) :=
  match l with
  | [] => Some ([], s)
  | o :: l =>
    match run1 q s o with
    | Bad => None
    | Ok _ s' => option_map (fun p => (true :: fst p, snd p)) (run q s' l)
    | Throw s' => option_map (fun p => (false :: fst p, snd p)) (run q s' l)
    end
  end.

(** ** Reading by token.  [None]: no value (the API throws field_absent or returns the empty
    value depending on the token).  src: getter.h:123-180, 561-580 *)
Definition get_loose (s : st) (desc : Z) : option (list Z) :=
  match lookup_gid s desc with
  | None => None
  | Some k =>
    if fixed_genus (descriptor2genus desc) || negb (rel (idx s k) =? 0)
    then Some (value s (RL k)) else None
  end.
Definition get_slot (s : st) (j : nat) : option (list Z) :=
  if pre s j =? 0 then None else Some (value s (RP j)).
(** the members of a collection in the order of iteration.  src: getter.h:582-590, rw.h:917-924 *)
Fixpoint collect_from (s : st) (desc : Z) (n : nat) : list nat :=
  match n with
  | O => []
  | S m => if gid (idx s m) =? desc then m :: collect_from s desc m else collect_from s desc m
  end.
Definition collect (s : st) (desc : Z) : list nat := collect_from s desc (cnt s).

(** ** A tuple just created.  src: rw.h:192-209 (constructor), rw.cxx:615-630 (reset);
    the preplaced references are zero *)
Definition fresh (units pvt ppu : Z) (ns : nat) (so st0 : nat -> Z) (d : Z -> Z) : st :=
  mkS (fun _ => mkE 0 0) 0 (fun _ => 0) d (pvt + ppu) 0 0 pvt units ppu ns so st0.
