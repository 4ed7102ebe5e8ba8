(** * Growth: sizes of new tuples, and making room in an auto-growing one (model).

    src: fast_positive/tuples/details/rw.h:192-209, 1150-1169; src/autogrowth.cxx:22-205;
    src/managed.cxx:36-64; src/schema.cxx:515-536; src/compat_rw.cxx:20-25. *)
From Verif Require Import Base Tag Codec Gear GearBase Tuple Hippeus Scan Audit Image GearOpt.

(** src: rw.h:192-209: a tuple in a buffer of [size] bytes.  [None] = throw_invalid_argument, or
    what estimate_required_space throws; [d] is what the memory held before (the image of the
    preplaced part is the subject of Schema.v) *)
Definition construct (size items : Z) (l : layout) (d : Z -> Z) : option st :=
  match estimate items 0 (l_bytes l) false with
  | None => None
  | Some need =>
    if (need >? size) || (size >? buffer_limit) then None
    else Some (fresh (Z.min max_tuple_units_netto (Z.shiftr (u32 (size - pure_tuple_size)) 2))
                 items (l_units l) (l_n l) (l_off l) (l_type l) d)
  end.
(** src: compat_rw.cxx:20-25 *)
Definition fptu_space (items data : Z) : option Z :=
  estimate (Z.min items max_fields) (Z.min data max_tuple_bytes_netto) 0 false.
(** src: schema.cxx:515-536: the loop over the tokens, [fixed] bytes and [dyn] units so far;
    sizeof(stretchy_value_tuple) = 4 (field.h:151-185) *)
Fixpoint tuple_size_loop (tokens : list Z) (average fixed dyn : Z) : Z :=
  match tokens with
  | [] => fixed + 4 * dyn
  | t :: r =>
    if is_preplaced t then
      let fixed := Z.max fixed (tag2offset t + tag2indysize t) in
      if tag2genus t =? g_hole then tuple_size_loop r average fixed dyn
      else tuple_size_loop r average fixed (dyn + if is_fixed_size t then 0 else bytes2units average)
    else tuple_size_loop r average fixed
           (dyn + 1 + loose_units (tag2genus t) + if is_fixed_size t then 0 else bytes2units average)
  end.
Definition estimate_tuple_size (tokens : list Z) (average : Z) : Z := tuple_size_loop tokens average 4 0.

(** ** Moving the used part of the area.  src: autogrowth.cxx:76-85, 155-164.  Units are 32 bits
    wide.  References are relative, so nothing else changes. *)
Definition with_border (s : st) (dt : Z -> Z) (d : Z) : st :=
  mkS (idx s) (cnt s) (pre s) dt (tail s + d) (jc s) (jv s) (pivot s + d) (end_ s) (pp s) (nslots s) (soff s) (stype s).
Definition shift_tuple (s : st) (d : Z) : st :=
  with_border s (fun x => if (head s + d <=? x) && (x <? tail s + d) then u32 (dat s (x - d)) else dat s x) d.
Definition unallocated (s : st) : Z := end_ s - (tail s - head s).

(** Outcome: room was made, an exception (with the tuple as it is left), or undefined behaviour
    (a copy to before the beginning or behind the end of the buffer). *)
Inductive grown := Room (s : st) | Failed (s : st) | Wild.

(** src: autogrowth.cxx:41-87; [wi] and [wd] are the index and data space wanted *)
Definition border_shift (s : st) (wi wd : Z) : Z :=
  let index_used := pivot s - head s + wi in
  let data_used := tail s - pivot s + wd in
  let whole_used := index_used + data_used in
  let un := unallocated s in
  if wi >? head s then
    Z.max wi (Z.min ((un * index_used + whole_used - 1) / whole_used) (un - wd)) - head s
  else if wd >? end_ s - tail s then
    - (Z.max wd (Z.min (un * data_used / whole_used) (un - wi)) - (end_ s - tail s))
  else 0.
Definition rearrange (srt : list chunk -> list chunk) (s : st) (wi wd : Z) : st :=
  let s := compactify srt s in
  let d := border_shift s wi wd in
  if d =? 0 then s else shift_tuple s d.

(** src: autogrowth.cxx:111-129 *)
Definition growth_data (s : st) (wd : Z) : Z :=
  let capacity := end_ s - pivot s in
  Z.min max_tuple_bytes_netto
    (if wd >? tail_space s then 4 * ((wd + capacity) * 2) else 4 * (capacity + 42)).
Definition growth_index (s : st) (wi : Z) : Z :=
  Z.min max_fields
    (if (wi >? head s) || (head s + head s <? pivot s) then (wi + pivot s) * 2 else pivot s).

(** src: managed.cxx:36-64 *)
Definition scale_items : list Z := [32; 128; 512; 2048; max_fields].
Definition scale_bytes : list Z := [1023; 4095; 16383; 65534; max_tuple_bytes_netto].
Definition granulated (pbytes : Z) (scale : nat) : option Z :=
  let b := nth scale scale_bytes 0 in
  estimate (nth scale scale_items 0) (b - Z.min b pbytes) pbytes false.
(** src: autogrowth.cxx:170-179 *)
Fixpoint pick_scale (n scale : nat) (pbytes space : Z) : option Z :=
  match n with
  | O => Some space
  | S m =>
    match granulated pbytes scale with
    | None => None
    | Some g => if g >=? space then Some g else pick_scale m (S scale) pbytes space
    end
  end.

(** src: autogrowth.cxx:182-205: a new tuple in a buffer of [size] bytes takes the contents.  The
    junk counters are those of the new tuple: zero.  [Wild]: the contents do not lie between the
    beginning of the area and the end_ of the new tuple.  When it is only end_ that is exceeded, the
    copy itself may still lie inside a buffer that is larger than the largest tuple, but the tuple is
    left with tail_ behind end_, so that the space behind the data, an unsigned difference, is huge
    (rw.h:1093-1135, gear.cxx:265) and the next allocation is not bounded by anything. *)
Definition into_buffer (s : st) (size gi : Z) (l : layout) (d : Z -> Z) : grown :=
  match construct size gi l d with
  | None => Failed s
  | Some n =>
    let hd := pivot n - Z.of_nat (cnt s) in
    let tl := pivot n + (tail s - pivot s) in
    if (hd <? 0) || (end_ n <? tl) then Wild
    else Room (mkS (fun k => if Nat.ltb k (cnt s) then idx s k else mkE 0 0) (cnt s) (pre s)
                   (fun x => if (hd <=? x) && (x <? tl) then u32 (dat s (x - pivot n + pivot s)) else d x)
                   tl (jc n) (jv n) (pivot n) (end_ n) (pp n) (nslots n) (soff n) (stype n))
  end.

(** src: autogrowth.cxx:131-168: a tuple of the C interface lies in memory of malloc and is grown by
    realloc.  The new end is computed with [growth_space % unit_size]; area_ begins 10 units behind
    the beginning of the object. *)
Definition reallocated (s : st) (space gi : Z) : st :=
  let e := u32 (Z.min max_tuple_units_netto (space mod 4 - 10)) in
  let s1 := mkS (idx s) (cnt s) (pre s) (dat s) (tail s) (jc s) (jv s) (pivot s) e (pp s) (nslots s) (soff s) (stype s) in
  if gi >? pivot s then shift_tuple s1 (gi - pivot s) else s1.

(** src: autogrowth.cxx:22-205.  [borrow space] is the size of the buffer the allocator returns;
    [managed] tells whether the tuple lies in such a buffer. *)
Definition manage (srt : list chunk -> list chunk) (borrow : Z -> Z) (managed : bool) (l : layout) (d : Z -> Z)
    (s : st) (wi wd : Z) : grown :=
  let wanna := wd + wi in
  let junk := jv s + jc s in
  let allocated := tail s - head s in
  if (allocated - junk + wanna >=? 65535) || (wi >? max_fields) || (wd >? max_tuple_bytes_netto) then Failed s
  else if wanna <=? junk + unallocated s then Room (rearrange srt s wi wd)
  else
    let s := if (allocated + wanna >=? 65535) || (junk + junk >? allocated) then compactify srt s else s in
    let gi := growth_index s wi in
    match estimate gi (growth_data s wd) (l_bytes l) false with
    | None => Failed s
    | Some space =>
      if managed then
        match pick_scale 5 0 (l_bytes l) space with
        | None => Failed s
        | Some space => into_buffer s (borrow space) gi l d
        end
      else Room (reallocated s space gi)
    end.

(** ** The space an operation asks for when it does not find enough *)
(** src: gear.cxx:458-630 (realloc_data), 235-259 *)
Definition realloc_wants (s : st) (r : ref) (have n : Z) : Z * Z :=
  let chunk := raddr s r in
  if jv s =? 0 then
    if chunk + have =? tail s then (0, n) else (1, n)
  else match lookup_adjacent s chunk (chunk + have) with
  | None => (0, n)
  | Some ba =>
    let hu o := match o with Some k => hunits (idx s k) | None => 0 end in
    let adjacent := hu (fst ba) + hu (snd ba) in
    let can_add := (adjacent >? 0) || (head_space s >? 0) ||
      match lookup_exact s 0 with Some _ => true | None => false end in
    if can_add then (0, n) else (1, n)
  end.
Definition ref_wants (s : st) (r : ref) (n : Z) : Z * Z :=
  if rrel s r =? 0 then (0, n)
  else if n =? 0 then (1, 0)                                          (* gear.cxx:417 *)
  else realloc_wants s r (brutto (rgenus s r) (dat s (raddr s r))) n.
(** src: gear.cxx:261-297 for new fields, else the above *)
Definition wants (s : st) (o : op) : Z * Z :=
  match o with
  | OSet desc disc v =>
    match lookup_gid s desc with
    | None => (1, if fixed_genus (descriptor2genus desc) then loose_units (descriptor2genus desc) else needed disc v)
    | Some k => ref_wants s (RL k) (needed disc v)
    end
  | OAppend desc disc v =>
    (1, if fixed_genus (descriptor2genus desc) then loose_units (descriptor2genus desc) else Z.of_nat (length (pay v)))
  | OSlot j disc v => ref_wants s (RP j) (needed disc v)
  | OSlotDel j => ref_wants s (RP j) 0
  | ORemove _ | OEraseAll _ | OErase _ => (0, 0)                      (* never thrown *)
  end.

(** ** The retry loop of the managed setters.  src: autogrowth.cxx:207-231, 269-330; the fuel is
    the number of exceptions handled.  [None] = undefined behaviour, or the fuel is used up. *)
Fixpoint retry (fuel : nat) (mg : st -> Z -> Z -> grown) (s : st) (o : op) : option (bool * st) :=
  match run1 asis s o with
  | Bad => None
  | Ok _ s' => Some (true, s')
  | Throw s' =>
    match fuel with
    | O => None
    | S f =>
      let '(wi, wd) := wants s' o in
      match mg s' wi wd with
      | Room s2 => retry f mg s2 o
      | Failed s2 => Some (false, s2)
      | Wild => None
      end
    end
  end.
