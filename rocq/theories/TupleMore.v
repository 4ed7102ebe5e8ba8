(** * TupleMore: clearing a tuple and the size queries (model). *)
From Verif Require Import Base Tag Codec Gear Tuple.

(** src: rw.cxx:611-630.  [None] = throw_tuple_bad.  [bytes2units(buffer_limit)] is
    2 * 65534 (essentials.h:84).  The preplaced part is overwritten by the initial image of the
    schema; in it the references of variable-length fields are zero (schema.cxx:208-213). *)
Definition max_fields : Z := 8191.                (* essentials.h:80: (1 << 13) - 1 *)
Definition reset (s : st) : option st :=
  if (pivot s <? 1) || (pivot s >? max_fields) || (pivot s >? end_ s) || (end_ s >? 2 * 65534) then None
  else if pp s >? u32 (end_ s - pivot s) then None
  else Some (mkS (idx s) 0 (fun _ => 0) (dat s) (pivot s + pp s) 0 0 (pivot s) (end_ s) (pp s)
               (nslots s) (soff s) (stype s)).

(** Size queries, src: rw.h:1093-1135; [head_] is [pivot - cnt].  Sizes in bytes are four times
    the number of units. *)
Definition junk_units (s : st) : Z := jv s + jc s.
Definition head_ (s : st) : Z := pivot s - Z.of_nat (cnt s).
Definition tuple_empty (s : st) : bool := head_ s + jc s =? tail s.
Definition index_size (s : st) : Z := pivot s - head_ s.
Definition payload_size_units (s : st) : Z := tail s - pivot s.
Definition loose_count (s : st) : Z := index_size s - jc s.
Definition brutto_size (s : st) : Z := 4 * (tail s - head_ s + 1).
Definition netto_size (s : st) : Z := brutto_size s - junk_units s.
Definition capacity (s : st) : Z := 4 * end_ s.

(** ** What a getter returns.  src: getter.h:72-101, 123-180 *)
Inductive rd := RVal (p : list Z) | REmpty | RAbsent.
Definition read_loose (s : st) (desc : Z) (disc : bool) : rd :=
  match get_loose s desc with Some p => RVal p | None => if disc then RAbsent else REmpty end.
Definition read_slot (s : st) (j : nat) (disc : bool) : rd :=
  match get_slot s j with Some p => RVal p | None => if disc then RAbsent else REmpty end.

(** ** Preplaced fields of fixed size: the bytes of the preplaced part of the tuple *)
Definition img := Z -> Z.
Definition pread (m : img) (off n : Z) : list Z := map (fun i => m (off + Z.of_nat i)) (seq 0 (Z.to_nat n)).
Definition pwrite (m : img) (off : Z) (bs : list Z) : img :=
  fun x => if (off <=? x) && (x <? off + Z.of_nat (length bs)) then nth (Z.to_nat (x - off)) bs 0 else m x.

(** the reserved value, as bytes.  src: meta.h:286-403 (template arguments of genus_traits<>),
    471-616.  [denil_len] is the number of bytes the test looks at: for ipnet 17 of 20
    (sizeof(ip_net_t)), for all others the whole field. *)
Definition denil_len (g : Z) : Z := if g =? g_ipnet then 17 else preplaced_bytes g.
Definition denil (g : Z) : list Z :=
  if g =? g_i8 then [128]
  else if g =? g_i16 then [0; 128]
  else if g =? g_i32 then [0; 0; 0; 128]
  else if g =? g_f32 then repeat 255 4
  else if g =? g_i64 then repeat 0 7 ++ [128]
  else if (g =? g_f64) || (g =? g_d64) then repeat 255 8
  else repeat 0 (Z.to_nat (denil_len g)).
Definition is_denil (g : Z) (m : img) (off : Z) : bool :=
  if list_eq_dec Z.eq_dec (pread m off (denil_len g)) (denil g) then true else false.
(** src: meta.h:97-101, 149-153, 199-203, 279-283 with 797-800 *)
Definition fixed_erase (g : Z) (disc : bool) (m : img) (off : Z) : img :=
  pwrite m off (if disc && negb (g =? g_ipnet) then denil g else repeat 0 (Z.to_nat (preplaced_bytes g))).
(** src: rw.h:1330-1338; [is_prohibited_nil] is always false (meta.h:85-88, 139-142, 189-192, 247-250) *)
Definition fixed_set (g : Z) (disc : bool) (m : img) (off : Z) (v : list Z) : option img :=
  if disc && false then None else Some (pwrite m off v).
(** src: getter.h:127-137 *)
Definition fixed_get (g : Z) (disc : bool) (m : img) (off : Z) : rd :=
  if disc && is_denil g m off then RAbsent else RVal (pread m off (preplaced_bytes g)).

(** ** Presence.  src: tablets.cxx:164-212 (is_null), getter.h:212-217 (exist).
    The reference of a preplaced variable-length field is a unit whose upper half is zero. *)
Definition fixed_is_null (g : Z) (disc : bool) (m : img) (off : Z) : bool := disc && is_denil g m off.
Definition slot_is_null (s : st) (j : nat) : bool := pre s j =? 0.
Definition exist_fixed (g : Z) (disc : bool) (m : img) (off : Z) : bool := fixed_is_null g disc m off.
Definition exist_slot (s : st) (j : nat) : bool := slot_is_null s j.
Definition exist_loose (s : st) (desc : Z) : bool :=
  match lookup_gid s desc with Some _ => true | None => false end.

(** ** Erasing by token.  src: rw.cxx:113-116, rw.h:1037-1046, 1512-1528; the result is the
    returned bool and what is left *)
Definition erase_token_slot (s : st) (j : nat) : res bool :=
  if exist_slot s j then bind (erase_slot s j) (fun _ s => Ok true s) else Ok false s.
Definition erase_token_fixed (g : Z) (disc : bool) (m : img) (off : Z) : bool * img :=
  if exist_fixed g disc m off then (true, fixed_erase g disc m off) else (false, m).
