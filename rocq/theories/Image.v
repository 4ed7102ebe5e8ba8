(** * Image: the bytes of a tuple, and the ways between the two forms (model).

    src: src/rw.cxx:632-646 (take_asis), 700-745 (constructor from a read-only form), 747-797;
    fast_positive/tuples/details/rw.h:176-184 (create_copy), 1150-1196 (estimates);
    src/compat_rw.cxx:119-159 (fptu_fetch), src/managed.cxx:168-191, 436-485.

    [A] is the byte address of [area_[0]]; a unit is four bytes, little-endian.  The state of
    Gear.v keeps the index and the preplaced references apart from the payload; here they are
    put where they lie in [area_]. *)
From Verif Require Import Base Tag Codec Gear GearBase Tuple Hippeus Scan Audit.

(** head_ *)
Definition head (s : st) : Z := pivot s - Z.of_nat (cnt s).
(** the preplaced reference at a given unit offset from the pivot *)
Definition slot_at (s : st) (off : Z) : option nat := find (fun j => soff s j =? off) (seq 0 (nslots s)).
(** ** The unit [area_[x]] *)
Definition word (s : st) (x : Z) : Z :=
  if (head s <=? x) && (x <? pivot s) then
    let e := idx s (Z.to_nat (pivot s - 1 - x)) in rel e + 65536 * gid e
  else if (pivot s <=? x) && (x <? base s) then
    match slot_at s (x - pivot s) with
    | Some j => pre s j + 65536 * u16 (dat s x / 65536)
    | None => dat s x
    end
  else dat s x.
(** bytes of an array of units *)
Definition bytes_of (A : Z) (w : Z -> Z) : bmem := fun a => (w ((a - A) / 4) / 2 ^ (8 * ((a - A) mod 4))) mod 256.

(** ** The header of the read-only form.  src: rw.cxx:632-646, field.h:181-185;
    is_sorted() is always false (rw.h:1140-1143) *)
Definition header (s : st) : Z :=
  u16 (tail s - head s + 1) + 65536 * looseitems_flags (Z.of_nat (cnt s)) (if pp s >? 0 then 2 else 0).
Definition asis_word (s : st) (x : Z) : Z := if x =? head s - 1 then header s else word s x.
(** memory after take_asis(), its result, and the size the result claims *)
Definition asis_mem (A : Z) (s : st) : bmem := bytes_of A (asis_word s).
Definition asis_ptr (A : Z) (s : st) : Z := A + 4 * (head s - 1).
Definition asis_bytes (s : st) : Z := 4 * u16 (tail s - head s + 1).

(** ** Estimates.  src: rw.h:1145-1147: sizeof(tuple_rw) - sizeof(area_) for 64-bit pointers;
    rw.h:1150-1169; [None] = an exception.  [pbytes] is schema->preplaced_bytes() or 0 *)
Definition pure_tuple_size : Z := 44.
Definition ceil4 (x : Z) : Z := (x + 3) / 4 * 4.
Definition estimate (items data pbytes : Z) (skip_preplaced : bool) : option Z :=
  if pbytes >? max_tuple_bytes_netto then None
  else if (data >? max_tuple_bytes_netto - pbytes) || (items >? max_fields) then None
  else Some (pure_tuple_size + items * 4 + ceil4 (if skip_preplaced then data else data + pbytes)).
Definition ro_payload_units (m : bmem) (ptr : Z) : Z := ro_units m ptr - 1 - ro_index m ptr.
(** src: rw.h:1171-1196 *)
Definition estimate_ro (m : bmem) (ptr more_items more_payload pbytes : Z) : option Z :=
  if more_items >? max_fields then None
  else if more_payload >? max_tuple_bytes_netto then None
  else estimate (Z.min max_fields (ro_index m ptr + more_items))
                (Z.min max_tuple_bytes_netto (4 * ro_payload_units m ptr + more_payload)) pbytes true.

(** a 32-bit unit of memory *)
Definition word_at (m : bmem) (a : Z) : Z := half m a + 65536 * half m (a + 2).
(** what a schema says about the layout: preplaced_bytes(), number, unit offsets and types of the
    variable-length preplaced fields *)
Record layout := mkL { l_bytes : Z; l_n : nat; l_off : nat -> Z; l_type : nat -> Z }.
Definition l_units (l : layout) : Z := bytes2units (l_bytes l).

(** ** From the read-only form.  src: rw.cxx:700-745; [holes] is holes_info, [d] the previous
    contents of the new buffer, [None] an exception *)
Definition from_ro (holes : Z * Z) (m : bmem) (ptr buffer_size more_items : Z) (l : layout) (d : Z -> Z) : option st :=
  if more_items >? max_fields then None
  else if buffer_size >? 2 * max_tuple_bytes_netto then None
  else
    let have := ro_index m ptr in
    let reserve := Z.min max_fields (have + more_items) in
    match estimate reserve (4 * ro_payload_units m ptr) (l_bytes l) true with
    | None => None
    | Some need =>
      if buffer_size <? need then None
      else
        let pv := reserve in
        let hd := pv - have in
        let tl := pv + ro_payload_units m ptr in
        let w x := word_at m (ptr + 4 + 4 * (x - hd)) in
        Some (mkS (fun k => if Z.of_nat k <? have
                            then mkE (w (pv - 1 - Z.of_nat k) mod 65536) (w (pv - 1 - Z.of_nat k) / 65536)
                            else mkE 0 0)
                  (Z.to_nat have)
                  (fun j => w (pv + l_off l j) mod 65536)
                  (fun x => if (pv <=? x) && (x <? tl) then w x else d x)
                  tl (u16 (fst holes)) (u16 (snd holes)) pv
                  (Z.min max_tuple_units_netto (Z.shiftr (u32 (buffer_size - pure_tuple_size)) 2))
                  (l_units l) (l_n l) (l_off l) (l_type l))
    end.
(** ** Ways to get a modifiable tuple.  All end in [from_ro]; the buffer is a fresh one. *)
(** tuple_rw::create_copy, tuple_rw_fixed::clone.  src: rw.h:176-184; rw.cxx:747-777 (the buffer
    has at least the estimated size [size]) *)
Definition create_copy (A : Z) (s : st) (size more_items more_payload : Z) (l : layout) (d : Z -> Z) : option st :=
  match estimate_ro (asis_mem A s) (asis_ptr A s) more_items more_payload (l_bytes l) with
  | None => None
  | Some need => if size <? need then None
                 else from_ro (jc s, jv s) (asis_mem A s) (asis_ptr A s) size more_items l d
  end.
(** tuple_rw::create_from_buffer.  src: rw.cxx:789-806: validated first *)
Definition create_from_buffer (m : bmem) (ptr bytes size more_items more_payload : Z) (schema : option sch) (l : layout) (d : Z -> Z) : option st :=
  match snd (ro_audit m ptr bytes schema) with
  | Good info =>
    match estimate_ro m ptr more_items more_payload (l_bytes l) with
    | None => None
    | Some need => if size <? need then None else from_ro info m ptr size more_items l d
    end
  | _ => None
  end.
(** fptu_fetch.  src: compat_rw.cxx:119-159: only the size is checked, and the tuple is said to have
    no holes; no schema *)
Definition no_layout : layout := mkL 0 0 (fun _ => 0) (fun _ => 0).
Definition fetch (m : bmem) (ptr bytes size more_items : Z) (d : Z -> Z) : option st :=
  match snd (lite_checkup m ptr bytes) with
  | Good _ => from_ro (0, 0) m ptr size more_items no_layout d
  | _ => None
  end.
