(** * Scales: making tuples by the five named scales (model).

    src: fast_positive/tuples.h:157-186, 1028-1111; src/managed.cxx:24-167, 245-277; src/rw.cxx:663-684,
    747-771, 789-806.  The scales are numbered 0..4 = tiny, small, medium, large, extreme. *)
From Verif Require Import Base Tag Codec Gear GearBase Tuple Hippeus Scan Audit Image GearOpt Growth.

(** src: managed.cxx:49-55 *)
Definition scale_more : list Z :=
  map (fun part => (max_tuple_bytes_netto - 4 * max_fields) / part) [256; 64; 16; 4; 1].
Definition items_of (k : nat) : Z := nth k scale_items 0.
Definition bytes_of_scale (k : nat) : Z := nth k scale_bytes 0.
Definition more_of (k : nat) : Z := nth k scale_more 0.

(** tuple_rw::create_new.  src: rw.cxx:663-684.  [borrow n] is the size of the buffer that the
    allocator lends for [n] bytes (exactly [n] when it is malloc); allocation failures are left out *)
Definition create_new (borrow : Z -> Z) (items data : Z) (l : layout) (d : Z -> Z) : option st :=
  match estimate items data (l_bytes l) false with
  | None => None
  | Some need => construct (borrow need) items l d
  end.
(** tuple_rw_fixed(scale, schema, allot_tag); also tuple_rw_fixed(defaults) and tuple_rw_fixed(scale) with
    the scale and the schema of defaults::setup().  src: managed.cxx:67-80, 26-32 *)
Definition new_scaled (borrow : Z -> Z) (k : nat) (l : layout) (d : Z -> Z) : option st :=
  create_new borrow (items_of k) (bytes_of_scale k) l d.
(** create_from_ro on the form that take_asis() gives; the buffer is borrowed for the estimate.
    src: rw.cxx:747-771, rw.h:176-184 *)
Definition copy_sized (borrow : Z -> Z) (A : Z) (s : st) (more_items more_payload : Z) (l : layout) (d : Z -> Z) : option st :=
  match estimate_ro (asis_mem A s) (asis_ptr A s) more_items more_payload (l_bytes l) with
  | None => None
  | Some need => create_copy A s (borrow need) more_items more_payload l d
  end.
(** tuple_rw_fixed::clone(tuple_rw_fixed, scale).  src: managed.cxx:257-276 *)
Definition clone_scaled (borrow : Z -> Z) (A : Z) (s : st) (k : nat) (l : layout) (d : Z -> Z) : option st :=
  copy_sized borrow A s (items_of k) (more_of k) l d.
(** tuple_rw_fixed::clone(tuple_rw_fixed): as much reserve as the source has.  src: managed.cxx:245-256 *)
Definition clone_alike (borrow : Z -> Z) (A : Z) (s : st) (l : layout) (d : Z -> Z) : option st :=
  copy_sized borrow A s (head s) (4 * tail_space s) l d.
(** tuple_rw_fixed(ptr, bytes, scale, schema, allot_tag), clone(tuple_ro_weak, scale).
    src: managed.cxx:103-124, 126-150; rw.cxx:789-806 *)
Definition open_scaled (borrow : Z -> Z) (m : bmem) (ptr bytes : Z) (k : nat) (schema : option sch) (l : layout) (d : Z -> Z) : option st :=
  match snd (ro_audit m ptr bytes schema) with
  | Good _ =>
    match estimate_ro m ptr (items_of k) (more_of k) (l_bytes l) with
    | None => None
    | Some need => create_from_buffer m ptr bytes (borrow need) (items_of k) (more_of k) schema l d
    end
  | _ => None
  end.
