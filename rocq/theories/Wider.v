(** * Wider: how much space a tuple of the present contents and more would take (model). *)
From Verif Require Import Base Tag Codec Gear GearBase Tuple TupleMore Hippeus Scan Audit Image.

(** tuple_rw_fixed::estimate_required_space(rw, more_items, more_payload), and the member function of two arguments.
    src: tuples.h:1116-1131; index_size(), payload_size_bytes(): rw.h:1093-1135; the sums are of size_t.
    [pbytes] is rw.schema()->preplaced_bytes() or 0; [None] = an exception *)
Definition estimate_more (s : st) (more_items more_payload pbytes : Z) : option Z :=
  estimate (u64 (index_size s + more_items)) (u64 (4 * payload_size_units s + more_payload)) pbytes false.
