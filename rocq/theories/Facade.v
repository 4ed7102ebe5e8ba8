(** * Facade: making, checking and opening tuples through the C interface (model).

    src: src/compat_rw.cxx:26-54, 67-239; src/compat_ro.cxx:19-61; src/ro.cxx:189-205;
    fast_positive/tuples/legacy.h:281-394.

    The functions are noexcept: an exception that is not caught inside ends the process
    ([Dies]).  A tuple in serialised form is an address and a length ([fptu_ro]); what a function
    returns through pointers is part of the result.  Texts of errors are dropped. *)
From Verif Require Import Base Tag Codec Gear GearBase Tuple TupleMore Hippeus Scan Audit Image GearOpt Growth.

Inductive call (A : Type) := Returns (a : A) | Dies.
Arguments Returns {A}. Arguments Dies {A}.

(** ** Checks.  src: compat_ro.cxx:19-23 (fptu_check_ro_ex), legacy.h:327-329; [true] = no trouble *)
Definition check_ro (m : bmem) (ptr len : Z) (no_holes : bool) : call bool :=
  match snd (ro_audit_ex m ptr len None no_holes) with
  | Good _ => Returns true
  | Trouble => Returns false
  | Thrown => Dies
  end.
(** fptu_check_rw.  src: compat_rw.cxx:79-81; a tuple of the C interface has no schema *)
Definition check_rw (A : Z) (s : st) : call bool :=
  match snd (rw_audit (bytes_of A (word s)) A (head s) (pivot s) (tail s) (end_ s) (jc s) (jv s) None) with
  | Good _ => Returns true
  | Trouble => Returns false
  | Thrown => Dies
  end.
(** is_hollow, fptu_is_empty_ro, fptu_begin_ro, fptu_end_ro; 0 is nullptr.
    src: compat_ro.cxx:25-61 *)
Definition is_hollow (m : bmem) (ptr len : Z) : bool := (len <? 4) || negb (4 * ro_units m ptr =? len).
Definition is_empty_ro (m : bmem) (ptr len : Z) : bool := if is_hollow m ptr len then true else ro_index m ptr <? 1.
Definition begin_ro (m : bmem) (ptr len : Z) : Z := if is_hollow m ptr len then 0 else ptr + 4.
Definition end_ro (m : bmem) (ptr len : Z) : Z := if is_hollow m ptr len then 0 else ro_pivot m ptr.

(** ** New tuples.  src: compat_rw.cxx:26-39, rw.cxx:686-689; [buf] is the address of the buffer, [d]
    what it held *)
Definition fptu_init (buf size items : Z) (d : Z -> Z) : option st :=
  if buf =? 0 then None else construct size items no_layout d.
(** src: compat_rw.cxx:41-49; [heap] is what malloc() returns.  The second part: is a block from
    malloc() lost *)
Definition fptu_alloc (items data : Z) (heap : Z -> Z) (d : Z -> Z) : call (option st * bool) :=
  if (items >? max_fields) || (data >? max_tuple_bytes_netto) then Returns (None, false)
  else match fptu_space items data with
       | None => Dies
       | Some bytes =>
         match fptu_init (heap bytes) bytes items d with
         | Some s => Returns (Some s, false)
         | None => Returns (None, negb (heap bytes =? 0))
         end
       end.
(** room that is left.  src: compat_rw.cxx:67-77, rw.h:1093-1110 *)
Definition space4items (s : st) : Z := head_space s.
Definition space4data (s : st) : Z := 4 * tail_space s.
Definition junkspace (s : st) : Z := 4 * (jc s + jv s).
(** fptu_is_empty_rw; the other counts and sizes of a modifiable tuple are those of TupleMore.
    src: compat_rw.cxx:238, rw.h:1112-1114 *)
Definition empty_rw (s : st) : bool := tuple_empty s.
(** tuple_ro::empty().  src: ro.h:566-568 *)
Definition empty_ro (m : bmem) (ptr : Z) : bool := ro_units m ptr <? 2.
(** fptu_take_noshrink.  src: compat_rw.cxx:83-89 *)
Definition take_noshrink (A : Z) (s : st) : Z * Z := (asis_ptr A s, asis_bytes s).

(** ** From the serialised form *)
(** src: compat_rw.cxx:100-118.  [None] for the last argument is error == nullptr; otherwise the
    second part tells if *error is set *)
Definition check_and_size (m : bmem) (ptr len more_items more_payload : Z) (with_error : bool) : call (Z * bool) :=
  if negb with_error then Returns (2 ^ 64 - 1, false)
  else match check_ro m ptr len false with
       | Dies => Dies
       | Returns false => Returns (0, true)
       | Returns true =>
         match estimate_ro m ptr more_items more_payload 0 with
         | Some n => Returns (n, false)
         | None => Returns (0, true)
         end
       end.
(** src: compat_rw.cxx:160-166: nothing is caught *)
Definition get_buffer_size (m : bmem) (ptr more_items more_payload : Z) : call Z :=
  match estimate_ro m ptr more_items more_payload 0 with Some n => Returns n | None => Dies end.
(** fptu_fetch with the empty tuple that stands for no bytes.  src: compat_rw.cxx:119-159 *)
Definition stub_mem (at_ : Z) : bmem := fun a => if a =? at_ then 1 else 0.
Definition fptu_fetch (m : bmem) (ptr len buf size more_items stub : Z) (d : Z -> Z) : option st :=
  if buf =? 0 then None
  else if len =? 0 then fetch (stub_mem stub) stub 4 size more_items d
  else fetch m ptr len size more_items d.

(** struct fptu_cbfs_result: is err set, does err_msg point to the sign of success, the counters.
    src: legacy.h:352-356, compat_rw.cxx:168 *)
Record cbfs := mkC { c_err : bool; c_sign : bool; c_count : Z; c_volume : Z }.
(** src: compat_rw.cxx:199-232 *)
Definition check_and_size_ex (m : bmem) (ptr len more_items more_payload : Z) (c : option cbfs) : call (Z * option cbfs) :=
  match c with
  | None => Returns (2 ^ 64 - 1, None)
  | Some c0 =>
    match snd (ro_audit m ptr len None) with
    | Thrown => Dies
    | Trouble => Returns (0, Some (mkC true false (c_count c0) (c_volume c0)))
    | Good info =>
      match estimate_ro m ptr more_items more_payload 0 with
      | Some n => Returns (n, Some (mkC false true (u16 (fst info)) (u16 (snd info))))
      | None => Returns (0, Some (mkC true false (c_count c0) (c_volume c0)))
      end
    end
  end.
(** src: compat_rw.cxx:170-197: the length of the image is not looked at *)
Definition fetch_ex (m : bmem) (ptr buf size more_items : Z) (c : option cbfs) (d : Z -> Z) : option st :=
  match c with
  | None => None
  | Some c =>
    if c_err c || negb (c_sign c) then None
    else if buf =? 0 then None
    else from_ro (c_count c, c_volume c) m ptr size more_items no_layout d
  end.

(** tuple_ro::make_from_buffer: the address of the tuple, 0 for nullptr, or an exception.
    src: ro.cxx:189-205 *)
Definition make_from_buffer (m : bmem) (ptr bytes : Z) (schema : option sch) (skip : bool) : option Z :=
  if (ptr =? 0) || (bytes <? 4) then (if skip then Some 0 else None)
  else if skip then Some ptr
  else match snd (ro_audit_ex m ptr bytes schema false) with Good _ => Some ptr | _ => None end.
