(** * Managed: handles of tuples over counted buffers (model).

    src: src/managed.cxx, fast_positive/tuples.h, src/rw.cxx:653-790, src/1Hippeus/buffer.cxx,
    fast_positive/tuples/1Hippeus/buffer.h.

    The variables of a program that are of type tuple_ro_managed or tuple_rw_fixed are the slots
    of a list; a variable that is declared is a new slot at the end, a variable that dies is one
    that is purged and not used again.  What a tuple holds is abstract here (see Tuple.v and
    Image.v for it): a type with the audit, the holes it counts, the new tuple and the nested
    tuple as parameters.  Concurrent use of the counters is the subject of Hippeus.v.  Limits of
    sizes ([throw_insufficient_space], [buffer_limit]) belong to Image.v and Growth.v; that a
    request for memory fails is an argument ([mem]). *)
From Verif Require Import Base Hippeus.

(** src: tuples.h:81-85 *)
Inductive mode := default_validation | enforce_skip_validation | enforce_validation.
(** src: tuples.h:86-96 *)
Definition apply_validation_mode (m : mode) (by_defaults : bool) : bool :=
  match m with default_validation => by_defaults | enforce_skip_validation => false | enforce_validation => true end.

Section Managed.
Variable V : Type.
Variable sane : V -> bool.
Variable fits : Z -> V -> bool.
Variable holes : V -> Z * Z.
Variable blank : option Z -> V.
Variable nested : V -> option V.

(** the audit with or without a schema.  src: rw.cxx:787-792 *)
Definition audit (schema : option Z) (v : V) : bool :=
  sane v && match schema with Some c => fits c v | None => true end.

(** ** Buffers and handles *)
(** A buffer with the tuple_rw that was constructed in it: reference counter, how many times it
    was given back, whether it has no header (memory of malloc, [buffer_offset_] = 0), the tag of
    its allocator with the flag for read-only buffers, the schema, the contents and the counters
    of junk. *)
Record buf := mkBuf { b_ref : Z; b_freed : Z; b_plain : bool; b_readonly : bool; b_host : Z;
                      b_schema : option Z; b_val : V; b_junk : Z * Z }.
(** a pointer to a tuple_ro: the buffer it points into and how deep it is nested in the tuple there *)
Definition place : Type := nat * nat.
(** src: tuples.h:472-473 (tuple_ro_managed: pimpl_, hb_), 997 (tuple_rw_fixed: pimpl_) *)
Inductive slot := RO (p : option place) (h : option nat) | RW (p : option nat).
Record st := mkSt { bufs : list buf; slots : list slot }.
Inductive out := Fine (s : st) | Thrown (s : st) | Undef | Terminate.

Fixpoint upd {A : Type} (i : nat) (x : A) (l : list A) : list A :=
  match l, i with
  | [], _ => []
  | _ :: l, O => x :: l
  | y :: l, S i => y :: upd i x l
  end.
Definition set_slot (i : nat) (x : slot) (s : st) : st := mkSt (bufs s) (upd i x (slots s)).
Definition push (x : slot) (s : st) : st := mkSt (bufs s) (slots s ++ [x]).
Definition set_buf (b : nat) (u : buf) (s : st) : st := mkSt (upd b u (bufs s)) (slots s).
(** the buffer, while it may be looked at *)
Definition look (b : nat) (s : st) : option buf :=
  match nth_error (bufs s) b with Some u => if b_freed u =? 0 then Some u else None | None => None end.
Definition with_ref (r : Z) (u : buf) : buf :=
  mkBuf r (b_freed u) (b_plain u) (b_readonly u) (b_host u) (b_schema u) (b_val u) (b_junk u).
Definition freed (u : buf) : buf :=
  mkBuf (b_ref u) (b_freed u + 1) (b_plain u) (b_readonly u) (b_host u) (b_schema u) (b_val u) (b_junk u).
(** src: buffer.cxx:151-165; [None]: the buffer is not there any more *)
Definition add_reference (h : option nat) (s : st) : option st :=
  match h with
  | None => Some s
  | Some b => match look b s with Some u => Some (set_buf b (with_ref (i32 (b_ref u + 1)) u) s) | None => None end
  end.
(** src: buffer.cxx:167-182 *)
Definition detach (h : option nat) (s : st) : option st :=
  match h with
  | None => Some s
  | Some b =>
    match look b s with
    | None => None
    | Some u =>
      if negb (b_ref u =? 1) then
        let after_decrement := i32 (b_ref u - 1) in
        if after_decrement >? 0 then Some (set_buf b (with_ref after_decrement u) s)
        else Some (set_buf b (freed (with_ref after_decrement u)) s)
      else Some (set_buf b (freed u) s)
    end
  end.
(** src: rw.h:227-232 *)
Definition get_buffer (b : nat) (s : st) : option (option nat) :=
  match look b s with Some u => Some (if b_plain u then None else Some b) | None => None end.
(** src: rw.h:142-147 (deleter), rw.cxx:653-661 (the destructor) *)
Definition delete (p : option nat) (s : st) : option st :=
  match p with
  | None => Some s
  | Some b =>
    match look b s with
    | None => None
    | Some u => if b_plain u then Some (set_buf b (freed u) s) else detach (Some b) s
    end
  end.
(** what a pointer to a tuple_ro shows *)
Fixpoint inside (v : V) (depth : nat) : option V :=
  match depth with
  | O => Some v
  | S d => match nested v with Some w => inside w d | None => None end
  end.
Definition contents (p : place) (s : st) : option V :=
  match look (fst p) s with Some u => inside (b_val u) (snd p) | None => None end.

(** ** Making buffers *)
(** src: rw.cxx:663-684, 743-771, buffer.cxx:208-233: a new tuple_rw in a buffer of the allocator [host], or in memory
    of malloc when there is no allocator ([host] = 0); the read-only flag is the lowest bit of the
    tag (buffer.h:84, 425).  [None]: the allocator threw; [Some None]: malloc failed and nullptr is returned *)
Definition create (host : Z) (schema : option Z) (v : V) (junk : Z * Z) (mem : bool) (s : st) : option (st * option nat) :=
  if negb (host =? 0) then
    if mem then Some (mkSt (bufs s ++ [mkBuf 1 0 false (Z.odd host) host schema v junk]) (slots s), Some (length (bufs s)))
    else None
  else if mem then Some (mkSt (bufs s ++ [mkBuf 1 0 true false 0 schema v junk]) (slots s), Some (length (bufs s)))
  else Some (s, None).
(** src: rw.cxx:782-796 *)
Definition create_from_buffer (v : V) (host : Z) (schema : option Z) (mem : bool) (s : st) : option (st * option nat) :=
  if audit schema v then create host schema v (holes v) mem s else None.

(** ** tuple_ro_managed *)
(** src: managed.cxx:279-288; [None]: the header of a buffer that is gone is looked at *)
Definition check_buffer (p : option place) (h : option nat) (s : st) : option bool :=
  match p, h with
  | None, None => Some true
  | Some p, Some b => match look b s with Some _ => Some (fst p =? b)%nat | None => None end
  | _, _ => Some false
  end.
(** a new variable.  src: managed.cxx:290-295 *)
Definition ro_new (p : option place) (h : option nat) (s : st) : out :=
  match check_buffer p h s with
  | None => Undef
  | Some false => Thrown s
  | Some true => match add_reference h s with Some s => Fine (push (RO p h) s) | None => Undef end
  end.
(** src: tuples.h:494-498 *)
Definition ro_purge (i : nat) (s : st) : out :=
  match nth_error (slots s) i with
  | Some (RO p h) => match detach h s with Some s => Fine (set_slot i (RO None None) s) | None => Undef end
  | _ => Fine s
  end.
(** What the readable handle of an R/W-tuple that gives its buffer away gets: the pointer and the
    buffer.  [take_weak_asis] of a hollow one goes through a null pointer: [None]; [Some None]: the
    constructor throws.  src: managed.cxx:301-305 *)
Definition take_over (p : option nat) (s : st) : option (option (option place * option nat)) :=
  match p with
  | None => None
  | Some b =>
    match get_buffer b s with
    | None => None
    | Some h =>
      match check_buffer (Some (b, O)) h s with
      | None => None
      | Some false => Some None
      | Some true => Some (Some (Some (b, O), h))
      end
    end
  end.
Definition ro_from_rw (j : nat) (s : st) : out :=
  match nth_error (slots s) j with
  | Some (RW p) =>
    match take_over p s with
    | None => Undef
    | Some None => Thrown s
    | Some (Some (q, h)) => Fine (push (RO q h) (set_slot j (RW None) s))
    end
  | _ => Fine s
  end.
(** src: tuples.h:542-543 *)
Definition ro_copy (j : nat) (s : st) : out :=
  match nth_error (slots s) j with Some (RO p h) => ro_new p h s | _ => Fine s end.
(** src: managed.cxx:331-336 *)
Definition ro_move (j : nat) (s : st) : out :=
  match nth_error (slots s) j with
  | Some (RO p h) =>
    match check_buffer p h s with
    | None => Undef
    | Some false => Thrown s
    | Some true => Fine (push (RO p h) (set_slot j (RO None None) s))
    end
  | _ => Fine s
  end.
(** src: managed.cxx:311-319 *)
Definition ro_assign (i j : nat) (s : st) : out :=
  match nth_error (slots s) i, nth_error (slots s) j with
  | Some (RO _ hi), Some (RO pj hj) =>
    match check_buffer pj hj s with
    | None => Undef
    | Some false => Thrown s
    | Some true =>
      if match hi, hj with Some a, Some b => (a =? b)%nat | None, None => true | _, _ => false end
      then Fine (set_slot i (RO pj hi) s)
      else match ro_purge i s with
           | Fine s => match add_reference hj s with Some s => Fine (set_slot i (RO pj hj) s) | None => Undef end
           | o => o
           end
    end
  | _, _ => Fine s
  end.
(** The members of the source are read after this one was purged.  src: managed.cxx:321-329 *)
Definition ro_move_assign (i j : nat) (s : st) : out :=
  match nth_error (slots s) i, nth_error (slots s) j with
  | Some (RO _ _), Some (RO pj hj) =>
    match check_buffer pj hj s with
    | None => Undef
    | Some false => Thrown s
    | Some true =>
      match ro_purge i s with
      | Fine s =>
        match nth_error (slots s) j with
        | Some (RO pj hj) => Fine (set_slot j (RO None None) (set_slot i (RO pj hj) s))
        | _ => Fine s
        end
      | o => o
      end
    end
  | _, _ => Fine s
  end.
(** src: tuples.h:555-558 *)
Definition ro_swap (i j : nat) (s : st) : out :=
  match nth_error (slots s) i, nth_error (slots s) j with
  | Some (RO pi hi), Some (RO pj hj) => Fine (set_slot j (RO pi hi) (set_slot i (RO pj hj) s))
  | _, _ => Fine s
  end.
(** the pointer to a nested tuple, or a null pointer when there is none.  src: tuples.h:585-589 *)
Definition nested_place (p : place) (s : st) : option (option place) :=
  match contents p s with
  | None => None
  | Some v => Some (match nested v with Some _ => Some (fst p, S (snd p)) | None => None end)
  end.
Definition ro_nested (j : nat) (s : st) : out :=
  match nth_error (slots s) j with
  | Some (RO None _) => Undef
  | Some (RO (Some p) h) => match nested_place p s with Some q => ro_new q h s | None => Undef end
  | _ => Fine s
  end.

(** ** tuple_rw_fixed *)
(** src: tuples.h:1002-1005 *)
Definition rw_purge (i : nat) (s : st) : out :=
  match nth_error (slots s) i with
  | Some (RW p) => match delete p s with Some s => Fine (set_slot i (RW None) s) | None => Undef end
  | _ => Fine s
  end.
(** src: managed.cxx:77-80 *)
Definition rw_new (host : Z) (schema : option Z) (mem : bool) (s : st) : out :=
  match create host schema (blank schema) (0, 0) mem s with
  | None => Thrown s
  | Some (s, p) => Fine (push (RW p) s)
  end.
(** src: managed.cxx:119-124 *)
Definition rw_from_buffer (v : V) (host : Z) (schema : option Z) (mem : bool) (s : st) : out :=
  match create_from_buffer v host schema mem s with
  | None => Thrown s
  | Some (s, p) => Fine (push (RW p) s)
  end.
(** src: tuples.h:1015-1018 *)
Definition rw_move (j : nat) (s : st) : out :=
  match nth_error (slots s) j with
  | Some (RW p) => Fine (push (RW p) (set_slot j (RW None) s))
  | _ => Fine s
  end.
(** src: managed.cxx:232-239 *)
Definition rw_move_assign (i j : nat) (s : st) : out :=
  match nth_error (slots s) i, nth_error (slots s) j with
  | Some (RW pi), Some (RW pj) =>
    if match pi, pj with Some a, Some b => (a =? b)%nat | None, None => true | _, _ => false end then Fine s
    else match rw_purge i s with Fine s => Fine (set_slot j (RW None) (set_slot i (RW pj) s)) | o => o end
  | _, _ => Fine s
  end.
(** src: tuples.h:1011-1013 *)
Definition rw_swap (i j : nat) (s : st) : out :=
  match nth_error (slots s) i, nth_error (slots s) j with
  | Some (RW pi), Some (RW pj) => Fine (set_slot j (RW pi) (set_slot i (RW pj) s))
  | _, _ => Fine s
  end.
(** The tuple_rw at the beginning of the buffer, if its readable form is what the handle points
    to: it is for the outermost tuple and it is not for a nested one.  src: managed.cxx:359-383 *)
Definition peek_basis (p : option place) (s : st) : option (option buf) :=
  match p with
  | None => Some None
  | Some (b, d) => match look b s with Some u => Some (match d with O => Some u | S _ => None end) | None => None end
  end.
(** the pointer of a tuple_rw made from a managed tuple: the tuple_rw of its buffer if nobody else
    uses the buffer, or a copy that is checked.  src: managed.cxx:193-230 *)
Definition steal (j : nat) (mem : bool) (s : st) : option (st * option nat) + out :=
  match nth_error (slots s) j with
  | Some (RO None h) => inr (Thrown s)
  | Some (RO (Some p) (Some h)) =>
    match peek_basis (Some p) s, look h s, contents p s with
    | Some basis, Some u, Some v =>
      if match basis with Some _ => is_alterable (b_ref u) (b_readonly u) | None => false end
      then inl (Some (set_slot j (RO None None) s, Some h))
      else
        match create_from_buffer v (b_host u) (match basis with Some w => b_schema w | None => None end) mem s with
        | None => inr (Thrown s)
        | Some (s, q) => match ro_purge j s with Fine s => inl (Some (s, q)) | o => inr o end
        end
    | _, _, _ => inr Undef
    end
  | Some (RO (Some _) None) => inr Undef
  | _ => inl None
  end.
Definition rw_from_ro (j : nat) (mem : bool) (s : st) : out :=
  match steal j mem s with
  | inl (Some (s, q)) => Fine (push (RW q) s)
  | inl None => Fine s
  | inr o => o
  end.
(** the same constructor of tuple_rw_managed, which is declared noexcept.  src: tuples.h:1173-1174 *)
Definition rw_managed_from_ro (j : nat) (mem : bool) (s : st) : out :=
  match rw_from_ro j mem s with Thrown _ => Terminate | o => o end.
(** A larger buffer from the same allocator that takes the place of this one when the tuple has to
    grow: the contents and the schema go over, the counters of junk are the zeros of a new tuple.
    Memory of malloc is reallocated where the handle sees no difference.
    src: autogrowth.cxx:133-148, 183-198 *)
Definition rw_regrow (i : nat) (mem : bool) (s : st) : out :=
  match nth_error (slots s) i with
  | Some (RW (Some b)) =>
    match look b s with
    | None => Undef
    | Some u =>
      if b_plain u then (if mem then Fine s else Thrown s)
      else
        match create (b_host u) (b_schema u) (b_val u) (0, 0) mem s with
        | Some (s, Some c) => match detach (Some b) s with Some s => Fine (set_slot i (RW (Some c)) s) | None => Undef end
        | _ => Thrown s
        end
    end
  | Some (RW None) => Undef
  | _ => Fine s
  end.
(** Any of the modifying calls: the contents become [v], the counters of junk follow the holes
    that appear and disappear (Gear.v). *)
Definition rw_write (i : nat) (v : V) (s : st) : out :=
  match nth_error (slots s) i with
  | Some (RW (Some b)) =>
    match look b s with
    | None => Undef
    | Some u =>
      let junk := (fst (b_junk u) + fst (holes v) - fst (holes (b_val u)), snd (b_junk u) + snd (holes v) - snd (holes (b_val u))) in
      Fine (set_buf b (mkBuf (b_ref u) (b_freed u) (b_plain u) (b_readonly u) (b_host u) (b_schema u) v junk) s)
    end
  | Some (RW None) => Undef
  | _ => Fine s
  end.
(** src: tuples.h:665-669 *)
Definition rw_nested (j : nat) (s : st) : out :=
  match nth_error (slots s) j with
  | Some (RW None) => Undef
  | Some (RW (Some b)) =>
    match nested_place (b, O) s, get_buffer b s with
    | Some q, Some h => ro_new q h s
    | _, _ => Undef
    end
  | _ => Fine s
  end.

(** ** Clones *)
(** A new variable from a temporary R/W-tuple, which is destroyed if the constructor throws.
    src: managed.cxx:301-305 *)
Definition ro_from_temporary (r : option (st * option nat)) (s : st) : out :=
  match r with
  | None => Thrown s
  | Some (s, p) =>
    match take_over p s with
    | None => Undef
    | Some None => match delete p s with Some s => Thrown s | None => Undef end
    | Some (Some (q, h)) => Fine (push (RO q h) s)
    end
  end.
(** src: managed.cxx:385-434 *)
Definition ro_from_buffer (v : V) (host : Z) (schema : option Z) (mem : bool) (s : st) : out :=
  ro_from_temporary (create_from_buffer v host schema mem s) s.
(** Clone of what a weak handle shows; [None] = hollow.  src: managed.cxx:436-483 *)
Definition ro_clone_weak (p : option place) (schema : option Z) (host : Z) (m : mode) (mem : bool) (s : st) : out :=
  match p with
  | None => match schema with Some _ => Thrown s | None => Fine (push (RO None None) s) end
  | Some p =>
    match contents p s with
    | None => Undef
    | Some v =>
      if apply_validation_mode m match schema with None => true | Some _ => false end
      then ro_from_temporary (create_from_buffer v host schema mem s) s
      else ro_from_temporary (create host schema v (0, 0) mem s) s
    end
  end.
(** src: managed.cxx:338-357 *)
Definition ro_clone (j : nat) (schema : option Z) (host : Z) (mem : bool) (s : st) : out :=
  match nth_error (slots s) j with
  | Some (RO None h) => match schema with Some _ => Thrown s | None => Fine (push (RO None None) s) end
  | Some (RO (Some p) h) =>
    match h with
    | None => Undef
    | Some b =>
      match look b s, peek_basis (Some p) s with
      | Some u, Some basis =>
        if (b_host u =? host) &&
           match schema with
           | None => true
           | Some c => match basis with Some w => match b_schema w with Some d => c =? d | None => false end | None => false end
           end
        then ro_new (Some p) h s
        else ro_clone_weak (Some p) schema host default_validation mem s
      | _, _ => Undef
      end
    end
  | _ => Fine s
  end.
(** src: tuples.h:531-535, managed.cxx:297-299, tuples.h:863-871 *)
Definition ro_clone_rw (j : nat) (host : Z) (mem : bool) (s : st) : out :=
  match nth_error (slots s) j with
  | Some (RW None) => Undef
  | Some (RW (Some b)) =>
    match look b s with
    | None => Undef
    | Some u => ro_clone_weak (Some (b, O)) (b_schema u) host default_validation mem s
    end
  | _ => Fine s
  end.
(** src: managed.cxx:168-191 *)
Definition rw_clone_ro (j : nat) (schema : option Z) (host : Z) (mem : bool) (s : st) : out :=
  match nth_error (slots s) j with
  | Some (RO None _) => rw_new host schema mem s
  | Some (RO (Some p) _) =>
    match peek_basis (Some p) s, contents p s with
    | Some basis, Some v =>
      match basis with
      | Some u =>
        if match schema, b_schema u with None, _ => true | Some c, Some d => c =? d | Some _, None => false end
        then match create host (b_schema u) v (b_junk u) mem s with None => Thrown s | Some (s, q) => Fine (push (RW q) s) end
        else rw_from_buffer v host schema mem s
      | None => rw_from_buffer v host schema mem s
      end
    | _, _ => Undef
    end
  | _ => Fine s
  end.
(** src: managed.cxx:245-256, rw.h:179-184 *)
Definition rw_clone_rw (j : nat) (host : Z) (mem : bool) (s : st) : out :=
  match nth_error (slots s) j with
  | Some (RW None) => Thrown s
  | Some (RW (Some b)) =>
    match look b s with
    | None => Undef
    | Some u => match create host (b_schema u) (b_val u) (b_junk u) mem s with None => Thrown s | Some (s, q) => Fine (push (RW q) s) end
    end
  | _ => Fine s
  end.

(** ** Programs *)
Inductive op :=
| RwNew (host : Z) (schema : option Z) (mem : bool)
| RwFromBuffer (v : V) (host : Z) (schema : option Z) (mem : bool)
| RoFromBuffer (v : V) (host : Z) (schema : option Z) (mem : bool)
| RoFromRw (j : nat) | RoCopy (j : nat) | RoMove (j : nat) | RoAssign (i j : nat) | RoMoveAssign (i j : nat)
| RoSwap (i j : nat) | RoPurge (i : nat) | RoNested (j : nat)
| RwMove (j : nat) | RwMoveAssign (i j : nat) | RwSwap (i j : nat) | RwPurge (i : nat)
| RwFromRo (j : nat) (mem : bool) | RwRegrow (i : nat) (mem : bool) | RwWrite (i : nat) (v : V) | RwNested (j : nat)
| RoCloneWeak (j : nat) (schema : option Z) (host : Z) (m : mode) (mem : bool)
| RoClone (j : nat) (schema : option Z) (host : Z) (mem : bool) | RoCloneRw (j : nat) (host : Z) (mem : bool)
| RwCloneRo (j : nat) (schema : option Z) (host : Z) (mem : bool) | RwCloneRw (j : nat) (host : Z) (mem : bool).
Definition apply (o : op) (s : st) : out :=
  match o with
  | RwNew host schema mem => rw_new host schema mem s
  | RwFromBuffer v host schema mem => rw_from_buffer v host schema mem s
  | RoFromBuffer v host schema mem => ro_from_buffer v host schema mem s
  | RoFromRw j => ro_from_rw j s
  | RoCopy j => ro_copy j s
  | RoMove j => ro_move j s
  | RoAssign i j => ro_assign i j s
  | RoMoveAssign i j => ro_move_assign i j s
  | RoSwap i j => ro_swap i j s
  | RoPurge i => ro_purge i s
  | RoNested j => ro_nested j s
  | RwMove j => rw_move j s
  | RwMoveAssign i j => rw_move_assign i j s
  | RwSwap i j => rw_swap i j s
  | RwPurge i => rw_purge i s
  | RwFromRo j mem => rw_from_ro j mem s
  | RwRegrow i mem => rw_regrow i mem s
  | RwWrite i v => rw_write i v s
  | RwNested j => rw_nested j s
  | RoCloneWeak j schema host m mem =>
    match nth_error (slots s) j with Some (RO p _) => ro_clone_weak p schema host m mem s | _ => Fine s end
  | RoClone j schema host mem => ro_clone j schema host mem s
  | RoCloneRw j host mem => ro_clone_rw j host mem s
  | RwCloneRo j schema host mem => rw_clone_ro j schema host mem s
  | RwCloneRw j host mem => rw_clone_rw j host mem s
  end.
Definition nothing : st := mkSt [] [].
End Managed.
