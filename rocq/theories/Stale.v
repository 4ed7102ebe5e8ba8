(** * Stale: read-only views taken of a modifiable tuple, and what is left of them later (model).

    src: fast_positive/tuples.h:386-448 (tuple_ro_weak), 560-577, 841-855 (take_weak_asis),
    1132-1149, 1413-1420, 1432-1465; fast_positive/tuples/details/rw.h:1198-1204;
    src/rw.cxx:628-646 (take_asis).

    A view is a bare pointer to the header that take_asis() writes into the tuple's own buffer,
    in the unit below the first index entry.  Nothing else is copied: a later change of the tuple
    is a change of the view. *)
From Verif Require Import Base Tag Codec Gear GearBase Tuple Hippeus Scan Audit Image.

(** ** The unit [area_[x]], also below head_: the entries that were given up are still there, and
    so is the header; an entry is two 16-bit halves.
    src: rw.h:260-272 (area_, begin_index), rw.cxx:632-638 *)
Definition memory (s : st) (x : Z) : Z :=
  if x <? pivot s then let e := idx s (Z.to_nat (pivot s - 1 - x)) in u16 (rel e) + 65536 * u16 (gid e)
  else word s x.
Definition held_mem (A : Z) (s : st) : bmem := bytes_of A (memory s).
(** ** take_asis() as a change of the buffer: the header goes where the next index entry would.
    src: rw.cxx:628-646; the pointer it returns is [asis_ptr] *)
Definition take (s : st) : st := set_ent s (cnt s) (mkE (header s mod 65536) (header s / 65536)).
Definition taken (A : Z) (s : st) : Z := asis_ptr A s.

(** ** Comparison of a tuple with a view.  src: rw.h:1198-1204 (only addresses are compared) *)
Definition same_as (A : Z) (s : st) (ptr : Z) : bool := ptr =? A + 4 * (head s - 1).

(** ** Handles: a weak or managed read-only one holds a pointer (0: none), a modifiable one holds
    its tuple at the address [A], or none after it was moved from.
    src: tuples.h:400-401, 437-447, 560-577, 1132-1149, 1432-1465.
    [None] = a call through a null pointer.  The buffers of two modifiable handles are distinct. *)
Inductive handle := Weak (ptr : Z) | Managed (ptr : Z) | Fixed (t : option (Z * st)).
Definition pointer (h : handle) : option Z := match h with Weak p | Managed p => Some p | Fixed _ => None end.
(** [this == ditto] *)
Definition equal (x y : handle) : option bool :=
  match x, y with
  | Weak p, Weak q | Weak p, Managed q | Managed p, Weak q | Managed p, Managed q => Some (p =? q)
  (* tuples.h:1132-1143 *)
  | Fixed (Some (A, s)), Weak p | Fixed (Some (A, s)), Managed p => Some (same_as A s p)
  | Fixed None, Weak p | Fixed None, Managed p => None
  (* tuples.h:1443-1447, 1459-1463: turned around *)
  | Weak p, Fixed (Some (A, s)) | Managed p, Fixed (Some (A, s)) => Some (same_as A s p)
  | Weak p, Fixed None | Managed p, Fixed None => None
  (* tuples.h:1144-1149 *)
  | Fixed (Some (A, _)), Fixed (Some (B, _)) => Some (A =? B)
  | Fixed None, Fixed None => Some true
  | Fixed _, Fixed _ => Some false
  end.
(** [this != ditto]: written separately for every pair of classes *)
Definition differ (x y : handle) : option bool :=
  match x, y with
  | Fixed (Some (A, s)), Weak p | Fixed (Some (A, s)), Managed p => Some (negb (same_as A s p))
  | Weak p, Fixed (Some (A, s)) | Managed p, Fixed (Some (A, s)) => Some (negb (same_as A s p))
  | Fixed (Some (A, _)), Fixed (Some (B, _)) => Some (negb (A =? B))
  | Fixed None, Fixed None => Some false
  | Fixed (Some _), Fixed None | Fixed None, Fixed (Some _) => Some true
  | Weak p, Weak q | Weak p, Managed q | Managed p, Weak q | Managed p, Managed q => Some (negb (p =? q))
  | Weak _, Fixed None | Managed _, Fixed None | Fixed None, Weak _ | Fixed None, Managed _ => None
  end.

(** ** Changes that ask for no new index entry: removals, and stores that keep the length of what
    is stored already (or store nothing) *)
Definition tame (s : st) (o : op) : bool :=
  match o with
  | ORemove _ | OEraseAll _ | OErase _ => true
  | OSet desc disc v =>
    match lookup_gid s desc with
    | None => if fixed_genus (descriptor2genus desc) then negb disc && v_empty v else needed disc v =? 0
    | Some k => if fixed_genus (descriptor2genus desc) then true
                else (needed disc v =? plen s (RL k)) || (needed disc v =? 0)
    end
  | OAppend desc disc v => negb disc && v_empty v
  | OSlot j disc v => needed disc v =? plen s (RP j)
  | OSlotDel j => plen s (RP j) =? 0
  end.
Fixpoint tame_run (s : st) (l : list op) : bool :=
  match l with
  | [] => true
  | o :: l => tame s o && match run1 asis s o with Ok _ s' | Throw s' => tame_run s' l | Bad => false end
  end.
