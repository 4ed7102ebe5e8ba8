(** * Held: accessors kept by the program while the tuple is being edited (model).

    src: fast_positive/tuples/details/getter.h:112-217, 561-580, fast_positive/tuples/details/rw.h:357-402,
    1015-1046, 1319-1397, 1505-1528.
    An accessor (tuple_rw::accessor_rw) keeps the token and a pointer to the entry of the index that
    was found when the accessor was made; it does not look the field up again.  The pointer is the
    position of the entry here, [None] stands for the null pointer.
    Simplifications: one tuple; loose fields only (the address of a preplaced field never changes); the
    assertions of rw.h and getter.h are absent, as in a release build. *)
From Verif Require Import Base Tag Codec Gear Tuple TupleMore.

Record acc := mkAcc { a_desc : Z; a_disc : bool; a_pos : option nat }.
Definition moved (a : acc) (p : option nat) : acc := mkAcc (a_desc a) (a_disc a) p.

(** tuple_rw::operator[] and at().  src: rw.cxx:199-201, rw.h:1015-1018, getter.h:561-580 *)
Definition take (s : st) (desc : Z) (disc : bool) : acc := mkAcc desc disc (lookup_gid s desc).

(** the units read through a pointer to an entry, by the type of the token: nothing compares it with
    the type of the entry.  src: getter.h:141-149, 164-174 (the assertions there are not compiled) *)
Definition entry_units (s : st) (g : Z) (k : nat) : Z :=
  if fixed_genus g then loose_units g
  else if rel (idx s k) =? 0 then 0 else brutto g (dat s (raddr s (RL k))).
Definition entry_value (s : st) (g : Z) (k : nat) : list Z :=
  if is_inplaced_genus g then [rel (idx s k)] else read_units s (raddr s (RL k)) (entry_units s g k).
(** accessor_ro::get<>.  src: getter.h:123-180 *)
Definition acc_get (s : st) (a : acc) : rd :=
  let g := descriptor2genus (a_desc a) in
  match a_pos a with
  | Some k =>
    if fixed_genus g || negb (rel (idx s k) =? 0) then RVal (entry_value s g k)
    else if a_disc a then RAbsent else REmpty
  | None => if a_disc a then RAbsent else REmpty
  end.

(** accessor_rw::assign<> with assign_field_value: a null pointer appends an entry, another one is
    checked for the type only (the comparison with end_index() holds for every entry of the index).
    src: rw.h:1319-1441, 1505-1511 *)
Definition acc_set (q : quirks) (s : st) (a : acc) (v : tv) : res acc :=
  let g := descriptor2genus (a_desc a) in
  let disc := a_disc a in
  match a_pos a with
  | None =>
    if fixed_genus g then
      if negb disc && v_empty v then Ok a s
      else bind (alloc_loose q s (a_desc a) (loose_units g)) (fun k s => Ok (moved a (Some k)) (write_fixed s k (pay v)))
    else if needed disc v =? 0 then Ok a s
    else bind (alloc_loose q s (a_desc a) (needed disc v)) (fun k s => Ok (moved a (Some k)) (write_units s (addr s k) (pay v)))
  | Some k =>
    if negb (egenus (idx s k) =? g) then Throw s
    else if fixed_genus g then
      if negb disc && v_empty v then bind (release_loose s k (loose_units g)) (fun _ s => Ok (moved a None) s)
      else Ok a (write_fixed s k (pay v))
    else
      let gone := (needed disc v =? 0) && negb (rel (idx s k) =? 0) in
      bind (assign_ref q s (RL k) disc v) (fun _ s => Ok (if gone then moved a None else a) s)
  end.

(** accessor_rw::remove; a null pointer is dereferenced.  src: rw.h:1513-1528, 357-366 *)
Definition acc_remove (s : st) (a : acc) : res acc :=
  match a_pos a with
  | None => Bad
  | Some k =>
    if negb (egenus (idx s k) =? descriptor2genus (a_desc a)) then Throw s
    else bind (erase_loose s k) (fun _ s => Ok (moved a None) s)
  end.

(** ** Programs that keep accessors in variables *)
Inductive call :=
| CTok (o : op)                       (* a call by token *)
| CTake (i : nat) (desc : Z) (disc : bool)  (* variable i := tuple[token] *)
| CSet (i : nat) (v : tv)             (* assign through variable i *)
| CDel (i : nat)                      (* remove through variable i *)
| CDrop (i : nat).                    (* variable i is given up *)
Definition vars := nat -> option acc.
Definition put (A : vars) (i : nat) (a : option acc) : vars := fun j => if Nat.eqb j i then a else A j.
(** src: as above; using a variable that holds no accessor does not compile, [Bad] here *)
Definition call1 (q : quirks) (s : st) (A : vars) (c : call) : res vars :=
  match c with
  | CTok o => bind (run1 q s o) (fun _ s => Ok A s)
  | CTake i desc disc => Ok (put A i (Some (take s desc disc))) s
  | CSet i v => match A i with None => Bad | Some a => bind (acc_set q s a v) (fun a s => Ok (put A i (Some a)) s) end
  | CDel i => match A i with None => Bad | Some a => bind (acc_remove s a) (fun a s => Ok (put A i (Some a)) s) end
  | CDrop i => Ok (put A i None) s
  end.
Fixpoint calls (q : quirks) (s : st) (A : vars) (l : list call) : option (list bool * st * vars) :=
  match l with
  | [] => Some ([], s, A)
  | c :: l =>
    match call1 q s A c with
    | Bad => None
    | Ok A' s' => option_map (fun r => (true :: fst (fst r), snd (fst r), snd r)) (calls q s' A' l)
    | Throw s' => option_map (fun r => (false :: fst (fst r), snd (fst r), snd r)) (calls q s' A l)
    end
  end.
