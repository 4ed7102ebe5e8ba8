(** * Walk: loops over the members of a collection that edit the tuple on the way (model).

    src: fast_positive/tuples/details/rw.h:876-1013 (collection_iterator_rw, collection_rw), 1074-1088,
    src/rw.cxx:118-137, fast_positive/tuples/details/getter.h:480-500, 582-590,
    fast_positive/tuples/details/scan.h:91-98.
    An iterator keeps the token and a pointer to an entry of the index: the position here, [None] for
    the null pointer, which is also end().
    Simplifications: one tuple; the collection is loose (preplaced fields do not repeat); the
    assertions of rw.h and scan.h are absent, as in a release build. *)
From Verif Require Import Base Tag Codec Gear Tuple TupleMore Held.

(** collection_rw::begin and end.  src: rw.h:993-1003, getter.h:582-590 *)
Definition it_first (s : st) (desc : Z) : option nat := lookup_gid s desc.
Definition it_last : option nat := None.
(** ++it: the search goes on behind the entry up to end_index(); it starts from the entry, not from
    begin_index().  src: rw.h:917-926, scan.h:91-98 *)
Definition it_next (s : st) (desc : Z) (p : option nat) : option nat :=
  match p with None => None | Some k => scan_down (fun e => gid e =? desc) (idx s) k end.
(** it++: const; steps a copy and returns the copy.  The iterator afterwards and the value.
    src: rw.h:927-931, getter.h:495-499 *)
Definition it_post (s : st) (desc : Z) (p : option nat) : option nat * option nat := (p, it_next s desc p).

Definition same_place (a b : option nat) : bool :=
  match a, b with None, None => true | Some x, Some y => Nat.eqb x y | _, _ => false end.

(** ** What a loop may do with the current element *)
Inductive act := Keep | Put (v : tv) | Drop.
(** The accessor is a copy of what the iterator points to: [for (auto x : c)], [auto x = *it],
    [tuple.erase(it)] (the iterator is taken as a reference to a constant, so [*it] makes a copy).
    src: rw.cxx:118-124, rw.h:932-934, 1505-1528 *)
Definition by_copy (q : quirks) (s : st) (desc : Z) (disc : bool) (k : nat) (a : act) : res (option nat) :=
  match a with
  | Keep => Ok (Some k) s
  | Put v => bind (acc_set q s (mkAcc desc disc (Some k)) v) (fun _ s => Ok (Some k) s)
  | Drop => bind (acc_remove s (mkAcc desc disc (Some k))) (fun _ s => Ok (Some k) s)
  end.
(** The accessor is the iterator itself: [for (auto &x : c) x.remove()], [( *it ).remove()] with
    an iterator that is not constant.  src: rw.h:935 (accessor &operator*()), 1505-1528 *)
Definition by_reference (q : quirks) (s : st) (desc : Z) (disc : bool) (k : nat) (a : act) : res (option nat) :=
  match a with
  | Keep => Ok (Some k) s
  | Put v => bind (acc_set q s (mkAcc desc disc (Some k)) v) (fun a s => Ok (a_pos a) s)
  | Drop => bind (acc_remove s (mkAcc desc disc (Some k))) (fun a s => Ok (a_pos a) s)
  end.

(** ** The loop [for (auto it = c.begin(); it != c.end(); ++it)]
    The body sees what was read before, the place and the value of the current element; it makes calls
    on the tuple and then acts on the element.  A call or an act that throws is caught, and the loop
    goes on.  [None]: undefined behaviour, or more than [fuel] rounds. *)
Record visit := mkVisit { v_pos : nat; v_read : rd; v_act : act; v_ok : bool }.
Definition turns := list rd -> nat -> rd -> list op * act.
Section Loops.
  Variable q : quirks.
  Variable how : quirks -> st -> Z -> bool -> nat -> act -> res (option nat).
  Variables (desc : Z) (disc : bool) (body : turns).
  Fixpoint walk (fuel : nat) (s : st) (p : option nat) (seen : list rd) : option (list visit * st) :=
    match p with
    | None => Some ([], s)
    | Some k =>
      match fuel with
      | O => None
      | S fuel =>
        let now := acc_get s (mkAcc desc disc (Some k)) in
        let '(l, a) := body seen k now in
        match run q s l with
        | None => None
        | Some (_, s) =>
          match how q s desc disc k a with
          | Bad => None
          | Ok p s => option_map (fun r => (mkVisit k now a true :: fst r, snd r)) (walk fuel s (it_next s desc p) (seen ++ [now]))
          | Throw s => option_map (fun r => (mkVisit k now a false :: fst r, snd r)) (walk fuel s (it_next s desc (Some k)) (seen ++ [now]))
          end
        end
      end
    end.
End Loops.
Definition loop (how : quirks -> st -> Z -> bool -> nat -> act -> res (option nat)) (s : st) (desc : Z) (disc : bool) (body : turns) : option (list visit * st) :=
  walk asis how desc disc body (S (cnt s)) s (it_first s desc) [].

(** ** tuple.erase(begin, end): the number of elements removed.  [None]:
    undefined behaviour, an exception, or more than [fuel] rounds.  src: rw.cxx:126-132 *)
Fixpoint erase_range (fuel : nat) (s : st) (desc : Z) (disc : bool) (p e : option nat) (count : nat) : option (nat * st) :=
  if same_place p e then Some (count, s)
  else match fuel with
  | O => None
  | S fuel =>
    match p with
    | None => erase_range fuel s desc disc (it_next s desc p) e count
    | Some k =>
      match acc_remove s (mkAcc desc disc (Some k)) with
      | Bad | Throw _ => None
      | Ok _ s => erase_range fuel s desc disc (it_next s desc p) e (S count)
      end
    end
  end.

(** ** The loop [for (auto it = c.begin(); it != c.end(); it++)] that only reads *)
Fixpoint post_walk (fuel : nat) (s : st) (desc : Z) (p : option nat) : option (list nat) :=
  match p with
  | None => Some []
  | Some k => match fuel with O => None | S fuel => option_map (cons k) (post_walk fuel s desc (fst (it_post s desc p))) end
  end.

(** ** The same loop with a body that goes on after the act: calls on the tuple, an act on the element
    (by copy), more calls, among them calls that remove the current element or put another into its
    place.  A call or an act that throws is caught, and the body goes on.
    src: rw.h:917-934, src/rw.cxx:118-124, scan.h:91-98 *)
Definition wide_turns := list rd -> nat -> rd -> list op * act * list op.
Fixpoint wander (q : quirks) (desc : Z) (disc : bool) (body : wide_turns) (fuel : nat) (s : st) (p : option nat) (seen : list rd) : option (list visit * st) :=
  match p with
  | None => Some ([], s)
  | Some k =>
    match fuel with
    | O => None
    | S fuel =>
      let now := acc_get s (mkAcc desc disc (Some k)) in
      let '(before, a, after) := body seen k now in
      match run q s before with
      | None => None
      | Some (_, s) =>
        match by_copy q s desc disc k a with
        | Bad => None
        | Ok p s =>
          match run q s after with
          | None => None
          | Some (_, s) => option_map (fun r => (mkVisit k now a true :: fst r, snd r)) (wander q desc disc body fuel s (it_next s desc p) (seen ++ [now]))
          end
        | Throw s =>
          match run q s after with
          | None => None
          | Some (_, s) => option_map (fun r => (mkVisit k now a false :: fst r, snd r)) (wander q desc disc body fuel s (it_next s desc (Some k)) (seen ++ [now]))
          end
        end
      end
    end
  end.
