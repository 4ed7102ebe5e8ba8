(** * References: getters that give a reference into the tuple (model).

    src: fast_positive/tuples/details/meta.h:207-231: the types of three and more units (bin96 ... bin512,
    ip, ipnet and the reserved one of 128 bits) are [unit_n]; their getters give a [const value_type &]: the
    payload itself, or, for an absent field, the first bytes of [zeroed_cacheline] (src/tablets.cxx:29,
    64 bytes, never written).  tuples.h:275-286, 641-652: all flavours of tuples hand these references out;
    meta.h:241-275, tuples.h:700-711: their setters take a reference as well and copy the bytes behind it
    after room has been found (rw.h:1319-1362, 1446-1482).

    The memory between begin_data_bytes and end_data_bytes is [dat], 32-bit units, as in Gear.v.
    Simplification: the preplaced fields of these types, which lie in the fixed structure, are left out. *)
From Verif Require Import Base Tag Codec Gear Tuple Growth Alias.

(** src: meta.h:207-214, 423-466, 592-600, 618-621 *)
Definition by_reference (g : Z) : bool := fixed_genus g && (3 <=? loose_units g).

(** what a reference denotes: units of the area, or the constant zeros *)
Inductive place := InTuple (a n : Z) | Zeros (n : Z).
(** the reference a getter gives; [None]: field_absent is thrown.  src: meta.h:219-231, getter.h:112-217 *)
Definition refer (s : st) (desc : Z) (disc : bool) : option place :=
  let n := loose_units (descriptor2genus desc) in
  match lookup_gid s desc with
  | Some k => Some (InTuple (raddr s (RL k)) n)
  | None => if disc then None else Some (Zeros n)
  end.
(** what is read through a reference *)
Definition behind (s : st) (p : place) : list Z :=
  match p with InTuple a n => read_units s a n | Zeros n => repeat 0 (Z.to_nat n) end.
(** src: meta.h:233-235 *)
Definition all_zero (l : list Z) : bool := forallb (fun x => x =? 0) l.

(** ** Setters that are given a reference *)
Inductive into := IntoLoose (desc : Z) | IntoMember (desc : Z).
Definition into_op (t : into) (disc : bool) (v : tv) : op :=
  match t with IntoLoose desc => OSet desc disc v | IntoMember desc => OAppend desc disc v end.
Definition into_desc (t : into) : Z := match t with IntoLoose desc | IntoMember desc => desc end.
(** emptiness is found first, the bytes are copied last.  src: rw.h:1319-1362, 1446-1482 with
    meta.h:257-275 *)
Definition store_at (q : quirks) (s : st) (t : into) (disc : bool) (p : place) : res unit :=
  let n := loose_units (descriptor2genus (into_desc t)) in
  let drop := negb disc && all_zero (behind s p) in
  match t with
  | IntoLoose desc =>
    match lookup_gid s desc with
    | None => if drop then Ok tt s else new_by q s desc n (fun s _ => behind s p)
    | Some k => if drop then release_loose s k n else Ok tt (write_units s (addr s k) (behind s p))
    end
  | IntoMember desc => if drop then Ok tt s else new_by q s desc n (fun s _ => behind s p)
  end.

(** ** Managed tuples: the call is repeated with the same reference.  src: autogrowth.cxx:28-66, 198-231
    ([Dangling]: the buffer behind the reference has been released and is read) *)
Fixpoint retry_at (fuel : nat) (mg : st -> Z -> Z -> grown) (s : st) (t : into) (disc : bool) (p : place) : lasting :=
  match store_at asis s t disc p with
  | Bad => Stuck
  | Ok _ s' => Done true s'
  | Throw s' =>
    match fuel with
    | S f =>
      let '(wi, wd) := wants s' (into_op t disc (mkV (all_zero (behind s' p)) (behind s' p))) in
      match mg s' wi wd with
      | Room s2 => match p with
                   | InTuple _ _ => if stays s' wi wd then retry_at f mg s2 t disc p else Dangling
                   | Zeros _ => retry_at f mg s2 t disc p
                   end
      | Failed s2 => Done false s2
      | Wild => Stuck
      end
    | O => Stuck
    end
  end.
