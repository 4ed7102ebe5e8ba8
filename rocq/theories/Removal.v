(** * Removal: removing fields of auto-growing tuples (model).
    src: src/autogrowth.cxx:269-345; fast_positive/tuples/details/rw.h:339-350, 1037-1046. *)
From Verif Require Import Base Tag Codec Gear GearBase Tuple TupleMore Hippeus Scan Audit Image GearOpt Growth.

(** src: autogrowth.cxx:275-288, 298-311, 330-343: the loop of the three overloads for a preplaced
    field of variable length; the body is remove() by token (rw.h:1037-1046).  The fuel is the number
    of exceptions handled; [None] = undefined behaviour, or the fuel is used up. *)
Fixpoint managed_erase (fuel : nat) (mg : st -> Z -> Z -> grown) (s : st) (j : nat) : option (option bool * st) :=
  match erase_token_slot s j with
  | Bad => None
  | Ok b s' => Some (Some b, s')
  | Throw s' =>
    match fuel with
    | O => None
    | S f =>
      match mg s' 1 0 with                                            (* gear.cxx:417 *)
      | Room s2 => managed_erase f mg s2 j
      | Failed s2 => Some (None, s2)
      | Wild => None
      end
    end
  end.
(** src: autogrowth.cxx:313-345: the number returned by the overload for a range of iterators *)
Definition managed_erase_range (fuel : nat) (mg : st -> Z -> Z -> grown) (s : st) (j : nat) : option (option Z * st) :=
  match managed_erase fuel mg s j with
  | Some (Some b, s') => Some (Some (Z.b2z b), s')
  | Some (None, s') => Some (None, s')
  | None => None
  end.
