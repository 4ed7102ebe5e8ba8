(** The guarded allocator: a base allocator whose blocks carry a guard before and after the user's
    elements.  Model of fast_positive/tuples/1Hippeus/hipagut_allocator.h as it is compiled with the
    guards enabled (hipagut.h:68-183).  Simplified: the base allocator is whatever hands out disjoint
    blocks; the clock that seeds a guard is a parameter; a null answer of the base is left out. *)
From Coq Require Import ZArith List Bool.
From Verif Require Import Base Hippeus.
Import ListNotations.
Local Open Scope Z_scope.

(** ** Sizes *)
(** [HIPAGUT_SPACE]: two 32-bit words.  src: hipagut.h:72-77, hipagut.h:118 *)
Definition guard_space : Z := 8.
(** elements needed to hold one guard.  src: hipagut_allocator.h:53-55 *)
Definition gap (sz : Z) : Z := (guard_space + sz - 1) / sz.
(** src: hipagut_allocator.h:57-59 *)
Definition max_size (base_max sz : Z) : Z := u64 (base_max - gap sz * 2).
(** elements asked of the base.  src: hipagut_allocator.h:109, :126, :142, :163-164 *)
Definition asked (sz n : Z) : Z := u64 (n + gap sz * 2).

(** ** Labels *)
(** hash of the characters of a label, seeded with the line of the source.  src: hipagut.h:80-86 *)
Definition label_sig (label : list Z) : Z :=
  fold_left (fun h c => Z.lxor c (u32 (h * 1664525 + 1013904223))) label 81.
(** "chkU" and "chkO".  src: hipagut_allocator.h:144-145, :157-158 *)
Definition sig_under : Z := label_sig [99; 104; 107; 85].
Definition sig_over : Z := label_sig [99; 104; 107; 79].

(** ** Memory: bytes by address *)
Definition mem := Z -> Z.
Definition put (m : mem) (a v : Z) : mem := fun x => if x =? a then v mod 256 else m x.
(** little-endian words.  src: hipagut.h:73-75 *)
Definition put_word (m : mem) (a w : Z) : mem :=
  put (put (put (put m a w) (a + 1) (w / 2 ^ 8)) (a + 2) (w / 2 ^ 16)) (a + 3) (w / 2 ^ 24).
Definition word (m : mem) (a : Z) : Z := m a + m (a + 1) * 2 ^ 8 + m (a + 2) * 2 ^ 16 + m (a + 3) * 2 ^ 24.
(** first the chirp, then the mesh.  src: hipagut.cxx:83-84, hipagut.h:107-112 *)
Definition put_guard (m : mem) (a : Z) (g : Z * Z) : mem := put_word (put_word m a (fst g)) (a + 4) (snd g).
(** src: hipagut.cxx:94-107 *)
Definition guard_ok (m : mem) (a sig : Z) : bool := guard_probe (word m a) (word m (a + 4)) sig.

(** ** The allocator *)
(** [gu], [go]: what the setup of the two guards arrived at; [None] = null pointer.
    src: hipagut_allocator.h:105-150 *)
Definition allocate (base_max sz n block : Z) (gu go : Z * Z) (m : mem) : option (Z * mem) :=
  if (n =? 0) || (n >? max_size base_max sz) then None
  else let p := block + gap sz * sz in
       Some (p, put_guard (put_guard m (p - guard_space) gu) (p + n * sz) go).
(** [FBug] = the exception of a failed check; [FBack] = (address, elements) given back to the base.
    src: hipagut_allocator.h:153-167, except.cxx:33-35 *)
Inductive freed := FNothing | FBug | FBack (block count : Z) (m : mem).
Definition deallocate (sz p n : Z) (m : mem) : freed :=
  if n >? 0 then
    if negb (guard_ok m (p - guard_space) sig_under) then FBug
    else if negb (guard_ok m (p + n * sz) sig_over) then FBug
    else FBack (p - gap sz * sz) (asked sz n)
               (put_guard (put_guard m (p - guard_space) drowned_guard) (p + n * sz) drowned_guard)
  else FNothing.

(** ** Histories *)
(** a live allocation: element size, elements, pointer *)
Record owned := mkOwned { o_sz : Z; o_n : Z; o_p : Z }.
(** [h_base]: what the base has handed out and not got back: (address, element size, elements) *)
Record heap := mkHeap { h_mem : mem; h_live : list owned; h_base : list (Z * Z * Z) }.
Inductive hop :=
| HTake (base_max sz n block : Z) (gu go : Z * Z)
| HPut (a v : Z)
| HBack (k : owned).
Definition owned_eqb (a b : owned) : bool := (o_sz a =? o_sz b) && (o_n a =? o_n b) && (o_p a =? o_p b).
Definition given_eqb (a b : Z * Z * Z) : bool :=
  let '(a1, a2, a3) := a in let '(b1, b2, b3) := b in (a1 =? b1) && (a2 =? b2) && (a3 =? b3).
Fixpoint drop_one {A} (eqb : A -> A -> bool) (x : A) (l : list A) : option (list A) :=
  match l with
  | [] => None
  | y :: l => if eqb x y then Some l else match drop_one eqb x l with Some l => Some (y :: l) | None => None end
  end.
(** [None]: a failed check, or the base gets back what it never gave (undefined behaviour).
    src: hipagut_allocator.h:105-167 *)
Definition hstep (h : heap) (o : hop) : option heap :=
  match o with
  | HTake base_max sz n block gu go =>
      match allocate base_max sz n block gu go (h_mem h) with
      | None => Some h
      | Some (p, m) => Some (mkHeap m (mkOwned sz n p :: h_live h) ((block, sz, asked sz n) :: h_base h))
      end
  | HPut a v => Some (mkHeap (put (h_mem h) a v) (h_live h) (h_base h))
  | HBack k =>
      match drop_one owned_eqb k (h_live h) with
      | None => None
      | Some live =>
          match deallocate (o_sz k) (o_p k) (o_n k) (h_mem h) with
          | FNothing => Some (mkHeap (h_mem h) live (h_base h))
          | FBug => None
          | FBack block count m =>
              match drop_one given_eqb (block, o_sz k, count) (h_base h) with
              | None => None
              | Some base => Some (mkHeap m live base)
              end
          end
      end
  end.
Fixpoint hrun (h : heap) (l : list hop) : option heap :=
  match l with [] => Some h | o :: l => match hstep h o with Some h => hrun h l | None => None end end.
