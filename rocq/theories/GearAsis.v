(** * GearAsis: when the code as it stands behaves like its repaired variant (proofs). *)
From Verif Require Import Base Tag TagProofs Gear GearBase GearSearch GearProofs GearMerge GearAlloc
  GearRealloc GearResize.
From Coq Require Import ZifyBool ZifyNat.
Ltac Zify.zify_post_hook ::= Z.div_mod_to_equations.

(** The slip at gear.cxx:300 matters: a new field of [u] units is cut out of a larger hole and
    the rest of the hole has a different size than the field. *)
Definition split_slip (s : st) (u : Z) : bool :=
  negb (u =? 0) &&
  match lookup_fit s u with
  | Some (Some h) =>
    let excess := u32 (hunits (idx s h) - u) in negb (excess =? 0) && negb (excess =? u)
  | _ => false
  end.

(** The slip at gear.cxx:591 matters: the index is full, the payload is the last one of the data
    area and is exchanged with a hole of exactly the needed size. *)
Definition swap_slip (s : st) (r : ref) (have needed : Z) : bool :=
  negb (jv s =? 0) && (raddr s r + have =? tail s) &&
  match lookup_adjacent s (raddr s r) (raddr s r + have) with
  | None => false
  | Some ba =>
    let hu o := match o with Some k => hunits (idx s k) | None => 0 end in
    let adjacent := hu (fst ba) + hu (snd ba) in
    negb ((have <? needed) && (have + adjacent >=? needed)) &&
    negb (adjacent >? 0) && negb (head_space s >? 0) &&
    match lookup_exact s 0 with Some _ => false | None => true end &&
    match lookup_exact s needed with Some _ => true | None => false end
  end.

Lemma alloc_loose_asis s tag u : split_slip s u = false ->
  alloc_loose asis s tag u = alloc_loose repaired s tag u.
Proof.
  unfold split_slip, alloc_loose. destruct (u =? 0) eqn:Eu; [reflexivity|]. cbn [negb andb].
  destruct (lookup_fit s u) as [[h|]|]; try reflexivity. cbv zeta.
  set (excess := u32 (hunits (idx s h) - u)).
  destruct (excess =? 0) eqn:E0; [reflexivity|]. cbn [negb andb]. intros E.
  assert (Ex : excess = u) by lia. cbn [q_split asis repaired]. rewrite Ex. reflexivity.
Qed.

Lemma realloc_data_asis s r have needed : swap_slip s r have needed = false -> 0 < have ->
  raddr s r + have <= tail s ->
  realloc_data asis s r have needed = realloc_data repaired s r have needed.
Proof.
  intros E Hh Ht. unfold realloc_data, swap_slip in *.
  destruct (jv s =? 0) eqn:Ej; [reflexivity|]. cbn [negb andb] in E.
  destruct (lookup_adjacent s (raddr s r) (raddr s r + have)) as [ba|]; [|reflexivity].
  cbv zeta in *.
  set (adjacent := match fst ba with Some k => hunits (idx s k) | None => 0 end +
                   match snd ba with Some k => hunits (idx s k) | None => 0 end) in *.
  destruct ((have <? needed) && (have + adjacent >=? needed)) eqn:E1; [reflexivity|].
  cbn [negb andb] in E.
  destruct (adjacent >? 0) eqn:E2; [reflexivity|].
  destruct (head_space s >? 0) eqn:E3; [reflexivity|].
  cbn [negb andb orb] in *.
  destruct (lookup_exact s 0); [reflexivity|]. cbn [negb andb orb] in *.
  destruct (lookup_exact s needed) as [h|]; [|reflexivity].
  rewrite !andb_true_r in E. cbn [q_swap asis repaired].
  match goal with |- (if _ =? tail ?s1 then _ else _) = _ => set (s3 := s1) end.
  assert (Es : tail s3 = tail s) by (unfold s3, set_rpayload; destruct r; reflexivity).
  rewrite Es, E. replace (raddr s r =? tail s) with false by lia. reflexivity.
Qed.

(** no junk: neither slip is possible *)
Lemma split_slip_nojunk s u : jv s = 0 -> 0 <= u -> split_slip s u = false.
Proof.
  intros Hj Hu. unfold split_slip. destruct (u =? 0) eqn:E; [reflexivity|]. cbn [negb andb].
  unfold lookup_fit. replace ((jc s <? 1) || (jv s <? u)) with true by lia. reflexivity.
Qed.
Lemma swap_slip_nojunk s r have needed : jv s = 0 -> swap_slip s r have needed = false.
Proof. intros Hj. unfold swap_slip. rewrite Hj. reflexivity. Qed.
