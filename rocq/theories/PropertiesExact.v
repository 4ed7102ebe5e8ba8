(** * The condition on new fields is exact: theorems.

    The theorems about histories carry the proviso [calm].  For calls that add a field it says that
    the field is not cut out of a larger hole in the faulty way (gear.cxx:300).  Here: this proviso
    cannot be weakened.  Wherever it fails and the call succeeds, a hole is laid over the payload of
    some field, and the next field of the size of that hole is written over it. *)
From Verif Require Import Base Tag TagProofs Codec Gear GearBase GearSearch GearProofs GearMerge GearAlloc
  GearRealloc GearResize GearAsis Tuple TupleProofs TupleSteps TupleView TupleOps TupleHist TupleFacts TupleExact PropertiesTuple
  GearOpt PropertiesOpt PropertiesGrowth.
From Coq Require Import ZifyBool ZifyNat.
Ltac Zify.zify_post_hook ::= Z.div_mod_to_equations.

(** the calls that add a field to the index *)
Definition inserts (s : st) (o : op) : Prop :=
  match o with
  | OAppend _ _ _ => True
  | OSet desc _ _ => lookup_gid s desc = None
  | _ => False
  end.

Lemma uncalm_lays multi s o s' : TInv s -> valid multi s o -> inserts s o -> run1 asis s o = Ok tt s' -> calm s o = false ->
  exists h r x, laid s' h r x /\ searchable s'.
Proof.
  intros T V I R C. destruct o as [desc disc v|desc|desc disc v|desc|k|j disc v|j]; cbn [inserts] in I; try contradiction.
  - cbn [valid] in V. destruct V as (Hd & _ & Hw). cbn [calm] in C. rewrite I in C.
    apply Bool.orb_false_iff in C. destruct C as [St C]. apply Bool.negb_false_iff in St.
    cbn [run1] in R. unfold stores in St. unfold new_units in C. pose proof (split_overlays s desc v) as Q. unfold new_units in Q.
    destruct (fixed_genus (descriptor2genus desc)) eqn:Fx.
    + unfold assign_fixed in R. rewrite I in R. apply Bool.negb_true_iff in St. rewrite St in R.
      destruct (alloc_loose asis s desc (loose_units (descriptor2genus desc))) as [k s1|s1|] eqn:E; cbn [bind void] in R; [|discriminate|discriminate].
      injection R as <-. rewrite (write_fixed_new desc); [apply (Q k s1 T Hd Hw C eq_refl)|exact Fx|].
      pose proof (alloc_gid s desc v k s1 T Hd Hw) as G. unfold new_units in G. rewrite Fx in G. exact (G E).
    + unfold assign_stretchy in R. rewrite I in R. apply Bool.negb_true_iff in St. rewrite St in R.
      destruct (needed_len disc v ltac:(lia)) as [Hn _]. rewrite Hn in R.
      destruct (alloc_loose asis s desc (Z.of_nat (length (pay v)))) as [k s1|s1|] eqn:E; cbn [bind] in R; [|discriminate|discriminate].
      injection R as <-. rewrite (write_stretchy_new desc) by exact Fx. apply (Q k s1 T Hd Hw C eq_refl).
  - cbn [valid] in V. destruct V as (Hd & _ & Hw). cbn [calm] in C.
    apply Bool.orb_false_iff in C. destruct C as [St C].
    cbn [run1] in R. unfold append_loose in R. cbv zeta in R. rewrite St in R. unfold new_units in C. pose proof (split_overlays s desc v) as Q. unfold new_units in Q.
    destruct (fixed_genus (descriptor2genus desc)) eqn:Fx.
    + destruct (alloc_loose asis s desc (loose_units (descriptor2genus desc))) as [k s1|s1|] eqn:E; cbn [bind void] in R; [|discriminate|discriminate].
      injection R as <-. rewrite (write_fixed_new desc); [apply (Q k s1 T Hd Hw C eq_refl)|exact Fx|].
      pose proof (alloc_gid s desc v k s1 T Hd Hw) as G. unfold new_units in G. rewrite Fx in G. exact (G E).
    + destruct (alloc_loose asis s desc (Z.of_nat (length (pay v)))) as [k s1|s1|] eqn:E; cbn [bind void] in R; [|discriminate|discriminate].
      injection R as <-. rewrite (write_stretchy_new desc) by exact Fx. apply (Q k s1 T Hd Hw C eq_refl).
Qed.

(** For every tuple reached by calls, compaction and growth, and every call that adds a field and
    succeeds: no hole lies over a field afterwards if and only if the call was calm. *)
Theorem C04_exact : forall multi s o s', lived multi s -> valid multi s o -> inserts s o -> run1 asis s o = Ok tt s' ->
  (calm s o = true <-> forall h r x, ~ laid s' h r x).
Proof.
  intros multi s o s' L V I R. destruct (lived_inv multi s L) as [T U]. split.
  - intros C h r x (A & B & D & E). eapply hole_owner_apart; [|exact A|exact D|exact B|exact E].
    clear -T V I R C.
    destruct o as [desc disc v|desc|desc disc v|desc|k|j disc v|j]; cbn [inserts] in I; try contradiction.
    + destruct V as (Hd & _ & Hw). pose proof (set_step s desc disc v T Hd Hw C) as Q. rewrite R in Q. apply Q.
    + destruct V as (Hd & _ & Hw). pose proof (append_step s desc disc v T Hd Hw C) as Q. cbn [run1] in R.
      destruct (append_loose asis s desc disc v) as [[k|] s1|s1|]; cbn [bind void] in R; try discriminate; injection R as <-; [apply Q|].
      destruct Q as [_ ->]. exact T.
  - intros N. destruct (calm s o) eqn:C; [reflexivity|]. exfalso.
    destruct (uncalm_lays multi s o s' T V I R C) as (h & r & x & Ly & _). exact (N h r x Ly).
Qed.
(** The trap: after a call that was not calm, adding a value of exactly the size of the misplaced hole
    (when no other hole has that size) succeeds and puts its units over a field that nobody addressed. *)
Theorem C01_trap_refuted : forall multi s o s', lived multi s -> valid multi s o -> inserts s o ->
  run1 asis s o = Ok tt s' -> calm s o = false ->
  exists h r x, laid s' h r x /\
    ((forall k, nzh s' k -> hunits (idx s' k) = hunits (idx s' h) -> k = h) ->
     forall desc v, real_desc desc -> wf_pay (descriptor2genus desc) (pay v) -> new_units desc v = hunits (idx s' h) ->
     exists s'', run1 asis s' (OAppend desc true v) = Ok tt s'' /\ r <> RL h /\ live s'' r /\ raddr s'' r = raddr s' r /\
       live s'' (RL h) /\ raddr s'' (RL h) <= x < raddr s'' (RL h) + Z.of_nat (length (pay v)) /\
       dat s'' x = nth (Z.to_nat (x - raddr s'' (RL h))) (pay v) 0).
Proof.
  intros multi s o s' L V I R C. destruct (lived_inv multi s L) as [T U].
  destruct (uncalm_lays multi s o s' T V I R C) as (h & r & x & Ly & Sh). exists h, r, x. split; [exact Ly|].
  intros Un desc v Hd Hw Hn. exact (next_tramples s' h r x desc v Ly Sh Un Hd Hw Hn).
Qed.
(** such a call: the fourth one of the history that refutes C01 *)
Definition before_split : st := final (new_tuple 60 6) (firstn 3 split_history).
Example C04_exact_case : lived (fun _ => false) before_split /\ valid (fun _ => false) before_split (OSet (fd g_u32 3) true (blob 1 3)) /\
  inserts before_split (OSet (fd g_u32 3) true (blob 1 3)) /\ calm before_split (OSet (fd g_u32 3) true (blob 1 3)) = false /\
  calm before_split (OSet (fd g_bin128 3) true (blob 4 3)) = true /\
  (exists s', run1 asis before_split (OSet (fd g_u32 3) true (blob 1 3)) = Ok tt s') /\
  (exists s', run1 asis before_split (OSet (fd g_bin128 3) true (blob 4 3)) = Ok tt s').
Proof.
  split; [apply l_reached; unfold before_split, new_tuple; apply reached_final; [constructor; unfold no_slots; intros; lia|vm_compute; reflexivity]|]. split; [apply validb_ok; vm_compute; reflexivity|].
  split; [vm_compute; reflexivity|]. split; [vm_compute; reflexivity|]. split; [vm_compute; reflexivity|].
  split; [exists (final before_split [OSet (fd g_u32 3) true (blob 1 3)])|exists (final before_split [OSet (fd g_bin128 3) true (blob 4 3)])];
    apply run1_final; vm_compute; reflexivity.
Qed.

(** Removing a field with more than 2047 units of payload is undefined behaviour in every tuple: by
    iterator, by token, by storing an empty value, or as the last member of its collection. *)
Theorem C01_big_removal_always_refuted : forall multi s k, lived multi s -> live s (RL k) -> 2047 < plen s (RL k) ->
  let desc := gid (idx s k) in
  run1 asis s (OErase k) = Bad /\
  (lookup_gid s desc = Some k -> run1 asis s (ORemove desc) = Bad /\ run1 asis s (OEraseAll desc) = Bad /\
     forall v, v_empty v = true -> run1 asis s (OSet desc false v) = Bad).
Proof.
  intros multi s k L Lk Wd desc. destruct (lived_inv multi s L) as [T _]. pose proof (plen_small s (RL k)) as Ps.
  pose proof (release_wide s k (plen s (RL k)) T Lk ltac:(lia)) as Rw.
  assert (Er : erase_loose s k = Bad) by exact Rw.
  split; [exact Er|]. intros Lg. cbn [run1]. rewrite Lg. split; [exact Er|]. split.
  { unfold erase_all. rewrite Lg. cbn [erase_all_from]. fold desc. rewrite Z.eqb_refl, Er. reflexivity. }
  intros v Ev. assert (Fx : fixed_genus (descriptor2genus desc) = false).
  { destruct (fixed_genus (descriptor2genus desc)) eqn:Fx; [|reflexivity]. exfalso.
    unfold plen in Wd. cbn [rgenus] in Wd. unfold egenus in Wd. fold desc in Wd. rewrite Fx in Wd.
    pose proof (loose_units_range (descriptor2genus desc)). lia. }
  rewrite Fx. unfold assign_stretchy. rewrite Lg. unfold assign_ref. cbv zeta. unfold needed. rewrite Ev. cbn [negb orb].
  assert (Hp : rrel s (RL k) =? 0 = false /\ brutto (rgenus s (RL k)) (dat s (raddr s (RL k))) = plen s (RL k)).
  { clear Rw Er Ps. unfold plen in *. cbn [rgenus] in *. unfold egenus in *. fold desc in Wd |- *. rewrite Fx in *.
    destruct (rrel s (RL k) =? 0); [lia|]. split; reflexivity. }
  destruct Hp as [-> ->]. cbn [negb]. replace (0 =? plen s (RL k)) with false by lia. cbn [Z.eqb]. exact Rw.
Qed.
Definition with_big : st := final (new_tuple 4000 2) [OSet (fd g_varbin 2) true (vbin 2053 7)].
Example C01_big_removal_case : lived odd_multi with_big /\ live with_big (RL 0) /\ 2047 < plen with_big (RL 0) /\
  lookup_gid with_big (gid (idx with_big 0)) = Some 0%nat /\ gid (idx with_big 0) = fd g_varbin 2.
Proof.
  split; [apply l_reached; unfold with_big; now_reach|]. split; [apply liveb_iff; vm_compute; reflexivity|].
  split; [apply Z.ltb_lt; vm_compute; reflexivity|]. split; vm_compute; reflexivity.
Qed.

(** ** The comparison at gear.cxx:591 *)
(** Wherever it matters, the units that the last field gives up stay behind as a hole at the very end of the data, which the
    comment above that line says is given back: the free space does not grow. *)
Theorem C06_swap_always_refuted : forall multi s desc disc v k, lived multi s -> real_desc desc -> lookup_gid s desc = Some k -> fixed_genus (descriptor2genus desc) = false ->
  rrel s (RL k) <> 0 -> plen s (RL k) <= 2047 -> 0 < needed disc v <= 2047 -> needed disc v <> plen s (RL k) -> swap_slip s (RL k) (plen s (RL k)) (needed disc v) = true ->
  exists s' h, run1 asis s (OSet desc disc v) = Ok tt s' /\ raddr s (RL k) + plen s (RL k) = tail s /\ tail_space s' = tail_space s /\
    nzh s' h /\ hole_end s' h = tail s' /\ hunits (idx s' h) = plen s (RL k).
Proof.
  intros multi s desc disc v k Lv Hd Lk Ef Rr Cap N0 N1 W. destruct (lived_inv multi s Lv) as [T _]. destruct (lookup_some _ _ _ Hd Lk) as [Hl Hg].
  assert (Eg : rgenus s (RL k) = descriptor2genus desc) by (cbn [rgenus]; unfold egenus; rewrite Hg; reflexivity).
  assert (Hst : stretchy_ref s (RL k) = true) by (unfold stretchy_ref; rewrite Eg, Ef; reflexivity).
  destruct (stretchy_not _ _ Hst) as [F1 F2].
  assert (Hp : brutto (rgenus s (RL k)) (dat s (raddr s (RL k))) = plen s (RL k)) by (unfold plen; rewrite F1; replace (rrel s (RL k) =? 0) with false by lia; reflexivity).
  assert (Hpos : 0 < plen s (RL k)) by (apply (t_pos _ T); auto).
  pose proof (t_inv _ T) as Hi. assert (Hi0 := Hi). destruct Hi0 as [H Hna Hnt].
  pose proof (live_bounds s (plen s) H (RL k) Hl Hpos) as [Cb Ce].
  pose proof (lookup_adjacent_spec s (raddr s (RL k)) (raddr s (RL k) + plen s (RL k)) ltac:(pose proof (i_jc _ _ _ _ _ _ H); lia)) as ([bf af] & Ela & Hb & Ha). cbn [fst snd] in Hb, Ha.
  cbn [run1]. rewrite Ef. unfold assign_stretchy. rewrite Lk. unfold assign_ref. cbv zeta. replace (rrel s (RL k) =? 0) with false by lia. cbn [negb]. rewrite Hp.
  replace (needed disc v =? plen s (RL k)) with false by lia. replace (needed disc v =? 0) with false by lia.
  unfold swap_slip in W. rewrite Ela in W. cbn [fst snd] in W. unfold realloc_data. rewrite Ela. cbn [fst snd]. cbv zeta in *.
  set (adj := match bf with Some k => hunits (idx s k) | None => 0 end + match af with Some k => hunits (idx s k) | None => 0 end) in *.
  destruct (jv s =? 0); [discriminate|]. cbn [negb andb] in W. destruct (raddr s (RL k) + plen s (RL k) =? tail s) eqn:Et; [|discriminate]. cbn [andb] in W.
  destruct ((plen s (RL k) <? needed disc v) && (plen s (RL k) + adj >=? needed disc v)); [discriminate|]. cbn [negb andb] in W.
  destruct (adj >? 0) eqn:Ea; [discriminate|]. destruct (head_space s >? 0); [discriminate|]. cbn [negb andb orb] in *.
  destruct (lookup_exact s 0); [discriminate|]. cbn [andb negb] in *. destruct (lookup_exact s (needed disc v)) as [h|] eqn:Ex; [|discriminate].
  pose proof (lookup_exact_spec s (plen s) (needed disc v) H ltac:(lia)) as Q. rewrite Ex in Q. destruct Q as (Kh & Hh & Uh).
  assert (Nh : nzh s h) by (split; [exact Kh|split; [exact Hh|lia]]).
  assert (Hbf : bf = None) by (destruct bf as [b|]; [|reflexivity]; destruct Hb as [(_ & _ & U) _]; unfold adj in Ea; destruct af as [c|]; [destruct Ha as [(_ & _ & U') _]|]; lia).
  assert (Haf : af = None) by (destruct af as [b|]; [|reflexivity]; destruct Ha as [(_ & _ & U) _]; unfold adj in Ea; destruct bf as [c|]; [destruct Hb as [(_ & _ & U') _]|]; lia).
  subst bf af. destruct (swap_spec s (plen s) (RL k) h (needed disc v) Hi Hl Hpos Cap Nh Uh Hb Ha) as (A1 & A2 & A3 & A4 & A5 & A6 & A7 & A8 & A9 & A10).
  cbv zeta in A1, A2, A3, A4, A5, A6, A7, A8, A9, A10. set (s3 := with_jv _ _) in A1, A2, A3, A4, A5, A6, A7, A8, A9, A10. fold s3. cbn [q_swap asis].
  rewrite A8. replace (raddr s (RL k) =? tail s) with false by lia. cbn [bind].
  exists (write_units s3 (raddr s3 (RL k)) (pay v)), h. split; [reflexivity|]. split; [lia|].
  assert (U3 : hunits (idx s3 h) = plen s (RL k)) by (rewrite hole_end_eq, A6 in A7; lia).
  split; [unfold tail_space; change (tail (write_units s3 (raddr s3 (RL k)) (pay v))) with (tail s3); change (end_ (write_units s3 (raddr s3 (RL k)) (pay v))) with (end_ s3); rewrite A8; reflexivity|].
  split; [|split; [|exact U3]].
  - exact (p_nz _ _ _ A5).
  - change (hole_end s3 h = tail s3). rewrite A7, A8. lia.
Qed.
(** Such a tuple, and what it costs: afterwards there is room for seven units in one piece at the end, and no field of
    seven units can be added. *)
Definition swap_history : list op :=
  [OSet (fd g_varbin 2) true (vbin 3 7); OSet (fd g_u32 4) true (blob 1 5); OSet (fd g_varbin 6) true (vbin 5 7); ORemove (fd g_varbin 2)].
Definition swap_call : op := OSet (fd g_varbin 6) true (vbin 3 1).
Definition full_swap : st := final (new_tuple 14 3) swap_history.
Theorem C06_swap_refuted : exists s' h, lived odd_multi full_swap /\ valid odd_multi full_swap swap_call /\ run1 asis full_swap swap_call = Ok tt s' /\ nzh s' h /\ hole_end s' h = tail s' /\
  hunits (idx s' h) + tail_space s' = new_units (fd g_bin224 7) (blob 7 5) /\ run1 asis s' (OSet (fd g_bin224 7) true (blob 7 5)) = Throw (final s' [OSet (fd g_bin224 7) true (blob 7 5)]) /\
  (option_map fst (run repaired full_swap [swap_call; OSet (fd g_bin224 7) true (blob 7 5)]) = Some [true; true]).
Proof.
  exists (final full_swap [swap_call]), 0%nat. split; [apply l_reached; unfold full_swap; now_reach|]. split; [apply validb_ok; vm_compute; reflexivity|].
  split; [apply run1_final; vm_compute; reflexivity|]. split; [split; [vm_compute; lia|split; vm_compute; reflexivity]|]. split; [vm_compute; reflexivity|]. split; [vm_compute; reflexivity|].
  split; [apply run1_failed; vm_compute; reflexivity|vm_compute; reflexivity].
Qed.
Example C06_swap_case : lookup_gid full_swap (fd g_varbin 6) = Some 2%nat /\ rrel full_swap (RL 2) <> 0 /\ plen full_swap (RL 2) = 5 /\ needed true (vbin 3 1) = 3 /\
  swap_slip full_swap (RL 2) (plen full_swap (RL 2)) (needed true (vbin 3 1)) = true.
Proof. split; [vm_compute; reflexivity|]. split; [vm_compute; discriminate|]. split; [vm_compute; reflexivity|]. split; vm_compute; reflexivity. Qed.
Print Assumptions C06_swap_always_refuted. Print Assumptions C06_swap_refuted.
Print Assumptions C04_exact.
Print Assumptions C01_big_removal_always_refuted.
Print Assumptions C01_trap_refuted.
