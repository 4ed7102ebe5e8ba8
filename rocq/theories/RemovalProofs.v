(** * RemovalProofs: removing preplaced fields (proofs). *)
From Verif Require Import Base Tag TagProofs Codec Gear GearBase GearSearch GearProofs GearMerge GearAlloc GearRealloc GearResize Tuple TupleProofs TupleSteps TupleView TupleOps TupleMore
  TupleHist TupleFacts PropertiesTuple Hippeus Scan Audit Image ImageProofs PropertiesImage GearOpt GearOptProofs PropertiesOpt Growth GrowthProofs PropertiesGrowth Removal.
From Coq Require Import ZifyBool ZifyNat Permutation.
Ltac Zify.zify_post_hook ::= Z.div_mod_to_equations.

(** a call that takes away the payload of a preplaced field *)
Definition clears (o : op) (j : nat) : Prop :=
  o = OSlotDel j \/ exists disc v, o = OSlot j disc v /\ needed disc v = 0.
Lemma clears_run s o j : TInv s -> (j < nslots s)%nat -> clears o j -> run1 asis s o = run1 asis s (OSlotDel j).
Proof.
  intros T Hj [->|(disc & v & -> & N)]; [reflexivity|]. cbn [run1]. rewrite (erase_slot_assign asis s j T Hj).
  unfold assign_ref. cbv zeta. rewrite N. change (needed false (mkV true [])) with 0. change (0 =? 0) with true. cbv iota.
  destruct (rrel s (RP j) =? 0) eqn:R; cbn [negb]; [reflexivity|].
  assert (P : brutto (rgenus s (RP j)) (dat s (raddr s (RP j))) = plen s (RP j)) by (unfold plen; rewrite R; reflexivity).
  rewrite P. pose proof (t_pos _ T (RP j) Hj eq_refl ltac:(lia)). replace (0 =? plen s (RP j)) with false by lia. reflexivity.
Qed.

(** ** When is it refused? *)
Lemma index_alloc_jv s x : index_alloc (with_jv s x) =
  match index_alloc s with Ok k s' => Ok k (with_jv s' x) | Throw _ => Throw (with_jv s x) | Bad => Bad end.
Proof.
  unfold index_alloc. change (lookup_gid (with_jv s x)) with (lookup_gid s). change (jc (with_jv s x)) with (jc s).
  change (head_space (with_jv s x)) with (head_space s).
  destruct (if jc s >? 0 then _ else _); [reflexivity|]. destruct (head_space s <? 1); reflexivity.
Qed.
Lemma index_alloc_refused s : TInv s -> ((exists s', index_alloc s = Throw s') <-> index_full s).
Proof.
  intros T. pose proof (index_alloc_spec s (plen s) _ _ _ (v_acc _ _ (t_inv _ T))) as Q. split.
  - intros [s' E]. rewrite E in Q. apply Q.
  - intros [H1 H2]. unfold index_alloc in *. destruct (jc s >? 0) eqn:J; [|replace (head_space s <? 1) with true by lia; eauto].
    destruct (lookup_gid s (u16 (make_hole 0))) as [k|] eqn:E; [|replace (head_space s <? 1) with true by lia; eauto].
    exfalso. unfold lookup_gid in E. pose proof (scan_down_spec (fun e => gid e =? u16 (make_hole 0)) (idx s) (cnt s)) as SD. rewrite E in SD. destruct SD as (K1 & K2 & _).
    apply (H2 k K1); unfold is_hole, hunits; replace (gid (idx s k)) with (u16 (make_hole 0)) by lia; vm_compute; reflexivity.
Qed.
Definition lonely (s : st) (r : ref) : Prop :=
  forall k, nzh s k -> hole_end s k <> raddr s r /\ hole_begin s k <> raddr s r + plen s r.
Lemma refused_iff s j : TInv s -> (j < nslots s)%nat ->
  ((exists s', run1 asis s (OSlotDel j) = Throw s') <->
   rrel s (RP j) <> 0 /\ raddr s (RP j) + plen s (RP j) <> tail s /\ lonely s (RP j) /\ index_full s) /\
  forall s', run1 asis s (OSlotDel j) = Throw s' -> s' = with_jv s (jv s + plen s (RP j)).
Proof.
  intros T Hj. cbn [run1]. unfold erase_slot. destruct (rrel s (RP j) =? 0) eqn:R.
  - split; [|discriminate]. split; [intros [s' E]; discriminate|intros (H & _); lia].
  - replace (brutto (stype s j) (dat s (raddr s (RP j)))) with (plen s (RP j)) by (unfold plen; rewrite R; reflexivity).
    unfold release_data. pose proof (v_acc _ _ (t_inv _ T)) as A.
    destruct (lookup_adjacent_spec s (raddr s (RP j)) (raddr s (RP j) + plen s (RP j)) ltac:(pose proof (i_jc _ _ _ _ _ _ A); lia)) as ([bf af] & -> & Ad).
    unfold adj_ok in Ad. cbn [fst snd] in Ad. destruct Ad as [A1 A2]. unfold release_data_at.
    destruct (_ =? tail s) eqn:Et.
    { split; [|destruct bf; discriminate]. split; [intros [s' E]; destruct bf; discriminate|intros (_ & H & _); lia]. }
    destruct bf as [b|].
    { assert (X : forall s', bind (bind (let '(m, s0) := match af with
        | Some a => let '(m, s0) := merge_holes (set_ent (with_jv s (jv s + plen s (RP j))) b (set_units (idx (with_jv s (jv s + plen s (RP j))) b) (plen s (RP j) + hunits (idx (with_jv s (jv s + plen s (RP j))) b)))) b a in (Some m, s0)
        | None => (Some b, set_ent (with_jv s (jv s + plen s (RP j))) b (set_units (idx (with_jv s (jv s + plen s (RP j))) b) (plen s (RP j) + hunits (idx (with_jv s (jv s + plen s (RP j))) b)))) end in
        match m with Some m => Ok (Some m) s0 | None => bind (bind (index_alloc s0) (fun h s1 => Ok h (with_jc s1 (jc s1 + 1)))) (fun h s1 => Ok (Some h) (set_ent s1 h (set_payload s1 h (set_units (idx s1 h) (plen s (RP j))) (raddr s (RP j))))) end)
        (fun _ s0 => Ok tt s0)) (fun _ s0 => Ok tt (set_rrel s0 (RP j) 0)) <> Throw s').
      { intros s'. destruct af as [a|]; [destruct (merge_holes _ b a)|]; cbn [bind]; discriminate. }
      split; [split; [intros [s' E]; destruct (X s' E)|intros (_ & _ & H & _); destruct A1 as [N E]; destruct (H b N); lia]|intros s' E; destruct (X s' E)]. }
    destruct af as [a|].
    { split; [split; [intros [s' E]; cbn [bind] in E; discriminate|intros (_ & _ & H & _); destruct A2 as [N E]; destruct (H a N); lia]|intros s' E; cbn [bind] in E; discriminate]. }
    rewrite index_alloc_jv. pose proof (index_alloc_refused s T) as F.
    destruct (index_alloc s) as [k s1|s1|] eqn:E; cbn [bind].
    + split; [|discriminate]. split; [intros [s' X]; discriminate|]. intros (_ & _ & _ & H). apply F in H as [s' H]. discriminate.
    + split; [|intros s' X; congruence]. split; [|eauto]. intros _. split; [lia|]. split; [lia|]. split; [intros k N; auto|apply F; eauto].
    + split; [|discriminate]. split; [intros [s' X]; discriminate|]. intros (_ & _ & _ & H). apply F in H as [s' H]. discriminate.
Qed.

(** ** Compaction after a refusal *)
Lemma squeeze_jv n x : forall src dst s, squeeze n src dst (with_jv s x) = with_jv (squeeze n src dst s) x.
Proof.
  induction n as [|n IH]; intros src dst s; [reflexivity|]. cbn [squeeze]. change (idx (with_jv s x)) with (idx s).
  destruct (is_hole (idx s src)); [apply IH|]. destruct (Nat.eqb src dst); [apply IH|].
  change (set_ent (with_jv s x) dst ?e) with (with_jv (set_ent s dst e) x). apply IH.
Qed.
Lemma drop_holes_jv s x : drop_holes (with_jv s x) = with_jv (drop_holes s) x.
Proof.
  unfold drop_holes. change (jc (with_jv s x)) with (jc s). change (cnt (with_jv s x)) with (cnt s).
  destruct (jc s =? 0); [reflexivity|]. rewrite squeeze_jv. reflexivity.
Qed.
Lemma copy_up_jv n x : forall s dst src, copy_up (with_jv s x) dst src n = with_jv (copy_up s dst src n) x.
Proof.
  induction n as [|n IH]; intros s dst src; [reflexivity|]. cbn [copy_up].
  change (with_dat (with_jv s x) ?f) with (with_jv (with_dat s f) x). apply IH.
Qed.
Lemma move_chunks_jv x cs : forall s dst, snd (move_chunks (with_jv s x) dst cs) = with_jv (snd (move_chunks s dst cs)) x.
Proof.
  unfold move_chunks. induction cs as [|c cs IH]; intros s dst; [reflexivity|]. cbn [fold_left]. unfold move_chunk at 2 4.
  change (chunk_src (with_jv s x) c) with (chunk_src s c).
  destruct (chunk_src s c =? dst); [apply IH|].
  rewrite <- IH. f_equal. f_equal. f_equal. unfold overlapped_copy.
  replace (set_rrel (with_jv s x) (c_ref c) _) with (with_jv (set_rrel s (c_ref c) (u16 (rrel s (c_ref c) - (chunk_src s c - dst)))) x)
    by (destruct (c_ref c); reflexivity).
  destruct (_ && _); [apply copy_up_jv|reflexivity].
Qed.
Lemma compactify_over s srt n : TInv s -> sorter c_off srt -> (jc s <> 0 -> paid_index s) -> paid_slots s -> 0 < n -> jv s + n < 65536 ->
  exists c, compacted s c /\ compactify srt (with_jv s (jv s + n)) = with_tail c (tail c - n).
Proof.
  intros T SR H1 H2 N M. pose proof (drop_shrunk s T H1) as Sh. pose proof (packed_moved s (drop_holes s) srt T Sh SR H2) as K.
  eexists. split; [exact K|]. unfold compactify, pack_data. rewrite drop_holes_jv.
  pose proof (i_jvr _ _ _ _ _ _ (v_acc _ _ (t_inv _ T))) as Jr.
  assert (U : u16 (jv s + n) = jv s + n) by (unfold u16; change (2 ^ 16) with 65536; apply Z.mod_small; lia).
  change (jv (with_jv (drop_holes s) (jv s + n))) with (u16 (jv s + n)). rewrite U. replace (jv s + n =? 0) with false by lia. cbv zeta.
  change (base (with_jv (drop_holes s) (jv s + n))) with (base (drop_holes s)).
  change (chunks (with_jv (drop_holes s) (jv s + n))) with (chunks (drop_holes s)).
  rewrite move_chunks_jv. set (m := snd (move_chunks (drop_holes s) (base (drop_holes s)) (srt (chunks (drop_holes s))))).
  assert (J : jv m = jv s).
  { destruct (moved_chunks s (drop_holes s) srt T Sh SR H2) as (_ & F & _). fold m in F. rewrite (fr_jv _ _ F). apply (sh_jv _ _ Sh). }
  unfold with_jv, with_tail. cbn [idx cnt pre dat tail jc jv pivot end_ pp nslots soff stype]. rewrite U. change (u16 0) with 0. f_equal. rewrite J. lia.
Qed.

(** ** Every unit of a tuple without junk belongs to a field *)
Lemma owned s x : TInv s -> jv s = 0 -> base s <= x < tail s -> exists r, live s r /\ raddr s r <= x < raddr s r + plen s r.
Proof.
  intros T V H. pose proof (v_acc _ _ (t_inv _ T)) as A. pose proof (i_cov _ _ _ _ _ _ A x) as C. unfold zero_d, cov in C.
  assert (I1 : ind (base s) (tail s - base s) x = 1) by (unfold ind; lia).
  rewrite I1 in C.
  assert (W : forall a n, 0 < ind a n x -> a <= x < a + n) by (intros a n P; unfold ind in P; lia).
  pose proof (i_jv _ _ _ _ _ _ A) as JV.
  assert (HV : forall k, (k < cnt s)%nat -> hvol s k = 0).
  { apply sumn_zero_inv; [intros k _; apply hvol_nonneg|lia]. }
  assert (N1 : 0 <= sumn (cnt s) (fun k => ind (addr s k) (len s (plen s) k) x)) by (apply sumn_nonneg; intros; apply ind_range).
  destruct (Z.lt_ge_cases 0 (sumn (cnt s) (fun k => ind (addr s k) (len s (plen s) k) x))) as [P|P].
  - apply sumn_pos in P as (k & K1 & K2); [|intros; apply ind_range]. exists (RL k).
    unfold len in K2. destruct (is_hole (idx s k)) eqn:Hh.
    + specialize (HV k K1). unfold hvol in HV. rewrite Hh in HV. rewrite ind_0 in K2 by lia. lia.
    + split; [split; assumption|]. apply W. exact K2.
  - assert (Q : 0 < sumn (nslots s) (fun j => ind (raddr s (RP j)) (plen s (RP j)) x)) by lia.
    apply sumn_pos in Q as (j & J1 & J2); [|intros; apply ind_range]. exists (RP j). split; [exact J1|]. apply W. exact J2.
Qed.
Lemma compacted_slot s c j : TInv s -> compacted s c -> (j < nslots s)%nat -> plen c (RP j) = plen s (RP j) /\ live c (RP j).
Proof.
  intros T K Hj. pose proof (k_slot _ _ K j) as F.
  assert (L : live c (RP j)) by (cbn [live]; rewrite (k_nslots _ _ K); exact Hj).
  split; [|exact L]. assert (V : value c (RP j) = value s (RP j)).
  { rewrite !field_live in F by assumption. congruence. }
  rewrite <- (value_len c (RP j) eq_refl), V, (value_len s (RP j) eq_refl). reflexivity.
Qed.

(** a refused removal, then a compaction *)
Lemma refused_cut s srt j s' : TInv s -> sorter c_off srt -> (j < nslots s)%nat -> (jc s <> 0 -> paid_index s) -> paid_slots s ->
  run1 asis s (OSlotDel j) = Throw s' ->
  exists c r, compacted s c /\ compactify srt s' = with_tail c (tail c - plen s (RP j)) /\ 0 < plen s (RP j) /\
    live c r /\ raddr c r <= tail c - plen s (RP j) < raddr c r + plen c r.
Proof.
  intros T SR Hj H1 H2 E. destruct (refused_iff s j T Hj) as [Q1 Q2]. destruct (proj1 Q1 (ex_intro _ s' E)) as (R & _). rewrite (Q2 s' E).
  pose proof (v_acc _ _ (t_inv _ T)) as A.
  assert (N : 0 < plen s (RP j)) by (apply (t_pos _ T); [exact Hj|reflexivity|exact R]).
  pose proof (jv_live_bound s (plen s) A (RP j) Hj) as B. pose proof (i_cfg _ _ _ _ _ _ A) as [C1 C2 C3 C4 C5]. unfold base in *.
  destruct (compactify_over s srt (plen s (RP j)) T SR H1 H2 N ltac:(lia)) as (c & K & Ec).
  destruct (compacted_slot s c j T K Hj) as [P L]. pose proof (k_inv _ _ K) as Tc.
  pose proof (live_bounds c (plen c) (v_acc _ _ (t_inv _ Tc)) (RP j) L ltac:(lia)) as Bc.
  destruct (owned c (tail c - plen s (RP j)) Tc (k_jv _ _ K)) as (r & L1 & L2); [unfold base in *; lia|].
  exists c, r. auto 10.
Qed.
(** the next value goes to the end of the data *)
Lemma append_at_tail s desc v s' : jc s = 0 -> 0 <= desc < 65536 -> is_inplaced_genus (descriptor2genus desc) = false ->
  Z.of_nat (length (pay v)) = new_units desc v -> pay v <> [] -> pivot s <= tail s < 65536 ->
  run1 asis s (OAppend desc true v) = Ok tt s' ->
  forall i, (i < length (pay v))%nat -> dat s' (tail s + Z.of_nat i) = nth i (pay v) 0.
Proof.
  intros J Hd Ip L Ne Bd. cbn [run1]. unfold append_loose. cbn [negb andb].
  assert (Lp : 0 < Z.of_nat (length (pay v))) by (destruct (pay v); [congruence|cbn [length]; lia]).
  assert (E : (if fixed_genus (descriptor2genus desc)
       then bind (alloc_loose asis s desc (loose_units (descriptor2genus desc))) (fun k s => Ok (Some k) (write_fixed s k (pay v)))
       else bind (alloc_loose asis s desc (Z.of_nat (length (pay v)))) (fun k s => Ok (Some k) (write_units s (addr s k) (pay v)))) =
     bind (alloc_loose asis s desc (Z.of_nat (length (pay v)))) (fun k s => Ok (Some k) (if fixed_genus (descriptor2genus desc) then write_fixed s k (pay v) else write_units s (addr s k) (pay v)))).
  { unfold new_units in L. destruct (fixed_genus (descriptor2genus desc)); [rewrite L|]; reflexivity. }
  rewrite E. clear E. unfold alloc_loose. replace (_ =? 0) with false by lia. unfold lookup_fit. rewrite J. cbn [Z.ltb Z.compare orb].
  destruct (tail_space s <? Z.of_nat (length (pay v))); cbn [bind void]; [discriminate|].
  unfold index_alloc. rewrite J. cbn [Z.gtb Z.compare]. destruct (head_space s <? 1) eqn:Hs; cbn [bind void]; [discriminate|].
  unfold head_space in Hs. intros Q i Hi. 
  set (t := with_tail _ _) in Q.
  assert (U : u16 desc = desc) by (unfold u16; change (2 ^ 16) with 65536; apply Z.mod_small; lia).
  assert (I : idx t (cnt s) = mkE (u16 (tail s - own s (cnt s))) desc).
  { unfold t. cbn [with_tail set_ent with_idx idx with_cnt tail]. rewrite fupd_same. unfold set_payload. cbn [gid]. rewrite U. reflexivity. }
  assert (A : addr t (cnt s) = tail s).
  { unfold addr. rewrite I. cbn [rel]. change (own t (cnt s)) with (own s (cnt s)). unfold own, u16. change (2 ^ 16) with 65536. rewrite Z.mod_small; lia. }
  assert (S' : s' = write_units t (addr t (cnt s)) (pay v)).
  { destruct (fixed_genus (descriptor2genus desc)); [|congruence]. unfold write_fixed, egenus in Q. rewrite I in Q. cbn [gid] in Q. rewrite Ip in Q. congruence. }
  rewrite S', A. unfold write_units. cbn [dat with_dat].
  replace ((tail s <=? tail s + Z.of_nat i) && (tail s + Z.of_nat i <? tail s + Z.of_nat (length (pay v)))) with true by lia.
  f_equal. lia.
Qed.

(** ** If the counter were raised after the entry is found *)
Lemma clear_with_room s j : TInv s -> (j < nslots s)%nat -> jc s = 0 -> jv s = 0 -> 1 <= head_space s -> plen s (RP j) <= 2047 ->
  calm s (OSlotDel j) = true /\ exists s', run1 asis s (OSlotDel j) = Ok tt s'.
Proof.
  intros T Hj J V H P.
  assert (Nt : forall s', run1 asis s (OSlotDel j) <> Throw s').
  { intros s' E. destruct (refused_iff s j T Hj) as [Q _]. destruct (proj1 Q (ex_intro _ s' E)) as (_ & _ & _ & F & _). lia. }
  assert (C : calm s (OSlotDel j) = true).
  { cbn [calm]. unfold calm_ref, roomy. cbn [Z.eqb andb orb]. rewrite !Bool.orb_true_r. cbn [orb andb].
    destruct (rrel s (RP j) =? 0) eqn:R; [reflexivity|]. cbn [negb orb andb].
    assert (W : wide_hole s (raddr s (RP j)) (plen s (RP j)) = false).
    { apply (wide_hole_small s (plen s)); [apply (v_acc _ _ (t_inv _ T))|apply plen_nonneg|lia]. }
    rewrite W. cbn [negb]. rewrite !Bool.orb_true_r. cbn [andb].
    cbn [run1] in Nt. unfold erase_slot in Nt. rewrite R in Nt.
    replace (brutto (stype s j) (dat s (raddr s (RP j)))) with (plen s (RP j)) in Nt by (unfold plen; rewrite R; reflexivity).
    destruct (release_data s _ _); [reflexivity| |reflexivity]. exfalso. eapply Nt. reflexivity. }
  split; [exact C|]. pose proof (erase_slot_assign asis s j T Hj) as E. cbn [run1] in *. rewrite E in *.
  pose proof (assign_ref_step s (RP j) false (mkV true []) T Hj eq_refl ltac:(split; cbn; [lia|congruence]) C) as Q.
  destruct (assign_ref asis s (RP j) false (mkV true [])) as [[] s'|s'|]; [eauto| |contradiction]. exfalso. apply (Nt s'). reflexivity.
Qed.
Lemma slot_plen s j : plen s (RP j) = match get s (KP j) with Some p => Z.of_nat (length p) | None => 0 end.
Proof.
  cbn [get]. unfold get_slot. destruct (pre s j =? 0) eqn:E.
  - unfold plen. cbn [rrel]. rewrite E. reflexivity.
  - rewrite value_len by reflexivity. reflexivity.
Qed.
Lemma alike_slot_plen multi s s' j : alike multi s s' -> (j < nslots s)%nat -> plen s' (RP j) = plen s (RP j).
Proof.
  intros A Hj. rewrite !slot_plen. pose proof (a_get _ _ _ A (KP j) Hj) as E.
  destruct (get s' (KP j)) as [a|], (get s (KP j)) as [b|]; cbn in E; try discriminate; auto.
  f_equal. rewrite <- (map_length u32 a), <- (map_length u32 b). congruence.
Qed.
Lemma cleared_outcome multi s s1 j s' : alike multi s s1 -> (j < nslots s)%nat -> stepped multi s1 s' (OSlotDel j) -> outcome_of multi s (OSlotDel j) s'.
Proof.
  intros A Hj P. constructor; try apply P.
  - intros k K. cbn [last_write]. assert (K1 : single_key multi s1 k) by (destruct k; cbn in *; [|rewrite (a_nslots _ _ _ A)]; assumption).
    rewrite (p_get _ _ _ _ P) by assumption. destruct (wrote k (OSlotDel j)); [reflexivity|]. apply (a_get _ _ _ A). assumption.
  - intros desc D Hm. pose proof (p_bag _ _ _ _ P desc (view s1 desc) D Hm (Permutation_refl _)) as B.
    apply (Permutation_map (map u32)) in B. etransitivity; [exact B|]. cbn [bag_step]. rewrite (a_view _ _ _ A) by assumption. reflexivity.
Qed.
Lemma clear_after_room multi s s1 j : TInv s -> uniq multi s -> room multi s s1 1 0 -> (j < nslots s)%nat -> plen s (RP j) <= 2047 ->
  exists s', run1 asis s1 (OSlotDel j) = Ok tt s' /\ outcome_of multi s (OSlotDel j) s'.
Proof.
  intros T U R Hj P. pose proof (r_alike _ _ _ _ _ R) as A.
  assert (Hj1 : (j < nslots s1)%nat) by (rewrite (a_nslots _ _ _ A); exact Hj).
  destruct (clear_with_room s1 j (r_inv _ _ _ _ _ R) Hj1 (r_jc _ _ _ _ _ R) (r_jv _ _ _ _ _ R) (r_head _ _ _ _ _ R)) as (C & s' & E).
  { rewrite (alike_slot_plen multi s s1 j A Hj). exact P. }
  exists s'. split; [exact E|]. pose proof (step multi s1 (OSlotDel j) (r_inv _ _ _ _ _ R) (a_uniq _ _ _ A U) Hj1 C) as Q.
  rewrite E in Q. eapply cleared_outcome; eassumption.
Qed.
