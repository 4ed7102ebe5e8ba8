(** * GrowthProofs: making room (proofs). *)
From Verif Require Import Base Tag TagProofs Codec Gear GearBase GearSearch GearProofs GearMerge GearAlloc
  GearRealloc GearResize GearAsis Tuple TupleProofs TupleSteps TupleView TupleOps TupleMore TupleHist TupleFacts PropertiesTuple
  Hippeus Scan Audit AuditProofs Image ImageProofs PropertiesImage GearOpt GearOptProofs GearSortProofs PropertiesOpt Growth.
From Coq Require Import ZifyBool ZifyNat Permutation.
Ltac Zify.zify_post_hook ::= Z.div_mod_to_equations.

(** ** Moving the border *)
Lemma head_base s : TInv s -> 0 <= head s /\ head s <= pivot s /\ 0 <= pp s /\ base s = pivot s + pp s /\ base s <= tail s /\ tail s <= end_ s <= 65534 /\ head s = head_space s /\ pivot s = head s + Z.of_nat (cnt s).
Proof. intros T. pose proof (seen_cfg s T) as C. unfold head, base, head_space in *. lia. Qed.

Lemma shift_moved s d : TInv s -> moved s (shift_tuple s d) d.
Proof.
  intros T. pose proof (head_base s T) as B. constructor; try reflexivity; auto.
  intros x Hx. cbn [shift_tuple with_border dat].
  replace ((head s + d <=? x + d) && (x + d <? tail s + d)) with true by lia.
  replace (x + d - d) with x by lia. reflexivity.
Qed.

(** what one sees of a tuple, with the units reduced to their 32 bits *)
Record alike (multi : Z -> bool) (s s' : st) : Prop := {
  a_view : forall desc, real_desc desc -> map (map u32) (view s' desc) = map (map u32) (view s desc);
  a_get : forall k, single_key multi s k -> u32_value (get s' k) = u32_value (get s k);
  a_nslots : nslots s' = nslots s;
  a_stype : forall j, (j < nslots s)%nat -> stype s' j = stype s j;
  a_uniq : uniq multi s -> uniq multi s'
}.
Lemma u32_u32 x : u32 (u32 x) = u32 x.
Proof. unfold u32. rewrite Z.mod_mod by (vm_compute; discriminate). reflexivity. Qed.
Lemma map_u32_u32 l : map u32 (map u32 l) = map u32 l.
Proof. rewrite map_map. apply map_ext. apply u32_u32. Qed.
Lemma u32_value_twice v : u32_value (u32_value v) = u32_value v.
Proof. destruct v; cbn; [rewrite map_u32_u32|]; reflexivity. Qed.
Lemma alike_refl multi s : alike multi s s.
Proof. constructor; auto. Qed.
Lemma alike_trans multi a b c : alike multi a b -> alike multi b c -> alike multi a c.
Proof.
  intros A B. constructor.
  - intros d D. rewrite (a_view _ _ _ B), (a_view _ _ _ A) by assumption. reflexivity.
  - intros k K. rewrite (a_get _ _ _ B), (a_get _ _ _ A); auto.
    destruct k; cbn in *; [assumption|]. rewrite (a_nslots _ _ _ A). assumption.
  - rewrite (a_nslots _ _ _ B). apply A.
  - intros j J. rewrite (a_stype _ _ _ B), (a_stype _ _ _ A); auto. rewrite (a_nslots _ _ _ A). assumption.
  - intros U. apply B, A, U.
Qed.
Lemma moved_alike multi s s' d : moved s s' d -> TInv s -> TInv s' -> alike multi s s'.
Proof.
  intros M T T'. constructor; try apply M.
  - intros desc D. rewrite (mv_view s s' d M T desc D). rewrite map_map. apply map_ext. intros l. apply map_u32_u32.
  - intros [desc|j] K; cbn [get single_key] in *.
    + destruct K. rewrite (mv_get s s' d M T T') by assumption. apply u32_value_twice.
    + rewrite (mv_get_slot s s' d M T) by assumption. apply u32_value_twice.
  - intros U desc D Hm. rewrite (mv_view s s' d M T desc D), map_length. apply U; assumption.
Qed.
Lemma compacted_alike multi s s' : compacted s s' -> TInv s -> alike multi s s'.
Proof.
  intros K T. constructor.
  - intros desc D. rewrite (compacted_view s s' desc K D). reflexivity.
  - intros [desc|j] H; cbn [get single_key] in *.
    + rewrite (compacted_get_loose s s' desc T K) by apply H. reflexivity.
    + rewrite (compacted_get_slot s s' j T K H). reflexivity.
  - apply K.
  - intros j _. rewrite (k_stype _ _ K). reflexivity.
  - intros U. eapply compacted_uniq; eassumption.
Qed.

(** ** The proportional split *)
Lemma border_room s wi wd : TInv s -> 0 <= wi -> 0 <= wd -> wi + wd <= unallocated s ->
  wi <= head s + border_shift s wi wd /\ tail s + border_shift s wi wd + wd <= end_ s /\ 0 <= head s + border_shift s wi wd.
Proof.
  intros T I D F. pose proof (head_base s T) as B. unfold border_shift, unallocated in *. cbv zeta.
  set (un := end_ s - (tail s - head s)) in *.
  generalize ((un * (pivot s - head s + wi) + (pivot s - head s + wi + (tail s - pivot s + wd)) - 1) / (pivot s - head s + wi + (tail s - pivot s + wd))).
  generalize (un * (tail s - pivot s + wd) / (pivot s - head s + wi + (tail s - pivot s + wd))).
  intros a b. destruct (wi >? head s) eqn:E1; [lia|]. destruct (wd >? end_ s - tail s) eqn:E2; lia.
Qed.

Record room (multi : Z -> bool) (s s' : st) (wi wd : Z) : Prop := {
  r_inv : TInv s'; r_jc : jc s' = 0; r_jv : jv s' = 0;
  r_head : wi <= head_space s'; r_tail : wd <= tail_space s'; r_alike : alike multi s s'
}.
Lemma kept_count s : TInv s -> Z.of_nat (length (kept s)) = Z.of_nat (cnt s) - jc s.
Proof. intros T. exact (kept_length s (plen s) (v_acc _ _ (t_inv _ T))). Qed.

Lemma rearrange_room multi s srt wi wd : TInv s -> sorter c_off srt -> settled s -> 0 <= wi -> 0 <= wd ->
  wi + wd <= jv s + jc s + unallocated s ->
  room multi s (rearrange srt s wi wd) wi wd /\ end_ (rearrange srt s wi wd) = end_ s /\
  unallocated (rearrange srt s wi wd) = unallocated s + jv s + jc s.
Proof.
  intros T SR [S1 S2] I D F. pose proof (compactify_ok s srt T SR S1 S2) as K. pose proof (k_inv _ _ K) as T1.
  pose proof (kept_count s T) as KC.
  assert (U1 : unallocated (compactify srt s) = unallocated s + jv s + jc s).
  { unfold unallocated, head. rewrite (k_end _ _ K), (k_tail _ _ K), (k_pivot _ _ K), (k_cnt _ _ K). lia. }
  unfold rearrange. cbv zeta. set (s1 := compactify srt s) in *.
  pose proof (border_room s1 wi wd T1 I D ltac:(lia)) as (B1 & B2 & B3). set (d := border_shift s1 wi wd) in *.
  pose proof (head_base s1 T1) as HB.
  assert (A1 : alike multi s s1) by (apply compacted_alike; assumption).
  destruct (d =? 0) eqn:E.
  - split; [|split; [apply K|exact U1]].
    constructor; try apply K; try assumption; unfold head_space, tail_space in *; lia.
  - pose proof (shift_moved s1 d T1) as M.
    assert (T2 : TInv (shift_tuple s1 d)).
    { apply (moved_inv s1 _ d M T1); rewrite ?(m_pivot _ _ _ M), ?(m_tail _ _ _ M); cbn [shift_tuple with_border end_]; unfold head in *; lia. }
    split; [|split; [exact (k_end _ _ K)|]].
    + constructor; auto.
      * rewrite (m_jc _ _ _ M). apply K.
      * rewrite (m_jv _ _ _ M). apply K.
      * unfold head_space. rewrite (m_pivot _ _ _ M), (m_cnt _ _ _ M). unfold head in *. lia.
      * unfold tail_space. rewrite (m_tail _ _ _ M). cbn [shift_tuple with_border end_]. lia.
      * eapply alike_trans; [exact A1|]. eapply moved_alike; eassumption.
    + rewrite <- U1. unfold unallocated, head. rewrite (m_pivot _ _ _ M), (m_cnt _ _ _ M), (m_tail _ _ _ M). cbn [shift_tuple with_border end_]. lia.
Qed.
Lemma compact_id s srt : jc s = 0 -> jv s = 0 -> compactify srt s = s.
Proof. intros J V. unfold compactify, drop_holes. rewrite J. cbn [Z.eqb]. unfold pack_data. rewrite V. reflexivity. Qed.
Definition shifted (s s' : st) : Prop := s' = s \/ exists d, moved s s' d.
Lemma rearrange_shifted s srt wi wd : TInv s -> jc s = 0 -> jv s = 0 -> shifted s (rearrange srt s wi wd).
Proof.
  intros T J V. unfold rearrange. rewrite compact_id by assumption. cbv zeta. destruct (_ =? 0); [left; reflexivity|].
  right. eexists. apply shift_moved. assumption.
Qed.

(** ** The space asked for is the space that is needed *)
(** operations that store a value *)
Definition storing (o : op) : bool :=
  match o with
  | OSet desc disc v => stores desc disc v
  | OAppend _ disc v => negb (negb disc && v_empty v)
  | OSlot _ disc v => negb (needed disc v =? 0)
  | _ => false
  end.
Definition op_units (o : op) : Z :=
  match o with
  | OSet desc _ v | OAppend desc _ v => new_units desc v
  | OSlot _ disc v => needed disc v
  | _ => 0
  end.
(** the value to be replaced has at most 2047 units (more do not fit into a hole) *)
Definition small (s : st) (o : op) : Prop :=
  match o with
  | OSet desc _ _ => match get s (KL desc) with Some p => Z.of_nat (length p) <= 2047 | None => True end
  | OSlot j _ _ => match get s (KP j) with Some p => Z.of_nat (length p) <= 2047 | None => True end
  | _ => True
  end.
Lemma value_len s r : stretchy_ref s r = true -> Z.of_nat (length (value s r)) = plen s r.
Proof.
  intros S. destruct (stretchy_not _ _ S) as [_ F]. unfold value. rewrite F, read_units_length.
  pose proof (plen_nonneg s r). lia.
Qed.
Lemma small_plen_loose s desc disc v k : small s (OSet desc disc v) -> lookup_gid s desc = Some k ->
  stretchy_ref s (RL k) = true -> rrel s (RL k) <> 0 -> plen s (RL k) <= 2047.
Proof.
  intros S L St R. cbn [small get] in S. unfold get_loose in S. rewrite L in S. cbn [rrel] in R.
  replace (rel (idx s k) =? 0) with false in S by lia. rewrite Bool.orb_true_r in S. rewrite value_len in S by assumption. exact S.
Qed.
Lemma small_plen_slot s j disc v : small s (OSlot j disc v) -> rrel s (RP j) <> 0 -> plen s (RP j) <= 2047.
Proof.
  intros S R. cbn [small get] in S. unfold get_slot in S. cbn [rrel] in R. replace (pre s j =? 0) with false in S by lia.
  rewrite value_len in S by reflexivity. exact S.
Qed.

Lemma calm_ref_nojunk s r n : jv s = 0 -> 0 < n -> (rrel s r <> 0 -> plen s r <= 2047) -> calm_ref s r n = true.
Proof.
  intros V N Sm. unfold calm_ref, roomy. rewrite swap_slip_nojunk by assumption. replace (n =? 0) with false by lia.
  cbn [negb andb]. rewrite !Bool.orb_true_r.
  assert (E : (rrel s r =? 0) || (n =? plen s r) || negb (wide_slip s r (plen s r) n) = true).
  { destruct (rrel s r =? 0) eqn:R; [reflexivity|]. unfold wide_slip. rewrite V. cbn [Z.eqb orb].
    specialize (Sm ltac:(lia)). replace (2047 <? (if n >? plen s r then plen s r else plen s r - n)) with false
      by (destruct (n >? plen s r); lia). rewrite Bool.andb_false_r. apply Bool.orb_true_r. }
  rewrite E. destruct r; reflexivity.
Qed.
Lemma ref_enough s r disc v : TInv s -> live s r -> stretchy_ref s r = true -> stretchy_wf (rgenus s r) disc v ->
  needed disc v <> 0 -> (rrel s r <> 0 -> plen s r <= 2047) -> jc s = 0 -> jv s = 0 ->
  fst (ref_wants s r (needed disc v)) <= head_space s -> snd (ref_wants s r (needed disc v)) <= tail_space s ->
  exists s', assign_ref asis s r disc v = Ok tt s'.
Proof.
  intros T L St W N Sm J V WI WD.
  assert (N0 : 0 < needed disc v) by (destruct (needed_len disc v N) as [E _]; lia).
  assert (C : calm_ref s r (needed disc v) = true).
  { apply calm_ref_nojunk; assumption. }
  pose proof (assign_ref_step s r disc v T L St W C) as Q.
  destruct (assign_ref asis s r disc v) as [[] s'|s'|] eqn:E; [eauto| |contradiction]. exfalso.
  destruct Q as [-> Q]. unfold ref_wants in *. destruct (stretchy_not _ _ St) as [F1 _].
  unfold assign_ref in E. cbv zeta in E. destruct (rrel s r =? 0) eqn:R; cbn [negb] in E.
  - cbn [fst snd] in *. replace (needed disc v =? 0) with false in E by lia. unfold alloc_data, lookup_fit in E. rewrite J in E.
    cbn [Z.ltb Z.compare orb alloc_data_at] in E. unfold tail_alloc in E. replace (tail_space s <? needed disc v) with false in E by lia.
    cbn [bind] in E. discriminate.
  - replace (needed disc v =? 0) with false in * by lia.
    assert (Hp : brutto (rgenus s r) (dat s (raddr s r)) = plen s r) by (unfold plen; rewrite F1, R; reflexivity).
    rewrite Hp in *. unfold realloc_wants in *. rewrite V in *. cbn [Z.eqb] in *. cbv zeta in *.
    destruct (raddr s r + plen s r =? tail s) eqn:At; cbn [fst snd] in *.
    + destruct (needed disc v =? plen s r); [discriminate|]. unfold realloc_data in E. cbv zeta in E. rewrite V, At in E. cbn [Z.eqb] in E.
      assert (P : 0 < plen s r) by (apply (t_pos _ T); auto; lia).
      replace ((plen s r <? needed disc v) && (tail_space s <? needed disc v - plen s r)) with false in E by lia.
      cbn [bind] in E. discriminate.
    + destruct Q as [[Q _]|(_ & _ & Q)]; [unfold head_space in *; lia|]. rewrite At in Q. lia.
Qed.

Lemma new_enough s desc v : TInv s -> jc s = 0 -> 1 <= head_space s -> new_units desc v <= tail_space s -> no_slot_or_data s (new_units desc v) -> False.
Proof. intros T J WI WD [(_ & Q & _)|([Q _] & _)]; unfold head_space in *; lia. Qed.

Lemma wants_enough multi s o : TInv s -> valid multi s o -> storing o = true -> small s o -> jc s = 0 -> jv s = 0 ->
  fst (wants s o) <= head_space s -> snd (wants s o) <= tail_space s ->
  calm s o = true /\ exists s', run1 asis s o = Ok tt s'.
Proof.
  intros T V St Sm J Jv WI WD. destruct o as [desc disc v| |desc disc v| | |j disc v|]; cbn [storing valid] in *; try discriminate.
  - destruct V as (Hd & Hm & Hw). cbn [wants] in *.
    destruct (lookup_gid s desc) as [k|] eqn:Lk.
    + destruct (lookup_some _ _ _ Hd Lk) as [Hl Hg].
      destruct (fixed_genus (descriptor2genus desc)) eqn:Fx.
      * split; [cbn [calm]; rewrite Lk, Fx, St; reflexivity|]. cbn [run1]. rewrite Fx. unfold assign_fixed. rewrite Lk.
        unfold stores in St. rewrite Fx in St. apply Bool.negb_true_iff in St. rewrite St. cbn [void bind]. eexists. reflexivity.
      * assert (Sr : stretchy_ref s (RL k) = true) by (unfold stretchy_ref; cbn [rgenus]; unfold egenus; rewrite Hg, Fx; reflexivity).
        assert (N : needed disc v <> 0) by (unfold stores in St; rewrite Fx in St; lia).
        assert (Wf : stretchy_wf (rgenus s (RL k)) disc v).
        { cbn [rgenus]. unfold egenus. rewrite Hg. unfold wf_pay in Hw. rewrite Fx in Hw.
          destruct (is_inplaced_genus (descriptor2genus desc)) eqn:Ei; [apply inplaced_units in Ei; destruct Ei; congruence|]. exact Hw. }
        pose proof (fun R => small_plen_loose s desc disc v k Sm Lk Sr R) as Sm'.
        destruct (ref_enough s (RL k) disc v T Hl Sr Wf N Sm' J Jv WI WD) as (s' & E).
        split.
        -- cbn [calm]. rewrite Lk, Fx. destruct (needed_len disc v N) as [NE _]. apply calm_ref_nojunk; [assumption|lia|assumption].
        -- exists s'. cbn [run1]. rewrite Fx. unfold assign_stretchy. rewrite Lk. exact E.
    + pose proof (new_units_range desc v Hw) as Hu.
      assert (C : calm s (OSet desc disc v) = true).
      { cbn [calm]. rewrite Lk. unfold calm_new. rewrite no_holes_calm by assumption. apply Bool.orb_true_r. }
      split; [exact C|]. pose proof (set_step s desc disc v T Hd Hw C) as Q.
      destruct (run1 asis s (OSet desc disc v)) as [[] s'|s'|]; [eauto| |contradiction]. exfalso. destruct Q as [_ Q].
      unfold set_fails in Q. rewrite Lk in Q. cbn [fst snd] in *.
      apply (new_enough s desc v T J WI); [|exact Q]. unfold new_units. destruct (fixed_genus (descriptor2genus desc)) eqn:Fx; [exact WD|].
      unfold stores in St. rewrite Fx in St. destruct (needed_len disc v ltac:(lia)) as [E _]. lia.
  - destruct V as (Hd & Hm & Hw). cbn [wants fst snd] in *.
    pose proof (new_units_range desc v Hw) as Hu.
    assert (C : calm s (OAppend desc disc v) = true).
    { cbn [calm]. unfold calm_new. rewrite no_holes_calm by assumption. apply Bool.orb_true_r. }
    split; [exact C|]. pose proof (append_step s desc disc v T Hd Hw C) as Q. cbn [run1].
    destruct (append_loose asis s desc disc v) as [[k|] s'|s'|]; cbn [void bind]; [eauto|eauto| |contradiction]. exfalso.
    destruct Q as [_ Q]. apply (new_enough s desc v T J WI); [|exact Q]. unfold new_units. destruct (fixed_genus _); exact WD.
  - destruct V as (Hj & Hw). cbn [wants run1] in *.
    assert (N : needed disc v <> 0) by lia.
    pose proof (fun R => small_plen_slot s j disc v Sm R) as Sm'.
    destruct (ref_enough s (RP j) disc v T Hj eq_refl Hw N Sm' J Jv WI WD) as (s' & E). split; [|eauto].
    cbn [calm]. destruct (needed_len disc v N) as [NE _]. apply calm_ref_nojunk; [assumption|lia|assumption].
Qed.

Lemma wants_range s o : storing o = true -> 0 <= fst (wants s o) <= 1 /\ (snd (wants s o) = op_units o \/ exists desc disc v, o = OSet desc disc v /\ fixed_genus (descriptor2genus desc) = true).
Proof.
  assert (R : forall r n, n <> 0 -> 0 <= fst (ref_wants s r n) <= 1 /\ snd (ref_wants s r n) = n).
  { intros r n N. unfold ref_wants, realloc_wants. cbv zeta. replace (n =? 0) with false by lia.
    destruct (rrel s r =? 0); [cbn; lia|]. destruct (jv s =? 0); [destruct (_ =? tail s); cbn; lia|].
    destruct (lookup_adjacent s _ _); [|cbn; lia]. match goal with |- context [if ?b then _ else _] => destruct b end; cbn; lia. }
  intros St. destruct o as [desc disc v| |desc disc v| | |j disc v|]; cbn [storing wants op_units] in *; try discriminate.
  - unfold stores in St. unfold new_units. destruct (fixed_genus (descriptor2genus desc)) eqn:Fx.
    + split; [|right; eauto]. destruct (lookup_gid s desc) as [k|]; [|cbn; lia]. destruct (Z.eq_dec (needed disc v) 0) as [E|N]; [|apply R; assumption].
      rewrite E. unfold ref_wants. cbn [Z.eqb]. destruct (rrel s (RL k) =? 0); cbn; lia.
    + assert (N : needed disc v <> 0) by lia. destruct (needed_len disc v N) as [E _].
      destruct (lookup_gid s desc) as [k|]; [|cbn; split; [lia|left; lia]]. destruct (R (RL k) _ N). split; [assumption|left; lia].
  - cbn. split; [lia|left]. unfold new_units. destruct (fixed_genus _); reflexivity.
  - assert (N : needed disc v <> 0) by lia. destruct (R (RP j) _ N). auto.
Qed.
Lemma op_units_range multi s o : valid multi s o -> 0 <= op_units o < 65536.
Proof.
  destruct o as [desc disc v| |desc disc v| | |j disc v|]; cbn [valid op_units]; try lia.
  - intros (_ & _ & W). exact (new_units_range desc v W).
  - intros (_ & _ & W). exact (new_units_range desc v W).
  - intros (_ & [L _]). unfold needed. destruct (_ || _); lia.
Qed.
Lemma wants_thrown s o s' : storing o = true -> run1 asis s o = Throw s' ->
  0 <= fst (wants s o) <= 1 /\ snd (wants s o) = op_units o.
Proof.
  intros St R. destruct (wants_range s o St) as [A [B|(desc & disc & v & -> & Fx)]]; [auto|]. split; [exact A|].
  cbn [wants op_units]. unfold new_units. rewrite Fx. cbn [run1] in R. rewrite Fx in R. unfold assign_fixed in R.
  destruct (lookup_gid s desc) as [k|]; [|reflexivity]. cbn [storing] in St. unfold stores in St. rewrite Fx in St.
  apply Bool.negb_true_iff in St. rewrite St in R. cbn [void bind] in R. discriminate.
Qed.
Lemma scan_down_ext p f g n : (forall k, (k < n)%nat -> f k = g k) -> scan_down p f n = scan_down p g n.
Proof.
  induction n as [|n IH]; intros H; [reflexivity|]. cbn [scan_down]. rewrite (H n) by lia. rewrite IH by (intros; apply H; lia). reflexivity.
Qed.
Lemma shifted_wants multi s s' o : shifted s s' -> TInv s -> jv s = 0 -> valid multi s o -> storing o = true ->
  (exists s0, run1 asis s o = Throw s0) -> wants s' o = wants s o.
Proof.
  intros [->|[d M]] T V Va St [s0 Th]; [reflexivity|].
  assert (R : forall r n, live s r -> stretchy_ref s r = true -> ref_wants s' r n = ref_wants s r n).
  { intros r n L Sr. destruct (mv_ref s s' d M r L) as (R1 & R2 & _ & R4). unfold ref_wants, realloc_wants. rewrite R1, (m_jv _ _ _ M), V. cbn [Z.eqb].
    destruct (rrel s r =? 0) eqn:E; [reflexivity|]. destruct (n =? 0); [reflexivity|]. cbv zeta. 
    destruct (stretchy_not _ _ Sr) as [F1 _].
    assert (P : plen s r = brutto (rgenus s r) (dat s (raddr s r))) by (unfold plen; rewrite F1, E; reflexivity).
    assert (P' : plen s' r = brutto (rgenus s' r) (dat s' (raddr s' r))).
    { unfold plen. rewrite R1, E, R2. destruct r; [rewrite F1|]; reflexivity. }
    rewrite <- P, <- P', (mv_plen s s' d M T r L), R4, (m_tail _ _ _ M).
    replace (raddr s r + d + plen s r =? tail s + d) with (raddr s r + plen s r =? tail s) by lia. reflexivity. }
  destruct o as [desc disc v| |desc disc v| | |j disc v|]; cbn [storing valid wants] in *; try discriminate; try reflexivity.
  - assert (Lk : lookup_gid s' desc = lookup_gid s desc).
    { unfold lookup_gid. rewrite (m_cnt _ _ _ M). apply scan_down_ext. apply M. }
    rewrite Lk. destruct (lookup_gid s desc) as [k|] eqn:E; [|reflexivity]. destruct Va as (Hd & _).
    destruct (lookup_some _ _ _ Hd E) as [Hl Hg].
    destruct (fixed_genus (descriptor2genus desc)) eqn:Fx.
    + exfalso. cbn [run1] in Th. rewrite Fx in Th. unfold assign_fixed in Th. rewrite E in Th. unfold stores in St. rewrite Fx in St.
      apply Bool.negb_true_iff in St. rewrite St in Th. cbn [void bind] in Th. discriminate.
    + apply R; [assumption|]. unfold stretchy_ref. cbn [rgenus]. unfold egenus. rewrite Hg, Fx. reflexivity.
  - apply R; [apply Va|reflexivity].
Qed.
Lemma valid_alike multi s s' o : alike multi s s' -> storing o = true -> valid multi s o -> valid multi s' o.
Proof.
  intros A St V. destruct o as [desc disc v| |desc disc v| | |j disc v|]; cbn [storing valid] in *; try discriminate; auto.
  destruct V as [Hj W]. rewrite (a_nslots _ _ _ A), (a_stype _ _ _ A) by assumption. auto.
Qed.
Lemma u32_value_small (P : Z -> Prop) a b : u32_value a = u32_value b ->
  match a with Some p => P (Z.of_nat (length p)) | None => True end -> match b with Some p => P (Z.of_nat (length p)) | None => True end.
Proof.
  destruct a as [a|], b as [b|]; cbn; intros E H; try discriminate; auto.
  assert (length b = length a) as ->; [|assumption]. rewrite <- (map_length u32 b), <- (map_length u32 a). congruence.
Qed.
Lemma small_alike multi s s' o : alike multi s s' -> storing o = true -> valid multi s o -> small s o -> small s' o.
Proof.
  intros A St V Sm. destruct o as [desc disc v| |desc disc v| | |j disc v|]; cbn [storing valid small] in *; try discriminate; auto.
  - destruct V as (Hd & Hm & _). refine (u32_value_small (fun n => n <= 2047) (get s (KL desc)) _ _ Sm). symmetry. apply (a_get _ _ _ A). split; assumption.
  - destruct V as [Hj W]. refine (u32_value_small (fun n => n <= 2047) (get s (KP j)) _ _ Sm). symmetry. apply (a_get _ _ _ A). exact Hj.
Qed.

(** what a successful operation leaves, as seen from the tuple before it was rearranged *)
Record outcome_of (multi : Z -> bool) (s : st) (o : op) (s' : st) : Prop := {
  oc_inv : TInv s'; oc_uniq : uniq multi s';
  oc_get : forall k, single_key multi s k -> u32_value (get s' k) = u32_value (last_write k (get s k) [(o, true)]);
  oc_bag : forall desc, real_desc desc -> multi desc = true ->
    Permutation (map (map u32) (view s' desc)) (map (map u32) (bag_step desc (view s desc) o true None))
}.
Lemma stepped_outcome multi s s1 o s' : uniq multi s -> alike multi s s1 -> storing o = true -> stepped multi s1 s' o -> outcome_of multi s o s'.
Proof.
  intros U A St P. constructor; try apply P.
  - intros k K. cbn [last_write]. assert (K1 : single_key multi s1 k) by (destruct k; cbn in *; [|rewrite (a_nslots _ _ _ A)]; assumption).
    rewrite (p_get _ _ _ _ P) by assumption. destruct (wrote k o); [reflexivity|]. apply (a_get _ _ _ A). assumption.
  - intros desc D Hm. pose proof (p_bag _ _ _ _ P desc (view s1 desc) D Hm (Permutation_refl _)) as B.
    apply (Permutation_map (map u32)) in B. etransitivity; [exact B|].
    destruct o as [d disc v| |d disc v| | |j disc v|]; cbn [storing bag_step] in *; try discriminate; try (rewrite (a_view _ _ _ A) by assumption; reflexivity).
    destruct ((d =? desc) && negb (negb disc && v_empty v)); cbn [map]; rewrite (a_view _ _ _ A) by assumption; reflexivity.
Qed.
Lemma settled_none s : jc s = 0 -> jv s = 0 -> settled s.
Proof. intros J V. split; intros; contradiction. Qed.
Lemma manage_in_place srt borrow managed l d s wi wd : TInv s -> 0 <= wi <= 1 -> 0 <= wd < 65536 -> wi + wd <= jv s + jc s + unallocated s ->
  manage srt borrow managed l d s wi wd = Room (rearrange srt s wi wd).
Proof.
  intros T I D F. pose proof (head_base s T) as B. unfold manage. cbv zeta. unfold unallocated in *.
  replace (_ || _ || _) with false.
  2:{ symmetry. change max_fields with 8191. change max_tuple_bytes_netto with 262136. lia. }
  replace (wd + wi <=? _) with true by (unfold unallocated; lia). reflexivity.
Qed.
Lemma throws_same multi s o s' : TInv s -> uniq multi s -> valid multi s o -> calm s o = true -> run1 asis s o = Throw s' -> s' = s.
Proof. intros T U V C E. pose proof (step multi s o T U V C) as Q. rewrite E in Q. exact Q. Qed.

Lemma retry_S fuel mg s o : retry (S fuel) mg s o =
  match run1 asis s o with
  | Bad => None
  | Ok _ s' => Some (true, s')
  | Throw s' => match mg s' (fst (wants s' o)) (snd (wants s' o)) with
    | Room s2 => retry fuel mg s2 o | Failed s2 => Some (false, s2) | Wild => None end
  end.
Proof. cbn [retry]. destruct (run1 asis s o) as [a s'|s'|]; try reflexivity. destruct (wants s' o). reflexivity. Qed.
Lemma retry_ok fuel mg s o s' : run1 asis s o = Ok tt s' -> retry fuel mg s o = Some (true, s').
Proof. intros E. destruct fuel; cbn [retry]; rewrite E; reflexivity. Qed.

(** a compact tuple with enough room in total: at most one round *)
Lemma retry_compact multi srt borrow managed l d s o : TInv s -> uniq multi s -> valid multi s o -> storing o = true -> small s o ->
  sorter c_off srt -> jc s = 0 -> jv s = 0 -> op_units o + 1 <= unallocated s ->
  exists s', retry 1 (manage srt borrow managed l d) s o = Some (true, s') /\ outcome_of multi s o s'.
Proof.
  intros T U V St Sm SR J Jv F. pose proof (op_units_range multi s o V) as Hu.
  assert (C : calm s o = true).
  { destruct o as [desc disc v| |desc disc v| | |j disc v|]; cbn [storing valid calm op_units] in *; try discriminate.
    - destruct V as (Hd & Hm & Hw). destruct (lookup_gid s desc) as [k|] eqn:Lk; [|unfold calm_new; rewrite no_holes_calm by assumption; apply Bool.orb_true_r].
      destruct (fixed_genus _) eqn:Fx; [rewrite St; reflexivity|]. destruct (lookup_some _ _ _ Hd Lk) as [Hl Hg].
      assert (Sr : stretchy_ref s (RL k) = true) by (unfold stretchy_ref; cbn [rgenus]; unfold egenus; rewrite Hg, Fx; reflexivity).
      pose proof (fun R => small_plen_loose s desc disc v k Sm Lk Sr R) as Sm'.
      assert (N : needed disc v <> 0) by (unfold stores in St; rewrite Fx in St; lia).
      destruct (needed_len disc v N) as [NE _]. apply calm_ref_nojunk; [assumption|lia|assumption].
    - unfold calm_new. rewrite no_holes_calm by assumption. apply Bool.orb_true_r.
    - pose proof (fun R => small_plen_slot s j disc v Sm R) as Sm'.
      assert (N : needed disc v <> 0) by lia. destruct (needed_len disc v N) as [NE _].
      apply calm_ref_nojunk; [assumption|lia|assumption]. }
  pose proof (step multi s o T U V C) as Q. rewrite retry_S.
  destruct (run1 asis s o) as [[] s'|s'|] eqn:E; [| |contradiction].
  - exists s'. split; [reflexivity|]. eapply stepped_outcome; eauto using alike_refl.
  - subst s'. destruct (wants_thrown s o s St E) as [W1 W2].
    rewrite manage_in_place by (assumption || lia).
    destruct (rearrange_room multi s srt (fst (wants s o)) (snd (wants s o)) T SR (settled_none s J Jv)) as (R & _ & _); try lia.
    pose proof (rearrange_shifted s srt (fst (wants s o)) (snd (wants s o)) T J Jv) as Sh.
    set (s2 := rearrange srt s (fst (wants s o)) (snd (wants s o))) in *.
    pose proof (valid_alike _ _ _ _ (r_alike _ _ _ _ _ R) St V) as V2.
    assert (W : wants s2 o = wants s o) by (apply (shifted_wants multi); eauto).
    destruct (wants_enough multi s2 o (r_inv _ _ _ _ _ R) V2 St (small_alike _ _ _ _ (r_alike _ _ _ _ _ R) St V Sm) (r_jc _ _ _ _ _ R) (r_jv _ _ _ _ _ R)) as (C2 & s' & E2).
    + rewrite W. apply R.
    + rewrite W. apply R.
    + exists s'. split; [apply retry_ok; exact E2|]. pose proof (step multi s2 o (r_inv _ _ _ _ _ R) (a_uniq _ _ _ (r_alike _ _ _ _ _ R) U) V2 C2) as Q2.
      rewrite E2 in Q2. eapply stepped_outcome; eauto. apply R.
Qed.

Lemma retry_in_place multi srt borrow managed l d s o : TInv s -> uniq multi s -> valid multi s o -> calm s o = true -> storing o = true -> small s o ->
  sorter c_off srt -> settled s -> op_units o + 1 <= jv s + jc s + unallocated s ->
  exists s', retry 2 (manage srt borrow managed l d) s o = Some (true, s') /\ outcome_of multi s o s'.
Proof.
  intros T U V C St Sm SR Se F. pose proof (op_units_range multi s o V) as Hu.
  pose proof (step multi s o T U V C) as Q. rewrite retry_S.
  destruct (run1 asis s o) as [[] s'|s'|] eqn:E; [| |contradiction].
  - exists s'. split; [reflexivity|]. eapply stepped_outcome; eauto using alike_refl.
  - subst s'. destruct (wants_thrown s o s St E) as [W1 W2].
    rewrite manage_in_place by (assumption || lia).
    destruct (rearrange_room multi s srt (fst (wants s o)) (snd (wants s o)) T SR Se) as (R & _ & Un); try lia.
    set (s1 := rearrange srt s (fst (wants s o)) (snd (wants s o))) in *.
    pose proof (r_alike _ _ _ _ _ R) as A.
    destruct (retry_compact multi srt borrow managed l d s1 o (r_inv _ _ _ _ _ R) (a_uniq _ _ _ A U) (valid_alike _ _ _ _ A St V) St
                (small_alike _ _ _ _ A St V Sm) SR (r_jc _ _ _ _ _ R) (r_jv _ _ _ _ _ R) ltac:(lia)) as (s' & E' & O).
    exists s'. split; [exact E'|]. constructor; try apply O.
    + intros k K. assert (K1 : single_key multi s1 k) by (destruct k; cbn in *; [|rewrite (a_nslots _ _ _ A)]; assumption).
      rewrite (oc_get _ _ _ _ O) by assumption. cbn [last_write]. destruct (wrote k o); [reflexivity|]. apply (a_get _ _ _ A). assumption.
    + intros desc D Hm. etransitivity; [apply (oc_bag _ _ _ _ O); assumption|].
      destruct o as [d0 disc v| |d0 disc v| | |j disc v|]; cbn [storing bag_step] in *; try discriminate; try (rewrite (a_view _ _ _ A) by assumption; reflexivity).
      destruct ((d0 =? desc) && negb (negb disc && v_empty v)); cbn [map]; rewrite (a_view _ _ _ A) by assumption; reflexivity.
Qed.

(** ** A larger buffer *)
Definition lends (borrow : Z -> Z) : Prop := forall n, 0 < n <= buffer_limit -> n <= borrow n <= buffer_limit.
Lemma estimate_some items data pb : items <= max_fields -> 0 <= pb -> 0 <= data -> data + pb <= max_tuple_bytes_netto ->
  estimate items data pb false = Some (44 + items * 4 + ceil4 (data + pb)).
Proof.
  intros I P D F. unfold estimate. replace (pb >? max_tuple_bytes_netto) with false by lia.
  replace ((data >? max_tuple_bytes_netto - pb) || (items >? max_fields)) with false by lia. reflexivity.
Qed.
Lemma pick_scale_ok pb space : 0 <= pb <= max_tuple_bytes_netto -> forall n scale, (n + scale <= 5)%nat -> exists g, pick_scale n scale pb space = Some g /\ (g = space \/ (space <= g <= 294944)).
Proof.
  intros P. assert (B : forall k, (k < 5)%nat -> 0 <= nth k scale_bytes 0 <= max_tuple_bytes_netto /\ 0 <= nth k scale_items 0 <= max_fields).
  { intros k K. do 5 (destruct k as [|k]; [vm_compute; intuition discriminate|]). lia. }
  induction n as [|n IH]; intros scale F; cbn [pick_scale]; [eauto|].
  destruct (B scale ltac:(lia)) as [B1 B2]. unfold granulated. cbv zeta. rewrite estimate_some by lia.
  destruct (_ >=? space) eqn:E.
  - eexists. split; [reflexivity|]. right. unfold ceil4 in *. change max_tuple_bytes_netto with 262136 in *. change max_fields with 8191 in *. lia.
  - apply IH. lia.
Qed.
Lemma construct_some size items l d : 0 <= items <= max_fields -> 0 <= l_bytes l <= max_tuple_bytes_netto ->
  44 + items * 4 + ceil4 (l_bytes l) <= size <= buffer_limit ->
  construct size items l d = Some (fresh (Z.min 65534 ((size - 44) / 4)) items (l_units l) (l_n l) (l_off l) (l_type l) d).
Proof.
  intros I L F. unfold construct. rewrite estimate_some by lia. rewrite Z.add_0_l.
  replace ((44 + items * 4 + ceil4 (l_bytes l) >? size) || (size >? buffer_limit)) with false by (symmetry; lia).
  unfold max_tuple_units_netto, pure_tuple_size. rewrite Z.shiftr_div_pow2 by lia. change (2 ^ 2) with 4.
  unfold u32. change (2 ^ 32) with 4294967296. unfold buffer_limit, ceil4 in F. rewrite Z.mod_small by lia. reflexivity.
Qed.
Lemma units_of l : 0 <= l_bytes l -> 4 * l_units l = ceil4 (l_bytes l).
Proof. intros L. unfold l_units, bytes2units, ceil4. rewrite ?Z.shiftr_div_pow2 by lia. change (2 ^ 2) with 4. lia. Qed.

Lemma grow_room multi srt borrow l d s wi wd : TInv s -> layout_of s l -> lends borrow -> jc s = 0 -> jv s = 0 -> 0 <= wi -> 0 <= wd ->
  unallocated s < wi + wd -> tail s - head s + wi + wd < 65535 -> Z.of_nat (cnt s) + wi <= max_fields ->
  growth_data s wd + l_bytes l <= max_tuple_bytes_netto -> growth_index s wi + (tail s - pivot s) + wd <= 65534 ->
  exists s', manage srt borrow true l d s wi wd = Room s' /\ room multi s s' wi wd /\ moved s s' (growth_index s wi - pivot s).
Proof.
  intros T (L0 & L1 & L2 & L3) B J Jv I D Un Al Few Data Fit. pose proof (head_base s T) as HB.
  unfold manage. cbv zeta. change (max_fields) with 8191 in *.
  replace (_ || _ || _) with false by (symmetry; change max_tuple_bytes_netto with 262136; lia).
  replace (wd + wi <=? _) with false by (symmetry; lia).
  replace ((_ >=? 65535) || _) with false by (symmetry; unfold unallocated in *; lia).
  assert (GI : Z.of_nat (cnt s) + wi <= growth_index s wi <= 8191 /\ 0 <= growth_index s wi).
  { unfold growth_index. change max_fields with 8191. destruct ((wi >? head s) || (head s + head s <? pivot s)) eqn:E; lia. }
  assert (GD : 0 <= growth_data s wd /\ (growth_data s wd = 262136 \/ 4 * (tail s - pivot s + wd) <= growth_data s wd)).
  { unfold growth_data, tail_space. cbv zeta. change max_tuple_bytes_netto with 262136. destruct (wd >? end_ s - tail s) eqn:E; lia. }
  set (gi := growth_index s wi) in *. set (gd := growth_data s wd) in *. clearbody gi gd.
  change max_tuple_bytes_netto with 262136 in *.
  rewrite estimate_some by (change max_fields with 8191; change max_tuple_bytes_netto with 262136; lia).
  destruct (pick_scale_ok (l_bytes l) (44 + gi * 4 + ceil4 (gd + l_bytes l)) ltac:(change max_tuple_bytes_netto with 262136; lia) 5 0 ltac:(lia)) as (g & -> & G).
  assert (Gb : 44 + gi * 4 + ceil4 (gd + l_bytes l) <= g <= 294944) by (unfold ceil4 in *; lia).
  assert (Bg : g <= borrow g <= buffer_limit). { apply B. unfold ceil4, buffer_limit in *. lia. }
  unfold into_buffer. rewrite construct_some.
  2:{ change max_fields with 8191. lia. } 2:{ change max_tuple_bytes_netto with 262136. lia. }
  2:{ unfold ceil4, buffer_limit in *. lia. }
  pose proof (units_of l L0) as LU. set (ne := Z.min 65534 ((borrow g - 44) / 4)).
  assert (NE : gi + (tail s - pivot s) + wd <= ne <= 65534) by (unfold ne, ceil4 in *; lia).
  cbn [fresh pivot end_ jc jv pp nslots soff stype]. clearbody ne. clear Gb Bg G g.
  replace ((gi - Z.of_nat (cnt s) <? 0) || (ne <? gi + (tail s - pivot s))) with false by lia.
  eexists. split; [reflexivity|].
  match goal with |- room _ _ ?x _ _ /\ _ => set (s' := x) end.
  assert (M : moved s s' (gi - pivot s)).
  { constructor; unfold s'; cbn [idx cnt pre dat tail jc jv pivot pp nslots soff stype]; auto; try lia.
    - intros k Hk. replace (Nat.ltb k (cnt s)) with true; [reflexivity|]. symmetry. apply Nat.ltb_lt. assumption.
    - intros x Hx. replace ((gi - Z.of_nat (cnt s) <=? x + (gi - pivot s)) && (x + (gi - pivot s) <? gi + (tail s - pivot s))) with true by lia.
      do 2 f_equal. lia.
    - intros j Hj. apply L3. assumption.
    - intros j Hj. apply L3. assumption. }
  assert (T' : TInv s'). { apply (moved_inv s s' _ M T); rewrite ?(m_pivot _ _ _ M), ?(m_tail _ _ _ M); unfold s'; cbn [end_]; lia. }
  split; [|exact M]. constructor; auto.
  - unfold s', head_space. cbn [pivot cnt]. lia.
  - unfold s', tail_space. cbn [end_ tail]. lia.
  - eapply moved_alike; eassumption.
Qed.

Lemma retry_grows multi srt borrow l d s o : TInv s -> uniq multi s -> valid multi s o -> calm s o = true -> storing o = true -> small s o ->
  layout_of s l -> lends borrow -> jc s = 0 -> jv s = 0 -> 
  (exists s0, run1 asis s o = Throw s0) -> unallocated s < fst (wants s o) + op_units o ->
  tail s - head s + 1 + op_units o < 65535 -> Z.of_nat (cnt s) + 1 <= max_fields ->
  growth_data s (op_units o) + l_bytes l <= max_tuple_bytes_netto ->
  growth_index s (fst (wants s o)) + (tail s - pivot s) + op_units o <= 65534 ->
  exists s', retry 1 (manage srt borrow true l d) s o = Some (true, s') /\ outcome_of multi s o s'.
Proof.
  intros T U V C St Sm L B J Jv [s0 E] Un Al Few Data Fit. pose proof (op_units_range multi s o V) as Hu.
  assert (s0 = s) as -> by (eapply throws_same; eassumption).
  destruct (wants_thrown s o s St E) as [W1 W2].
  destruct (grow_room multi srt borrow l d s (fst (wants s o)) (op_units o) T L B J Jv ltac:(lia) ltac:(lia) ltac:(lia) ltac:(lia) ltac:(lia) Data Fit) as (s2 & Em & R & M).
  rewrite retry_S, E, W2, Em. pose proof (r_alike _ _ _ _ _ R) as A.
  pose proof (valid_alike _ _ _ _ A St V) as V2.
  assert (W : wants s2 o = wants s o) by (apply (shifted_wants multi); eauto; right; eauto).
  destruct (wants_enough multi s2 o (r_inv _ _ _ _ _ R) V2 St (small_alike _ _ _ _ A St V Sm) (r_jc _ _ _ _ _ R) (r_jv _ _ _ _ _ R)) as (C2 & s' & E2).
  - rewrite W. apply R.
  - rewrite W, W2. apply R.
  - exists s'. split; [apply retry_ok; exact E2|]. pose proof (step multi s2 o (r_inv _ _ _ _ _ R) (a_uniq _ _ _ A U) V2 C2) as Q2.
    rewrite E2 in Q2. eapply stepped_outcome; eauto.
Qed.

(** ** New tuples take what they were made for *)
(** an operation that adds one field *)
Definition adding (o : op) : bool :=
  match o with OSet _ _ _ | OAppend _ _ _ => storing o | _ => false end.
Definition set_descs (l : list op) : list Z := flat_map (fun o => match o with OSet desc _ _ => [desc] | _ => [] end) l.
Definition sum_units (l : list op) : Z := fold_right (fun o a => op_units o + a) 0 l.
Definition valid_new (multi : Z -> bool) (o : op) : Prop :=
  match o with
  | OSet desc disc v => real_desc desc /\ multi desc = false /\ wf_pay (descriptor2genus desc) (pay v)
  | OAppend desc disc v => real_desc desc /\ multi desc = true /\ wf_pay (descriptor2genus desc) (pay v)
  | _ => False
  end.
Lemma valid_new_ok multi s o : valid_new multi o -> valid multi s o.
Proof. destruct o; cbn; tauto. Qed.
Lemma alloc_exact s tag u k s' : jc s = 0 -> alloc_loose asis s tag u = Ok k s' -> 0 <= u ->
  cnt s' = S (cnt s) /\ tail s' = tail s + u /\ jc s' = 0 /\ jv s' = jv s /\ end_ s' = end_ s /\ pivot s' = pivot s /\ pp s' = pp s /\ nslots s' = nslots s.
Proof.
  intros J E U. unfold alloc_loose, index_alloc, lookup_fit in E. rewrite J in E. cbn [Z.gtb Z.compare Z.ltb orb] in E.
  destruct (u =? 0) eqn:Eu.
  - destruct (head_space s <? 1); cbn [bind] in E; [discriminate|]. injection E as <- <-. cbn. repeat split; auto; lia.
  - destruct (tail_space s <? u); [discriminate|]. destruct (head_space s <? 1); cbn [bind] in E; [discriminate|]. injection E as <- <-. cbn. auto 9.
Qed.
Record exact_step (s s' : st) (u : Z) : Prop := {
  x_cnt : cnt s' = S (cnt s); x_tail : tail s' = tail s + u; x_jc : jc s' = 0; x_jv : jv s' = jv s; x_end : end_ s' = end_ s;
  x_pivot : pivot s' = pivot s; x_pp : pp s' = pp s; x_nslots : nslots s' = nslots s
}.
Lemma write_fixed_exact s k v : cnt (write_fixed s k v) = cnt s /\ tail (write_fixed s k v) = tail s /\ jc (write_fixed s k v) = jc s /\ jv (write_fixed s k v) = jv s /\
  end_ (write_fixed s k v) = end_ s /\ pivot (write_fixed s k v) = pivot s /\ pp (write_fixed s k v) = pp s /\ nslots (write_fixed s k v) = nslots s.
Proof. unfold write_fixed. destruct (is_inplaced_genus _); cbn; auto 9. Qed.
Lemma adding_exact multi s o s' : valid_new multi o -> adding o = true -> jc s = 0 ->
  match o with OSet desc _ _ => lookup_gid s desc = None | _ => True end ->
  run1 asis s o = Ok tt s' -> exact_step s s' (op_units o).
Proof.
  intros V A J F E. pose proof (op_units_range multi s o (valid_new_ok multi s o V)) as Hu.
  destruct o as [desc disc v| |desc disc v| | | |]; cbn [adding storing] in A; try discriminate; cbn [run1 op_units] in *; unfold new_units in *.
  - unfold stores in A. destruct (fixed_genus (descriptor2genus desc)) eqn:Fx.
    + unfold assign_fixed in E. rewrite F in E. apply Bool.negb_true_iff in A. rewrite A in E.
      destruct (alloc_loose asis s desc _) as [k s1|s1|] eqn:El; cbn [void bind] in E; try discriminate. injection E as <-.
      destruct (alloc_exact _ _ _ _ _ J El ltac:(lia)) as (A1 & A2 & A3 & A4 & A5 & A6 & A7 & A8).
      destruct (write_fixed_exact s1 k (pay v)) as (B1 & B2 & B3 & B4 & B5 & B6 & B7 & B8). constructor; congruence.
    + unfold assign_stretchy in E. rewrite F in E. destruct (needed_len disc v ltac:(lia)) as [N _]. rewrite <- N in *.
      replace (needed disc v =? 0) with false in E by lia.
      destruct (alloc_loose asis s desc _) as [k s1|s1|] eqn:El; cbn [void bind] in E; try discriminate. injection E as <-.
      destruct (alloc_exact _ _ _ _ _ J El ltac:(lia)) as (A1 & A2 & A3 & A4 & A5 & A6 & A7 & A8). constructor; assumption.
  - apply Bool.negb_true_iff in A. unfold append_loose in E. rewrite A in E. cbv zeta in E. destruct (fixed_genus (descriptor2genus desc)) eqn:Fx.
    + destruct (alloc_loose asis s desc _) as [k s1|s1|] eqn:El; cbn [void bind] in E; try discriminate. injection E as <-.
      destruct (alloc_exact _ _ _ _ _ J El ltac:(lia)) as (A1 & A2 & A3 & A4 & A5 & A6 & A7 & A8).
      destruct (write_fixed_exact s1 k (pay v)) as (B1 & B2 & B3 & B4 & B5 & B6 & B7 & B8). constructor; congruence.
    + destruct (alloc_loose asis s desc _) as [k s1|s1|] eqn:El; cbn [void bind] in E; try discriminate. injection E as <-.
      destruct (alloc_exact _ _ _ _ _ J El ltac:(lia)) as (A1 & A2 & A3 & A4 & A5 & A6 & A7 & A8). constructor; assumption.
Qed.
Lemma lookup_view_nil s desc : real_desc desc -> view s desc = [] -> lookup_gid s desc = None.
Proof.
  intros D E. destruct (lookup_gid s desc) as [k|] eqn:L; [|reflexivity]. destruct (lookup_view s desc k L) as (l & E'). congruence.
Qed.
Definition op_desc (o : op) : Z := match o with OSet desc _ _ | OAppend desc _ _ => desc | _ => 0 end.
Lemma adding_other multi s o s' desc : TInv s -> valid_new multi o -> adding o = true -> calm s o = true ->
  match o with OSet desc _ _ => lookup_gid s desc = None | _ => True end -> run1 asis s o = Ok tt s' ->
  real_desc desc -> desc <> op_desc o -> view s' desc = view s desc.
Proof.
  intros T V A C F E D N. destruct o as [d0 disc v| |d0 disc v| | | |]; cbn [adding storing valid_new op_desc] in *; try discriminate.
  - destruct V as (Hd & Hm & Hw). pose proof (set_step s d0 disc v T Hd Hw C) as Q. rewrite E in Q. destruct Q as [_ Q].
    inversion Q as [St Lk E0|k s0 St Lk Nl Ef E0|k s0 St Lk Ef E0|k s0 St Lk Ef E0|k s0 St Lk Fx Ef E0]; subst; try congruence.
    eapply (effect_other s s' k _ d0 desc D Ef); auto. rewrite field_dead by assumption. exact I.
  - destruct V as (Hd & Hm & Hw). pose proof (append_step s d0 disc v T Hd Hw C) as Q. cbn [run1] in E.
    destruct (append_loose asis s d0 disc v) as [[k|] s1|s1|]; cbn [void bind] in E; try discriminate; injection E as <-.
    + destruct Q as (_ & _ & Nl & Ef). eapply (effect_other s s1 k _ d0 desc D Ef); auto. rewrite field_dead by assumption. exact I.
    + destruct Q as [_ ->]. reflexivity.
Qed.
Lemma sum_units_nonneg multi l : Forall (valid_new multi) l -> 0 <= sum_units l.
Proof.
  induction 1 as [|o l V _ IH]; cbn; [lia|]. pose proof (op_units_range multi (fresh 0 0 0 0 no_slots no_slots zeros) o (valid_new_ok _ _ _ V)). fold (sum_units l). lia.
Qed.

(** any sequence of additions that fits *)
Lemma additions_run multi l : forall s, TInv s -> uniq multi s -> jc s = 0 -> jv s = 0 -> Forall (valid_new multi) l -> forallb adding l = true ->
  NoDup (set_descs l) -> (forall desc, In desc (set_descs l) -> lookup_gid s desc = None) ->
  Z.of_nat (length l) <= head_space s -> sum_units l <= tail_space s ->
  exists s', calm_run multi s l /\ run asis s l = Some (map (fun _ => true) l, s') /\ cnt s' = (cnt s + length l)%nat /\ tail s' = tail s + sum_units l /\
    pivot s' = pivot s /\ pp s' = pp s /\ end_ s' = end_ s /\ jc s' = 0 /\ jv s' = 0 /\ nslots s' = nslots s.
Proof.
  induction l as [|o l IH]; intros s T U J Jv V A ND Fr H1 H2.
  - exists s. cbn. repeat split; auto; lia.
  - apply Forall_cons_iff in V. destruct V as [V Vl]. cbn [forallb] in A. apply andb_prop in A. destruct A as [A Al].
    cbn [sum_units fold_right] in H2. fold (sum_units l) in H2. pose proof (sum_units_nonneg multi l Vl) as Sn.
    pose proof (valid_new_ok multi s o V) as Vo. pose proof (op_units_range multi s o Vo) as Hu. cbn [length] in H1.
    assert (F0 : match o with OSet desc _ _ => lookup_gid s desc = None | _ => True end).
    { destruct o; auto. apply Fr. left. reflexivity. }
    assert (W : wants s o = (1, op_units o)).
    { destruct o as [d0 disc v| |d0 disc v| | | |]; cbn [adding storing valid_new wants op_units] in *; try discriminate; try contradiction; unfold new_units.
      - rewrite F0. unfold stores in A. destruct (fixed_genus _) eqn:Fx; [reflexivity|]. destruct (needed_len disc v ltac:(lia)) as [-> _]. reflexivity.
      - destruct (fixed_genus _); reflexivity. }
    assert (St : storing o = true) by (destruct o; cbn [adding storing] in *; assumption || discriminate).
    assert (Sm : small s o).
    { destruct o as [d0 disc v| |d0 disc v| | | |]; cbn [adding storing valid_new small get] in *; auto; try discriminate. unfold get_loose. rewrite F0. exact I. }
    destruct (wants_enough multi s o T Vo St Sm J Jv) as (C & s1 & E); rewrite ?W; cbn [fst snd]; try lia.
    pose proof (step multi s o T U Vo C) as Q. rewrite E in Q.
    destruct (adding_exact multi s o s1 V A J F0 E) as [X1 X2 X3 X4 X5 X6 X7 X8].
    destruct (IH s1) as (s' & Cr & R & Y1 & Y2 & Y3 & Y4 & Y5 & Y6 & Y7 & Y8); auto.
    + apply Q.
    + apply Q.
    + congruence.
    + destruct o; cbn [set_descs flat_map app] in ND; try exact ND. apply NoDup_cons_iff in ND. apply ND.
    + intros desc Hin.
      assert (D : real_desc desc).
      { unfold set_descs in Hin. apply in_flat_map in Hin. destruct Hin as (x & Hx & Hd). rewrite Forall_forall in Vl. specialize (Vl x Hx).
        destruct x; cbn in Hd; try contradiction. destruct Hd as [<-|[]]. apply Vl. }
      assert (Nd : desc <> op_desc o).
      { destruct o as [d0 disc v| |d0 disc v| | | |]; cbn [adding storing valid_new op_desc set_descs flat_map app] in *; try discriminate; try contradiction.
        - apply NoDup_cons_iff in ND. intros ->. apply ND. exact Hin.
        - intros ->. unfold set_descs in Hin. apply in_flat_map in Hin. destruct Hin as (x & Hx & Hd). rewrite Forall_forall in Vl. specialize (Vl x Hx).
          destruct x; cbn in Hd; try contradiction. destruct Hd as [->|[]]. cbn [valid_new] in Vl. destruct V as (_ & V & _), Vl as (_ & Vl & _). congruence. }
      apply lookup_view_nil; [exact D|]. rewrite (adding_other multi s o s1 desc T V A C F0 E D Nd). apply lookup_none. apply Fr.
      destruct o; cbn [set_descs flat_map app]; try exact Hin. right. exact Hin.
    + unfold head_space in *. rewrite X6, X1. lia.
    + unfold tail_space in *. rewrite X5, X2. lia.
    + exists s'. split; [cbn [calm_run]; rewrite E; auto|]. cbn [run map]. rewrite E, R. cbn [option_map fst snd length sum_units fold_right]. fold (sum_units l).
      repeat split; auto; try lia; congruence.
Qed.

Definition layout_ok (l : layout) : Prop :=
  0 <= l_bytes l /\ forall j, (j < l_n l)%nat -> 0 <= l_off l j < l_units l /\ 0 <= l_type l j < 4.
Lemma estimate_inv n b pb size : estimate n b pb false = Some size ->
  n <= max_fields /\ b + pb <= max_tuple_bytes_netto /\ pb <= max_tuple_bytes_netto /\ size = 44 + n * 4 + ceil4 (b + pb).
Proof.
  unfold estimate. destruct (pb >? max_tuple_bytes_netto) eqn:E1; [discriminate|].
  destruct ((b >? max_tuple_bytes_netto - pb) || (n >? max_fields)) eqn:E2; [discriminate|]. intros [= <-]. repeat split; try lia.
Qed.
Lemma constructed n b l d size : 0 <= n -> 0 <= b -> layout_ok l -> estimate n b (l_bytes l) false = Some size ->
  n + (b + l_bytes l + 3) / 4 <= 65534 ->
  exists s, construct size n l d = Some s /\ s = fresh (n + (b + l_bytes l + 3) / 4) n (l_units l) (l_n l) (l_off l) (l_type l) d /\
    fresh_ok (n + (b + l_bytes l + 3) / 4) n (l_units l) (l_n l) (l_off l) (l_type l).
Proof.
  intros N B [L0 L] E F. destruct (estimate_inv _ _ _ _ E) as (E1 & E2 & E3 & ->). pose proof (units_of l L0) as LU.
  rewrite construct_some; [|lia|lia|].
  2:{ unfold ceil4, buffer_limit. change max_tuple_bytes_netto with 262136 in *. change max_fields with 8191 in *. lia. }
  replace (Z.min 65534 ((44 + n * 4 + ceil4 (b + l_bytes l) - 44) / 4)) with (n + (b + l_bytes l + 3) / 4) by (unfold ceil4; lia).
  eexists. split; [reflexivity|]. split; [reflexivity|].
  constructor; auto.
  - unfold ceil4 in *. lia.
  - unfold ceil4 in *. lia.
  - intros j Hj. apply L. assumption.
  - intros j Hj. apply L. assumption.
Qed.
