(** * Proofs about the byte form of tuples *)
From Verif Require Import Base Tag TagProofs Hippeus HippeusProofs Scan Codec Gear GearBase GearSearch GearProofs
  Tuple TupleProofs Audit AuditProofs Image.
From Coq Require Import ZifyBool ZifyNat.
Ltac Zify.zify_post_hook ::= Z.div_mod_to_equations.

(** ** Bytes of units *)
Lemma bytes_of_mem A w : bytes_mem (bytes_of A w).
Proof. intros a. unfold bytes_of. apply Z.mod_pos_bound. lia. Qed.
Lemma bytes_of_at A w x i : 0 <= i < 4 -> bytes_of A w (A + 4 * x + i) = (w x / 2 ^ (8 * i)) mod 256.
Proof.
  intros H. unfold bytes_of. replace ((A + 4 * x + i - A) / 4) with x by lia. replace ((A + 4 * x + i - A) mod 4) with i by lia. reflexivity.
Qed.
Lemma half_lo A w x : half (bytes_of A w) (A + 4 * x) = w x mod 65536.
Proof.
  unfold half. rewrite <- (Z.add_0_r (A + 4 * x)) at 1. rewrite !bytes_of_at by lia.
  change (2 ^ (8 * 0)) with 1. change (2 ^ (8 * 1)) with 256. generalize (w x). intros z. clear. lia.
Qed.
Lemma half_hi A w x : half (bytes_of A w) (A + 4 * x + 2) = (w x / 65536) mod 65536.
Proof.
  unfold half. replace (A + 4 * x + 2 + 1) with (A + 4 * x + 3) by lia. rewrite !bytes_of_at by lia.
  change (2 ^ (8 * 2)) with 65536. change (2 ^ (8 * 3)) with 16777216. generalize (w x). intros z. clear. lia.
Qed.
Lemma word_at_bytes A w x : word_at (bytes_of A w) (A + 4 * x) = w x mod 4294967296.
Proof. unfold word_at. rewrite half_lo, half_hi. generalize (w x). intros z. clear. lia. Qed.
Lemma brutto_at_word A w x g : brutto_at (bytes_of A w) g (A + 4 * x) = brutto g (w x).
Proof.
  unfold brutto_at, brutto, stretchy_brutto_units, string_brutto_units, varbin_brutto_units, nested_brutto_units, property_brutto_units, string_is_tiny.
  assert (B0 : bytes_of A w (A + 4 * x) = byte_at (unit_bytes (w x)) 0).
  { rewrite <- (Z.add_0_r (A + 4 * x)). rewrite bytes_of_at by lia. unfold byte_at, unit_bytes. cbn [nth Z.to_nat].
    change (2 ^ (8 * 0)) with 1. rewrite Z.div_1_r. reflexivity. }
  assert (H1 : half (bytes_of A w) (A + 4 * x + 1) = u16_at (unit_bytes (w x)) 1).
  { unfold half, u16_at. replace (A + 4 * x + 1 + 1) with (A + 4 * x + 2) by lia. rewrite !bytes_of_at by lia. reflexivity. }
  assert (H0 : half (bytes_of A w) (A + 4 * x) = u16_at (unit_bytes (w x)) 0).
  { unfold half, u16_at. rewrite B0, bytes_of_at by lia. reflexivity. }
  rewrite B0, H0, H1. change tiny_threshold with 254. destruct (g =? 0); [reflexivity|].
  destruct (g =? 1); [reflexivity|]. destruct (g =? 2); reflexivity.
Qed.
Lemma brutto_mod g w : brutto g (w mod 4294967296) = brutto g w.
Proof.
  unfold brutto. f_equal. unfold unit_bytes. f_equal; [|f_equal; [|f_equal; [|f_equal]]]; clear; lia.
Qed.

(** ** Units of a tuple *)
Definition distinct_slots (s : st) : Prop := forall i j, (i < nslots s)%nat -> (j < nslots s)%nat -> soff s i = soff s j -> i = j.
Lemma slot_at_own s j : distinct_slots s -> (j < nslots s)%nat -> slot_at s (soff s j) = Some j.
Proof.
  intros D Hj. unfold slot_at. destruct (find _ _) as [i|] eqn:F.
  - apply find_some in F as [I E]. apply in_seq in I. f_equal. apply D; lia.
  - exfalso. pose proof (find_none _ _ F j) as N. cbv beta in N. rewrite in_seq in N. specialize (N ltac:(lia)). lia.
Qed.
Lemma word_entry s k : (k < cnt s)%nat -> word s (pivot s - 1 - Z.of_nat k) = rel (idx s k) + 65536 * gid (idx s k).
Proof.
  intros H. unfold word, head. replace ((pivot s - Z.of_nat (cnt s) <=? pivot s - 1 - Z.of_nat k) && (pivot s - 1 - Z.of_nat k <? pivot s)) with true by lia.
  replace (Z.to_nat (pivot s - 1 - (pivot s - 1 - Z.of_nat k))) with k by lia. reflexivity.
Qed.
Lemma word_data s x : 0 <= pp s -> base s <= x -> word s x = dat s x.
Proof.
  intros P H. unfold word. unfold base in *. replace ((head s <=? x) && (x <? pivot s)) with false by lia.
  replace ((pivot s <=? x) && (x <? pivot s + pp s)) with false by lia. reflexivity.
Qed.
Lemma word_slot s j : distinct_slots s -> (j < nslots s)%nat -> 0 <= soff s j < pp s -> 0 <= pre s j < 65536 ->
  word s (pivot s + soff s j) mod 65536 = pre s j.
Proof.
  intros D Hj Ho Hp. unfold word, base. replace ((head s <=? pivot s + soff s j) && (pivot s + soff s j <? pivot s)) with false by lia.
  replace ((pivot s <=? pivot s + soff s j) && (pivot s + soff s j <? pivot s + pp s)) with true by lia.
  replace (pivot s + soff s j - pivot s) with (soff s j) by lia. rewrite slot_at_own by assumption.
  generalize (u16 (dat s (pivot s + soff s j) / 65536)). intros z. lia.
Qed.

Lemma ind_shift a u x d : ind (a - d) u x = ind a u (x + d).
Proof. unfold ind. lia. Qed.
(** ** What the validator sees *)
Section Seen.
  Variables (A : Z) (s : st) (w : Z -> Z).
  Hypothesis T : TInv s.
  Hypothesis DS : distinct_slots s.
  Hypothesis HW : forall x, head s <= x < tail s -> w x = word s x.
  Let m := bytes_of A w.
  Let P := A + 4 * pivot s.

  Let acc := v_acc _ _ (t_inv _ T).
  Lemma seen_cfg : Z.of_nat (cnt s) <= pivot s /\ 0 <= pp s /\ base s <= tail s <= end_ s /\ end_ s <= 65534 /\ base s = pivot s + pp s.
  Proof. destruct (i_cfg _ _ _ _ _ _ acc). auto. Qed.
  Lemma seen_entry k : (k < cnt s)%nat -> e_rel m P k = rel (idx s k) /\ e_desc m P k = gid (idx s k).
  Proof.
    intros Hk. pose proof seen_cfg as C. destruct (i_ent _ _ _ _ _ _ acc k Hk) as (E1 & E2 & _).
    assert (EA : entry_addr P k = A + 4 * (pivot s - 1 - Z.of_nat k)) by (unfold entry_addr, P; lia).
    assert (EW : w (pivot s - 1 - Z.of_nat k) = rel (idx s k) + 65536 * gid (idx s k)).
    { rewrite HW by (unfold head; lia). apply word_entry. assumption. }
    unfold e_rel, e_desc, m. rewrite EA, half_lo, half_hi, EW. clear - E1 E2. lia.
  Qed.
  Lemma seen_genus k : (k < cnt s)%nat -> e_genus m P k = egenus (idx s k).
  Proof. intros Hk. unfold e_genus, egenus. rewrite (proj2 (seen_entry k Hk)). reflexivity. Qed.
  Lemma seen_hole k : (k < cnt s)%nat -> e_hole m P k = is_hole (idx s k).
  Proof. intros Hk. unfold e_hole. rewrite seen_genus by assumption. reflexivity. Qed.
  Lemma seen_payload k : (k < cnt s)%nat -> e_payload m P k = A + 4 * addr s k.
  Proof. intros Hk. unfold e_payload. rewrite (proj1 (seen_entry k Hk)). unfold entry_addr, P, addr, own. lia. Qed.
  Lemma seen_start k : (k < cnt s)%nat -> e_start m P k = addr s k - pivot s.
  Proof. intros Hk. unfold e_start. rewrite (proj1 (seen_entry k Hk)). unfold addr, own. lia. Qed.
  Lemma seen_units k : (k < cnt s)%nat -> e_units m P k = len s (plen s) k.
  Proof.
    intros Hk. pose proof seen_cfg as C. unfold e_units. rewrite seen_genus, (proj2 (seen_entry k Hk)), (proj1 (seen_entry k Hk)), seen_payload by assumption.
    assert (EH : (egenus (idx s k) =? g_hole) = is_hole (idx s k)) by reflexivity. rewrite EH. unfold len.
    destruct (is_inplaced_genus (egenus (idx s k))) eqn:EI.
    - destruct (inplaced_units _ EI) as [U F]. replace (is_hole (idx s k)) with false.
      + unfold plen. cbn [rgenus]. rewrite F, U. reflexivity.
      + rewrite <- EH. unfold is_inplaced_genus in EI. change g_hole with 31. change g_i8 with 4 in EI. change g_u8 with 5 in EI. change g_i16 with 6 in EI. change g_u16 with 7 in EI. lia.
    - destruct (is_hole (idx s k)) eqn:Eh; [reflexivity|]. unfold plen. cbn [rgenus rrel].
      change g_property with 3. replace (egenus (idx s k) >? 3) with (fixed_genus (egenus (idx s k))) by (unfold fixed_genus; lia).
      destruct (fixed_genus (egenus (idx s k))) eqn:EF; [reflexivity|]. destruct (rel (idx s k) =? 0) eqn:ER; [reflexivity|].
      unfold m. rewrite brutto_at_word. f_equal. cbn [raddr rown rrel].
      assert (L : live s (RL k)) by (split; assumption).
      assert (Pos : 0 < plen s (RL k)). { apply (t_pos _ T); [assumption| |cbn [rrel]; lia]. cbn [stretchy_ref rgenus]. rewrite EF. reflexivity. }
      destruct (live_bounds s (plen s) acc (RL k) L Pos) as [B1 B2]. change (raddr s (RL k)) with (addr s k) in *. unfold base in *.
      rewrite HW by (unfold head; lia). apply word_data; [lia|unfold base; lia].
  Qed.
  Lemma seen_slot j : (j < nslots s)%nat -> t_rel m P (stype s j, 4 * soff s j) = pre s j.
  Proof.
    intros Hj. pose proof seen_cfg as C. pose proof (c_soff _ (i_cfg _ _ _ _ _ _ acc) j Hj) as O. pose proof (i_pre _ _ _ _ _ _ acc j Hj) as R.
    unfold t_rel, m, P. cbn [snd]. replace (A + 4 * pivot s + 4 * soff s j) with (A + 4 * (pivot s + soff s j)) by lia.
    rewrite half_lo, HW by (unfold head; lia). apply word_slot; assumption.
  Qed.
  Lemma seen_slot_payload j : (j < nslots s)%nat -> t_payload m P (stype s j, 4 * soff s j) = A + 4 * raddr s (RP j).
  Proof. intros Hj. unfold t_payload. rewrite seen_slot by assumption. cbn [snd]. unfold P, raddr. cbn [rown rrel]. lia. Qed.
  Lemma seen_slot_units j : (j < nslots s)%nat -> t_units m P (stype s j, 4 * soff s j) = plen s (RP j).
  Proof.
    intros Hj. pose proof seen_cfg as C. unfold t_units. rewrite seen_slot, seen_slot_payload by assumption. cbn [fst].
    pose proof (t_slot _ T j Hj). replace (stype s j >? g_property) with false by (change g_property with 3; lia).
    unfold plen. cbn [rgenus rrel]. destruct (pre s j =? 0) eqn:E; [reflexivity|]. unfold m. rewrite brutto_at_word. f_equal.
    assert (Pos : 0 < plen s (RP j)). { apply (t_pos _ T); [exact Hj|reflexivity|cbn [rrel]; lia]. }
    destruct (live_bounds s (plen s) acc (RP j) Hj Pos) as [B1 B2]. unfold base in *.
    rewrite HW by (unfold head; lia). apply word_data; [lia|unfold base; lia].
  Qed.
  Lemma seen_slot_start j : (j < nslots s)%nat -> t_start m P (stype s j, 4 * soff s j) = raddr s (RP j) - pivot s.
  Proof. intros Hj. unfold t_start. rewrite seen_slot_payload by assumption. unfold P. generalize (raddr s (RP j)). intros r. lia. Qed.

  Lemma seen_cover n x : (n <= cnt s)%nat -> cover_upto m P n x = sumn n (fun k => ind (addr s k) (len s (plen s) k) (x + pivot s)).
  Proof.
    intros Hn. unfold cover_upto. apply sumn_ext. intros k Hk. rewrite seen_start, seen_units by lia. apply ind_shift.
  Qed.
  Lemma seen_holes : holes_upto m P (cnt s) = jc s.
  Proof.
    unfold holes_upto. rewrite (sumn_ext _ _ (hcount s)).
    - pose proof (i_jc _ _ _ _ _ _ acc). lia.
    - intros k Hk. rewrite seen_hole by assumption. reflexivity.
  Qed.
  Lemma seen_volume : volume_upto m P (cnt s) = jv s.
  Proof.
    unfold volume_upto. rewrite (sumn_ext _ _ (hvol s)).
    - pose proof (i_jv _ _ _ _ _ _ acc). lia.
    - intros k Hk. rewrite seen_hole, seen_units by assumption. unfold hvol, len. destruct (is_hole (idx s k)); reflexivity.
  Qed.
End Seen.

(** ** The validator accepts what is laid out properly *)
Lemma check_loose_complete m au pivot pe k : bytes_mem m -> wf (-1) (amap au) -> nonempty (amap au) -> pe - pivot <= 4 * 65535 ->
  (e_hole m pivot k = true -> e_units m pivot k = 0 -> e_rel m pivot k = 0) ->
  (e_genus m pivot k <= g_property -> e_rel m pivot k <> 0 -> 0 < e_units m pivot k) ->
  (0 < e_units m pivot k -> 0 < e_rel m pivot k /\ pivot <= e_payload m pivot k /\ e_payload m pivot k + 4 * e_units m pivot k <= pe /\
     forall x, 0 < ind (e_start m pivot k) (e_units m pivot k) x -> AuditProofs.cov (amap au) x = 0) ->
  exists au' t, check_loose m au (entry_addr pivot k) pivot pe = (t, Good au') /\ nonempty (amap au').
Proof.
  intros Hm W N Hp H1 H2 H3.
  assert (CC : 0 < e_units m pivot k -> exists l', check_chunk (amap au) (e_payload m pivot k) (e_units m pivot k) pivot pe = ([], Good l') /\ nonempty l').
  { intros U. destruct (H3 U) as (_ & B1 & B2 & B3). apply check_chunk_complete; try assumption.
    intros x. rewrite e_start_addr. apply B3. }
  pose proof (genus_range m (entry_addr pivot k + 2) Hm) as GR. fold (e_desc m pivot k) in GR. fold (e_genus m pivot k) in GR.
  unfold check_loose.
  fold (e_desc m pivot k). fold (e_genus m pivot k). fold (e_rel m pivot k). fold (e_payload m pivot k).
  unfold e_hole in H1.
  destruct (is_inplaced_genus (e_genus m pivot k)) eqn:EI.
  { eexists _, _. split; [reflexivity|assumption]. }
  destruct (e_genus m pivot k =? g_hole) eqn:EH.
  { assert (EU : e_units m pivot k = descriptor2id (e_desc m pivot k)) by (unfold e_units; rewrite EI, EH; reflexivity).
    rewrite <- EU. destruct (e_units m pivot k =? 0) eqn:E0.
    - rewrite H1 by (reflexivity || lia). cbn. eexists _, _. split; [reflexivity|exact N].
    - pose proof (e_units_range m pivot k Hm) as UR. destruct (CC ltac:(lia)) as (l' & C1 & C2). destruct (H3 ltac:(lia)) as (R & _).
      replace (e_rel m pivot k >? 0) with true by lia. cbn [negb amap]. rewrite C1. eexists _, _. split; [reflexivity|exact C2]. }
  destruct (e_genus m pivot k >? g_property) eqn:EF.
  { assert (EU : e_units m pivot k = loose_units (e_genus m pivot k)) by (unfold e_units; rewrite EI, EH, EF; reflexivity).
    assert (U : 0 < e_units m pivot k). { rewrite EU. apply loose_units_pos; [change g_hole with 31 in EH; change g_property with 3 in EF; lia|assumption]. }
    rewrite <- EU. destruct (CC U) as (l' & C1 & C2). destruct (H3 U) as (R & _).
    replace (e_rel m pivot k >? 0) with true by lia. cbn [negb]. rewrite C1. eexists _, _. split; [reflexivity|exact C2]. }
  destruct (e_rel m pivot k >? 0) eqn:ER.
  - assert (EU : e_units m pivot k = brutto_at m (e_genus m pivot k) (e_payload m pivot k)).
    { unfold e_units. rewrite EI, EH, EF. replace (e_rel m pivot k =? 0) with false by lia. reflexivity. }
    rewrite <- EU. assert (U : 0 < e_units m pivot k) by (apply H2; lia).
    destruct (CC U) as (l' & C1 & C2). rewrite C1. eexists _, _. split; [reflexivity|exact C2].
  - eexists _, _. split; [reflexivity|assumption].
Qed.
Lemma check_index_complete m pivot pe n : bytes_mem m -> pe - pivot <= 4 * 65535 ->
  (forall k, (k < n)%nat -> 
    (e_hole m pivot k = true -> e_units m pivot k = 0 -> e_rel m pivot k = 0) /\
    (e_genus m pivot k <= g_property -> e_rel m pivot k <> 0 -> 0 < e_units m pivot k) /\
    (0 < e_units m pivot k -> 0 < e_rel m pivot k /\ pivot <= e_payload m pivot k /\ e_payload m pivot k + 4 * e_units m pivot k <= pe /\
       forall x, 0 < ind (e_start m pivot k) (e_units m pivot k) x -> cover_upto m pivot k x = 0)) ->
  exists au t, check_index m pivot pe n = (t, Good au) /\ nonempty (amap au).
Proof.
  intros Hm Hp. induction n as [|n IH]; intros H.
  - eexists _, _. split; [reflexivity|constructor].
  - destruct IH as (au & t & E & N); [intros k Hk; apply H; lia|].
    destruct (check_index_sound m pivot pe n au Hm Hp ltac:(rewrite E; reflexivity)) as (W & C & _).
    destruct (H n ltac:(lia)) as (H1 & H2 & H3).
    destruct (check_loose_complete m au pivot pe n Hm W N Hp H1 H2) as (au' & t' & E' & N').
    { intros U. destruct (H3 U) as (B0 & B1 & B2 & B3). repeat split; try assumption. intros x Hx. rewrite C. apply B3. assumption. }
    exists au', (t ++ t'). split; [|exact N']. cbn [check_index]. rewrite E. cbn [bindc after]. rewrite E'. reflexivity.
Qed.
Lemma check_preplaced_complete m pivot pe toks : forall l, bytes_mem m -> wf (-1) l -> nonempty l -> pe - pivot <= 4 * 65535 ->
  (forall t, In t toks -> t_rel m pivot t <> 0 -> fst t <= g_property -> 0 < t_units m pivot t /\ pivot <= t_payload m pivot t /\ t_payload m pivot t + 4 * t_units m pivot t <= pe) ->
  (forall x, AuditProofs.cov l x + cover_toks m pivot toks x <= 1) ->
  exists l' t, check_preplaced m l pivot pe toks = (t, Good l') /\ nonempty l'.
Proof.
  induction toks as [|[g off] toks IH]; intros l Hm W N Hp H C.
  - eexists _, _. split; [reflexivity|assumption].
  - cbn [check_preplaced]. cbn [cover_toks] in C. destruct (g >? g_property) eqn:EG.
    { apply IH; try assumption; [intros t I; apply H; right; assumption|]. intros x. specialize (C x).
      pose proof (ind_range (t_start m pivot (g, off)) (t_units m pivot (g, off)) x). lia. }
    fold (t_rel m pivot (g, off)). change (half m (pivot + off)) with (t_rel m pivot (g, off)).
    change (pivot + off + 4 * t_rel m pivot (g, off)) with (t_payload m pivot (g, off)).
    pose proof (half_range m (pivot + off) Hm) as RR. change (half m (pivot + off)) with (t_rel m pivot (g, off)) in RR.
    destruct (t_rel m pivot (g, off) >? 0) eqn:ER; cbn [negb].
    + destruct (H (g, off) ltac:(left; reflexivity) ltac:(lia) ltac:(cbn [fst]; lia)) as (U & B1 & B2).
      assert (EU : brutto_at m g (t_payload m pivot (g, off)) = t_units m pivot (g, off)).
      { unfold t_units. cbn [fst]. rewrite EG. replace (t_rel m pivot (g, off) =? 0) with false by lia. reflexivity. }
      rewrite EU.
      assert (CT : forall x, 0 <= cover_toks m pivot toks x).
      { clear. induction toks as [|t toks IH]; intros x; cbn [cover_toks]; [lia|]. pose proof (ind_range (t_start m pivot t) (t_units m pivot t) x). specialize (IH x). lia. }
      destruct (check_chunk_complete l (t_payload m pivot (g, off)) (t_units m pivot (g, off)) pivot pe W N U Hp B1 B2) as (l' & E & N').
      { intros x Hx. fold (t_start m pivot (g, off)) in Hx. specialize (C x). specialize (CT x). pose proof (proj1 (cov_range l (-1) x W)). lia. }
      assert (E' : snd (check_chunk l (t_payload m pivot (g, off)) (t_units m pivot (g, off)) pivot pe) = Good l') by (rewrite E; reflexivity).
      assert (U0 : 0 <= t_units m pivot (g, off)) by lia.
      destruct (check_chunk_sound l _ _ _ _ l' W U0 Hp E') as (_ & _ & W' & C').
      destruct (IH l' Hm W' N' Hp) as (l2 & t2 & E2 & N2).
      * intros t I. apply H. right. assumption.
      * intros x. rewrite C'. fold (t_start m pivot (g, off)). specialize (C x). lia.
      * rewrite E. cbn [bindc after fst snd app]. rewrite E2. eexists _, _. split; [reflexivity|exact N2].
    + destruct (IH l Hm W N Hp) as (l2 & t2 & E2 & N2).
      * intros t I. apply H. right. assumption.
      * intros x. specialize (C x). pose proof (ind_range (t_start m pivot (g, off)) (t_units m pivot (g, off)) x). lia.
      * rewrite E2. eexists _, _. split; [reflexivity|exact N2].
Qed.

(** ** Holes that do not touch *)
Lemma map_insert_apart l b e : (forall f t, In (f, t) l -> t < b \/ e < f) -> b < e -> (forall f t, In (f, t) l -> f < t) ->
  exists l', map_insert l b e = Some l' /\ length l' = S (length l) /\ forall p, In p l' <-> p = (b, e) \/ In p l.
Proof.
  intros H Hbe HN. unfold map_insert.
  assert (U : forall l bf, let (bf', af) := ub e bf l in rev bf' ++ af = rev bf ++ l /\ 
     ((forall p, In p bf -> fst p <= e) -> forall p, In p bf' -> fst p <= e)).
  { clear. induction l as [|[f t] l IH]; intros bf; cbn [ub]; [split; [reflexivity|auto]|].
    destruct (e <? f) eqn:E; [split; [reflexivity|auto]|]. specialize (IH ((f, t) :: bf)). destruct (ub e ((f, t) :: bf) l) as [bf' af].
    destruct IH as [I1 I2]. cbn [rev] in I1. rewrite <- app_assoc in I1. split; [exact I1|]. intros Q. apply I2. intros p [<-|I]; [cbn; lia|auto]. }
  specialize (U l []). destruct (ub e [] l) as [bf af]. destruct U as [U1 U2]. cbn [rev app] in U1. specialize (U2 ltac:(intros p [])).
  destruct bf as [|[hb he] prevs].
  - cbn [rev app] in U1. subst af. eexists. split; [reflexivity|]. split; [reflexivity|]. intros p. cbn [In]. intuition auto.
  - assert (I : In (hb, he) l). { rewrite <- U1. apply in_or_app. left. apply in_rev. rewrite rev_involutive. left. reflexivity. }
    assert (F : hb <= e) by (apply (U2 (hb, he)); left; reflexivity).
    destruct (H hb he I) as [G|G]; [|lia]. replace (he <? b) with true by lia. eexists. split; [reflexivity|].
    split. { rewrite <- U1, !app_length. cbn [length]. lia. }
    intros p. rewrite <- U1, !in_app_iff. cbn [In]. intuition auto.
Qed.
Lemma check_adjacent_complete m pivot n : bytes_mem m ->
  (forall k, (k < n)%nat -> e_hole m pivot k = true -> 0 < e_units m pivot k ->
     0 <= e_start m pivot k /\ e_start m pivot k + e_units m pivot k <= 65535 /\
     forall i, (i < k)%nat -> e_hole m pivot i = true -> 0 < e_units m pivot i ->
       e_start m pivot i + e_units m pivot i < e_start m pivot k \/ e_start m pivot k + e_units m pivot k < e_start m pivot i) ->
  exists l c t, check_adjacent m pivot n = (t, Good (l, c)) /\ c = Z.of_nat (length l) /\
    forall f g, In (f, g) l -> f < g /\ exists i, (i < n)%nat /\ e_hole m pivot i = true /\ 0 < e_units m pivot i /\ f = e_start m pivot i /\ g = e_start m pivot i + e_units m pivot i.
Proof.
  intros Hm. induction n as [|n IH]; intros H.
  - eexists _, _, _. split; [reflexivity|]. split; [reflexivity|]. intros f g [].
  - destruct IH as (l & c & t & E & EC & EL); [intros k Hk; apply H; lia|]. cbn [check_adjacent]. rewrite E. cbn [bindc].
    fold (e_desc m pivot n). fold (e_genus m pivot n). change (e_genus m pivot n =? g_hole) with (e_hole m pivot n).
    destruct (e_hole m pivot n) eqn:EH; cbn [negb orb].
    + assert (EU : e_units m pivot n = descriptor2id (e_desc m pivot n)).
      { unfold e_hole in EH. unfold e_units. rewrite EH. destruct (is_inplaced_genus (e_genus m pivot n)) eqn:EI; [|reflexivity].
        unfold is_inplaced_genus in EI. change g_hole with 31 in EH. change g_i8 with 4 in EI. change g_u8 with 5 in EI. change g_i16 with 6 in EI. change g_u16 with 7 in EI. lia. }
      rewrite <- EU. pose proof (e_units_range m pivot n Hm). destruct (e_units m pivot n =? 0) eqn:E0.
      * eexists _, _, _. split; [reflexivity|]. split; [exact EC|]. intros f g I. destruct (EL f g I) as (Q & i & Hi & R). split; [exact Q|]. exists i. split; [lia|exact R].
      * fold (e_rel m pivot n). fold (e_payload m pivot n). rewrite e_start_addr.
        destruct (H n ltac:(lia) EH ltac:(lia)) as (B1 & B2 & B3).
        replace (negb ((e_start m pivot n <? e_start m pivot n + e_units m pivot n) && (0 <=? e_start m pivot n) && (e_start m pivot n <=? 65535) && (e_start m pivot n + e_units m pivot n <=? 65535))) with false by lia.
        destruct (map_insert_apart l (e_start m pivot n) (e_start m pivot n + e_units m pivot n)) as (l' & I1 & I2 & I3).
        { intros f g I. destruct (EL f g I) as (Q & i & Hi & R1 & R2 & -> & ->). apply B3; assumption. }
        { lia. }
        { intros f g I. apply (EL f g I). }
        rewrite I1. replace (c + 1 =? Z.of_nat (length l')) with true by lia.
        eexists _, _, _. split; [reflexivity|]. split; [lia|]. intros f g I. apply I3 in I as [E1|I].
        -- injection E1 as -> ->. split; [lia|]. exists n. repeat split; [lia|assumption|lia].
        -- destruct (EL f g I) as (Q & i & Hi & R). split; [exact Q|]. exists i. split; [lia|exact R].
    + eexists _, _, _. split; [reflexivity|]. split; [exact EC|]. intros f g I. destruct (EL f g I) as (Q & i & Hi & R). split; [exact Q|]. exists i. split; [lia|exact R].
Qed.

(** ** Acceptance *)
(** the schema the tuple was made with, as the validator sees it *)
Definition schema_of (s : st) (schema : option sch) : Prop :=
  match schema with
  | None => pp s = 0
  | Some sc => 0 <= sbytes sc /\ bytes2units (sbytes sc) = pp s /\
      filter (fun t => negb (fst t >? g_property)) (stoks sc) = map (fun j => (stype s j, 4 * soff s j)) (seq 0 (nslots s))
  end.
Lemma cover_toks_filter m P x : forall toks, cover_toks m P toks x = cover_toks m P (filter (fun t => negb (fst t >? g_property)) toks) x.
Proof.
  induction toks as [|t toks IH]; [reflexivity|]. cbn [cover_toks filter]. unfold t_units at 1. destruct (fst t >? g_property) eqn:E; cbn [negb].
  - rewrite ind_0 by lia. exact IH.
  - cbn [cover_toks]. rewrite IH. unfold t_units at 1. rewrite E. reflexivity.
Qed.
Lemma cover_toks_sum m P x f : forall n, cover_toks m P (map f (seq 0 n)) x = sumn n (fun j => ind (t_start m P (f j)) (t_units m P (f j)) x).
Proof.
  assert (G : forall l l', cover_toks m P (l ++ l') x = cover_toks m P l x + cover_toks m P l' x).
  { induction l as [|t l IH]; intros l'; cbn [app cover_toks]; [reflexivity|]. rewrite IH. lia. }
  induction n as [|n IH]; [reflexivity|]. rewrite seq_S, map_app, G, Nat.add_0_l. cbn [sumn map cover_toks]. rewrite IH. lia.
Qed.

Lemma nst_of s schema : TInv s -> schema_of s schema -> match schema with Some sc => nstretchy sc | None => 0 end = Z.of_nat (nslots s).
Proof.
  intros T SO. destruct schema as [sc|].
  - destruct SO as (_ & _ & S3). unfold nstretchy. rewrite S3, map_length, seq_length. reflexivity.
  - cbn [schema_of] in SO. destruct (nslots s) as [|n] eqn:En; [reflexivity|].
    pose proof (c_soff _ (i_cfg _ _ _ _ _ _ (v_acc _ _ (t_inv _ T))) 0%nat ltac:(lia)). lia.
Qed.

Section Accept.
  Variables (A : Z) (s : st) (w : Z -> Z) (schema : option sch).
  Hypothesis T : TInv s.
  Hypothesis DS : distinct_slots s.
  Hypothesis HW : forall x, head s <= x < tail s -> w x = word s x.
  Hypothesis SO : schema_of s schema.
  Hypothesis Few : Z.of_nat (cnt s) + Z.of_nat (nslots s) <= max_fields.
  Let m := bytes_of A w.
  Let P := A + 4 * pivot s.
  Let pe := A + 4 * tail s.
  Let acc := v_acc _ _ (t_inv _ T).

  Lemma acc_slots x : pbytes_of schema <> 0 -> cover_toks m P (toks_of schema) x = sumn (nslots s) (fun j => ind (raddr s (RP j)) (plen s (RP j)) (x + pivot s)).
  Proof.
    intros H. destruct schema as [sc|]; cbn [pbytes_of toks_of] in *; [|lia]. destruct SO as (S1 & S2 & S3).
    rewrite cover_toks_filter, S3, cover_toks_sum. apply sumn_ext. intros j Hj. unfold m, P.
    rewrite (seen_slot_start A s w T DS HW), (seen_slot_units A s w T DS HW) by assumption. apply ind_shift.
  Qed.
  Lemma acc_pp : pp s = bytes2units (pbytes_of schema) /\ 0 <= pbytes_of schema.
  Proof. destruct schema as [sc|]; cbn [pbytes_of schema_of] in *; [destruct SO as (S1 & S2 & _); split; [symmetry|]; assumption|rewrite SO; split; [reflexivity|lia]]. Qed.
  Lemma acc_noslots : pbytes_of schema = 0 -> nslots s = 0%nat.
  Proof.
    intros E. destruct acc_pp as [Q _]. rewrite E in Q. change (bytes2units 0) with 0 in Q.
    destruct (nslots s) as [|n] eqn:En; [reflexivity|]. pose proof (c_soff _ (i_cfg _ _ _ _ _ _ acc) 0%nat ltac:(lia)). lia.
  Qed.
  Lemma acc_total x : cover_upto m P (cnt s) x + (if pbytes_of schema =? 0 then 0 else cover_toks m P (toks_of schema) x)
    = ind (pp s) (tail s - pivot s - pp s) x.
  Proof.
    unfold m, P. rewrite (seen_cover A s w T HW) by lia. pose proof (i_cov _ _ _ _ _ _ acc (x + pivot s)) as C. unfold GearBase.cov, zero_d in C.
    replace (ind (pp s) (tail s - pivot s - pp s) x) with (ind (base s) (tail s - base s) (x + pivot s)) by (unfold base, ind; lia).
    destruct (pbytes_of schema =? 0) eqn:E.
    - rewrite acc_noslots in C by lia. cbn [sumn] in C. lia.
    - rewrite acc_slots by lia. lia.
  Qed.


  Lemma acc_entry k : (k < cnt s)%nat ->
    (e_hole m P k = true -> e_units m P k = 0 -> e_rel m P k = 0) /\
    (e_genus m P k <= g_property -> e_rel m P k <> 0 -> 0 < e_units m P k) /\
    (0 < e_units m P k -> 0 < e_rel m P k /\ P <= e_payload m P k /\ e_payload m P k + 4 * e_units m P k <= pe /\
       forall x, 0 < ind (e_start m P k) (e_units m P k) x -> cover_upto m P k x = 0).
  Proof.
    intros Hk. pose proof (seen_cfg s T) as C. unfold m, P.
    rewrite (seen_hole A s w T HW), (seen_units A s w T HW), (proj1 (seen_entry A s w T HW k Hk)), (seen_genus A s w T HW),
      (seen_payload A s w T HW), (seen_start A s w T HW) by assumption.
    destruct (i_ent _ _ _ _ _ _ acc k Hk) as (E1 & E2 & E3).
    split; [|split].
    - intros EH EU. apply E3; [exact EH|]. unfold len in EU. rewrite EH in EU. exact EU.
    - intros EG ER. unfold len. destruct (is_hole (idx s k)) eqn:EH.
      { unfold is_hole in EH. unfold egenus in EG. change g_property with 3 in EG. change g_hole with 31 in EH. lia. }
      apply (t_pos _ T); [split; assumption| |exact ER]. cbn [stretchy_ref rgenus]. unfold fixed_genus. change g_property with 3 in EG. lia.
    - intros U.
      assert (B : base s <= addr s k /\ addr s k + len s (plen s) k <= tail s).
      { unfold len in *. destruct (is_hole (idx s k)) eqn:EH.
        - pose proof (nzh_bounds s (plen s) acc k ltac:(split; [assumption|split; assumption])) as Q. unfold hole_begin, hole_end in Q. lia.
        - pose proof (live_bounds s (plen s) acc (RL k) ltac:(split; assumption) U) as Q. exact Q. }
      split; [unfold base, addr, own in *; lia|]. split; [unfold base in *; lia|]. split; [unfold pe; lia|].
      intros x Hx. rewrite (seen_cover A s w T HW) by lia. rewrite ind_shift in Hx.
      assert (Q := i_cov _ _ _ _ _ _ acc (x + pivot s)). unfold GearBase.cov, zero_d in Q.
      pose proof (ind_range (base s) (tail s - base s) (x + pivot s)).
      assert (N1 : 0 <= sumn (nslots s) (fun j => ind (raddr s (RP j)) (plen s (RP j)) (x + pivot s))) by (apply sumn_nonneg; intros j _; apply ind_range).
      assert (M : forall n k', (k < n)%nat -> (k' <= k)%nat -> sumn k' (fun k => ind (addr s k) (len s (plen s) k) (x + pivot s)) + ind (addr s k) (len s (plen s) k) (x + pivot s)
         <= sumn n (fun k => ind (addr s k) (len s (plen s) k) (x + pivot s))).
      { clear. intros n k' H1 H2. induction n as [|n IH]; [lia|]. cbn [sumn]. destruct (Nat.eq_dec k n) as [->|N].
        - assert (sumn k' (fun k => ind (addr s k) (len s (plen s) k) (x + pivot s)) <= sumn n (fun k => ind (addr s k) (len s (plen s) k) (x + pivot s))).
          { clear - H2. induction n as [|n IH]; [replace k' with 0%nat by lia; lia|]. destruct (Nat.eq_dec k' (S n)) as [->|N]; [lia|].
            cbn [sumn]. pose proof (ind_range (addr s n) (len s (plen s) n) (x + pivot s)). specialize (IH ltac:(lia)). lia. }
          lia.
        - pose proof (ind_range (addr s n) (len s (plen s) n) (x + pivot s)). specialize (IH ltac:(lia)). lia. }
      specialize (M (cnt s) k Hk ltac:(lia)).
      pose proof (ind_range (addr s k) (len s (plen s) k) (x + pivot s)).
      assert (0 <= sumn k (fun k => ind (addr s k) (len s (plen s) k) (x + pivot s))) by (apply sumn_nonneg; intros j _; apply ind_range).
      lia.
  Qed.
  Lemma acc_tok t : In t (toks_of schema) -> t_rel m P t <> 0 -> fst t <= g_property ->
    0 < t_units m P t /\ P <= t_payload m P t /\ t_payload m P t + 4 * t_units m P t <= pe.
  Proof.
    intros I R G. destruct schema as [sc|]; [|destruct I]. destruct SO as (_ & _ & S3).
    assert (I' : In t (map (fun j => (stype s j, 4 * soff s j)) (seq 0 (nslots s)))).
    { rewrite <- S3. apply filter_In. split; [exact I|]. lia. }
    apply in_map_iff in I' as (j & <- & Ij). apply in_seq in Ij. assert (Hj : (j < nslots s)%nat) by lia. pose proof (seen_cfg s T) as C. unfold m, P in *.
    rewrite (seen_slot_units A s w T DS HW), (seen_slot_payload A s w T DS HW) by assumption. rewrite (seen_slot A s w T DS HW) in R by assumption.
    assert (U : 0 < plen s (RP j)) by (apply (t_pos _ T); [exact Hj|reflexivity|exact R]).
    destruct (live_bounds s (plen s) acc (RP j) Hj U) as [B1 B2]. unfold base, pe in *. split; [assumption|]. lia.
  Qed.
  Lemma acc_holes k : (k < cnt s)%nat -> e_hole m P k = true -> 0 < e_units m P k ->
     0 <= e_start m P k /\ e_start m P k + e_units m P k <= 65535 /\
     forall i, (i < k)%nat -> e_hole m P i = true -> 0 < e_units m P i ->
       e_start m P i + e_units m P i < e_start m P k \/ e_start m P k + e_units m P k < e_start m P i.
  Proof.
    intros Hk. pose proof (seen_cfg s T) as C. unfold m, P.
    rewrite (seen_hole A s w T HW), (seen_units A s w T HW), (seen_start A s w T HW) by assumption.
    intros EH. unfold len at 1 2 3. rewrite EH. intros U. assert (NK : nzh s k) by (split; [assumption|split; assumption]).
    pose proof (nzh_bounds s (plen s) acc k NK) as Q. unfold hole_begin, hole_end in Q. unfold base in Q.
    split; [lia|]. split; [lia|]. intros i Hi. assert (Hi' : (i < cnt s)%nat) by lia.
    rewrite (seen_hole A s w T HW), (seen_units A s w T HW), (seen_start A s w T HW) by assumption.
    intros EHi. unfold len. rewrite EHi. intros Ui. assert (NI : nzh s i) by (split; [assumption|split; assumption]).
    assert (NE : i <> k) by lia.
    pose proof (fun x => nzh_disjoint s (plen s) acc i k x NI NK NE) as D. pose proof (D (addr s i)). pose proof (D (addr s k)). clear D. pose proof (v_nonadj _ _ (t_inv _ T)) as NA.
    pose proof (NA i k NI NK). pose proof (NA k i NK NI). unfold hole_begin, hole_end in *. lia.
  Qed.

  Theorem accepted adj : exists t, audit_tuple m schema P (cnt s) pe (mkF false (pp s >? 0) adj) = (t, Good (jc s, jv s)).
  Proof.
    pose proof (seen_cfg s T) as C. destruct acc_pp as [PP1 PP2]. rewrite bytes2units_div in PP1.
    assert (Hm : bytes_mem m) by apply bytes_of_mem.
    assert (Hp : pe - P <= 4 * 65535) by (unfold pe, P, base in *; lia).
    destruct (check_index_complete m P pe (cnt s) Hm Hp acc_entry) as (au & t1 & E1 & N1).
    destruct (check_index_sound m P pe (cnt s) au Hm Hp ltac:(rewrite E1; reflexivity)) as (W1 & C1 & J1 & J2 & _).
    unfold m, P in J1, J2. rewrite (seen_holes A s w T HW) in J1. rewrite (seen_volume A s w T HW) in J2. fold m in J1, J2. fold P in J1, J2.
    assert (JC : jc s <= Z.of_nat (cnt s)).
    { pose proof (i_jc _ _ _ _ _ _ acc) as Q. rewrite Z.add_0_r in Q. rewrite <- Q. clear. induction (cnt s) as [|n IH]; [cbn; lia|]. cbn [sumn]. unfold hcount at 2. destruct (is_hole (idx s n)); cbn [Z.b2z]; lia. }
    pose proof (i_jvr _ _ _ _ _ _ acc) as JV. change max_fields with 8191 in Few.
    assert (L : exists l t2, (if pbytes_of schema =? 0 then ret (amap au)
           else if negb (match amap au with [] => true | _ => false end) && (bytes2units (pbytes_of schema) >? map_begin (amap au)) then trouble
           else if pbytes_of schema >? pe - P then trouble
           else check_preplaced m (amap au) P pe (toks_of schema)) = (t2, Good l) /\ nonempty l /\ wf (-1) l /\ forall x, AuditProofs.cov l x = ind (pp s) (tail s - pivot s - pp s) x).
    { pose proof acc_total as TT. destruct (pbytes_of schema =? 0) eqn:E0.
      - eexists _, _. split; [reflexivity|]. split; [exact N1|]. split; [exact W1|]. intros x. rewrite <- TT, C1. lia.
      - assert (MB : negb (match amap au with [] => true | _ => false end) && (bytes2units (pbytes_of schema) >? map_begin (amap au)) = false).
        { destruct (amap au) as [|[f g] r] eqn:Ea; [reflexivity|]. cbn [negb andb map_begin]. inversion N1 as [|? ? K _]; subst. cbn [fst snd] in K.
          specialize (C1 f). specialize (TT f). cbn [AuditProofs.cov] in C1. rewrite (ind_1 f) in C1 by lia. cbn [wf] in W1.
          pose proof (proj1 (cov_range r g f (proj2 (proj2 W1)))).
          assert (0 <= cover_toks m P (toks_of schema) f).
          { clear. induction (toks_of schema) as [|t l IH]; cbn [cover_toks]; [lia|]. pose proof (ind_range (t_start m P t) (t_units m P t) f). lia. }
          assert (I : 0 < ind (pp s) (tail s - pivot s - pp s) f) by lia. apply ind_1_inv in I. rewrite bytes2units_div. lia. }
        rewrite MB. replace (pbytes_of schema >? pe - P) with false by (unfold pe, P, base in *; lia).
        destruct (check_preplaced_complete m P pe (toks_of schema) (amap au) Hm W1 N1 Hp acc_tok) as (l & t2 & E2 & N2).
        { intros x. rewrite C1, TT. apply ind_range. }
        destruct (check_preplaced_sound m P pe _ _ l Hm W1 Hp ltac:(rewrite E2; reflexivity)) as (W2 & C2 & _).
        exists l, t2. split; [exact E2|]. split; [exact N2|]. split; [exact W2|]. intros x. rewrite C2, C1. apply TT. }
    destruct L as (l & t2 & E2 & N2 & W2 & C2).
    unfold audit_tuple. fold (pbytes_of schema). rewrite (nst_of s schema T SO). replace (Z.of_nat (cnt s) + Z.of_nat (nslots s) >? max_fields) with false by (change max_fields with 8191; lia).
    rewrite E1. cbn [bindc]. rewrite J1, J2. replace (jc s >? 32767) with false by lia. replace (jv s >? 65535) with false by lia.
    cbn [f_preplaced f_adjacent f_sorted fst].
    assert (F1 : (pp s >? 0) && match schema with None => true | _ => false end = false).
    { destruct schema as [sc|] eqn:Es; [apply andb_false_r|]. cbn [schema_of] in SO. lia. }
    rewrite F1. replace (negb (Bool.eqb (pp s >? 0) (negb (pbytes_of schema =? 0)))) with false.
    2:{ destruct (pbytes_of schema =? 0) eqn:E0; destruct (pp s >? 0) eqn:E9; cbn; try reflexivity; exfalso; clear - E0 E9 PP1 PP2; lia. }
    fold (toks_of schema). rewrite E2. cbn [bindc].
    set (n := cnt s) in *.
    assert (FL : exists t3, match l with
               | [] => ret tt
               | _ =>
                 if negb (Bool.eqb (pp s >? 0) (map_begin l >? 0)) then trouble
                 else if negb (map_begin l =? bytes2units (pbytes_of schema)) then trouble
                 else if negb (P + 4 * map_end l =? pe) then trouble
                 else if Z.of_nat (length l) >? 1 then trouble
                 else if adj && (jc s >? 1)
                      then bindc (check_adjacent m P n) (fun _ => ret tt)
                      else ret tt
               end = (t3, Good tt)).
    { destruct (Z.eq_dec (tail s - pivot s) (pp s)) as [Z0|NZ].
      - destruct l as [|[f g] r]; [eexists; reflexivity|]. exfalso. inversion N2 as [|? ? K _]; subst. cbn [fst snd] in K. cbn [wf] in W2.
        specialize (C2 f). rewrite (ind_0 (pp s)) in C2 by lia. cbn [AuditProofs.cov] in C2. rewrite ind_1 in C2 by lia.
        pose proof (proj1 (cov_range r g f (proj2 (proj2 W2)))). lia.
      - assert (EL : l = [(pp s, tail s - pivot s)]) by (apply (single_map l (-1)); [assumption|assumption|lia|unfold base in *; lia|exact C2]).
        rewrite EL. cbn [map_begin map_end last snd length]. rewrite Bool.eqb_reflx. cbn [negb].
        replace (pp s =? bytes2units (pbytes_of schema)) with true by (rewrite bytes2units_div; lia). cbn [negb].
        replace (P + 4 * (tail s - pivot s) =? pe) with true by (unfold P, pe; lia). cbn [negb]. change (Z.of_nat 1 >? 1) with false. cbv iota.
        destruct (adj && (jc s >? 1)); [|eexists; reflexivity].
        destruct (check_adjacent_complete m P n Hm acc_holes) as (l' & c & t3 & E3 & _). rewrite E3. eexists. reflexivity. }
    destruct FL as (t3 & E3). rewrite E3. cbn [bindc after ret]. eexists. reflexivity.
  Qed.
End Accept.

(** ** A tuple moved as a whole *)
(** [s'] is [s] with the border between index and payload moved by [d] units, in a possibly other buffer *)
Record moved (s s' : st) (d : Z) : Prop := {
  m_idx : forall k, (k < cnt s)%nat -> idx s' k = idx s k;
  m_cnt : cnt s' = cnt s;
  m_pre : forall j, (j < nslots s)%nat -> pre s' j = pre s j;
  m_dat : forall x, base s <= x < tail s -> dat s' (x + d) = u32 (dat s x);
  m_tail : tail s' = tail s + d;
  m_jc : jc s' = jc s;
  m_jv : jv s' = jv s;
  m_pivot : pivot s' = pivot s + d;
  m_pp : pp s' = pp s;
  m_nslots : nslots s' = nslots s;
  m_soff : forall j, (j < nslots s)%nat -> soff s' j = soff s j;
  m_stype : forall j, (j < nslots s)%nat -> stype s' j = stype s j
}.
Definition as_u32 (f : option (Z * list Z)) : option (Z * list Z) :=
  match f with Some (d, v) => Some (d, map u32 v) | None => None end.
Lemma brutto_u32 g w : brutto g (u32 w) = brutto g w.
Proof. apply brutto_mod. Qed.
Section Moved.
  Variables (s s' : st) (d : Z).
  Hypothesis M : moved s s' d.
  Hypothesis T : TInv s.
  Hypothesis Room : Z.of_nat (cnt s) <= pivot s'.
  Hypothesis Fit : tail s' <= end_ s' <= 65534.
  Let acc := v_acc _ _ (t_inv _ T).

  Lemma mv_live r : live s' r <-> live s r.
  Proof.
    destruct r as [k|j]; unfold live; rewrite ?(m_cnt _ _ _ M), ?(m_nslots _ _ _ M); [|reflexivity].
    split; intros [H1 H2]; (split; [assumption|]); [rewrite (m_idx _ _ _ M) in H2 by assumption|rewrite (m_idx _ _ _ M) by assumption]; assumption.
  Qed.
  Lemma mv_ref r : live s r -> rrel s' r = rrel s r /\ rgenus s' r = rgenus s r /\ rdesc s' r = rdesc s r /\ raddr s' r = raddr s r + d.
  Proof.
    destruct r as [k|j]; intros H; unfold raddr; cbn [rrel rgenus rdesc rown].
    - destruct H as [Hk _]. unfold own. rewrite (m_idx _ _ _ M) by assumption. rewrite (m_pivot _ _ _ M). repeat split; lia.
    - unfold live in H. rewrite (m_pre _ _ _ M), (m_soff _ _ _ M), (m_stype _ _ _ M), (m_pivot _ _ _ M) by assumption. repeat split; lia.
  Qed.
  Lemma mv_plen r : live s r -> plen s' r = plen s r.
  Proof.
    intros H. destruct (mv_ref r H) as (R1 & R2 & R3 & R4). pose proof (t_pos _ T r H) as Ps. unfold plen in *. rewrite R1, R2, R4.
    destruct (match r with RL _ => fixed_genus (rgenus s r) | RP _ => false end) eqn:EF; [reflexivity|].
    destruct (rrel s r =? 0) eqn:ER; [reflexivity|].
    assert (St : stretchy_ref s r = true) by (unfold stretchy_ref; destruct r; [rewrite EF|]; reflexivity).
    specialize (Ps St ltac:(lia)).
    assert (EP : plen s r = brutto (rgenus s r) (dat s (raddr s r))) by (unfold plen; rewrite EF, ER; reflexivity).
    rewrite <- EP in Ps. destruct (live_bounds s (plen s) acc r H Ps) as [B1 B2].
    rewrite (m_dat _ _ _ M) by lia. apply brutto_u32.
  Qed.
  Lemma mv_addr k : (k < cnt s)%nat -> addr s' k = addr s k + d.
  Proof. intros H. unfold addr, own. rewrite (m_idx _ _ _ M), (m_pivot _ _ _ M) by assumption. lia. Qed.
  Lemma mv_len k : (k < cnt s)%nat -> len s' (plen s') k = len s (plen s) k.
  Proof.
    intros H. unfold len. rewrite (m_idx _ _ _ M) by assumption. destruct (is_hole (idx s k)) eqn:E; [reflexivity|].
    apply mv_plen. split; assumption.
  Qed.
  Lemma mv_field r : field s' r = as_u32 (field s r).
  Proof.
    unfold field. destruct (liveb s r) eqn:E.
    - assert (L : live s r) by (apply liveb_iff; assumption).
      assert (E' : liveb s' r = true) by (apply liveb_iff, mv_live; assumption). rewrite E'. cbn [as_u32].
      destruct (mv_ref r L) as (R1 & R2 & R3 & R4). rewrite R3. do 2 f_equal. unfold value. rewrite R1, R2, R4.
      destruct (match r with RL _ => is_inplaced_genus (rgenus s r) | RP _ => false end) eqn:EI.
      + cbn [map]. f_equal. destruct r as [k|j]; [|discriminate]. destruct L as [Hk _]. destruct (i_ent _ _ _ _ _ _ acc k Hk) as (E1 & _).
        cbn [rrel]. unfold u32. rewrite Z.mod_small; [reflexivity|]. change (2 ^ 32) with 4294967296. lia.
      + rewrite mv_plen by assumption. unfold read_units. rewrite map_map. apply map_ext_in. intros i I. apply in_seq in I.
        pose proof (plen_nonneg s r). assert (U : 0 < plen s r) by lia. destruct (live_bounds s (plen s) acc r L U) as [B1 B2].
        rewrite <- (m_dat _ _ _ M) by lia. f_equal. lia.
    - destruct (liveb s' r) eqn:E'; [|reflexivity]. apply liveb_iff, mv_live, liveb_iff in E'. congruence.
  Qed.
  Lemma mv_nzh k : nzh s' k -> nzh s k /\ hole_begin s' k = hole_begin s k + d /\ hole_end s' k = hole_end s k + d.
  Proof.
    intros (H1 & H2 & H3). rewrite (m_cnt _ _ _ M) in H1. unfold hole_begin, hole_end. rewrite mv_addr by assumption.
    rewrite (m_idx _ _ _ M) in * by assumption. repeat split; try assumption; lia.
  Qed.
  Theorem moved_inv : TInv s'.
  Proof.
    pose proof (i_cfg _ _ _ _ _ _ acc) as C. destruct C as [C1 C2 C3 C4 C5].
    assert (EB : base s' = base s + d) by (unfold base; rewrite (m_pivot _ _ _ M), (m_pp _ _ _ M); lia).
    constructor.
    - constructor.
      + constructor.
        * constructor; rewrite ?(m_cnt _ _ _ M), ?(m_pp _ _ _ M), ?EB, ?(m_nslots _ _ _ M).
          -- exact Room.
          -- exact C2.
          -- rewrite (m_tail _ _ _ M) in *. lia.
          -- apply Fit.
          -- intros j Hj. rewrite (m_soff _ _ _ M) by assumption. apply C5. assumption.
        * intros x. unfold GearBase.cov. rewrite (m_cnt _ _ _ M), (m_nslots _ _ _ M).
          rewrite (sumn_ext (cnt s) _ (fun k => ind (addr s k) (len s (plen s) k) (x - d))).
          2:{ intros k Hk. cbv beta. rewrite mv_addr, mv_len by assumption. unfold ind. lia. }
          rewrite (sumn_ext (nslots s) _ (fun j => ind (raddr s (RP j)) (plen s (RP j)) (x - d))).
          2:{ intros j Hj. cbv beta. destruct (mv_ref (RP j) Hj) as (_ & _ & _ & R4). rewrite R4, mv_plen by assumption. unfold ind. lia. }
          pose proof (i_cov _ _ _ _ _ _ acc (x - d)) as Q. unfold GearBase.cov in Q. rewrite Q, EB, (m_tail _ _ _ M). unfold ind, zero_d. lia.
        * intros r. apply plen_nonneg.
        * unfold total. rewrite (m_cnt _ _ _ M), (m_nslots _ _ _ M).
          rewrite (sumn_ext (cnt s) _ (len s (plen s))) by (intros k Hk; apply mv_len; assumption).
          rewrite (sumn_ext (nslots s) _ (fun j => plen s (RP j))) by (intros j Hj; apply (mv_plen (RP j)); assumption).
          pose proof (i_tot _ _ _ _ _ _ acc) as Q. unfold total in Q. rewrite Q, EB, (m_tail _ _ _ M). lia.
        * rewrite (m_cnt _ _ _ M), (m_jc _ _ _ M), <- (i_jc _ _ _ _ _ _ acc). apply sumn_ext. intros k Hk. unfold hcount. rewrite (m_idx _ _ _ M) by assumption. reflexivity.
        * rewrite (m_cnt _ _ _ M), (m_jv _ _ _ M), <- (i_jv _ _ _ _ _ _ acc). apply sumn_ext. intros k Hk. unfold hvol. rewrite (m_idx _ _ _ M) by assumption. reflexivity.
        * intros k Hk. rewrite (m_cnt _ _ _ M) in Hk. rewrite (m_idx _ _ _ M) by assumption. apply (i_ent _ _ _ _ _ _ acc); assumption.
        * intros j Hj. rewrite (m_nslots _ _ _ M) in Hj. rewrite (m_pre _ _ _ M) by assumption. apply (i_pre _ _ _ _ _ _ acc); assumption.
        * rewrite (m_jc _ _ _ M). apply (i_jcr _ _ _ _ _ _ acc).
        * rewrite (m_jv _ _ _ M). apply (i_jvr _ _ _ _ _ _ acc).
      + intros i j Hi Hj. destruct (mv_nzh i Hi) as (N1 & B1 & E1). destruct (mv_nzh j Hj) as (N2 & B2 & E2). rewrite E1, B2.
        pose proof (v_nonadj _ _ (t_inv _ T) i j N1 N2). lia.
      + intros i Hi. destruct (mv_nzh i Hi) as (N1 & B1 & E1). rewrite E1, (m_tail _ _ _ M). pose proof (v_notail _ _ (t_inv _ T) i N1). lia.
    - intros r L St R. apply (proj1 (mv_live r)) in L. destruct (mv_ref r L) as (R1 & R2 & R3 & R4). rewrite mv_plen by assumption.
      apply (t_pos _ T); [assumption| |congruence]. unfold stretchy_ref in *. destruct r; [rewrite R2 in St|]; assumption.
    - intros j Hj. rewrite (m_nslots _ _ _ M) in Hj. rewrite (m_stype _ _ _ M) by assumption. apply (t_slot _ T). assumption.
  Qed.
End Moved.

(** ** The serialised form *)
Section Serialised.
  Variables (A : Z) (s : st).
  Hypothesis T : TInv s.
  Hypothesis Few : Z.of_nat (cnt s) <= max_fields.
  Hypothesis Big : tail s - head s + 1 <= 65535.
  Let m := asis_mem A s.
  Let ptr := asis_ptr A s.

  Lemma asis_agrees x : head s <= x < tail s -> asis_word s x = word s x.
  Proof. intros H. unfold asis_word. replace (x =? head s - 1) with false by lia. reflexivity. Qed.
  Lemma asis_header : half m ptr = tail s - head s + 1 /\ half m (ptr + 2) = 8 * Z.of_nat (cnt s) + (if pp s >? 0 then 2 else 0).
  Proof.
    pose proof (seen_cfg s T) as C. change max_fields with 8191 in Few. unfold m, ptr, asis_mem, asis_ptr. rewrite half_lo, half_hi.
    unfold asis_word. rewrite Z.eqb_refl. unfold header, looseitems_flags. rewrite Z.shiftl_mul_pow2 by lia. unfold u16. change (2 ^ 16) with 65536. change (2 ^ 3) with 8.
    unfold head, base in *. destruct (pp s >? 0); lia.
  Qed.
  Lemma asis_units : ro_units m ptr = tail s - head s + 1.
  Proof. exact (proj1 asis_header). Qed.
  Lemma asis_index : ro_index m ptr = Z.of_nat (cnt s).
  Proof. unfold ro_index. rewrite (proj2 asis_header), Z.shiftr_div_pow2 by lia. change (2 ^ 3) with 8. destruct (pp s >? 0); lia. Qed.
  Lemma land2 n : 0 <= n -> Z.land (8 * n + 2) 2 = 2 /\ Z.land (8 * n + 2) 1 = 0 /\ Z.land (8 * n) 2 = 0 /\ Z.land (8 * n) 1 = 0.
  Proof.
    intros H. assert (E1 : forall z, Z.land z 1 = z mod 2) by (intros z; exact (Z.land_ones z 1 ltac:(lia))). rewrite !E1.
    assert (E : forall z, Z.land z 2 = 2 * ((z / 2) mod 2)).
    { intros z. apply Z.bits_inj'. intros i Hi. rewrite Z.land_spec. rewrite (Z.mul_comm 2), <- (Z.shiftl_mul_pow2 _ 1) by lia. rewrite Z.shiftl_spec by assumption.
      destruct (Z.eq_dec i 1) as [->|N].
      - change (Z.testbit 2 1) with true. rewrite andb_true_r. change (1 - 1) with 0. change 2 with (2 ^ 1) at 2. rewrite Z.mod_pow2_bits_low by lia.
        change (z / 2) with (z / 2 ^ 1). rewrite <- Z.shiftr_div_pow2, Z.shiftr_spec by lia. reflexivity.
      - replace (Z.testbit 2 i) with false. 2:{ symmetry. change 2 with (2 ^ 1). apply Z.pow2_bits_false. lia. }
        rewrite andb_false_r. symmetry. destruct (Z.lt_ge_cases (i - 1) 0) as [L|L]; [apply Z.testbit_neg_r; assumption|].
        change 2 with (2 ^ 1) at 2. apply Z.mod_pow2_bits_high. lia. }
    rewrite !E. lia.
  Qed.
  Lemma asis_flags : ro_sorted m ptr = false /\ ro_preplaced m ptr = (pp s >? 0).
  Proof.
    unfold ro_sorted, ro_preplaced. rewrite (proj2 asis_header). pose proof (land2 (Z.of_nat (cnt s)) ltac:(lia)) as (L1 & L2 & L3 & L4).
    destruct (pp s >? 0); [rewrite L1, L2|rewrite Z.add_0_r, L3, L4]; split; reflexivity.
  Qed.
  Lemma asis_pivot : ro_pivot m ptr = A + 4 * pivot s.
  Proof. unfold ro_pivot. rewrite asis_index. unfold ptr, asis_ptr, head. lia. Qed.
  Lemma asis_end : ro_end m ptr = A + 4 * tail s.
  Proof. unfold ro_end. rewrite asis_units. unfold ptr, asis_ptr. lia. Qed.
  Lemma asis_payload : ro_payload_units m ptr = tail s - pivot s.
  Proof. unfold ro_payload_units. rewrite asis_units, asis_index. unfold head. lia. Qed.
  Lemma asis_size : asis_bytes s = 4 * (tail s - head s + 1).
  Proof.
    pose proof (seen_cfg s T) as C. unfold asis_bytes, u16. change (2 ^ 16) with 65536. unfold head, base in *. rewrite Z.mod_small by lia. reflexivity.
  Qed.
End Serialised.

(** ** Back to the modifiable form *)
Definition layout_of (s : st) (l : layout) : Prop :=
  0 <= l_bytes l /\ l_units l = pp s /\ l_n l = nslots s /\
  forall j, (j < nslots s)%nat -> l_off l j = soff s j /\ l_type l j = stype s j.
Section Back.
  Variables (A : Z) (s : st) (l : layout).
  Hypothesis T : TInv s.
  Hypothesis DS : distinct_slots s.
  Hypothesis Few : Z.of_nat (cnt s) <= max_fields.
  Hypothesis Big : tail s - head s + 1 <= 65535.
  Hypothesis LO : layout_of s l.
  Let m := asis_mem A s.
  Let ptr := asis_ptr A s.
  Let acc := v_acc _ _ (t_inv _ T).

  Theorem from_ro_moved holes size more d s' : 0 <= more -> 44 <= size -> fst holes = jc s -> snd holes = jv s ->
    from_ro holes m ptr size more l d = Some s' ->
    let dl := pivot s' - pivot s in
    moved s s' dl /\ pivot s' = Z.min max_fields (Z.of_nat (cnt s) + more) /\ end_ s' <= 65534 /\
    (tail s' <= end_ s' <-> pivot s' + (tail s - pivot s) <= 65534) /\
    (forall x, head s <= x < tail s -> word s' (x + dl) = u32 (word s x)).
  Proof.
    intros Hmore Hsize H1 H2 H. pose proof (seen_cfg s T) as C. destruct LO as (L1 & L2 & L3 & L4).
    pose proof (i_jcr _ _ _ _ _ _ acc) as JC. pose proof (i_jvr _ _ _ _ _ _ acc) as JV.
    unfold from_ro in H. destruct (more >? max_fields) eqn:E1; [discriminate|]. destruct (size >? 2 * max_tuple_bytes_netto) eqn:E2; [discriminate|].
    unfold m, ptr in H. rewrite (asis_index A s T Few Big), (asis_payload A s T Few Big) in H. fold m in H. fold ptr in H.
    set (reserve := Z.min max_fields (Z.of_nat (cnt s) + more)) in *.
    destruct (estimate reserve (4 * (tail s - pivot s)) (l_bytes l) true) as [need|] eqn:E3; [|discriminate].
    destruct (size <? need) eqn:E4; [discriminate|].
    assert (Need : need = 44 + reserve * 4 + 4 * (tail s - pivot s)).
    { unfold estimate in E3. destruct (l_bytes l >? max_tuple_bytes_netto); [discriminate|]. destruct (_ || _); [discriminate|].
      assert (Q : forall a b : Z, Some a = Some b -> b = a) by (intros a b Q; congruence). apply Q in E3. rewrite E3. unfold pure_tuple_size, ceil4. clear. lia. }
    assert (Q : forall a b : st, Some a = Some b -> b = a) by (intros a b Q; congruence). apply Q in H. rename H into S. clear Q.
    assert (EP : pivot s' = reserve) by (rewrite S; reflexivity). assert (ET : tail s' = reserve + (tail s - pivot s)) by (rewrite S; reflexivity).
    assert (Hr : Z.of_nat (cnt s) <= reserve <= 8191) by (unfold reserve; change max_fields with 8191 in *; lia).
    change max_fields with 8191 in *. change max_tuple_bytes_netto with 262136 in *.
    assert (EE : end_ s' = Z.min 65534 ((size - 44) / 4)).
    { rewrite S. cbn [end_]. change max_tuple_units_netto with 65534. unfold pure_tuple_size, u32. rewrite Z.shiftr_div_pow2 by lia. change (2 ^ 2) with 4. change (2 ^ 32) with 4294967296. rewrite Z.mod_small by lia. reflexivity. }
    (* the words of the image *)
    assert (W : forall x, head s <= x < tail s -> word_at m (ptr + 4 + 4 * (x + (reserve - pivot s) - (reserve - Z.of_nat (cnt s)))) = u32 (word s x)).
    { intros x Hx. replace (ptr + 4 + 4 * (x + (reserve - pivot s) - (reserve - Z.of_nat (cnt s)))) with (A + 4 * x) by (unfold ptr, asis_ptr, head; lia).
      unfold m, asis_mem. rewrite word_at_bytes, asis_agrees by assumption. reflexivity. }
    cbv zeta. rewrite EP.
    assert (MV : moved s s' (reserve - pivot s)).
    { constructor.
      - intros k Hk. rewrite S. cbn [idx]. replace (Z.of_nat k <? Z.of_nat (cnt s)) with true by lia.
        replace (reserve - 1 - Z.of_nat k) with (pivot s - 1 - Z.of_nat k + (reserve - pivot s)) by lia. rewrite W by (unfold head, base in *; lia).
        rewrite word_entry by assumption. destruct (i_ent _ _ _ _ _ _ acc k Hk) as (R1 & R2 & _). destruct (idx s k) as [r g]. cbn [rel gid] in *.
        unfold u32. change (2 ^ 32) with 4294967296. f_equal; lia.
      - rewrite S. cbn [cnt]. apply Nat2Z.id.
      - intros j Hj. rewrite S. cbn [pre]. rewrite (proj1 (L4 j Hj)). pose proof (c_soff _ (i_cfg _ _ _ _ _ _ acc) j Hj) as O. pose proof (i_pre _ _ _ _ _ _ acc j Hj) as R.
        replace (reserve + soff s j) with (pivot s + soff s j + (reserve - pivot s)) by lia. rewrite W by (unfold head, base in *; lia).
        rewrite <- (word_slot s j DS Hj O R). unfold u32. change (2 ^ 32) with (65536 * 65536). generalize (word s (pivot s + soff s j)). intros z. clear. lia.
      - intros x Hx. rewrite S. cbn [dat]. unfold base in *. replace ((reserve <=? x + (reserve - pivot s)) && (x + (reserve - pivot s) <? reserve + (tail s - pivot s))) with true by lia.
        rewrite W by (unfold head; lia). rewrite word_data by (unfold base; lia). reflexivity.
      - rewrite ET. lia.
      - rewrite S. cbn [jc]. rewrite H1. unfold u16. change (2 ^ 16) with 65536. apply Z.mod_small. lia.
      - rewrite S. cbn [jv]. rewrite H2. unfold u16. change (2 ^ 16) with 65536. apply Z.mod_small. lia.
      - lia.
      - rewrite S. cbn [pp]. exact L2.
      - rewrite S. cbn [nslots]. exact L3.
      - intros j Hj. rewrite S. cbn [soff]. apply (L4 j Hj).
      - intros j Hj. rewrite S. cbn [stype]. apply (L4 j Hj). }
    split; [exact MV|]. split; [reflexivity|]. split; [lia|]. split; [unfold base in *; lia|].
    intros x Hx. unfold word. rewrite (m_pp _ _ _ MV) || idtac. unfold head, base. rewrite EP, (m_cnt _ _ _ MV), (m_pp _ _ _ MV). fold (head s). fold (base s).
    destruct (Z.lt_ge_cases x (pivot s)) as [Lx|Gx].
    - replace ((reserve - Z.of_nat (cnt s) <=? x + (reserve - pivot s)) && (x + (reserve - pivot s) <? reserve)) with true by (unfold head in *; lia).
      replace ((head s <=? x) && (x <? pivot s)) with true by lia.
      replace (Z.to_nat (reserve - 1 - (x + (reserve - pivot s)))) with (Z.to_nat (pivot s - 1 - x)) by lia.
      assert (Hk : (Z.to_nat (pivot s - 1 - x) < cnt s)%nat) by (unfold head in *; lia).
      rewrite (m_idx _ _ _ MV) by assumption. destruct (i_ent _ _ _ _ _ _ acc _ Hk) as (R1 & R2 & _). unfold u32. change (2 ^ 32) with 4294967296. rewrite Z.mod_small; [reflexivity|lia].
    - replace ((reserve - Z.of_nat (cnt s) <=? x + (reserve - pivot s)) && (x + (reserve - pivot s) <? reserve)) with false by lia.
      replace ((head s <=? x) && (x <? pivot s)) with false by lia.
      assert (ED : dat s' (x + (reserve - pivot s)) = u32 (word s x)).
      { rewrite S. cbn [dat]. replace ((reserve <=? x + (reserve - pivot s)) && (x + (reserve - pivot s) <? reserve + (tail s - pivot s))) with true by lia. apply W. assumption. }
      assert (EW : word s x = if (pivot s <=? x) && (x <? base s) then match slot_at s (x - pivot s) with Some j => pre s j + 65536 * u16 (dat s x / 65536) | None => dat s x end else dat s x).
      { unfold word. replace ((head s <=? x) && (x <? pivot s)) with false by lia. reflexivity. }
      rewrite EW in ED. rewrite ED. clear EW.
      replace ((reserve <=? x + (reserve - pivot s)) && (x + (reserve - pivot s) <? reserve + pp s)) with ((pivot s <=? x) && (x <? base s)) by (unfold base; lia).
      destruct ((pivot s <=? x) && (x <? base s)) eqn:EB; [|reflexivity].
      replace (x + (reserve - pivot s) - reserve) with (x - pivot s) by lia.
      assert (SA : slot_at s' (x - pivot s) = slot_at s (x - pivot s)).
      { unfold slot_at. rewrite (m_nslots _ _ _ MV). assert (G : forall q, (forall j, In j q -> (j < nslots s)%nat) -> find (fun j => soff s' j =? x - pivot s) q = find (fun j => soff s j =? x - pivot s) q).
        { induction q as [|j q IH]; intros Q; [reflexivity|]. cbn [find]. rewrite (m_soff _ _ _ MV) by (apply Q; left; reflexivity). destruct (_ =? _); [reflexivity|]. apply IH. intros i Hi. apply Q. right. assumption. }
        apply G. intros j Hj. apply in_seq in Hj. lia. }
      rewrite SA. destruct (slot_at s (x - pivot s)) as [j|] eqn:ES; [|reflexivity].
      unfold slot_at in ES. apply find_some in ES as [Ij _]. apply in_seq in Ij. assert (Hj : (j < nslots s)%nat) by lia.
      rewrite (m_pre _ _ _ MV) by assumption. pose proof (i_pre _ _ _ _ _ _ acc j Hj) as R. unfold u32, u16. change (2 ^ 32) with 4294967296. change (2 ^ 16) with 65536.
      generalize (dat s x). intros z. clear - R. lia.
  Qed.
End Back.

(** ** Verdicts on the serialised form and on the modifiable form *)
Lemma lite_checkup_ok A s : TInv s -> Z.of_nat (cnt s) <= max_fields -> tail s - head s + 1 <= 65534 -> asis_ptr A s <> 0 ->
  exists t, lite_checkup (asis_mem A s) (asis_ptr A s) (asis_bytes s) = (t, Good tt).
Proof.
  intros T Few Big NN. assert (Big' : tail s - head s + 1 <= 65535) by lia. pose proof (seen_cfg s T) as C.
  unfold lite_checkup. rewrite (asis_units A s T Few Big'), (asis_index A s T Few Big'), (asis_pivot A s T Few Big'), (asis_end A s T Few Big'), (asis_size A s T Big').
  change max_tuple_bytes_netto with 262136. change max_fields with 8191 in *.
  replace (asis_ptr A s =? 0) with false by lia. unfold head, base in *.
  replace (4 * (tail s - (pivot s - Z.of_nat (cnt s)) + 1) <? 4) with false by lia.
  replace (4 * (tail s - (pivot s - Z.of_nat (cnt s)) + 1) >? 262136) with false by lia.
  replace (negb ((4 * (tail s - (pivot s - Z.of_nat (cnt s)) + 1)) mod 4 =? 0)) with false by lia. rewrite Z.eqb_refl. cbn [negb after fst snd].
  replace (Z.of_nat (cnt s) >? 8191) with false by lia. replace (A + 4 * pivot s >? A + 4 * tail s) with false by lia.
  eexists. reflexivity.
Qed.
Theorem asis_accepted A s schema : TInv s -> distinct_slots s -> schema_of s schema ->
  Z.of_nat (cnt s) + Z.of_nat (nslots s) <= max_fields -> tail s - head s + 1 <= 65534 -> asis_ptr A s <> 0 ->
  snd (ro_audit (asis_mem A s) (asis_ptr A s) (asis_bytes s) schema) = Good (jc s, jv s).
Proof.
  intros T DS SO Few Big NN. assert (Few' : Z.of_nat (cnt s) <= max_fields) by lia. assert (Big' : tail s - head s + 1 <= 65535) by lia.
  unfold ro_audit. destruct (lite_checkup_ok A s T Few' Big NN) as (t & E). rewrite E. cbn [bindc].
  rewrite (asis_pivot A s T Few' Big'), (asis_index A s T Few' Big'), (asis_end A s T Few' Big'), Nat2Z.id.
  destruct (asis_flags A s T Few' Big') as [F1 F2]. rewrite F1, F2.
  destruct (accepted A s (asis_word s) schema T DS (asis_agrees A s) SO Few false) as (t2 & E2). unfold asis_mem. rewrite E2. reflexivity.
Qed.
Theorem rw_accepted A s schema : TInv s -> distinct_slots s -> schema_of s schema ->
  Z.of_nat (cnt s) + Z.of_nat (nslots s) <= max_fields ->
  snd (rw_audit (bytes_of A (word s)) A (head s) (pivot s) (tail s) (end_ s) (jc s) (jv s) schema) = Good tt.
Proof.
  intros T DS SO Few. pose proof (seen_cfg s T) as C. pose proof (v_acc _ _ (t_inv _ T)) as acc.
  pose proof (jv_bound s (plen s) acc) as B1. pose proof (jc_bound s (plen s) acc) as B2.
  unfold rw_audit. change max_fields with 8191 in *. change max_tuple_units_netto with 65534. unfold head, base in *.
  replace (pivot s - Z.of_nat (cnt s) >? pivot s) with false by lia. replace (pivot s >? tail s) with false by lia. replace (tail s >? end_ s) with false by lia.
  replace (end_ s >? 65534) with false by lia. replace (pivot s - (pivot s - Z.of_nat (cnt s)) >? 8191) with false by lia.
  replace (jc s >? pivot s - (pivot s - Z.of_nat (cnt s))) with false by lia. replace (jv s >? tail s - pivot s) with false by lia.
  replace (Z.to_nat (pivot s - (pivot s - Z.of_nat (cnt s)))) with (cnt s) by lia.
  assert (FP : match schema with Some sc => sbytes sc >? 0 | None => false end = (pp s >? 0)).
  { destruct schema as [sc|]; cbn [schema_of] in SO; [|lia]. destruct SO as (S1 & S2 & _). rewrite bytes2units_div in S2. lia. }
  rewrite FP. destruct (accepted A s (word s) schema T DS (fun x _ => eq_refl) SO Few true) as (t2 & E2). rewrite E2. cbn [bindc after fst snd].
  rewrite !Z.eqb_refl. reflexivity.
Qed.
