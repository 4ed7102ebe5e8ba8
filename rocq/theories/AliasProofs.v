(** * AliasProofs: views into a tuple during the stores of Alias.v (lemmas). *)
From Verif Require Import Base Tag TagProofs Codec CodecProofs Gear GearBase GearSearch GearProofs GearAlloc GearRealloc GearResize GearAsis Tuple TupleProofs TupleSteps TupleView TupleOps TupleMore
  TupleHist TupleFacts Traits Typed TypedProofs Alias.
From Coq Require Import ZifyBool ZifyNat.
Ltac Zify.zify_post_hook ::= Z.div_mod_to_equations.

(** ** Stores with the units known beforehand *)
Lemma assign_ref_by_const q s r disc v : assign_ref_by q s r (needed disc v) (fun _ _ => pay v) = assign_ref q s r disc v.
Proof. reflexivity. Qed.
Lemma store_by_const q s t disc v : fixed_genus (goal_genus s t) = false ->
  store_by q s t disc (v_empty v) (Z.of_nat (length (pay v))) (fun _ _ => pay v) = run1 q s (goal_op t disc v).
Proof.
  intros F. destruct t as [desc|desc|j]; cbn [goal_genus] in F; cbn [store_by goal_op run1].
  - rewrite F. unfold assign_stretchy. fold (needed disc v). destruct (lookup_gid s desc); reflexivity.
  - unfold append_loose. rewrite F. destruct (negb disc && v_empty v); [reflexivity|]. unfold new_by, void.
    destruct (alloc_loose q s desc (Z.of_nat (length (pay v)))); reflexivity.
  - reflexivity.
Qed.

(** the states in which a setter writes: only the target has changed its place *)
Definition writing (s : st) (r : ref) (n : Z) (s1 : st) : Prop :=
  same s s1 (only r) /\ Inv s1 (Lset (plen s) r n) /\ live s1 r.
Lemma assign_ref_by_eq s r n w w' : TInv s -> live s r -> stretchy_ref s r = true -> 0 <= n < 65536 -> calm_ref s r n = true ->
  (forall s1, writing s r n s1 -> w s1 (raddr s1 r) = w' s1 (raddr s1 r)) ->
  assign_ref_by asis s r n w = assign_ref_by asis s r n w'.
Proof.
  intros T Hl Hst Hn Hc W. pose proof (t_inv _ T) as Ti. pose proof (v_acc _ _ Ti) as H.
  destruct (stretchy_not _ _ Hst) as [F1 F2]. unfold calm_ref in Hc. apply andb_prop in Hc. destruct Hc as [Hc _]. apply andb_prop in Hc. destruct Hc as [Hr Hs].
  unfold assign_ref_by. cbv zeta. destruct (rrel s r =? 0) eqn:Er; cbn [negb].
  - assert (P0 : plen s r = 0) by (unfold plen; rewrite F1, Er; reflexivity).
    destruct (n =? 0) eqn:En; [reflexivity|].
    destruct (lookup_fit_spec s (plen s) n H ltac:(lia)) as (o & Eo & Ho). unfold alloc_data. rewrite Eo.
    assert (Ho' : forall h, o = Some h -> nzh s h /\ n <= hunits (idx s h)) by (intros h ->; destruct Ho as (X & Y & _); auto).
    pose proof (alloc_data_at_spec s (plen s) n o Ti ltac:(lia) Ho') as A.
    destruct (alloc_data_at s n o) as [c s0|s0|]; cbn [bind]; [|reflexivity|contradiction].
    destruct A as (G & S1 & _). assert (Hl1 : live s0 r) by (apply (f_live _ _ _ S1); auto).
    destruct (attach s0 (plen s) r c n G Hl1 P0) as (A1 & A2 & A3 & A4 & A5 & A6).
    assert (Wr : writing s r n (set_rpayload s0 r c)).
    { split; [|split; assumption]. eapply same_trans; [eapply same_weaken; [exact S1|intros x []]|exact A2]. }
    apply W in Wr. rewrite A4 in Wr. cbv zeta. rewrite Wr. reflexivity.
  - assert (Hp : brutto (rgenus s r) (dat s (raddr s r)) = plen s r) by (unfold plen; rewrite F1, Er; reflexivity).
    rewrite Hp. assert (Hpos : 0 < plen s r) by (apply (t_pos _ T); auto; lia).
    destruct (n =? plen s r) eqn:En.
    { rewrite W; [reflexivity|]. split; [apply same_refl'|]. split; [|exact Hl].
      apply Inv_Llive with (L := plen s); [intros r' _|intros r'|exact Ti].
      - destruct (ref_eq_dec r' r) as [->|N]; [rewrite Lset_same; lia|rewrite Lset_other by assumption; reflexivity].
      - destruct (ref_eq_dec r' r) as [->|N]; [rewrite Lset_same; lia|rewrite Lset_other by assumption; apply plen_nonneg]. }
    destruct (n =? 0) eqn:En0; [reflexivity|].
    unfold roomy in Hr. rewrite Er, En, En0 in Hr. cbn [orb] in Hr. apply Bool.negb_true_iff in Hr.
    cbn [orb] in Hs. apply Bool.negb_true_iff in Hs.
    rewrite !realloc_data_asis by (auto; apply (live_bounds s (plen s) H r Hl Hpos)).
    pose proof (realloc_data_spec s (plen s) r n Ti Hl Hpos ltac:(lia) ltac:(lia) Hr) as Q.
    destruct (realloc_data repaired s r (plen s r) n) as [o s1|s1|]; cbn [bind]; [|reflexivity|contradiction].
    rewrite W; [reflexivity|]. exact (conj (z_same _ _ _ _ _ Q) (conj (z_inv _ _ _ _ _ Q) (z_live _ _ _ _ _ Q))).
Qed.
Lemma new_by_eq s desc n w w' : TInv s -> real_desc desc -> 0 <= n < 65536 -> calm_new s n = true ->
  (forall s1 k, ~ live s (RL k) -> writing s (RL k) n s1 -> w s1 (addr s1 k) = w' s1 (addr s1 k)) ->
  new_by asis s desc n w = new_by asis s desc n w'.
Proof.
  intros T D Hn Hc W. unfold calm_new in Hc. apply Bool.negb_true_iff in Hc. unfold new_by. rewrite alloc_loose_asis by assumption.
  pose proof (alloc_loose_spec s (plen s) desc n (t_inv _ T) Hn (proj1 D) (real_not_hole _ _ D)) as Q.
  destruct (alloc_loose repaired s desc n) as [k s1|s1|]; cbn [bind]; [|reflexivity|contradiction].
  destruct Q as (Q1 & Q2 & Q3 & Q4 & Q5 & _). rewrite W; [reflexivity|exact Q1|]. split; [exact Q4|]. split; assumption.
Qed.

(** ** Bytes of the area *)
Lemma zlen_area s p n : 0 <= n -> zlen (area_bytes s p n) = n.
Proof. intros H. unfold area_bytes, zlen. rewrite map_length, seq_length. lia. Qed.
Lemma area_byte_range s p : isbyte (area_byte s p).
Proof.
  unfold area_byte. assert (F : Forall isbyte (unit_bytes (dat s (p / 4)))) by (unfold unit_bytes, isbyte; repeat (apply Forall_cons; [lia|]); apply Forall_nil).
  rewrite Forall_forall in F. apply F, nth_In. change (length (unit_bytes (dat s (p / 4)))) with 4%nat. lia.
Qed.
Lemma area_bytes_range s p n : Forall isbyte (area_bytes s p n).
Proof. unfold area_bytes. apply Forall_forall. intros x H. apply in_map_iff in H. destruct H as (i & <- & _). apply area_byte_range. Qed.
Lemma area_bytes_ext s s' p n : (forall x, p <= x < p + n -> dat s' (x / 4) = dat s (x / 4)) -> area_bytes s' p n = area_bytes s p n.
Proof.
  intros H. unfold area_bytes. apply map_ext_in. intros i Hi. apply in_seq in Hi. unfold area_byte. rewrite H by lia. reflexivity.
Qed.
Lemma write_units_other s c ws x : ~ (c <= x < c + Z.of_nat (length ws)) -> dat (write_units s c ws) x = dat s x.
Proof. intros H. unfold write_units. cbn [dat with_dat]. replace ((c <=? x) && (x <? c + Z.of_nat (length ws))) with false by lia. reflexivity. Qed.
Lemma write_units_in s c ws x : c <= x < c + Z.of_nat (length ws) -> dat (write_units s c ws) x = nth (Z.to_nat (x - c)) ws 0.
Proof. intros H. unfold write_units. cbn [dat with_dat]. replace ((c <=? x) && (x <? c + Z.of_nat (length ws))) with true by lia. reflexivity. Qed.

Lemma unpack_length ws : zlen (unpack ws) = 4 * Z.of_nat (length ws).
Proof. unfold unpack. induction ws as [|w ws IH]; [reflexivity|]. cbn [flat_map length]. rewrite zlen_app, IH. change (zlen (unit_bytes w)) with 4. lia. Qed.
Lemma unpack_nth ws i : 0 <= i < 4 * Z.of_nat (length ws) -> nth (Z.to_nat i) (unpack ws) 0 = nth (Z.to_nat (i mod 4)) (unit_bytes (nth (Z.to_nat (i / 4)) ws 0)) 0.
Proof.
  revert i. unfold unpack. induction ws as [|w ws IH]; intros i H; [cbn [length] in H; lia|]. cbn [flat_map length] in *.
  rewrite nth_app_z. change (zlen (unit_bytes w)) with 4. rewrite Z2Nat.id by lia. destruct (i <? 4) eqn:E.
  - replace (i mod 4) with i by lia. replace (i / 4) with 0 by lia. reflexivity.
  - replace (Z.to_nat i - length (unit_bytes w))%nat with (Z.to_nat (i - 4)) by (change (length (unit_bytes w)) with 4%nat; lia).
    rewrite IH by lia. replace ((i - 4) mod 4) with (i mod 4) by lia. replace (Z.to_nat (i / 4)) with (S (Z.to_nat ((i - 4) / 4))) by lia. reflexivity.
Qed.
Lemma unpack_bytes ws : Forall isbyte (unpack ws).
Proof.
  unfold unpack. apply Forall_flat_map. apply Forall_forall. intros w _. unfold unit_bytes, isbyte.
  repeat (apply Forall_cons; [lia|]). apply Forall_nil.
Qed.
Lemma read_units_length s a n : 0 <= n -> Z.of_nat (length (read_units s a n)) = n.
Proof. intros H. unfold read_units. rewrite map_length, seq_length. lia. Qed.
Lemma read_units_nth s a n i : 0 <= i < n -> nth (Z.to_nat i) (read_units s a n) 0 = dat s (a + i).
Proof.
  intros H. unfold read_units. rewrite (nth_indep _ 0 (dat s (a + Z.of_nat 0))) by (rewrite map_length, seq_length; lia).
  rewrite (map_nth (fun i => dat s (a + Z.of_nat i))), seq_nth by lia. f_equal. lia.
Qed.
Lemma nth_firstn_lt {A} (d : A) n i : (i < n)%nat -> forall l, nth i (firstn n l) d = nth i l d.
Proof. revert i. induction n as [|n IH]; intros i H l; [lia|]. destruct l as [|x l]; [destruct i; reflexivity|]. destruct i as [|i]; [reflexivity|]. cbn. apply IH. lia. Qed.
Lemma nth_skipn' {A} (d : A) n i : forall l, nth i (skipn n l) d = nth (n + i) l d.
Proof. induction n as [|n IH]; intros l; [reflexivity|]. destruct l as [|x l]; [destruct i; reflexivity|]. cbn. apply IH. Qed.
(** the bytes behind a view, seen from the units that hold them *)
Lemma area_peek s a u p n : 0 <= u -> 4 * a <= p -> 0 <= n -> p + n <= 4 * (a + u) ->
  area_bytes s p n = peek (unpack (read_units s a u)) (p - 4 * a) n.
Proof.
  intros U P N E. assert (ZL : zlen (unpack (read_units s a u)) = 4 * u) by (rewrite unpack_length, read_units_length; lia).
  assert (ZP : zlen (peek (unpack (read_units s a u)) (p - 4 * a) n) = n).
  { unfold peek, zlen in *. rewrite firstn_length, skipn_length. lia. }
  apply zlen_ext; [rewrite zlen_area by lia; lia|]. intros i Hi. assert (Hz : Z.of_nat i < n) by (pose proof (zlen_area s p n N) as L; unfold zlen in L; lia).
  unfold area_bytes. rewrite (nth_indep _ 0 (area_byte s (p + Z.of_nat 0))) by (rewrite map_length, seq_length; lia).
  rewrite (map_nth (fun i => area_byte s (p + Z.of_nat i))), seq_nth by lia. unfold peek.
  rewrite nth_firstn_lt by lia. rewrite nth_skipn'. replace (Z.to_nat (p - 4 * a) + i)%nat with (Z.to_nat (p - 4 * a + Z.of_nat i)) by lia.
  rewrite unpack_nth by (rewrite read_units_length by lia; lia). rewrite read_units_nth by lia. unfold area_byte.
  replace (p + Z.of_nat (0 + i)) with (p + Z.of_nat i) by lia.
  replace ((p - 4 * a + Z.of_nat i) mod 4) with ((p + Z.of_nat i) mod 4) by lia. replace (a + (p - 4 * a + Z.of_nat i) / 4) with ((p + Z.of_nat i) / 4) by lia. reflexivity.
Qed.

(** ** The store functions, split at their memcpy *)
Lemma string_split m v : string_store m v = blit (string_head m (zlen v)) (string_place (zlen v)) v.
Proof. unfold string_store, string_head, string_place. cbv zeta. destruct (zlen v >=? tiny_threshold); reflexivity. Qed.
Lemma varbin_split m v : varbin_store m v = blit (varbin_head m (zlen v)) 4 v.
Proof. reflexivity. Qed.
Lemma property_split m v id : property_store m v id = blit (property_head m (zlen v) id) 2 v.
Proof. reflexivity. Qed.
Lemma nested_split m t : nested_store m (Some t) = blit (nested_head m) 0 (peek t 0 (units2bytes (u16_at t 0))).
Proof. reflexivity. Qed.
Lemma zlen_blit m off bs : 0 <= off -> off + zlen bs <= zlen m -> zlen (blit m off bs) = zlen m.
Proof. intros A B. unfold zlen at 1. rewrite blit_length by assumption. reflexivity. Qed.
Ltac zb := rewrite ?zlen_cons; change (zlen (@nil Z)) with 0;
  lazymatch goal with |- context [zlen (blit ?m ?o ?b)] => rewrite (zlen_blit m o b); [zb|lia|zb] | _ => first [reflexivity|lia] end.
Lemma string_units_bounds n : 0 <= n -> 4 * (string_units n - 1) < n + string_place n <= 4 * string_units n /\ 1 <= string_units n.
Proof. intros N. unfold string_units, string_place, tiny_threshold. rewrite bytes2units_div. destruct (n <? 254) eqn:E; replace (n >=? 254) with (negb (n <? 254)) by lia; rewrite E; cbn [negb]; lia. Qed.
Lemma zlen_string_head m n : 0 <= n -> zlen m = 4 * string_units n -> zlen (string_head m n) = zlen m.
Proof.
  intros N L. destruct (string_units_bounds n N) as [B1 B2]. unfold string_head, string_place in *. cbv zeta. unfold u16_bytes.
  destruct (n >=? tiny_threshold); zb.
Qed.
Lemma zlen_varbin_head m n : 0 <= n -> zlen m = 4 * (bytes2units n + 1) -> zlen (varbin_head m n) = zlen m.
Proof.
  intros N L. rewrite bytes2units_div in L. unfold varbin_head. cbv zeta. rewrite bytes2units_div. unfold u16_bytes.
  zb.
Qed.
Lemma zlen_property_head m n id : 0 <= n -> zlen m = 4 * bytes2units (n + 2) -> zlen (property_head m n id) = zlen m.
Proof.
  intros N L. rewrite bytes2units_div in L. unfold property_head. rewrite bytes2units_div.
  zb.
Qed.
Lemma zlen_nested_head m : 4 <= zlen m -> zlen (nested_head m) = zlen m.
Proof. intros L. unfold nested_head, u16_bytes. zb. Qed.

(** ** What is written when nothing disturbs the view *)
Definition lent_ok (s : st) (le : lent) : Prop :=
  match le with
  | LText _ n | LBin _ n => 0 <= n
  | LProp _ n id => 0 <= n /\ 0 <= id < 256
  | LNested u => 1 <= dat s u mod 65536
  end.
(** the units the view covers *)
Definition covers (s : st) (le : lent) (x : Z) : Prop :=
  match le with
  | LText p n | LBin p n | LProp p n _ => exists y, p <= y < p + n /\ x = y / 4
  | LNested u => u <= x < u + dat s u mod 65536
  end.
Lemma u16_unpack ws : ws <> [] -> u16_at (unpack ws) 0 = nth 0 ws 0 mod 65536.
Proof. destruct ws as [|w ws]; [congruence|]. intros _. unfold u16_at, byte_at, unpack. change (Z.to_nat 0) with 0%nat. change (Z.to_nat (0 + 1)) with 1%nat. cbn [flat_map unit_bytes app nth]. lia. Qed.
Lemma pack_whole l n : zlen l = 4 * n -> Z.of_nat (length (pack l)) = n.
Proof. intros H. rewrite pack_length. pose proof (zlen_nonneg l). lia. Qed.
Lemma late_eq s s1 g le v c : (forall x, dat s1 x = dat s x) -> to_tv g (lent_value s le) = Some v -> lent_ok s le ->
  (forall x, covers s le x -> ~ (c <= x < c + Z.of_nat (length (pay v)))) -> late le (Z.of_nat (length (pay v))) s1 c = pay v.
Proof.
  intros D E K A.
  assert (AB : forall p n ws, Z.of_nat (length ws) = Z.of_nat (length (pay v)) -> (forall y, p <= y < p + n -> covers s le (y / 4)) ->
    area_bytes (write_units s1 c ws) p n = area_bytes s p n).
  { intros p n ws L Cv. apply area_bytes_ext. intros x Hx. rewrite write_units_other; [apply D|]. rewrite L. apply A, Cv, Hx. }
  assert (RL : forall n, 0 <= n -> zlen (unpack (read_units s1 c n)) = 4 * n).
  { intros n Hn. rewrite unpack_length, read_units_length; lia. }
  destruct le as [p n|p n|p n id|u]; cbn [lent_value to_tv lent_ok covers late] in *.
  - destruct (g =? g_text); [|discriminate]. rewrite (zlen_area s p n K) in E. destruct (string_estimate n) as [u|] eqn:Eu; [|discriminate].
    injection E as <-. cbn [pay] in *. apply string_estimate_spec in Eu; [|lia]. destruct Eu as [Mx ->]. destruct (string_units_bounds n K) as [B1 B2].
    assert (ZA : zlen (area_bytes s p n) = n) by (apply zlen_area; lia).
    rewrite string_store_enc in AB |- * by (rewrite ?zlen_blank, ?ZA; unfold string_max_length in *; lia).
    assert (ZE : zlen (string_enc (area_bytes s p n)) = 4 * string_units n).
    { destruct (string_enc_brutto (area_bytes s p n) ltac:(rewrite ZA; exact Mx)) as (_ & X & _). rewrite ZA in X. exact X. }
    rewrite (pack_whole _ _ ZE) in AB |- *. assert (ZM := RL (string_units n) ltac:(lia)). set (m := unpack (read_units s1 c (string_units n))) in *.
    rewrite AB; [|apply pack_whole; rewrite zlen_string_head; lia|intros y Hy; exists y; split; [exact Hy|reflexivity]].
    f_equal. rewrite <- (string_store_enc m) by (rewrite ?ZA; unfold string_max_length in *; lia). rewrite string_split, ZA. reflexivity.
  - destruct (g =? g_varbin); [|discriminate]. rewrite (zlen_area s p n K) in E. destruct (varbin_estimate n) as [u|] eqn:Eu; [|discriminate].
    assert (PV : pay v = pack (varbin_store (blank u) (area_bytes s p n))) by (apply (f_equal (fun o => match o with Some x => pay x | None => [] end)) in E; symmetry; exact E).
    clear E. rewrite PV in *. clear PV v. apply varbin_estimate_spec in Eu; [|lia]. destruct Eu as [Mx ->].
    assert (ZA : zlen (area_bytes s p n) = n) by (apply zlen_area; lia). assert (BU : bytes2units n = (n + 3) / 4) by apply bytes2units_div.
    rewrite varbin_store_enc in AB |- * by (rewrite ?zlen_blank, ?ZA; lia).
    assert (ZE : zlen (varbin_enc (area_bytes s p n)) = 4 * (bytes2units n + 1)).
    { destruct (varbin_enc_facts (area_bytes s p n) ltac:(rewrite ZA; lia)) as (_ & X & _). rewrite ZA in X. exact X. }
    rewrite (pack_whole _ _ ZE) in AB |- *. assert (ZM := RL (bytes2units n + 1) ltac:(lia)). set (m := unpack (read_units s1 c (bytes2units n + 1))) in *.
    rewrite AB; [|apply pack_whole; rewrite zlen_varbin_head; lia|intros y Hy; exists y; split; [exact Hy|reflexivity]].
    f_equal. rewrite <- (varbin_store_enc m) by (rewrite ?ZA; lia). rewrite varbin_split, ZA. reflexivity.
  - destruct K as [K I]. destruct (g =? g_property); [|discriminate]. rewrite (zlen_area s p n K) in E. destruct (property_estimate n) as [u|] eqn:Eu; [|discriminate].
    assert (PV : pay v = pack (property_store (blank u) (area_bytes s p n) id)) by (apply (f_equal (fun o => match o with Some x => pay x | None => [] end)) in E; symmetry; exact E).
    clear E. rewrite PV in *. clear PV v. apply property_estimate_spec in Eu; [|lia]. destruct Eu as [Mx ->].
    assert (ZA : zlen (area_bytes s p n) = n) by (apply zlen_area; lia). assert (BU : bytes2units (n + 2) = (n + 2 + 3) / 4) by apply bytes2units_div.
    rewrite property_store_enc in AB |- * by (rewrite ?zlen_blank, ?ZA; lia).
    assert (ZE : zlen (property_enc (area_bytes s p n) id) = 4 * bytes2units (n + 2)).
    { unfold property_enc. cbv zeta. rewrite !zlen_app, !zlen_cons, zlen_nil, ZA, zlen_repeat. lia. }
    rewrite (pack_whole _ _ ZE) in AB |- *. assert (ZM := RL (bytes2units (n + 2)) ltac:(lia)). set (m := unpack (read_units s1 c (bytes2units (n + 2)))) in *.
    rewrite AB; [|apply pack_whole; rewrite zlen_property_head; lia|intros y Hy; exists y; split; [exact Hy|reflexivity]].
    f_equal. rewrite <- (property_store_enc m) by (rewrite ?ZA; lia). rewrite property_split, ZA. reflexivity.
  - destruct (g =? g_nested); [|discriminate]. set (k := dat s u mod 65536) in *. set (t := unpack (read_units s u k)) in *.
    assert (PV : pay v = pack (nested_store (blank (nested_estimate (Some t))) (Some t))) by (apply (f_equal (fun o => match o with Some x => pay x | None => [] end)) in E; symmetry; exact E).
    clear E. rewrite PV in *. clear PV v. assert (ZT : zlen t = 4 * k) by (unfold t; rewrite unpack_length, read_units_length; lia).
    assert (UT : u16_at t 0 = k).
    { unfold t. rewrite u16_unpack. - change 0%nat with (Z.to_nat 0). rewrite read_units_nth by lia. rewrite Z.add_0_r. reflexivity.
      - intros E. apply (f_equal (@length Z)) in E. pose proof (read_units_length s u k ltac:(lia)) as L. rewrite E in L. cbn [length] in L. lia. }
    cbn [nested_estimate] in *. rewrite UT in *.
    destruct (nested_roundtrip (blank k) t ltac:(lia) ltac:(lia) ltac:(rewrite zlen_blank; lia)) as [ET _]. rewrite ET in AB, A |- *.
    rewrite (pack_whole t k ZT) in AB, A |- *. assert (ZM := RL k ltac:(lia)). set (m := unpack (read_units s1 c k)) in *.
    assert (PH : Z.of_nat (length (pack (nested_head m))) = k) by (apply pack_whole; rewrite zlen_nested_head; lia).
    assert (DU : dat (write_units s1 c (pack (nested_head m))) u = dat s u).
    { rewrite write_units_other; [apply D|]. rewrite PH. apply A. lia. }
    rewrite DU. fold k. rewrite AB; [|exact PH|intros y Hy; lia].
    f_equal. destruct (nested_roundtrip m t ltac:(lia) ltac:(lia) ltac:(lia)) as [EM _]. rewrite nested_split, UT in EM.
    rewrite (area_peek s u k (4 * u) (4 * k)) by lia. fold t. replace (4 * u - 4 * u) with 0 by lia. rewrite units2bytes_mul in EM. exact EM.
Qed.

(** ** The views the getters give *)
Record holds (s : st) (r : ref) : Prop := {
  h_live : live s r; h_stretchy : stretchy_ref s r = true; h_rel : rrel s r <> 0
}.
Lemma holds_facts s r : TInv s -> holds s r ->
  0 <= rgenus s r <= 3 /\ 0 < plen s r /\ value s r = read_units s (raddr s r) (plen s r) /\
  plen s r = stretchy_brutto_units (rgenus s r) (unit_bytes (dat s (raddr s r))) /\
  (forall i, 0 <= i < 4 -> byte_at (unpack (value s r)) i = byte_at (unit_bytes (dat s (raddr s r))) i).
Proof.
  intros T [L St R]. pose proof (t_pos _ T r L St R) as P. destruct (stretchy_not _ _ St) as [F1 F2].
  assert (V : value s r = read_units s (raddr s r) (plen s r)) by (unfold value; rewrite F2; reflexivity).
  split; [|split; [exact P|split; [exact V|split]]].
  - destruct r as [k|j]; cbn [rgenus].
    + unfold stretchy_ref, fixed_genus in St. cbn [rgenus] in St. pose proof (live_genus s k _ (t_inv _ T) L). lia.
    + pose proof (t_slot _ T j L). lia.
  - unfold plen. rewrite F1. replace (rrel s r =? 0) with false by lia. reflexivity.
  - intros i Hi. unfold byte_at. rewrite V, unpack_nth by (rewrite read_units_length; lia). replace (i / 4) with 0 by lia. replace (i mod 4) with i by lia.
    rewrite read_units_nth by lia. rewrite Z.add_0_r. reflexivity.
Qed.
Lemma byte_unit w i : 0 <= i < 4 -> 0 <= byte_at (unit_bytes w) i < 256.
Proof.
  intros H. assert (F : Forall isbyte (unit_bytes w)) by (unfold unit_bytes, isbyte; repeat (apply Forall_cons; [lia|]); apply Forall_nil).
  rewrite Forall_forall in F. apply F. unfold byte_at. apply nth_In. change (length (unit_bytes w)) with 4%nat. lia.
Qed.
Lemma text_length m : (forall i, 0 <= i < 4 -> 0 <= byte_at m i < 256) ->
  0 <= string_length m <= string_max_length /\ (if string_is_tiny m then 1 else 3) = string_place (string_length m) /\ string_brutto_units m = string_units (string_length m) /\
  (string_is_tiny m = true -> string_length m = byte_at m 0 /\ string_length m < 254) /\
  (string_is_tiny m = false -> 254 <= string_length m /\ 254 + string_length m mod 2 = byte_at m 0 /\ (string_length m - byte_at m 0) / 2 = u16_at m 1).
Proof.
  intros B. pose proof (B 0 ltac:(lia)) as B0. pose proof (B 1 ltac:(lia)) as B1. pose proof (B 2 ltac:(lia)) as B2.
  unfold string_length, string_place, string_units, string_brutto_units, string_is_tiny, string_max_length, tiny_threshold, u16_at in *.
  change (1 + 1) with 2. destruct (byte_at m 0 <? 254) eqn:E.
  - replace (byte_at m 0 >=? 254) with false by lia. rewrite E. split; [lia|]. split; [reflexivity|]. split; [f_equal; lia|]. split; [lia|discriminate].
  - set (n := byte_at m 0 + (byte_at m 1 + 256 * byte_at m 2) * 2). replace (n >=? 254) with true by lia. replace (n <? 254) with false by lia.
    split; [lia|]. split; [reflexivity|]. split; [f_equal; lia|]. split; [discriminate|]. intros _. lia.
Qed.
Lemma lend_facts s r v0 : TInv s -> holds s r -> from_units (rgenus s r) (value s r) = Some v0 ->
  (rgenus s r = g_varbin -> varbin_length (unpack (value s r)) <= 4 * (plen s r - 1)) ->
  lent_ok s (lend s r) /\ (forall x, covers s (lend s r) x -> raddr s r <= x < raddr s r + plen s r) /\ lent_value s (lend s r) = v0.
Proof.
  intros T H E O. destruct (holds_facts s r T H) as (G & P & V & B & Hd). unfold from_units, from_bytes in E. unfold lend.
  assert (HB : forall i, 0 <= i < 4 -> 0 <= byte_at (unpack (value s r)) i < 256) by (intros i Hi; rewrite Hd by lia; apply byte_unit; lia).
  set (m := unpack (value s r)) in *. set (a := raddr s r) in *. set (w := dat s a) in *.
  assert (U16 : forall i, 0 <= i < 3 -> u16_at m i = u16_at (unit_bytes w) i) by (intros i Hi; unfold u16_at; rewrite !Hd by lia; reflexivity).
  assert (MP : forall p n, 4 * a <= p -> 0 <= n -> p + n <= 4 * (a + plen s r) -> area_bytes s p n = peek m (p - 4 * a) n).
  { intros p n P1 P2 P3. unfold m. rewrite V. apply area_peek; lia. }
  destruct (rgenus s r =? g_text) eqn:E0.
  { destruct (text_length m HB) as (T1 & T2 & T3 & _). unfold string_read in E. destruct (string_is_pool_tag m); [discriminate|]. injection E as <-.
    assert (BB : plen s r = string_units (string_length m)).
    { rewrite <- T3, B. unfold stretchy_brutto_units. change 0 with g_text at 1. rewrite E0. unfold string_brutto_units, string_is_tiny, u16_at. rewrite !Hd by lia. reflexivity. }
    destruct (string_units_bounds (string_length m) ltac:(lia)) as [U1 U2]. rewrite T2 in *. set (pl := string_place (string_length m)) in *.
    assert (0 <= pl) by (unfold pl, string_place; destruct (_ >=? _); lia).
    split; [cbn [lent_ok]; lia|]. split; [intros x (y & Y & ->); lia|]. cbn [lent_value]. rewrite MP by lia. replace (4 * a + pl - 4 * a) with pl by lia. reflexivity. }
  destruct (rgenus s r =? g_varbin) eqn:E1.
  { injection E as <-. specialize (O ltac:(lia)). set (n := varbin_length m) in *. assert (N0 : 0 <= n) by (unfold n, varbin_length, u64; change (2 ^ 64) with 18446744073709551616; lia).
    split; [cbn [lent_ok]; lia|]. split; [intros x (y & Y & ->); lia|]. cbn [lent_value]. rewrite MP by lia. unfold varbin_read. rewrite app_nil_r.
    replace (4 * a + 4 - 4 * a) with 4 by lia. reflexivity. }
  destruct (rgenus s r =? g_nested) eqn:E2.
  { injection E as <-. assert (BB : plen s r = w mod 65536).
    { rewrite B. unfold stretchy_brutto_units. change 0 with g_text at 1. change 1 with g_varbin at 1. change 2 with g_nested at 1. rewrite E0, E1, E2. unfold nested_brutto_units.
      unfold u16_at, byte_at. change (Z.to_nat 0) with 0%nat. change (Z.to_nat (0 + 1)) with 1%nat. cbn [unit_bytes nth]. lia. }
    split; [cbn [lent_ok]; fold w; lia|]. split; [intros x Hx; cbn [covers] in Hx; fold w in Hx; lia|]. cbn [lent_value]. fold w. rewrite <- BB, <- V. reflexivity. }
  assert (E3 : rgenus s r =? g_property = true) by (unfold g_text, g_varbin, g_nested, g_property in *; lia). rewrite E3 in E. injection E as <-.
  assert (BB : plen s r = bytes2units (2 + byte_at m 0)).
  { rewrite B. unfold stretchy_brutto_units. change 0 with g_text at 1. change 1 with g_varbin at 1. change 2 with g_nested at 1. rewrite E0, E1, E2. unfold property_brutto_units. rewrite Hd by lia. reflexivity. }
  rewrite bytes2units_div in BB. pose proof (HB 0 ltac:(lia)) as B0. pose proof (HB 1 ltac:(lia)) as B1.
  split; [cbn [lent_ok]; lia|]. split; [intros x (y & Y & ->); lia|]. cbn [lent_value property_read fst snd]. rewrite MP by lia. replace (4 * a + 2 - 4 * a) with 2 by lia. reflexivity.
Qed.

(** ** A field stored in itself *)
Lemma area_written s a u m p n : Forall isbyte m -> zlen m = 4 * u -> 0 <= u -> 4 * a <= p -> 0 <= n -> p + n <= 4 * (a + u) ->
  area_bytes (write_units s a (pack m)) p n = peek m (p - 4 * a) n.
Proof.
  intros F Z U P N E. rewrite (area_peek _ a u p n) by lia. assert (PL : u = Z.of_nat (length (pack m))) by (symmetry; apply pack_whole; exact Z).
  rewrite PL, read_write, unpack_whole; [reflexivity|exact F|lia].
Qed.
Lemma zlen_peek m off n : 0 <= off -> 0 <= n -> off + n <= zlen m -> zlen (peek m off n) = n.
Proof. intros A B C. unfold peek, zlen in *. rewrite firstn_length, skipn_length. lia. Qed.
Lemma nth_peek m off n i : 0 <= off -> Z.of_nat i < n -> nth i (peek m off n) 0 = nth (Z.to_nat off + i) m 0.
Proof. intros A B. unfold peek. rewrite nth_firstn_lt by lia. apply nth_skipn'. Qed.
Lemma blit_peek m off n : 0 <= off -> 0 <= n -> off + n <= zlen m -> blit m off (peek m off n) = m.
Proof.
  intros A B C. pose proof (zlen_peek m off n A B C) as ZP. apply zlen_ext; [apply zlen_blit; lia|]. intros i _. rewrite nth_blit by lia. rewrite ZP.
  destruct ((off <=? Z.of_nat i) && (Z.of_nat i <? off + n)) eqn:E; [|reflexivity]. rewrite nth_peek by lia. f_equal. lia.
Qed.
Lemma blit_bytes m off bs : Forall isbyte m -> Forall isbyte bs -> Forall isbyte (blit m off bs).
Proof.
  intros A B. unfold blit. assert (FF : forall k (l : list Z), Forall isbyte l -> Forall isbyte (firstn k l) /\ Forall isbyte (skipn k l)).
  { intros k l H. rewrite <- (firstn_skipn k l) in H. apply Forall_app in H. exact H. }
  apply Forall_app. split; [apply FF, A|]. apply Forall_app. split; [exact B|apply FF, A].
Qed.
Lemma byte_u8 x : isbyte (u8 x).
Proof. unfold isbyte, u8. change (2 ^ 8) with 256. lia. Qed.
Lemma bytes_u16 x : Forall isbyte (u16_bytes x).
Proof. unfold u16_bytes, u16, isbyte. change (2 ^ 16) with 65536. repeat (apply Forall_cons; [lia|]). apply Forall_nil. Qed.
Lemma four_zeros : Forall isbyte [0; 0; 0; 0].
Proof. repeat (apply Forall_cons; [apply byte0|]). apply Forall_nil. Qed.
Lemma string_head_bytes m n : Forall isbyte m -> Forall isbyte (string_head m n).
Proof.
  intros F. unfold string_head. cbv zeta. destruct (n >=? tiny_threshold); repeat apply blit_bytes; try apply four_zeros; try apply bytes_u16; try exact F;
    (apply Forall_cons; [apply byte_u8|apply Forall_nil]).
Qed.
Lemma varbin_head_bytes m n : Forall isbyte m -> Forall isbyte (varbin_head m n).
Proof. intros F. unfold varbin_head. cbv zeta. repeat apply blit_bytes; try apply four_zeros; try apply bytes_u16; exact F. Qed.
Lemma property_head_bytes m n id : Forall isbyte m -> Forall isbyte (property_head m n id).
Proof. intros F. unfold property_head. repeat apply blit_bytes; try apply four_zeros; try exact F; (apply Forall_cons; [apply byte_u8|apply Forall_nil]). Qed.

(** the last bytes are zeros *)
Definition spoil (k : Z) (b : list Z) : list Z := firstn (Z.to_nat k) b ++ repeat 0 (length b - Z.to_nat k).
Lemma spoil_length k b : zlen (spoil k b) = zlen b.
Proof. unfold spoil. rewrite zlen_app. unfold zlen. rewrite firstn_length, repeat_length. lia. Qed.
Lemma spoil_nth k b i : nth i (spoil k b) 0 = if Z.of_nat i <? k then nth i b 0 else 0.
Proof.
  unfold spoil. rewrite nth_app_z. unfold zlen. rewrite firstn_length. destruct (Z.of_nat i <? Z.of_nat (Nat.min (Z.to_nat k) (length b))) eqn:E.
  - replace (Z.of_nat i <? k) with true by lia. apply nth_firstn_lt. lia.
  - rewrite nth_repeat0. destruct (Z.of_nat i <? k) eqn:E2; [|reflexivity]. rewrite nth_overflow by lia. reflexivity.
Qed.
Lemma head_peek (h m : list Z) last pl n : 0 <= pl -> 0 <= n -> pl + n <= zlen m -> zlen h = zlen m ->
  (forall i, pl <= Z.of_nat i < pl + n -> nth i h 0 = if last <=? Z.of_nat i then 0 else nth i m 0) -> peek h pl n = spoil (last - pl) (peek m pl n).
Proof.
  intros P N B L H. apply zlen_ext; [rewrite spoil_length, !zlen_peek; lia|]. intros i Hi.
  assert (Hz : Z.of_nat i < n) by (pose proof (zlen_peek h pl n P N ltac:(lia)) as Z; unfold zlen in Z; lia).
  rewrite spoil_nth, !nth_peek by lia. rewrite H by lia. destruct (last <=? Z.of_nat (Z.to_nat pl + i)) eqn:E; [replace (Z.of_nat i <? last - pl) with false by lia|replace (Z.of_nat i <? last - pl) with true by lia]; reflexivity.
Qed.
Ltac nb := lazymatch goal with
  | |- context [nth ?i (blit ?m ?o ?b) 0] => rewrite (nth_blit m o b i); [|lia|zb]; rewrite ?zlen_cons; change (zlen (@nil Z)) with 0
  end.
Lemma string_head_nth m n i : 0 <= n -> zlen m = 4 * string_units n -> string_place n <= Z.of_nat i < string_place n + n ->
  nth i (string_head m n) 0 = if 4 * (string_units n - 1) <=? Z.of_nat i then 0 else nth i m 0.
Proof.
  intros N L I. destruct (string_units_bounds n N) as [B1 B2]. unfold string_head, string_place in *. cbv zeta. unfold u16_bytes. destruct (n >=? tiny_threshold) eqn:E.
  - nb. replace ((1 <=? Z.of_nat i) && (Z.of_nat i <? 1 + (1 + (1 + 0)))) with false by lia. nb. replace ((0 <=? Z.of_nat i) && (Z.of_nat i <? 0 + (1 + 0))) with false by lia.
    nb. replace ((0 <=? Z.of_nat i) && (Z.of_nat i <? 0 + (1 + 0))) with false by lia. nb. rewrite nth_zeros4.
    replace (Z.of_nat i <? 4 * (string_units n - 1) + (1 + (1 + (1 + (1 + 0))))) with true by lia. rewrite Bool.andb_true_r. reflexivity.
  - nb. replace ((0 <=? Z.of_nat i) && (Z.of_nat i <? 0 + (1 + 0))) with false by lia. nb. rewrite nth_zeros4.
    replace (Z.of_nat i <? 4 * (string_units n - 1) + (1 + (1 + (1 + (1 + 0))))) with true by lia. rewrite Bool.andb_true_r. reflexivity.
Qed.
Lemma varbin_head_nth m n i : 0 <= n -> zlen m = 4 * (bytes2units n + 1) -> 4 <= Z.of_nat i < 4 + n ->
  nth i (varbin_head m n) 0 = if 4 * bytes2units n <=? Z.of_nat i then 0 else nth i m 0.
Proof.
  intros N L I. rewrite bytes2units_div in *. unfold varbin_head. cbv zeta. rewrite bytes2units_div. unfold u16_bytes.
  nb. replace ((2 <=? Z.of_nat i) && (Z.of_nat i <? 2 + (1 + (1 + 0)))) with false by lia. nb. replace ((0 <=? Z.of_nat i) && (Z.of_nat i <? 0 + (1 + (1 + 0)))) with false by lia.
  nb. rewrite nth_zeros4. replace (4 * ((n + 3) / 4 + 1 - 1)) with (4 * ((n + 3) / 4)) by lia.
  replace (Z.of_nat i <? 4 * ((n + 3) / 4) + (1 + (1 + (1 + (1 + 0))))) with true by lia. rewrite Bool.andb_true_r. reflexivity.
Qed.
Lemma property_head_nth m n id i : 0 <= n -> zlen m = 4 * bytes2units (n + 2) -> 2 <= Z.of_nat i < 2 + n ->
  nth i (property_head m n id) 0 = if 4 * (bytes2units (n + 2) - 1) <=? Z.of_nat i then 0 else nth i m 0.
Proof.
  intros N L I. rewrite bytes2units_div in *. unfold property_head. rewrite bytes2units_div.
  nb. replace ((1 <=? Z.of_nat i) && (Z.of_nat i <? 1 + (1 + 0))) with false by lia. nb. replace ((0 <=? Z.of_nat i) && (Z.of_nat i <? 0 + (1 + 0))) with false by lia.
  nb. rewrite nth_zeros4. replace (Z.of_nat i <? 4 * ((n + 2 + 3) / 4 - 1) + (1 + (1 + (1 + (1 + 0))))) with true by lia. rewrite Bool.andb_true_r. reflexivity.
Qed.

(** the value without the bytes in its last unit *)
Definition spoiled (v : tval) : tval :=
  match v with
  | TText b => TText (spoil (4 * (string_units (zlen b) - 1) - string_place (zlen b)) b)
  | TBin b => TBin (spoil (zlen b - 4) b)
  | TProp b id => TProp (spoil (4 * (bytes2units (zlen b + 2) - 1) - 2) b) id
  | _ => v
  end.
Lemma pay_of g v t : to_tv g v = Some t -> pay t = match v with
  | TText b => pack (string_store (blank (string_units (zlen b))) b)
  | TBin b => pack (varbin_store (blank (bytes2units (zlen b) + 1)) b)
  | TNested t0 => match t0 with Some _ => pack (nested_store (blank (nested_estimate t0)) t0) | None => [] end
  | TProp b id => pack (property_store (blank (bytes2units (zlen b + 2))) b id)
  | TFixed b => if is_inplaced_genus g then [cell g b] else pack b
  end.
Proof.
  intros E. apply (f_equal (fun o => match o with Some x => Some (pay x) | None => None end)) in E. destruct v as [b|b|t0|b id|b]; cbn [to_tv] in E.
  - destruct (g =? g_text); [|discriminate]. unfold string_estimate in E. destruct (zlen b >? string_max_length); [discriminate|]. cbn [pay] in E. congruence.
  - destruct (g =? g_varbin); [|discriminate]. unfold varbin_estimate in E. cbv zeta in E. destruct (bytes2units (zlen b) + 1 >? 65535); [discriminate|]. cbn [pay] in E. congruence.
  - destruct (g =? g_nested); [|discriminate]. cbn [pay] in E. congruence.
  - destruct (g =? g_property); [|discriminate]. unfold property_estimate in E. destruct (zlen b >? 255); [discriminate|]. cbn [pay] in E. congruence.
  - destruct ((g_i8 <=? g) && (g <? g_hole) && (zlen b =? value_size g)); [|discriminate]. cbn [pay] in E. congruence.
Qed.
Lemma empty_of g v t : to_tv g v = Some t -> v_empty t = is_empty g v.
Proof.
  intros E. apply (f_equal (fun o => match o with Some x => Some (v_empty x) | None => None end)) in E. destruct v as [b|b|t0|b id|b]; cbn [to_tv] in E.
  - destruct (g =? g_text); [|discriminate]. destruct (string_estimate (zlen b)); [|discriminate]. cbn [v_empty] in E. congruence.
  - destruct (g =? g_varbin); [|discriminate]. destruct (varbin_estimate (zlen b)); [|discriminate]. cbn [v_empty] in E. congruence.
  - destruct (g =? g_nested); [|discriminate]. cbn [v_empty] in E. congruence.
  - destruct (g =? g_property); [|discriminate]. destruct (property_estimate (zlen b)); [|discriminate]. cbn [v_empty] in E. congruence.
  - destruct ((g_i8 <=? g) && (g <? g_hole) && (zlen b =? value_size g)); [|discriminate]. cbn [v_empty] in E. congruence.
Qed.
Lemma nil_zlen (b : list Z) : match b with [] => true | _ => false end = (zlen b =? 0).
Proof. destruct b; [reflexivity|]. rewrite zlen_cons. pose proof (zlen_nonneg b). lia. Qed.
Lemma empty_spoiled g v : is_empty g (spoiled v) = is_empty g v.
Proof.
  destruct v as [b|b|t0|b id|b]; try reflexivity; cbn [spoiled is_empty].
  - rewrite !nil_zlen, spoil_length. reflexivity.
  - rewrite !nil_zlen, spoil_length. reflexivity.
  - transitivity ((zlen (spoil (4 * (bytes2units (zlen b + 2) - 1) - 2) b) =? 0) && (id =? 0)).
    + rewrite <- nil_zlen. destruct (spoil _ b); reflexivity.
    + rewrite spoil_length, <- nil_zlen. destruct b; reflexivity.
Qed.
Lemma self_late s r v0 : TInv s -> holds s r -> from_units (rgenus s r) (value s r) = Some v0 -> rgenus s r <> g_nested ->
  (rgenus s r = g_varbin -> varbin_length (unpack (value s r)) <= 4 * (plen s r - 1)) ->
  exists v v', to_tv (rgenus s r) v0 = Some v /\ to_tv (rgenus s r) (spoiled v0) = Some v' /\ Z.of_nat (length (pay v)) = plen s r /\ Z.of_nat (length (pay v')) = plen s r /\
    late (lend s r) (plen s r) s (raddr s r) = pay v' /\ wf_pay (rgenus s r) (pay v') /\ good (spoiled v0).
Proof.
  intros T H E NN O. destruct (holds_facts s r T H) as (G & P & V & B & Hd). destruct (lend_facts s r v0 T H E O) as (K & W & LV).
  assert (HB : forall i, 0 <= i < 4 -> 0 <= byte_at (unpack (value s r)) i < 256) by (intros i Hi; rewrite Hd by lia; apply byte_unit; lia).
  assert (MB : Forall isbyte (unpack (value s r))) by apply unpack_bytes.
  assert (ML : zlen (unpack (value s r)) = 4 * plen s r) by (rewrite V, unpack_length, read_units_length; lia).
  assert (SP : forall k b, Forall isbyte b -> Forall isbyte (spoil k b)).
  { intros k b F. unfold spoil. apply Forall_app. split; [|apply isbyte_repeat]. rewrite <- (firstn_skipn (Z.to_nat k) b) in F. apply Forall_app in F. apply F. }
  assert (PB : forall o n, Forall isbyte (peek (unpack (value s r)) o n)).
  { intros o n. unfold peek. assert (FF : forall k (l : list Z), Forall isbyte l -> Forall isbyte (firstn k l) /\ Forall isbyte (skipn k l)).
    { intros k l F. rewrite <- (firstn_skipn k l) in F. apply Forall_app in F. exact F. } apply FF, FF, MB. }
  unfold from_units, from_bytes in E. unfold lend, late in *. rewrite <- V.
  set (m := unpack (value s r)) in *. set (a := raddr s r) in *. set (w := dat s a) in *. set (u := plen s r) in *.
  assert (Kp : forall v0 v', good (spoiled v0) -> to_tv (rgenus s r) (spoiled v0) = Some v' -> wf_pay (rgenus s r) (pay v')).
  { intros x v' Gx Tx. apply (kp_wf _ _ _ (to_tv_kept (rgenus s r) (spoiled x) v' ltac:(lia) Gx Tx)). }
  destruct (rgenus s r =? g_text) eqn:E0.
  { destruct (text_length m HB) as (T1 & T2 & T3 & _). unfold string_read in E. destruct (string_is_pool_tag m); [discriminate|]. injection E as <-.
    assert (BB : u = string_units (string_length m)).
    { rewrite <- T3. rewrite B. unfold stretchy_brutto_units. change 0 with g_text at 1. rewrite E0. unfold string_brutto_units, string_is_tiny, u16_at. rewrite !Hd by lia. reflexivity. }
    rewrite T2 in *. set (n := string_length m) in *. destruct (string_units_bounds n ltac:(lia)) as [U1 U2]. set (pl := string_place n) in *.
    assert (P0 : 0 <= pl) by (unfold pl, string_place; destruct (_ >=? _); lia). rewrite BB in ML.
    assert (ZP : zlen (peek m pl n) = n) by (apply zlen_peek; lia).
    assert (G' : good (spoiled (TText (peek m pl n)))) by (cbn [spoiled good]; apply SP, PB).
    assert (PK : peek (string_head m n) pl n = spoil (4 * (string_units n - 1) - pl) (peek m pl n)).
    { apply head_peek; try lia; [apply zlen_string_head; lia|]. intros i Hi. apply string_head_nth; [lia|exact ML|exact Hi]. }
    cbn [spoiled] in *. rewrite ZP in *. cbn [to_tv]. rewrite E0. rewrite spoil_length, ZP.
    assert (SE : string_estimate n = Some (string_units n)) by (unfold string_estimate; replace (n >? string_max_length) with false by lia; reflexivity).
    rewrite SE. eexists. eexists. split; [reflexivity|]. split; [reflexivity|]. cbn [pay].
    assert (PLn : forall b, zlen b = n -> Z.of_nat (length (pack (string_store (blank (string_units n)) b))) = string_units n).
    { intros b Zb. apply pack_whole. rewrite string_store_enc by (rewrite ?zlen_blank, Zb; lia). destruct (string_enc_brutto b ltac:(rewrite Zb; lia)) as (_ & X & _). rewrite X, Zb. reflexivity. }
    rewrite !PLn by (rewrite ?spoil_length; exact ZP). split; [lia|]. split; [lia|]. split; [|split; [|exact G']].
    - rewrite (area_written s a u) by (try apply string_head_bytes; try rewrite zlen_string_head; try assumption; lia). replace (4 * a + pl - 4 * a) with pl by lia.
      f_equal. fold pl. rewrite PK.
      transitivity (string_store m (spoil (4 * (string_units n - 1) - pl) (peek m pl n))).
      + rewrite string_split, spoil_length, ZP. reflexivity.
      + rewrite !string_store_enc by (rewrite ?zlen_blank, ?spoil_length, ?ZP; lia). reflexivity.
    - match goal with |- wf_pay _ ?w => apply (Kp (TText (peek m pl n)) (mkV (is_empty (rgenus s r) (spoiled (TText (peek m pl n)))) w)) end; cbn [spoiled]; rewrite ?ZP; [exact G'|]. cbn [to_tv]. rewrite E0, spoil_length, ZP, SE. reflexivity. }
  destruct (rgenus s r =? g_varbin) eqn:E1.
  { injection E as <-. specialize (O ltac:(lia)). assert (BB : u = u16_at m 0).
    { rewrite B. unfold stretchy_brutto_units. change 0 with g_text at 1. change 1 with g_varbin at 1. rewrite E0, E1. unfold varbin_brutto_units, u16_at. rewrite !Hd by lia. reflexivity. }
    pose proof (u16_at_range m MB) as UR. set (n := varbin_length m) in *.
    assert (N0 : n = 4 * (u - 1)).
    { unfold n in *. unfold varbin_length in *. rewrite units2bytes_mul, <- BB, land3 in *. unfold u64 in *. change (2 ^ 64) with 18446744073709551616 in *. lia. }
    assert (BU : bytes2units n = u - 1) by (rewrite bytes2units_div; lia).
    unfold varbin_read in *. rewrite app_nil_r in *. fold n in LV |- *. assert (ZP : zlen (peek m 4 n) = n) by (apply zlen_peek; lia).
    assert (G' : good (spoiled (TBin (peek m 4 n)))).
    { cbn [spoiled good]. split; [apply SP, PB|]. rewrite spoil_length, ZP. lia. }
    assert (PK : peek (varbin_head m n) 4 n = spoil (n - 4) (peek m 4 n)).
    { replace (n - 4) with (4 * bytes2units n - 4) by lia. apply head_peek; try lia; [apply zlen_varbin_head; lia|]. intros i Hi. apply varbin_head_nth; lia. }
    cbn [spoiled] in *. rewrite ZP in *. cbn [to_tv]. rewrite E1. rewrite spoil_length, ZP.
    assert (SE : varbin_estimate n = Some u) by (unfold varbin_estimate; cbv zeta; rewrite BU; replace (u - 1 + 1 >? 65535) with false by lia; f_equal; lia).
    rewrite SE. eexists. eexists. split; [reflexivity|]. split; [reflexivity|]. cbn [pay].
    assert (PLn : forall b, zlen b = n -> Z.of_nat (length (pack (varbin_store (blank u) b))) = u).
    { intros b Zb. apply pack_whole. rewrite varbin_store_enc by (rewrite ?zlen_blank, Zb; lia). destruct (varbin_enc_facts b ltac:(rewrite Zb; lia)) as (_ & X & _). rewrite X, Zb. lia. }
    rewrite !PLn by (rewrite ?spoil_length; exact ZP). split; [lia|]. split; [lia|]. split; [|split; [|exact G']].
    - rewrite (area_written s a u) by (try apply varbin_head_bytes; try rewrite zlen_varbin_head; try assumption; lia). replace (4 * a + 4 - 4 * a) with 4 by lia.
      f_equal. rewrite PK. transitivity (varbin_store m (spoil (n - 4) (peek m 4 n))).
      + rewrite varbin_split, spoil_length, ZP. reflexivity.
      + rewrite !varbin_store_enc by (rewrite ?zlen_blank, ?spoil_length, ?ZP; lia). reflexivity.
    - match goal with |- wf_pay _ ?w => apply (Kp (TBin (peek m 4 n)) (mkV (is_empty (rgenus s r) (spoiled (TBin (peek m 4 n)))) w)) end; cbn [spoiled]; rewrite ?ZP; [exact G'|]. cbn [to_tv]. rewrite E1, spoil_length, ZP, SE. reflexivity. }
  destruct (rgenus s r =? g_nested) eqn:E2; [exfalso; apply NN; lia|].
  assert (E3 : rgenus s r =? g_property = true) by (unfold g_text, g_varbin, g_nested, g_property in *; lia). rewrite E3 in E. injection E as <-.
  assert (BB : u = bytes2units (byte_at m 0 + 2)).
  { rewrite B. unfold stretchy_brutto_units. change 0 with g_text at 1. change 1 with g_varbin at 1. change 2 with g_nested at 1. rewrite E0, E1, E2. unfold property_brutto_units. rewrite Hd by lia. f_equal. lia. }
  pose proof (HB 0 ltac:(lia)) as B0. pose proof (HB 1 ltac:(lia)) as B1. set (n := byte_at m 0) in *. set (id := byte_at m 1) in *.
  assert (BU := bytes2units_div (n + 2)).
  cbn [property_read fst snd] in *. fold n id in LV |- *. assert (ZP : zlen (peek m 2 n) = n) by (apply zlen_peek; lia).
  assert (G' : good (spoiled (TProp (peek m 2 n) id))) by (cbn [spoiled good]; split; [apply SP, PB|lia]).
  assert (PK : peek (property_head m n id) 2 n = spoil (4 * (bytes2units (n + 2) - 1) - 2) (peek m 2 n)).
  { apply head_peek; try lia; [apply zlen_property_head; lia|]. intros i Hi. apply property_head_nth; lia. }
  cbn [spoiled] in *. rewrite ZP in *. cbn [to_tv]. rewrite E3. rewrite spoil_length, ZP.
  assert (SE : property_estimate n = Some u) by (unfold property_estimate; replace (n >? 255) with false by lia; rewrite BB; reflexivity).
  rewrite SE. eexists. eexists. split; [reflexivity|]. split; [reflexivity|]. cbn [pay].
  assert (PLn : forall b, zlen b = n -> Z.of_nat (length (pack (property_store (blank u) b id))) = u).
  { intros b Zb. apply pack_whole. rewrite property_store_enc by (rewrite ?zlen_blank, ?Zb; lia). unfold property_enc. cbv zeta. rewrite !zlen_app, !zlen_cons, zlen_nil, Zb, zlen_repeat. lia. }
  rewrite !PLn by (rewrite ?spoil_length; exact ZP). split; [lia|]. split; [lia|]. split; [|split; [|exact G']].
  - rewrite (area_written s a u) by (try apply property_head_bytes; try rewrite zlen_property_head; try assumption; lia). replace (4 * a + 2 - 4 * a) with 2 by lia.
    f_equal. rewrite PK. transitivity (property_store m (spoil (4 * (bytes2units (n + 2) - 1) - 2) (peek m 2 n)) id).
    + rewrite property_split, spoil_length, ZP. reflexivity.
    + rewrite !property_store_enc by (rewrite ?zlen_blank, ?spoil_length, ?ZP; lia). reflexivity.
  - match goal with |- wf_pay _ ?w => apply (Kp (TProp (peek m 2 n) id) (mkV (is_empty (rgenus s r) (spoiled (TProp (peek m 2 n) id))) w)) end; cbn [spoiled]; rewrite ?ZP; [exact G'|]. cbn [to_tv]. rewrite E3, spoil_length, ZP, SE. reflexivity.
Qed.
Lemma nested_head_zero m : 4 <= zlen m -> exists rest, nested_head m = 0 :: 0 :: 0 :: 0 :: rest /\ zlen rest = zlen m - 4.
Proof.
  intros H. destruct m as [|a [|b [|c [|d rest]]]]; try (unfold zlen in H; cbn [length] in H; lia). exists rest. split; [reflexivity|]. rewrite !zlen_cons. lia.
Qed.
Lemma nested_late s r : TInv s -> holds s r -> rgenus s r = g_nested -> exists ws, late (LNested (raddr s r)) (plen s r) s (raddr s r) = 0 :: ws /\ Z.of_nat (length ws) = plen s r - 1.
Proof.
  intros T H G. destruct (holds_facts s r T H) as (_ & P & V & _). unfold late. rewrite <- V. set (m := unpack (value s r)).
  assert (ML : zlen m = 4 * plen s r) by (unfold m; rewrite V, unpack_length, read_units_length; lia).
  destruct (nested_head_zero m ltac:(lia)) as (rest & -> & RL). cbn [pack]. exists (pack rest). cbv zeta.
  rewrite write_units_in by (cbn [length]; lia). rewrite Z.sub_diag. change (nth (Z.to_nat 0) (0 + 256 * 0 + 65536 * 0 + 16777216 * 0 :: pack rest) 0 mod 65536) with 0.
  unfold area_bytes. cbn [Z.mul Z.to_nat seq map]. unfold blit. cbn [Z.to_nat firstn app length Nat.add skipn pack].
  split; [reflexivity|]. rewrite pack_length. lia.
Qed.
