(** * PropertiesTyped: C77, typed values through editing, compaction and serialisation. *)
From Verif Require Import Base Tag TagProofs Codec CodecProofs Gear GearBase GearSearch GearProofs GearAlloc GearRealloc Tuple TupleProofs TupleSteps TupleView TupleOps TupleMore
  TupleHist TupleFacts PropertiesTuple GearOpt GearOptProofs GearSortProofs PropertiesOpt Growth GrowthProofs PropertiesGrowth Traits Typed TypedProofs
  Hippeus HippeusProofs Scan Audit AuditProofs Image ImageProofs PropertiesImage.
From Coq Require Import ZifyBool ZifyNat.
Ltac Zify.zify_post_hook ::= Z.div_mod_to_equations.

(** ** The old contents of a chunk never show *)
Theorem C77_no_stale_bytes : forall m1 m2 : list Z, zlen m1 = zlen m2 ->
  (forall b, string_estimate (zlen b) = Some (zlen m1 / 4) -> zlen m1 mod 4 = 0 -> string_store m1 b = string_store m2 b) /\
  (forall b, varbin_estimate (zlen b) = Some (zlen m1 / 4) -> zlen m1 mod 4 = 0 -> varbin_store m1 b = varbin_store m2 b) /\
  (forall b id, 0 <= id < 256 -> property_estimate (zlen b) = Some (zlen m1 / 4) -> zlen m1 mod 4 = 0 -> property_store m1 b id = property_store m2 b id) /\
  (forall t, 1 <= u16_at t 0 -> zlen t = 4 * u16_at t 0 -> zlen m1 = zlen t -> nested_store m1 (Some t) = nested_store m2 (Some t)).
Proof.
  intros m1 m2 L. split; [|split; [|split]].
  - intros b E M. apply string_estimate_spec in E; [|apply zlen_nonneg]. destruct E as [H1 H2].
    rewrite !string_store_enc by (unfold string_max_length in *; lia). reflexivity.
  - intros b E M. pose proof (zlen_nonneg b). apply varbin_estimate_spec in E; [|assumption]. destruct E as [H1 H2]. pose proof (bytes2units_div (zlen b)).
    rewrite !varbin_store_enc by lia. reflexivity.
  - intros b id I E M. pose proof (zlen_nonneg b). apply property_estimate_spec in E; [|assumption]. destruct E as [H1 H2]. pose proof (bytes2units_div (zlen b + 2)).
    rewrite !property_store_enc by lia. reflexivity.
  - intros t P Z1 Z2. destruct (nested_roundtrip m1 t P Z1 ltac:(lia)) as [-> _]. destruct (nested_roundtrip m2 t P Z1 ltac:(lia)) as [-> _]. reflexivity.
Qed.
Example C77_stale_case : string_estimate (zlen [104; 105]) = Some 1 /\ string_store [255; 255; 255; 255] [104; 105] = string_store [0; 0; 0; 0] [104; 105].
Proof. vm_compute. split; reflexivity. Qed.

(** ** Values become valid calls *)
Lemma real_genus desc : real_desc desc -> 0 <= descriptor2genus desc < 31.
Proof.
  intros [R N]. assert (C : 0 <= descriptor2genus desc < 32).
  { rewrite descriptor2genus_arith. lia. }
  unfold g_hole in N. lia.
Qed.
Theorem C77_values_are_valid : forall multi s desc disc v t, real_desc desc -> multi desc = false -> good v ->
  to_tv (descriptor2genus desc) v = Some t -> valid multi s (OSet desc disc t).
Proof. intros multi s desc disc v t D M G E. cbn [valid]. split; [exact D|]. split; [exact M|]. apply (to_tv_kept _ v); [apply real_genus; exact D|assumption|assumption]. Qed.
Example C77_valid_case : good (TText [104; 105]) /\ to_tv g_text (TText [104; 105]) <> None /\ good (TFixed [1; 2; 3; 4; 5; 6; 7; 8]) /\ to_tv g_i64 (TFixed [1; 2; 3; 4; 5; 6; 7; 8]) <> None.
Proof. split; [repeat constructor; discriminate|]. split; [vm_compute; discriminate|]. split; [repeat constructor; discriminate|vm_compute; discriminate]. Qed.

(** ** Readers of the serialised bytes *)
(** the newest entry of the index with the descriptor, and the value behind it, byte by byte *)
Fixpoint image_find (m : bmem) (ptr desc : Z) (n : nat) : option nat :=
  match n with
  | O => None
  | S k => if half m (ro_pivot m ptr - 4 * (Z.of_nat k + 1) + 2) =? desc then Some k else image_find m ptr desc k
  end.
Definition bytes_at (m : bmem) (p n : Z) : list Z := map (fun i => m (p + Z.of_nat i)) (seq 0 (Z.to_nat n)).
Definition image_value (m : bmem) (ptr desc : Z) : option (option tval) :=
  match image_find m ptr desc (Z.to_nat (ro_index m ptr)) with
  | None => None
  | Some k =>
    let a := ro_pivot m ptr - 4 * (Z.of_nat k + 1) in
    let g := descriptor2genus desc in
    if is_inplaced_genus g then Some (from_bytes g (bytes_at m a 2))
    else if half m a =? 0 then None
    else let p := a + 4 * half m a in
      Some (from_bytes g (bytes_at m p (4 * (if g >? g_property then loose_units g else brutto_at m g p))))
  end.
Definition image_slot_value (m : bmem) (ptr g off : Z) : option (option tval) :=
  let a := ro_pivot m ptr + off in
  if half m a =? 0 then None
  else let p := a + 4 * half m a in Some (from_bytes g (bytes_at m p (4 * brutto_at m g p))).
Lemma bytes_words m p n : bytes_mem m -> bytes_at m p (4 * Z.of_nat n) = unpack (map (fun i => word_at m (p + 4 * Z.of_nat i)) (seq 0 n)).
Proof.
  intros B. induction n as [|n IH]; [reflexivity|]. rewrite seq_S, map_app. unfold unpack in *. rewrite flat_map_app, <- IH.
  unfold bytes_at. replace (Z.to_nat (4 * Z.of_nat (S n))) with (Z.to_nat (4 * Z.of_nat n) + 4)%nat by lia. rewrite seq_app, map_app. f_equal.
  cbn [map flat_map]. rewrite app_nil_r, !Nat.add_0_l. unfold word_at, half.
  pose proof (B (p + 4 * Z.of_nat n)) as B0. pose proof (B (p + 4 * Z.of_nat n + 1)) as B1. pose proof (B (p + 4 * Z.of_nat n + 2)) as B2. pose proof (B (p + 4 * Z.of_nat n + 2 + 1)) as B3.
  replace (m (p + 4 * Z.of_nat n) + 256 * m (p + 4 * Z.of_nat n + 1) + 65536 * (m (p + 4 * Z.of_nat n + 2) + 256 * m (p + 4 * Z.of_nat n + 2 + 1)))
    with (m (p + 4 * Z.of_nat n) + 256 * m (p + 4 * Z.of_nat n + 1) + 65536 * m (p + 4 * Z.of_nat n + 2) + 16777216 * m (p + 4 * Z.of_nat n + 2 + 1)) by lia.
  rewrite unit_bytes_four by assumption. cbn [seq map]. repeat (apply (f_equal2 cons); [apply (f_equal m); lia|]). reflexivity.
Qed.
Lemma asis_bytes_mem A s : bytes_mem (asis_mem A s).
Proof. intros a. unfold asis_mem, bytes_of. apply Z.mod_pos_bound. lia. Qed.
Lemma image_find_lookup s A desc : TInv s -> Z.of_nat (cnt s) <= max_fields ->
  image_find (asis_mem A s) (asis_ptr A s) desc (Z.to_nat (ro_index (asis_mem A s) (asis_ptr A s))) = lookup_gid s desc.
Proof.
  intros T Few. pose proof (seen_cfg s T) as C. assert (Big : tail s - head s + 1 <= 65535) by (unfold head, base in *; lia).
  rewrite (asis_index A s T Few Big), Nat2Z.id. unfold lookup_gid. assert (H : (cnt s <= cnt s)%nat) by lia. revert H. generalize (cnt s) at 1 3 4.
  induction n as [|n IH]; intros H; [reflexivity|]. cbn [image_find scan_down]. rewrite IH by lia. rewrite (asis_pivot A s T Few Big).
  pose proof (proj2 (seen_entry A s (asis_word s) T (asis_agrees A s) n ltac:(lia))) as E. unfold e_desc, entry_addr in E. unfold asis_mem. rewrite E. reflexivity.
Qed.
Lemma image_loose s A desc ws : TInv s -> distinct_slots s -> Z.of_nat (cnt s) <= max_fields -> real_desc desc -> get_loose s desc = Some ws ->
  image_value (asis_mem A s) (asis_ptr A s) desc = Some (from_units (descriptor2genus desc) (map u32 ws)).
Proof.
  intros T DS Few D G. pose proof (real_genus desc D) as RG. unfold image_value. rewrite (image_find_lookup s A desc T Few). unfold get_loose in G. destruct (lookup_gid s desc) as [k|] eqn:EK; [|discriminate].
  destruct (lookup_some s desc k D EK) as [L Ed].
  destruct (fixed_genus (descriptor2genus desc) || negb (rel (idx s k) =? 0)) eqn:EF; [|discriminate]. injection G as <-.
  destruct (readers_see s A T DS Few) as [R _]. specialize (R k). rewrite (field_live s (RL k) L) in R. cbn [as_u32 rdesc] in R. rewrite Ed in R.
  pose proof (seen_cfg s T) as C. assert (Big : tail s - head s + 1 <= 65535) by (unfold head, base in *; lia).
  unfold ro_loose in R. cbv zeta in R. set (m := asis_mem A s) in *. set (ptr := asis_ptr A s) in *.
  destruct ((Z.of_nat k <? ro_index m ptr) && negb (descriptor2genus (half m (ro_pivot m ptr - 4 * (Z.of_nat k + 1) + 2)) =? g_hole)); [|discriminate].
  assert (R1 : half m (ro_pivot m ptr - 4 * (Z.of_nat k + 1) + 2) = desc) by congruence. rewrite R1 in R. cbv zeta.
  assert (ER : half m (ro_pivot m ptr - 4 * (Z.of_nat k + 1)) = rel (idx s k)).
  { unfold m at 1, ptr. unfold m. rewrite (asis_pivot A s T Few Big). pose proof (proj1 (seen_entry A s (asis_word s) T (asis_agrees A s) k (proj1 L))) as E. exact E. }
  set (a := ro_pivot m ptr - 4 * (Z.of_nat k + 1)) in *. set (g := descriptor2genus desc) in *. pose proof (asis_bytes_mem A s) as B. fold m in B.
  destruct (is_inplaced_genus g) eqn:EI.
  - assert (V : map u32 (value s (RL k)) = [half m a]) by congruence. rewrite V. f_equal. unfold from_units, unpack. cbn [flat_map]. rewrite app_nil_r.
    assert (G4 : 4 <= g <= 7) by (unfold is_inplaced_genus, g_i8, g_u8, g_i16, g_u16 in EI; lia).
    rewrite !from_fixed by lia. do 2 f_equal. unfold half. pose proof (B a) as B0. pose proof (B (a + 1)) as B1.
    pose proof (unit_bytes_four (m a) (m (a + 1)) 0 0 B0 B1 byte0 byte0) as U. rewrite !Z.mul_0_r, !Z.add_0_r in U. rewrite U.
    unfold bytes_at. change (Z.to_nat 2) with 2%nat. cbn [seq map]. change (Z.of_nat 0) with 0. change (Z.of_nat 1) with 1. rewrite Z.add_0_r.
    assert (VS : Z.to_nat (value_size g) = 1%nat \/ Z.to_nat (value_size g) = 2%nat).
    { assert (g = 4 \/ g = 5 \/ g = 6 \/ g = 7) as [-> | [-> | [-> | ->]]] by lia; vm_compute; auto. }
    destruct VS as [-> | ->]; reflexivity.
  - assert (NZ : half m a =? 0 = false).
    { rewrite ER. destruct (fixed_genus g) eqn:FG; [|cbn [orb] in EF; apply Bool.negb_true_iff in EF; exact EF].
      destruct (rel (idx s k) =? 0) eqn:E0; [exfalso|reflexivity].
      pose proof (v_acc _ _ (t_inv _ T)) as acc. assert (PL : plen s (RL k) = loose_units g).
      { unfold plen. cbn [rgenus]. unfold egenus. rewrite Ed. fold g. rewrite FG. reflexivity. }
      destruct (fixed_sizes g ltac:(unfold fixed_genus in FG; lia) EI) as (S1 & S2 & _).
      destruct (live_bounds s (plen s) acc (RL k) L ltac:(lia)) as [H1 H2]. unfold raddr in H1. cbn [rown rrel] in H1. unfold own, base in H1. lia. }
    rewrite NZ in *. f_equal. unfold from_units. f_equal.
    set (n := if g >? g_property then loose_units g else brutto_at m g (a + 4 * half m a)) in *.
    assert (V : map u32 (value s (RL k)) = map (fun i => word_at m (a + 4 * half m a + 4 * Z.of_nat i)) (seq 0 (Z.to_nat n))) by congruence.
    rewrite V. rewrite <- (bytes_words m _ (Z.to_nat n) B). unfold bytes_at. do 2 f_equal. lia.
Qed.
Lemma image_slot s A j ws : TInv s -> distinct_slots s -> Z.of_nat (cnt s) <= max_fields -> (j < nslots s)%nat -> get_slot s j = Some ws ->
  image_slot_value (asis_mem A s) (asis_ptr A s) (stype s j) (4 * soff s j) = Some (from_units (stype s j) (map u32 ws)).
Proof.
  intros T DS Few Hj G. unfold get_slot in G. destruct (pre s j =? 0) eqn:E0; [discriminate|]. injection G as <-.
  destruct (readers_see s A T DS Few) as [_ R]. specialize (R j Hj). rewrite <- R.
  pose proof (seen_cfg s T) as C. assert (Big : tail s - head s + 1 <= 65535) by (unfold head, base in *; lia).
  unfold image_slot_value, ro_slot. cbv zeta.
  assert (E1 : half (asis_mem A s) (ro_pivot (asis_mem A s) (asis_ptr A s) + 4 * soff s j) = pre s j).
  { rewrite (asis_pivot A s T Few Big). exact (seen_slot A s (asis_word s) T DS (asis_agrees A s) j Hj). }
  rewrite E1, E0. f_equal. unfold from_units. f_equal. rewrite <- (bytes_words _ _ _ (asis_bytes_mem A s)). unfold bytes_at. do 2 f_equal. lia.
Qed.

(** ** Histories *)
(** the calls that name a single field *)
Definition names (k : key) (o : op) : Prop :=
  match k, o with
  | KL desc, OSet d _ _ | KL desc, ORemove d => d = desc
  | KP j, OSlot i _ _ | KP j, OSlotDel i => i = j
  | _, _ => False
  end.
Lemma unnamed k o : ~ names k o -> wrote k o = None.
Proof.
  destruct k as [desc|j], o as [d b v|d|d b v|d|i|i b v|i]; cbn [names wrote key_eqb]; intros N; try reflexivity.
  all: match goal with |- (if ?c then _ else _) = _ => destruct c eqn:E; [exfalso|reflexivity] end; apply N; try lia; apply Nat.eqb_eq in E; congruence.
Qed.
Lemma last_write_app k h1 h2 : forall x, last_write k x (h1 ++ h2) = last_write k (last_write k x h1) h2.
Proof. induction h1 as [|[o b] h1 IH]; intros x; [reflexivity|]. cbn [app last_write]. apply IH. Qed.
Lemma last_write_idle k h : (forall o, In (o, true) h -> ~ names k o) -> forall x, last_write k x h = x.
Proof.
  induction h as [|[o b] h IH]; intros H x; [reflexivity|]. cbn [last_write]. rewrite IH by (intros o' I; apply H; right; exact I).
  destruct b; [|reflexivity]. rewrite (unnamed k o); [reflexivity|]. apply H. left. reflexivity.
Qed.
Lemma combine_split {A B} (l1 : list A) : forall (l2 : list A) (o1 o2 : list B), length o1 = length l1 -> combine (l1 ++ l2) (o1 ++ o2) = combine l1 o1 ++ combine l2 o2.
Proof. induction l1 as [|a l1 IH]; intros l2 [|b o1] o2 L; cbn [length] in L; try discriminate; [reflexivity|]. cbn [app combine]. rewrite IH by lia. reflexivity. Qed.
(** the value given by the last successful call that names the field *)
Lemma last_value multi s l1 o l2 outs1 outs2 s' k x : TInv s -> uniq multi s -> single_key multi s k -> calm_run multi s (l1 ++ o :: l2) ->
  run asis s (l1 ++ o :: l2) = Some (outs1 ++ true :: outs2, s') -> length outs1 = length l1 ->
  (forall o', In (o', true) (combine l2 outs2) -> ~ names k o') -> wrote k o = Some x ->
  TInv s' /\ uniq multi s' /\ nslots s' = nslots s /\ get s' k = x.
Proof.
  intros T U K C R L N W. destruct (history multi _ s T U C) as (outs & s1 & R1 & _ & T1 & U1 & N1 & G & _). rewrite R in R1. injection R1 as <- <-.
  split; [exact T1|]. split; [exact U1|]. split; [exact N1|]. rewrite (G k K), combine_split by exact L. cbn [combine]. rewrite last_write_app. cbn [last_write]. rewrite W. apply last_write_idle. exact N.
Qed.

Lemma run_stype multi l : forall s outs s', TInv s -> uniq multi s -> calm_run multi s l -> run asis s l = Some (outs, s') ->
  forall j, (j < nslots s)%nat -> stype s' j = stype s j.
Proof.
  induction l as [|o l IH]; intros s outs s' T U C R j Hj; cbn [run calm_run] in *; [congruence|].
  destruct C as (V & Cm & C). pose proof (step multi s o T U V Cm) as St. destruct (run1 asis s o) as [[] s1|s1|]; [| |contradiction].
  - destruct St as [T1 N1 S1 _ U1 _]. destruct (run asis s1 l) as [[o1 s2]|] eqn:E; [|discriminate]. injection R as <- <-.
    rewrite (IH s1 o1 s2 T1 U1 C E j ltac:(rewrite N1; exact Hj)). apply S1. exact Hj.
  - subst s1. destruct (run asis s l) as [[o1 s2]|] eqn:E; [|discriminate]. injection R as <- <-. exact (IH s o1 s2 T U C E j Hj).
Qed.

(** everything a program can do with a tuple in which a single field has a value: read it with a
    getter, read it after a compaction, and read it from the bytes of the serialised form *)
Record readable (s : st) (desc : Z) (v : tval) : Prop := {
  rb_see : forall disc, see s desc disc = Seen (Some v);
  rb_compact : forall srt disc, settled s -> sorter c_off srt -> see (compactify srt s) desc disc = Seen (Some v);
  rb_image : forall A, distinct_slots s -> Z.of_nat (cnt s) <= max_fields -> image_value (asis_mem A s) (asis_ptr A s) desc = Some (Some v)
}.
Record readable_slot (s : st) (j : nat) (v : tval) : Prop := {
  rs_see : forall disc, see_slot s j disc = Seen (Some v);
  rs_compact : forall srt disc, settled s -> sorter c_off srt -> see_slot (compactify srt s) j disc = Seen (Some v);
  rs_image : forall A, distinct_slots s -> Z.of_nat (cnt s) <= max_fields ->
    image_slot_value (asis_mem A s) (asis_ptr A s) (stype s j) (4 * soff s j) = Some (Some v)
}.
Lemma map_u32_id ws : Forall (fun w => 0 <= w < 4294967296) ws -> map u32 ws = ws.
Proof. induction 1 as [|w ws H _ IH]; [reflexivity|]. cbn [map]. rewrite IH. f_equal. unfold u32. change (2 ^ 32) with 4294967296. lia. Qed.
Lemma kept_readable s desc v t : TInv s -> real_desc desc -> kept (descriptor2genus desc) v t -> v <> TNested None -> get_loose s desc = Some (pay t) -> readable s desc v.
Proof.
  intros T D K V G. constructor.
  - intros disc. unfold see, read_loose. rewrite G. cbn [seen_of]. rewrite (kp_read _ _ _ K V). reflexivity.
  - intros srt disc [S1 S2] SR. pose proof (compactify_ok s srt T SR S1 S2) as KC. unfold see, read_loose. rewrite (compacted_get_loose s _ desc T KC D), G. cbn [seen_of].
    rewrite (kp_read _ _ _ K V). reflexivity.
  - intros A DS Few. rewrite (image_loose s A desc (pay t) T DS Few D G), (map_u32_id _ (kp_range _ _ _ K)), (kp_read _ _ _ K V). reflexivity.
Qed.
Lemma kept_readable_slot s j v t : TInv s -> (j < nslots s)%nat -> kept (stype s j) v t -> v <> TNested None -> get_slot s j = Some (pay t) -> readable_slot s j v.
Proof.
  intros T Hj K V G. constructor.
  - intros disc. unfold see_slot, read_slot. rewrite G. cbn [seen_of]. rewrite (kp_read _ _ _ K V). reflexivity.
  - intros srt disc [S1 S2] SR. pose proof (compactify_ok s srt T SR S1 S2) as KC. unfold see_slot, read_slot. rewrite (compacted_get_slot s _ j T KC Hj), G. cbn [seen_of].
    rewrite (k_stype _ _ KC), (kp_read _ _ _ K V). reflexivity.
  - intros A DS Few. rewrite (image_slot s A j (pay t) T DS Few Hj G), (map_u32_id _ (kp_range _ _ _ K)), (kp_read _ _ _ K V). reflexivity.
Qed.

(** A value set in a field stays readable, whatever is done to other fields and whatever calls on
    the field fail, until a call on the field succeeds. *)
Theorem C77_loose_partial : forall multi s l1 l2 outs1 outs2 s' desc disc v t, lived multi s -> real_desc desc -> multi desc = false ->
  good v -> to_tv (descriptor2genus desc) v = Some t -> v <> TNested None -> disc = true \/ is_empty (descriptor2genus desc) v = false ->
  calm_run multi s (l1 ++ OSet desc disc t :: l2) -> run asis s (l1 ++ OSet desc disc t :: l2) = Some (outs1 ++ true :: outs2, s') ->
  length outs1 = length l1 -> (forall o, In (o, true) (combine l2 outs2) -> ~ names (KL desc) o) -> readable s' desc v.
Proof.
  intros multi s l1 l2 outs1 outs2 s' desc disc v t Lv D M G E V NE C R Len N. destruct (lived_inv multi s Lv) as [T U].
  pose proof (to_tv_kept _ v t (real_genus desc D) G E) as K.
  destruct (last_value multi s l1 (OSet desc disc t) l2 outs1 outs2 s' (KL desc) (Some (pay t)) T U (conj D M) C R Len N) as (T' & _ & _ & Gt).
  - cbn [wrote key_eqb]. rewrite Z.eqb_refl. do 2 f_equal. replace (stores desc disc t) with true; [reflexivity|]. symmetry. unfold stores, needed. rewrite (kp_empty _ _ _ K).
    assert (B : disc || negb (is_empty (descriptor2genus desc) v) = true) by (destruct NE as [-> | ->]; [reflexivity|apply Bool.orb_true_r]).
    destruct (fixed_genus _); [destruct disc, (is_empty _ v); cbn in *; congruence|]. rewrite B.
    assert (pay t <> []) by (intros Q; apply V, (kp_nil _ _ _ K), Q). destruct (pay t); [congruence|reflexivity].
  - cbn [get] in Gt. apply (kept_readable s' desc v t); assumption.
Qed.
Theorem C77_slot_partial : forall multi s l1 l2 outs1 outs2 s' j disc v t, lived multi s -> (j < nslots s)%nat ->
  good v -> to_tv (stype s j) v = Some t -> v <> TNested None -> disc = true \/ is_empty (stype s j) v = false ->
  calm_run multi s (l1 ++ OSlot j disc t :: l2) -> run asis s (l1 ++ OSlot j disc t :: l2) = Some (outs1 ++ true :: outs2, s') ->
  length outs1 = length l1 -> (forall o, In (o, true) (combine l2 outs2) -> ~ names (KP j) o) -> readable_slot s' j v.
Proof.
  intros multi s l1 l2 outs1 outs2 s' j disc v t Lv Hj G E V NE C R Len N. destruct (lived_inv multi s Lv) as [T U]. pose proof (t_slot _ T j Hj) as TS.
  pose proof (run_stype multi _ s _ s' T U C R j Hj) as ST.
  pose proof (to_tv_kept (stype s j) v t ltac:(lia) G E) as K.
  destruct (last_value multi s l1 (OSlot j disc t) l2 outs1 outs2 s' (KP j) (Some (pay t)) T U Hj C R Len N) as (T' & _ & Ns & Gt).
  - cbn [wrote key_eqb]. rewrite Nat.eqb_refl. do 2 f_equal. unfold needed. rewrite (kp_empty _ _ _ K).
    assert (B : disc || negb (is_empty (stype s j) v) = true) by (destruct NE as [-> | ->]; [reflexivity|apply Bool.orb_true_r]). rewrite B.
    assert (pay t <> []) by (intros Q; apply V, (kp_nil _ _ _ K), Q). destruct (pay t); [congruence|reflexivity].
  - cbn [get] in Gt. rewrite <- ST in K. apply (kept_readable_slot s' j v t); try assumption. rewrite Ns. exact Hj.
Qed.

(** ** Empty values *)
(** Setting an empty value in a field that does not tell empty values from absent ones removes the
    field; the getter then gives the empty value of the type. *)
Theorem C77_empty_reads_empty : forall multi s l1 l2 outs1 outs2 s' desc v t, lived multi s -> real_desc desc -> multi desc = false ->
  good v -> to_tv (descriptor2genus desc) v = Some t -> is_empty (descriptor2genus desc) v = true ->
  calm_run multi s (l1 ++ OSet desc false t :: l2) -> run asis s (l1 ++ OSet desc false t :: l2) = Some (outs1 ++ true :: outs2, s') ->
  length outs1 = length l1 -> (forall o, In (o, true) (combine l2 outs2) -> ~ names (KL desc) o) ->
  see s' desc false = Seen (Some (empty_value (descriptor2genus desc))) /\ see s' desc true = Missing.
Proof.
  intros multi s l1 l2 outs1 outs2 s' desc v t Lv D M G E EM C R Len N. destruct (lived_inv multi s Lv) as [T U].
  pose proof (to_tv_kept _ v t (real_genus desc D) G E) as K.
  destruct (last_value multi s l1 (OSet desc false t) l2 outs1 outs2 s' (KL desc) None T U (conj D M) C R Len N) as (T' & _ & _ & Gt).
  - cbn [wrote key_eqb]. rewrite Z.eqb_refl. replace (stores desc false t) with false; [reflexivity|]. symmetry. unfold stores, needed. rewrite (kp_empty _ _ _ K), EM.
    destruct (fixed_genus _); reflexivity.
  - cbn [get] in Gt. unfold see, read_loose. rewrite Gt. split; reflexivity.
Qed.
(** the values that count as empty are the empty value of the type, minus zero, and a nested tuple
    that is a bare header *)
Definition minus_zero (g : Z) : tval := TFixed (repeat 0 (Z.to_nat (value_size g) - 1) ++ [128]).
Lemma zeros_of b : forallb (fun x => x =? 0) b = true -> b = repeat 0 (length b).
Proof. induction b as [|x b IH]; cbn [forallb length repeat]; intros H; [reflexivity|]. apply andb_prop in H. destruct H as [H1 H2]. rewrite <- (IH H2). f_equal. lia. Qed.
Theorem C77_what_is_empty : forall g v t, 0 <= g < 31 -> good v -> to_tv g v = Some t ->
  is_empty g v = true <-> v = empty_value g \/ ((g = g_f32 \/ g = g_f64) /\ v = minus_zero g) \/ (exists h, v = TNested (Some h) /\ u16_at h 0 = 1).
Proof.
  intros g v t R G E. destruct v as [b|b|[h|]|b id|b]; cbn [to_tv] in E; cbn [is_empty].
  - destruct (g =? g_text) eqn:EG; [|discriminate]. assert (g = g_text) by lia. subst g. change (empty_value g_text) with (TText []).
    split; [destruct b; [auto|discriminate]|]. intros [H | [[_ H] | (h & H & _)]]; [injection H as ->; reflexivity|discriminate|discriminate].
  - destruct (g =? g_varbin) eqn:EG; [|discriminate]. assert (g = g_varbin) by lia. subst g. change (empty_value g_varbin) with (TBin []).
    split; [destruct b; [auto|discriminate]|]. intros [H | [[_ H] | (h & H & _)]]; [injection H as ->; reflexivity|discriminate|discriminate].
  - destruct (g =? g_nested) eqn:EG; [|discriminate]. assert (g = g_nested) by lia. subst g. change (empty_value g_nested) with (TNested None).
    destruct G as (F & P & L). split.
    + intros H. right. right. exists h. split; [reflexivity|lia].
    + intros [H | [[_ H] | (h' & H & U)]]; [discriminate|discriminate|]. injection H as ->. lia.
  - destruct (g =? g_nested) eqn:EG; [|discriminate]. assert (g = g_nested) by lia. subst g. split; [intros _; left; reflexivity|reflexivity].
  - destruct (g =? g_property) eqn:EG; [|discriminate]. assert (g = g_property) by lia. subst g. change (empty_value g_property) with (TProp [] 0).
    split; [destruct b; [|discriminate]; intros H; left; f_equal; lia|]. intros [H | [[_ H] | (h & H & _)]]; [injection H as -> ->; reflexivity|discriminate|discriminate].
  - destruct ((g_i8 <=? g) && (g <? g_hole) && (zlen b =? value_size g)) eqn:EG; [|discriminate].
    assert (LB : zlen b = value_size g) by lia. assert (G4 : 4 <= g) by (unfold g_i8 in EG; lia).
    assert (EV : empty_value g = TFixed (repeat 0 (Z.to_nat (value_size g)))).
    { unfold empty_value, g_text, g_varbin, g_nested, g_property. replace (g =? 0) with false by lia. replace (g =? 1) with false by lia.
      replace (g =? 2) with false by lia. replace (g =? 3) with false by lia. reflexivity. }
    rewrite EV. assert (LN : Z.to_nat (value_size g) = length b) by (unfold zlen in LB; lia). unfold minus_zero. rewrite LN. split.
    + intros H. apply Bool.orb_prop in H. destruct H as [H|H]; [left; f_equal; apply zeros_of; exact H|]. right. left.
      apply andb_prop in H. destruct H as [H H3]. apply andb_prop in H. destruct H as [H1 H2]. split; [lia|]. f_equal.
      destruct b as [|x b] using rev_ind; [cbn in H3; discriminate|]. rewrite removelast_last in H2. rewrite last_last in H3. rewrite app_length. cbn [length].
      replace (length b + 1 - 1)%nat with (length b) by lia. f_equal; [apply zeros_of; exact H2|]. f_equal. lia.
    + intros [H | [[H1 H2] | (h & H & _)]]; [| |discriminate].
      * injection H as H. rewrite H. replace (forallb (fun x => x =? 0) (repeat 0 (length b))) with true; [reflexivity|]. symmetry. apply forallb_forall. intros x I. apply repeat_spec in I. lia.
      * injection H2 as H2. rewrite H2, removelast_last, last_last. replace (forallb (fun x => x =? 0) (repeat 0 (length b - 1))) with true;
          [|symmetry; apply forallb_forall; intros x I; apply repeat_spec in I; lia].
        destruct H1 as [-> | ->]; change (128 =? 128) with true; cbn; apply Bool.orb_true_r.
Qed.
Example C77_empty_case : is_empty g_text (TText []) = true /\ is_empty g_f64 (minus_zero g_f64) = true /\ is_empty g_f64 (TFixed [0;0;0;0;0;0;240;63]) = false /\
  is_empty g_nested (TNested (Some [1; 0; 0; 0])) = true.
Proof. vm_compute. repeat split. Qed.

(** ** Cases *)
Definition value_of (g : Z) (v : tval) : tv := match to_tv g v with Some t => t | None => mkV true [] end.
Definition hello : tval := TText [104; 101; 108; 108; 111].
Definition big_int : tval := TFixed [1; 2; 3; 4; 5; 6; 7; 136].
Definition typed_calls : list op :=
  [OSet (fd g_i64 6) false (value_of g_i64 big_int); OSet (fd g_text 1) false (value_of g_text hello); OSet (fd g_u16 3) true (value_of g_u16 (TFixed [0; 0]));
   OSet (fd g_i64 6) false (value_of g_i64 (TFixed (repeat 0 8))); OSet (fd g_property 4) false (value_of g_property (TProp [7; 8; 9] 200))].
Definition typed_more : list op := [OSlot 0 false (value_of g_varbin (TBin [1; 2; 3; 4])); ORemove (fd g_u16 3); OSet (fd g_bin512 8) true (value_of g_bin512 (TFixed (repeat 9 64)))].
Definition typed_end : st := final (new_tuple1 16 5) (typed_calls ++ typed_more).
Example C77_history_case : lived (fun _ => false) (new_tuple1 16 5) /\
  calm_run (fun _ => false) (new_tuple1 16 5) (typed_calls ++ typed_more) /\
  run asis (new_tuple1 16 5) (typed_calls ++ typed_more) = Some ([true; true; true; true; true; true; true; false], typed_end) /\
  good hello /\ to_tv g_text hello = Some (value_of g_text hello) /\ is_empty g_text hello = false.
Proof.
  assert (C : calm_runb (fun _ => false) (new_tuple1 16 5) (typed_calls ++ typed_more) = true) by (vm_compute; reflexivity).
  split. { apply l_reached. change (new_tuple1 16 5) with (final (new_tuple1 16 5) []). apply reached_final; [|vm_compute; reflexivity]. constructor; unfold no_slots, g_varbin; intros; lia. }
  split; [apply calm_runb_ok; exact C|]. split; [apply run_final; vm_compute; reflexivity|]. split; [repeat constructor; discriminate|]. split; vm_compute; reflexivity.
Qed.
Definition looks (x : seen) (v : tval) : bool :=
  match x, v with
  | Seen (Some (TText a)), TText b | Seen (Some (TBin a)), TBin b | Seen (Some (TFixed a)), TFixed b => if list_eq_dec Z.eq_dec a b then true else false
  | Seen (Some (TProp a i)), TProp b j => (if list_eq_dec Z.eq_dec a b then true else false) && (i =? j)
  | _, _ => false
  end.
Example C77_values_case : looks (see typed_end (fd g_text 1) false) hello = true /\ looks (see typed_end (fd g_property 4) false) (TProp [7; 8; 9] 200) = true /\
  looks (see typed_end (fd g_i64 6) false) (TFixed (repeat 0 8)) = true /\ looks (see_slot typed_end 0 false) (TBin [1; 2; 3; 4]) = true /\
  image_value (asis_mem 4096 typed_end) (asis_ptr 4096 typed_end) (fd g_text 1) = Some (Some hello) /\
  image_value (asis_mem 4096 typed_end) (asis_ptr 4096 typed_end) (fd g_property 4) = Some (Some (TProp [7; 8; 9] 200)) /\
  image_slot_value (asis_mem 4096 typed_end) (asis_ptr 4096 typed_end) g_varbin 0 = Some (Some (TBin [1; 2; 3; 4])).
Proof. vm_compute. repeat split. Qed.
(** in-place values too: a discernible zero, kept in the index *)
Example C77_inplace_case : looks (see (final (new_tuple1 16 5) typed_calls) (fd g_u16 3) true) (TFixed [0; 0]) = true /\
  image_value (asis_mem 4096 (final (new_tuple1 16 5) typed_calls)) (asis_ptr 4096 (final (new_tuple1 16 5) typed_calls)) (fd g_u16 3) = Some (Some (TFixed [0; 0])).
Proof. vm_compute. repeat split. Qed.

(** ** What is lost *)
(** Minus zero, set with success in a field that does not tell empty from absent, reads back as plus
    zero. *)
Theorem C77_minus_zero_refuted : exists s outs s', reached (fun _ => false) s /\ valid (fun _ => false) s (OSet (fd g_f64 2) false (value_of g_f64 (minus_zero g_f64))) /\
  to_tv g_f64 (minus_zero g_f64) <> None /\ good (minus_zero g_f64) /\
  run asis s [OSet (fd g_f64 2) false (value_of g_f64 (minus_zero g_f64))] = Some (outs, s') /\ outs = [true] /\
  see s' (fd g_f64 2) false = Seen (Some (TFixed (repeat 0 8))) /\ minus_zero g_f64 <> TFixed (repeat 0 8).
Proof.
  exists (new_tuple1 16 5), [true], (final (new_tuple1 16 5) [OSet (fd g_f64 2) false (value_of g_f64 (minus_zero g_f64))]).
  split. { change (new_tuple1 16 5) with (final (new_tuple1 16 5) []). apply reached_final; [|vm_compute; reflexivity]. constructor; unfold no_slots, g_varbin; intros; lia. }
  split. { apply validb_ok. vm_compute. reflexivity. }
  split; [vm_compute; discriminate|]. split; [repeat constructor; discriminate|]. split; [apply run_final; vm_compute; reflexivity|]. split; [reflexivity|].
  split; [vm_compute; reflexivity|vm_compute; discriminate].
Qed.
(** A nested tuple that is a bare header (a valid, empty tuple) reads back as a null pointer. *)
Theorem C77_empty_nested_refuted : exists s outs s' h, reached (fun _ => false) s /\ h = TNested (Some [1; 0; 0; 0]) /\
  valid (fun _ => false) s (OSet (fd g_nested 2) false (value_of g_nested h)) /\ to_tv g_nested h <> None /\ good h /\
  run asis s [OSet (fd g_nested 2) false (value_of g_nested h)] = Some (outs, s') /\ outs = [true] /\
  see s' (fd g_nested 2) false = Seen (Some (TNested None)).
Proof.
  exists (new_tuple1 16 5), [true], (final (new_tuple1 16 5) [OSet (fd g_nested 2) false (value_of g_nested (TNested (Some [1; 0; 0; 0])))]), (TNested (Some [1; 0; 0; 0])).
  split. { change (new_tuple1 16 5) with (final (new_tuple1 16 5) []). apply reached_final; [|vm_compute; reflexivity]. constructor; unfold no_slots, g_varbin; intros; lia. }
  split; [reflexivity|]. split. { apply validb_ok. vm_compute. reflexivity. }
  split; [vm_compute; discriminate|]. split. { split; [repeat constructor; discriminate|]. split; [vm_compute; discriminate|reflexivity]. }
  split; [apply run_final; vm_compute; reflexivity|]. split; [reflexivity|vm_compute; reflexivity].
Qed.
(** A binary whose length is no multiple of four comes back with a wrong length, in any tuple. *)
Theorem C77_odd_binary_refuted : exists b s outs s', reached (fun _ => false) s /\ Forall isbyte b /\
  run asis s [OSet (fd g_varbin 2) false (value_of g_varbin (TBin b))] = Some (outs, s') /\ outs = [true] /\
  to_tv g_varbin (TBin b) <> None /\ looks (see s' (fd g_varbin 2) false) (TBin b) = false.
Proof.
  exists [1; 2; 3; 4; 5], (new_tuple1 16 5), [true], (final (new_tuple1 16 5) [OSet (fd g_varbin 2) false (value_of g_varbin (TBin [1; 2; 3; 4; 5]))]).
  split. { change (new_tuple1 16 5) with (final (new_tuple1 16 5) []). apply reached_final; [|vm_compute; reflexivity]. constructor; unfold no_slots, g_varbin; intros; lia. }
  split; [repeat constructor; discriminate|]. split; [apply run_final; vm_compute; reflexivity|]. split; [reflexivity|]. split; [vm_compute; discriminate|vm_compute; reflexivity].
Qed.

(** ** C38. The header of a serialised tuple *)
(** What a nested tuple says about itself - its size, the number of its index entries, whether it is
    sorted, whether it has preplaced fields - is what the tuple was when it was serialised. *)
Theorem C38_nested_header : forall multi s rest, lived multi s -> Z.of_nat (cnt s) <= 8191 ->
  let t := unpack (header s :: rest) in
  nested_brutto_units t = tail s - head s + 1 /\ nested_index_size t = Z.of_nat (cnt s) /\
  nested_is_sorted t = false /\ nested_have_preplaced t = (pp s >? 0).
Proof.
  intros multi s rest L Few. destruct (lived_inv multi s L) as [T _]. cbv zeta.
  pose proof (seen_cfg s T) as C.
  assert (HD : head s = pivot s - Z.of_nat (cnt s)) by reflexivity.
  assert (H : 0 <= tail s - head s + 1) by lia. assert (Small : tail s - head s + 1 <= 65535) by lia.
  set (f := if pp s >? 0 then 2 else 0). assert (F : f = 0 \/ f = 2) by (unfold f; destruct (pp s >? 0); auto).
  assert (E : header s = (tail s - head s + 1) + 65536 * (8 * Z.of_nat (cnt s) + f)).
  { unfold header, looseitems_flags, u16. fold f. rewrite Z.shiftl_mul_pow2 by lia. change (2 ^ 3) with 8. change (2 ^ 16) with 65536.
    rewrite !Z.mod_small by lia. lia. }
  rewrite E. set (n := tail s - head s + 1) in *. set (c := Z.of_nat (cnt s)) in *.
  assert (C0 : 0 <= c) by (unfold c; lia).
  assert (PF : pp s >? 0 = negb (f =? 0)) by (unfold f; destruct (pp s >? 0); reflexivity).
  rewrite PF. clearbody n c f. clear -H Small Few F C0.
  unfold unpack. cbn [flat_map]. unfold unit_bytes. cbn [app].
  unfold nested_brutto_units, nested_index_size, nested_is_sorted, nested_have_preplaced, u16_at.
  set (w := n + 65536 * (8 * c + f)).
  assert (U : forall r, Codec.byte_at (w mod 256 :: (w / 256) mod 256 :: (w / 65536) mod 256 :: (w / 16777216) mod 256 :: r) 2 +
    256 * Codec.byte_at (w mod 256 :: (w / 256) mod 256 :: (w / 65536) mod 256 :: (w / 16777216) mod 256 :: r) (2 + 1) = 8 * c + f).
  { intros r. change (w / 65536 mod 256 + 256 * (w / 16777216 mod 256) = 8 * c + f). unfold w. lia. }
  rewrite !U. clear U. unfold Codec.byte_at. change (Z.to_nat 0) with 0%nat. change (Z.to_nat (0 + 1)) with 1%nat. cbn [nth].
  split; [unfold w; lia|]. split; [rewrite Z.shiftr_div_pow2 by lia; change (2 ^ 3) with 8; lia|].
  change 1 with (Z.ones 1) at 1. rewrite Z.land_ones by lia. change (2 ^ 1) with 2.
  assert (L2 : Z.land (8 * c + f) 2 = f).
  { destruct F as [-> | ->].
    - rewrite Z.add_0_r. apply Z.bits_inj'. intros i I. rewrite Z.land_spec, Z.bits_0. destruct (Z.eq_dec i 1) as [-> |N].
      + change 8 with (2 ^ 3). rewrite Z.mul_comm, Z.mul_pow2_bits_low by lia. reflexivity.
      + change 2 with (2 ^ 1). rewrite Z.pow2_bits_false by lia. apply Bool.andb_false_r.
    - apply Z.bits_inj'. intros i I. rewrite Z.land_spec. destruct (Z.eq_dec i 1) as [-> |N].
      + replace (8 * c + 2) with ((4 * c + 1) * 2 ^ 1) by (change (2 ^ 1) with 2; ring). rewrite Z.mul_pow2_bits by lia. change (1 - 1) with 0.
        replace (4 * c + 1) with (1 + 2 * (2 * c)) by ring. rewrite Z.bit0_odd, Z.odd_add_mul_2. reflexivity.
      + change 2 with (2 ^ 1) at 2 3. rewrite Z.pow2_bits_false by lia. apply Bool.andb_false_r. }
  rewrite L2. split; [|reflexivity]. destruct F as [-> | ->]; lia.
Qed.

Example C38_nested_header_case : exists s, lived (fun _ => false) s /\ cnt s = 1%nat /\ header s = 5 + 65536 * (8 + 2) /\
  nested_index_size (unpack [header s]) = 1.
Proof.
  exists (final (new_tuple1 16 5) [OSet (fd g_f64 2) false (value_of g_f64 (TFixed [1; 2; 3; 4; 5; 6; 7; 8]))]).
  split. { apply l_reached, reached_final; [|vm_compute; reflexivity]. constructor; unfold no_slots, g_varbin; intros; lia. }
  vm_compute. auto.
Qed.

Print Assumptions C77_no_stale_bytes.
Print Assumptions C77_values_are_valid.
Print Assumptions C77_loose_partial.
Print Assumptions C77_slot_partial.
Print Assumptions C77_empty_reads_empty.
Print Assumptions C77_what_is_empty.
Print Assumptions C77_history_case.
Print Assumptions C77_values_case.
Print Assumptions C77_inplace_case.
Print Assumptions C77_minus_zero_refuted.
Print Assumptions C77_empty_nested_refuted.
Print Assumptions C77_odd_binary_refuted.
Print Assumptions C38_nested_header.
