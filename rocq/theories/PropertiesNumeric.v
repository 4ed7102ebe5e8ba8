(** * Properties of the numeric setters and getters: C20, C21, C46 *)
From Verif Require Import Base Tag TagProofs Gear GearBase Tuple TupleProofs TupleView TupleOps TupleMore TupleHist PropertiesTuple
  GearOpt GearSortProofs PropertiesOpt Numeric NumericProofs.
From Coq Require Import ZifyBool ZifyNat Permutation.
Ltac Zify.zify_post_hook ::= Z.div_mod_to_equations.

(** ** C20.  Storing an integer through set_integer, set_unsigned, set_number *)
(** the typed getter of a numeric field *)
Definition read_units (g : Z) (disc : bool) (ws : option (list Z)) : reading :=
  if is_float_genus g then loose_bits g disc ws else loose_int g disc ws.
Definition read_loose (s : st) (desc : Z) (disc : bool) : reading :=
  read_units (descriptor2genus desc) disc (get_loose s desc).
Definition read_preplaced (g : Z) (disc : bool) (m : img) (off : Z) : reading :=
  if is_float_genus g then preplaced_bits g disc m off else preplaced_int g disc m off.
Definition reads_as (r : reading) (z : Z) : Prop :=
  match r with Got n => n = z | GotF v => denotes v z | _ => False end.

Lemma int_not_float g : int_genus g = true -> is_float_genus g = false.
Proof. intros H. int_cases H; reflexivity. Qed.
Lemma fzero_dec g b : is_float_genus g = true -> fzero (nbits g) b = true -> exists neg e, dec (fmt_of g) b = FFin neg 0 e.
Proof.
  unfold is_float_genus, fzero. intros H. assert (g = g_f32 \/ g = g_f64) as [->| ->] by lia; intros Z0;
    apply Bool.orb_true_iff in Z0; destruct Z0 as [E|E]; apply Z.eqb_eq in E; rewrite E; eexists _, _; vm_compute; reflexivity.
Qed.
Lemma denotes_0 neg e z : denotes (FFin neg 0 e) z -> z = 0.
Proof.
  unfold denotes, smant. destruct (Z.leb_spec 0 e).
  - destruct neg; rewrite ?Z.mul_0_l; auto.
  - assert (0 < 2 ^ (- e)) by (apply Z.pow_pos_nonneg; lia). intros D. assert (z * 2 ^ (- e) = 0) by (destruct neg; lia). nia.
Qed.

(** what a plan amounts to: the number it stores *)
Inductive stores_number (g : Z) : plan -> Z -> Prop :=
| sn_int z : int_genus g = true -> fits g z -> stores_number g (PInt z) z
| sn_flt z : is_float_genus g = true -> Z.abs z < 2 ^ f_p (fmt_of g) -> stores_number g (PFlt (int_bits (fmt_of g) z)) z.
Lemma call_stores g c : call_ok c ->
  match call_plan g c with PRange | PMismatch => True | p => stores_number g p (call_arg c) end.
Proof.
  intros B. destruct (call_plan g c) eqn:E; auto.
  - destruct (call_int g c z B E) as (A1 & -> & A2). constructor; assumption.
  - destruct (call_flt g c bits B E) as (A1 & A2 & ->). constructor; assumption.
Qed.
Lemma stores_tv g p z : stores_number g p z -> exists v, plan_tv g p = Some v /\ wf_pay g (pay v) /\
  fixed_genus g = true /\ (v_empty v = true -> z = 0) /\ forall disc, reads_as (read_units g disc (Some (pay v))) z.
Proof.
  intros [z0 G F|z0 G A]; cbn [plan_tv].
  - eexists. split; [reflexivity|]. cbn [pay v_empty]. split; [apply int_units_wf; auto|]. split; [apply int_fixed; auto|].
    split; [apply Z.eqb_eq|]. intros disc. unfold read_units. rewrite int_not_float by exact G. rewrite int_read by exact F. reflexivity.
  - pose proof (of_int_denotes (fmt_of g) z0 (fmt_of_2 g) A) as D. unfold of_int in D.
    eexists. split; [reflexivity|]. cbn [pay v_empty]. split; [apply int_units_wf; auto|]. split; [apply int_fixed; auto|].
    split.
    + intros Z0. destruct (fzero_dec g _ G Z0) as (n & e & E). rewrite E in D. apply denotes_0 in D. exact D.
    + intros disc. unfold read_units, loose_bits. rewrite G.
      change (if g =? g_f32 then binary32 else binary64) with (fmt_of g). cbn [reads_as].
      rewrite raw_float; [exact D|exact G|]. rewrite nbits_fmt by exact G. apply int_bits_range; [apply fmt_of_2|exact A].
Qed.
Lemma reads_absent g z disc : int_genus g = true \/ is_float_genus g = true -> disc = false -> z = 0 ->
  reads_as (read_units g disc None) z.
Proof.
  intros _ -> ->. unfold read_units. destruct (is_float_genus g); cbn; reflexivity.
Qed.
Lemma plan_genus g p z : stores_number g p z -> int_genus g = true \/ is_float_genus g = true.
Proof. intros []; auto. Qed.

Lemma store_loose_ok multi s desc disc p z : worked multi s -> real_desc desc -> multi desc = false ->
  stores_number (descriptor2genus desc) p z ->
  (forall v, plan_tv (descriptor2genus desc) p = Some v -> calm s (OSet desc disc v) = true) ->
  match store_loose s desc disc p with
  | Ok _ s' => reads_as (read_loose s' desc disc) z /\ (forall k, single_key multi s k -> k <> KL desc -> get s' k = get s k)
  | Throw s' => s' = s
  | Bad => False
  end.
Proof.
  intros W Hd Hm SN C. destruct (worked_inv multi s W) as [T U]. unfold store_loose.
  destruct (stores_tv _ _ _ SN) as (v & E & Wf & Fx & Ze & Rd). rewrite E. specialize (C v E).
  pose proof (step multi s (OSet desc disc v) T U (conj Hd (conj Hm Wf)) C) as St.
  destruct (run1 asis s (OSet desc disc v)) as [[] s'|s'|]; auto.
  pose proof (p_get _ _ _ _ St) as G. split.
  - unfold read_loose. specialize (G (KL desc) (conj Hd Hm)). cbn [get wrote key_eqb] in G. rewrite Z.eqb_refl in G.
    rewrite G. unfold stores. rewrite Fx. destruct (negb disc && v_empty v) eqn:N; cbn [negb].
    + apply Bool.andb_true_iff in N. destruct N as [N1 N2]. apply reads_absent; [eapply plan_genus; exact SN| |auto].
      destruct disc; [discriminate|reflexivity].
    + apply Rd.
  - intros k Hk N. rewrite (G k Hk). cbn [wrote]. destruct k as [d|j]; cbn [key_eqb]; [|reflexivity].
    destruct (Z.eqb_spec d desc) as [->|]; [contradiction N; reflexivity|reflexivity].
Qed.

(** Whatever overload is called with whatever value on a field of whatever type: either an
    exception leaves everything as it was, or the field reads back as exactly this number and no
    other field changed.  Restriction: the allocator's known slips are not triggered ([calm]). *)
Theorem C20_set_partial : forall multi s desc disc c, worked multi s -> real_desc desc -> multi desc = false -> call_ok c ->
  (forall v, plan_tv (descriptor2genus desc) (call_plan (descriptor2genus desc) c) = Some v -> calm s (OSet desc disc v) = true) ->
  match store_loose s desc disc (call_plan (descriptor2genus desc) c) with
  | Ok _ s' => reads_as (read_loose s' desc disc) (call_arg c) /\
               (forall k, single_key multi s k -> k <> KL desc -> get s' k = get s k)
  | Throw s' => s' = s
  | Bad => False
  end.
Proof.
  intros multi s desc disc c W Hd Hm B C. pose proof (call_stores (descriptor2genus desc) c B) as SN.
  destruct (call_plan (descriptor2genus desc) c) eqn:E; try reflexivity; eapply store_loose_ok; eassumption.
Qed.

Lemma before9_worked : worked odd_multi before9.
Proof. apply w_reached. unfold before9. now_reach. Qed.
Example C20_set_case : exists s', worked odd_multi before9 /\ real_desc (fd g_i16 12) /\ odd_multi (fd g_i16 12) = false /\
  call_ok (CNum64 (-300)) /\ calm before9 (OSet (fd g_i16 12) true (mkV false [65236])) = true /\
  plan_tv g_i16 (call_plan g_i16 (CNum64 (-300))) = Some (mkV false [65236]) /\
  store_loose before9 (fd g_i16 12) true (call_plan g_i16 (CNum64 (-300))) = Ok tt s' /\
  read_loose s' (fd g_i16 12) true = Got (-300) /\
  store_loose before9 (fd g_i16 12) true (call_plan g_i16 (CNum64 (-40000))) = Throw before9.
Proof.
  exists (final before9 [OSet (fd g_i16 12) true (mkV false [65236])]).
  split; [apply before9_worked|]. split; [apply real_descb_ok; vm_compute; reflexivity|].
  split; [reflexivity|]. split; [cbn; lia|]. split; [vm_compute; reflexivity|]. split; [vm_compute; reflexivity|].
  split; [|split; [vm_compute; reflexivity|reflexivity]].
  apply (run1_final before9). vm_compute. reflexivity.
Qed.
(** floating point field *)
Example C20_set_float_case : exists v s', plan_tv g_f32 (call_plan g_f32 (CNum32 (-2097151))) = Some v /\
  calm before9 (OSet (fd g_f32 12) true v) = true /\
  store_loose before9 (fd g_f32 12) true (call_plan g_f32 (CNum32 (-2097151))) = Ok tt s' /\
  reads_as (read_loose s' (fd g_f32 12) true) (-2097151) /\
  call_plan g_f32 (CNum32 (-2097152)) = PRange.
Proof.
  eexists. exists (final before9 [OSet (fd g_f32 12) true (mkV false [3388997624])]).
  split; [vm_compute; reflexivity|]. split; [vm_compute; reflexivity|]. split; [|split; vm_compute; reflexivity].
  apply (run1_final before9). vm_compute. reflexivity.
Qed.

(** insertion into a collection *)
Theorem C20_insert_partial : forall multi s desc disc c, worked multi s -> real_desc desc -> multi desc = true -> call_ok c ->
  (forall v, plan_tv (descriptor2genus desc) (call_plan (descriptor2genus desc) c) = Some v -> calm s (OAppend desc disc v) = true) ->
  match insert_loose s desc disc (call_plan (descriptor2genus desc) c) with
  | Ok _ s' =>
    (forall k, single_key multi s k -> get s' k = get s k) /\
    ((exists ws, Permutation (view s' desc) (ws :: view s desc) /\
        reads_as (read_units (descriptor2genus desc) disc (Some ws)) (call_arg c)) \/
     (disc = false /\ call_arg c = 0 /\ Permutation (view s' desc) (view s desc)))
  | Throw s' => s' = s
  | Bad => False
  end.
Proof.
  intros multi s desc disc c W Hd Hm B C. destruct (worked_inv multi s W) as [T U].
  pose proof (call_stores (descriptor2genus desc) c B) as SN. set (p := call_plan (descriptor2genus desc) c) in *.
  assert (X : stores_number (descriptor2genus desc) p (call_arg c) \/ (p = PRange \/ p = PMismatch)) by (destruct p; auto).
  clear SN. destruct X as [SN|[-> | ->]]; [|reflexivity|reflexivity]. unfold insert_loose.
  destruct (stores_tv _ _ _ SN) as (v & E & Wf & Fx & Ze & Rd). rewrite E. specialize (C v E).
  pose proof (step multi s (OAppend desc disc v) T U (conj Hd (conj Hm Wf)) C) as St.
  destruct (run1 asis s (OAppend desc disc v)) as [[] s'|s'|]; auto. split.
  - intros k Hk. exact (p_get _ _ _ _ St k Hk).
  - pose proof (p_bag _ _ _ _ St desc (view s desc) Hd Hm (Permutation_refl _)) as P. cbn [bag_step] in P.
    rewrite Z.eqb_refl in P. cbn [andb] in P. destruct (negb disc && v_empty v) eqn:N; cbn [negb] in P.
    + right. apply Bool.andb_true_iff in N. destruct N as [N1 N2]. split; [destruct disc; [discriminate|reflexivity]|]. auto.
    + left. exists (pay v). auto.
Qed.
Example C20_insert_case : exists s', calm before9 (OAppend (fd g_u16 1) true (mkV false [40000])) = true /\
  insert_loose before9 (fd g_u16 1) true (call_plan g_u16 (CUns 40000)) = Ok tt s' /\
  In [40000] (view s' (fd g_u16 1)) /\ length (view s' (fd g_u16 1)) = S (length (view before9 (fd g_u16 1))).
Proof.
  exists (final before9 [OAppend (fd g_u16 1) true (mkV false [40000])]).
  split; [vm_compute; reflexivity|]. split; [apply (run1_final before9); vm_compute; reflexivity|].
  split; [vm_compute; auto|vm_compute; reflexivity].
Qed.

(** Preplaced fields: the value must not be the one that stands for "absent" *)
Definition reserved (g : Z) : option Z := if int_genus g then Some (int_min g) else None.
Lemma reserved_bytes g p z : stores_number g p z -> forall bits, (p = PInt bits \/ p = PFlt bits) ->
  int_bytes g bits = denil g -> reserved g = Some z.
Proof.
  intros SN bits P E. apply (f_equal le_value) in E. rewrite raw_int_bytes in E.
  destruct SN as [z G F|z G A].
  - destruct P as [P|P]; [|discriminate]. injection P as <-. unfold reserved. rewrite G. f_equal.
    assert (I : icast g z = icast g (le_value (denil g))).
    { apply icast_mod. rewrite <- E. symmetry. apply Z.mod_mod. pose proof (nbits_pos g). apply Z.pow_nonzero; lia. }
    rewrite icast_fits in I by exact F. rewrite I. int_cases G; vm_compute; reflexivity.
  - destruct P as [P|P]; [discriminate|]. injection P as <-. exfalso.
    pose proof (of_int_denotes (fmt_of g) z (fmt_of_2 g) A) as D. unfold of_int in D.
    pose proof (int_bits_range (fmt_of g) z (fmt_of_2 g) A) as R. rewrite nbits_fmt in E by exact G.
    rewrite Z.mod_small in E by exact R. rewrite E in D.
    unfold is_float_genus in G. assert (g = g_f32 \/ g = g_f64) as [->| ->] by lia; vm_compute in D; exact D.
Qed.
Theorem C20_preplaced : forall g disc m m' off c, call_ok c ->
  store_preplaced g disc m off (call_plan g c) = Some m' ->
  disc = false \/ reserved g <> Some (call_arg c) ->
  reads_as (read_preplaced g disc m' off) (call_arg c) /\
  (forall x, x < off \/ off + preplaced_bytes g <= x -> m' x = m x).
Proof.
  intros g disc m m' off c B E H. pose proof (call_stores g c B) as SN.
  set (p := call_plan g c) in *. clearbody p.
  assert (X : exists bits, (p = PInt bits \/ p = PFlt bits) /\ pwrite m off (int_bytes g bits) = m').
  { destruct p as [z|b| |]; cbn [store_preplaced] in E; try discriminate; unfold fixed_set in E; rewrite Bool.andb_false_r in E;
      injection E as E; eexists; (split; [|exact E]); auto. }
  destruct X as (bits & P & <-). assert (S : stores_number g p (call_arg c)) by (destruct P; subst p; exact SN). clear SN E.
  assert (G : int_genus g = true \/ is_float_genus g = true) by (eapply plan_genus; exact S).
  assert (FG : fixed_get g disc (pwrite m off (int_bytes g bits)) off = RVal (int_bytes g bits)).
  { apply fixed_get_set; [exact G|]. destruct H as [H|H]; [auto|right]. intros Q. apply H. eapply reserved_bytes; eassumption. }
  split.
  - unfold read_preplaced, preplaced_bits, preplaced_int. rewrite FG, raw_int_bytes.
    destruct S as [z I F|z I A].
    + destruct P as [P|P]; [|discriminate]. injection P as <-. rewrite int_not_float by exact I. cbn [reads_as].
      rewrite <- (icast_fits g z F) at 2. apply icast_mod. apply Z.mod_mod. pose proof (nbits_pos g). apply Z.pow_nonzero; lia.
    + destruct P as [P|P]; [discriminate|]. injection P as <-. rewrite I.
      change (if g =? g_f32 then binary32 else binary64) with (fmt_of g). cbn [reads_as].
      pose proof (int_bits_range (fmt_of g) z (fmt_of_2 g) A) as R. rewrite nbits_fmt by exact I. rewrite Z.mod_small by exact R.
      apply of_int_denotes; [apply fmt_of_2|exact A].
  - intros x Hx. apply pwrite_far. destruct (num_bytes g G) as [N _]. rewrite int_bytes_length, Z2Nat.id, <- N; [exact Hx|].
    pose proof (nbits_pos g). lia.
Qed.
Example C20_preplaced_case : exists m', call_ok (CIntU 2147483647) /\
  store_preplaced g_i32 true zeros 5 (call_plan g_i32 (CIntU 2147483647)) = Some m' /\ reserved g_i32 <> Some 2147483647 /\
  read_preplaced g_i32 true m' 5 = Got 2147483647.
Proof. eexists. split; [cbn; lia|]. split; [reflexivity|]. split; [vm_compute; congruence|vm_compute; reflexivity]. Qed.
(** ... and if it is, the call succeeds and the field then counts as absent: for every integer
    type, every offset and whatever was stored before *)
Theorem C20_reserved_refuted : forall g m off, int_genus g = true -> exists c m', call_ok c /\
  store_preplaced g true m off (call_plan g c) = Some m' /\ read_preplaced g true m' off = RAbs.
Proof.
  intros g m off G. set (z := int_min g).
  exists (if signed_genus g then CInt z else CUns z).
  assert (E : call_plan g (if signed_genus g then CInt z else CUns z) = PInt z) by (unfold z; int_cases G; vm_compute; reflexivity).
  exists (pwrite m off (int_bytes g z)). split; [unfold z; int_cases G; cbn; lia|].
  rewrite E. split; [reflexivity|]. unfold read_preplaced. rewrite int_not_float by exact G. unfold preplaced_int, fixed_get.
  assert (D : is_denil g (pwrite m off (int_bytes g z)) off = true).
  { unfold is_denil. destruct (num_bytes g (or_introl G)) as [N1 N2].
    assert (L : denil_len g = Z.of_nat (length (int_bytes g z))).
    { rewrite int_bytes_length, N2, N1, Z2Nat.id; [reflexivity|]. pose proof (nbits_pos g). lia. }
    rewrite L, pread_pwrite. destruct (list_eq_dec _ _ _) as [|N]; [reflexivity|]. exfalso. apply N. unfold z. int_cases G; vm_compute; reflexivity. }
  rewrite D. reflexivity.
Qed.

(** A number that fits is not refused: through the setters for the signedness of the field, and
    through set_number for every integer type *)
Definition right_setter (g : Z) (c : call) : bool :=
  match c with
  | CInt _ | CIntU _ => signed_genus g
  | CUns _ => unsigned_genus g
  | CUnsI _ => false
  | _ => int_genus g
  end.
Theorem C20_fitting_accepted : forall g c, call_ok c -> right_setter g c = true -> fits g (call_arg c) ->
  call_plan g c = PInt (call_arg c).
Proof.
  assert (N : forall lo hi g v, lo <= v <= hi -> int_genus g = true -> fits g v -> set_number_int lo hi g v = PInt v).
  { intros lo hi g v B G F. unfold set_number_int.
    assert (NF : (g =? g_f32) = false /\ (g =? g_f64) = false) by (int_cases G; split; reflexivity). destruct NF as [-> ->].
    rewrite G. unfold fits in F. replace (v <? int_min g) with false by lia. replace (v >? int_max g) with false by lia.
    rewrite !Bool.andb_false_r. cbn [orb]. rewrite icast_fits by exact F. reflexivity. }
  assert (I : forall g v, signed_genus g = true -> fits g v -> set_integer_i64 g v = PInt v).
  { intros g v S F. unfold set_integer_i64. destruct (g =? g_i64); [reflexivity|]. rewrite S, icast_fits, Z.eqb_refl by exact F. reflexivity. }
  intros g [v|v|v|v|v|v|v|v]; cbn [call_ok right_setter call_plan call_arg]; intros B R F; try (apply N; assumption).
  - apply I; assumption.
  - assert (v <= 2 ^ 63 - 1).
    { unfold fits, int_max in F. rewrite R in F. assert (2 ^ (nbits g - 1) <= 2 ^ 63); [|lia].
      apply Z.pow_le_mono_r; [lia|]. pose proof (signed_int g R) as G. int_cases G; cbn; lia. }
    unfold set_integer_u64. destruct (Z.gtb_spec v (2 ^ 63 - 1)); [lia|]. rewrite sgn_fits by (cbn in *; lia). apply I; assumption.
  - unfold set_unsigned_u64. destruct (g =? g_u64); [reflexivity|]. rewrite R, icast_fits, Z.eqb_refl by exact F. reflexivity.
  - discriminate.
Qed.
Example C20_fitting_case : call_ok (CNumU64 255) /\ right_setter g_u8 (CNumU64 255) = true /\ fits g_u8 255 /\
  call_plan g_u8 (CNumU64 256) = PRange.
Proof. repeat split; vm_compute; congruence. Qed.
(** set_unsigned(int64_t) goes on with the signed setter: it refuses every unsigned field, and
    stores into signed ones *)
Theorem C20_unsigned_overload : forall g v, - 2 ^ 63 <= v <= 2 ^ 63 - 1 ->
  (unsigned_genus g = true -> call_plan g (CUnsI v) = PRange \/ call_plan g (CUnsI v) = PMismatch) /\
  (signed_genus g = true -> 0 <= v -> fits g v -> call_plan g (CUnsI v) = PInt v).
Proof.
  intros g v B. cbn [call_plan]. unfold set_unsigned_i64. split.
  - intros U. destruct (v <? 0); [auto|]. unfold set_integer_u64. destruct (_ >? _); [auto|]. right.
    pose proof (unsigned_int g U) as G. int_cases G; reflexivity || discriminate.
  - intros S P F. destruct (Z.ltb_spec v 0); [lia|]. unfold u64. rewrite Z.mod_small by (cbn in *; lia).
    unfold set_integer_u64. destruct (Z.gtb_spec v (2 ^ 63 - 1)); [lia|]. rewrite sgn_fits by (cbn in *; lia).
    unfold set_integer_i64. destruct (g =? g_i64); [reflexivity|]. rewrite S, icast_fits, Z.eqb_refl by exact F. reflexivity.
Qed.
(** the 128-bit setters drop the upper half without a word *)
Theorem C20_128_refuted : exists v, 0 <= v < 2 ^ 127 /\
  (forall g, signed_genus g = true -> exists z, set_int128 g v = PInt z /\ z <> v) /\
  (forall g, unsigned_genus g = true -> exists z, set_uint128 g v = PInt z /\ z <> v).
Proof.
  exists (2 ^ 64 + 7). split; [lia|]. split; intros g H; exists 7.
  - pose proof (signed_int g H) as G. int_cases G; try discriminate H; split; vm_compute; congruence.
  - pose proof (unsigned_int g H) as G. int_cases G; try discriminate H; split; vm_compute; congruence.
Qed.

Lemma low_signed v : (sgn 64 v - v) mod 2 ^ 64 = 0 /\ fits g_i64 (sgn 64 v).
Proof.
  split; [|exact (icast_range g_i64 v)].
  unfold sgn. cbv zeta. change (2 ^ 64) with 18446744073709551616. change (2 ^ (64 - 1)) with 9223372036854775808.
  destruct (Z.ltb_spec (v mod 18446744073709551616) 9223372036854775808); lia.
Qed.
Lemma low_unsigned v : (u64 v - v) mod 2 ^ 64 = 0 /\ fits g_u64 (u64 v).
Proof.
  split; [|exact (icast_range g_u64 v)]. unfold u64. change (2 ^ 64) with 18446744073709551616. lia.
Qed.
(** what they store agrees with the value in the lower 64 bits, and whatever fits is stored as it is *)
Theorem C20_128 : forall g v,
  (signed_genus g = true -> fits g v -> set_int128 g v = PInt v) /\
  (unsigned_genus g = true -> fits g v -> set_uint128 g v = PInt v) /\
  (forall z, set_int128 g v = PInt z \/ set_uint128 g v = PInt z -> fits g z /\ (z - v) mod 2 ^ 64 = 0).
Proof.
  intros g v. unfold set_int128, set_uint128. split; [|split].
  - intros S F. pose proof (signed_int g S) as G.
    assert (sgn 64 v = v) as -> by (apply sgn_fits; unfold fits in F; int_cases G; try discriminate S; cbn in F; lia).
    unfold set_integer_i64. destruct (g =? g_i64); [reflexivity|]. rewrite S, icast_fits, Z.eqb_refl by exact F. reflexivity.
  - intros U F. pose proof (unsigned_int g U) as G.
    assert (u64 v = v) as -> by (unfold u64; apply Z.mod_small; unfold fits in F; int_cases G; try discriminate U; cbn in F |- *; lia).
    unfold set_unsigned_u64. destruct (g =? g_u64); [reflexivity|]. rewrite U, icast_fits, Z.eqb_refl by exact F. reflexivity.
  - pose proof (low_signed v) as A. pose proof (low_unsigned v) as B.
    assert (X : forall a b, PInt a = PInt b -> b = a) by congruence.
    intros z [H|H].
    + unfold set_integer_i64 in H. destruct (Z.eqb_spec g g_i64) as [->|N].
      * apply X in H. subst z. split; [|apply A]. apply A.
      * destruct (signed_genus g); [|discriminate]. destruct (Z.eqb_spec (sgn 64 v) (icast g (sgn 64 v))) as [E|]; [|discriminate].
        apply X in H. subst z. split; [apply icast_range|]. rewrite <- E. apply A.
    + unfold set_unsigned_u64 in H. destruct (Z.eqb_spec g g_u64) as [->|N].
      * apply X in H. subst z. split; [|apply B]. apply B.
      * destruct (unsigned_genus g); [|discriminate]. destruct (Z.eqb_spec (u64 v) (icast g (u64 v))) as [E|]; [|discriminate].
        apply X in H. subst z. split; [apply icast_range|]. rewrite <- E. apply B.
Qed.
(** a floating point value is taken for an empty one exactly when it is a zero, of either sign *)
Theorem C20_zero_float : forall g b u, is_float_genus g = true -> 0 <= b < 2 ^ nbits g -> plan_tv g (PFlt b) = Some u ->
  (v_empty u = true <-> denotes (dec (if g =? g_f32 then binary32 else binary64) b) 0).
Proof.
  intros g b u G B H. unfold plan_tv in H. injection H as <-. cbn [v_empty]. unfold fzero.
  assert (D : g = g_f32 \/ g = g_f64) by (unfold is_float_genus in G; lia).
  assert (P : forall f, (f = binary32 \/ f = binary64) -> 0 <= b < 2 ^ f_w f -> ((b =? 0) || (b =? 2 ^ (f_w f - 1))) = true <-> denotes (dec f b) 0).
  { clear. intros f F B. destruct F as [-> | ->]; cbn [f_w f_p binary32 binary64] in *; unfold dec, f_expmax, f_emin, f_bias; cbn [f_w f_p binary32 binary64];
      cbv zeta;
      [change (2 ^ (32 - 1)) with 2147483648 in *; change (2 ^ (24 - 1)) with 8388608; change (2 ^ (32 - 24)) with 256; change (2 ^ 32) with 4294967296 in B
      |change (2 ^ (64 - 1)) with 9223372036854775808 in *; change (2 ^ (53 - 1)) with 4503599627370496; change (2 ^ (64 - 53)) with 2048; change (2 ^ 64) with 18446744073709551616 in B].
    all: match goal with |- context [?x =? ?c - 1] => destruct (Z.eqb_spec x (c - 1)) as [E|E] end.
    1, 3: match goal with |- _ <-> denotes (if ?c then _ else _) 0 => destruct c end; (split; [intros; exfalso; lia|intros []]).
    all: match goal with |- _ <-> denotes (if ?x =? 0 then _ else _) 0 => destruct (Z.eqb_spec x 0) as [Z0|Z0] end; unfold denotes.
    all: match goal with |- context [smant ?n ?a] => assert (SM : smant n a = 0 <-> a = 0) by (unfold smant; destruct n; lia) end.
    1, 3: change (0 <=? _) with false; cbn iota; rewrite Z.mul_0_l, SM; lia.
    all: match goal with |- context [0 <=? ?e] => destruct (Z.leb_spec 0 e) as [L|L] end.
    1, 3: match goal with |- context [_ * 2 ^ ?e = 0] => assert (PP : 0 < 2 ^ e) by (apply Z.pow_pos_nonneg; lia) end; split;
      [intros; exfalso; lia|intros X; apply Z.mul_eq_0 in X; destruct X as [X|X]; [apply SM in X; lia|lia]].
    all: rewrite Z.mul_0_l, SM; split; intros; exfalso; lia. }
  destruct D as [-> | ->]; [apply (P binary32)|apply (P binary64)]; auto.
Qed.
Example C20_zero_float_case : is_float_genus g_f32 = true /\ plan_tv g_f32 (PFlt 2147483648) = Some (mkV true [2147483648]) /\
  plan_tv g_f32 (PFlt 1) = Some (mkV false [1]) /\ plan_tv g_f64 (PFlt (2 ^ 63)) = Some (mkV true [0; 2147483648]).
Proof. repeat split; vm_compute; reflexivity. Qed.

(** ** C21.  Floating point into integer fields *)
(** For every bit pattern of float and double: either a range error, or the truncated value fits
    the field and is what is stored; NaN and the infinities are refused. *)
Theorem C21_defined : forall f g b, fmt2 f -> int_genus g = true ->
  exists p, set_number_float f g b = Some p /\
    (p = PRange \/ exists t, p = PInt t /\ ftrunc (dec f b) = Some t /\ fits g t) /\
    (finite (dec f b) = false -> p = PRange).
Proof.
  intros f g b F G. destruct (set_number_float_ok f g b F G) as [E|(t & E & T & FT)].
  - exists PRange. rewrite E. auto.
  - exists (PInt t). rewrite E. split; [reflexivity|]. split; [right; eauto|].
    intros NF. destruct (dec f b); discriminate.
Qed.
(** stored and read back *)
Theorem C21_stored_partial : forall multi s desc disc f b t, worked multi s -> real_desc desc -> multi desc = false ->
  fmt2 f -> int_genus (descriptor2genus desc) = true ->
  set_number_float f (descriptor2genus desc) b = Some (PInt t) ->
  (forall v, plan_tv (descriptor2genus desc) (PInt t) = Some v -> calm s (OSet desc disc v) = true) ->
  match store_loose s desc disc (PInt t) with
  | Ok _ s' => read_loose s' desc disc = Got t /\ ftrunc (dec f b) = Some t
  | Throw s' => s' = s
  | Bad => False
  end.
Proof.
  intros multi s desc disc f b t W Hd Hm F G E C.
  destruct (set_number_float_ok f _ b F G) as [E'|(t' & E' & T & FT)]; rewrite E in E'; [discriminate|]. injection E' as <-.
  pose proof (store_loose_ok multi s desc disc (PInt t) t W Hd Hm (sn_int _ t G FT) C) as Q.
  destruct (store_loose s desc disc (PInt t)) as [? s'|s'|]; auto. destruct Q as [R _]. split; [|exact T].
  unfold read_loose, read_units in *. rewrite int_not_float in * by exact G. unfold loose_int in *.
  destruct (get_loose s' desc); [f_equal; exact R|]. destruct disc; [contradiction|]. cbn in R. congruence.
Qed.
(** 3.75 is cut to 3; one ulp above the bound is refused *)
Example C21_case : exists b, dec binary64 b = FFin false (15 * 2 ^ 49) (-51) /\ set_number_float binary64 g_u8 b = Some (PInt 3) /\
  set_number_float binary64 g_u64 (int_bits binary64 (2 ^ 64 - 2048)) = Some (PInt (2 ^ 64 - 2048)) /\
  set_number_float binary64 g_u64 (int_bits binary64 (2 ^ 64)) = Some PRange /\
  set_number_float binary32 g_i64 (int_bits binary32 (2 ^ 63 - 2 ^ 39)) = Some (PInt (2 ^ 63 - 2 ^ 39)) /\
  set_number_float binary32 g_i64 (int_bits binary32 (2 ^ 63)) = Some PRange /\
  set_number_float binary32 g_i32 (f_inf binary32) = Some PRange.
Proof. exists (enc binary64 (FFin false 15 (-2))). repeat split; vm_compute; reflexivity. Qed.
Example C21_stored_case : exists v s', worked odd_multi before9 /\
  set_number_float binary64 g_i32 (enc binary64 (FFin true 15 (-2))) = Some (PInt (-3)) /\
  plan_tv g_i32 (PInt (-3)) = Some v /\ calm before9 (OSet (fd g_i32 12) false v) = true /\
  store_loose before9 (fd g_i32 12) false (PInt (-3)) = Ok tt s' /\ read_loose s' (fd g_i32 12) false = Got (-3).
Proof.
  eexists. exists (final before9 [OSet (fd g_i32 12) false (mkV false [4294967293])]).
  split; [apply before9_worked|]. split; [vm_compute; reflexivity|]. split; [vm_compute; reflexivity|].
  split; [vm_compute; reflexivity|]. split; [|vm_compute; reflexivity]. apply (run1_final before9). vm_compute. reflexivity.
Qed.
(** a double stored into a float field does not silently become infinite *)
Theorem C21_narrowing : forall b bits, finite (dec binary64 b) = true ->
  set_float g_f32 b = PFlt bits \/ set_number_float binary64 g_f32 b = Some (PFlt bits) -> finite (dec binary32 bits) = true.
Proof.
  intros b bits Fi H. assert (Q : negb (finf (dec binary64 b)) && (flt flt_max (dec binary64 b) || flt (dec binary64 b) flt_lowest) = false /\
    bits = enc binary32 (dec binary64 b)).
  { destruct H as [H|H].
    - unfold set_float in H. rewrite Z.eqb_refl in H. cbv zeta in H. destruct (_ && _); [discriminate|]. injection H as <-. auto.
    - unfold set_number_float in H. cbv zeta in H. rewrite (finite_nan _ Fi) in H. rewrite Z.eqb_refl in H. cbn [andb f_w binary64] in H.
      rewrite Z.eqb_refl in H. destruct (_ && _); [discriminate|]. injection H as <-. auto. }
  destruct Q as [Q ->]. apply narrow_finite; [apply finite_nan; exact Fi|destruct (dec binary64 b); [reflexivity|discriminate|reflexivity]|].
  apply Bool.andb_false_iff in Q. destruct Q as [Q|Q]; [|exact Q]. destruct (dec binary64 b); discriminate.
Qed.
Example C21_narrowing_case : finite (dec binary64 (enc binary64 flt_max)) = true /\
  set_float g_f32 (enc binary64 flt_max) = PFlt (f_inf binary32 - 1) /\
  set_float g_f32 (enc binary64 flt_max + 1) = PRange.
Proof. repeat split; vm_compute; reflexivity. Qed.

(** ** C46.  Reading through get_integer, get_unsigned, get_number_as_ieee754double *)
(** [ws] are units that hold the number [z] *)
Theorem C46_getters : forall g z ws disc, int_genus g = true -> fits g z ->
  raw_units g ws mod 2 ^ nbits g = z mod 2 ^ nbits g ->
  let typed := loose_int g disc (Some ws) in
  typed = Got z /\
  get_integer g typed = (if signed_genus g then Got z else RMis) /\
  get_unsigned g typed = (if unsigned_genus g then Got z else RMis) /\
  ((exists v, get_double g typed = GotF v /\ denotes v z) \/ (get_double g typed = RRange /\ safe64 < Z.abs z)).
Proof.
  intros g z ws disc G F H typed.
  assert (T : typed = Got z).
  { unfold typed. cbn [loose_int]. f_equal. rewrite <- (icast_fits g z F). apply icast_mod. exact H. }
  rewrite T. split; [reflexivity|]. split; [reflexivity|]. split; [reflexivity|].
  unfold get_double. assert (NF : (g =? g_f32) = false /\ (g =? g_f64) = false) by (int_cases G; split; reflexivity).
  destruct NF as [-> ->]. rewrite G.
  destruct (_ || _) eqn:E.
  - right. split; [reflexivity|]. unfold safe64 in *. lia.
  - left. eexists. split; [reflexivity|]. apply of_int_denotes; [right; reflexivity|]. cbn [f_p binary64].
    unfold fits in F. assert (N : (g = g_i64 \/ g = g_u64) \/ (-(2 ^ 53 - 1) <= int_min g /\ int_max g <= 2 ^ 53 - 1)).
    { int_cases G; auto; right; split; apply Z.leb_le; vm_compute; reflexivity. }
    assert (M : g = g_u64 -> 0 <= int_min g) by (intros ->; apply Z.leb_le; vm_compute; reflexivity).
    unfold safe64 in E. destruct N as [[->| ->]|N]; [clear M| |].
    + cbn [andb orb Z.eqb Pos.eqb g_i64 g_u64] in E. change ((g_i64 =? g_i64)) with true in E. cbn [andb] in E. lia.
    + specialize (M eq_refl). change ((g_u64 =? g_u64)) with true in E. change (g_u64 =? g_i64) with false in E. cbn [andb orb] in E. lia.
    + lia.
Qed.
(** and of a preplaced field *)
Theorem C46_preplaced : forall g z m off disc, int_genus g = true -> fits g z ->
  (forall i, 0 <= i < nbits g / 8 -> m (off + i) = (z / 256 ^ i) mod 256) ->
  preplaced_int g disc m off = Got z \/ (preplaced_int g disc m off = RAbs /\ disc = true /\ reserved g = Some z).
Proof.
  intros g z m off disc G F H. destruct (num_bytes g (or_introl G)) as [N1 N2].
  assert (P : pread m off (preplaced_bytes g) = int_bytes g z).
  { unfold pread, int_bytes. rewrite N1.
    assert (X : forall n k x, (forall i, (i < n)%nat -> m (off + Z.of_nat (k + i)) = (x / 256 ^ Z.of_nat i) mod 256) ->
      map (fun i => m (off + Z.of_nat i)) (seq k n) = le_bytes n x).
    { induction n as [|n IH]; intros k x Hx; [reflexivity|]. cbn [seq map le_bytes]. f_equal.
      - specialize (Hx O ltac:(lia)). rewrite Nat.add_0_r in Hx. rewrite Hx. cbn. rewrite Z.div_1_r. reflexivity.
      - apply IH. intros i Hi. specialize (Hx (S i) ltac:(lia)). replace (S k + i)%nat with (k + S i)%nat by lia. rewrite Hx.
        rewrite Nat2Z.inj_succ, Z.pow_succ_r by lia. rewrite Z.div_div by (try apply Z.pow_pos_nonneg; lia). reflexivity. }
    apply X. intros i Hi. cbn [Nat.add]. apply H. pose proof (nbits_pos g). lia. }
  unfold preplaced_int, fixed_get. rewrite P. destruct (disc && is_denil g m off) eqn:D.
  - right. apply Bool.andb_true_iff in D. destruct D as [-> D]. split; [reflexivity|]. split; [reflexivity|].
    unfold is_denil in D. rewrite N2, P in D. destruct (list_eq_dec _ _ _) as [E|]; [|discriminate].
    apply (reserved_bytes g (PInt z) z (sn_int g z G F) z (or_introl eq_refl) E).
  - left. f_equal. rewrite raw_int_bytes. rewrite <- (icast_fits g z F) at 2. apply icast_mod.
    apply Z.mod_mod. pose proof (nbits_pos g). apply Z.pow_nonzero; lia.
Qed.
(** a float read as a double is the same number *)
Theorem C46_widening : forall b, 0 <= b < 2 ^ 32 ->
  exists v, get_double g_f32 (loose_bits g_f32 true (Some [b])) = GotF v /\ same_value (dec binary32 b) v.
Proof. intros b B. eexists. split; [reflexivity|]. apply widen_exact. exact B. Qed.
(** an absent field is read as zero by every getter of its type, unless absence is to be told *)
Theorem C46_absent : forall g, 
  (int_genus g = true -> loose_int g false None = Got 0 /\ exists v, get_double g (loose_int g false None) = GotF v /\ denotes v 0) /\
  (is_float_genus g = true -> exists v, get_double g (loose_bits g false None) = GotF v /\ denotes v 0 /\ flt v v = false) /\
  loose_int g true None = RAbs /\ loose_bits g true None = RAbs /\ (int_genus g || is_float_genus g = true -> get_double g RAbs = RAbs).
Proof.
  intros g. split; [|split; [|split; [reflexivity|split; [reflexivity|]]]].
  - intros G. split; [reflexivity|]. exists (of_int binary64 0). split; [int_cases G; reflexivity|vm_compute; reflexivity].
  - intros G. assert (D : g = g_f32 \/ g = g_f64) by (unfold is_float_genus in G; lia).
    destruct D as [-> | ->]; [exists (dec binary64 (enc binary64 (FFin false 0 0)))|exists (FFin false 0 0)]; repeat split; vm_compute; reflexivity.
  - intros G. unfold get_double. destruct (g =? g_f32) eqn:A; [reflexivity|]. destruct (g =? g_f64) eqn:B; [reflexivity|].
    unfold is_float_genus in G. rewrite A, B, Bool.orb_false_r in G. rewrite G. reflexivity.
Qed.
Example C46_case : fits g_i64 (- safe64) /\ raw_units g_i64 [1; 4292870144] mod 2 ^ nbits g_i64 = (- safe64) mod 2 ^ nbits g_i64 /\
  get_integer g_i64 (loose_int g_i64 true (Some [1; 4292870144])) = Got (- safe64) /\
  get_double g_i64 (loose_int g_i64 true (Some [1; 4292870144])) = GotF (FFin true (2 ^ 53 - 1) 0) /\
  get_double g_i64 (loose_int g_i64 true (Some [0; 4292870144])) = RRange /\
  get_unsigned g_i64 (loose_int g_i64 true (Some [0; 4292870144])) = RMis.
Proof. repeat split; vm_compute; congruence. Qed.
Example C46_preplaced_case : preplaced_int g_i16 true (pwrite zeros 3 [0; 128]) 3 = RAbs /\
  preplaced_int g_i16 false (pwrite zeros 3 [0; 128]) 3 = Got (-32768) /\ preplaced_int g_i16 true (pwrite zeros 3 [1; 128]) 3 = Got (-32767).
Proof. repeat split; vm_compute; reflexivity. Qed.

Print Assumptions C20_set_partial.
Print Assumptions C20_insert_partial.
Print Assumptions C20_preplaced.
Print Assumptions C20_reserved_refuted.
Print Assumptions C20_fitting_accepted.
Print Assumptions C20_unsigned_overload.
Print Assumptions C20_128_refuted.
Print Assumptions C20_128.
Print Assumptions C20_zero_float.
Print Assumptions C21_defined.
Print Assumptions C21_stored_partial.
Print Assumptions C21_narrowing.
Print Assumptions C46_getters.
Print Assumptions C46_preplaced.
Print Assumptions C46_widening.
Print Assumptions C46_absent.
