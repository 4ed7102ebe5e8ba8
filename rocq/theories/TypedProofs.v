(** * TypedProofs: values and units (proofs). *)
From Verif Require Import Base Tag TagProofs Codec CodecProofs Gear Tuple TupleMore TupleProofs Traits Typed.
From Coq Require Import ZifyBool ZifyNat.
Ltac Zify.zify_post_hook ::= Z.div_mod_to_equations.

Lemma four_ind (P : list Z -> Prop) : P [] -> (forall a, P [a]) -> (forall a b, P [a; b]) -> (forall a b c, P [a; b; c]) ->
  (forall a b c d l, P l -> P (a :: b :: c :: d :: l)) -> forall l, P l.
Proof.
  intros P0 P1 P2 P3 P4. fix IH 1. intros [|a [|b [|c [|d l]]]]; [exact P0|apply P1|apply P2|apply P3|apply P4, IH].
Qed.
Lemma unit_bytes_four a b c d : isbyte a -> isbyte b -> isbyte c -> isbyte d ->
  unit_bytes (a + 256 * b + 65536 * c + 16777216 * d) = [a; b; c; d].
Proof.
  unfold isbyte, unit_bytes. intros A B C D.
  assert (E1 : (a + 256 * b + 65536 * c + 16777216 * d) mod 256 = a) by lia.
  assert (E2 : (a + 256 * b + 65536 * c + 16777216 * d) / 256 = b + 256 * c + 65536 * d) by lia.
  assert (E3 : (a + 256 * b + 65536 * c + 16777216 * d) / 65536 = c + 256 * d) by lia.
  assert (E4 : (a + 256 * b + 65536 * c + 16777216 * d) / 16777216 = d) by lia.
  rewrite E1, E2, E3, E4. f_equal. f_equal; [lia|]. f_equal; [lia|]. f_equal. lia.
Qed.
Definition padding (n : nat) : nat := Nat.modulo (4 - Nat.modulo n 4) 4.
Lemma padding_four n : padding (S (S (S (S n)))) = padding n.
Proof. unfold padding. replace (S (S (S (S n)))) with (n + 1 * 4)%nat by lia. rewrite Nat.mod_add by lia. reflexivity. Qed.
Lemma byte0 : isbyte 0.
Proof. unfold isbyte. lia. Qed.
Lemma unpack_pack l : Forall isbyte l -> unpack (pack l) = l ++ repeat 0 (padding (length l)).
Proof.
  induction l as [|a|a b|a b c|a b c d l IH] using four_ind; intros F.
  - reflexivity.
  - inversion F; subst. cbn [pack unpack flat_map]. pose proof (unit_bytes_four a 0 0 0 H1 byte0 byte0 byte0) as U.
    rewrite !Z.mul_0_r, !Z.add_0_r in U. rewrite U. reflexivity.
  - inversion F as [|? ? A F1]; subst. inversion F1 as [|? ? B F2]; subst. cbn [pack unpack flat_map].
    pose proof (unit_bytes_four a b 0 0 A B byte0 byte0) as U. rewrite !Z.mul_0_r, !Z.add_0_r in U. rewrite U. reflexivity.
  - inversion F as [|? ? A F1]; subst. inversion F1 as [|? ? B F2]; subst. inversion F2 as [|? ? C F3]; subst. cbn [pack unpack flat_map].
    pose proof (unit_bytes_four a b c 0 A B C byte0) as U. rewrite !Z.mul_0_r, !Z.add_0_r in U. rewrite U. reflexivity.
  - inversion F as [|? ? A F1]; subst. inversion F1 as [|? ? B F2]; subst. inversion F2 as [|? ? C F3]; subst. inversion F3 as [|? ? D F4]; subst.
    cbn [pack]. unfold unpack in *. cbn [flat_map length]. rewrite (unit_bytes_four a b c d A B C D), (IH F4), padding_four. reflexivity.
Qed.
Lemma pack_length l : Z.of_nat (length (pack l)) = (zlen l + 3) / 4.
Proof.
  induction l as [|a|a b|a b c|a b c d l IH] using four_ind; try reflexivity. cbn [pack length]. rewrite !zlen_cons. pose proof (zlen_nonneg l). lia.
Qed.
Lemma pack_range l : Forall isbyte l -> Forall (fun w => 0 <= w < 4294967296) (pack l).
Proof.
  unfold isbyte. induction l as [|a|a b|a b c|a b c d l IH] using four_ind; intros F; cbn [pack];
    repeat match goal with H : Forall _ (_ :: _) |- _ => inversion H; clear H; subst end; constructor; try lia; try constructor.
  apply IH. assumption.
Qed.
Lemma unpack_whole l : Forall isbyte l -> zlen l mod 4 = 0 -> unpack (pack l) = l.
Proof.
  intros F L. rewrite (unpack_pack l F). assert (padding (length l) = 0)%nat as ->; [|apply app_nil_r].
  unfold padding, zlen in *. assert (Nat.modulo (length l) 4 = 0)%nat as -> by lia. reflexivity.
Qed.
Lemma brutto_packed g l : Forall isbyte l -> 4 <= zlen l -> brutto g (nth 0 (pack l) 0) = stretchy_brutto_units g l.
Proof.
  intros F L. destruct l as [|a [|b [|c [|d l]]]]; try (unfold zlen in L; cbn [length] in L; lia).
  inversion F as [|? ? A F1]; subst. inversion F1 as [|? ? B F2]; subst. inversion F2 as [|? ? C F3]; subst. inversion F3 as [|? ? D F4]; subst.
  cbn [pack nth]. unfold brutto. rewrite (unit_bytes_four a b c d A B C D). reflexivity.
Qed.

Lemma isbyte_repeat n : Forall isbyte (repeat 0 n).
Proof. induction n; cbn [repeat]; constructor; [apply byte0|assumption]. Qed.
Lemma isbyte_cons x l : isbyte x -> Forall isbyte l -> Forall isbyte (x :: l).
Proof. intros. constructor; assumption. Qed.
Lemma string_enc_bytes v : Forall isbyte v -> zlen v <= string_max_length -> Forall isbyte (string_enc v).
Proof.
  unfold string_max_length. intros F L. pose proof (zlen_nonneg v) as N. unfold string_enc. apply Forall_app. split.
  - destruct (zlen v <? 254) eqn:E; cbv zeta; repeat apply isbyte_cons; unfold isbyte; try apply Forall_nil; lia.
  - apply Forall_app. split; [exact F|apply isbyte_repeat].
Qed.
Lemma varbin_enc_bytes v : Forall isbyte v -> bytes2units (zlen v) + 1 <= 65535 -> Forall isbyte (varbin_enc v).
Proof.
  intros F L. pose proof (zlen_nonneg v) as N. rewrite bytes2units_div in L. unfold varbin_enc. cbv zeta. rewrite bytes2units_div. apply Forall_app. split.
  - repeat apply isbyte_cons; unfold isbyte; try apply Forall_nil; lia.
  - apply Forall_app. split; [exact F|apply isbyte_repeat].
Qed.
Lemma property_enc_bytes v id : Forall isbyte v -> zlen v <= 255 -> 0 <= id < 256 -> Forall isbyte (property_enc v id).
Proof.
  intros F L I. pose proof (zlen_nonneg v) as N. unfold property_enc. cbv zeta. apply Forall_app. split.
  - repeat apply isbyte_cons; unfold isbyte; try apply Forall_nil; lia.
  - apply Forall_app. split; [exact F|apply isbyte_repeat].
Qed.
Lemma zlen_blank n : 0 <= n -> zlen (blank n) = 4 * n.
Proof. intros H. unfold blank. rewrite zlen_repeat. lia. Qed.

(** values that callers can pass and that the formats keep (binaries: C13) *)
Definition good (v : tval) : Prop :=
  match v with
  | TText b | TFixed b => Forall isbyte b
  | TBin b => Forall isbyte b /\ zlen b mod 4 = 0
  | TNested None => True
  | TNested (Some t) => Forall isbyte t /\ 1 <= u16_at t 0 /\ zlen t = 4 * u16_at t 0
  | TProp b id => Forall isbyte b /\ 0 <= id < 256
  end.
Record kept (g : Z) (v : tval) (t : tv) : Prop := {
  kp_wf : wf_pay g (pay t);
  kp_read : v <> TNested None -> from_units g (pay t) = Some v;
  kp_range : Forall (fun w => 0 <= w < 4294967296) (pay t);
  kp_nil : pay t = [] <-> v = TNested None;
  kp_empty : v_empty t = is_empty g v
}.
Lemma wf_stretchy g ws : 0 <= g <= 3 -> Z.of_nat (length ws) < 65536 -> (ws <> [] -> brutto g (nth 0 ws 0) = Z.of_nat (length ws)) -> wf_pay g ws.
Proof.
  intros G L B. unfold wf_pay, is_inplaced_genus, fixed_genus, g_i8, g_u8, g_i16, g_u16.
  replace ((g =? 4) || (g =? 5) || (g =? 6) || (g =? 7)) with false by lia. replace (4 <=? g) with false by lia. split; assumption.
Qed.
Lemma pack_nil l : pack l = [] <-> l = [].
Proof. destruct l as [|a [|b [|c [|d l]]]]; cbn [pack]; split; intros H; congruence. Qed.
Lemma kept_text g b n v : v = TText b -> g = g_text -> good v -> string_estimate (zlen b) = Some n ->
  kept g v (mkV (is_empty g v) (pack (string_store (blank n) b))).
Proof.
  intros -> -> G E. cbn [good] in G. apply string_estimate_spec in E; [|apply zlen_nonneg]. destruct E as [L ->]. pose proof (zlen_nonneg b) as N.
  assert (U : 1 <= string_units (zlen b) <= 32834).
  { unfold string_units, tiny_threshold. rewrite bytes2units_div. destruct (zlen b <? 254); lia. }
  rewrite string_store_enc by (unfold string_max_length; rewrite ?zlen_blank; lia).
  destruct (string_enc_brutto b ltac:(unfold string_max_length; lia)) as (B & Z1 & _).
  pose proof (string_enc_bytes b G ltac:(unfold string_max_length; lia)) as F. pose proof (pack_length (string_enc b)) as PL.
  constructor; cbn [pay v_empty].
  - apply wf_stretchy; [unfold g_text; lia|lia|]. intros _. rewrite brutto_packed by (assumption || lia).
    change (stretchy_brutto_units g_text (string_enc b)) with (string_brutto_units (string_enc b)). lia.
  - intros _. unfold from_units. rewrite unpack_whole by (assumption || lia). cbn [from_bytes]. unfold from_bytes.
    rewrite Z.eqb_refl, string_enc_read by (unfold string_max_length; lia). reflexivity.
  - apply pack_range. exact F.
  - split; [|discriminate]. intros P. rewrite P in PL. cbn [length] in PL. lia.
  - reflexivity.
Qed.
Lemma kept_bin g b n v : v = TBin b -> g = g_varbin -> good v -> varbin_estimate (zlen b) = Some n ->
  kept g v (mkV (is_empty g v) (pack (varbin_store (blank n) b))).
Proof.
  intros -> -> [G M] E. apply varbin_estimate_spec in E; [|apply zlen_nonneg]. destruct E as [L ->]. pose proof (zlen_nonneg b) as N.
  assert (BU : bytes2units (zlen b) = (zlen b + 3) / 4) by apply bytes2units_div.
  assert (R : varbin_read (varbin_store (blank ((zlen b + 3) / 4 + 1)) b) [] = b).
  { apply varbin_roundtrip_aligned; [lia|rewrite zlen_blank; lia|assumption]. }
  rewrite varbin_store_enc in R |- * by (rewrite ?zlen_blank; lia).
  destruct (varbin_enc_facts b ltac:(lia)) as (B & Z1 & _).
  pose proof (varbin_enc_bytes b G ltac:(lia)) as F. pose proof (pack_length (varbin_enc b)) as PL.
  constructor; cbn [pay v_empty].
  - apply wf_stretchy; [unfold g_varbin; lia|lia|]. intros _. rewrite brutto_packed by (assumption || lia).
    change (stretchy_brutto_units g_varbin (varbin_enc b)) with (varbin_brutto_units (varbin_enc b)). lia.
  - intros _. unfold from_units. rewrite unpack_whole by (assumption || lia). unfold from_bytes.
    change (g_varbin =? g_text) with false. change (g_varbin =? g_varbin) with true. cbv iota. rewrite R. reflexivity.
  - apply pack_range. exact F.
  - split; [|discriminate]. intros P. rewrite P in PL. cbn [length] in PL. lia.
  - reflexivity.
Qed.
Lemma u16_at_range t : Forall isbyte t -> 0 <= u16_at t 0 < 65536.
Proof.
  intros F. unfold u16_at, byte_at. assert (A : forall i, isbyte (nth i t 0)).
  { intros i. destruct (Nat.lt_ge_cases i (length t)) as [H|H]; [|rewrite nth_overflow by exact H; apply byte0].
    rewrite Forall_forall in F. apply F, nth_In, H. }
  pose proof (A (Z.to_nat 0)) as A0. pose proof (A (Z.to_nat (0 + 1))) as A1. unfold isbyte in *. lia.
Qed.
Lemma kept_nested g t v : v = TNested t -> g = g_nested -> good v ->
  kept g v (mkV (is_empty g v) (match t with Some _ => pack (nested_store (blank (nested_estimate t)) t) | None => [] end)).
Proof.
  intros -> -> G. destruct t as [t|].
  - destruct G as (F & P & L). pose proof (u16_at_range t F) as R.
    destruct (nested_roundtrip (blank (u16_at t 0)) t P L ltac:(rewrite zlen_blank; lia)) as [E _]. cbn [nested_estimate]. rewrite E.
    pose proof (pack_length t) as PL.
    constructor; cbn [pay v_empty].
    + apply wf_stretchy; [unfold g_nested; lia|lia|]. intros _. rewrite brutto_packed by (assumption || lia).
      change (stretchy_brutto_units g_nested t) with (u16_at t 0). lia.
    + intros _. unfold from_units. rewrite unpack_whole by (assumption || lia). reflexivity.
    + apply pack_range. exact F.
    + split; [|discriminate]. intros Q. rewrite Q in PL. cbn [length] in PL. lia.
    + reflexivity.
  - constructor; cbn [pay v_empty].
    + apply wf_stretchy; [unfold g_nested; lia|cbn; lia|congruence].
    + congruence.
    + constructor.
    + split; reflexivity.
    + reflexivity.
Qed.
Lemma kept_prop g b id n v : v = TProp b id -> g = g_property -> good v -> property_estimate (zlen b) = Some n ->
  kept g v (mkV (is_empty g v) (pack (property_store (blank n) b id))).
Proof.
  intros -> -> [G I] E. apply property_estimate_spec in E; [|apply zlen_nonneg]. destruct E as [L ->]. pose proof (zlen_nonneg b) as N.
  assert (BU : bytes2units (zlen b + 2) = (zlen b + 2 + 3) / 4) by apply bytes2units_div.
  destruct (property_roundtrip (blank ((zlen b + 2 + 3) / 4)) b id L I ltac:(rewrite zlen_blank; lia)) as (R & B & Z1).
  rewrite zlen_blank in Z1 by lia. rewrite property_store_enc in R, B, Z1 |- * by (rewrite ?zlen_blank; lia).
  pose proof (property_enc_bytes b id G L I) as F. pose proof (pack_length (property_enc b id)) as PL.
  constructor; cbn [pay v_empty].
  - apply wf_stretchy; [unfold g_property; lia|lia|]. intros _. rewrite brutto_packed by (assumption || lia).
    change (stretchy_brutto_units g_property (property_enc b id)) with (property_brutto_units (property_enc b id)). lia.
  - intros _. unfold from_units. rewrite unpack_whole by (assumption || lia). unfold from_bytes.
    change (g_property =? g_text) with false. change (g_property =? g_varbin) with false. change (g_property =? g_nested) with false.
    change (g_property =? g_property) with true. cbv iota. rewrite R. reflexivity.
  - apply pack_range. exact F.
  - split; [|discriminate]. intros P. rewrite P in PL. cbn [length] in PL. lia.
  - reflexivity.
Qed.
Lemma fixed_sizes g : 4 <= g < 31 -> is_inplaced_genus g = false -> (value_size g + 3) / 4 = loose_units g /\ 0 < value_size g /\ fixed_genus g = true.
Proof.
  intros G I. assert (C : forallb (fun k => let g := Z.of_nat k in is_inplaced_genus g || (((value_size g + 3) / 4 =? loose_units g) && (0 <? value_size g))) (seq 4 27) = true)
    by (vm_compute; reflexivity).
  rewrite forallb_forall in C. specialize (C (Z.to_nat g) ltac:(apply in_seq; lia)). cbv beta zeta in C. rewrite Z2Nat.id, I in C by lia.
  cbn [orb] in C. unfold fixed_genus. lia.
Qed.
Lemma from_fixed g m : 4 <= g -> from_bytes g m = Some (TFixed (firstn (Z.to_nat (value_size g)) m)).
Proof.
  intros G. unfold from_bytes, g_text, g_varbin, g_nested, g_property.
  replace (g =? 0) with false by lia. replace (g =? 1) with false by lia. replace (g =? 2) with false by lia. replace (g =? 3) with false by lia. reflexivity.
Qed.
Lemma one_byte (b : list Z) : zlen b = 1 -> exists x, b = [x].
Proof. intros L. destruct b as [|x [|y b]]; try (unfold zlen in L; cbn [length] in L; lia). eauto. Qed.
Lemma two_bytes (b : list Z) : zlen b = 2 -> exists x y, b = [x; y].
Proof. intros L. destruct b as [|x [|y [|z b]]]; try (unfold zlen in L; cbn [length] in L; lia). eauto. Qed.
Lemma kept_fixed g b v : v = TFixed b -> 4 <= g < 31 -> zlen b = value_size g -> good v ->
  kept g v (mkV (is_empty g v) (if is_inplaced_genus g then [cell g b] else pack b)).
Proof.
  intros -> G L F. cbn [good] in F. destruct (is_inplaced_genus g) eqn:I.
  - assert (C : g = g_i8 \/ g = g_u8 \/ (g = g_i16 \/ g = g_u16)) by (unfold is_inplaced_genus in I; lia).
    assert (K : 0 <= cell g b < 65536 /\ firstn (Z.to_nat (value_size g)) (unit_bytes (cell g b)) = b).
    { unfold isbyte in F. destruct C as [-> | [-> | C]].
      - destruct (one_byte b L) as [x ->]. inversion F as [|? ? X _]; subst. unfold cell. change (g_i8 =? g_i8) with true. cbv iota. cbn [nth].
        change (Z.to_nat (value_size g_i8)) with 1%nat. unfold unit_bytes. cbn [firstn]. unfold u16, sgn. cbv zeta.
        change (2 ^ 8) with 256. change (2 ^ 16) with 65536. change (2 ^ (8 - 1)) with 128. rewrite (Z.mod_small x 256) by lia.
        destruct (x <? 128) eqn:E; split; try (f_equal); lia.
      - destruct (one_byte b L) as [x ->]. inversion F as [|? ? X _]; subst. unfold cell. change (g_u8 =? g_i8) with false. change (g_u8 =? g_u8) with true. cbv iota. cbn [nth].
        change (Z.to_nat (value_size g_u8)) with 1%nat. unfold unit_bytes. cbn [firstn]. split; [lia|]. f_equal. lia.
      - assert (V : value_size g = 2) by (destruct C; subst g; reflexivity). rewrite V in *. destruct (two_bytes b L) as (x & y & ->).
        inversion F as [|? ? X F1]; subst. inversion F1 as [|? ? Y _]; subst. unfold cell.
        replace (g =? g_i8) with false by (unfold g_i8, g_i16, g_u16 in *; lia). replace (g =? g_u8) with false by (unfold g_u8, g_i16, g_u16 in *; lia).
        cbn [nth]. change (Z.to_nat 2) with 2%nat. unfold unit_bytes. cbn [firstn]. split; [lia|]. f_equal; [lia|]. f_equal. lia. }
    destruct K as [K1 K2]. constructor; cbn [pay v_empty].
    + unfold wf_pay. rewrite I. eauto.
    + intros _. unfold from_units, unpack. cbn [flat_map]. rewrite app_nil_r, from_fixed, K2 by lia. reflexivity.
    + constructor; [lia|constructor].
    + split; discriminate.
    + reflexivity.
  - destruct (fixed_sizes g G I) as (S1 & S2 & S3). pose proof (pack_length b) as PL. constructor; cbn [pay v_empty].
    + unfold wf_pay. rewrite I, S3. lia.
    + intros _. unfold from_units. rewrite from_fixed, unpack_pack by (assumption || lia). rewrite <- L. unfold zlen. rewrite Nat2Z.id.
      rewrite firstn_app, Nat.sub_diag, firstn_all. cbn [firstn]. rewrite app_nil_r. reflexivity.
    + apply pack_range. exact F.
    + rewrite pack_nil. split; [|discriminate]. intros ->. change (zlen []) with 0 in L. lia.
    + reflexivity.
Qed.
Lemma to_tv_kept g v t : 0 <= g < 31 -> good v -> to_tv g v = Some t -> kept g v t.
Proof.
  intros R G E. destruct v as [b|b|t0|b id|b]; cbn [to_tv] in E.
  - destruct (g =? g_text) eqn:EG; [|discriminate]. destruct (string_estimate (zlen b)) as [n|] eqn:En; [|discriminate].
    injection E as <-. apply (kept_text g b n); [reflexivity|lia|exact G|exact En].
  - destruct (g =? g_varbin) eqn:EG; [|discriminate]. destruct (varbin_estimate (zlen b)) as [n|] eqn:En; [|discriminate].
    injection E as <-. apply (kept_bin g b n); [reflexivity|lia|exact G|exact En].
  - destruct (g =? g_nested) eqn:EG; [|discriminate]. injection E as <-. apply (kept_nested g t0); [reflexivity|lia|exact G].
  - destruct (g =? g_property) eqn:EG; [|discriminate]. destruct (property_estimate (zlen b)) as [n|] eqn:En; [|discriminate].
    injection E as <-. apply (kept_prop g b id n); [reflexivity|lia|exact G|exact En].
  - destruct ((g_i8 <=? g) && (g <? g_hole) && (zlen b =? value_size g)) eqn:EG; [|discriminate]. injection E as <-.
    apply (kept_fixed g b); [reflexivity|unfold g_i8, g_hole in EG; lia|lia|exact G].
Qed.
