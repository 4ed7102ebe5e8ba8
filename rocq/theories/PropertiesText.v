(** * C68, C69, C70: type constants and names, the text of a date, error codes. *)
From Coq Require Import Ascii String Lia ZifyBool ZifyNat.
From Verif Require Import Base Tag TagProofs Values ValuesProofs Text TextProofs.
From Verif Require Legacy.
Ltac Zify.zify_post_hook ::= Z.div_mod_to_equations.
Open Scope Z_scope.

(** ** C68.  Type numbers, filters, tags and names *)
(** the numbers of the types of fields, as the header numbers them *)
Theorem C68_genus_numbers :
  [g_text; g_varbin; g_nested; g_property; g_i8; g_u8; g_i16; g_u16; g_i32; g_u32; g_f32; g_t32; g_i64; g_u64; g_f64; g_d64;
   g_t64; g_bin96; g_bin128; g_bin160; g_bin192; g_bin224; g_bin256; g_bin320; g_bin384; g_bin512; g_app64; g_app128; g_mac;
   g_ip; g_ipnet; g_hole] = map Z.of_nat (seq 0 32).
Proof. reflexivity. Qed.
(** a tag of the C interface is one fixed pattern plus the type and the column *)
Lemma legacy_tag_value g c : 0 <= g <= 31 -> 0 <= c <= 2047 -> legacy_tag g c = 0xFFFD0000 + 2048 * g + c.
Proof.
  intros Hg Hc. unfold legacy_tag, make_tag. change loose_threshold with 0xFFF80000.
  change (flag true loose_collection_flag) with 0x40000. change (flag true discernible_null_flag) with 0x10000.
  change (flag false saturation_flag) with 0. rewrite Z.shiftl_mul_pow2 by (unfold genus_shift; lia).
  change (2 ^ genus_shift) with 2048. unfold u32. change (2 ^ 32) with 4294967296. lia.
Qed.
Lemma tag_halves x : 0 <= x -> tag2genus x = x / 2048 mod 32 /\ tag2id x = x mod 2048.
Proof.
  intros H. unfold tag2genus, tag2id, u16, genus_shift. rewrite Z.shiftr_div_pow2 by lia. change id_mask with (2 ^ 11 - 1). rewrite land_mask by lia.
  change (2 ^ 16) with 65536. change (2 ^ 11) with 2048. lia.
Qed.
Definition constants : list (Z * Z) :=
  [(fptu_uint16, 7); (fptu_bool, 4); (fptu_int32, 8); (fptu_uint32, 9); (fptu_fp32, 10); (fptu_int64, 12); (fptu_uint64, 13);
   (fptu_fp64, 14); (fptu_datetime, 16); (fptu_96, 17); (fptu_128, 18); (fptu_160, 19); (fptu_256, 22); (fptu_ip, 29);
   (fptu_mac, 28); (fptu_ipnet, 30); (fptu_cstr, 0); (fptu_opaque, 1); (fptu_nested, 2)].
(** each constant of fptu_type is the tag of its own type for column 0; it is a collection tag that
    keeps empty values apart, not saturating, and can never be taken for a filter *)
Theorem C68_constants : forall t g, In (t, g) constants ->
  t = 0xFFFD0000 + 2048 * g /\ tag2genus t = g /\ tag2id t = 0 /\ is_loose_collection t = true /\
  is_discernible_null t = true /\ is_saturated t = false /\ Legacy.is_filter t = false /\ t <> fptu_null /\ t = Legacy.genus2legacy g.
Proof.
  intros t g I.
  assert (C : forallb (fun '(t, g) => (t =? 0xFFFD0000 + 2048 * g) && (tag2genus t =? g) && (tag2id t =? 0) && is_loose_collection t
    && is_discernible_null t && negb (is_saturated t) && negb (Legacy.is_filter t) && negb (t =? fptu_null) && (t =? Legacy.genus2legacy g)) constants = true)
    by (vm_compute; reflexivity).
  rewrite forallb_forall in C. specialize (C _ I). cbv beta iota in C.
  repeat (apply Bool.andb_true_iff in C; destruct C as [C ?]).
  repeat match goal with H : negb _ = true |- _ => apply Bool.negb_true_iff in H end.
  repeat match goal with H : (_ =? _) = true |- _ => apply Z.eqb_eq in H end.
  repeat match goal with H : (_ =? _) = false |- _ => apply Z.eqb_neq in H end.
  tauto.
Qed.
(** every filter of the C interface selects exactly the types its name says, never a hole, and is a filter *)
(** The number that stands for no type is a number of 32 bits, no filter and no type of the list. *)
Theorem C68_null : 0 <= fptu_null < 2 ^ 32 /\ Legacy.fptu_null = fptu_null /\ Legacy.is_filter fptu_null = false /\
  tag2genus fptu_null = 31 /\ forall t g, In (t, g) constants -> t < fptu_null.
Proof.
  split; [split; [discriminate|reflexivity]|]. split; [reflexivity|]. split; [reflexivity|]. split; [reflexivity|]. intros t g I.
  assert (C : forallb (fun c => fst c <? fptu_null) constants = true) by (vm_compute; reflexivity).
  rewrite forallb_forall in C. specialize (C _ I). cbn [fst] in C. lia.
Qed.
(** A tag is that of a field inside another one (inlay) when it is a loose one with a column in the
    upper half: each tag of the C interface with such a column is taken for one. *)
Theorem C68_inlay : forall tag, 0 <= tag < 2 ^ 32 ->
  (is_loose_inlay tag = true <-> 0xFFF80000 <= tag /\ 1024 <= tag mod 2048) /\
  (is_inlay tag = true <-> 1024 <= tag mod 2048).
Proof.
  intros tag H.
  assert (B : is_inlay tag = Z.testbit tag 10).
  { unfold is_inlay. change inlay_flag with (2 ^ 10). destruct (Z.testbit tag 10) eqn:E.
    - apply Bool.negb_true_iff, Z.eqb_neq. intros Q. assert (R : Z.testbit (Z.land tag (2 ^ 10)) 10 = true) by (rewrite Z.land_spec, E; reflexivity).
      rewrite Q in R. discriminate.
    - apply Bool.negb_false_iff, Z.eqb_eq. apply Z.bits_inj'. intros n Hn. rewrite Z.land_spec, Z.bits_0, Z.pow2_bits_eqb by lia.
      destruct (Z.eqb_spec 10 n) as [<-|_]; [rewrite E; reflexivity|apply Bool.andb_false_r]. }
  assert (M : Z.testbit tag 10 = true <-> 1024 <= tag mod 2048).
  { rewrite Z.testbit_true by lia. change (2 ^ 10) with 1024. lia. }
  split; [|rewrite B; exact M].
  rewrite <- M. unfold is_loose_inlay. change inlay_pattern with (2 ^ 32 - 2 ^ 19 + 2 ^ 10).
  assert (L : 0xFFF80000 <= tag <-> forall n, 19 <= n < 32 -> Z.testbit tag n = true).
  { split.
    - intros Q n Hn. assert (E : tag = (2 ^ 13 - 1) * 2 ^ 19 + tag mod 2 ^ 19) by (change (2 ^ 13 - 1) with 8191; change (2 ^ 19) with 524288; lia).
      assert (D : Z.shiftr tag 19 = Z.ones 13).
      { rewrite Z.shiftr_div_pow2 by lia. change (Z.ones 13) with 8191. change (2 ^ 19) with 524288. lia. }
      replace n with ((n - 19) + 19) by lia. rewrite <- Z.shiftr_spec by lia. rewrite D. apply Z.ones_spec_low. lia.
    - intros Q. assert (D : Z.shiftr tag 19 = Z.ones 13).
      { apply Z.bits_inj'. intros n Hn. rewrite Z.shiftr_spec by lia. destruct (Z.lt_ge_cases n 13) as [L|L].
        - rewrite Z.ones_spec_low by lia. apply Q. lia.
        - rewrite Z.ones_spec_high by lia. destruct (Z.eq_dec tag 0) as [->|N]; [apply Z.bits_0|]. apply Z.bits_above_log2; [lia|].
          assert (Z.log2 tag < 32) by (apply Z.log2_lt_pow2; lia). lia. }
      rewrite Z.shiftr_div_pow2 in D by lia. change (Z.ones 13) with 8191 in D. change (2 ^ 19) with 524288 in D. lia. }
  rewrite L, Z.eqb_eq. split.
  - intros Q. assert (R : forall n, Z.testbit (2 ^ 32 - 2 ^ 19 + 2 ^ 10) n = true -> Z.testbit tag n = true).
    { intros n Hn. rewrite <- Q, Z.land_spec in Hn. apply andb_prop in Hn. apply Hn. }
    split; [|apply R; reflexivity]. intros n Hn. apply R. change (2 ^ 32 - 2 ^ 19 + 2 ^ 10) with 4294444032.
    assert (C : forallb (fun n => Z.testbit 4294444032 (Z.of_nat n)) (seq 19 13) = true) by (vm_compute; reflexivity).
    rewrite forallb_forall in C. specialize (C (Z.to_nat n)). rewrite Z2Nat.id in C by lia. apply C. apply in_seq. lia.
  - intros [Q R]. apply Z.bits_inj'. intros n Hn. rewrite Z.land_spec. change (2 ^ 32 - 2 ^ 19 + 2 ^ 10) with 4294444032.
    destruct (Z.testbit 4294444032 n) eqn:E; [|apply Bool.andb_false_r]. rewrite Bool.andb_true_r.
    destruct (Z.lt_ge_cases n 32) as [U|U]; [|rewrite Z.bits_above_log2 in E; [discriminate|lia|]; replace (Z.log2 4294444032) with 31 by reflexivity; lia].
    destruct (Z.le_gt_cases 19 n) as [W|W]; [apply Q; lia|].
    assert (C : forallb (fun n => negb (Z.testbit 4294444032 (Z.of_nat n)) || (n =? 10)%nat) (seq 0 19) = true) by (vm_compute; reflexivity).
    rewrite forallb_forall in C. specialize (C (Z.to_nat n) ltac:(apply in_seq; lia)). rewrite Z2Nat.id in C by lia. rewrite E in C.
    cbn [negb orb] in C. apply Nat.eqb_eq in C. replace n with 10 by lia. exact R.
Qed.
Theorem C68_inlay_columns_refuted : forall g column, 0 <= g <= 31 -> 1024 <= column <= 2047 -> is_loose_inlay (Legacy.colid2tag (Legacy.genus2legacy g) column) = true.
Proof.
  intros g column Hg Hc. assert (E : Legacy.colid2tag (Legacy.genus2legacy g) column = 0xFFFD0000 + 2048 * g + column).
  { unfold Legacy.genus2legacy. fold (legacy_tag g 0). rewrite legacy_tag_value by lia. unfold Legacy.colid2tag, u32. change (2 ^ 32) with 4294967296. lia. }
  rewrite E. apply C68_inlay; lia.
Qed.
Theorem C68_filters : forall g, 0 <= g < 32 ->
  (Z.testbit Legacy.fptu_any g = true <-> g <> 31) /\
  (Z.testbit Legacy.fptu_any_int g = true <-> In g [4; 5; 6; 7; 8; 9; 12; 13]) /\
  (Z.testbit Legacy.fptu_any_uint g = true <-> In g [5; 7; 9; 13]) /\
  (Z.testbit Legacy.fptu_any_fp g = true <-> In g [10; 14; 15]) /\
  (Z.testbit Legacy.fptu_any_number g = true <-> In g [4; 5; 6; 7; 8; 9; 12; 13; 10; 14; 15]) /\
  Forall (fun m => 0 < m < 2 ^ 31 /\ Legacy.is_filter m = true)
    [Legacy.fptu_any; Legacy.fptu_any_int; Legacy.fptu_any_uint; Legacy.fptu_any_fp; Legacy.fptu_any_number].
Proof.
  intros g H.
  set (has := fun (l : list Z) (g : Z) => existsb (Z.eqb g) l).
  assert (Has : forall l g, has l g = true <-> In g l).
  { intros l x. unfold has. rewrite existsb_exists. split; [intros (y & I & E); apply Z.eqb_eq in E; subst; exact I|intros I; exists x; split; [exact I|apply Z.eqb_refl]]. }
  assert (C : all_below 32 (fun g => Bool.eqb (Z.testbit Legacy.fptu_any g) (negb (g =? 31)) &&
    Bool.eqb (Z.testbit Legacy.fptu_any_int g) (has [4; 5; 6; 7; 8; 9; 12; 13] g) && Bool.eqb (Z.testbit Legacy.fptu_any_uint g) (has [5; 7; 9; 13] g) &&
    Bool.eqb (Z.testbit Legacy.fptu_any_fp g) (has [10; 14; 15] g) && Bool.eqb (Z.testbit Legacy.fptu_any_number g) (has [4; 5; 6; 7; 8; 9; 12; 13; 10; 14; 15] g)) = true)
    by (vm_compute; reflexivity).
  pose proof (all_below_spec _ _ C g ltac:(lia)) as D. cbv beta in D.
  repeat (apply Bool.andb_true_iff in D; destruct D as [D ?]). repeat match goal with H : Bool.eqb _ _ = true |- _ => apply Bool.eqb_prop in H end.
  rewrite <- !Has. repeat match goal with H : Z.testbit _ g = _ |- _ => rewrite H; clear H end.
  split; [destruct (Z.eqb_spec g 31); cbn [negb]; split; intros; congruence|].
  split; [apply iff_refl|]. split; [apply iff_refl|]. split; [apply iff_refl|]. split; [apply iff_refl|].
  repeat (apply Forall_cons; [vm_compute; split; [split; reflexivity|reflexivity]|]). apply Forall_nil.
Qed.
(** the filter made from a type selects that type only *)
Theorem C68_filter_of_type : forall t g h, In (t, g) constants -> 0 <= h < 32 -> (Z.testbit (Legacy.fptu_filter_mask t) h = true <-> h = g).
Proof.
  intros t g h I Hh. destruct (C68_constants t g I) as (_ & E & _). unfold Legacy.fptu_filter_mask. rewrite E.
  assert (G : 0 <= g < 32).
  { assert (C : forallb (fun c => (0 <=? snd c) && (snd c <? 32)) constants = true) by (vm_compute; reflexivity).
    rewrite forallb_forall in C. specialize (C _ I). cbn [snd] in C. lia. }
  rewrite Z.shiftl_spec by lia. destruct (Z.eq_dec h g) as [->|N]; [rewrite Z.sub_diag; split; reflexivity|].
  split; [|congruence]. intros Q. exfalso. destruct (Z.lt_ge_cases (h - g) 0) as [L|L]; [rewrite Z.testbit_neg_r in Q by lia; discriminate|].
  change 1 with (2 ^ 0) in Q. rewrite Z.pow2_bits_eqb in Q by lia. apply Z.eqb_eq in Q. lia.
Qed.
(** Tags of the C interface: whatever the width of fptu_tag_t, the column and the type come back. *)
Theorem C68_tags_round_trip : forall w column g, In w [16; 32; 64] -> 0 <= column <= 2047 -> 0 <= g <= 31 ->
  let type := Legacy.genus2legacy g in let tag := fptu_make_tag w column type in
  fptu_get_colnum tag = column /\ fptu_get_type tag = type /\
  fptu_tag_is_fixedsize tag = (4 <=? g) /\ fptu_tag_is_deleted tag = (g =? 31) /\
  Legacy.colid2tag type column = make_tag g column true true false.
Proof.
  intros w column g Hw Hc Hg type tag.
  assert (E0 : type = 0xFFFD0000 + 2048 * g) by (unfold type, Legacy.genus2legacy; fold (legacy_tag g 0); rewrite legacy_tag_value by lia; lia).
  assert (E1 : tag2genus type = g) by (destruct (tag_halves type ltac:(lia)) as [-> _]; lia).
  assert (E2 : u32 tag = (if w =? 16 then 0 else 0xFFFD0000) + 2048 * g + column).
  { unfold tag, fptu_make_tag, fast16. rewrite E1, legacy_tag_value by lia. unfold u32. change (2 ^ 32) with 4294967296.
    cbn in Hw. destruct Hw as [<-|[<-|[<-|[]]]].
    - change (16 =? 16) with true. change (2 ^ 16) with 65536. cbv iota. lia.
    - change (32 =? 16) with false. change (2 ^ 32) with 4294967296. cbv iota. lia.
    - change (64 =? 16) with false. change (2 ^ 64) with 18446744073709551616. cbv iota. lia. }
  assert (P : 0 <= u32 tag) by (rewrite E2; destruct (w =? 16); lia).
  destruct (tag_halves (u32 tag) P) as [H1 H2].
  assert (G : tag2genus (u32 tag) = g) by (rewrite H1, E2; destruct (w =? 16); lia).
  assert (I : tag2id (u32 tag) = column) by (rewrite H2, E2; destruct (w =? 16); lia).
  split; [exact I|]. split; [unfold fptu_get_type; rewrite G; reflexivity|].
  split; [|split].
  - unfold fptu_tag_is_fixedsize, is_fixed_size. change 0xE000 with (7 * 2 ^ 13 + 0).
    rewrite (Z.div_mod (u32 tag) (2 ^ 13)) by lia. rewrite (Z.mul_comm (2 ^ 13)).
    rewrite land_split by lia. rewrite Z.land_0_r, Z.add_0_r. change 7 with (2 ^ 3 - 1). rewrite land_mask by lia. change (2 ^ 13) with 8192. change (2 ^ 3) with 8.
    rewrite E2. destruct (w =? 16); lia.
  - unfold fptu_tag_is_deleted. rewrite G. reflexivity.
  - unfold Legacy.colid2tag. rewrite E0. fold (legacy_tag g column). rewrite legacy_tag_value by lia. unfold u32. change (2 ^ 32) with 4294967296. lia.
Qed.
(** a column above the limit is not refused: it spills into the type *)
Theorem C68_column_not_checked_refuted : exists column, 2047 < column /\ forall w, In w [16; 32; 64] ->
  fptu_get_colnum (fptu_make_tag w column fptu_cstr) = 0 /\ fptu_get_type (fptu_make_tag w column fptu_cstr) = fptu_opaque.
Proof. exists 2048. split; [lia|]. intros w [<-|[<-|[<-|[]]]]; vm_compute; split; reflexivity. Qed.
(** what the two predicates say, for every number of 64 bits *)
Theorem C68_predicates : forall tag, 0 <= tag < 2 ^ 64 ->
  (fptu_tag_is_fixedsize tag = true <-> 4 <= tag / 2048 mod 32) /\ (fptu_tag_is_deleted tag = true <-> tag / 2048 mod 32 = 31).
Proof.
  intros tag H. assert (P : 0 <= u32 tag) by (unfold u32; lia). destruct (tag_halves (u32 tag) P) as [H1 _].
  assert (E : u32 tag / 2048 mod 32 = tag / 2048 mod 32) by (unfold u32; change (2 ^ 32) with 4294967296; lia).
  split; [|unfold fptu_tag_is_deleted; rewrite H1, E; unfold g_hole; lia].
  unfold fptu_tag_is_fixedsize, is_fixed_size. change 0xE000 with (7 * 2 ^ 13 + 0).
  rewrite (Z.div_mod (u32 tag) (2 ^ 13)) by lia. rewrite (Z.mul_comm (2 ^ 13)). rewrite land_split by lia.
  rewrite Z.land_0_r, Z.add_0_r. change 7 with (2 ^ 3 - 1). rewrite land_mask by lia. change (2 ^ 13) with 8192. change (2 ^ 3) with 8.
  rewrite <- E. lia.
Qed.

(** names tell types apart *)
Fixpoint distinctb (l : list (list Z)) : bool :=
  match l with [] => true | x :: l => negb (existsb (fun y => if list_eq_dec Z.eq_dec x y then true else false) l) && distinctb l end.
Lemma distinctb_spec l : distinctb l = true -> NoDup l.
Proof.
  induction l as [|x l IH]; [constructor|]. cbn [distinctb]. intros H. apply Bool.andb_true_iff in H. destruct H as [H1 H2].
  constructor; [|apply IH; exact H2]. intros I. apply Bool.negb_true_iff in H1. rewrite <- Bool.not_true_iff_false in H1. apply H1.
  apply existsb_exists. exists x. split; [exact I|]. destruct (list_eq_dec Z.eq_dec x x); [reflexivity|congruence].
Qed.
Theorem C68_genus_names : forall a b, 0 <= a < 32 -> 0 <= b < 32 -> genus_name a = genus_name b -> a = b.
Proof.
  intros a b Ha Hb E. assert (N : NoDup (map codes typenames)) by (apply distinctb_spec; vm_compute; reflexivity).
  unfold genus_name in E. rewrite <- !(map_nth codes) in E.
  apply (proj1 (NoDup_nth (map codes typenames) (codes EmptyString)) N) in E; change (List.length (map codes typenames)) with 32%nat; lia.
Qed.
Lemma invalid_name t : 0 <= t < 2 ^ 32 -> snprintf 32 (codes "invalid(fptu_type)" ++ print_i (sgn 32 t)) = codes "invalid(fptu_type)" ++ print_i (sgn 32 t).
Proof.
  intros H. unfold snprintf. apply firstn_all2. rewrite app_length. change (List.length (codes "invalid(fptu_type)")) with 18%nat.
  pose proof (print_i_length (sgn 32 t)) as L. unfold sgn in L |- *. cbv zeta in *. change (32 - 1) with 31 in *. change (2 ^ 32) with 4294967296 in *. change (2 ^ 31) with 2147483648 in *.
  destruct (t mod 4294967296 <? 2147483648) eqn:E; specialize (L ltac:(lia)); lia.
Qed.
(** distinct types have distinct names, also those without a name of their own *)
Theorem C68_type_names : forall a b, 0 <= a < 2 ^ 32 -> 0 <= b < 2 ^ 32 -> fptu_type_name a = fptu_type_name b -> a = b.
Proof.
  intros a b Ha Hb. unfold fptu_type_name.
  assert (Head : forall s, In s (map snd type_cases) -> forall r, codes s <> codes "invalid(fptu_type)" ++ r).
  { intros s I r E. cbn in I. repeat (destruct I as [<-|I]; [vm_compute in E; discriminate|]). destruct I. }
  assert (N : NoDup (map codes (map snd type_cases))) by (apply distinctb_spec; vm_compute; reflexivity).
  rewrite !invalid_name by assumption.
  destruct (switch_cases type_cases a (codes "invalid(fptu_type)" ++ print_i (sgn 32 a))) as [(s & I & ->)|[Na ->]];
  destruct (switch_cases type_cases b (codes "invalid(fptu_type)" ++ print_i (sgn 32 b))) as [(s' & I' & ->)|[Nb ->]]; intros E.
  - assert (Inj : forall l, NoDup (map codes (map snd l)) -> In (a, s) l -> In (b, s') l -> a = b).
    { clear -E. induction l as [|[x y] l IH]; cbn [map In snd]; intros N P Q; [contradiction|]. inversion N as [|? ? N1 N2]; subst.
      destruct P as [P|P], Q as [Q|Q].
      - congruence.
      - injection P as -> ->. exfalso. apply N1. rewrite E. apply in_map. change s' with (snd (b, s')). apply in_map. exact Q.
      - injection Q as -> ->. exfalso. apply N1. rewrite <- E. apply in_map. change s with (snd (a, s)). apply in_map. exact P.
      - apply IH; assumption. }
    exact (Inj type_cases N I I').
  - exfalso. apply (Head s) in E; [exact E|]. change s with (snd (a, s)). apply in_map. exact I.
  - exfalso. symmetry in E. apply (Head s') in E; [exact E|]. change s' with (snd (b, s')). apply in_map. exact I'.
  - apply app_inv_head in E. apply print_i_inj in E.
    + unfold sgn in E. cbv zeta in E. change (32 - 1) with 31 in E. change (2 ^ 32) with 4294967296 in *. change (2 ^ 31) with 2147483648 in *.
      destruct (a mod 4294967296 <? 2147483648) eqn:A, (b mod 4294967296 <? 2147483648) eqn:B; lia.
    + unfold sgn. cbv zeta. change (32 - 1) with 31. change (2 ^ 32) with 4294967296 in *. change (2 ^ 31) with 2147483648. destruct (a mod 4294967296 <? 2147483648) eqn:A; lia.
    + unfold sgn. cbv zeta. change (32 - 1) with 31. change (2 ^ 32) with 4294967296 in *. change (2 ^ 31) with 2147483648. destruct (b mod 4294967296 <? 2147483648) eqn:B; lia.
Qed.
(** a type without a name of its own is called by its number, which can be read from the name *)
Definition read_i (l : list Z) : Z := match l with 45 :: d => - number d | _ => number l end.
Theorem C68_invalid_names : forall t, 0 <= t < 2 ^ 32 -> (forall s, ~ In (t, s) type_cases) ->
  exists d, fptu_type_name t = codes "invalid(fptu_type)" ++ d /\ d <> [] /\ read_i d mod 2 ^ 32 = t /\ - 2 ^ 31 <= read_i d < 2 ^ 31 /\ Forall (fun c => isdigit c \/ c = 45) d.
Proof.
  intros t H N. unfold fptu_type_name. rewrite invalid_name by exact H.
  destruct (switch_cases type_cases t (codes "invalid(fptu_type)" ++ print_i (sgn 32 t))) as [(s & I & _)|[_ ->]]; [elim (N s I)|].
  exists (print_i (sgn 32 t)). split; [reflexivity|].
  assert (B : sgn 32 t mod 2 ^ 32 = t /\ - 2 ^ 31 <= sgn 32 t < 2 ^ 31).
  { unfold sgn. cbv zeta. change (32 - 1) with 31. change (2 ^ 32) with 4294967296 in *. change (2 ^ 31) with 2147483648. destruct (t mod 4294967296 <? 2147483648) eqn:A; lia. }
  destruct B as [Bm Br]. set (n := sgn 32 t) in *. clearbody n.
  destruct (digits_read 10 (Z.abs n) ltac:(change (10 ^ Z.of_nat 10) with 10000000000; change (2 ^ 31) with 2147483648 in *; lia) ltac:(lia)) as (R & D & L).
  assert (W : Forall (fun c => isdigit c \/ c = 45) (digits 10 (Z.abs n))) by (eapply Forall_impl; [|exact D]; auto).
  assert (Q : read_i (print_i n) = n); [|rewrite Q; split; [|split; [exact Bm|split; [exact Br|]]]].
  - unfold print_i. destruct (n <? 0) eqn:E.
    + cbn [read_i]. replace (- n) with (Z.abs n) by lia. lia.
    + replace (digits 10 n) with (digits 10 (Z.abs n)) by (f_equal; lia). assert (Y : read_i (digits 10 (Z.abs n)) = number (digits 10 (Z.abs n))); [|lia].
      destruct (digits 10 (Z.abs n)) as [|c d]; [reflexivity|]. inversion D as [|x y Hc]. subst. unfold isdigit in Hc. unfold read_i. destruct c as [|p|p]; try reflexivity.
      repeat (destruct p as [p|p|]; try reflexivity); lia.
  - unfold print_i. destruct (n <? 0) eqn:E; [discriminate|]. replace n with (Z.abs n) by lia. intros X. rewrite X in L. cbn in L. lia.
  - unfold print_i. destruct (n <? 0) eqn:E; [constructor; [auto|]; replace (- n) with (Z.abs n) by lia; exact W|]. replace n with (Z.abs n) by lia. exact W.
Qed.
Example C68_invalid_case : fptu_type_name (2 ^ 32 - 7) = codes "invalid(fptu_type)-7" /\ forallb (fun c => negb (fst c =? 2 ^ 32 - 7)) type_cases = true.
Proof. split; vm_compute; reflexivity. Qed.
(** but not every constant of the interface has a name: booleans, addresses and networks are called invalid *)
Theorem C68_unnamed_refuted : forall t, In t [fptu_bool; fptu_ip; fptu_mac; fptu_ipnet] ->
  In t (map fst constants) /\ firstn 7 (fptu_type_name t) = codes "invalid".
Proof.
  intros t I. assert (C : forallb (fun t => existsb (fun c => fst c =? t) constants && (if list_eq_dec Z.eq_dec (firstn 7 (fptu_type_name t)) (codes "invalid") then true else false))
    [fptu_bool; fptu_ip; fptu_mac; fptu_ipnet] = true) by (vm_compute; reflexivity).
  rewrite forallb_forall in C. specialize (C _ I). cbv beta in C. apply Bool.andb_true_iff in C. destruct C as [C D]. split.
  - apply existsb_exists in C. destruct C as (c & J & E). apply Z.eqb_eq in E. subst t. apply in_map. exact J.
  - destruct (list_eq_dec Z.eq_dec (firstn 7 (fptu_type_name t)) (codes "invalid")) as [Q|Q]; [exact Q|discriminate D].
Qed.
Theorem C68_named_partial : forall t g, In (t, g) constants -> ~ In t [fptu_bool; fptu_ip; fptu_mac; fptu_ipnet] ->
  exists s, In (t, s) type_cases /\ fptu_type_name t = codes s.
Proof.
  intros t g I N.
  assert (C : forallb (fun c => existsb (Z.eqb (fst c)) [fptu_bool; fptu_ip; fptu_mac; fptu_ipnet] || existsb (fun x => fst x =? fst c) type_cases) constants = true)
    by (vm_compute; reflexivity).
  rewrite forallb_forall in C. specialize (C _ I). cbv beta in C. change (fst (t, g)) with t in C. apply Bool.orb_true_iff in C. destruct C as [C|C].
  - exfalso. apply N. apply existsb_exists in C. destruct C as (x & J & E). apply Z.eqb_eq in E. subst x. exact J.
  - apply existsb_exists in C. destruct C as ([x s] & J & E). cbn [fst] in E. apply Z.eqb_eq in E. subst x. unfold fptu_type_name.
    destruct (switch_cases type_cases t (snprintf 32 (codes "invalid(fptu_type)" ++ print_i (sgn 32 t)))) as [(r & P & Q)|[P _]]; [exists r; split; assumption|].
    exfalso. exact (P s J).
Qed.
(** the names of comparison outcomes: a composite name covers exactly the outcomes its sign admits *)
Theorem C68_lge_names : forall x s, In (x, s) lge_cases -> lge_name x = codes s /\
  (forall o c, In (o, c) [(fptu_lt, Lt); (fptu_eq, Eq); (fptu_gt, Gt)] ->
    (negb (Z.land x o =? 0) = true <-> In (s, c) [("==", Eq); ("<", Lt); (">", Gt); ("!=", Lt); ("!=", Gt); ("<=", Lt); ("<=", Eq); (">=", Gt); (">=", Eq)]%string)).
Proof.
  intros x s I. cbn in I. repeat (destruct I as [I|I]; [injection I as <- <-; split; [vm_compute; reflexivity|];
    intros o c J; cbn in J; repeat (destruct J as [J|J]; [injection J as <- <-; vm_compute; split; [intros Q; first [discriminate|tauto]|
      intros Q; first [reflexivity|exfalso; repeat (destruct Q as [Q|Q]; [discriminate|]); exact Q]]|]); destruct J|]). destruct I.
Qed.
(** "incomparable" is an outcome of its own, admitted only by its own name and by "!=" *)
Theorem C68_lge_incomparable : forall x s, In (x, s) lge_cases -> (Z.land x fptu_ic <> 0 <-> s = "><"%string \/ s = "!="%string).
Proof.
  intros x s I. cbn in I. repeat (destruct I as [I|I]; [injection I as <- <-; vm_compute; split; [intros Q; first [exfalso; apply Q; reflexivity|left; reflexivity|right; reflexivity]|
    intros [Q|Q]; first [discriminate Q|intros R; discriminate R]]|]). destruct I.
Qed.
Example C68_case : In (fptu_256, 22) constants /\ fptu_get_colnum (fptu_make_tag 64 42 fptu_int64) = 42 /\ fptu_type_name fptu_256 = codes "b256" /\
  fptu_type_name fptu_bool = codes "invalid(fptu_type)-188416" /\ fptu_make_tag 16 0 fptu_bool = 0x2000 /\ fptu_make_tag 64 0 fptu_bool = 0xFFFD2000.
Proof. split; [unfold constants; repeat (first [left; reflexivity|right])|]. vm_compute. repeat split. Qed.

(** ** C69.  The text of a date *)
(** An independent reader: the fields stand at fixed places. *)
Definition at_ (i n : nat) (l : list Z) : list Z := firstn n (skipn i l).
Definition read_nanoseconds (l : list Z) : Z :=
  let y := number (at_ 0 4 l) in let m := number (at_ 5 2 l) in let d := number (at_ 8 2 l) in
  let h := number (at_ 11 2 l) in let mi := number (at_ 14 2 l) in let s := number (at_ 17 2 l) in
  let leap_year := days_before (y + 1) - days_before y =? 366 in
  ((days_before y + before_month leap_year (m - 1) + d - 1) * 86400 + h * 3600 + mi * 60 + s) * 10 ^ 9 + number (at_ 20 9 l).
(** the whole number of nanoseconds nearest to the time [t], which counts 2^-32 of a second *)
Definition nearest_ns (t n : Z) : Prop := 2 * Z.abs (n * 2 ^ 32 - t * 10 ^ 9) <= 2 ^ 32.

Definition row_of (u : tm) (f : Z) : list (nat * Z * list Z) :=
  [(4%nat, tm_year u + 1900, [45]); (2%nat, tm_mon u + 1, [45]); (2%nat, tm_mday u, [90]); (2%nat, tm_hour u, [58]);
   (2%nat, tm_min u, [58]); (2%nat, tm_sec u, [46]); (9%nat, f, [])].
Definition clock (u : tm) : list Z := [tm_year u + 1900; tm_mon u + 1; tm_mday u; tm_hour u; tm_min u; tm_sec u].
Definition clock_seconds (u : tm) : Z := seconds_of (tm_year u + 1900) (tm_mon u + 1) (tm_mday u) (tm_hour u) (tm_min u) (tm_sec u).
Definition carried (t : Z) : Z := utc_seconds t + nano (fractional t) / 10 ^ 9.
Lemma text_row t : 0 <= t < 2 ^ 64 ->
  let u := gmtime (carried t) in let f := nano (fractional t) mod 10 ^ 9 in
  datetime_text t = row (row_of u f) /\ fits (row_of u f) /\ real_tm u /\
  seconds_of (tm_year u + 1900) (tm_mon u + 1) (tm_mday u) (tm_hour u) (tm_min u) (tm_sec u) = carried t /\ 1970 <= tm_year u + 1900 <= 2106.
Proof.
  intros H u f. assert (Hf : 0 <= fractional t < 2 ^ 32) by (unfold fractional, u32; lia).
  assert (Hu : 0 <= utc_seconds t < 2 ^ 32) by (unfold utc_seconds, u32; lia).
  destruct (nano_spec _ Hf) as [N _].
  assert (Hs : 0 <= carried t <= 2 ^ 32) by (unfold carried; lia).
  destruct (gmtime_spec _ Hs) as (R & S1 & Y). fold u in R, S1, Y.
  destruct R as (R1 & R2 & R3 & R4 & R5). pose proof (month_days_bounds (tm_year u + 1900) (tm_mon u)) as MB.
  assert (F : fits (row_of u f)).
  { unfold fits, row_of. repeat (apply Forall_cons; [cbn [fst snd]|]); try apply Forall_nil.
    - change (10 ^ Z.of_nat 4) with 10000. lia.
    - change (10 ^ Z.of_nat 2) with 100. lia.
    - change (10 ^ Z.of_nat 2) with 100. lia.
    - change (10 ^ Z.of_nat 2) with 100. lia.
    - change (10 ^ Z.of_nat 2) with 100. lia.
    - change (10 ^ Z.of_nat 2) with 100. lia.
    - change (10 ^ Z.of_nat 9) with (10 ^ 9). subst f. lia. }
  split; [|split; [exact F|]; split; [unfold real_tm; tauto|]; split; assumption].
  unfold datetime_text, print_9f. cbn [app hd]. cbv zeta.
  replace (utc_seconds t + (48 + nano (fractional t) / 10 ^ 9) - 48) with (carried t) by (unfold carried; lia). fold u. fold f.
  rewrite !print_0d_fixed by first [lia|change (10 ^ Z.of_nat 4) with 10000; lia|change (10 ^ Z.of_nat 2) with 100; lia].
  cbn [skipn]. unfold row_of. cbn [row]. rewrite app_nil_r. cbn [app]. reflexivity.
Qed.
Lemma text_is t : 0 <= t < 2 ^ 64 -> exists u f, datetime_text t = row (row_of u f) /\ fits (row_of u f) /\ real_tm u /\ 0 <= f < 10 ^ 9 /\
  clock_seconds u * 10 ^ 9 + f = utc_seconds t * 10 ^ 9 + nano (fractional t) /\ 1970 <= tm_year u + 1900 <= 2106.
Proof.
  intros H. destruct (text_row t H) as (E & F & R & S1 & Y). exists (gmtime (carried t)), (nano (fractional t) mod 10 ^ 9).
  split; [exact E|]. split; [exact F|]. split; [exact R|]. split; [apply Z.mod_pos_bound; lia|]. split; [|exact Y].
  clear E F R Y. unfold clock_seconds. rewrite S1. clear S1. unfold carried. generalize (nano (fractional t)) (utc_seconds t). intros n s. lia.
Qed.
Lemma at_skip l1 l2 i n : List.length l1 = i -> at_ i n (l1 ++ l2) = firstn n l2.
Proof. intros E. unfold at_. rewrite skipn_app, skipn_all2 by lia. rewrite E, Nat.sub_diag. reflexivity. Qed.
Lemma leap_by_days y : (days_before (y + 1) - days_before y =? 366) = leap y.
Proof. rewrite year_step. unfold year_days. destruct (leap y); lia. Qed.
Lemma row_fields u f : fits (row_of u f) -> let l := row (row_of u f) in
  List.length l = 29%nat /\
  number (at_ 0 4 l) = tm_year u + 1900 /\ number (at_ 5 2 l) = tm_mon u + 1 /\ number (at_ 8 2 l) = tm_mday u /\
  number (at_ 11 2 l) = tm_hour u /\ number (at_ 14 2 l) = tm_min u /\ number (at_ 17 2 l) = tm_sec u /\ number (at_ 20 9 l) = f /\
  at_ 4 1 l = [45] /\ at_ 7 1 l = [45] /\ at_ 10 1 l = [90] /\ at_ 13 1 l = [58] /\ at_ 16 1 l = [58] /\ at_ 19 1 l = [46].
Proof.
  intros F l. unfold fits, row_of in F.
  inversion F as [|? ? F1 G1]; subst; clear F. inversion G1 as [|? ? F2 G2]; subst; clear G1. inversion G2 as [|? ? F3 G3]; subst; clear G2.
  inversion G3 as [|? ? F4 G4]; subst; clear G3. inversion G4 as [|? ? F5 G5]; subst; clear G4. inversion G5 as [|? ? F6 G6]; subst; clear G5.
  inversion G6 as [|? ? F7 G7]; subst; clear G6. clear G7. cbn [fst snd] in *.
  destruct (fixed_read _ _ F1) as [V1 _]. destruct (fixed_read _ _ F2) as [V2 _]. destruct (fixed_read _ _ F3) as [V3 _]. destruct (fixed_read _ _ F4) as [V4 _].
  destruct (fixed_read _ _ F5) as [V5 _]. destruct (fixed_read _ _ F6) as [V6 _]. destruct (fixed_read _ _ F7) as [V7 _].
  subst l. unfold row_of. cbn [row]. rewrite app_nil_r.
  revert V1 V2 V3 V4 V5 V6 V7. clear F1 F2 F3 F4 F5 F6 F7.
  pose proof (fixed_length 4 (tm_year u + 1900)) as L1. pose proof (fixed_length 2 (tm_mon u + 1)) as L2. pose proof (fixed_length 2 (tm_mday u)) as L3.
  pose proof (fixed_length 2 (tm_hour u)) as L4. pose proof (fixed_length 2 (tm_min u)) as L5. pose proof (fixed_length 2 (tm_sec u)) as L6. pose proof (fixed_length 9 f) as L7.
  generalize dependent (digits_fixed 4 (tm_year u + 1900)). generalize dependent (digits_fixed 2 (tm_mon u + 1)). generalize dependent (digits_fixed 2 (tm_mday u)).
  generalize dependent (digits_fixed 2 (tm_hour u)). generalize dependent (digits_fixed 2 (tm_min u)). generalize dependent (digits_fixed 2 (tm_sec u)).
  generalize dependent (digits_fixed 9 f). intros d7 L7 d6 L6 d5 L5 d4 L4 d3 L3 d2 L2 d1 L1 V1 V2 V3 V4 V5 V6 V7.
  repeat (destruct d1 as [|? d1]; try discriminate L1). repeat (destruct d2 as [|? d2]; try discriminate L2). repeat (destruct d3 as [|? d3]; try discriminate L3).
  repeat (destruct d4 as [|? d4]; try discriminate L4). repeat (destruct d5 as [|? d5]; try discriminate L5). repeat (destruct d6 as [|? d6]; try discriminate L6).
  repeat (destruct d7 as [|? d7]; try discriminate L7). unfold at_. cbn [app skipn firstn List.length].
  repeat (split; [first [reflexivity|assumption]|]). reflexivity.
Qed.
Lemma read_unfold l : read_nanoseconds l =
  seconds_of (number (at_ 0 4 l)) (number (at_ 5 2 l)) (number (at_ 8 2 l)) (number (at_ 11 2 l)) (number (at_ 14 2 l)) (number (at_ 17 2 l)) * 10 ^ 9 + number (at_ 20 9 l).
Proof. unfold read_nanoseconds, seconds_of. cbv zeta. rewrite leap_by_days. reflexivity. Qed.
Lemma read_row u f : fits (row_of u f) -> read_nanoseconds (row (row_of u f)) =
  clock_seconds u * 10 ^ 9 + f.
Proof.
  intros F. destruct (row_fields _ _ F) as (_ & E1 & E2 & E3 & E4 & E5 & E6 & E7 & _). unfold clock_seconds.
  rewrite read_unfold, E1, E2, E3, E4, E5, E6, E7. reflexivity.
Qed.
Lemma read_text t : 0 <= t < 2 ^ 64 -> read_nanoseconds (datetime_text t) = utc_seconds t * 10 ^ 9 + nano (fractional t).
Proof.
  intros H. destruct (text_is t H) as (u & f & E & F & _ & _ & S1 & _). rewrite E, (read_row _ _ F). exact S1.
Qed.
Lemma two_parts t : 0 <= t < 2 ^ 64 -> t = utc_seconds t * 2 ^ 32 + fractional t /\ 0 <= fractional t < 2 ^ 32.
Proof. intros H. unfold utc_seconds, fractional, u32. rewrite Z.shiftr_div_pow2 by lia. lia. Qed.
Theorem C69_nearest_nanosecond : forall t, 0 <= t < 2 ^ 64 -> nearest_ns t (read_nanoseconds (datetime_text t)).
Proof.
  intros t H. rewrite (read_text t H). destruct (two_parts t H) as [T Hf]. destruct (nano_spec _ Hf) as [_ N2].
  unfold nearest_ns. revert T N2. generalize (nano (fractional t)). intros n. generalize (fractional t) (utc_seconds t). intros f s -> N2. lia.
Qed.
(** the shape of the text: 29 characters, punctuation at fixed places, a date and a time that exist *)
Theorem C69_shape : forall t, 0 <= t < 2 ^ 64 -> let l := datetime_text t in
  List.length l = 29%nat /\
  at_ 4 1 l = [45] /\ at_ 7 1 l = [45] /\ at_ 10 1 l = [90] /\ at_ 13 1 l = [58] /\ at_ 16 1 l = [58] /\ at_ 19 1 l = [46] /\
  Forall (fun c => isdigit c \/ In c [45; 90; 58; 46]) l /\
  1970 <= number (at_ 0 4 l) <= 2106 /\ 1 <= number (at_ 5 2 l) <= 12 /\
  1 <= number (at_ 8 2 l) <= month_days (number (at_ 0 4 l)) (number (at_ 5 2 l) - 1) /\
  0 <= number (at_ 11 2 l) < 24 /\ 0 <= number (at_ 14 2 l) < 60 /\ 0 <= number (at_ 17 2 l) < 60.
Proof.
  intros t H l. destruct (text_is t H) as (u & f & E & F & R & _ & _ & Y). unfold l. rewrite E.
  destruct (row_fields _ _ F) as (L & E1 & E2 & E3 & E4 & E5 & E6 & E7 & P1 & P2 & P3 & P4 & P5 & P6).
  split; [exact L|]. do 6 (split; [assumption|]). split.
  { apply row_chars; [intros c Hc; left; exact Hc|exact F|]. unfold row_of.
    repeat (apply Forall_cons; [cbn [snd]; first [apply Forall_nil|apply Forall_cons; [right; cbn; tauto|apply Forall_nil]]|]). apply Forall_nil. }
  rewrite E1, E2, E3, E4, E5, E6. destruct R as (R1 & R2 & R3 & R4 & R5). replace (tm_mon u + 1 - 1) with (tm_mon u) by lia.
  repeat split; lia.
Qed.
Lemma vals_row u f : vals (row_of u f) = clock u ++ [f].
Proof. reflexivity. Qed.
Lemma row_of_inj a b f g : clock a ++ [f] = clock b ++ [g] -> row_of a f = row_of b g.
Proof. unfold clock, row_of. cbn [app]. intros Q. injection Q as -> -> Q3 Q4 Q5 Q6 Q7. rewrite Q3, Q4, Q5, Q6, Q7. reflexivity. Qed.
Lemma clock_lt a b : real_tm a -> real_tm b -> lexlt (clock a) (clock b) -> clock_seconds a < clock_seconds b.
Proof.
  intros (R1 & R2 & R3 & R4 & R5) (R1' & R2' & R3' & R4' & R5') L. unfold clock_seconds. apply seconds_lt; try lia; [| |exact L].
  - replace (tm_mon a + 1 - 1) with (tm_mon a) by lia. lia.
  - replace (tm_mon b + 1 - 1) with (tm_mon b) by lia. lia.
Qed.
Lemma clock_eq a b : clock a = clock b -> clock_seconds a = clock_seconds b.
Proof. unfold clock, clock_seconds. intros Q. injection Q as -> -> -> -> -> ->. reflexivity. Qed.
Lemma order_rows a b f g : real_tm a -> real_tm b -> fits (row_of a f) -> fits (row_of b g) -> 0 <= f < 10 ^ 9 -> 0 <= g < 10 ^ 9 ->
  lexlt (row (row_of a f)) (row (row_of b g)) -> clock_seconds a * 10 ^ 9 + f < clock_seconds b * 10 ^ 9 + g.
Proof.
  intros Ra Rb Fa Fb Hf Hg L.
  assert (V : lexlt (clock a ++ [f]) (clock b ++ [g])).
  { destruct (lexlt_total (clock a ++ [f]) (clock b ++ [g])) as [Q|[Q|Q]]; [exact Q| |].
    - exfalso. apply row_of_inj in Q. rewrite Q in L. exact (lexlt_irrefl _ L).
    - exfalso. rewrite <- !vals_row in Q. apply (row_lt (row_of b g) (row_of a f) eq_refl Fb Fa) in Q. exact (lexlt_irrefl _ (lexlt_trans _ _ _ L Q)). }
  destruct (lexlt_total (clock a) (clock b)) as [Q|[Q|Q]].
  - apply clock_lt in Q; [lia|assumption|assumption].
  - rewrite (clock_eq _ _ Q). rewrite Q in V. apply lexlt_app_eq in V. inversion V as [|? ? ? ? P|? ? ? P]; subst; [lia|inversion P].
  - exfalso. apply (lexlt_app_lt (clock b) (clock a) [g] [f] eq_refl) in Q. exact (lexlt_irrefl _ (lexlt_trans _ _ _ V Q)).
Qed.
Lemma order_one t u : 0 <= t < 2 ^ 64 -> 0 <= u < 2 ^ 64 -> lexlt (datetime_text t) (datetime_text u) ->
  read_nanoseconds (datetime_text t) < read_nanoseconds (datetime_text u).
Proof.
  intros Ht Hu L. destruct (text_is t Ht) as (a & f & E & F & R & Hf & _). destruct (text_is u Hu) as (b & g & E' & F' & R' & Hg & _).
  rewrite E, E' in L |- *. rewrite (read_row _ _ F), (read_row _ _ F'). exact (order_rows a b f g R R' F F' Hf Hg L).
Qed.
(** Texts are ordered as the nanoseconds they name; so no later time has an earlier text. *)
Theorem C69_order : forall t u, 0 <= t < 2 ^ 64 -> 0 <= u < 2 ^ 64 ->
  (lexlt (datetime_text t) (datetime_text u) <-> read_nanoseconds (datetime_text t) < read_nanoseconds (datetime_text u)) /\
  (datetime_text t = datetime_text u <-> read_nanoseconds (datetime_text t) = read_nanoseconds (datetime_text u)) /\
  (t < u -> lexlt (datetime_text t) (datetime_text u) \/ datetime_text t = datetime_text u) /\
  (t + 5 <= u -> datetime_text t <> datetime_text u).
Proof.
  assert (One := order_one).
  intros t u Ht Hu.
  assert (EQ : datetime_text t = datetime_text u <-> read_nanoseconds (datetime_text t) = read_nanoseconds (datetime_text u)).
  { split; [intros ->; reflexivity|]. intros E. destruct (lexlt_total (datetime_text t) (datetime_text u)) as [Q|[Q|Q]]; [apply One in Q; lia|exact Q|apply One in Q; lia]. }
  assert (LT : lexlt (datetime_text t) (datetime_text u) <-> read_nanoseconds (datetime_text t) < read_nanoseconds (datetime_text u)).
  { split; [apply One; assumption|]. intros E. destruct (lexlt_total (datetime_text t) (datetime_text u)) as [Q|[Q|Q]]; [exact Q|rewrite Q in E; lia|apply One in Q; lia]. }
  pose proof (C69_nearest_nanosecond t Ht) as Nt. pose proof (C69_nearest_nanosecond u Hu) as Nu. unfold nearest_ns in Nt, Nu.
  split; [exact LT|]. split; [exact EQ|]. split.
  - intros L. assert (V : read_nanoseconds (datetime_text t) <= read_nanoseconds (datetime_text u)).
    { rewrite (read_text t Ht), (read_text u Hu). destruct (two_parts t Ht) as [Pt Hf]. destruct (two_parts u Hu) as [Pu Hg].
      destruct (nano_spec _ Hf) as [N1 _]. destruct (nano_spec _ Hg) as [N2 _].
      assert (C : utc_seconds t < utc_seconds u \/ (utc_seconds t = utc_seconds u /\ fractional t <= fractional u)) by lia.
      destruct C as [C|[C1 C2]]; [lia|]. pose proof (nano_mono _ _ (proj1 Hf) C2). lia. }
    destruct (Z.eq_dec (read_nanoseconds (datetime_text t)) (read_nanoseconds (datetime_text u))) as [Q|Q]; [right; apply EQ; exact Q|left; apply LT; lia].
  - intros L Q. apply EQ in Q. lia.
Qed.
Example C69_case : datetime_text (1234567890 * 2 ^ 32 + 2 ^ 31) = codes "2009-02-13Z23:31:30.500000000" /\
  datetime_text (951782399 * 2 ^ 32 + (2 ^ 32 - 1)) = codes "2000-02-29Z00:00:00.000000000" /\
  datetime_text (2 ^ 64 - 1) = codes "2106-02-07Z06:28:16.000000000" /\ datetime_text 0 = codes "1970-01-01Z00:00:00.000000000" /\
  datetime_text (2 ^ 22) = codes "1970-01-01Z00:00:00.000976562".
Proof. vm_compute. repeat split. Qed.

(** ** C70.  Error codes of the C interface *)
Inductive answered {A} : attempt A -> A -> A -> Prop :=
| ans_value v denil : answered (inl v) denil v
| ans_error e w denil : answered (inr (e, w)) denil denil.
(** A guarded call: the integer says FPTU_OK exactly when the value is what the library returned;
    otherwise the same code, and the message, are the last error of the thread; a success leaves the last error alone. *)
Theorem C70_guarded : forall (A : Type) (denil : A) (body : attempt A) e0 t,
  let '(v, err, t') := guarded denil body (Some e0) t in
  answered body denil v /\
  match body with
  | inl _ => err = Some FPTU_OK /\ t' = t
  | inr (e, what) => exists c, c <> FPTU_OK /\ err = Some c /\ last_code t' = c /\ last_msg t' = what
  end.
Proof.
  intros A denil [v|[e w]] e0 t; cbn [guarded option_map]; (split; [constructor|]); [split; reflexivity|].
  exists (error_of e). split; [destruct e; discriminate|]. repeat split.
Qed.
Theorem C70_null_pointer : forall (A : Type) (denil : A) (body : attempt A) e0 t,
  let '(v, err, t') := guarded denil body None t in let '(w, _, t'') := guarded denil body (Some e0) t in v = w /\ err = None /\ t' = t''.
Proof. intros A denil [v|[e w]] e0 t; cbn [guarded option_map]; repeat split. Qed.
Theorem C70_returned : forall body t, let '(c, t') := returning body t in
  (c = FPTU_OK <-> exists u, body = inl u) /\ (c = FPTU_OK -> t' = t) /\ (c <> FPTU_OK -> last_code t' = c).
Proof.
  intros [u|[e w]] t; cbn [returning].
  - split; [split; [intros _; exists u; reflexivity|reflexivity]|]. split; [reflexivity|congruence].
  - assert (error_of e <> FPTU_OK) by (destruct e; discriminate). split; [split; [congruence|intros [u Q]; discriminate]|]. split; [congruence|reflexivity].
Qed.
(** which code: lack of room in the buffer, lack of memory and absence of the field are told apart from the rest *)
Theorem C70_codes_partial : forall e, e <> std_bad_array_new_length ->
  (error_of e = FPTU_ENOSPACE <-> e = e_insufficient_space) /\ (error_of e = FPTU_ENOFIELD <-> e = e_field_absent) /\
  (error_of e = FPTU_ENOMEM \/ error_of e = FPTU_ENOSPACE <-> is_a_bad_alloc e = true) /\
  (error_of e = FPTU_EINVAL <-> is_a_bad_alloc e = false /\ e <> e_field_absent).
Proof. intros e N. unfold error_of, is_a_bad_alloc, FPTU_ENOSPACE, FPTU_ENOFIELD, FPTU_ENOMEM, FPTU_EINVAL. destruct e; try (exfalso; apply N; reflexivity); (split; [|split; [|split]]); intuition discriminate. Qed.
(** a failed allocation of an array is an allocation failure but is told as an invalid argument *)
Theorem C70_array_allocation_refuted : exists e, is_a_bad_alloc e = true /\ error_of e = FPTU_EINVAL.
Proof. exists std_bad_array_new_length. split; reflexivity. Qed.
(** the getter of strings does not touch the integer when the field is there: it keeps what it held *)
Theorem C70_cstr_stale_refuted : exists e0 v t, e0 <> FPTU_OK /\ let '(r, err, t') := get_cstr (Some (inl (Some v))) (Some e0) t in r = Some v /\ err = Some e0.
Proof. exists FPTU_EINVAL, [65], fptu_clear_error. split; [discriminate|]. split; reflexivity. Qed.
Theorem C70_cstr_absent : forall e0 t, let '(r, err, t') := get_cstr None (Some e0) t in r = Some [] /\ err = Some FPTU_ENOFIELD /\ last_code t' = FPTU_ENOFIELD.
Proof. intros. repeat split. Qed.
(** running out of memory has no text of its own *)
Theorem C70_text_partial : forall a b, In a [FPTU_OK; FPTU_ENOFIELD; FPTU_EINVAL; FPTU_ENOSPACE] -> In b [FPTU_OK; FPTU_ENOFIELD; FPTU_EINVAL; FPTU_ENOSPACE; FPTU_ENOMEM] ->
  firstn 5 (error_text a) = codes "FPTU:" /\ (error_text a = error_text b -> a = b).
Proof.
  intros a b Ia Ib. cbn in Ia. repeat (destruct Ia as [<-|Ia]; [split; [vm_compute; reflexivity|]; cbn in Ib; repeat (destruct Ib as [<-|Ib]; [intros E; first [reflexivity|vm_compute in E; discriminate]|]); destruct Ib|]). destruct Ia.
Qed.
Theorem C70_no_memory_text_refuted : firstn 7 (error_text FPTU_ENOMEM) = codes "invalid".
Proof. reflexivity. Qed.
Example C70_case : guarded 0 (inr (e_field_absent, codes "fptu: no such field in the tuple")) (Some 7) fptu_clear_error =
  (0, Some 126, mkTls 126 (codes "fptu: no such field in the tuple")) /\ returning (inr (e_insufficient_space, [])) fptu_clear_error = (105, mkTls 105 []).
Proof. split; reflexivity. Qed.

Print Assumptions C68_genus_numbers.
Print Assumptions C68_constants.
Print Assumptions C68_null.
Print Assumptions C68_inlay.
Print Assumptions C68_inlay_columns_refuted.
Print Assumptions C68_filters.
Print Assumptions C68_filter_of_type.
Print Assumptions C68_tags_round_trip.
Print Assumptions C68_column_not_checked_refuted.
Print Assumptions C68_predicates.
Print Assumptions C68_genus_names.
Print Assumptions C68_type_names. Print Assumptions C68_invalid_names.
Print Assumptions C68_unnamed_refuted.
Print Assumptions C68_named_partial.
Print Assumptions C68_lge_names.
Print Assumptions C68_lge_incomparable.
Print Assumptions C69_nearest_nanosecond.
Print Assumptions C69_shape.
Print Assumptions C69_order.
Print Assumptions C70_guarded.
Print Assumptions C70_null_pointer.
Print Assumptions C70_returned.
Print Assumptions C70_codes_partial.
Print Assumptions C70_array_allocation_refuted.
Print Assumptions C70_cstr_stale_refuted.
Print Assumptions C70_cstr_absent.
Print Assumptions C70_text_partial.
Print Assumptions C70_no_memory_text_refuted.
