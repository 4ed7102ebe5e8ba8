(** * Properties of the C interface: C32, C45, C55, C56, C57, C58, C59 *)
From Verif Require Import Base Tag TagProofs Codec CodecProofs Gear GearBase GearProofs Tuple TupleProofs TupleSteps TupleView TupleOps TupleMore TupleHist
  TupleFacts PropertiesTuple GearOpt GearOptProofs GearSortProofs PropertiesOpt Legacy LegacyProofs.
From Coq Require Import ZifyBool ZifyNat Permutation.
Ltac Zify.zify_post_hook ::= Z.div_mod_to_equations.

(** ** C32.  Erasing by column and type or mask *)
(** Said without the model: the field [f] is of column [column] and its type belongs to the mask.  A
    descriptor is 2048 times the type plus the column. *)
Definition in_filter (column mask : Z) (f : Z * list Z) : bool :=
  (fst f mod 2048 =? column) && Z.testbit mask (fst f / 2048).
Lemma fields_flist s : fields_in_order s = flist (fun k => field s (RL k)) (cnt s).
Proof. unfold fields_in_order. apply flist_seq. Qed.
Lemma fields_flist_more s n : (cnt s <= n)%nat -> fields_in_order s = flist (fun k => field s (RL k)) n.
Proof. intros H. rewrite fields_flist. symmetry. apply flist_more; [exact H|]. intros. apply field_out. assumption. Qed.

Lemma erase_filter s column tf : TInv s -> column <= 2047 -> is_filter tf = true ->
  calm_if s (wanted column tf) (cnt s) = true ->
  exists s', fptu_erase s column tf = Ok (Z.of_nat (length (filter (in_filter column tf) (fields_in_order s)))) s' /\
    fields_in_order s' = filter (fun f => negb (in_filter column tf f)) (fields_in_order s) /\
    TInv s' /\ nslots s' = nslots s /\ (forall j, field s' (RP j) = field s (RP j)).
Proof.
  intros T Hc F C.
  destruct (erase_if_step (wanted column tf) (selected column tf)) with (n := cnt s) (s := s) (r := 0) as (s' & E & T' & Ff & N); auto.
  - intros e He. apply holes_skipped; assumption.
  - intros e e' He. apply wanted_gid. exact He.
  - intros e He Hg. apply wanted_sel; assumption.
  - intros i Hi [L _]. lia.
  - intros i Hi. destruct (is_hole (idx s i)) eqn:Eh; [right; reflexivity|left; split; assumption].
  - exists s'. split.
    { unfold fptu_erase. change fptu_max_cols with 2047. replace (column >? 2047) with false by lia.
      rewrite (erase_scan column tf F) by lia. rewrite E. f_equal. cbn [Z.add].
      rewrite fields_flist. unfold in_filter. change (fun f : Z * list Z => (fst f mod 2048 =? column) && Z.testbit tf (fst f / 2048)) with (fun f : Z * list Z => selected column tf (fst f)).
      rewrite flist_count. apply sumn_ext. intros k Hk. rewrite (wanted_chosen s k column tf T Hk (or_introl F)).
      rewrite ind_field. unfold chosen. rewrite F. reflexivity. }
    split; [|split; [exact T'|split; [exact N|]]].
    + rewrite (fields_flist_more s' (Nat.max (cnt s) (cnt s'))) by lia. rewrite (fields_flist_more s (Nat.max (cnt s) (cnt s'))) by lia.
      apply (flist_filter (fun k => field s (RL k)) (fun k => field s' (RL k)) (selected column tf)). intros k. apply Ff.
    + intros j. rewrite Ff. unfold kept. destruct (field s (RP j)) as [[d v]|]; reflexivity.
Qed.
(** Positive: with a mask exactly the matching fields go, all others stay in order, and the number
    returned is how many went.  (The junk must stay below 2048 units, see C05.) *)
Theorem C32_filter_exact_partial : forall multi s column tf, worked multi s -> column <= 2047 -> is_filter tf = true ->
  calm_if s (wanted column tf) (cnt s) = true ->
  exists s', fptu_erase s column tf = Ok (Z.of_nat (length (filter (in_filter column tf) (fields_in_order s)))) s' /\
    fields_in_order s' = filter (fun f => negb (in_filter column tf f)) (fields_in_order s) /\
    TInv s' /\ nslots s' = nslots s /\ (forall j, field s' (RP j) = field s (RP j)).
Proof. intros multi s column tf W. apply erase_filter. apply (worked_inv multi s W). Qed.
(** without any such condition when the data of the tuple has room for at most 2047 units (8 KB) *)
Theorem C32_filter_exact_small_partial : forall multi s column tf, worked multi s -> column <= 2047 -> is_filter tf = true ->
  end_ s - pivot s - pp s <= 2047 ->
  exists s', fptu_erase s column tf = Ok (Z.of_nat (length (filter (in_filter column tf) (fields_in_order s)))) s' /\
    fields_in_order s' = filter (fun f => negb (in_filter column tf f)) (fields_in_order s) /\
    TInv s' /\ nslots s' = nslots s /\ (forall j, field s' (RP j) = field s (RP j)).
Proof.
  intros multi s column tf W Hc F Hs. apply erase_filter; auto; [apply (worked_inv multi s W)|].
  apply calm_if_small; auto.
  - intros e He. apply holes_skipped; assumption.
  - apply (worked_inv multi s W).
  - intros i Hi. destruct (is_hole (idx s i)) eqn:Eh; [right; reflexivity|left; split; assumption].
Qed.
Definition many : list op :=
  [OAppend (fd g_u16 5) true (blob 1 1); OAppend (fd g_u32 5) true (blob 1 2); OAppend (fd g_u16 7) true (blob 1 3);
   OAppend (fd g_u16 5) true (blob 1 4); OAppend (fd g_text 5) true (blob 1 0); OAppend (fd g_u64 5) true (blob 2 6); OErase 1].
Example C32_case : reached odd_multi (final (new_tuple 40 8) many) /\ is_filter fptu_any_uint = true /\
  end_ (final (new_tuple 40 8) many) - pivot (final (new_tuple 40 8) many) - pp (final (new_tuple 40 8) many) <= 2047 /\
  map fst (fields_in_order (final (new_tuple 40 8) many)) = [fd g_u16 5; fd g_u16 7; fd g_u16 5; fd g_text 5; fd g_u64 5] /\
  length (filter (in_filter 5 fptu_any_uint) (fields_in_order (final (new_tuple 40 8) many))) = 3%nat.
Proof. split; [now_reach|]. vm_compute. repeat split; congruence. Qed.
(** A column that cannot exist is refused. *)
Theorem C32_column_refused : forall s column tf, 2047 < column -> fptu_erase s column tf = Ok (-22) s.
Proof. intros s column tf H. unfold fptu_erase. change fptu_max_cols with 2047. replace (column >? 2047) with true by lia. reflexivity. Qed.

(** With a type instead of a mask one field goes: the one found first. *)
Theorem C32_type_erases_first_partial : forall multi s g column, worked multi s -> 0 <= g < 31 -> 0 <= column <= 2047 ->
  (forall k, lookup_gid s (g * 2048 + column) = Some k -> calm_free s k = true) ->
  exists s', fptu_erase s column (genus2legacy g) = Ok (Z.of_nat (Nat.min 1 (length (view s (g * 2048 + column))))) s' /\
    view s' (g * 2048 + column) = tl (view s (g * 2048 + column)) /\
    (forall d, real_desc d -> d <> g * 2048 + column -> view s' d = view s d) /\
    (forall j, (j < nslots s)%nat -> get_slot s' j = get_slot s j) /\ TInv s' /\ nslots s' = nslots s.
Proof.
  intros multi s g column W Hg Hc Cf. destruct (worked_inv multi s W) as [T _]. set (desc := g * 2048 + column) in *.
  assert (Hd : real_desc desc) by (unfold real_desc; rewrite descriptor2genus_arith; change g_hole with 31; subst desc; lia).
  destruct (type_tag g column Hg Hc) as [Et Ef]. unfold fptu_erase. change fptu_max_cols with 2047. replace (column >? 2047) with false by lia.
  assert (El : fptu_first s (cnt s) column (genus2legacy g) = lookup_gid s desc).
  { unfold fptu_first, lookup_gid. assert (X : forall n, scan_down (wanted column (genus2legacy g)) (idx s) n = scan_down (fun e => gid e =? desc) (idx s) n).
    { induction n as [|n IH]; [reflexivity|]. cbn [scan_down]. rewrite IH. unfold wanted. rewrite Ef, Et. reflexivity. }
    apply X. }
  rewrite El. clear El. cbn [erase_loop]. destruct (lookup_gid s desc) as [k|] eqn:Lk.
  - destruct (lookup_some _ _ _ Hd Lk) as [Hl Hgd]. specialize (Cf k eq_refl). unfold calm_free in Cf.
    destruct (erase_loose_spec s k T Hl ltac:(apply Bool.negb_true_iff; assumption)) as (s1 & E1 & T1 & Ef1 & _).
    unfold fptu_erase_field. destruct (live_gid s k T Hl) as [_ Hh]. rewrite Hh, E1. cbn [bind]. rewrite Ef. cbn [negb].
    destruct (lookup_view _ _ _ Lk) as (l & Ev). exists s1. split; [rewrite Ev; reflexivity|]. split; [|split; [|split; [|split]]].
    + rewrite (view_replace s s1 desc k None Hd Lk Ef1). reflexivity.
    + intros d Dd Nd. apply (effect_other s s1 k _ desc d Dd Ef1); [congruence| |exact I]. rewrite field_live by assumption. exact Hgd.
    + intros j Hj. eapply effect_get_slot; eauto. discriminate.
    + exact T1.
    + apply (e_nslots _ _ _ _ Ef1).
  - exists s. rewrite (lookup_none _ _ Lk). split; [reflexivity|]. split; [reflexivity|]. auto.
Qed.
(** So it is exact for the fields that are no collections, ... *)
Theorem C32_type_exact_partial : forall multi s g column, worked multi s -> 0 <= g < 31 -> 0 <= column <= 2047 ->
  multi (g * 2048 + column) = false -> (forall k, lookup_gid s (g * 2048 + column) = Some k -> calm_free s k = true) ->
  exists s', fptu_erase s column (genus2legacy g) = Ok (Z.of_nat (length (view s (g * 2048 + column)))) s' /\
    view s' (g * 2048 + column) = [].
Proof.
  intros multi s g column W Hg Hc M Cf. destruct (C32_type_erases_first_partial multi s g column W Hg Hc Cf) as (s' & E & V & _).
  destruct (worked_inv multi s W) as [_ U].
  assert (Hd : real_desc (g * 2048 + column)) by (unfold real_desc; rewrite descriptor2genus_arith; change g_hole with 31; lia).
  specialize (U _ Hd M). exists s'. destruct (view s (g * 2048 + column)) as [|x [|y l]]; cbn [length] in *; [| |lia]; auto.
Qed.
Example C32_type_case : reached odd_multi (final (new_tuple 40 8) many) /\ lookup_gid (final (new_tuple 40 8) many) (fd g_u64 5) = Some 5%nat /\
  calm_free (final (new_tuple 40 8) many) 5 = true /\ odd_multi (fd g_u64 6) = false.
Proof. split; [now_reach|]. vm_compute. repeat split. Qed.
(** ... and not for collections: two 16-bit fields of column 5, a single one goes, and the answer is 1,
    though legacy.h:410-414 says all the fields with the column and type. *)
Theorem C32_type_leaves_others_refuted : exists s s', reached odd_multi s /\
  view s (fd g_u16 5) = [[4]; [1]] /\ fptu_erase s 5 (genus2legacy g_u16) = Ok 1 s' /\ view s' (fd g_u16 5) = [[1]].
Proof.
  exists (final (new_tuple 40 8) many), (match fptu_erase (final (new_tuple 40 8) many) 5 (genus2legacy g_u16) with Ok _ s => s | _ => new_tuple 1 1 end).
  split; [now_reach|]. split; [vm_compute; reflexivity|]. split; [|vm_compute; reflexivity].
  assert (G : forall r, match r with Ok n _ => n =? 1 | _ => false end = true -> r = Ok 1 (match r with Ok _ s => s | _ => new_tuple 1 1 end)).
  { intros [n s|s|] H; try discriminate. f_equal. lia. }
  apply G. vm_compute. reflexivity.
Qed.
(** The type "null" of column 6 erases the text of column 5: the 32-bit sum of type and column wraps. *)
Theorem C32_null_erases_text_refuted : exists s s', reached odd_multi s /\
  view s (fd g_text 5) = [[0]] /\ fptu_erase s 6 fptu_null = Ok 1 s' /\ view s' (fd g_text 5) = [].
Proof.
  exists (final (new_tuple 40 8) many), (match fptu_erase (final (new_tuple 40 8) many) 6 fptu_null with Ok _ s => s | _ => new_tuple 1 1 end).
  split; [now_reach|]. split; [vm_compute; reflexivity|]. split; [|vm_compute; reflexivity].
  assert (G : forall r, match r with Ok n _ => n =? 1 | _ => false end = true -> r = Ok 1 (match r with Ok _ s => s | _ => new_tuple 1 1 end)).
  { intros [n s|s|] H; try discriminate. f_equal. lia. }
  apply G. vm_compute. reflexivity.
Qed.

(** ** C45.  Update and upsert *)
Definition desc_of (k : kind) (column : Z) : Z := value_genus k * 2048 + column.
(** what a write through the C interface may do to a tuple *)
Definition replaced (s s' : st) (d : Z) (v : list Z) : Prop :=
  view s' d = v :: tl (view s d) /\ get_loose s' d = Some v /\
  (forall d', real_desc d' -> d' <> d -> view s' d' = view s d') /\
  (forall j, (j < nslots s)%nat -> get_slot s' j = get_slot s j) /\ TInv s'.
Definition well_formed (k : kind) (v : tv) : Prop :=
  wf_pay (value_genus k) (pay v) /\ pay v <> [].

Lemma set_through_c s k column v : TInv s -> 0 <= column <= 2047 -> well_formed k v -> calm s (OSet (desc_of k column) true v) = true ->
  match finish (run1 asis s (OSet (desc_of k column) true v)) with
  | Done FOk s' => replaced s s' (desc_of k column) (pay v)
  | Done FNoSpace s' => s' = s
  | _ => False
  end.
Proof.
  intros T Hc [Wf Ne] C. destruct (value_desc k column Hc) as [Hd Hg]. fold (desc_of k column) in *.
  pose proof (set_step s (desc_of k column) true v T Hd) as P. rewrite Hg in P. specialize (P Wf C).
  destruct (run1 asis s (OSet (desc_of k column) true v)) as [[] s'|s'|]; cbn [finish].
  - destruct P as [T' E]. destruct (set_always s (desc_of k column) v s' T T' Hd (stores_disc _ v (or_intror Ne)) E) as (A & B & D & F).
    unfold replaced. auto.
  - apply P.
  - exact P.
Qed.

(** An update of an absent field says so and changes nothing. *)
Theorem C45_update_absent : forall q s k column v, 0 <= column <= 2047 -> view s (desc_of k column) = [] ->
  fptu_update q s k column v = Done FNoField s.
Proof.
  intros q s k column v Hc V. unfold fptu_update, update_genus. pose proof (value_genus_range k) as R.
  destruct (token_ok (value_genus k) column true true false R Hc) as (t & -> & -> & _ & _).
  fold (desc_of k column). destruct (lookup_gid s (desc_of k column)) as [i|] eqn:E; [|reflexivity].
  destruct (lookup_view _ _ _ E) as (l & X). congruence.
Qed.
(** An update of a present field replaces the one found first and nothing else, or finds no room. *)
Theorem C45_update_present_partial : forall multi s k column v, worked multi s -> 0 <= column <= 2047 ->
  view s (desc_of k column) <> [] -> well_formed k v -> calm s (OSet (desc_of k column) true v) = true ->
  match fptu_update asis s k column v with
  | Done FOk s' => replaced s s' (desc_of k column) (pay v) /\ length (view s' (desc_of k column)) = length (view s (desc_of k column))
  | Done FNoSpace s' => s' = s
  | _ => False
  end.
Proof.
  intros multi s k column v W Hc Nv Wf C. destruct (worked_inv multi s W) as [T _]. unfold fptu_update, update_genus.
  pose proof (value_genus_range k) as R.
  destruct (token_ok (value_genus k) column true true false R Hc) as (t & -> & -> & -> & ->).
  fold (desc_of k column). destruct (lookup_gid s (desc_of k column)) as [i|] eqn:E.
  2:{ apply lookup_none in E. congruence. }
  rewrite Z.eqb_refl. cbn [negb]. pose proof (set_through_c s k column v T Hc Wf C) as P.
  destruct (finish (run1 asis s (OSet (desc_of k column) true v))) as [[] s'|]; auto.
  split; [exact P|]. destruct P as (P & _). rewrite P. destruct (view s (desc_of k column)); [congruence|reflexivity].
Qed.
(** An upsert stores whether or not there is a field, and never makes a second one. *)
Theorem C45_upsert_partial : forall multi s k column v, worked multi s -> 0 <= column <= 2047 -> k <> Knested ->
  well_formed k v -> calm s (OSet (desc_of k column) true v) = true ->
  match fptu_upsert asis s k column v with
  | Done FOk s' => replaced s s' (desc_of k column) (pay v) /\
      length (view s' (desc_of k column)) = Nat.max 1 (length (view s (desc_of k column)))
  | Done FNoSpace s' => s' = s
  | _ => False
  end.
Proof.
  intros multi s k column v W Hc Nk Wf C. destruct (worked_inv multi s W) as [T _]. unfold fptu_upsert.
  assert (Eg : upsert_genus k = value_genus k) by (destruct k; try reflexivity; congruence). rewrite Eg.
  pose proof (value_genus_range k) as R.
  destruct (token_ok (value_genus k) column false true false R Hc) as (t & -> & -> & -> & ->).
  rewrite Z.eqb_refl. cbn [negb]. fold (desc_of k column). pose proof (set_through_c s k column v T Hc Wf C) as P.
  destruct (finish (run1 asis s (OSet (desc_of k column) true v))) as [[] s'|]; auto.
  split; [exact P|]. destruct P as (P & _). rewrite P. destruct (view s (desc_of k column)); reflexivity.
Qed.
Definition answer (o : out) : option code := match o with Done c _ => Some c | Undefined => None end.
Example C45_case : worked odd_multi (final (new_tuple 40 8) many) /\ well_formed Kuint64 (blob 2 9) /\ well_formed Kuint16 (blob 1 9) /\
  calm (final (new_tuple 40 8) many) (OSet (desc_of Kuint64 6) true (blob 2 9)) = true /\
  calm (final (new_tuple 40 8) many) (OSet (desc_of Kuint16 5) true (blob 1 9)) = true /\
  answer (fptu_upsert asis (final (new_tuple 40 8) many) Kuint64 6 (blob 2 9)) = Some FOk /\
  answer (fptu_update asis (final (new_tuple 40 8) many) Kuint64 6 (blob 2 9)) = Some FNoField /\
  answer (fptu_update asis (final (new_tuple 40 8) many) Kuint16 5 (blob 1 9)) = Some FOk /\
  answer (fptu_update asis (final (new_tuple 40 8) many) Kstring 5 (vbin 3 9)) = Some FOk.
Proof.
  split; [apply w_reached; now_reach|]. split; [split; [reflexivity|discriminate]|].
  split; [split; [exists 9; split; [reflexivity|lia]|discriminate]|]. vm_compute. repeat split.
Qed.
(** Columns that cannot exist are refused. *)
Theorem C45_column_refused : forall q s k column v, 2047 < column ->
  fptu_upsert q s k column v = Done FInval s /\ fptu_update q s k column v = Done FInval s /\ fptu_insert q s k column v = Done FInval s /\
  (k <> Kstring -> fptu_get s k column = GInval).
Proof.
  intros q s k column v H. unfold fptu_upsert, fptu_update, fptu_insert, fptu_get. rewrite !token_big by assumption.
  split; [reflexivity|]. split; [reflexivity|]. split; [reflexivity|]. intros N. destruct k; try reflexivity. congruence.
Qed.
(** Nested tuples cannot be stored by an upsert at all: the token is made for the type of binaries. *)
Theorem C45_upsert_nested_refuted : forall q s column v, 0 <= column -> fptu_upsert q s Knested column v = Done FInval s.
Proof.
  intros q s column v H. unfold fptu_upsert, upsert_genus. destruct (Z.leb_spec column 2047) as [L|L].
  - destruct (token_ok g_varbin column false true false ltac:(unfold g_varbin; lia) ltac:(lia)) as (t & -> & _ & -> & _). reflexivity.
  - rewrite token_big by lia. reflexivity.
Qed.
(** the insertion of the C interface always adds, except for the fixed binaries, whose empty value
    (all zeros) is dropped without a word: their token lacks a flag (compat_rw.cxx:376) *)
Definition fixed_binary (k : kind) : bool := match k with K96 | K128 | K160 | K256 => true | _ => false end.
Theorem C45_insert_partial : forall multi s k column v, worked multi s -> 0 <= column <= 2047 -> well_formed k v ->
  (fixed_binary k = true -> v_empty v = false) -> calm s (OAppend (desc_of k column) (negb (fixed_binary k)) v) = true ->
  match fptu_insert asis s k column v with
  | Done FOk s' => Permutation (view s' (desc_of k column)) (pay v :: view s (desc_of k column)) /\
      (forall d', real_desc d' -> d' <> desc_of k column -> view s' d' = view s d') /\ TInv s'
  | Done FNoSpace s' => s' = s
  | _ => False
  end.
Proof.
  intros multi s k column v W Hc [Wf Ne] Hi C. destruct (worked_inv multi s W) as [T _]. unfold fptu_insert.
  assert (Ed : negb (fixed_binary k) = insert_disc k) by (destruct k; reflexivity). rewrite Ed in C.
  pose proof (value_genus_range k) as R. destruct (value_desc k column Hc) as [Hd Hg].
  destruct (token_ok (value_genus k) column true (insert_disc k) false R Hc) as (t & -> & -> & _ & ->).
  fold (desc_of k column) in *. pose proof (append_step s (desc_of k column) (insert_disc k) v T Hd) as P. rewrite Hg in P. specialize (P Wf C).
  cbn [run1]. assert (En : negb (insert_disc k) && v_empty v = false) by (rewrite <- Ed; destruct (fixed_binary k); [rewrite Hi; reflexivity|reflexivity]).
  destruct (append_loose asis s (desc_of k column) (insert_disc k) v) as [[i|] s'|s'|]; cbn [void bind finish].
  - destruct P as (_ & T' & N & E). split; [|split; [|exact T']].
    + destruct (view_effect s s' i _ _ Hd E) as (l1 & l2 & E1 & E2). rewrite E1, E2, (field_dead _ _ N). cbn [item app]. rewrite Z.eqb_refl.
      cbn [app]. symmetry. apply Permutation_middle.
    + intros d Dd Nd. apply (effect_other s s' i _ (desc_of k column) d Dd E); [congruence|rewrite (field_dead _ _ N); exact I|reflexivity].
  - destruct P as [P _]. congruence.
  - apply P.
  - exact P.
Qed.
Theorem C45_insert_zeros_dropped_refuted : forall s column, 0 <= column <= 2047 ->
  fptu_insert asis s K128 column (mkV true [0; 0; 0; 0]) = Done FOk s.
Proof.
  intros s column Hc. unfold fptu_insert. pose proof (value_genus_range K128) as R.
  destruct (token_ok (value_genus K128) column true (insert_disc K128) false R Hc) as (t & -> & -> & _ & ->). reflexivity.
Qed.
Example C45_insert_case : calm (final (new_tuple 40 8) many) (OAppend (desc_of Kuint16 5) true (blob 1 9)) = true /\
  answer (fptu_insert asis (final (new_tuple 40 8) many) Kuint16 5 (blob 1 9)) = Some FOk.
Proof. vm_compute. repeat split. Qed.

(** ** C55.  Looking up and counting *)
Theorem C55_count_by_mask : forall multi s column tf, worked multi s -> is_filter tf = true ->
  fptu_field_count s column tf = Z.of_nat (length (filter (in_filter column tf) (fields_in_order s))).
Proof.
  intros multi s column tf W F. destruct (worked_inv multi s W) as [T _]. rewrite (count_chosen s column tf T (or_introl F)), fields_flist.
  unfold chosen. rewrite F. reflexivity.
Qed.
Theorem C55_count_by_type_partial : forall multi s column g, worked multi s -> 0 <= g < 31 -> 0 <= column <= 2047 ->
  fptu_field_count s column (genus2legacy g) = Z.of_nat (length (filter (fun f => fst f =? g * 2048 + column) (fields_in_order s))).
Proof.
  intros multi s column g W Hg Hc. destruct (worked_inv multi s W) as [T _]. destruct (type_tag g column Hg Hc) as [Et Ef].
  assert (Hd : real_desc (tag2genus_and_id (colid2tag (genus2legacy g) column))).
  { rewrite Et. unfold real_desc. rewrite descriptor2genus_arith. change g_hole with 31. lia. }
  rewrite (count_chosen s column _ T (or_intror Hd)), fields_flist. unfold chosen. rewrite Ef, Et. reflexivity.
Qed.
(** the lookup gives the matching field at the highest position of the index (the newest, as long as
    no slot was used again), and nothing only if none matches *)
Theorem C55_lookup_by_mask : forall multi s column tf, worked multi s -> is_filter tf = true ->
  match fptu_lookup s column tf with
  | Some k => exists f, field s (RL k) = Some f /\ in_filter column tf f = true /\
      forall i f', (k < i)%nat -> field s (RL i) = Some f' -> in_filter column tf f' = false
  | None => forall i f', field s (RL i) = Some f' -> in_filter column tf f' = false
  end.
Proof.
  intros multi s column tf W F. destruct (worked_inv multi s W) as [T _]. pose proof (lookup_chosen s column tf T (or_introl F)) as P.
  unfold chosen in P. rewrite F in P. destruct (fptu_lookup s column tf) as [k|].
  - destruct P as (d & v & A & B & C). exists (d, v). split; [exact A|]. split; [exact B|]. intros i [d' v'] Hi E. specialize (C i Hi). rewrite E in C. exact C.
  - intros i [d' v'] E. specialize (P i). rewrite E in P. exact P.
Qed.
Theorem C55_lookup_by_type_partial : forall multi s column g, worked multi s -> 0 <= g < 31 -> 0 <= column <= 2047 ->
  match fptu_lookup s column (genus2legacy g) with
  | Some k => exists v, field s (RL k) = Some (g * 2048 + column, v) /\
      forall i f', (k < i)%nat -> field s (RL i) = Some f' -> fst f' <> g * 2048 + column
  | None => forall i f', field s (RL i) = Some f' -> fst f' <> g * 2048 + column
  end.
Proof.
  intros multi s column g W Hg Hc. destruct (worked_inv multi s W) as [T _]. destruct (type_tag g column Hg Hc) as [Et Ef].
  assert (Hd : real_desc (tag2genus_and_id (colid2tag (genus2legacy g) column))).
  { rewrite Et. unfold real_desc. rewrite descriptor2genus_arith. change g_hole with 31. lia. }
  pose proof (lookup_chosen s column _ T (or_intror Hd)) as P. unfold chosen in P. rewrite Ef, Et in P.
  destruct (fptu_lookup s column (genus2legacy g)) as [k|].
  - destruct P as (d & v & A & B & C). assert (d = g * 2048 + column) as -> by (apply Z.eqb_eq; exact B). exists v. split; [exact A|].
    intros i [d' v'] Hi E. specialize (C i Hi). rewrite E in C. apply Z.eqb_neq. exact C.
  - intros i [d' v'] E. specialize (P i). rewrite E in P. apply Z.eqb_neq. exact P.
Qed.
(** counting with a function of the caller shows it every field once and no deleted one *)
Theorem C55_count_by_function : forall multi s f, worked multi s ->
  fptu_field_count_ex s f = sumn (cnt s) (fun k => match field s (RL k) with Some _ => ind (f (idx s k)) | None => 0 end).
Proof.
  intros multi s f W. rewrite count_ex_all. apply sumn_ext. intros k Hk. unfold field, liveb. replace (k <? cnt s)%nat with true by lia.
  cbn [andb]. destruct (is_hole (idx s k)); reflexivity.
Qed.
(** types and masks of the C interface fit together *)
Theorem C55_mask_of_type : forall g, 0 <= g <= 31 -> fptu_filter_mask (genus2legacy g) = 2 ^ g.
Proof. intros g H. unfold fptu_filter_mask. rewrite legacy_genus by assumption. rewrite Z.shiftl_1_l. reflexivity. Qed.
Theorem C55_masks_disjoint_from_types : forall tf, 0 <= tf < 2 ^ 31 -> is_filter tf = true.
Proof.
  intros tf H. unfold is_filter. change fptu_flag_not_filter with (2 ^ 31). apply Z.eqb_eq. apply Z.bits_inj'. intros i Hi.
  rewrite Z.land_spec, Z.bits_0, Z.pow2_bits_eqb by lia. destruct (31 =? i) eqn:E; [|apply Bool.andb_false_r].
  replace i with 31 by lia. rewrite Z.testbit_odd, Z.shiftr_div_pow2 by lia. rewrite Z.div_small by lia. reflexivity.
Qed.
Example C55_case : worked odd_multi (final (new_tuple 40 8) many) /\
  fptu_field_count (final (new_tuple 40 8) many) 5 fptu_any_uint = 3 /\
  fptu_field_count (final (new_tuple 40 8) many) 5 fptu_any = 4 /\
  fptu_field_count (final (new_tuple 40 8) many) 5 (genus2legacy g_u16) = 2 /\
  fptu_lookup (final (new_tuple 40 8) many) 5 (genus2legacy g_u16) = Some 3%nat.
Proof. split; [apply w_reached; now_reach|]. vm_compute. repeat split. Qed.
(** The mask "any" is taken for a mask only because the hole is left out of it: the bit of the hole is
    the bit that marks types. *)
Theorem C55_any_is_filter : is_filter fptu_any = true /\ is_filter (2 ^ 32 - 1) = false.
Proof. split; vm_compute; reflexivity. Qed.
(** With a type, columns past the last run over into the next type: text of column 2048 is binary of column 0. *)
Theorem C55_column_overflow_refuted : forall s g, 0 <= g < 30 ->
  fptu_lookup s 2048 (genus2legacy g) = fptu_lookup s 0 (genus2legacy (g + 1)).
Proof.
  intros s g Hg. unfold fptu_lookup, fptu_first.
  assert (X : forall n, scan_down (wanted 2048 (genus2legacy g)) (idx s) n = scan_down (wanted 0 (genus2legacy (g + 1))) (idx s) n).
  { assert (A : all_below 30 (fun g => (tag2genus_and_id (colid2tag (genus2legacy g) 2048) =? tag2genus_and_id (colid2tag (genus2legacy (g + 1)) 0))
        && negb (is_filter (genus2legacy g)) && negb (is_filter (genus2legacy (g + 1)))) = true) by (vm_compute; reflexivity).
    pose proof (all_below_spec _ _ A g ltac:(lia)) as Y. cbv beta in Y. apply andb_prop in Y. destruct Y as [Y Y3]. apply andb_prop in Y. destruct Y as [Y1 Y2].
    apply Bool.negb_true_iff in Y2. apply Bool.negb_true_iff in Y3. apply Z.eqb_eq in Y1.
    induction n as [|n IH]; [reflexivity|]. cbn [scan_down]. rewrite IH. unfold wanted. rewrite Y1, Y2, Y3. reflexivity. }
  apply X.
Qed.
Theorem C55_column_overflow_case : exists s k, reached odd_multi s /\
  fptu_lookup s 2048 (genus2legacy g_text) = Some k /\ field s (RL k) = Some (fd g_varbin 0, [2; 7]).
Proof.
  exists (final (new_tuple 10 4) [OSet (fd g_varbin 0) true (vbin 2 7)]), 0%nat. split; [now_reach|]. vm_compute. repeat split.
Qed.
(** The type "null" finds texts, for every column but the first. *)
Theorem C55_null_finds_text_refuted : forall s column, 1 <= column <= 2047 ->
  fptu_lookup s column fptu_null = fptu_lookup s (column - 1) (genus2legacy g_text).
Proof.
  intros s column Hc. destruct (type_tag g_text (column - 1) ltac:(unfold g_text; lia) ltac:(lia)) as [Et Ef].
  assert (E : tag2genus_and_id (colid2tag fptu_null column) = g_text * 2048 + (column - 1)).
  { unfold colid2tag, tag2genus_and_id, fptu_null, u16, u32, g_text. change (2 ^ 32) with 4294967296. change (2 ^ 16) with 65536. lia. }
  unfold fptu_lookup, fptu_first.
  assert (X : forall n, scan_down (wanted column fptu_null) (idx s) n = scan_down (wanted (column - 1) (genus2legacy g_text)) (idx s) n).
  { induction n as [|n IH]; [reflexivity|]. cbn [scan_down]. rewrite IH. unfold wanted. change (is_filter fptu_null) with false. rewrite Ef, Et, E. reflexivity. }
  apply X.
Qed.
(** The number of the column of a deleted field is never negative, although legacy.h:440-443 promises
    a negative number; it is the size of the hole. *)
Theorem C55_dead_column_refuted : forall e, is_hole e = true -> 0 <= gid e < 65536 -> 0 <= fptu_field_column e /\ fptu_field_column e = hunits e.
Proof.
  intros e _ H. unfold fptu_field_column, colnum, hunits. rewrite descriptor2id_mod by lia.
  unfold descriptor2id, id_mask. split; lia.
Qed.

(** ** C56.  A field as a block of bytes *)
Theorem C56_nested : forall m t after, zlen t = units2bytes (u16_at t 0) -> 4 <= zlen t -> nested_store m (Some t) = t ->
  as_iovec g_nested (nested_store m (Some t)) after = t.
Proof. exact nested_iovec. Qed.
Example C56_case : nested_store [0;0;0;0; 0;0;0;0] (Some [2;0;0;0; 7;7;7;7]) = [2;0;0;0; 7;7;7;7] /\
  as_iovec g_nested (nested_store [0;0;0;0; 0;0;0;0] (Some [2;0;0;0; 7;7;7;7])) [9] = [2;0;0;0; 7;7;7;7].
Proof. split; vm_compute; reflexivity. Qed.
(** A property is shown with its length and its identifier in front. *)
Theorem C56_property : forall m v id after, zlen v <= 255 -> 0 <= id < 256 -> zlen m = 4 * bytes2units (zlen v + 2) ->
  as_iovec g_property (property_store m v id) after = zlen v :: id :: v.
Proof.
  intros m v id after H1 H2 H3. rewrite property_store_enc by assumption. unfold as_iovec, stretchy_length.
  change (is_inplaced_genus g_property) with false. change (fixed_genus g_property) with false. cbv iota.
  change (g_property =? g_text) with false. change (g_property =? g_varbin) with false. change (g_property =? g_nested) with false. cbv iota.
  unfold property_enc, Codec.byte_at, peek. cbv zeta. change (Z.to_nat 0) with 0%nat. cbn [skipn app nth].
  replace (Z.to_nat (2 + zlen v)) with (S (S (length v))) by (unfold zlen; lia). cbn [firstn]. f_equal. f_equal.
  rewrite <- app_assoc, firstn_app, Nat.sub_diag, firstn_all. cbn [firstn]. apply app_nil_r.
Qed.
Example C56_property_case : as_iovec g_property (property_store [9;9;9;9; 9;9;9;9] [65; 66; 67] 200) [9] = [3; 200; 65; 66; 67].
Proof. vm_compute. reflexivity. Qed.
(** Fixed types: the number of units is taken for the number of bytes; a quarter of the value is shown,
    and nothing of the 16-bit types. *)
Lemma peek_len (l : list Z) n : 0 <= n <= zlen l -> zlen (peek l 0 n) = n.
Proof. intros H. unfold peek. cbn [skipn Z.to_nat]. unfold zlen in *. rewrite firstn_length. lia. Qed.
Theorem C56_fixed_quarter_refuted : forall g m after, 4 <= g <= 30 -> is_inplaced_genus g = false ->
  zlen m = 4 * loose_units g -> zlen (as_iovec g m after) = loose_units g /\ loose_units g < zlen m.
Proof.
  intros g m after Hg Hi Hm. unfold as_iovec. rewrite Hi. assert (Fx : fixed_genus g = true) by (unfold fixed_genus; lia). rewrite Fx.
  pose proof (fixed_units g Fx ltac:(lia) Hi) as P. pose proof (zlen_nonneg after). split; [apply peek_len; rewrite zlen_app; lia|lia].
Qed.
Theorem C56_inplaced_nothing_refuted : forall g m after, is_inplaced_genus g = true -> as_iovec g m after = [].
Proof. intros g m after H. unfold as_iovec. rewrite H. destruct (inplaced_units g H) as [-> _]. reflexivity. Qed.
(** Texts and binaries: the block starts at the header and ends before the value does. *)
Theorem C56_text_shifted_refuted : exists v, as_iovec g_text (string_store [0;0;0;0] v) [] = 3 :: firstn 2 v /\ v = [65; 66; 67].
Proof. exists [65; 66; 67]. split; vm_compute; reflexivity. Qed.
Theorem C56_varbin_shifted_refuted : exists v, as_iovec g_varbin (varbin_store (repeat 0 8) v) [] = [2; 0; 0; 0] /\ v = [65; 66; 67; 68].
Proof. exists [65; 66; 67; 68]. split; vm_compute; reflexivity. Qed.

(** ** C57.  Texts as C strings *)
Lemma string_enc_shape v : exists h k, string_enc v = h ++ v ++ repeat 0 k /\ zlen h = (if zlen v <? 254 then 1 else 3).
Proof.
  unfold string_enc. destruct (zlen v <? 254).
  - eexists [_], _. split; reflexivity.
  - cbn zeta. eexists [_; _; _], _. split; reflexivity.
Qed.
Lemma string_enc_tiny v : string_is_tiny (string_enc v) = (zlen v <? 254).
Proof.
  unfold string_is_tiny, string_enc, Codec.byte_at, tiny_threshold. destruct (zlen v <? 254) eqn:E; cbn zeta;
    change (Z.to_nat 0) with 0%nat; cbn [app nth]; lia.
Qed.
(** The C string of a stored text is the text up to its first zero byte, whatever lies behind the field. *)
Theorem C57_cstr : forall m v after, 1 <= zlen v <= string_max_length ->
  zlen m = 4 * string_units (zlen v) ->
  exists mem, fptu_field_cstr (string_store m v) after = Some mem /\ c_string mem = Some (up_to_nul v).
Proof.
  intros m v after Hv Hm. pose proof (string_roundtrip m v ltac:(lia) ltac:(lia)) as R. rewrite string_store_enc in * by lia.
  destruct (string_enc_brutto v ltac:(lia)) as (B1 & B2 & B3).
  unfold fptu_field_cstr. rewrite R. destruct v as [|b0 v']; [rewrite zlen_nil in Hv; lia|]. set (v := b0 :: v') in *.
  assert (Et : (if string_is_tiny (string_enc v) then 1 else 3) = (if zlen v <? 254 then 1 else 3)) by (rewrite string_enc_tiny; reflexivity).
  cbv zeta. rewrite Et. destruct (string_enc_shape v) as (h & k & Es & Eh). unfold string_view_to_CAPI, v at 1.
  eexists. split; [reflexivity|]. rewrite Es in *. rewrite <- Eh. rewrite B1.
  destruct (zlen h + zlen v <? 4 * string_units (zlen v)) eqn:El.
  - rewrite <- !app_assoc. replace (Z.to_nat (zlen h)) with (length h) by (unfold zlen; lia).
    rewrite skipn_app, skipn_all, Nat.sub_diag. cbn [app skipn].
    destruct k as [|k]; [exfalso; rewrite !zlen_app in B2; cbn [repeat] in B2; rewrite zlen_nil in B2; lia|].
    cbn [repeat app]. apply c_string_up.
  - change (b0 :: v') with v. apply (c_string_up v []).
Qed.
Example C57_case : fptu_field_cstr (string_store [0;0;0;0] [65; 66; 67]) [88; 88] = Some [65; 66; 67; 0] /\
  fptu_field_cstr (string_store [9;9;9;9; 9;9;9;9] [65; 66; 67; 68]) [88] = Some [65; 66; 67; 68; 0; 0; 0; 88] /\
  c_string [65; 66; 67; 68; 0; 0; 0; 88] = Some [65; 66; 67; 68].
Proof. vm_compute. repeat split. Qed.
(** The memory is looked at before the type is: for the 16-bit number 65535 the unit read lies outside
    of the buffer. *)
Theorem C57_other_type_read_refuted : exists s, reached odd_multi s /\ field s (RL 0) = Some (fd g_u16 2, [65535]) /\
  cstr_first_read s 0 >= end_ s.
Proof. exists (final (new_tuple 10 4) [OSet (fd g_u16 2) true (mkV false [65535])]). split; [now_reach|]. vm_compute. split; [reflexivity|congruence]. Qed.

(** ** C58.  Comparing stored binaries with values *)
(** The comparison is the lexicographic order; two values are equal only if they are the same. *)
Theorem C58_lexicographic : forall a b,
  (fptu_cmp_binary a b = Leq <-> a = b) /\ (fptu_cmp_binary a b = Llt <-> before a b) /\
  (fptu_cmp_binary a b = Lgt <-> before b a) /\ fptu_cmp_binary a b <> Lic.
Proof.
  intros a b. pose proof (cmp_binary_spec a b) as P.
  assert (X : before a b -> before b a -> False) by (intros H H'; apply (before_irrefl a); eapply before_trans; eassumption).
  assert (Y : a = b -> before a b -> False) by (intros -> H; apply (before_irrefl _ H)).
  assert (Y' : a = b -> before b a -> False) by (intros -> H; apply (before_irrefl _ H)).
  destruct (fptu_cmp_binary a b); [contradiction| | |]; (split; [|split; [|split]]); try split; intros; try congruence; try assumption; exfalso; tauto.
Qed.
Theorem C58_total_order : forall a b c,
  (fptu_cmp_binary a b = Llt -> fptu_cmp_binary b c = Llt -> fptu_cmp_binary a c = Llt) /\
  (fptu_cmp_binary a b = Llt <-> fptu_cmp_binary b a = Lgt) /\ fptu_cmp_binary a a = Leq.
Proof.
  intros a b c. destruct (C58_lexicographic a b) as (_ & L1 & _). destruct (C58_lexicographic b c) as (_ & L2 & _).
  destruct (C58_lexicographic a c) as (_ & L3 & _). destruct (C58_lexicographic b a) as (_ & _ & L4 & _). destruct (C58_lexicographic a a) as (L5 & _).
  split; [|split].
  - intros H1 H2. apply L3. eapply before_trans; [apply L1|apply L2]; assumption.
  - rewrite L1, L4. reflexivity.
  - apply L5. reflexivity.
Qed.
(** An absent binary is equal to the empty one and incomparable with all others. *)
Theorem C58_absent : forall v, fptu_cmp_opaque None v = Leq <-> v = [].
Proof. intros [|x v]; cbn; split; congruence. Qed.
(** A binary stored with a length divisible by 4 compares as its contents do. *)
Theorem C58_opaque_partial : forall m v after w, bytes2units (zlen v) + 1 <= 65535 -> zlen m = 4 * (bytes2units (zlen v) + 1) ->
  zlen v mod 4 = 0 ->
  (fptu_cmp_opaque (Some (varbin_read (varbin_store m v) after)) w = Leq <-> v = w) /\
  (fptu_cmp_opaque (Some (varbin_read (varbin_store m v) after)) w = Llt <-> before v w) /\
  (fptu_cmp_opaque (Some (varbin_read (varbin_store m v) after)) w = Lgt <-> before w v).
Proof.
  intros m v after w H1 H2 H3. rewrite varbin_roundtrip_aligned by assumption. cbn [fptu_cmp_opaque].
  destruct (C58_lexicographic v w) as (A & B & C & _). auto.
Qed.
(** With any other length it is never equal to the value that was stored (the length read back is too long, C13). *)
Theorem C58_opaque_unaligned_refuted : forall m v after, bytes2units (zlen v) + 1 <= 65535 -> zlen m = 4 * (bytes2units (zlen v) + 1) ->
  zlen v mod 4 <> 0 -> 4 <= zlen after -> fptu_cmp_opaque (Some (varbin_read (varbin_store m v) after)) v <> Leq.
Proof.
  intros m v after H1 H2 H3 Ha E. cbn [fptu_cmp_opaque] in E. apply C58_lexicographic in E.
  destruct (varbin_unaligned_overread m v H1 H2 H3) as [L _]. unfold varbin_read in E. rewrite L in E.
  apply (f_equal zlen) in E. rewrite varbin_store_enc in E by assumption. destruct (varbin_enc_facts v H1) as (_ & Z & _).
  assert (Q : forall l n, 0 <= n -> n + 4 <= zlen l -> zlen (peek l 4 n) = n).
  { intros l n Hn Hl. unfold peek, zlen in *. rewrite firstn_length, skipn_length. change (Z.to_nat 4) with 4%nat. lia. }
  pose proof (zlen_nonneg v). rewrite Q in E; [lia|lia|]. rewrite zlen_app, Z, bytes2units_div. lia.
Qed.
(** The fixed binaries compare as their contents do; absent ones with nothing. *)
Theorem C58_fixed : forall n a b, length a = n -> length b = n ->
  (fptu_cmp_fixed (Some a) (Some b) n = Leq <-> a = b) /\ (fptu_cmp_fixed (Some a) (Some b) n = Llt <-> before a b) /\
  (fptu_cmp_fixed (Some a) (Some b) n = Lgt <-> before b a) /\ fptu_cmp_fixed None (Some b) n = Lic.
Proof.
  intros n a b Ha Hb. cbn [fptu_cmp_fixed]. rewrite (memcmp_same n a b Ha Hb). destruct (C58_lexicographic a b) as (A & B & C & _). auto.
Qed.
Example C58_case : fptu_cmp_binary [1; 2] [1; 2; 0] = Llt /\ fptu_cmp_binary [1; 200] [1; 3; 9] = Lgt /\ before [1; 2] [1; 2; 0].
Proof. split; [reflexivity|]. split; [reflexivity|]. apply b_skip, b_skip, b_nil. Qed.
Example C58_opaque_case : fptu_cmp_opaque (Some (varbin_read (varbin_store (repeat 0 8) [1; 2; 3; 4]) [9; 9; 9; 9])) [1; 2; 3; 4] = Leq /\
  fptu_cmp_opaque (Some (varbin_read (varbin_store (repeat 0 8) [1; 2]) [9; 9; 9; 9])) [1; 2] = Lgt /\
  fptu_cmp_fixed (Some (repeat 7 12)) (Some (repeat 7 11 ++ [9])) 12 = Llt.
Proof. vm_compute. repeat split. Qed.

(** ** C59.  Getters *)
(** a field that is there is shown *)
Theorem C59_present_partial : forall multi s k column, worked multi s -> 0 <= column <= 2047 -> k <> Kstring ->
  get_loose s (desc_of k column) <> None ->
  exists p, get_loose s (desc_of k column) = Some p /\ fptu_get s k column = GValue p.
Proof.
  intros multi s k column W Hc Nk Hg. pose proof (value_genus_range k) as R. destruct (value_desc k column Hc) as [Hd _]. fold (desc_of k column) in Hd.
  destruct (get_loose s (desc_of k column)) as [p|] eqn:E; [|congruence]. exists p. split; [reflexivity|].
  destruct (token_ok (value_genus k) column false false false R Hc) as (t & Et & Eg & _ & Ed).
  assert (G : fptu_get s k column = match read_loose s (desc_of k column) false with RVal p => GValue p | REmpty => GEmpty | RAbsent => GNoField end).
  { unfold fptu_get. rewrite Et, Eg, Ed. destruct k; try reflexivity. congruence. }
  rewrite G. unfold read_loose. rewrite E. reflexivity.
Qed.
(** Only the getter of strings says that a field is absent; all others give the empty value and say
    everything is fine, whatever the tuple is. *)
Theorem C59_absent_unreported_refuted : forall s k column, 0 <= column <= 2047 -> k <> Kstring -> get_loose s (desc_of k column) = None ->
  fptu_get s k column = GEmpty.
Proof.
  intros s k column Hc Nk E. pose proof (value_genus_range k) as R.
  destruct (token_ok (value_genus k) column false false false R Hc) as (t & Et & Eg & _ & Ed).
  assert (G : fptu_get s k column = match read_loose s (desc_of k column) false with RVal p => GValue p | REmpty => GEmpty | RAbsent => GNoField end).
  { unfold fptu_get. rewrite Et, Eg, Ed. destruct k; try reflexivity. congruence. }
  rewrite G. unfold read_loose. rewrite E. reflexivity.
Qed.
Theorem C59_string_absent : forall multi s column, worked multi s -> 0 <= column <= 2047 ->
  (fptu_get s Kstring column = GNoField <-> view s (desc_of Kstring column) = []).
Proof.
  intros multi s column W Hc. destruct (value_desc Kstring column Hc) as [Hd _]. fold (desc_of Kstring column) in Hd.
  destruct (type_tag g_text column ltac:(unfold g_text; lia) Hc) as [Et Ef].
  assert (El : fptu_lookup s column (genus2legacy g_text) = lookup_gid s (desc_of Kstring column)).
  { unfold fptu_lookup, fptu_first, lookup_gid. assert (X : forall n, scan_down (wanted column (genus2legacy g_text)) (idx s) n = scan_down (fun e => gid e =? desc_of Kstring column) (idx s) n).
    { induction n as [|n IH]; [reflexivity|]. cbn [scan_down]. rewrite IH. unfold wanted. rewrite Ef, Et. reflexivity. }
    apply X. }
  unfold fptu_get. rewrite El. destruct (lookup_gid s (desc_of Kstring column)) as [k|] eqn:Lk.
  - destruct (lookup_view _ _ _ Lk) as (l & ->). split; intros H; [|discriminate]. destruct (rel (idx s k) =? 0); discriminate.
  - rewrite (lookup_none _ _ Lk). split; reflexivity.
Qed.
Example C59_case : worked odd_multi (final (new_tuple 40 8) many) /\
  fptu_get (final (new_tuple 40 8) many) Kuint64 5 = GValue [6; 6] /\ fptu_get (final (new_tuple 40 8) many) Kuint64 6 = GEmpty /\
  fptu_get (final (new_tuple 40 8) many) Kstring 6 = GNoField.
Proof. split; [apply w_reached; now_reach|]. vm_compute. repeat split. Qed.

Print Assumptions C32_filter_exact_partial.
Print Assumptions C32_filter_exact_small_partial.
Print Assumptions C32_column_refused.
Print Assumptions C32_type_erases_first_partial.
Print Assumptions C32_type_exact_partial.
Print Assumptions C32_type_leaves_others_refuted.
Print Assumptions C32_null_erases_text_refuted.
Print Assumptions C45_update_absent.
Print Assumptions C45_update_present_partial.
Print Assumptions C45_upsert_partial.
Print Assumptions C45_column_refused.
Print Assumptions C45_upsert_nested_refuted.
Print Assumptions C45_insert_partial.
Print Assumptions C45_insert_zeros_dropped_refuted.
Print Assumptions C55_count_by_mask.
Print Assumptions C55_count_by_type_partial.
Print Assumptions C55_lookup_by_mask.
Print Assumptions C55_lookup_by_type_partial.
Print Assumptions C55_count_by_function.
Print Assumptions C55_mask_of_type.
Print Assumptions C55_masks_disjoint_from_types.
Print Assumptions C55_any_is_filter.
Print Assumptions C55_column_overflow_refuted.
Print Assumptions C55_column_overflow_case.
Print Assumptions C55_null_finds_text_refuted.
Print Assumptions C55_dead_column_refuted.
Print Assumptions C56_nested.
Print Assumptions C56_property.
Print Assumptions C56_fixed_quarter_refuted.
Print Assumptions C56_inplaced_nothing_refuted.
Print Assumptions C56_text_shifted_refuted.
Print Assumptions C56_varbin_shifted_refuted.
Print Assumptions C57_cstr.
Print Assumptions C57_other_type_read_refuted.
Print Assumptions C58_lexicographic.
Print Assumptions C58_total_order.
Print Assumptions C58_absent.
Print Assumptions C58_opaque_partial.
Print Assumptions C58_opaque_unaligned_refuted.
Print Assumptions C58_fixed.
Print Assumptions C59_present_partial.
Print Assumptions C59_absent_unreported_refuted.
Print Assumptions C59_string_absent.
