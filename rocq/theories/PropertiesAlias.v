(** * PropertiesAlias: C86, values read from a tuple and stored in it again. *)
From Verif Require Import Base Tag TagProofs Codec CodecProofs Gear GearBase GearSearch GearProofs GearAlloc GearRealloc Tuple TupleProofs TupleSteps TupleView TupleOps TupleMore
  TupleHist TupleFacts PropertiesTuple GearOpt GearOptProofs GearSortProofs PropertiesOpt Growth GrowthProofs PropertiesGrowth Traits Typed TypedProofs
  Hippeus HippeusProofs Scan Audit AuditProofs Image ImageProofs PropertiesImage PropertiesTyped Alias AliasProofs.
From Coq Require Import ZifyBool ZifyNat.
Ltac Zify.zify_post_hook ::= Z.div_mod_to_equations.

(** the view lies in the payload of a field *)
Definition within (s : st) (r : ref) (le : lent) : Prop := forall x, covers s le x -> raddr s r <= x < raddr s r + plen s r.
(** the call is about another field *)
Definition elsewhere (s : st) (t : goal) (r : ref) : Prop :=
  match t with
  | ToLoose desc => match lookup_gid s desc with Some k => r <> RL k | None => True end
  | ToMember _ => True
  | ToSlot j => r <> RP j
  end.

Lemma untouched_view multi s t disc le v r : TInv s -> live s r -> lent_ok s le -> within s r le -> elsewhere s t r ->
  to_tv (goal_genus s t) (lent_value s le) = Some v -> valid multi s (goal_op t disc v) -> calm s (goal_op t disc v) = true ->
  store_lent asis s t disc le = run1 asis s (goal_op t disc v).
Proof.
  intros T L K W E TV V C.
  assert (G : 0 <= goal_genus s t <= 3).
  { destruct le; cbn [lent_value to_tv] in TV;
      repeat match type of TV with (if ?b then _ else _) = _ => let H := fresh in destruct b eqn:H; [|discriminate] end;
      unfold g_text, g_varbin, g_nested, g_property in *; lia. }
  assert (F : fixed_genus (goal_genus s t) = false) by (unfold fixed_genus; lia).
  unfold store_lent. rewrite TV, <- (store_by_const asis s t disc v F). set (u := Z.of_nat (length (pay v))) in *.
  assert (Late : forall r1 s1, r <> r1 -> writing s r1 u s1 -> late le u s1 (raddr s1 r1) = pay v).
  { intros r1 s1 N (S & I1 & L1). apply (late_eq s s1 (goal_genus s t) le v); try assumption.
    - intros x. rewrite (q_dat _ _ (f_cfg _ _ _ S)). reflexivity.
    - intros x Cx Hx. assert (Nx : ~ only r1 r) by (intros Q; apply N; exact Q).
      destruct (same_plen s s1 r1 r S N L) as (A & B & _).
      apply (live_disjoint s1 _ (v_acc _ _ I1) r r1 x); [apply (f_live _ _ _ S); assumption|exact L1|exact N| |rewrite Lset_same; exact Hx].
      rewrite Lset_other, B by exact N. apply W, Cx. }
  assert (U0 : 0 <= u) by lia.
  destruct t as [desc|desc|j]; cbn [goal_genus goal_op valid calm store_by elsewhere] in *.
  - destruct V as (D & M & Wf). unfold wf_pay in Wf. rewrite F in Wf. assert (I : is_inplaced_genus (descriptor2genus desc) = false).
    { destruct (is_inplaced_genus _) eqn:I; [|reflexivity]. apply inplaced_units in I. destruct I. congruence. }
    rewrite I in Wf. destruct Wf as [Wl Wb]. fold u in Wl, Wb.
    assert (EN : (if disc || negb (v_empty v) then u else 0) = needed disc v) by reflexivity. rewrite EN.
    assert (UN : needed disc v =? 0 = false -> needed disc v = u) by (unfold needed; destruct (disc || negb (v_empty v)); [reflexivity|lia]).
    destruct (lookup_gid s desc) as [k|] eqn:Lk.
    + destruct (lookup_some _ _ _ D Lk) as [Lv Eg]. rewrite F in C.
      destruct (needed disc v =? 0) eqn:E0.
      * unfold assign_ref_by. rewrite E0. replace (needed disc v) with 0 in * by lia. cbv zeta. 
        destruct (rrel s (RL k) =? 0) eqn:R0; cbn [negb]; [reflexivity|].
        assert (St : stretchy_ref s (RL k) = true) by (unfold stretchy_ref; cbn [rgenus]; unfold egenus; rewrite Eg, F; reflexivity).
        pose proof (t_pos _ T (RL k) Lv St ltac:(lia)) as P. assert (Hp : brutto (rgenus s (RL k)) (dat s (raddr s (RL k))) = plen s (RL k)).
        { destruct (stretchy_not _ _ St) as [F1 _]. unfold plen. rewrite F1, R0. reflexivity. }
        rewrite Hp. replace (0 =? plen s (RL k)) with false by lia. reflexivity.
      * rewrite (UN eq_refl) in *. apply assign_ref_by_eq; try assumption; try lia.
        -- unfold stretchy_ref. cbn [rgenus]. unfold egenus. rewrite Eg, F. reflexivity.
        -- intros s1 Wr. apply Late; assumption.
    + destruct (needed disc v =? 0) eqn:E0; [reflexivity|]. rewrite (UN eq_refl) in *. unfold stores in C. rewrite F, (UN eq_refl), E0 in C. cbn [negb orb] in C.
      unfold new_units in C. rewrite F in C. fold u in C. apply new_by_eq; try assumption; try lia. intros s1 k Nl Wr. apply (Late (RL k) s1); [intros ->; contradiction|exact Wr].
  - destruct V as (D & M & Wf). unfold wf_pay in Wf. rewrite F in Wf. assert (I : is_inplaced_genus (descriptor2genus desc) = false).
    { destruct (is_inplaced_genus _) eqn:I; [|reflexivity]. apply inplaced_units in I. destruct I. congruence. }
    rewrite I in Wf. destruct Wf as [Wl Wb]. fold u in Wl, Wb. destruct (negb disc && v_empty v) eqn:E0; [reflexivity|].
    cbn [orb] in C. unfold new_units in C. rewrite F in C. fold u in C. apply new_by_eq; try assumption; try lia. intros s1 k Nl Wr. apply (Late (RL k) s1); [intros ->; contradiction|exact Wr].
  - destruct V as (Hj & Wl & Wb). fold u in Wl, Wb.
    assert (EN : (if disc || negb (v_empty v) then u else 0) = needed disc v) by reflexivity. rewrite EN.
    destruct (needed disc v =? 0) eqn:E0.
    + unfold assign_ref_by. rewrite E0. replace (needed disc v) with 0 in * by lia. cbv zeta.
      destruct (rrel s (RP j) =? 0) eqn:R0; cbn [negb]; [reflexivity|].
      pose proof (t_pos _ T (RP j) Hj eq_refl ltac:(lia)) as P. assert (Hp : brutto (rgenus s (RP j)) (dat s (raddr s (RP j))) = plen s (RP j)).
      { unfold plen. rewrite R0. reflexivity. }
      rewrite Hp. replace (0 =? plen s (RP j)) with false by lia. reflexivity.
    + assert (UN : needed disc v = u) by (unfold needed in *; destruct (disc || negb (v_empty v)); [reflexivity|lia]).
      rewrite UN in *. apply assign_ref_by_eq; try assumption; try lia; [reflexivity|]. intros s1 Wr. apply Late; assumption.
Qed.

(** ** Other fields: the call has the outcome it would have with a copy of the value *)
Theorem C86_other_field_partial : forall multi s t disc le v r, lived multi s -> live s r -> lent_ok s le -> within s r le -> elsewhere s t r ->
  to_tv (goal_genus s t) (lent_value s le) = Some v -> valid multi s (goal_op t disc v) -> calm s (goal_op t disc v) = true ->
  store_lent asis s t disc le = run1 asis s (goal_op t disc v).
Proof. intros multi s t disc le v r Lv. destruct (lived_inv multi s Lv) as [T _]. apply (untouched_view multi); exact T. Qed.

(** a view given by a getter of a field: it lies in the payload and shows the value *)
Theorem C86_lent_views : forall multi s r v0, lived multi s -> holds s r -> from_units (rgenus s r) (value s r) = Some v0 ->
  (rgenus s r = g_varbin -> varbin_length (unpack (value s r)) <= 4 * (plen s r - 1)) ->
  lent_ok s (lend s r) /\ within s r (lend s r) /\ lent_value s (lend s r) = v0.
Proof. intros multi s r v0 Lv. destruct (lived_inv multi s Lv) as [T _]. apply lend_facts; exact T. Qed.

(** copying a field to another one *)
Lemma one_call multi s o s' : valid multi s o -> calm s o = true -> run1 asis s o = Ok tt s' -> calm_run multi s [o] /\ run asis s [o] = Some ([true], s').
Proof. intros V C R. cbn [calm_run run]. rewrite R. cbn. auto. Qed.
Lemma stretchy_genus_val g v t : to_tv g v = Some t -> (forall b, v <> TFixed b) -> 0 <= g <= 3.
Proof.
  intros E N. destruct v as [b|b|b|b id|b]; cbn [to_tv] in E; try (exfalso; apply (N b); reflexivity);
    match type of E with (if ?b then _ else _) = _ => let H := fresh in destruct b eqn:H; [|discriminate] end; unfold g_text, g_varbin, g_nested, g_property in *; lia.
Qed.
Theorem C86_copy_partial : forall multi s desc disc r v0 v s', lived multi s -> holds s r -> from_units (rgenus s r) (value s r) = Some v0 -> good v0 ->
  (rgenus s r = g_varbin -> varbin_length (unpack (value s r)) <= 4 * (plen s r - 1)) ->
  real_desc desc -> multi desc = false -> rgenus s r = descriptor2genus desc -> elsewhere s (ToLoose desc) r ->
  to_tv (rgenus s r) v0 = Some v -> disc = true \/ is_empty (rgenus s r) v0 = false -> calm s (OSet desc disc v) = true ->
  store_lent asis s (ToLoose desc) disc (lend s r) = Ok tt s' -> readable s' desc v0 /\ field s' r = field s r /\ lived multi s'.
Proof.
  intros multi s desc disc r v0 v s' Lv H E G O D M EG El TV NE C R. destruct (lived_inv multi s Lv) as [T U].
  destruct (lend_facts s r v0 T H E O) as (K & W & LV).
  pose proof (C77_values_are_valid multi s desc disc v0 v D M G ltac:(rewrite <- EG; exact TV)) as V.
  assert (RR : run1 asis s (OSet desc disc v) = Ok tt s').
  { rewrite <- R. symmetry. apply (untouched_view multi s (ToLoose desc) disc (lend s r) v r T (h_live _ _ H) K W El); [|exact V|exact C].
    cbn [goal_genus]. rewrite LV, <- EG. exact TV. }
  destruct (one_call multi s _ s' V C RR) as [CR R1].
  split; [|split].
  - apply (C77_loose_partial multi s [] [] [] [] s' desc disc v0 v Lv D M G); try assumption.
    + rewrite <- EG. exact TV.
    + intros ->. pose proof (to_tv_kept _ _ _ (real_genus desc D) G ltac:(rewrite <- EG; exact TV)) as KV.
      destruct (holds_facts s r T H) as (HG & _). unfold from_units, from_bytes in E.
      destruct (rgenus s r =? g_text); [destruct (string_read _); discriminate|]. destruct (rgenus s r =? g_varbin); [discriminate|]. destruct (rgenus s r =? g_nested); [discriminate|]. destruct (rgenus s r =? g_property); discriminate.
    + rewrite <- EG. exact NE.
    + reflexivity.
    + intros o [].
  - pose proof (set_step s desc disc v T D (proj2 (proj2 V)) C) as St. rewrite RR in St. destruct St as [T' Ef].
    cbn [elsewhere] in El. destruct Ef as [S0 Lk|k s' S0 Lk Nl Ef|k s' S0 Lk Ef|k s' S0 Lk Ef|k s' S0 Lk F0 Ef]; rewrite ?Lk in El; try (apply (e_frame _ _ _ _ Ef); exact El).
    + reflexivity.
    + apply (e_frame _ _ _ _ Ef). intros ->. apply Nl, (h_live _ _ H).
  - apply (l_calls multi s [OSet desc disc v] [true] s' Lv CR R1).
Qed.

(** ** A field stored in itself *)
Definition itself (s : st) (t : goal) (r : ref) : Prop :=
  match t, r with
  | ToLoose desc, RL k => lookup_gid s desc = Some k
  | ToSlot j, RP i => j = i
  | _, _ => False
  end.
Lemma self_call s t disc r v0 v : TInv s -> holds s r -> itself s t r -> (forall desc, t = ToLoose desc -> real_desc desc) -> lent_value s (lend s r) = v0 ->
  to_tv (rgenus s r) v0 = Some v -> Z.of_nat (length (pay v)) = plen s r -> disc = true \/ v_empty v = false ->
  goal_genus s t = rgenus s r /\ store_lent asis s t disc (lend s r) = Ok tt (write_units s (raddr s r) (late (lend s r) (plen s r) s (raddr s r))).
Proof.
  intros T H It D LV TV Len NE. destruct (holds_facts s r T H) as (G & P & V & B & _).
  assert (GG : goal_genus s t = rgenus s r).
  { destruct t as [desc|desc|j], r as [k|i]; cbn [itself] in It; try contradiction; cbn [goal_genus rgenus].
    - destruct (lookup_some _ _ _ (D desc eq_refl) It) as [_ Eg]. unfold egenus. rewrite Eg. reflexivity.
    - subst. reflexivity. }
  split; [exact GG|]. unfold store_lent. rewrite GG, LV, TV, Len.
  assert (N : (if disc || negb (v_empty v) then plen s r else 0) = plen s r) by (destruct NE as [-> | ->]; [reflexivity|rewrite Bool.orb_true_r; reflexivity]).
  assert (By : forall w, assign_ref_by asis s r (plen s r) w = Ok tt (write_units s (raddr s r) (w s (raddr s r)))).
  { intros w. unfold assign_ref_by. replace (rrel s r =? 0) with false by (pose proof (h_rel _ _ H); lia). cbn [negb]. cbv zeta. unfold brutto. rewrite <- B, Z.eqb_refl. reflexivity. }
  unfold store_by. cbv zeta. rewrite N. destruct t as [desc|desc|j], r as [k|i]; cbn [itself] in It; try contradiction.
  - rewrite It. apply By.
  - subst. apply By.
Qed.

(** Text, binary and property values: the call succeeds and does what it would do with a value whose bytes in the
    last unit of the payload are zeros. *)
Theorem C86_itself_refuted : forall multi s t disc r v0, lived multi s -> holds s r -> itself s t r -> (forall desc, t = ToLoose desc -> real_desc desc) ->
  from_units (rgenus s r) (value s r) = Some v0 -> rgenus s r <> g_nested -> (rgenus s r = g_varbin -> varbin_length (unpack (value s r)) <= 4 * (plen s r - 1)) ->
  disc = true \/ is_empty (rgenus s r) v0 = false ->
  exists v' s', to_tv (rgenus s r) (spoiled v0) = Some v' /\ store_lent asis s t disc (lend s r) = Ok tt s' /\ run1 asis s (goal_op t disc v') = Ok tt s' /\
    from_units (rgenus s r) (value s' r) = Some (spoiled v0) /\ forall r', r' <> r -> field s' r' = field s r'.
Proof.
  intros multi s t disc r v0 Lv H It D E NN O NE. destruct (lived_inv multi s Lv) as [T U].
  destruct (self_late s r v0 T H E NN O) as (v & v' & TV & TV' & L1 & L2 & LE & Wf & G'). destruct (lend_facts s r v0 T H E O) as (K & W & LV).
  destruct (holds_facts s r T H) as (G & P & V & B & _).
  destruct (self_call s t disc r v0 v T H It D LV TV L1 ltac:(rewrite (empty_of _ _ _ TV); exact NE)) as [GG SC].
  rewrite LE in SC. exists v', (write_units s (raddr s r) (pay v')).
  assert (NE' : disc || negb (v_empty v') = true) by (rewrite (empty_of _ _ _ TV'), empty_spoiled; destruct NE as [-> | ->]; [reflexivity|apply Bool.orb_true_r]).
  assert (Nd : needed disc v' = plen s r) by (unfold needed; rewrite NE'; exact L2).
  assert (R : assign_ref asis s r disc v' = Ok tt (write_units s (raddr s r) (pay v'))).
  { unfold assign_ref. rewrite Nd. replace (rrel s r =? 0) with false by (pose proof (h_rel _ _ H); lia). cbn [negb]. cbv zeta. unfold brutto. rewrite <- B, Z.eqb_refl. reflexivity. }
  assert (R1 : run1 asis s (goal_op t disc v') = Ok tt (write_units s (raddr s r) (pay v'))).
  { destruct t as [desc|desc|j], r as [k|i]; cbn [itself] in It; try contradiction; cbn [goal_op run1 goal_genus] in *.
    - replace (fixed_genus (descriptor2genus desc)) with false by (rewrite GG; unfold fixed_genus; lia). unfold assign_stretchy. rewrite It. exact R.
    - subst. exact R. }
  assert (SW : stretchy_wf (rgenus s r) disc v').
  { unfold wf_pay in Wf. replace (is_inplaced_genus (rgenus s r)) with false in Wf by (unfold is_inplaced_genus, g_i8, g_u8, g_i16, g_u16; lia).
    replace (fixed_genus (rgenus s r)) with false in Wf by (unfold fixed_genus; lia). exact Wf. }
  assert (Cl : calm_ref s r (needed disc v') = true).
  { rewrite Nd. unfold calm_ref, roomy. rewrite Z.eqb_refl, !Bool.orb_true_r. cbn [orb andb]. destruct r; [reflexivity|]. replace (plen s (RP j) =? 0) with false by lia. reflexivity. }
  pose proof (assign_ref_step s r disc v' T (h_live _ _ H) (h_stretchy _ _ H) SW Cl) as St. rewrite R in St. destruct St as [T' Ef].
  split; [exact TV'|]. split; [exact SC|]. split; [exact R1|]. split; [|intros r' N; apply (e_frame _ _ _ _ Ef); exact N].
  assert (FV : value (write_units s (raddr s r) (pay v')) r = pay v').
  { pose proof (e_field _ _ _ _ Ef) as F. unfold field in F. destruct (liveb _ r) in F; [|].
    - unfold new_content in F. replace (needed disc v' =? 0) with false in F by lia. congruence.
    - unfold new_content in F. replace (needed disc v' =? 0) with false in F by lia. discriminate. }
  rewrite FV. apply (kp_read _ _ _ (to_tv_kept (rgenus s r) (spoiled v0) v' ltac:(lia) G' TV')).
  intros Q. unfold from_units, from_bytes in E. destruct v0; cbn [spoiled] in Q; try discriminate; try (injection Q as ->).
  destruct (rgenus s r =? g_text); [destruct (string_read _); discriminate|]. destruct (rgenus s r =? g_varbin); [discriminate|]. destruct (rgenus s r =? g_nested); [discriminate|]. destruct (rgenus s r =? g_property); discriminate.
Qed.
(** what is lost: at least the last byte *)
Definition bytes_in (v : tval) : list Z := match v with TText b | TBin b | TProp b _ => b | _ => [] end.
Theorem C86_last_byte_lost : forall v, last (bytes_in v) 0 <> 0 -> spoiled v <> v /\ last (bytes_in (spoiled v)) 0 = 0.
Proof.
  assert (A : forall k b, last b 0 <> 0 -> k <= zlen b - 1 -> spoil k b <> b /\ last (spoil k b) 0 = 0).
  { intros k b L K. assert (N : b <> []) by (intros ->; apply L; reflexivity).
    assert (LN : forall l : list Z, last l 0 = nth (length l - 1) l 0).
    { intros l. induction l as [|x l IH]; [reflexivity|]. destruct l as [|y l]; [reflexivity|]. change (last (x :: y :: l) 0) with (last (y :: l) 0). rewrite IH.
      cbn [length]. replace (S (S (length l)) - 1)%nat with (S (S (length l) - 1)) by lia. reflexivity. }
    assert (Z : last (spoil k b) 0 = 0).
    { rewrite LN, spoil_nth. pose proof (spoil_length k b) as SL. unfold zlen in *. destruct b; [congruence|]. cbn [length] in *. replace (Z.of_nat (length (spoil k (z :: b)) - 1) <? k) with false by lia. reflexivity. }
    split; [intros Q; rewrite Q in Z; contradiction|exact Z]. }
  assert (P : forall b : list Z, last b 0 <> 0 -> 1 <= zlen b) by (intros [|x b] L; [exfalso; apply L; reflexivity|rewrite zlen_cons; pose proof (zlen_nonneg b); lia]).
  intros [b|b|t0|b id|b] L; cbn [bytes_in spoiled] in *; try (exfalso; apply L; reflexivity).
  - destruct (string_units_bounds (zlen b) (zlen_nonneg b)) as [U _]. destruct (A (4 * (string_units (zlen b) - 1) - string_place (zlen b)) b L ltac:(lia)) as [Q1 Q2]. split; [congruence|exact Q2].
  - destruct (A (zlen b - 4) b L ltac:(lia)) as [Q1 Q2]. split; [congruence|exact Q2].
  - pose proof (bytes2units_div (zlen b + 2)) as BU. destruct (A (4 * (bytes2units (zlen b + 2) - 1) - 2) b L ltac:(lia)) as [Q1 Q2]. split; [congruence|exact Q2].
Qed.
(** Nested tuples: the header becomes zero before it is read; the field is left with a payload of no units. *)
Theorem C86_nested_itself_refuted : forall multi s t disc r v0, lived multi s -> holds s r -> itself s t r -> (forall desc, t = ToLoose desc -> real_desc desc) ->
  from_units (rgenus s r) (value s r) = Some v0 -> rgenus s r = g_nested -> disc = true \/ is_empty (rgenus s r) v0 = false ->
  exists s', store_lent asis s t disc (lend s r) = Ok tt s' /\ dat s' (raddr s' r) = 0 /\ plen s' r = 0 /\ value s' r = [] /\ ~ TInv s'.
Proof.
  intros multi s t disc r v0 Lv H It D E GN NE. destruct (lived_inv multi s Lv) as [T U]. destruct (holds_facts s r T H) as (G & P & V & B & _).
  destruct (lend_facts s r v0 T H E ltac:(intros Q; rewrite GN in Q; discriminate)) as (K & W & LV).
  assert (EV : v0 = TNested (Some (unpack (value s r)))) by (unfold from_units, from_bytes in E; rewrite GN in E; cbn in E; congruence).
  assert (LD : lend s r = LNested (raddr s r)) by (unfold lend; rewrite GN; reflexivity).
  assert (TV : exists v, to_tv (rgenus s r) v0 = Some v) by (rewrite EV, GN; eexists; reflexivity). destruct TV as [v TV].
  assert (ML : zlen (unpack (value s r)) = 4 * plen s r) by (rewrite V, unpack_length, read_units_length; lia).
  assert (UT : u16_at (unpack (value s r)) 0 = plen s r).
  { rewrite u16_unpack by (intros Q; rewrite Q in ML; unfold zlen in ML; cbn [unpack length flat_map concat map] in ML; lia). rewrite V. change 0%nat with (Z.to_nat 0). rewrite read_units_nth by lia. rewrite Z.add_0_r, B, GN. cbn [stretchy_brutto_units].
    unfold stretchy_brutto_units, nested_brutto_units. change (g_nested =? 0) with false. change (g_nested =? 1) with false. change (g_nested =? 2) with true. cbv iota.
    unfold u16_at, Codec.byte_at. change (Z.to_nat 0) with 0%nat. change (Z.to_nat (0 + 1)) with 1%nat. cbn [unit_bytes nth]. lia. }
  assert (Len : Z.of_nat (length (pay v)) = plen s r).
  { rewrite (pay_of _ _ _ TV), EV. cbn [nested_estimate]. rewrite UT. destruct (nested_roundtrip (blank (plen s r)) (unpack (value s r)) ltac:(lia) ltac:(lia) ltac:(rewrite zlen_blank; lia)) as [-> _].
    apply pack_whole. exact ML. }
  destruct (self_call s t disc r v0 v T H It D LV TV Len ltac:(rewrite (empty_of _ _ _ TV); exact NE)) as [GG SC].
  rewrite LD in SC |- *. destruct (nested_late s r T H GN) as (ws & LE & Lw). rewrite LE in SC.
  set (s' := write_units s (raddr s r) (0 :: ws)) in *. exists s'.
  assert (Ra : raddr s' r = raddr s r) by (destruct r; reflexivity). assert (Rg : rgenus s' r = rgenus s r) by (destruct r; reflexivity).
  assert (Rr : rrel s' r = rrel s r) by (destruct r; reflexivity).
  assert (D0 : dat s' (raddr s' r) = 0) by (rewrite Ra; unfold s'; rewrite write_units_in by (cbn [length]; lia); rewrite Z.sub_diag; reflexivity).
  assert (Sr : stretchy_ref s' r = true) by (pose proof (h_stretchy _ _ H) as Q; unfold stretchy_ref in *; destruct r; [|reflexivity]; rewrite Rg; exact Q).
  destruct (stretchy_not _ _ Sr) as [F1 F2].
  assert (PL : plen s' r = 0).
  { unfold plen. rewrite F1, Rr, D0, Rg, GN. destruct (rrel s r =? 0); reflexivity. }
  split; [exact SC|]. split; [exact D0|]. split; [exact PL|]. split.
  - unfold value. rewrite F2, PL. reflexivity.
  - intros T'. assert (L' : live s' r) by (pose proof (h_live _ _ H); destruct r; assumption).
    pose proof (t_pos _ T' r L' Sr ltac:(rewrite Rr; apply (h_rel _ _ H))). lia.
Qed.
(** the cases: a text field stored in itself, loose and preplaced; a nested tuple stored in itself *)
Definition own : st := final (new_tuple 60 6) [OSet (fd g_text 1) true (value_of g_text hello); OSet (fd g_nested 3) true (value_of g_nested (TNested (Some [2; 0; 1; 0; 5; 0; 9; 9])));
  OSet (fd g_property 4) true (value_of g_property (TProp [7; 8; 9] 200))].
Definition own_slot : st := final (new_tuple1 16 5) [OSlot 0 true (value_of g_varbin (TBin [1; 2; 3; 4; 5; 6; 7; 8]))].
Example C86_itself_case : lived (fun _ => false) own /\ holds own (RL 0) /\ holds own (RL 2) /\ itself own (ToLoose (fd g_text 1)) (RL 0) /\ real_desc (fd g_text 1) /\
  from_units g_text (value own (RL 0)) = Some hello /\ rgenus own (RL 0) = g_text /\ is_empty g_text hello = false /\
  itself own (ToLoose (fd g_property 4)) (RL 2) /\ from_units g_property (value own (RL 2)) = Some (TProp [7; 8; 9] 200) /\
  spoiled hello = TText [104; 101; 108; 0; 0] /\ spoiled (TProp [7; 8; 9] 200) = TProp [7; 8; 0] 200.
Proof.
  split. { apply l_reached. unfold own. apply reached_final; [|vm_compute; reflexivity]. constructor; unfold no_slots, g_varbin; intros; lia. }
  split; [constructor; vm_compute; [lia|reflexivity|discriminate]|]. split; [constructor; vm_compute; [lia|reflexivity|discriminate]|].
  split; [vm_compute; reflexivity|]. split; [split; vm_compute; [split; [discriminate|reflexivity]|discriminate]|]. repeat split; vm_compute; reflexivity.
Qed.
Example C86_itself_slot_case : lived (fun _ => false) own_slot /\ holds own_slot (RP 0) /\ from_units g_varbin (value own_slot (RP 0)) = Some (TBin [1; 2; 3; 4; 5; 6; 7; 8]) /\ rgenus own_slot (RP 0) = g_varbin /\
  varbin_length (unpack (value own_slot (RP 0))) <= 4 * (plen own_slot (RP 0) - 1) /\ spoiled (TBin [1; 2; 3; 4; 5; 6; 7; 8]) = TBin [1; 2; 3; 4; 0; 0; 0; 0] /\
  match store_lent asis own_slot (ToSlot 0) true (lend own_slot (RP 0)) with Ok _ s' => from_units g_varbin (value s' (RP 0)) = Some (TBin [1; 2; 3; 4; 0; 0; 0; 0]) | _ => False end.
Proof.
  split. { apply l_reached. unfold own_slot. apply reached_final; [|vm_compute; reflexivity]. constructor; unfold no_slots, g_varbin; intros; lia. }
  split; [constructor; vm_compute; [lia|reflexivity|discriminate]|]. split; [vm_compute; reflexivity|]. split; [reflexivity|]. split; [vm_compute; discriminate|]. split; vm_compute; reflexivity.
Qed.
Example C86_nested_case : holds own (RL 1) /\ itself own (ToLoose (fd g_nested 3)) (RL 1) /\ real_desc (fd g_nested 3) /\ rgenus own (RL 1) = g_nested /\
  from_units g_nested (value own (RL 1)) = Some (TNested (Some [2; 0; 1; 0; 5; 0; 9; 9])) /\ is_empty g_nested (TNested (Some [2; 0; 1; 0; 5; 0; 9; 9])) = false.
Proof.
  split; [constructor; vm_compute; [lia|reflexivity|discriminate]|]. split; [vm_compute; reflexivity|]. split; [split; vm_compute; [split; [discriminate|reflexivity]|discriminate]|].
  split; [reflexivity|]. split; vm_compute; reflexivity.
Qed.
(** ... and a copy of the text to another field *)
Example C86_copy_case : elsewhere own (ToLoose (fd g_text 2)) (RL 0) /\ calm own (OSet (fd g_text 2) true (value_of g_text hello)) = true /\ good hello /\
  to_tv g_text hello = Some (value_of g_text hello) /\
  match store_lent asis own (ToLoose (fd g_text 2)) true (lend own (RL 0)) with Ok _ s' => looks (see s' (fd g_text 2) false) hello = true /\ looks (see s' (fd g_text 1) false) hello = true | _ => False end.
Proof. split; [vm_compute; exact I|]. split; [vm_compute; reflexivity|]. split; [repeat constructor; discriminate|]. split; [vm_compute; reflexivity|]. vm_compute. split; reflexivity. Qed.

(** ** Managed tuples *)
(** with room for the value: as above *)
Theorem C86_managed_roomy_partial : forall multi mg fuel s t disc le v r s', lived multi s -> live s r -> lent_ok s le -> within s r le -> elsewhere s t r ->
  to_tv (goal_genus s t) (lent_value s le) = Some v -> valid multi s (goal_op t disc v) -> calm s (goal_op t disc v) = true ->
  run1 asis s (goal_op t disc v) = Ok tt s' -> retry_lent fuel mg s t disc le = Done true s' /\ retry fuel mg s (goal_op t disc v) = Some (true, s').
Proof.
  intros multi mg fuel s t disc le v r s' Lv L K W E TV V C R. destruct (lived_inv multi s Lv) as [T _].
  pose proof (untouched_view multi s t disc le v r T L K W E TV V C) as Q. split; [|apply retry_ok; exact R]. destruct fuel; cbn [retry_lent]; rewrite Q, R; reflexivity.
Qed.
(** The view keeps its buffer exactly when room is made inside it: otherwise the tuple that comes back lies in a
    buffer the allocator lent. *)
Theorem C86_released_exactly : forall srt borrow l d s wi wd s2, manage srt borrow true l d s wi wd = Room s2 ->
  if stays s wi wd then s2 = rearrange srt s wi wd
  else exists s1 space gi, (s1 = s \/ s1 = compactify srt s) /\ into_buffer s1 (borrow space) gi l d = Room s2.
Proof.
  intros srt borrow l d s wi wd s2. unfold manage, stays. cbv zeta. destruct (_ || _); [discriminate|].
  destruct (wd + wi <=? jv s + jc s + unallocated s); [congruence|].
  match goal with |- context [if ?b then compactify srt s else s] => set (s1 := if b then compactify srt s else s) end.
  assert (D : s1 = s \/ s1 = compactify srt s) by (unfold s1; match goal with |- context [if ?b then _ else _] => destruct b end; auto).
  destruct (estimate _ _ _ _) as [n|]; [|discriminate]. destruct (pick_scale _ _ _ _) as [sp|]; [|discriminate].
  intros H. exists s1, sp, (growth_index s1 wi). split; [exact D|exact H].
Qed.
(** A call that is given up with a copy of the value is given up with the view, and leaves the same tuple; so is, at once, a
    call whose value has the wrong type or is too long. *)
Theorem C86_given_up : forall multi mg s t disc le v r s2, lived multi s -> live s r -> lent_ok s le -> within s r le -> elsewhere s t r ->
  to_tv (goal_genus s t) (lent_value s le) = Some v -> valid multi s (goal_op t disc v) -> calm s (goal_op t disc v) = true ->
  retry 1 mg s (goal_op t disc v) = Some (false, s2) -> retry_lent 1 mg s t disc le = Done false s2.
Proof.
  intros multi mg s t disc le v r s2 Lv L K W E TV V C. destruct (lived_inv multi s Lv) as [T U].
  cbn [retry retry_lent]. rewrite (untouched_view multi s t disc le v r T L K W E TV V C).
  pose proof (step multi s (goal_op t disc v) T U V C) as St. destruct (run1 asis s (goal_op t disc v)) as [u s1|s1|]; [congruence| |discriminate].
  subst s1. rewrite TV. rewrite (surjective_pairing (wants s (goal_op t disc v))). destruct (mg s _ _) as [s3|s3|]; [|congruence|discriminate].
  destruct (run1 asis s3 (goal_op t disc v)); congruence.
Qed.
Theorem C86_unfit : forall mg fuel s t disc le, to_tv (goal_genus s t) (lent_value s le) = None -> retry_lent (S fuel) mg s t disc le = Done false s.
Proof. intros mg fuel s t disc le H. cbn [retry_lent]. unfold store_lent. rewrite H. reflexivity. Qed.
(** Growth: with a copy of the value the call succeeds in a new buffer (C29); with the view it reads the buffer
    that has been released. *)
Theorem C86_growth_refuted : forall multi srt borrow l d s t disc le v r, lived multi s -> live s r -> lent_ok s le -> within s r le -> elsewhere s t r ->
  to_tv (goal_genus s t) (lent_value s le) = Some v -> can_grow multi borrow l s (goal_op t disc v) ->
  retry_lent 1 (manage srt borrow true l d) s t disc le = Dangling /\ exists s', retry 1 (manage srt borrow true l d) s (goal_op t disc v) = Some (true, s').
Proof.
  intros multi srt borrow l d s t disc le v r Lv L K W E TV [V C St Sm Ly B J Jv [s0 Th] Un Al Few Data Fit]. destruct (lived_inv multi s Lv) as [T U].
  set (o := goal_op t disc v) in *. pose proof (op_units_range multi s o V) as Hu.
  assert (s0 = s) as -> by (eapply throws_same; eassumption). destruct (wants_thrown s o s St Th) as [W1 W2].
  destruct (grow_room multi srt borrow l d s (fst (wants s o)) (op_units o) T Ly B J Jv ltac:(lia) ltac:(lia) ltac:(unfold unallocated; lia) ltac:(lia) ltac:(lia) Data Fit) as (s2 & Em & _).
  split.
  - cbn [retry_lent]. rewrite (untouched_view multi s t disc le v r T L K W E TV V C). fold o. rewrite Th, TV. fold o. rewrite (surjective_pairing (wants s o)), W2, Em.
    unfold stays. replace (_ <=? _) with false by (unfold unallocated in *; lia). reflexivity.
  - destruct (can_grow_ok multi srt borrow l d s o T U) as (s' & R & _); [constructor; try assumption; eauto|eauto].
Qed.
Definition full_text : st := final (new_tuple 5 2) [OSet (fd g_text 2) true (value_of g_text hello)].
Example C86_growth_case : lived odd_multi full_text /\ live full_text (RL 0) /\ lent_value full_text (lend full_text (RL 0)) = hello /\ holds full_text (RL 0) /\
  can_grow odd_multi none_lent no_lay full_text (OSet (fd g_text 4) true (value_of g_text hello)) /\ elsewhere full_text (ToLoose (fd g_text 4)) (RL 0).
Proof.
  split; [apply l_reached; unfold full_text; now_reach|]. split; [vm_compute; lia|]. split; [vm_compute; reflexivity|]. split; [constructor; vm_compute; [lia|reflexivity|discriminate]|].
  split; [constructor|vm_compute; exact I].
  - apply validb_ok; vm_compute; reflexivity.
  - vm_compute; reflexivity.
  - vm_compute; reflexivity.
  - vm_compute; exact I.
  - split; [discriminate|split; [reflexivity|split; [reflexivity|intros j Hj; exfalso; apply (Nat.nlt_0_r j); exact Hj]]].
  - intros n Hn; unfold none_lent; lia.
  - reflexivity.
  - reflexivity.
  - rewrite run1_failed by (vm_compute; reflexivity). eauto.
  - vm_compute; reflexivity.
  - vm_compute; reflexivity.
  - vm_compute; discriminate.
  - vm_compute; discriminate.
  - vm_compute; discriminate.
Qed.
(** nothing is lent: the call is given up; and text for a field of another kind is refused *)
Example C86_given_up_case : calm full_text (OSet (fd g_text 4) true (value_of g_text hello)) = true /\
  to_tv g_text (lent_value full_text (lend full_text (RL 0))) = Some (value_of g_text hello) /\
  (exists s2, retry 1 (fun s _ _ => Failed s) full_text (OSet (fd g_text 4) true (value_of g_text hello)) = Some (false, s2)) /\
  stays full_text 1 3 = false /\ stays full_text 1 0 = true /\ to_tv g_varbin (lent_value full_text (lend full_text (RL 0))) = None.
Proof.
  split; [vm_compute; reflexivity|]. split; [vm_compute; reflexivity|]. split; [|vm_compute; repeat split].
  exists full_text. cbn [retry]. rewrite run1_failed by (vm_compute; reflexivity). rewrite (surjective_pairing (wants _ _)). reflexivity.
Qed.
(** Refuted: room made in place moves the field from under the view; the call is repeated with it, succeeds and
    stores bytes of another field.  With a copy of the text the same call stores the text. *)
Definition moving : st := final (new_tuple 8 3) [OSet (fd g_u32 2) true (blob 1 1); OSet (fd g_text 2) true (value_of g_text hello); OSet (fd g_u32 4) true (blob 1 7); ORemove (fd g_u32 2)].
Definition text_of (s : st) (desc : Z) : option tval := match get s (KL desc) with Some ws => from_units g_text ws | None => None end.
Theorem C86_compaction_refuted : exists s t, lived odd_multi s /\ holds s (RL 1) /\ elsewhere s t (RL 1) /\ lent_value s (lend s (RL 1)) = hello /\
  in_place odd_multi srt_chunks s (goal_op t true (value_of g_text hello)) /\
  (exists s', retry_lent 2 (manage srt_chunks none_lent true no_lay zeros) s t true (lend s (RL 1)) = Done true s' /\ text_of s' (fd g_text 4) = Some (TText [111; 0; 0; 7; 0]) /\ text_of s' (fd g_text 2) = Some hello) /\
  (exists s', retry 2 (manage srt_chunks none_lent true no_lay zeros) s (goal_op t true (value_of g_text hello)) = Some (true, s') /\ text_of s' (fd g_text 4) = Some hello).
Proof.
  exists moving, (ToLoose (fd g_text 4)). split; [apply l_reached; unfold moving; now_reach|]. split; [constructor; vm_compute; [lia|reflexivity|discriminate]|].
  split; [vm_compute; exact I|]. split; [vm_compute; reflexivity|]. split; [|split].
  - constructor; [apply validb_ok; vm_compute; reflexivity|vm_compute; reflexivity|vm_compute; reflexivity|vm_compute; exact I|apply by_insertion_sorter|apply settled_dec; vm_compute; reflexivity|vm_compute; discriminate].
  - assert (Q : match retry_lent 2 (manage srt_chunks none_lent true no_lay zeros) moving (ToLoose (fd g_text 4)) true (lend moving (RL 1)) with
      | Done true s' => text_of s' (fd g_text 4) = Some (TText [111; 0; 0; 7; 0]) /\ text_of s' (fd g_text 2) = Some hello | _ => False end) by (vm_compute; split; reflexivity).
    destruct (retry_lent _ _ _ _ _ _) as [[|] s'| |]; try contradiction. exists s'. split; [reflexivity|exact Q].
  - assert (Q : match retry 2 (manage srt_chunks none_lent true no_lay zeros) moving (goal_op (ToLoose (fd g_text 4)) true (value_of g_text hello)) with
      | Some (true, s') => text_of s' (fd g_text 4) = Some hello | _ => False end) by (vm_compute; reflexivity).
    destruct (retry _ _ _ _) as [[[|] s']|]; try contradiction. exists s'. split; [reflexivity|exact Q].
Qed.

Print Assumptions C86_other_field_partial.
Print Assumptions C86_lent_views.
Print Assumptions C86_copy_partial.
Print Assumptions C86_itself_refuted.
Print Assumptions C86_last_byte_lost.
Print Assumptions C86_nested_itself_refuted.
Print Assumptions C86_managed_roomy_partial.
Print Assumptions C86_released_exactly.
Print Assumptions C86_given_up.
Print Assumptions C86_unfit.
Print Assumptions C86_growth_refuted.
Print Assumptions C86_compaction_refuted.
