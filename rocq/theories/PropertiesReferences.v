(** * PropertiesReferences: C91, views and references held while the tuple is edited. *)
From Verif Require Import Base Tag TagProofs Codec CodecProofs Gear GearBase GearSearch GearProofs GearAlloc GearRealloc GearAsis Tuple TupleProofs TupleSteps TupleView TupleOps TupleMore
  TupleHist TupleFacts PropertiesTuple GearOpt GearOptProofs GearSortProofs PropertiesOpt Growth GrowthProofs PropertiesGrowth Held HeldProofs Traits Typed TypedProofs
  Hippeus HippeusProofs Scan Audit AuditProofs Image ImageProofs PropertiesImage PropertiesTyped Alias AliasProofs PropertiesAlias References ReferencesProofs.
From Coq Require Import ZifyBool ZifyNat.
Ltac Zify.zify_post_hook ::= Z.div_mod_to_equations.

(** a call names the field: [d] is its descriptor, [r] its place *)
Definition names (d : Z) (r : ref) (o : op) : Prop :=
  match o, r with
  | OSet e _ _, RL _ | ORemove e, RL _ | OEraseAll e, RL _ => e = d
  | OErase i, RL k => i = k
  | OSlot i _ _, RP j | OSlotDel i, RP j => i = j
  | _, _ => False
  end.
Lemma unnamed_unaddressed multi s o d r p : valid multi s o -> field s r = Some (d, p) -> ~ names d r o -> ~ addressed s o r.
Proof.
  intros V F N A.
  assert (G : forall k, r = RL k -> gid (idx s k) = d).
  { intros k ->. rewrite (field_live _ _ (live_of_field _ _ _ F)) in F. cbn [rdesc] in F. congruence. }
  destruct o as [e disc v|e|e disc v|e|i|i disc v|i]; cbn [addressed valid] in *.
  - destruct A as (k & Lk & ->). destruct (lookup_some _ _ _ (proj1 V) Lk) as [_ Hg]. apply N. cbn [names]. rewrite <- Hg. apply G. reflexivity.
  - destruct A as (k & Lk & ->). destruct (lookup_some _ _ _ (proj1 V) Lk) as [_ Hg]. apply N. cbn [names]. rewrite <- Hg. apply G. reflexivity.
  - exact A.
  - destruct A as (k & -> & Hg). apply N. cbn [names]. rewrite <- Hg. apply G. reflexivity.
  - subst r. apply N. reflexivity.
  - subst r. apply N. reflexivity.
  - subst r. apply N. reflexivity.
Qed.
Lemma unnamed_spared multi d r p l : forall s, TInv s -> uniq multi s -> field s r = Some (d, p) -> calm_run multi s l -> Forall (fun o => ~ names d r o) l -> spared s l r.
Proof.
  induction l as [|o l IH]; intros s T U F C N; cbn [spared calm_run] in *; [exact I|]. inversion N as [|? ? N1 N2]; subst.
  destruct C as (V & Cm & C). pose proof (step multi s o T U V Cm) as St. destruct (run1 asis s o) as [[] s1|s1|] eqn:E; [| |exact I].
  - pose proof (unnamed_unaddressed multi s o d r p V F N1) as A. split; [exact A|].
    apply (IH s1 (p_inv _ _ _ _ St) (p_uniq _ _ _ _ St)); [|exact C|exact N2]. apply (proj1 (step_framed multi s o s1 T V Cm E)); assumption.
  - subst s1. apply (IH s T U F C N2).
Qed.

(** ** While no call names the field *)
(** any calls, failed ones included, of any number leave the payload where it is, with all its units *)
Theorem C91_payload_stays : forall multi s l outs s' r d p, lived multi s -> field s r = Some (d, p) -> in_entry s r = false ->
  calm_run multi s l -> run asis s l = Some (outs, s') -> Forall (fun o => ~ names d r o) l ->
  field s' r = Some (d, p) /\ raddr s' r = raddr s r /\ plen s' r = plen s r /\ forall x, raddr s r <= x < raddr s r + plen s r -> dat s' x = dat s x.
Proof.
  intros multi s l outs s' r d p Lv F I C R N. destruct (lived_inv multi s Lv) as [T U].
  pose proof (unnamed_spared multi d r p l s T U F C N) as Sp.
  destruct (spared_run multi l r _ s outs s' T U F C R Sp) as (T' & U' & F' & A).
  destruct (place_same s s' r _ T T' F F' A I) as (P & _ & _ & D). auto.
Qed.
(** so a view of a text, a binary, a property or a nested tuple shows the value it was taken of, and is the view
    that would be given now *)
Theorem C91_views_stay : forall multi s l outs s' r d p v0, lived multi s -> field s r = Some (d, p) -> holds s r -> from_units (rgenus s r) (value s r) = Some v0 ->
  (rgenus s r = g_varbin -> varbin_length (unpack (value s r)) <= 4 * (plen s r - 1)) ->
  calm_run multi s l -> run asis s l = Some (outs, s') -> Forall (fun o => ~ names d r o) l ->
  lent_value s' (lend s r) = v0 /\ lend s' r = lend s r.
Proof.
  intros multi s l outs s' r d p v0 Lv F H E O C R N. destruct (lived_inv multi s Lv) as [T U].
  destruct (lend_facts s r v0 T H E O) as (K & W & LV). pose proof (unnamed_spared multi d r p l s T U F C N) as Sp.
  destruct (spared_run multi l r _ s outs s' T U F C R Sp) as (T' & U' & F' & A).
  assert (I : in_entry s r = false) by (apply (stretchy_not s r (h_stretchy _ _ H))).
  destruct (place_same s s' r _ T T' F F' A I) as (P & V & G & D). split; [|apply lend_same; assumption].
  rewrite <- LV. apply lent_same; [exact K|]. intros x Cx. apply D, W, Cx.
Qed.
(** and a reference shows the value it was taken of, and is the reference that would be given now *)
Lemma reference_genus g : by_reference g = true -> fixed_genus g = true /\ 3 <= loose_units g /\ is_inplaced_genus g = false.
Proof.
  unfold by_reference. intros H. apply andb_prop in H. destruct H as [A B]. split; [exact A|]. split; [lia|].
  destruct (is_inplaced_genus g) eqn:I; [|reflexivity]. apply inplaced_units in I. lia.
Qed.
Lemma reference_plen s k desc : gid (idx s k) = desc -> by_reference (descriptor2genus desc) = true ->
  in_entry s (RL k) = false /\ plen s (RL k) = loose_units (descriptor2genus desc) /\ value s (RL k) = read_units s (raddr s (RL k)) (loose_units (descriptor2genus desc)).
Proof.
  intros G B. destruct (reference_genus _ B) as (F & _ & I). assert (I' : in_entry s (RL k) = false) by (cbn [in_entry rgenus]; unfold egenus; rewrite G; exact I).
  assert (P : plen s (RL k) = loose_units (descriptor2genus desc)) by (unfold plen; cbn [rgenus]; unfold egenus; rewrite G, F; reflexivity).
  split; [exact I'|]. split; [exact P|]. rewrite (value_units _ _ I'), P. reflexivity.
Qed.
Theorem C91_references_stay : forall multi s l outs s' desc disc k p, lived multi s -> real_desc desc -> multi desc = false -> by_reference (descriptor2genus desc) = true ->
  lookup_gid s desc = Some k -> refer s desc disc = Some p -> calm_run multi s l -> run asis s l = Some (outs, s') -> Forall (fun o => ~ names desc (RL k) o) l ->
  get s (KL desc) = Some (behind s p) /\ behind s' p = behind s p /\ refer s' desc disc = Some p.
Proof.
  intros multi s l outs s' desc disc k p Lv D M B Lk Rf C R N. destruct (lived_inv multi s Lv) as [T U].
  destruct (lookup_some _ _ _ D Lk) as [Hl Hg]. pose proof (field_live _ _ Hl) as F. cbn [rdesc] in F. rewrite Hg in F.
  destruct (reference_plen s k desc Hg B) as (I & P & V).
  pose proof (unnamed_spared multi desc (RL k) _ l s T U F C N) as Sp.
  destruct (spared_run multi l (RL k) _ s outs s' T U F C R Sp) as (T' & U' & F' & A).
  destruct (place_same s s' (RL k) _ T T' F F' A I) as (P' & V' & G' & Dt).
  unfold refer in Rf. rewrite Lk in Rf. injection Rf as <-. cbn [behind]. split; [|split].
  - cbn [get]. unfold get_loose. rewrite Lk, (proj1 (reference_genus _ B)), <- V. reflexivity.
  - apply read_units_ext. rewrite <- P. exact Dt.
  - unfold refer. destruct (field_desc _ _ _ _ F') as [Hl' Hg']. rewrite (only_pos multi s' desc k U' D M Hl' Hg'), A. reflexivity.
Qed.

(** ** The field itself is set *)
(** in place: a value of fixed size shows through the old reference *)
Theorem C91_set_shows : forall multi s desc disc v p k s', lived multi s -> by_reference (descriptor2genus desc) = true -> lookup_gid s desc = Some k -> refer s desc disc = Some p ->
  valid multi s (OSet desc disc v) -> disc = true \/ v_empty v = false -> run1 asis s (OSet desc disc v) = Ok tt s' ->
  behind s' p = pay v /\ refer s' desc disc = Some p.
Proof.
  intros multi s desc disc v p k s' Lv B Lk Rf (D & M & W) NE R. destruct (reference_genus _ B) as (F & _ & I).
  destruct (lookup_some _ _ _ D Lk) as [Hl Hg]. assert (E : negb disc && v_empty v = false) by (destruct NE as [-> | ->]; [reflexivity|apply Bool.andb_false_r]).
  apply (set_fixed_place s desc disc v k s' Lk F E) in R. unfold write_fixed, egenus in R. rewrite Hg, I in R. subst s'.
  unfold refer in Rf. rewrite Lk in Rf. injection Rf as <-. cbn [behind].
  unfold wf_pay in W. rewrite I, F in W. split.
  - change (raddr s (RL k)) with (addr s k). rewrite <- W. apply read_write.
  - unfold refer. change (lookup_gid (write_units s (addr s k) (pay v)) desc) with (lookup_gid s desc). rewrite Lk. reflexivity.
Qed.
(** a text or a binary of the same length set in place of the old one shows through the old view *)
Definition bulk (v : tval) : option (Z * Z) :=
  match v with TText b | TBin b => Some (zlen b, 0) | TProp b id => Some (zlen b, id) | _ => None end.
Lemma tiny_by_length m : 0 <= Codec.byte_at m 0 -> 0 <= Codec.byte_at m 1 -> 0 <= Codec.byte_at m 2 -> string_is_tiny m = (string_length m <? 254).
Proof. intros H1 H2 H3. unfold string_length, string_is_tiny, tiny_threshold, u16_at. destruct (Codec.byte_at m 0 <? 254) eqn:E; [lia|]. change (1 + 1) with 2. lia. Qed.
Lemma lend_bulk s r v0 : TInv s -> holds s r -> lent_value s (lend s r) = v0 -> lent_ok s (lend s r) -> bulk v0 <> None ->
  exists n id, bulk v0 = Some (n, id) /\
  lend s r = (if rgenus s r =? g_text then LText (4 * raddr s r + (if n <? 254 then 1 else 3)) n
              else if rgenus s r =? g_varbin then LBin (4 * raddr s r + 4) n
              else LProp (4 * raddr s r + 2) n id).
Proof.
  intros T H E K B. destruct (holds_facts s r T H) as (G & P & V & _ & Hd).
  assert (HB : forall i, 0 <= i < 4 -> 0 <= Codec.byte_at (unpack (value s r)) i) by (intros i Hi; rewrite Hd by lia; apply byte_unit; lia).
  unfold lend in *. destruct (rgenus s r =? g_text).
  - cbn [lent_value lent_ok] in *. subst v0. cbn [bulk]. rewrite zlen_area by exact K. eexists _, _. split; [reflexivity|]. rewrite tiny_by_length by (apply HB; lia). reflexivity.
  - destruct (rgenus s r =? g_varbin).
    + cbn [lent_value lent_ok] in *. subst v0. cbn [bulk]. rewrite zlen_area by exact K. eexists _, _. split; reflexivity.
    + destruct (rgenus s r =? g_nested); cbn [lent_value lent_ok] in *; subst v0; cbn [bulk] in *; [congruence|]. rewrite zlen_area by apply K. eexists _, _. split; reflexivity.
Qed.
Lemma varbin_fits g v1 v : good v1 -> to_tv g v1 = Some v -> g = g_varbin -> varbin_length (unpack (pay v)) <= 4 * (Z.of_nat (length (pay v)) - 1).
Proof.
  intros G E ->. rewrite (pay_of _ _ _ E). destruct v1 as [b|b|t|b id|b]; cbn [to_tv] in E; try discriminate.
  destruct G as [G M]. destruct (varbin_estimate (zlen b)) as [n|] eqn:En; [|discriminate]. apply varbin_estimate_spec in En; [|apply zlen_nonneg].
  pose proof (zlen_nonneg b) as N. pose proof (bytes2units_div (zlen b)) as BU.
  rewrite varbin_store_enc by (rewrite ?zlen_blank; lia). destruct (varbin_enc_facts b ltac:(lia)) as (_ & Z1 & VL).
  rewrite unpack_whole; [|apply varbin_enc_bytes; [exact G|lia]|lia]. rewrite VL, pack_length. replace (zlen b mod 4 =? 0) with true by lia. lia.
Qed.
Theorem C91_same_size_shows : forall multi s t disc r v0 v1 v s', lived multi s -> holds s r -> itself s t r -> from_units (rgenus s r) (value s r) = Some v0 ->
  (rgenus s r = g_varbin -> varbin_length (unpack (value s r)) <= 4 * (plen s r - 1)) ->
  good v1 -> to_tv (rgenus s r) v1 = Some v -> bulk v0 <> None -> bulk v1 = bulk v0 -> Z.of_nat (length (pay v)) = plen s r ->
  disc = true \/ v_empty v = false -> valid multi s (goal_op t disc v) -> calm s (goal_op t disc v) = true -> run1 asis s (goal_op t disc v) = Ok tt s' ->
  lent_value s' (lend s r) = v1 /\ lend s' r = lend s r.
Proof.
  intros multi s t disc r v0 v1 v s' Lv H It E O G TV B0 B1 Len NE V C R. destruct (lived_inv multi s Lv) as [T U].
  destruct (holds_facts s r T H) as (Gr & P & _). destruct (stretchy_not _ _ (h_stretchy _ _ H)) as [F1 F2].
  assert (Nd : needed disc v = plen s r) by (rewrite <- Len; unfold needed; destruct NE as [-> | ->]; [reflexivity|rewrite Bool.orb_true_r; reflexivity]).
  assert (RA : assign_ref asis s r disc v = Ok tt s').
  { destruct t as [desc|desc|j]; cbn [itself goal_op run1] in *; [|contradiction|destruct r as [k|i]; [contradiction|subst i; exact R]].
    destruct r as [k|j]; [|contradiction]. destruct V as (D & M & Wf). destruct (lookup_some _ _ _ D It) as [_ Hg].
    replace (fixed_genus (descriptor2genus desc)) with false in R by (symmetry; rewrite <- Hg; exact F1). unfold assign_stretchy in R. rewrite It in R. exact R. }
  destruct (one_call multi s _ s' V C R) as [CR R1]. pose proof (l_calls multi s _ _ s' Lv CR R1) as Lv'. destruct (lived_inv multi s' Lv') as [T' U'].
  apply (assign_same s r disc v s' T (h_live _ _ H) (h_stretchy _ _ H) (h_rel _ _ H) Nd) in RA. 
  assert (Ra : raddr s' r = raddr s r) by (subst s'; destruct r; reflexivity). assert (Rg : rgenus s' r = rgenus s r) by (subst s'; destruct r; reflexivity).
  assert (H' : holds s' r).
  { destruct H as [h1 h2 h3]. constructor; [subst s'; destruct r; assumption|unfold stretchy_ref in *; rewrite Rg; exact h2|subst s'; destruct r; assumption]. }
  assert (GR : 0 <= rgenus s r < 31) by lia.
  pose proof (to_tv_kept _ _ _ GR G TV) as K.
  assert (N0 : pay v <> []) by (intros Q; rewrite Q in Len; cbn [length] in Len; lia).
  assert (PL : plen s' r = plen s r).
  { destruct (holds_facts s' r T' H') as (_ & _ & _ & PB & _). destruct (stretchy_not _ _ (h_stretchy _ _ H')) as [F1' _].
    unfold plen at 1. rewrite F1'. pose proof (h_rel _ _ H') as Q. replace (rrel s' r =? 0) with false by lia. rewrite Ra, Rg.
    assert (D0 : dat s' (raddr s r) = nth 0 (pay v) 0) by (subst s'; rewrite write_units_in by lia; rewrite Z.sub_diag; reflexivity). rewrite D0.
    pose proof (kp_wf _ _ _ K) as W. unfold wf_pay in W.
    assert (Fx : fixed_genus (rgenus s r) = false) by (unfold fixed_genus; lia). rewrite Fx in W.
    assert (I : is_inplaced_genus (rgenus s r) = false) by (destruct (is_inplaced_genus (rgenus s r)) eqn:I; [apply inplaced_units in I; destruct I; congruence|reflexivity]).
    rewrite I in W. rewrite (proj2 W N0). exact Len. }
  assert (VV : value s' r = pay v).
  { destruct (holds_facts s' r T' H') as (_ & _ & VU & _). rewrite VU, Ra, PL, <- Len. subst s'. apply read_write. }
  assert (FU : from_units (rgenus s' r) (value s' r) = Some v1).
  { rewrite Rg, VV. apply (kp_read _ _ _ K). intros ->. apply B0. rewrite <- B1. reflexivity. }
  destruct (lend_facts s' r v1 T' H' FU) as (K' & _ & LV').
  { rewrite Rg, VV, PL, <- Len. intros Q. apply (varbin_fits (rgenus s r) v1 v G TV Q). }
  destruct (lend_facts s r v0 T H E O) as (K0 & _ & LV0).
  destruct (lend_bulk s r v0 T H LV0 K0 B0) as (n & id & BB & LE). destruct (lend_bulk s' r v1 T' H' LV' K' ltac:(congruence)) as (n' & id' & BB' & LE').
  assert (EQ : lend s' r = lend s r). { rewrite LE, LE', Ra, Rg. rewrite B1, BB in BB'. injection BB' as <- <-. reflexivity. }
  split; [|exact EQ]. rewrite <- EQ. exact LV'.
Qed.

(** ** Setters given a reference into the same tuple *)
Definition copied (s : st) (t : into) (disc : bool) (p : place) : op := into_op t disc (mkV (all_zero (behind s p)) (behind s p)).
Lemma behind_ext s s' p : (forall x, dat s' x = dat s x) -> behind s' p = behind s p.
Proof. intros H. destruct p as [a n|n]; [|reflexivity]. cbn [behind]. apply read_units_ext. intros y _. apply H. Qed.
(** the outcome is the one with a copy of the value, whatever field of the tuple the reference is of, its own included *)
Theorem C91_store_reference : forall multi s t disc p, lived multi s -> by_reference (descriptor2genus (into_desc t)) = true -> valid multi s (copied s t disc p) ->
  calm s (copied s t disc p) = true -> store_at asis s t disc p = run1 asis s (copied s t disc p).
Proof.
  intros multi s t disc p Lv B V C. destruct (lived_inv multi s Lv) as [T U]. destruct (reference_genus _ B) as (F & Lu & I).
  assert (New : forall desc, real_desc desc -> desc = into_desc t -> calm_new s (loose_units (descriptor2genus desc)) = true ->
    new_by asis s desc (loose_units (descriptor2genus desc)) (fun s _ => behind s p) =
    void (bind (alloc_loose asis s desc (loose_units (descriptor2genus desc))) (fun k s1 => Ok (Some k) (write_fixed s1 k (behind s p))))).
  { intros desc D -> Cn. unfold calm_new in Cn. apply Bool.negb_true_iff in Cn. unfold new_by. rewrite (alloc_loose_asis s _ _ Cn).
    pose proof (loose_units_range (descriptor2genus (into_desc t))) as LR.
    pose proof (alloc_loose_spec s (plen s) (into_desc t) (loose_units (descriptor2genus (into_desc t))) (t_inv _ T) ltac:(lia) (proj1 D) (real_not_hole _ _ D)) as Q.
    destruct (alloc_loose repaired s (into_desc t) _) as [k s1|s1|]; cbn [bind void]; [|reflexivity|reflexivity].
    destruct Q as (_ & _ & Hg & Sm & _). unfold write_fixed, egenus. rewrite Hg, I. rewrite (behind_ext s s1); [reflexivity|].
    intros x. rewrite (q_dat _ _ (f_cfg _ _ _ Sm)). reflexivity. }
  unfold store_at, copied. destruct t as [desc|desc]; cbn [into_desc into_op run1 valid calm copied] in *; cbv zeta.
  - destruct V as (D & M & W). rewrite F. unfold assign_fixed. cbn [v_empty pay]. destruct (lookup_gid s desc) as [k|] eqn:Lk.
    + destruct (negb disc && all_zero (behind s p)).
      * destruct (release_loose s k _) as [[] s1|s1|]; reflexivity.
      * destruct (lookup_some _ _ _ D Lk) as [_ Hg]. unfold write_fixed, egenus. rewrite Hg, I. reflexivity.
    + destruct (negb disc && all_zero (behind s p)) eqn:E; [reflexivity|]. apply New; [exact D|reflexivity|].
      unfold stores in C. rewrite F in C. cbn [v_empty] in C. unfold new_units in C. rewrite F in C. destruct disc, (all_zero (behind s p)); cbn in E, C; try discriminate; exact C.
  - destruct V as (D & M & W). unfold append_loose. cbn [v_empty pay]. cbv zeta. rewrite F.
    destruct (negb disc && all_zero (behind s p)) eqn:E; [reflexivity|]. apply New; [exact D|reflexivity|].
    cbn [orb] in C. unfold new_units in C. cbn [v_empty] in C. rewrite F in C. try rewrite E in C. cbn [orb] in C. exact C.
Qed.
(** every reference a getter gives of a field of the type denotes a value that may be stored *)
Theorem C91_references_fit : forall multi s desc t disc p, lived multi s -> by_reference (descriptor2genus (into_desc t)) = true ->
  descriptor2genus desc = descriptor2genus (into_desc t) -> refer s desc disc = Some p -> real_desc (into_desc t) ->
  (multi (into_desc t) = match t with IntoLoose _ => false | IntoMember _ => true end) -> valid multi s (copied s t disc p).
Proof.
  intros multi s desc t disc p Lv B G Rf D M. destruct (reference_genus _ B) as (F & Lu & I).
  assert (W : wf_pay (descriptor2genus (into_desc t)) (behind s p)).
  { unfold wf_pay. rewrite I, F. unfold refer in Rf. rewrite G in Rf.
    destruct (lookup_gid s desc) as [k|]; [|destruct disc; [discriminate|]]; injection Rf as <-; cbn [behind]; [apply read_units_length; lia|]. rewrite repeat_length. lia. }
  unfold copied. destruct t; cbn [into_op valid into_desc pay] in *; auto.
Qed.
(** the zeros behind a reference to an absent field are all there *)
Theorem C91_zeros_fit : forall g, 0 <= g <= 30 -> by_reference g = true -> 4 * loose_units g <= 64.
Proof.
  intros g H. assert (Q : forallb (fun n => negb (by_reference (Z.of_nat n)) || (4 * loose_units (Z.of_nat n) <=? 64)) (seq 0 31) = true) by (vm_compute; reflexivity).
  rewrite forallb_forall in Q. specialize (Q (Z.to_nat g) ltac:(apply in_seq; lia)). rewrite Z2Nat.id in Q by lia. intros B. rewrite B in Q. cbn [negb orb] in Q. lia.
Qed.

(** ** Managed tuples *)
Theorem C91_managed_roomy : forall multi mg fuel s t disc p s', lived multi s -> by_reference (descriptor2genus (into_desc t)) = true -> valid multi s (copied s t disc p) ->
  calm s (copied s t disc p) = true -> run1 asis s (copied s t disc p) = Ok tt s' ->
  retry_at fuel mg s t disc p = Done true s' /\ retry fuel mg s (copied s t disc p) = Some (true, s').
Proof.
  intros multi mg fuel s t disc p s' Lv B V C R. pose proof (C91_store_reference multi s t disc p Lv B V C) as Q. split; [|apply retry_ok; exact R].
  destruct fuel; cbn [retry_at]; rewrite Q, R; reflexivity.
Qed.
Theorem C91_given_up : forall multi mg s t disc p s2, lived multi s -> by_reference (descriptor2genus (into_desc t)) = true -> valid multi s (copied s t disc p) ->
  calm s (copied s t disc p) = true -> retry 1 mg s (copied s t disc p) = Some (false, s2) -> retry_at 1 mg s t disc p = Done false s2.
Proof.
  intros multi mg s t disc p s2 Lv B V C. destruct (lived_inv multi s Lv) as [T U]. cbn [retry retry_at]. rewrite (C91_store_reference multi s t disc p Lv B V C).
  pose proof (step multi s _ T U V C) as St. destruct (run1 asis s (copied s t disc p)) as [u s1|s1|]; [congruence| |discriminate].
  subst s1. fold (copied s t disc p). rewrite (surjective_pairing (wants s (copied s t disc p))). destruct (mg s _ _) as [s3|s3|]; [|congruence|discriminate].
  destruct (run1 asis s3 (copied s t disc p)); congruence.
Qed.
(** Refuted: when a new buffer is needed, the call with a copy succeeds (C29) and the call with the reference reads
    the buffer that has been released. *)
Theorem C91_growth_refuted : forall multi srt borrow l d s t disc a n, lived multi s -> by_reference (descriptor2genus (into_desc t)) = true ->
  can_grow multi borrow l s (copied s t disc (InTuple a n)) ->
  retry_at 1 (manage srt borrow true l d) s t disc (InTuple a n) = Dangling /\ exists s', retry 1 (manage srt borrow true l d) s (copied s t disc (InTuple a n)) = Some (true, s').
Proof.
  intros multi srt borrow l d s t disc a n Lv Br [V C St Sm Ly B J Jv [s0 Th] Un Al Few Data Fit]. destruct (lived_inv multi s Lv) as [T U].
  pose proof (C91_store_reference multi s t disc _ Lv Br V C) as SR. set (o := copied s t disc (InTuple a n)) in *. pose proof (op_units_range multi s o V) as Hu.
  assert (s0 = s) as -> by (eapply throws_same; eassumption). destruct (wants_thrown s o s St Th) as [W1 W2].
  destruct (grow_room multi srt borrow l d s (fst (wants s o)) (op_units o) T Ly B J Jv ltac:(lia) ltac:(lia) ltac:(unfold unallocated; lia) ltac:(lia) ltac:(lia) Data Fit) as (s2 & Em & _).
  split.
  - cbn [retry_at]. rewrite SR, Th. fold (copied s t disc (InTuple a n)). fold o. rewrite (surjective_pairing (wants s o)), W2, Em.
    unfold stays. replace (_ <=? _) with false by (unfold unallocated in *; lia). reflexivity.
  - destruct (can_grow_ok multi srt borrow l d s o T U) as (s' & R & _); [constructor; try assumption; eauto|eauto].
Qed.

(** ** Refuted *)
(** A reference to an absent field never shows the field, whatever is stored in it. *)
Theorem C91_absent_refuted : forall multi s desc p v s', lived multi s -> by_reference (descriptor2genus desc) = true -> lookup_gid s desc = None -> refer s desc false = Some p ->
  valid multi s (OSet desc false v) -> calm s (OSet desc false v) = true -> v_empty v = all_zero (pay v) -> v_empty v = false -> run1 asis s (OSet desc false v) = Ok tt s' ->
  get s' (KL desc) = Some (pay v) /\ behind s' p <> pay v.
Proof.
  intros multi s desc p v s' Lv B Lk Rf V C EZ NE R. destruct (lived_inv multi s Lv) as [T U]. destruct (reference_genus _ B) as (F & Lu & I). destruct V as (D & M & W).
  pose proof (set_step s desc false v T D W C) as Q. rewrite R in Q. destruct Q as [T' E].
  assert (St : stores desc false v = true) by (unfold stores; rewrite F, NE; reflexivity).
  pose proof (step multi s (OSet desc false v) T U ltac:(cbn [valid]; auto) C) as Sp. rewrite R in Sp. pose proof (p_uniq _ _ _ _ Sp) as U'.
  inversion E as [S1 L1 E0|k s0 S1 L1 Nl Ef E0|k s0 S1 L1 Ef E0|k s0 S1 L1 Ef E0|k s0 S1 L1 Fx Ef E0]; subst; try congruence.
  split.
  - destruct (field_desc _ _ _ _ (e_field _ _ _ _ Ef)) as [Hl Hg]. cbn [get]. unfold get_loose. rewrite (only_pos multi s' desc k U' D M Hl Hg), F. cbn [orb].
    pose proof (e_field _ _ _ _ Ef) as X. rewrite (field_live _ _ Hl) in X. congruence.
  - unfold refer in Rf. rewrite Lk in Rf. injection Rf as <-. cbn [behind]. intros Q. rewrite EZ, <- Q in NE.
    assert (Z : forall n, all_zero (repeat 0 n) = true) by (induction n; [reflexivity|exact IHn]). rewrite Z in NE. discriminate.
Qed.

(** the cases: two binaries, a text and a hole between them *)
Definition e1 : Z := fd g_bin96 2.
Definition e2 : Z := fd g_bin96 4.
Definition e3 : Z := fd g_bin96 6.
Definition hexa (a b c : Z) : tv := mkV false [a; b; c].
Definition busy : st := final (new_tuple 60 6) [OSet e1 false (hexa 1 2 3); OSet (fd g_text 2) true (value_of g_text hello); OSet e2 false (hexa 4 5 6)].
Definition shown_after (s : st) (p : place) (l : list op) (d : Z) : option (list Z * option (list Z)) :=
  match run asis s l with Some (outs, s') => if forallb (fun b => b) outs then Some (behind s' p, get s' (KL d)) else None | None => None end.
(** Removing the field leaves the reference at the bytes: they show the old value until another field takes the place. *)
Theorem C91_removed_refuted : exists s d e p, lived odd_multi s /\ d <> e /\ by_reference (descriptor2genus d) = true /\ refer s d true = Some p /\
  shown_after s p [] d = Some ([1; 2; 3], Some [1; 2; 3]) /\ shown_after s p [ORemove d] d = Some ([1; 2; 3], None) /\
  shown_after s p [ORemove d; OSet e false (hexa 7 8 9)] e = Some ([7; 8; 9], Some [7; 8; 9]).
Proof.
  exists busy, e1, e3, (InTuple (raddr busy (RL 0)) 3). split; [apply l_reached; unfold busy; now_reach|]. split; [discriminate|].
  split; [reflexivity|]. split; [vm_compute; reflexivity|]. repeat split; vm_compute; reflexivity.
Qed.
(** Setting the field to zero removes it when the token does not tell absent from empty, and the reference shows the
    old value. *)
Theorem C91_zeroed_refuted : exists s d p, lived odd_multi s /\ refer s d false = Some p /\
  shown_after s p [OSet d false (mkV true [0; 0; 0])] d = Some ([1; 2; 3], None) /\ shown_after s p [OSet d true (mkV true [0; 0; 0])] d = Some ([0; 0; 0], Some [0; 0; 0]).
Proof.
  exists busy, e1, (InTuple (raddr busy (RL 0)) 3). split; [apply l_reached; unfold busy; now_reach|]. split; [vm_compute; reflexivity|]. split; vm_compute; reflexivity.
Qed.
(** A longer text takes another place: the view shows neither the new text nor the old one once the room is used. *)
Definition view_after (s : st) (le : lent) (l : list op) (d : Z) : option (tval * option tval) :=
  match run asis s l with Some (outs, s') => if forallb (fun b => b) outs then Some (lent_value s' le, text_of s' d) else None | None => None end.
Definition long : tval := TText [97; 98; 99; 100; 101; 102; 103; 104; 105; 106].
Definition jello : tval := TText [106; 101; 108; 108; 111].
Theorem C91_resized_refuted : exists s d, lived odd_multi s /\ holds s (RL 1) /\ lookup_gid s d = Some 1%nat /\
  view_after s (lend s (RL 1)) [] d = Some (hello, Some hello) /\
  view_after s (lend s (RL 1)) [OSet d true (value_of g_text long)] d = Some (hello, Some long) /\
  view_after s (lend s (RL 1)) [OSet d true (value_of g_text long); OSet (fd g_u32 8) true (blob 1 305419896)] d = Some (TText [86; 52; 18; 108; 111], Some long).
Proof.
  exists busy, (fd g_text 2). split; [apply l_reached; unfold busy; now_reach|]. split; [constructor; vm_compute; [lia|reflexivity|discriminate]|]. repeat split; vm_compute; reflexivity.
Qed.
(** Compaction moves the payloads and leaves references and views behind. *)
Definition gapped : st := final (new_tuple 60 6) [OSet (fd g_bin96 8) false (hexa 7 7 7); OSet e1 false (hexa 1 2 3); OSet e2 false (hexa 4 5 6); ORemove (fd g_bin96 8)].
Theorem C91_compacted_refuted : exists s d e p, let t := compactify srt_chunks s in lived odd_multi s /\ settled s /\ d <> e /\ refer s d true = Some p /\
  behind s p = [1; 2; 3] /\ get t (KL d) = Some [1; 2; 3] /\ behind t p = [4; 5; 6] /\ get t (KL e) = Some [4; 5; 6].
Proof.
  exists gapped, e1, e2, (InTuple (raddr gapped (RL 1)) 3). cbv zeta. split; [apply l_reached; unfold gapped; now_reach|]. split; [apply settled_dec; vm_compute; reflexivity|]. split; [discriminate|].
  repeat split; vm_compute; reflexivity.
Qed.
(** A managed setter makes room by moving the field from under the reference, succeeds and stores the bytes of another
    field; with a copy of the value it stores the value. *)
Definition moving3 : st := final (new_tuple 10 3) [OSet (fd g_u32 2) true (blob 1 1); OSet e1 false (hexa 1 2 3); OSet (fd g_u32 4) true (blob 1 7); ORemove (fd g_u32 2)].
Theorem C91_managed_compaction_refuted : exists s t p, lived odd_multi s /\ by_reference (descriptor2genus (into_desc t)) = true /\ refer s e1 true = Some p /\ behind s p = [1; 2; 3] /\
  in_place odd_multi srt_chunks s (copied s t true p) /\
  (exists s', retry_at 2 (manage srt_chunks none_lent true no_lay zeros) s t true p = Done true s' /\ get s' (KL (into_desc t)) = Some [2; 3; 7] /\ get s' (KL e1) = Some [1; 2; 3]) /\
  (exists s', retry 2 (manage srt_chunks none_lent true no_lay zeros) s (copied s t true p) = Some (true, s') /\ get s' (KL (into_desc t)) = Some [1; 2; 3]).
Proof.
  exists moving3, (IntoLoose e3), (InTuple (raddr moving3 (RL 1)) 3). split; [apply l_reached; unfold moving3; now_reach|]. split; [reflexivity|]. split; [vm_compute; reflexivity|].
  split; [vm_compute; reflexivity|]. split; [|split].
  - constructor; [apply validb_ok; vm_compute; reflexivity|vm_compute; reflexivity|vm_compute; reflexivity|vm_compute; exact I|apply by_insertion_sorter|apply settled_dec; vm_compute; reflexivity|vm_compute; discriminate].
  - assert (Q : match retry_at 2 (manage srt_chunks none_lent true no_lay zeros) moving3 (IntoLoose e3) true (InTuple (raddr moving3 (RL 1)) 3) with
      | Done true s' => get s' (KL (into_desc (IntoLoose e3))) = Some [2; 3; 7] /\ get s' (KL e1) = Some [1; 2; 3] | _ => False end) by (vm_compute; split; reflexivity).
    destruct (retry_at _ _ _ _ _ _) as [[|] s'| |]; try contradiction. exists s'. split; [reflexivity|exact Q].
  - assert (Q : match retry 2 (manage srt_chunks none_lent true no_lay zeros) moving3 (copied moving3 (IntoLoose e3) true (InTuple (raddr moving3 (RL 1)) 3)) with
      | Some (true, s') => get s' (KL (into_desc (IntoLoose e3))) = Some [1; 2; 3] | _ => False end) by (vm_compute; reflexivity).
    destruct (retry _ _ _ _) as [[[|] s']|]; try contradiction. exists s'. split; [reflexivity|exact Q].
Qed.

(** ** Non-vacuity *)
(** calls that reuse and split holes, grow another field, fail, and edit a collection around the fields *)
Definition around : list op := [OSet (fd g_text 4) true (value_of g_text long); ORemove e2; OSet e3 false (hexa 7 8 9); OAppend (fd g_u32 3) true (blob 1 9);
  OSet (fd g_text 4) true (value_of g_text hello); OSet (fd g_varbin 8) true (vbin 60 1); OEraseAll (fd g_u32 3); OSet (fd g_u32 10) true (blob 1 5)].
Example C91_stays_case : lived odd_multi busy /\ calm_run odd_multi busy around /\
  (exists s', run asis busy around = Some ([true; true; true; true; true; false; true; true], s')) /\
  Forall (fun o => ~ names e1 (RL 0) o) around /\ field busy (RL 0) = Some (e1, [1; 2; 3]) /\ in_entry busy (RL 0) = false /\ lookup_gid busy e1 = Some 0%nat /\
  Forall (fun o => ~ names (fd g_text 2) (RL 1) o) around /\ holds busy (RL 1) /\ from_units (rgenus busy (RL 1)) (value busy (RL 1)) = Some hello /\ rgenus busy (RL 1) <> g_varbin /\
  real_desc e1 /\ odd_multi e1 = false /\ by_reference (descriptor2genus e1) = true /\ refer busy e1 true = Some (InTuple (raddr busy (RL 0)) 3).
Proof.
  split; [apply l_reached; unfold busy; now_reach|]. split; [apply calm_runb_ok; vm_compute; reflexivity|].
  split. { assert (Q : match run asis busy around with Some (o, _) => o = [true; true; true; true; true; false; true; true] | None => False end) by (vm_compute; reflexivity).
           destruct (run asis busy around) as [[o s']|]; [|contradiction]. subst o. exists s'. reflexivity. }
  split; [repeat constructor; unfold names, e1, e2, e3, fd; discriminate || (intros Q; exact Q)|].
  split; [vm_compute; reflexivity|]. split; [reflexivity|]. split; [vm_compute; reflexivity|].
  split; [repeat constructor; unfold names, e1, e2, e3, fd; discriminate || (intros Q; exact Q)|].
  split; [constructor; vm_compute; [lia|reflexivity|discriminate]|]. split; [vm_compute; reflexivity|]. split; [vm_compute; discriminate|].
  split; [apply real_descb_ok; vm_compute; reflexivity|]. repeat split; vm_compute; reflexivity.
Qed.
(** another text of the same length shows through the view; a preplaced binary too *)
Example C91_same_size_case : itself busy (ToLoose (fd g_text 2)) (RL 1) /\ good jello /\ to_tv g_text jello = Some (value_of g_text jello) /\ bulk jello = bulk hello /\ bulk hello <> None /\
  Z.of_nat (length (pay (value_of g_text jello))) = plen busy (RL 1) /\ valid odd_multi busy (OSet (fd g_text 2) true (value_of g_text jello)) /\
  calm busy (OSet (fd g_text 2) true (value_of g_text jello)) = true /\ view_after busy (lend busy (RL 1)) [OSet (fd g_text 2) true (value_of g_text jello)] (fd g_text 2) = Some (jello, Some jello).
Proof.
  split; [vm_compute; reflexivity|]. split; [repeat constructor; discriminate|]. split; [vm_compute; reflexivity|]. split; [reflexivity|]. split; [discriminate|].
  split; [vm_compute; reflexivity|]. split; [apply validb_ok; vm_compute; reflexivity|]. split; vm_compute; reflexivity.
Qed.
Example C91_set_case : shown_after busy (InTuple (raddr busy (RL 0)) 3) [OSet e1 false (hexa 9 8 7)] e1 = Some ([9; 8; 7], Some [9; 8; 7]) /\
  valid odd_multi busy (OSet e1 false (hexa 9 8 7)) /\ refer busy e3 false = Some (Zeros 3) /\ lookup_gid busy e3 = None /\ calm busy (OSet e3 false (hexa 7 8 9)) = true /\
  shown_after busy (Zeros 3) [OSet e3 false (hexa 7 8 9)] e3 = Some ([0; 0; 0], Some [7; 8; 9]).
Proof. split; [vm_compute; reflexivity|]. split; [apply validb_ok; vm_compute; reflexivity|]. repeat split; vm_compute; reflexivity. Qed.
(** a copy by reference to a new field, to an existing one, to the field itself and to a collection *)
Definition copies (s : st) (t : into) (p : place) : option (list Z) :=
  match store_at asis s t true p with Ok _ s' => get s' (KL (into_desc t)) | _ => None end.
Example C91_store_case : let p := InTuple (raddr busy (RL 0)) 3 in
  map (fun t => copies busy t p) [IntoLoose e3; IntoLoose e2; IntoLoose e1; IntoMember (fd g_bin96 3)] = repeat (Some [1; 2; 3]) 4 /\
  valid odd_multi busy (copied busy (IntoLoose e3) true p) /\ calm busy (copied busy (IntoLoose e3) true p) = true /\
  valid odd_multi busy (copied busy (IntoMember (fd g_bin96 3)) true p) /\ calm busy (copied busy (IntoMember (fd g_bin96 3)) true p) = true.
Proof.
  cbv zeta. split; [vm_compute; reflexivity|]. split; [apply validb_ok; vm_compute; reflexivity|]. split; [vm_compute; reflexivity|]. split; [apply validb_ok; vm_compute; reflexivity|vm_compute; reflexivity].
Qed.
Definition full3 : st := final (new_tuple 5 2) [OSet e1 false (hexa 1 2 3)].
Example C91_growth_case : lived odd_multi full3 /\ refer full3 e1 true = Some (InTuple (raddr full3 (RL 0)) 3) /\
  can_grow odd_multi none_lent no_lay full3 (copied full3 (IntoLoose e3) true (InTuple (raddr full3 (RL 0)) 3)) /\
  (exists s2, retry 1 (fun s _ _ => Failed s) full3 (copied full3 (IntoLoose e3) true (InTuple (raddr full3 (RL 0)) 3)) = Some (false, s2)).
Proof.
  split; [apply l_reached; unfold full3; now_reach|]. split; [vm_compute; reflexivity|]. split; [constructor|].
  - apply validb_ok; vm_compute; reflexivity.
  - vm_compute; reflexivity.
  - vm_compute; reflexivity.
  - vm_compute; exact I.
  - split; [discriminate|split; [reflexivity|split; [reflexivity|intros j Hj; exfalso; apply (Nat.nlt_0_r j); exact Hj]]].
  - intros n Hn; unfold none_lent; lia.
  - reflexivity.
  - reflexivity.
  - rewrite run1_failed by (vm_compute; reflexivity). eauto.
  - vm_compute; reflexivity.
  - vm_compute; reflexivity.
  - vm_compute; discriminate.
  - vm_compute; discriminate.
  - vm_compute; discriminate.
  - exists full3. cbn [retry]. rewrite run1_failed by (vm_compute; reflexivity). rewrite (surjective_pairing (wants _ _)). reflexivity.
Qed.

Print Assumptions C91_payload_stays.
Print Assumptions C91_views_stay.
Print Assumptions C91_references_stay.
Print Assumptions C91_set_shows.
Print Assumptions C91_same_size_shows.
Print Assumptions C91_store_reference.
Print Assumptions C91_references_fit.
Print Assumptions C91_zeros_fit.
Print Assumptions C91_managed_roomy.
Print Assumptions C91_given_up.
Print Assumptions C91_growth_refuted.
Print Assumptions C91_absent_refuted.
Print Assumptions C91_removed_refuted.
Print Assumptions C91_zeroed_refuted.
Print Assumptions C91_resized_refuted.
Print Assumptions C91_compacted_refuted.
Print Assumptions C91_managed_compaction_refuted.
