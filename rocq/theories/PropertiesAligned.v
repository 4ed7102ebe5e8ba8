(** * PropertiesAligned: C92, addresses of typed reads suit their types. *)
From Verif Require Import Base Tag TagProofs Codec CodecProofs Gear GearBase GearSearch GearProofs GearAlloc GearRealloc GearAsis Tuple TupleProofs TupleSteps TupleView TupleOps TupleMore
  TupleHist TupleFacts PropertiesTuple GearOpt GearOptProofs GearSortProofs PropertiesOpt Growth GrowthProofs PropertiesGrowth Held HeldProofs References ReferencesProofs
  Hippeus Scan Audit Image ImageProofs PropertiesImage Facade Aligned Schema SchemaProofs.
From Coq Require Import ZifyBool ZifyNat.
Ltac Zify.zify_post_hook ::= Z.div_mod_to_equations.

Lemma value_of_field s r d p : field s r = Some (d, p) -> value s r = p.
Proof. intros F. rewrite (field_live _ _ (live_of_field _ _ _ F)) in F. congruence. Qed.
Lemma preplaced_end s n g disc sat init t s' : 0 <= g <= 31 -> define_preplaced s n g disc sat init = Defined t s' ->
  tag2offset t = aligned (bytes_of s) (width_align g) /\ bytes_of s' = tag2offset t + preplaced_bytes g.
Proof.
  intros Hg E. destruct (define_preplaced_image s n g disc sat init t s' Hg E) as (O & G & P & Gt & _ & _ & _ & Im). split; [exact O|].
  pose proof (zlen_nonneg (image s)) as Z0. destruct (aligned_width (bytes_of s) g Z0 ltac:(lia)) as (A1 & A2).
  unfold bytes_of. rewrite Im. pose proof (starts_length g disc init ltac:(lia)) as SL. unfold zlen in *.
  rewrite !app_length, repeat_length. unfold bytes_of, zlen in *. lia.
Qed.
Lemma tame_token ds s log n t : Forall wf_def ds -> Forall tame ds -> definitions empty_schema ds = Some (s, log) -> In (n, t) log -> regular t.
Proof. intros W TM H I. exact (SchemaProofs.tame_log ds empty_schema [] s log inv_empty W TM H (n, t) I). Qed.
Lemma align_values g : In (value_align g) [1; 2; 4; 8].
Proof. unfold value_align. repeat match goal with |- context [if ?c then _ else _] => destruct c end; cbn; auto. Qed.
Lemma align_pos g : 0 < value_align g.
Proof. pose proof (align_values g) as H. cbn in H. lia. Qed.
Ltac by_align g := pose proof (align_values g) as AV; cbn [In] in AV; unfold suits, ro_address, pre_address, address, area_offset in *;
  destruct AV as [AV|[AV|[AV|[AV|[]]]]]; rewrite <- AV in *.
(** the types of 64 bits and addresses of the internet *)
Lemma align8 g : value_align g = 8 <-> In g [g_i64; g_u64; g_f64; g_d64; g_t64; g_app64; g_mac; g_ip].
Proof.
  unfold value_align. change g_i64 with 12. change g_u64 with 13. change g_f64 with 14. change g_d64 with 15. change g_t64 with 16. change g_app64 with 26.
  change g_mac with 28. change g_ip with 29. change g_i16 with 6. change g_u16 with 7. change g_i32 with 8. change g_t32 with 11. change g_app128 with 27. cbn [In].
  repeat match goal with |- context [if ?c then _ else _] => destruct c eqn:? end; lia.
Qed.

(** ** Types that suit everywhere *)
(** A tuple at an address that is a multiple of four gives a loose field of every type of at most 32 bits, of every
    packed type and of the reserved one of 128 bits, in every state *)
Theorem C92_narrow : forall base s desc, base mod 4 = 0 -> value_align (descriptor2genus desc) <> 8 ->
  typed_get base s desc = match lookup_gid s desc with Some k => TValue (value s (RL k)) | None => TAbsent end.
Proof.
  intros base s desc B N. unfold typed_get. destruct (lookup_gid s desc) as [k|]; [|reflexivity]. generalize (loose_at s k). intros x.
  replace (suits _ _) with true; [reflexivity|]. by_align (descriptor2genus desc); [lia|lia|lia|congruence].
Qed.
(** for the others it depends on nothing but the parity of the place *)
Theorem C92_wide : forall base s desc k, base mod 8 = 0 -> value_align (descriptor2genus desc) = 8 -> lookup_gid s desc = Some k ->
  typed_get base s desc = if Z.even (loose_at s k) then TValue (value s (RL k)) else TMisaligned.
Proof.
  intros base s desc k B A L. unfold typed_get. rewrite L, A. generalize (loose_at s k). intros x.
  replace (suits _ _) with (Z.even x); [reflexivity|]. unfold suits, address, area_offset. rewrite Zeven_mod. unfold Zeq_bool.
  destruct (Z.compare_spec (x mod 2) 0); lia.
Qed.
(** a reference suits exactly when the value can be read *)
Theorem C92_reference : forall base s desc disc p k, by_reference (descriptor2genus desc) = true -> lookup_gid s desc = Some k -> egenus (idx s k) = descriptor2genus desc ->
  refer s desc disc = Some p -> reference_suits base (descriptor2genus desc) p = true <-> typed_get base s desc = TValue (behind s p).
Proof.
  intros base s desc disc p k Br L G R. unfold refer in R. rewrite L in R. injection R as <-. unfold typed_get. rewrite L. cbn [reference_suits behind].
  assert (Fx : fixed_genus (descriptor2genus desc) = true /\ is_inplaced_genus (descriptor2genus desc) = false).
  { unfold by_reference in Br. apply andb_prop in Br. destruct Br as [F U]. split; [exact F|]. destruct (is_inplaced_genus (descriptor2genus desc)) eqn:I; [|reflexivity]. apply inplaced_units in I. lia. }
  destruct Fx as [Fx Ix]. assert (E : loose_at s k = addr s k) by (unfold loose_at; rewrite G, Ix; reflexivity). rewrite E.
  assert (V : value s (RL k) = read_units s (raddr s (RL k)) (loose_units (descriptor2genus desc))).
  { unfold value, plen. cbn [rgenus]. rewrite G, Ix, Fx. reflexivity. }
  rewrite V. change (raddr s (RL k)) with (addr s k). destruct (suits _ _); split; intros; congruence.
Qed.
(** the reference given for a field that is not there suits every type *)
Theorem C92_absent_reference : forall base s desc disc p, lookup_gid s desc = None -> refer s desc disc = Some p ->
  reference_suits base (descriptor2genus desc) p = true.
Proof. intros base s desc disc p L R. unfold refer in R. rewrite L in R. destruct disc; [discriminate|]. injection R as <-. reflexivity. Qed.
Example C92_absent_case : exists n, refer (new_tuple 60 6) (fd g_ip 2) false = Some (Zeros n).
Proof. eexists. vm_compute. reflexivity. Qed.

(** ** Where new fields go *)
Lemma apart_units desc : real_desc desc -> fixed_genus (descriptor2genus desc) = true -> is_inplaced_genus (descriptor2genus desc) = false -> 1 <= loose_units (descriptor2genus desc).
Proof.
  intros [D H] F I. assert (G : 0 <= descriptor2genus desc < 31).
  { rewrite descriptor2genus_arith in *. change g_hole with 31 in H. lia. }
  assert (C : forallb (fun n => let g := Z.of_nat n in negb (fixed_genus g) || is_inplaced_genus g || (1 <=? loose_units g)) (seq 0 31) = true) by (vm_compute; reflexivity).
  rewrite forallb_forall in C. specialize (C (Z.to_nat (descriptor2genus desc)) ltac:(apply in_seq; lia)). cbv beta zeta in C. rewrite Z2Nat.id in C by lia. rewrite F, I in C. cbn [negb orb] in C. lia.
Qed.
(** in a tuple without holes: behind all others *)
Lemma new_place multi s desc v s' : lived multi s -> jc s = 0 -> jv s = 0 -> real_desc desc -> multi desc = false -> wf_pay (descriptor2genus desc) (pay v) ->
  fixed_genus (descriptor2genus desc) = true -> is_inplaced_genus (descriptor2genus desc) = false -> lookup_gid s desc = None -> run1 asis s (OSet desc true v) = Ok tt s' ->
  exists k, lived multi s' /\ jc s' = 0 /\ jv s' = 0 /\ lookup_gid s' desc = Some k /\ loose_at s' k = tail s /\ tail s' = tail s + loose_units (descriptor2genus desc) /\
    field s' (RL k) = Some (desc, pay v) /\ pivot s' = pivot s /\ ~ live s (RL k) /\
    forall r, r <> RL k -> field s' r = field s r /\ (live s r -> raddr s' r = raddr s r).
Proof.
  intros Lv J V D M W Fx Ip Lk R. destruct (lived_inv multi s Lv) as [T U].
  assert (Vo : valid multi s (OSet desc true v)) by (cbn [valid]; auto).
  destruct (adds_calm multi s (OSet desc true v) T Vo) as [C Q]; [cbn [adds andb]; exact Fx|exact J|exact V|].
  rewrite R in Q. destruct Q as [J' V'].
  assert (Lv' : lived multi s').
  { apply (l_calls multi s [OSet desc true v] [true] s' Lv); [cbn [calm_run]; rewrite R; auto|]. cbn [run]. rewrite R. reflexivity. }
  pose proof (set_step s desc true v T D W C) as Q. rewrite R in Q. destruct Q as [T' Q].
  assert (X : exists k, lookup_gid s' desc = Some k /\ addr s' k = tail s /\ tail s' = tail s + loose_units (descriptor2genus desc) /\ effect s s' (RL k) (Some (desc, pay v)) /\ ~ live s (RL k)).
  { inversion Q as [St Lk0 E0|k s0 St Lk0 Nl Ef E0|k s0 St Lk0 Ef E0|k s0 St Lk0 Ef E0|k s0 St Lk0 Fx0 Ef E0]; subst; try congruence.
    - unfold stores in St. rewrite Fx in St. discriminate.
    - destruct (field_desc s' k desc _ (e_field _ _ _ _ Ef)) as [Hl Hg]. destruct (lived_inv multi s' Lv') as [_ U'].
      exists k. split; [apply (only_pos multi); assumption|].
      cbn [run1] in R. rewrite Fx in R. unfold assign_fixed in R. rewrite Lk in R. cbn [negb andb] in R.
      destruct (alloc_loose asis s desc (loose_units (descriptor2genus desc))) as [k1 s1|s1|] eqn:El; cbn [void bind] in R; try discriminate. injection R as R.
      unfold alloc_loose, index_alloc, lookup_fit in El. rewrite J in El. cbn [Z.gtb Z.compare Z.ltb orb] in El.
      destruct (loose_units (descriptor2genus desc) =? 0) eqn:E0; [pose proof (apart_units _ D Fx Ip); lia|].
      destruct (tail_space s <? _); [discriminate|]. destruct (head_space s <? 1) eqn:Hs; cbn [bind] in El; [discriminate|]. injection El as Ek Es.
      assert (Wr : s' = write_units s1 (addr s1 k1) (pay v)).
      { rewrite <- R. unfold write_fixed. replace (egenus (idx s1 k1)) with (descriptor2genus desc); [rewrite Ip; reflexivity|].
        rewrite <- Es, <- Ek. unfold egenus. cbn. unfold fupd. rewrite Nat.eqb_refl. cbn. unfold u16. destruct D as [D _]. rewrite Z.mod_small by (change (2 ^ 16) with 65536; lia). reflexivity. }
      assert (Ek1 : k = k1).
      { assert (Gk1 : gid (idx s' k1) = desc). { rewrite Wr, <- Es, <- Ek. cbn. unfold fupd. rewrite Nat.eqb_refl. cbn. unfold u16. destruct D as [D _]. rewrite Z.mod_small by (change (2 ^ 16) with 65536; lia). reflexivity. }
        assert (Ck1 : (k1 < cnt s')%nat) by (rewrite Wr, <- Es, <- Ek; cbn; lia).
        assert (Lk1 : live s' (RL k1)). { split; [exact Ck1|]. apply (real_gid _ desc D Gk1). }
        pose proof (only_pos multi s' desc k U' D M Hl Hg). pose proof (only_pos multi s' desc k1 U' D M Lk1 Gk1). congruence. }
      split; [|split; [|split; [exact Ef|exact Nl]]].
      + rewrite Ek1, Wr, <- Es, <- Ek. unfold addr, own. cbn. unfold fupd. rewrite Nat.eqb_refl. cbn. unfold own. cbn.
        pose proof (t_inv _ T) as Ti. pose proof (i_cfg _ _ _ _ _ _ (v_acc _ _ Ti)) as Cf. unfold head_space in Hs.
        pose proof (c_tail _ Cf) as Ct. pose proof (c_end _ Cf) as Ce. pose proof (c_pp _ Cf) as Cp. pose proof (c_cnt _ Cf) as Cc. unfold base in Ct. unfold u16. change (2 ^ 16) with 65536. rewrite Z.mod_small; lia.
      + rewrite Wr, <- Es. reflexivity. }
  destruct X as (k & L' & A & Tl & Ef & Nl). exists k. destruct (field_desc s' k desc _ (e_field _ _ _ _ Ef)) as [Hl Hg].
  split; [exact Lv'|]. split; [exact J'|]. split; [exact V'|]. split; [exact L'|]. split; [|split; [exact Tl|]].
  - unfold loose_at, egenus. rewrite Hg, Ip. exact A.
  - split; [apply Ef|]. split; [apply Ef|]. split; [exact Nl|]. intros r N. split; [apply Ef; exact N|]. intros Lr. apply Ef; assumption.
Qed.

(** *** Wide fields in one tuple *)
Definition stored (s : st) (l : list op) : option st := match run asis s l with Some (outs, s') => if forallb id outs then Some s' else None | None => None end.
Lemma stored_cons s o l s' : stored s (o :: l) = Some s' -> exists s1, run1 asis s o = Ok tt s1 /\ stored s1 l = Some s'.
Proof.
  unfold stored. cbn [run]. destruct (run1 asis s o) as [[] s1|s1|]; [| |discriminate].
  - intros H. exists s1. split; [reflexivity|]. destruct (run asis s1 l) as [[outs s2]|]; [|discriminate]. cbn [forallb id andb] in H. exact H.
  - destruct (run asis s1 l) as [[outs s2]|]; [|discriminate]. cbn [forallb id andb]. discriminate.
Qed.
(** a new field of fixed size, stored apart *)
Record newcomer (multi : Z -> bool) (s : st) (desc : Z) (v : tv) : Prop := {
  n_real : real_desc desc; n_single : multi desc = false; n_pay : wf_pay (descriptor2genus desc) (pay v); n_fixed : fixed_genus (descriptor2genus desc) = true;
  n_apart : is_inplaced_genus (descriptor2genus desc) = false; n_new : lookup_gid s desc = None
}.
Lemma still_new multi s d v s' desc : lived multi s' -> real_desc desc -> multi desc = false -> desc <> d -> lookup_gid s desc = None ->
  (forall r, field s' r = field s r \/ field s' r = Some (d, v)) -> lookup_gid s' desc = None.
Proof.
  intros Lv D M N L F. destruct (lookup_gid s' desc) as [i|] eqn:E; [|reflexivity]. destruct (lookup_some _ _ _ D E) as [Hl Hg]. pose proof (field_live _ _ Hl) as Fl. cbn [rdesc] in Fl. rewrite Hg in Fl.
  destruct (F (RL i)) as [F1|F1]; rewrite Fl in F1; [|congruence]. symmetry in F1. destruct (field_desc _ _ _ _ F1) as [L0 G0]. exfalso. apply (no_pos_inv _ _ _ L L0). exact G0.
Qed.
Lemma three_places multi s da db dc va vb vc s' : lived multi s -> jc s = 0 -> jv s = 0 -> newcomer multi s da va -> newcomer multi s db vb -> newcomer multi s dc vc -> NoDup [da; db; dc] ->
  stored s [OSet da true va; OSet db true vb; OSet dc true vc] = Some s' ->
  exists ka kc, lived multi s' /\ lookup_gid s' da = Some ka /\ lookup_gid s' dc = Some kc /\ loose_at s' ka = tail s /\ addr s' ka = tail s /\ addr s' kc = loose_at s' kc /\
    loose_at s' kc = tail s + loose_units (descriptor2genus da) + loose_units (descriptor2genus db) /\ value s' (RL ka) = pay va /\ value s' (RL kc) = pay vc.
Proof.
  intros Lv J V [A1 A2 A3 A4 A5 A6] [B1 B2 B3 B4 B5 B6] [C1 C2 C3 C4 C5 C6] ND H.
  assert (Nab : da <> db) by (intros ->; inversion ND as [|? ? I _]; apply I; cbn; auto).
  assert (Nac : da <> dc) by (intros ->; inversion ND as [|? ? I _]; apply I; cbn; auto).
  assert (Nbc : db <> dc) by (intros ->; inversion ND as [|? ? _ ND1]; inversion ND1 as [|? ? I _]; apply I; cbn; auto).
  apply stored_cons in H as (s1 & R1 & H). apply stored_cons in H as (s2 & R2 & H). apply stored_cons in H as (s3 & R3 & H). unfold stored in H. cbn [run forallb] in H. injection H as <-.
  destruct (new_place multi s da va s1 Lv J V A1 A2 A3 A4 A5 A6 R1) as (ka & L1 & J1 & V1 & K1 & P1 & T1 & F1 & _ & X1 & O1).
  assert (E1 : forall r, field s1 r = field s r \/ field s1 r = Some (da, pay va)).
  { intros r. destruct (ref_eq_dec r (RL ka)) as [->|N]; [right; exact F1|left; apply O1, N]. }
  assert (Nb1 : lookup_gid s1 db = None) by (eapply still_new; [exact L1|exact B1|exact B2| |exact B6|exact E1]; congruence).
  assert (Nc1 : lookup_gid s1 dc = None) by (eapply still_new; [exact L1|exact C1|exact C2| |exact C6|exact E1]; congruence).
  destruct (new_place multi s1 db vb s2 L1 J1 V1 B1 B2 B3 B4 B5 Nb1 R2) as (kb & L2 & J2 & V2 & K2 & P2 & T2 & F2 & _ & X2 & O2).
  assert (E2 : forall r, field s2 r = field s1 r \/ field s2 r = Some (db, pay vb)).
  { intros r. destruct (ref_eq_dec r (RL kb)) as [->|N]; [right; exact F2|left; apply O2, N]. }
  assert (Nc2 : lookup_gid s2 dc = None) by (eapply still_new; [exact L2|exact C1|exact C2| |exact Nc1|exact E2]; congruence).
  destruct (new_place multi s2 dc vc s3 L2 J2 V2 C1 C2 C3 C4 C5 Nc2 R3) as (kc & L3 & J3 & V3 & K3 & P3 & T3 & F3 & _ & X3 & O3).
  pose proof (live_of_field _ _ _ F1) as La1.
  assert (Nk : RL ka <> RL kb) by (intros E; apply X2; rewrite <- E; exact La1).
  destruct (O2 _ Nk) as [Fa2 Ra2]. rewrite F1 in Fa2. pose proof (live_of_field _ _ _ Fa2) as La2.
  assert (Nk3 : RL ka <> RL kc) by (intros E; apply X3; rewrite <- E; exact La2).
  destruct (O3 _ Nk3) as [Fa3 Ra3]. rewrite Fa2 in Fa3. specialize (Ra2 La1). specialize (Ra3 La2). destruct (field_desc _ _ _ _ Fa3) as [Hl3 Hg3].
  destruct (field_desc _ _ _ _ F1) as [_ Hg1]. destruct (field_desc _ _ _ _ F3) as [Hlc Hgc]. destruct (lived_inv multi s3 L3) as [_ U3].
  assert (Ea : loose_at s1 ka = addr s1 ka) by (unfold loose_at, egenus; rewrite Hg1, A5; reflexivity).
  assert (Ea3 : loose_at s3 ka = addr s3 ka) by (unfold loose_at, egenus; rewrite Hg3, A5; reflexivity).
  assert (Ec3 : loose_at s3 kc = addr s3 kc) by (unfold loose_at, egenus; rewrite Hgc, C5; reflexivity).
  cbn [raddr] in *. change (raddr s3 (RL ka)) with (addr s3 ka) in *. change (raddr s2 (RL ka)) with (addr s2 ka) in *. change (raddr s1 (RL ka)) with (addr s1 ka) in *.
  exists ka, kc. split; [exact L3|]. split; [apply (only_pos multi); assumption|]. split; [exact K3|]. split; [lia|]. split; [lia|]. split; [congruence|]. split; [lia|].
  split; eapply value_of_field; eassumption.
Qed.

(** In any tuple without holes, of any history, wherever it lies: of two new wide fields with a field of one unit set
    between them one cannot be read.  (Only a tuple that begins at a multiple of four bytes is asked for.) *)
Theorem C92_two_wide_refuted : forall multi base s da db dc va vb vc s', lived multi s -> jc s = 0 -> jv s = 0 -> base mod 4 = 0 ->
  newcomer multi s da va -> newcomer multi s db vb -> newcomer multi s dc vc -> NoDup [da; db; dc] ->
  value_align (descriptor2genus da) = 8 -> value_align (descriptor2genus dc) = 8 -> loose_units (descriptor2genus da) mod 2 = 0 -> loose_units (descriptor2genus db) mod 2 = 1 ->
  stored s [OSet da true va; OSet db true vb; OSet dc true vc] = Some s' ->
  get s' (KL da) = Some (pay va) /\ get s' (KL dc) = Some (pay vc) /\
  (typed_get base s' da = TMisaligned /\ typed_get base s' dc = TValue (pay vc) \/ typed_get base s' da = TValue (pay va) /\ typed_get base s' dc = TMisaligned).
Proof.
  intros multi base s da db dc va vb vc s' Lv J V B Na Nb Nc ND Aa Ac Ea Eb H. pose proof (n_fixed _ _ _ _ Na) as Fa. pose proof (n_fixed _ _ _ _ Nc) as Fc.
  destruct (three_places multi s da db dc va vb vc s' Lv J V Na Nb Nc ND H) as (ka & kc & L & Ka & Kc & Pa & _ & _ & Pc & Va & Vc).
  cbn [get]. unfold get_loose. rewrite Ka, Kc, Fa, Fc, Va, Vc. split; [reflexivity|]. split; [reflexivity|].
  unfold typed_get. rewrite Ka, Kc, Aa, Ac, Pa, Pc, Va, Vc. unfold suits, address, area_offset.
  destruct ((base + 40 + 4 * tail s) mod 8 =? 0) eqn:Q; destruct ((base + 40 + 4 * (tail s + loose_units (descriptor2genus da) + loose_units (descriptor2genus db))) mod 8 =? 0) eqn:Q2; auto; exfalso; lia.
Qed.
(** Read as 128-bit numbers, not both of two such fields can be read. *)
Theorem C92_two_numbers_refuted : forall multi base s i j db va vb vc s', lived multi s -> jc s = 0 -> jv s = 0 ->
  newcomer multi s (g_bin128 * 2048 + i) va -> newcomer multi s db vb -> newcomer multi s (g_bin128 * 2048 + j) vc -> NoDup [g_bin128 * 2048 + i; db; g_bin128 * 2048 + j] ->
  0 <= i < 2048 -> loose_units (descriptor2genus db) mod 4 <> 0 ->
  stored s [OSet (g_bin128 * 2048 + i) true va; OSet db true vb; OSet (g_bin128 * 2048 + j) true vc] = Some s' ->
  get_int128 base s' i = TMisaligned \/ get_int128 base s' j = TMisaligned.
Proof.
  intros multi base s i j db va vb vc s' Lv J V Na Nb Nc ND I Eb H.
  destruct (three_places multi s _ db _ va vb vc s' Lv J V Na Nb Nc ND H) as (ka & kc & L & Ka & Kc & _ & Pa & Ec & Pc & Va & Vc).
  unfold get_int128. rewrite Ka, Kc, Pa, Ec, Pc. unfold suits, address, area_offset, int128_align.
  replace (loose_units (descriptor2genus (g_bin128 * 2048 + i))) with 4.
  2:{ rewrite descriptor2genus_arith. change g_bin128 with 18. replace ((18 * 2048 + i) / 2 ^ 11) with 18 by lia. reflexivity. }
  destruct ((base + 40 + 4 * tail s) mod 16 =? 0) eqn:Q; [|auto]. replace ((base + 40 + 4 * (tail s + 4 + loose_units (descriptor2genus db))) mod 16 =? 0) with false by lia. auto.
Qed.

(** ** Preplaced fields *)
(** Every field defined with the type alone lies so that it can be read if four bytes suffice its type, in every
    tuple of the schema at a multiple of four *)
Theorem C92_preplaced_narrow : forall ds s log n t base v m, Forall wf_def ds -> Forall tame ds -> definitions empty_schema ds = Some (s, log) -> In (n, t) log ->
  is_preplaced t = true -> base mod 4 = 0 -> value_align (tag2genus t) <> 8 -> forall disc,
  typed_pre base v (tag2genus t) disc m (tag2offset t) = PRead (fixed_get (tag2genus t) disc m (tag2offset t)).
Proof.
  intros ds s log n t base v m W TM H I P B N disc. pose proof (tame_token ds s log n t W TM H I) as R. destruct (R P) as [G|(G & Sz & Al)].
  - unfold typed_pre, pre_suits. rewrite G. change (value_align g_hole) with 1. unfold suits. rewrite Z.mod_1_r. reflexivity.
  - unfold typed_pre. replace (pre_suits _ _ _ _) with true; [reflexivity|]. unfold pre_suits.
    assert (D : (value_align (tag2genus t) | width_align (tag2genus t))).
    { assert (C : forallb (fun n => let g := Z.of_nat n in (value_align g =? 8) || (width_align g mod value_align g =? 0)) (seq 0 31) = true) by (vm_compute; reflexivity).
      rewrite forallb_forall in C. specialize (C (Z.to_nat (tag2genus t)) ltac:(apply in_seq; lia)). cbv beta zeta in C. rewrite Z2Nat.id in C by lia.
      apply Z.mod_divide; [pose proof (align_pos (tag2genus t)); lia|lia]. }
    assert (Al2 : tag2offset t mod value_align (tag2genus t) = 0).
    { apply Z.mod_divide; [pose proof (align_pos (tag2genus t)); lia|]. eapply Z.divide_trans; [exact D|]. apply Z.mod_divide; [|exact Al].
      intros Z0. rewrite Z0 in D. destruct D as [q D]. unfold width_align in Z0. pose proof (preplaced_bytes_bound (tag2genus t)).
      assert (C : forallb (fun n => 1 <=? preplaced_bytes (Z.of_nat n)) (seq 0 31) = true) by (vm_compute; reflexivity).
      rewrite forallb_forall in C. specialize (C (Z.to_nat (tag2genus t)) ltac:(apply in_seq; lia)). cbv beta in C. rewrite Z2Nat.id in C by lia. destruct (_ >? 4); lia. }
    clear D Al R. by_align (tag2genus t); [lia|lia|lia|congruence].
Qed.
(** A wide one can be read in a tuple made for [n] further fields exactly when it cannot in one made for [n + 1]. *)
Theorem C92_items_refuted : forall base g disc m off size1 size2 n l d1 d2 s1 s2, base mod 8 = 0 -> off mod 4 = 0 -> value_align g = 8 ->
  construct size1 n l d1 = Some s1 -> construct size2 (n + 1) l d2 = Some s2 ->
  (typed_pre base s1 g disc m off = PMisaligned <-> typed_pre base s2 g disc m off = PRead (fixed_get g disc m off)) /\
  (typed_pre base s2 g disc m off = PMisaligned <-> typed_pre base s1 g disc m off = PRead (fixed_get g disc m off)).
Proof.
  intros base g disc m off size1 size2 n l d1 d2 s1 s2 B O A C1 C2.
  assert (P : forall size items d s, construct size items l d = Some s -> pivot s = items).
  { intros size items d s. unfold construct. destruct (estimate _ _ _ _); [|discriminate]. destruct (_ || _); [discriminate|]. intros [= <-]. reflexivity. }
  unfold typed_pre, pre_suits, suits, pre_address, address, area_offset. rewrite A, (P _ _ _ _ C1), (P _ _ _ _ C2).
  destruct ((base + 40 + 4 * n + off) mod 8 =? 0) eqn:Q1; destruct ((base + 40 + 4 * (n + 1) + off) mod 8 =? 0) eqn:Q2; try (exfalso; lia); split; split; congruence.
Qed.
(** A wide field, one of four bytes and a wide one, defined one after another in any schema: in no tuple of this schema,
    wherever it lies and whatever it was made for, both wide ones can be read. *)
Theorem C92_schema_refuted : forall s na nb nc ga gb gc da db dc sa sb sc ia ib ic ta tb tc s1 s2 s3, 0 <= ga <= 31 -> 0 <= gb <= 31 -> 0 <= gc <= 31 ->
  value_align ga = 8 -> preplaced_bytes ga = 8 -> preplaced_bytes gb = 4 -> value_align gc = 8 ->
  define_preplaced s na ga da sa ia = Defined ta s1 -> define_preplaced s1 nb gb db sb ib = Defined tb s2 -> define_preplaced s2 nc gc dc sc ic = Defined tc s3 ->
  tag2offset tc = tag2offset ta + 12 /\
  forall base v m disc, typed_pre base v ga disc m (tag2offset ta) = PMisaligned \/ typed_pre base v gc disc m (tag2offset tc) = PMisaligned.
Proof.
  intros s na nb nc ga gb gc da db dc sa sb sc ia ib ic ta tb tc s1 s2 s3 Ga Gb Gc Aa Pa Pb Ac D1 D2 D3.
  pose proof (preplaced_end _ _ _ _ _ _ _ _ Ga D1) as (O1 & E1). pose proof (preplaced_end _ _ _ _ _ _ _ _ Gb D2) as (O2 & E2). pose proof (preplaced_end _ _ _ _ _ _ _ _ Gc D3) as (O3 & _).
  assert (Wa : width_align ga = 4) by (unfold width_align; rewrite Pa; reflexivity). assert (Wb : width_align gb = 4) by (unfold width_align; rewrite Pb; reflexivity).
  assert (Wc : width_align gc = 4).
  { apply align8 in Ac. cbn [In] in Ac. intuition subst; reflexivity. }
  rewrite Wa in O1. rewrite Wb in O2. rewrite Wc in O3. pose proof (aligned4 (bytes_of s) ltac:(unfold bytes_of; apply zlen_nonneg)) as [M1 _].
  assert (A4 : forall u, 0 <= u -> u mod 4 = 0 -> aligned u 4 = u).
  { intros u U Mu. pose proof (aligned4 u U). pose proof (aligned_ge u 4 ltac:(lia)). lia. }
  assert (Nn : 0 <= tag2offset ta) by (pose proof (aligned_ge (bytes_of s) 4 ltac:(lia)); pose proof (zlen_nonneg (image s)); unfold bytes_of in *; lia).
  rewrite E1, A4 in O2 by lia. rewrite E2, A4 in O3 by lia. split; [lia|]. intros base v m disc. unfold typed_pre, pre_suits, suits, pre_address, address, area_offset. rewrite Aa, Ac.
  replace (tag2offset tc) with (tag2offset ta + 12) by lia.
  destruct ((base + 40 + 4 * pivot v + tag2offset ta) mod 8 =? 0) eqn:Q; [|auto]. replace ((base + 40 + 4 * pivot v + (tag2offset ta + 12)) mod 8 =? 0) with false by lia. auto.
Qed.

(** ** What moves fields *)
(** A managed tuple makes room by moving the border between index and data: an odd distance turns readable wide
    fields into unreadable ones and the other way round, all of them at once *)
Theorem C92_border : forall base s d desc k, base mod 4 = 0 -> value_align (descriptor2genus desc) = 8 -> lookup_gid s desc = Some k ->
  lookup_gid (shift_tuple s d) desc = Some k /\ loose_at (shift_tuple s d) k = loose_at s k + d /\
  (typed_get base (shift_tuple s d) desc = TMisaligned <-> if Z.even d then typed_get base s desc = TMisaligned else typed_get base s desc <> TMisaligned).
Proof.
  intros base s d desc k B A L. assert (L' : lookup_gid (shift_tuple s d) desc = Some k) by exact L. split; [exact L'|].
  assert (E : loose_at (shift_tuple s d) k = loose_at s k + d) by (unfold loose_at, addr, own; cbn; destruct (is_inplaced_genus _); lia). split; [exact E|].
  unfold typed_get. rewrite L, L', A, E. unfold suits, address, area_offset. rewrite Zeven_mod. unfold Zeq_bool.
  destruct (Z.compare_spec (d mod 2) 0); destruct ((base + 40 + 4 * loose_at s k) mod 8 =? 0) eqn:Q1; destruct ((base + 40 + 4 * (loose_at s k + d)) mod 8 =? 0) eqn:Q2; try (exfalso; lia);
    split; intros; congruence || (intros; discriminate) || auto.
Qed.
Definition squeezed : st := final (new_tuple 13 2) [OSet (fd g_u64 2) true (blob 2 7); OSet (fd g_u64 6) true (blob 2 8)].
Theorem C92_managed_refuted : exists s o s', lived odd_multi s /\ in_place odd_multi srt_chunks s o /\ retry 2 (manage srt_chunks none_lent true no_lay zeros) s o = Some (true, s') /\
  typed_get 4096 s (fd g_u64 2) = TValue [7; 7] /\ get s' (KL (fd g_u64 2)) = Some [7; 7] /\ typed_get 4096 s' (fd g_u64 2) = TMisaligned.
Proof.
  assert (Q : match retry 2 (manage srt_chunks none_lent true no_lay zeros) squeezed (OSet (fd g_u64 4) true (blob 2 9)) with
    | Some (true, s') => get s' (KL (fd g_u64 2)) = Some [7; 7] /\ typed_get 4096 s' (fd g_u64 2) = TMisaligned | _ => False end) by (vm_compute; split; reflexivity).
  destruct (retry 2 _ squeezed _) as [[[|] s']|] eqn:E; try contradiction. exists squeezed, (OSet (fd g_u64 4) true (blob 2 9)), s'.
  split; [apply l_reached; unfold squeezed; now_reach|]. split; [|split; [exact E|split; [vm_compute; reflexivity|exact Q]]].
  constructor; [apply validb_ok; vm_compute; reflexivity|vm_compute; reflexivity|vm_compute; reflexivity|vm_compute; exact I|apply by_insertion_sorter|apply settled_dec; vm_compute; reflexivity|vm_compute; discriminate].
Qed.
(** compaction, too: the readable and the unreadable wide field change their roles *)
Definition loosened : st := final (new_tuple 60 6) [OSet (fd g_u32 2) true (blob 1 5); OSet (fd g_u64 4) true (blob 2 9); OSet (fd g_u32 6) true (blob 1 5); OSet (fd g_u64 8) true (blob 2 7); ORemove (fd g_u32 2)].
Theorem C92_compacted_refuted : exists s, lived odd_multi s /\ settled s /\ typed_get 4096 s (fd g_u64 8) = TValue [7; 7] /\ typed_get 4096 s (fd g_u64 4) = TMisaligned /\
  typed_get 4096 (compactify srt_chunks s) (fd g_u64 8) = TMisaligned /\ typed_get 4096 (compactify srt_chunks s) (fd g_u64 4) = TValue [9; 9].
Proof.
  exists loosened. split; [apply l_reached; unfold loosened; now_reach|]. split; [apply settled_dec; vm_compute; reflexivity|]. repeat split; vm_compute; reflexivity.
Qed.
(** The serialised form is made inside of the buffer, where every field can be read as before. *)
Theorem C92_serialised : forall base s desc, typed_get_ro (asis_ptr (base + area_offset) s) s desc = typed_get base s desc.
Proof.
  intros base s desc. unfold typed_get_ro, typed_get, ro_address, asis_ptr, address. destruct (lookup_gid s desc) as [k|]; [|reflexivity].
  replace (base + area_offset + 4 * (head s - 1) + 4 * (loose_at s k - (head s - 1))) with (base + area_offset + 4 * loose_at s k) by lia. reflexivity.
Qed.
(** A copy of it in a buffer of its own, aligned as well as the first: with an even number of units before the index
    exactly the other wide fields can be read. *)
Theorem C92_copied_refuted : forall base ptr s desc k, base mod 8 = 0 -> ptr mod 8 = 0 -> value_align (descriptor2genus desc) = 8 -> lookup_gid s desc = Some k ->
  (typed_get_ro ptr s desc = TMisaligned <-> if Z.odd (head s) then typed_get base s desc = TMisaligned else typed_get base s desc <> TMisaligned).
Proof.
  intros base ptr s desc k B P A L. unfold typed_get_ro, typed_get. rewrite L, A. unfold suits, ro_address, address, area_offset. generalize (loose_at s k) (head s). intros x h.
  rewrite Zodd_mod. unfold Zeq_bool.
  destruct (Z.compare_spec (h mod 2) 1); destruct ((base + 40 + 4 * x) mod 8 =? 0) eqn:Q1; destruct ((ptr + 4 * (x - (h - 1))) mod 8 =? 0) eqn:Q2; try (exfalso; lia);
    split; intros; congruence || (intros; discriminate) || auto.
Qed.

(** ** Addresses nobody checks *)
(** fptu_init() takes every buffer; at an odd address no field with a type of more than eight bits can be read, and at
    one that is twice an odd number none of more than sixteen bits, whatever is done later. *)
Theorem C92_buffer_refuted : forall buf, buf <> 0 ->
  (forall size items d, fptu_init buf size items d = construct size items no_layout d) /\
  (forall s desc k, lookup_gid s desc = Some k -> buf mod 2 = 1 -> value_align (descriptor2genus desc) <> 1 -> typed_get buf s desc = TMisaligned) /\
  (forall s desc k, lookup_gid s desc = Some k -> buf mod 4 = 2 -> value_align (descriptor2genus desc) > 2 -> typed_get buf s desc = TMisaligned).
Proof.
  intros buf N. split; [|split].
  - intros size items d. unfold fptu_init. replace (buf =? 0) with false by lia. reflexivity.
  - intros s desc k L O A. unfold typed_get. rewrite L. generalize (loose_at s k). intros x. replace (suits _ _) with false; [reflexivity|].
    by_align (descriptor2genus desc); [congruence|lia|lia|lia].
  - intros s desc k L O A. unfold typed_get. rewrite L. generalize (loose_at s k). intros x. replace (suits _ _) with false; [reflexivity|].
    by_align (descriptor2genus desc); [lia|lia|lia|lia].
Qed.
(** The validator accepts the serialised form of a tuple at every address, so at odd ones as well, where none of these
    fields can be read. *)
Theorem C92_accepted_refuted : forall multi s schema A desc k, reached multi s -> distinct_slots s -> schema_of s schema ->
  Z.of_nat (cnt s) + Z.of_nat (nslots s) <= max_fields -> tail s - head s + 1 <= 65534 -> A mod 2 = 1 ->
  lookup_gid s desc = Some k -> value_align (descriptor2genus desc) <> 1 ->
  snd (ro_audit (asis_mem A s) (asis_ptr A s) (asis_bytes s) schema) = Good (sumn (cnt s) (hcount s), sumn (cnt s) (hvol s)) /\
  typed_get_ro (asis_ptr A s) s desc = TMisaligned.
Proof.
  intros multi s schema A desc k R DS SO Few Big O L V. split.
  - apply (proj1 (C10_accepted_partial multi s schema A R DS SO Few)); [exact Big|]. unfold asis_ptr. lia.
  - unfold typed_get_ro. rewrite L. unfold ro_address, asis_ptr. generalize (loose_at s k) (head s). intros x h. replace (suits _ _) with false; [reflexivity|].
    by_align (descriptor2genus desc); [congruence|lia|lia|lia].
Qed.
(** An imported token with an odd offset is taken, and its field cannot be read in any tuple at an even address. *)
Theorem C92_imported_refuted : exists ds t, Forall wf_def ds /\ definitions empty_schema ds <> None /\ (exists s, definitions empty_schema ds = Some (s, [([97], t)])) /\
  is_preplaced t = true /\ tag2genus t = g_u32 /\ forall base v disc m, base mod 2 = 0 -> typed_pre base v g_u32 disc m (tag2offset t) = PMisaligned.
Proof.
  exists [DImport [97] (tag_from_offset 1 g_u32 4 false false) None false], (tag_from_offset 1 g_u32 4 false false).
  split; [repeat constructor; vm_compute; congruence|]. split; [vm_compute; discriminate|]. split; [eexists; vm_compute; reflexivity|]. split; [reflexivity|]. split; [reflexivity|].
  intros base v disc m E. unfold typed_pre, pre_suits, suits, pre_address, address, area_offset. change (value_align g_u32) with 4. change (tag2offset (tag_from_offset 1 g_u32 4 false false)) with 1.
  replace ((base + 40 + 4 * pivot v + 1) mod 4 =? 0) with false by lia. reflexivity.
Qed.

(** ** Tuples in which every wide field can be read *)
(** nothing but new or overwritten fields with an even number of units, in a tuple whose data begin at an even unit *)
Definition even_set (multi : Z -> bool) (o : op) : Prop :=
  match o with OSet desc true v => real_desc desc /\ multi desc = false /\ wf_pay (descriptor2genus desc) (pay v) /\ fixed_genus (descriptor2genus desc) = true /\ loose_units (descriptor2genus desc) mod 2 = 0 | _ => False end.
Definition even_places (s : st) : Prop := jc s = 0 /\ jv s = 0 /\ Z.even (tail s) = true /\ forall k, live s (RL k) -> is_inplaced_genus (egenus (idx s k)) = false -> Z.even (addr s k) = true.
Lemma live_either s r : live s r \/ ~ live s r.
Proof. destruct (liveb s r) eqn:E; [left; apply liveb_iff; exact E|right; intros L; apply liveb_iff in L; congruence]. Qed.
Lemma even_step multi s o : lived multi s -> even_places s -> even_set multi o ->
  match run1 asis s o with Ok _ s' => lived multi s' /\ even_places s' | Throw s' => s' = s | Bad => False end.
Proof.
  intros Lv (J & V & Et & Ep) H. destruct o as [desc disc v| | | | | |]; cbn [even_set] in H; try contradiction. destruct disc; [|contradiction]. destruct H as (D & M & W & Fx & Ev).
  destruct (lived_inv multi s Lv) as [T U]. assert (Vo : valid multi s (OSet desc true v)) by (cbn [valid]; auto).
  destruct (adds_calm multi s (OSet desc true v) T Vo) as [C Q0]; [cbn [adds andb]; exact Fx|exact J|exact V|].
  pose proof (set_step s desc true v T D W C) as Q. destruct (run1 asis s (OSet desc true v)) as [[] s'|s'|] eqn:R; [|apply Q|exact Q]. destruct Q0 as [J' V']. destruct Q as [T' Q].
  assert (Lv' : lived multi s').
  { apply (l_calls multi s [OSet desc true v] [true] s' Lv); [cbn [calm_run]; rewrite R; auto|]. cbn [run]. rewrite R. reflexivity. }
  split; [exact Lv'|].
  assert (Fr : forall i k, i <> k -> field s' (RL i) = field s (RL i) -> addr s' i = addr s i \/ ~ live s (RL i) -> live s' (RL i) -> is_inplaced_genus (egenus (idx s' i)) = false -> Z.even (addr s' i) = true).
  { intros i k N Fi Ai Li Gi. rewrite (field_live _ _ Li) in Fi. symmetry in Fi. pose proof (live_of_field _ _ _ Fi) as Li0. destruct (field_desc _ _ _ _ Fi) as [_ G0]. cbn [rdesc] in G0.
    destruct Ai as [->|Ai]; [|contradiction]. apply Ep; [exact Li0|]. unfold egenus in *. rewrite G0. exact Gi. }
  destruct (lookup_gid s desc) as [k|] eqn:Lk.
  - pose proof (set_fixed_place s desc true v k s' Lk Fx eq_refl R) as ->. destruct (lookup_some _ _ _ D Lk) as [Hl Hg]. unfold write_fixed in *. destruct (is_inplaced_genus (egenus (idx s k))) eqn:Ip.
    + split; [exact J|]. split; [exact V|]. split; [exact Et|]. intros i Li Gi. unfold addr, own, egenus in *. cbn in *. unfold fupd in *. destruct (Nat.eqb i k) eqn:Ei.
      * cbn [gid] in Gi. congruence.
      * apply Ep; [|exact Gi]. destruct Li as [Li1 Li2]. split; assumption.
    + split; [exact J|]. split; [exact V|]. split; [exact Et|]. exact Ep.
  - destruct (is_inplaced_genus (descriptor2genus desc)) eqn:Ip.
    + assert (X : exact_step s s' 0).
      { pose proof (adding_exact multi s (OSet desc true v) s') as X. cbn [valid_new adding storing op_units] in X. unfold stores, new_units in X. rewrite Fx in X. cbn [negb andb] in X.
        replace (loose_units (descriptor2genus desc)) with 0 in X by (symmetry; apply (proj1 (inplaced_units _ Ip))). apply X; auto. }
      split; [exact J'|]. split; [exact V'|]. split; [rewrite (x_tail _ _ _ X), Z.add_0_r; exact Et|]. intros i Li Gi.
      inversion Q as [St Lk0 E0|k s0 St Lk0 Nl Ef E0|k s0 St Lk0 Ef E0|k s0 St Lk0 Ef E0|k s0 St Lk0 Fx0 Ef E0]; subst; try congruence.
      * unfold stores in St. rewrite Fx in St. discriminate.
      * destruct (Nat.eq_dec i k) as [->|N]; [destruct (field_desc s' k desc _ (e_field _ _ _ _ Ef)) as [_ Hg]; unfold egenus in Gi; congruence|].
        assert (N' : RL i <> RL k) by congruence. apply (Fr i k N); [apply Ef; exact N'| |exact Li|exact Gi].
        destruct (live_either s (RL i)) as [Ld|Ld]; [left|right; exact Ld]. apply (e_place _ _ _ _ Ef _ N' Ld).
    + destruct (new_place multi s desc v s' Lv J V D M W Fx Ip Lk R) as (k & _ & _ & _ & _ & P & Tl & F & _ & _ & O).
      split; [exact J'|]. split; [exact V'|]. split; [rewrite Tl, Z.even_add, Et; rewrite Zeven_mod, Ev; reflexivity|]. intros i Li Gi.
      destruct (Nat.eq_dec i k) as [->|N].
      * unfold loose_at in P. rewrite Gi in P. rewrite P. exact Et.
      * assert (N' : RL i <> RL k) by congruence. destruct (O _ N') as [Fi Ai]. apply (Fr i k N Fi); [|exact Li|exact Gi].
        destruct (live_either s (RL i)) as [Ld|Ld]; [left; apply (Ai Ld)|right; exact Ld].
Qed.
Lemma even_run multi l : forall s outs s', lived multi s -> even_places s -> Forall (even_set multi) l -> run asis s l = Some (outs, s') -> lived multi s' /\ even_places s'.
Proof.
  induction l as [|o l IH]; intros s outs s' Lv E F R; cbn [run] in R; [injection R as _ <-; auto|]. apply Forall_cons_iff in F. destruct F as [F Fl].
  pose proof (even_step multi s o Lv E F) as St. destruct (run1 asis s o) as [[] s1|s1|]; [| |contradiction].
  - destruct (run asis s1 l) as [[o2 s2]|] eqn:R2; [|discriminate]. injection R as _ <-. eapply IH; [apply St|apply St|exact Fl|exact R2].
  - subst s1. destruct (run asis s l) as [[o2 s2]|] eqn:R2; [|discriminate]. injection R as _ <-. eapply IH; eassumption.
Qed.
(** In a tuple whose data begin at an even unit and which is only given fields with an even number of units, failed calls
    included, every field can be read.  Missing for the full property: everything else. *)
Theorem C92_even_partial : forall multi units pvt ppu ns so ty d l outs s' base, fresh_ok units pvt ppu ns so ty -> Z.even (pvt + ppu) = true -> base mod 8 = 0 ->
  Forall (even_set multi) l -> run asis (fresh units pvt ppu ns so ty d) l = Some (outs, s') ->
  forall desc, real_desc desc -> typed_get base s' desc = match lookup_gid s' desc with Some k => TValue (value s' (RL k)) | None => TAbsent end.
Proof.
  intros multi units pvt ppu ns so ty d l outs s' base Ok0 Ev B F R desc D. set (s0 := fresh units pvt ppu ns so ty d) in *.
  assert (L0 : lived multi s0) by (apply l_reached; exists units, pvt, ppu, ns, so, ty, d, [], []; split; [exact Ok0|]; split; [exact I|reflexivity]).
  assert (E0 : even_places s0) by (split; [reflexivity|]; split; [reflexivity|]; split; [exact Ev|]; intros k [K _]; cbn in K; lia).
  destruct (even_run multi l s0 outs s' L0 E0 F R) as (L & _ & _ & _ & Ep).
  destruct (Z.eq_dec (value_align (descriptor2genus desc)) 8) as [A|A]; [|apply C92_narrow; [lia|exact A]].
  destruct (lookup_gid s' desc) as [k|] eqn:Lk; [|unfold typed_get; rewrite Lk; reflexivity]. rewrite (C92_wide base s' desc k B A Lk).
  destruct (lookup_some _ _ _ D Lk) as [Hl Hg].
  assert (Ip : is_inplaced_genus (egenus (idx s' k)) = false).
  { unfold egenus. rewrite Hg. apply align8 in A. cbn [In] in A. repeat (destruct A as [<-|A]; [reflexivity|]). destruct A. }
  unfold loose_at. rewrite Ip, (Ep k Hl Ip). reflexivity.
Qed.

(** ** Non-vacuity *)
Definition roomy : st := final (new_tuple 60 6) [OSet (fd g_u32 2) true (blob 1 5); OSet (fd g_ip 2) true (blob 4 1); OSet (fd g_i16 2) true (mkV false [77])].
Example C92_wide_case : lived odd_multi roomy /\ map (fun b => (typed_get b roomy (fd g_u32 2), typed_get b roomy (fd g_ip 2), typed_get b roomy (fd g_i16 2))) [4096; 4100; 4098; 4097] =
  [(TValue [5], TMisaligned, TValue [77]); (TValue [5], TValue [1; 1; 1; 1], TValue [77]); (TMisaligned, TMisaligned, TValue [77]); (TMisaligned, TMisaligned, TMisaligned)].
Proof. split; [apply l_reached; unfold roomy; now_reach|vm_compute; reflexivity]. Qed.
Example C92_reference_case : by_reference g_ip = true /\ refer roomy (fd g_ip 2) true = Some (InTuple 7 4) /\ map (fun b => reference_suits b g_ip (InTuple 7 4)) [4096; 4100] = [false; true].
Proof. repeat split; vm_compute; reflexivity. Qed.
Ltac newcomer := constructor; [apply real_descb_ok; vm_compute; reflexivity|vm_compute; reflexivity|vm_compute; reflexivity|reflexivity|reflexivity|vm_compute; reflexivity].
Example C92_two_wide_case : lived odd_multi roomy /\ jc roomy = 0 /\ jv roomy = 0 /\ newcomer odd_multi roomy (fd g_u64 2) (blob 2 7) /\ newcomer odd_multi roomy (fd g_f32 2) (blob 1 3) /\
  newcomer odd_multi roomy (fd g_f64 2) (blob 2 8) /\ NoDup [fd g_u64 2; fd g_f32 2; fd g_f64 2] /\
  match stored roomy [OSet (fd g_u64 2) true (blob 2 7); OSet (fd g_f32 2) true (blob 1 3); OSet (fd g_f64 2) true (blob 2 8)] with
  | Some s => map (fun b => (typed_get b s (fd g_u64 2), typed_get b s (fd g_f64 2))) [4096; 4100] = [(TMisaligned, TValue [8; 8]); (TValue [7; 7], TMisaligned)]
  | None => False end.
Proof.
  split; [apply C92_wide_case|]. split; [reflexivity|]. split; [reflexivity|]. split; [newcomer|]. split; [newcomer|]. split; [newcomer|].
  split; [repeat constructor; cbn; intuition discriminate|vm_compute; reflexivity].
Qed.
Example C92_two_numbers_case : newcomer odd_multi roomy (g_bin128 * 2048 + 2) (blob 4 7) /\ newcomer odd_multi roomy (g_bin128 * 2048 + 4) (blob 4 8) /\
  match stored roomy [OSet (g_bin128 * 2048 + 2) true (blob 4 7); OSet (fd g_f32 2) true (blob 1 3); OSet (g_bin128 * 2048 + 4) true (blob 4 8)] with
  | Some s => map (fun b => (get_int128 b s 2, get_int128 b s 4)) [4096; 4108; 4104] =
      [(TMisaligned, TMisaligned); (TValue [7; 7; 7; 7], TMisaligned); (TMisaligned, TValue [8; 8; 8; 8])]
  | None => False end.
Proof. split; [newcomer|]. split; [newcomer|]. vm_compute. reflexivity. Qed.
Example C92_schema_case :
  match definitions empty_schema [DPreplaced [97] g_u64 false false None; DPreplaced [98] g_u32 false false None; DPreplaced [99] g_f64 false false None; DPreplaced [100] g_i16 false false None] with
  | Some (s, log) => map (fun p => tag2offset (snd p)) log = [0; 8; 12; 20] /\
      match construct 400 3 (mkL (bytes_of s) 0 no_slots no_slots) zeros, construct 400 4 (mkL (bytes_of s) 0 no_slots no_slots) zeros with
      | Some a, Some b => map (fun off => (pre_suits 4096 a off g_u64, pre_suits 4096 b off g_u64)) [0; 12] = [(false, true); (true, false)] /\
          pre_suits 4096 a 8 g_u32 = true /\ pre_suits 4096 a 20 g_i16 = true
      | _, _ => False end
  | None => False end.
Proof. vm_compute. repeat split. Qed.
Example C92_copied_case : lived odd_multi roomy /\ head roomy = 3 /\ typed_get 4096 roomy (fd g_ip 2) = TMisaligned /\ typed_get_ro 8192 roomy (fd g_ip 2) = TMisaligned /\
  let s := final roomy [OSet (fd g_i16 4) true (mkV false [78])] in head s = 2 /\ typed_get 4096 s (fd g_ip 2) = TMisaligned /\ typed_get_ro 8192 s (fd g_ip 2) = TValue [1; 1; 1; 1].
Proof. split; [apply C92_wide_case|]. vm_compute. repeat split. Qed.
Example C92_border_case : lookup_gid squeezed (fd g_u64 2) = Some 0%nat /\ border_shift squeezed 1 2 = 3 /\ typed_get 4096 (shift_tuple squeezed 3) (fd g_u64 2) = TMisaligned.
Proof. repeat split; vm_compute; reflexivity. Qed.
Example C92_buffer_case : match fptu_init 4097 400 6 zeros with Some s => typed_get 4097 (final s [OSet (fd g_u32 2) true (blob 1 5)]) (fd g_u32 2) = TMisaligned | None => False end.
Proof. vm_compute. reflexivity. Qed.
Example C92_accepted_case : reached odd_multi before9 /\ distinct_slots before9 /\ schema_of before9 schema9 /\ lookup_gid before9 (fd g_i64 6) = Some 2%nat /\ value_align g_i64 = 8 /\
  map (fun a => typed_get_ro (asis_ptr a before9) before9 (fd g_i64 6)) [4096; 4097; 4100] = [TMisaligned; TMisaligned; TValue [3; 3]].
Proof. pose proof C10_case as (A & B & C & _). split; [exact A|]. split; [exact B|]. split; [exact C|]. repeat split; vm_compute; reflexivity. Qed.
Definition evens : list op := [OSet (fd g_u64 2) true (blob 2 7); OSet (fd g_i16 2) true (mkV false [77]); OSet (fd g_ip 4) true (blob 4 1); OSet (fd g_u64 2) true (blob 2 8); OSet (fd g_f64 2) true (blob 2 9)].
Example C92_even_case : fresh_ok 60 6 0 0 no_slots no_slots /\ Forall (even_set odd_multi) evens /\
  match run asis (new_tuple 60 6) evens with Some (outs, s) => outs = repeat true 5 /\ map (typed_get 4096 s) [fd g_u64 2; fd g_ip 4; fd g_f64 2; fd g_i16 2; fd g_u32 2] =
    [TValue [8; 8]; TValue [1; 1; 1; 1]; TValue [9; 9]; TValue [77]; TAbsent] | None => False end.
Proof.
  split; [constructor; unfold no_slots; intros; lia|]. split; [|vm_compute; split; reflexivity].
  repeat constructor; cbn; try lia; try discriminate; try (exists 77; split; [reflexivity|lia]).
Qed.
Print Assumptions C92_narrow.
Print Assumptions C92_wide.
Print Assumptions C92_reference.
Print Assumptions C92_absent_reference.
Print Assumptions C92_two_wide_refuted.
Print Assumptions C92_two_numbers_refuted.
Print Assumptions C92_preplaced_narrow.
Print Assumptions C92_items_refuted.
Print Assumptions C92_schema_refuted.
Print Assumptions C92_border.
Print Assumptions C92_managed_refuted.
Print Assumptions C92_compacted_refuted.
Print Assumptions C92_serialised.
Print Assumptions C92_copied_refuted.
Print Assumptions C92_buffer_refuted.
Print Assumptions C92_accepted_refuted.
Print Assumptions C92_imported_refuted.
Print Assumptions C92_even_partial.
