(** * LegacyProofs: the C interface (proofs). *)
From Verif Require Import Base Tag TagProofs Codec CodecProofs Gear GearBase GearSearch GearProofs GearMerge GearAlloc
  GearRealloc GearResize GearAsis Tuple TupleMore TupleProofs TupleSteps TupleView TupleOps TupleHist TupleFacts Legacy.
From Coq Require Import ZifyBool ZifyNat Permutation.
Ltac Zify.zify_post_hook ::= Z.div_mod_to_equations.

(** ** Scans as counts *)
Definition ind (b : bool) : Z := if b then 1 else 0.
Lemma count_scan s column tf : forall n fuel r, (n < fuel)%nat ->
  count_loop fuel s column tf (fptu_first s n column tf) r = r + sumn n (fun i => ind (wanted column tf (idx s i))).
Proof.
  unfold fptu_first. induction n as [|n IH]; intros fuel r Hf; cbn [scan_down sumn].
  - destruct fuel; cbn [count_loop]; lia.
  - destruct (wanted column tf (idx s n)); cbn [ind].
    + destruct fuel as [|fuel]; [lia|]. cbn [count_loop]. unfold fptu_next, fptu_first. rewrite IH by lia. lia.
    + rewrite IH by lia. lia.
Qed.
Lemma count_scan_ex s f : forall n fuel r, (n < fuel)%nat ->
  count_ex_loop fuel s f (fptu_first_ex s n f) r = r + sumn n (fun i => ind (negb (is_hole (idx s i)) && f (idx s i))).
Proof.
  unfold fptu_first_ex. induction n as [|n IH]; intros fuel r Hf; cbn [scan_down sumn].
  - destruct fuel; cbn [count_ex_loop]; lia.
  - destruct (negb (is_hole (idx s n)) && f (idx s n)); cbn [ind].
    + destruct fuel as [|fuel]; [lia|]. cbn [count_ex_loop]. unfold fptu_first_ex. rewrite IH by lia. lia.
    + rewrite IH by lia. lia.
Qed.

(** the erasing scan, position by position *)
Fixpoint erase_if (s : st) (p : ent -> bool) (n : nat) (r : Z) : res Z :=
  match n with
  | O => Ok r s
  | S m => if p (idx s m) then bind (fptu_erase_field s m) (fun _ s => erase_if s p m (r + 1))
           else erase_if s p m r
  end.
Lemma erase_scan column tf : is_filter tf = true -> forall n fuel s r, (n < fuel)%nat ->
  erase_loop fuel s column tf (fptu_first s n column tf) r = erase_if s (wanted column tf) n r.
Proof.
  intros Ft. unfold fptu_first. induction n as [|n IH]; intros fuel s r Hf; cbn [scan_down erase_if].
  - destruct fuel; reflexivity.
  - destruct (wanted column tf (idx s n)).
    + destruct fuel as [|fuel]; [lia|]. cbn [erase_loop]. rewrite Ft. cbn [negb].
      destruct (fptu_erase_field s n) as [[] s1|s1|]; cbn [bind]; [|reflexivity|reflexivity].
      unfold fptu_next, fptu_first. apply IH. lia.
    + apply IH. lia.
Qed.

(** ** The conditions in plain arithmetic *)
Definition selected (column tf d : Z) : bool := (d mod 2048 =? column) && Z.testbit tf (d / 2048).

Lemma testbit_mask tf g : 0 <= g -> negb (Z.land tf (Z.shiftl 1 g) =? 0) = Z.testbit tf g.
Proof.
  intros Hg. rewrite Z.shiftl_1_l. destruct (Z.testbit tf g) eqn:E.
  - apply Bool.negb_true_iff. apply Z.eqb_neq. intros H.
    assert (X : Z.testbit (Z.land tf (2 ^ g)) g = true) by (rewrite Z.land_spec, E, Z.pow2_bits_true by lia; reflexivity).
    rewrite H, Z.bits_0 in X. discriminate.
  - apply Bool.negb_false_iff. apply Z.eqb_eq. apply Z.bits_inj'. intros i Hi. rewrite Z.land_spec, Z.bits_0.
    rewrite Z.pow2_bits_eqb by lia. destruct (g =? i) eqn:Eg; [|apply Bool.andb_false_r].
    replace i with g by lia. rewrite E. reflexivity.
Qed.
Lemma legacy_genus g : 0 <= g <= 31 -> tag2genus (genus2legacy g) = g.
Proof.
  intros H. assert (A : all_below 32 (fun g => tag2genus (genus2legacy g) =? g) = true) by (vm_compute; reflexivity).
  pose proof (all_below_spec _ _ A g ltac:(lia)) as X. cbv beta in X. lia.
Qed.
Lemma descriptor2id_mod d : 0 <= d -> descriptor2id d = d mod 2048.
Proof. intros H. unfold descriptor2id, id_mask. change 2047 with (Z.ones 11). rewrite Z.land_ones by lia. reflexivity. Qed.
Lemma descriptor2genus_div d : descriptor2genus d = d / 2048.
Proof. unfold descriptor2genus, genus_shift. rewrite Z.shiftr_div_pow2 by lia. reflexivity. Qed.

Lemma match_selected column tf e : 0 <= gid e < 65536 ->
  match_filter column tf e = negb (is_hole e) && selected column tf (gid e).
Proof.
  intros He. unfold match_filter, selected, colnum, legacy_type, fptu_filter_mask.
  rewrite descriptor2id_mod, descriptor2genus_div by lia.
  rewrite legacy_genus by lia. rewrite testbit_mask by lia. rewrite Bool.andb_assoc. reflexivity.
Qed.

(** ** Erasing by a condition *)
Fixpoint calm_if (s : st) (p : ent -> bool) (n : nat) : bool :=
  match n with
  | O => true
  | S m => if p (idx s m)
           then calm_free s m && match erase_loose s m with Ok _ s' => calm_if s' p m | _ => true end
           else calm_if s p m
  end.
Definition kept (sel : Z -> bool) (r : ref) (o : option (Z * list Z)) : option (Z * list Z) :=
  match o with
  | Some (d, p) => match r with RL _ => if sel d then None else Some (d, p) | RP _ => Some (d, p) end
  | None => None
  end.

Section Erase.
Variables (p : ent -> bool) (sel : Z -> bool).
Hypothesis p_hole : forall e, is_hole e = true -> p e = false.
Hypothesis p_gid : forall e e', gid e = gid e' -> p e = p e'.
Hypothesis p_sel : forall e, is_hole e = false -> 0 <= gid e < 65536 -> p e = sel (gid e).

Lemma live_gid s k : TInv s -> live s (RL k) -> 0 <= gid (idx s k) < 65536 /\ is_hole (idx s k) = false.
Proof.
  intros T [Kk Hk]. pose proof (i_ent _ _ _ _ _ _ (v_acc _ _ (t_inv _ T)) k Kk) as (_ & G & _). split; [lia|exact Hk].
Qed.

Lemma erase_if_step : forall n s r, TInv s ->
  (forall i, (n <= i)%nat -> live s (RL i) -> sel (gid (idx s i)) = false) ->
  (forall i, (i < n)%nat -> live s (RL i) \/ is_hole (idx s i) = true) ->
  calm_if s p n = true ->
  exists s', erase_if s p n r = Ok (r + sumn n (fun i => ind (p (idx s i)))) s' /\ TInv s' /\
    (forall r, field s' r = kept sel r (field s r)) /\ nslots s' = nslots s.
Proof.
  induction n as [|n IH]; intros s r T Hhi Hlo Hc; cbn [erase_if calm_if sumn] in *.
  - exists s. rewrite Z.add_0_r. split; [reflexivity|]. split; [assumption|]. split; [|reflexivity]. intros q.
    unfold kept. destruct (field s q) as [[d v]|] eqn:Ef; [|reflexivity]. destruct q as [k|j]; [|reflexivity].
    destruct (sel d) eqn:E; [|reflexivity]. exfalso.
    assert (Hl : live s (RL k)).
    { apply liveb_iff. unfold field in Ef. destruct (liveb s (RL k)); [reflexivity|discriminate]. }
    rewrite (field_live _ _ Hl) in Ef. injection Ef as E1 _. cbn [rdesc] in E1. subst d.
    rewrite (Hhi k ltac:(lia) Hl) in E. discriminate.
  - destruct (p (idx s n)) eqn:Eg.
    + apply andb_prop in Hc. destruct Hc as [Hc1 Hc2]. unfold calm_free in Hc1.
      assert (Hl : live s (RL n)).
      { destruct (Hlo n ltac:(lia)) as [A|A]; [exact A|]. rewrite (p_hole _ A) in Eg. discriminate. }
      destruct (live_gid s n T Hl) as [Gn Hn].
      destruct (erase_loose_spec s n T Hl ltac:(apply Bool.negb_true_iff; assumption)) as (s1 & E1 & T1 & Ef1 & Hh1).
      unfold fptu_erase_field. rewrite Hn, E1 in *. cbn [bind ind].
      assert (Hdead : ~ live s1 (RL n)).
      { intros A. pose proof (e_field _ _ _ _ Ef1) as F. rewrite field_live in F by assumption. discriminate. }
      assert (Hfr : forall i, i <> n -> live s1 (RL i) -> live s (RL i) /\ gid (idx s1 i) = gid (idx s i)).
      { intros i Ni Hi. pose proof (e_frame _ _ _ _ Ef1 (RL i) ltac:(congruence)) as F.
        rewrite field_live in F by assumption. destruct (liveb s (RL i)) eqn:Eb.
        - apply liveb_iff in Eb. rewrite field_live in F by assumption. injection F as F1 _. split; assumption.
        - unfold field in F. rewrite Eb in F. discriminate. }
      assert (Hfl : forall i, (i < n)%nat -> (live s (RL i) /\ live s1 (RL i)) \/ (is_hole (idx s i) = true /\ is_hole (idx s1 i) = true)).
      { intros i Hi. destruct (Hlo i ltac:(lia)) as [A|A].
        - left. split; [exact A|]. pose proof (e_frame _ _ _ _ Ef1 (RL i) ltac:(intros X; injection X; lia)) as F.
          rewrite (field_live s) in F by assumption. apply liveb_iff. unfold field in F.
          destruct (liveb s1 (RL i)); [reflexivity|discriminate].
        - right. split; [exact A|]. apply Hh1; [lia|exact A]. }
      destruct (IH s1 (r + 1) T1) as (s2 & E2 & T2 & F2 & N2); [| |exact Hc2|].
      * intros i Hi Hl1. destruct (Nat.eq_dec i n) as [->|N]; [contradiction|].
        destruct (Hfr i N Hl1) as [A ->]. apply Hhi; [lia|exact A].
      * intros i Hi. destruct (Hfl i Hi) as [[_ A]|[_ A]]; [left|right]; exact A.
      * exists s2. split.
        { rewrite E2. f_equal. rewrite (sumn_ext n (fun i => ind (p (idx s1 i))) (fun i => ind (p (idx s i)))); [lia|].
          intros i Hi. f_equal. destruct (Hfl i Hi) as [[A B]|[A B]].
          - apply p_gid. apply Hfr; [lia|exact B].
          - rewrite !p_hole by assumption. reflexivity. }
        split; [exact T2|]. split; [|rewrite N2; apply (e_nslots _ _ _ _ Ef1)].
        intros q. rewrite F2. destruct (ref_eq_dec q (RL n)) as [->|N].
        -- rewrite (e_field _ _ _ _ Ef1), (field_live _ _ Hl). cbn [rdesc kept].
           rewrite (p_sel _ Hn Gn) in Eg. rewrite Eg. reflexivity.
        -- rewrite (e_frame _ _ _ _ Ef1) by assumption. reflexivity.
    + destruct (IH s r T) as (s2 & E2 & R2); [| |exact Hc|].
      * intros i Hi Hl. destruct (Nat.eq_dec i n) as [->|N]; [|apply Hhi; auto; lia].
        destruct (live_gid s n T Hl) as [Gn Hn]. rewrite <- p_sel by assumption. exact Eg.
      * intros i Hi. apply Hlo. lia.
      * exists s2. rewrite E2. split; [|exact R2]. f_equal. cbn [ind]. lia.
Qed.

(** a tuple with at most 2047 units of data is calm *)
Lemma free_small s k : TInv s -> live s (RL k) -> end_ s - pivot s - pp s <= 2047 -> calm_free s k = true.
Proof.
  intros T Hl Hs. unfold calm_free. destruct (accounting s T) as (_ & _ & A & _ & Ht & _).
  assert (P : plen s (RL k) <= sumn (cnt s) (live_len s)).
  { pose proof Hl as Hl'. destruct Hl' as [Kk Hk].
    assert (G : forall n, (k < n)%nat -> live_len s k <= sumn n (live_len s)).
    { assert (NN : forall i, 0 <= live_len s i).
      { intros i. unfold live_len. destruct (is_hole (idx s i)); [lia|].
        pose proof (i_len _ _ _ _ _ _ (v_acc _ _ (t_inv _ T)) (RL i)). lia. }
      induction n as [|n IHn]; [lia|]. intros Hn. cbn [sumn]. destruct (Nat.eq_dec k n) as [->|N].
      - pose proof (sumn_nonneg n (live_len s) ltac:(intros; apply NN)). lia.
      - specialize (IHn ltac:(lia)). pose proof (NN n). lia. }
    specialize (G (cnt s) Kk). unfold live_len at 1 in G. rewrite Hk in G. exact G. }
  assert (Q : 0 <= sumn (nslots s) (fun j => plen s (RP j))).
  { apply sumn_nonneg. intros j Hj. pose proof (i_len _ _ _ _ _ _ (v_acc _ _ (t_inv _ T)) (RP j)). lia. }
  apply Bool.negb_true_iff. apply (wide_hole_small s (plen s)); [apply (v_acc _ _ (t_inv _ T))|apply plen_nonneg|lia].
Qed.

Lemma calm_if_small : forall n s, TInv s ->
  (forall i, (i < n)%nat -> live s (RL i) \/ is_hole (idx s i) = true) ->
  end_ s - pivot s - pp s <= 2047 -> calm_if s p n = true.
Proof.
  induction n as [|n IH]; intros s T Hlo Hs; cbn [calm_if]; [reflexivity|].
  destruct (p (idx s n)) eqn:Eg; [|apply IH; auto].
  assert (Hl : live s (RL n)).
  { destruct (Hlo n ltac:(lia)) as [A|A]; [exact A|]. rewrite (p_hole _ A) in Eg. discriminate. }
  pose proof (free_small s n T Hl Hs) as C. rewrite C. cbn [andb]. unfold calm_free in C.
  destruct (erase_loose_spec s n T Hl ltac:(apply Bool.negb_true_iff; assumption)) as (s1 & E1 & T1 & Ef1 & Hh1). rewrite E1.
  apply IH; [exact T1| |].
  - intros i Hi. destruct (Hlo i ltac:(lia)) as [A|A].
    + left. pose proof (e_frame _ _ _ _ Ef1 (RL i) ltac:(intros X; injection X; lia)) as F.
      rewrite (field_live s) in F by assumption. apply liveb_iff. unfold field in F.
      destruct (liveb s1 (RL i)); [reflexivity|discriminate].
    + right. apply Hh1; [lia|exact A].
  - rewrite (e_end _ _ _ _ Ef1), (e_pivot _ _ _ _ Ef1), (e_pp _ _ _ _ Ef1). exact Hs.
Qed.
End Erase.

(** ** Lists of fields *)
Fixpoint flist (F : nat -> option (Z * list Z)) (n : nat) : list (Z * list Z) :=
  match n with O => [] | S m => flist F m ++ match F m with Some f => [f] | None => [] end end.
Lemma flist_seq F n : flat_map (fun k => match F k with Some f => [f] | None => [] end) (seq 0 n) = flist F n.
Proof.
  induction n as [|n IH]; [reflexivity|]. rewrite seq_S, flat_map_app, IH. cbn [flist flat_map Nat.add].
  rewrite app_nil_r. reflexivity.
Qed.
Lemma flist_more F n m : (n <= m)%nat -> (forall k, (n <= k)%nat -> F k = None) -> flist F m = flist F n.
Proof. intros Hm H. induction Hm as [|m Hm IH]; [reflexivity|]. cbn [flist]. rewrite H, app_nil_r by assumption. exact IH. Qed.
Lemma flist_filter F G sel n : (forall k, G k = kept sel (RL k) (F k)) ->
  flist G n = filter (fun f => negb (sel (fst f))) (flist F n).
Proof.
  intros H. induction n as [|n IH]; [reflexivity|]. cbn [flist]. rewrite filter_app, IH, H. f_equal.
  unfold kept. destruct (F n) as [[d v]|]; [|reflexivity]. cbn [filter fst]. destruct (sel d); reflexivity.
Qed.
Lemma flist_count F sel n : Z.of_nat (length (filter (fun f => sel (fst f)) (flist F n))) =
  sumn n (fun k => match F k with Some (d, _) => ind (sel d) | None => 0 end).
Proof.
  induction n as [|n IH]; [reflexivity|]. cbn [flist sumn]. rewrite filter_app, app_length, Nat2Z.inj_add, IH. f_equal.
  destruct (F n) as [[d v]|]; [|reflexivity]. cbn [filter fst]. destruct (sel d); reflexivity.
Qed.

(** ** Counting and looking up *)
Lemma holes_skipped column tf e : is_filter tf = true -> is_hole e = true -> wanted column tf e = false.
Proof. intros F H. unfold wanted, match_filter. rewrite F, H. reflexivity. Qed.
Lemma wanted_gid column tf e e' : gid e = gid e' -> wanted column tf e = wanted column tf e'.
Proof.
  intros E. unfold wanted, match_filter, colnum, legacy_type, is_hole. rewrite E. reflexivity.
Qed.
Lemma wanted_sel column tf e : is_filter tf = true -> is_hole e = false -> 0 <= gid e < 65536 ->
  wanted column tf e = selected column tf (gid e).
Proof. intros F H G. unfold wanted. rewrite F, match_selected, H by assumption. reflexivity. Qed.

(** what a type means: the descriptor asked for *)
Lemma type_tag g column : 0 <= g < 31 -> 0 <= column <= 2047 ->
  tag2genus_and_id (colid2tag (genus2legacy g) column) = g * 2048 + column /\ is_filter (genus2legacy g) = false.
Proof.
  intros Hg Hc.
  assert (A : all_below 31 (fun g => (genus2legacy g mod 65536 =? g * 2048) && (0 <=? genus2legacy g) && negb (is_filter (genus2legacy g))) = true)
    by (vm_compute; reflexivity).
  pose proof (all_below_spec _ _ A g ltac:(lia)) as X. cbv beta in X.
  apply andb_prop in X. destruct X as [X X3]. split; [|destruct (is_filter (genus2legacy g)); [discriminate|reflexivity]].
  unfold colid2tag, tag2genus_and_id, u16, u32. change (2 ^ 16) with 65536. change (2 ^ 32) with 4294967296.
  set (x := genus2legacy g) in *. clearbody x. clear A X3. lia.
Qed.

Definition chosen (column tf : Z) (d : Z) : bool :=
  if is_filter tf then selected column tf d else d =? tag2genus_and_id (colid2tag tf column).
Lemma wanted_chosen s k column tf : TInv s -> (k < cnt s)%nat ->
  (is_filter tf = true \/ real_desc (tag2genus_and_id (colid2tag tf column))) ->
  wanted column tf (idx s k) = match field s (RL k) with Some (d, _) => chosen column tf d | None => false end.
Proof.
  intros T Hk R. destruct (is_hole (idx s k)) eqn:Eh.
  - rewrite field_dead by (intros [_ X]; congruence). destruct (is_filter tf) eqn:F.
    + apply holes_skipped; assumption.
    + destruct R as [R|R]; [discriminate|]. unfold wanted. rewrite F. apply Z.eqb_neq. intros X.
      rewrite (real_gid _ _ R X) in Eh. discriminate.
  - assert (Hl : live s (RL k)) by (split; assumption). rewrite field_live by assumption. cbn [rdesc].
    destruct (live_gid s k T Hl) as [G _]. unfold chosen. destruct (is_filter tf) eqn:F.
    + apply wanted_sel; assumption.
    + unfold wanted. rewrite F. reflexivity.
Qed.
Lemma ind_field (o : option (Z * list Z)) sel :
  ind (match o with Some (d, _) => sel d | None => false end) = match o with Some (d, _) => ind (sel d) | None => 0 end.
Proof. destruct o as [[d v]|]; reflexivity. Qed.

Lemma count_chosen s column tf : TInv s ->
  (is_filter tf = true \/ real_desc (tag2genus_and_id (colid2tag tf column))) ->
  fptu_field_count s column tf =
    Z.of_nat (length (filter (fun f => chosen column tf (fst f)) (flist (fun k => field s (RL k)) (cnt s)))).
Proof.
  intros T R. unfold fptu_field_count. rewrite count_scan by lia. rewrite flist_count. cbn [Z.add].
  apply sumn_ext. intros k Hk. rewrite (wanted_chosen s k column tf T Hk R). apply ind_field.
Qed.
Lemma count_ex_all s f : fptu_field_count_ex s f = sumn (cnt s) (fun k => ind (negb (is_hole (idx s k)) && f (idx s k))).
Proof. unfold fptu_field_count_ex. rewrite count_scan_ex by lia. reflexivity. Qed.

Lemma lookup_chosen s column tf : TInv s ->
  (is_filter tf = true \/ real_desc (tag2genus_and_id (colid2tag tf column))) ->
  match fptu_lookup s column tf with
  | Some k => exists d v, field s (RL k) = Some (d, v) /\ chosen column tf d = true /\
      forall i, (k < i)%nat -> match field s (RL i) with Some (d, _) => chosen column tf d = false | None => True end
  | None => forall i, match field s (RL i) with Some (d, _) => chosen column tf d = false | None => True end
  end.
Proof.
  intros T R. unfold fptu_lookup, fptu_first.
  pose proof (scan_down_spec (wanted column tf) (idx s) (cnt s)) as P.
  assert (Q : forall i, match field s (RL i) with Some _ => (i < cnt s)%nat | None => True end).
  { intros i. destruct (Nat.ltb_spec i (cnt s)) as [L|L]; [destruct (field s (RL i)); auto|rewrite field_out by assumption; exact I]. }
  destruct (scan_down (wanted column tf) (idx s) (cnt s)) as [k|].
  - destruct P as (Kk & Wk & Hi). rewrite (wanted_chosen s k column tf T Kk R) in Wk.
    destruct (field s (RL k)) as [[d v]|] eqn:Ef; [|discriminate]. exists d, v. split; [reflexivity|]. split; [exact Wk|].
    intros i Li. specialize (Q i). destruct (field s (RL i)) as [[d' v']|] eqn:Ei; [|exact I].
    specialize (Hi i ltac:(lia)). rewrite (wanted_chosen s i column tf T Q R), Ei in Hi. exact Hi.
  - intros i. specialize (Q i). destruct (field s (RL i)) as [[d' v']|] eqn:Ei; [|exact I].
    specialize (P i Q). rewrite (wanted_chosen s i column tf T Q R), Ei in P. exact P.
Qed.

(** ** Assigning *)
Lemma vlist_head F desc n k : (k < n)%nat -> (forall i, (k < i)%nat -> item desc (F i) = []) ->
  vlist F desc n = item desc (F k) ++ vlist F desc k.
Proof.
  intros Hk H. induction n as [|n IH]; [lia|]. cbn [vlist]. destruct (Nat.eq_dec k n) as [->|N]; [reflexivity|].
  rewrite H by lia. cbn [app]. apply IH. lia.
Qed.
Lemma lookup_above s desc k i : lookup_gid s desc = Some k -> (k < i)%nat -> item desc (field s (RL i)) = [].
Proof.
  intros E Hi. unfold lookup_gid in E. pose proof (scan_down_spec (fun e => gid e =? desc) (idx s) (cnt s)) as P.
  rewrite E in P. destruct P as (A & B & C). unfold item, field. destruct (liveb s (RL i)) eqn:L; [|reflexivity].
  apply liveb_iff in L. destruct L as [L _]. cbn [rdesc]. rewrite (C i ltac:(lia)). reflexivity.
Qed.
Lemma view_replace s s' desc k o : real_desc desc -> lookup_gid s desc = Some k -> effect s s' (RL k) o ->
  view s' desc = item desc o ++ tl (view s desc).
Proof.
  intros Hd El E. rewrite !view_vlist by assumption.
  set (n := S (Nat.max (Nat.max (cnt s) (cnt s')) k)).
  rewrite <- (vlist_more _ desc (cnt s) n) by (try apply field_out; lia).
  rewrite <- (vlist_more _ desc (cnt s') n) by (try apply field_out; lia).
  destruct (lookup_some _ _ _ Hd El) as [Hl Hg].
  rewrite (vlist_head (fun k => field s (RL k)) desc n k) by (try (intros; eapply lookup_above; eassumption); lia).
  rewrite (vlist_head (fun k => field s' (RL k)) desc n k).
  - rewrite (e_field _ _ _ _ E), (field_live _ _ Hl). cbn [rdesc item]. rewrite Hg, Z.eqb_refl. cbn [app tl]. f_equal.
    apply vlist_ext. intros i Hi. apply (e_frame _ _ _ _ E). intros X. injection X. lia.
  - lia.
  - intros i Hi. rewrite (e_frame _ _ _ _ E) by (intros X; injection X; lia). eapply lookup_above; eassumption.
Qed.

Lemma set_always s desc v s' : TInv s -> TInv s' -> real_desc desc -> stores desc true v = true ->
  set_effect s desc true v s' ->
  view s' desc = pay v :: tl (view s desc) /\
  (forall d, real_desc d -> d <> desc -> view s' d = view s d) /\
  (forall j, (j < nslots s)%nat -> get_slot s' j = get_slot s j) /\ get_loose s' desc = Some (pay v).
Proof.
  intros T T' Hd St E.
  assert (M : view s' desc = pay v :: tl (view s desc) /\
    (forall d, real_desc d -> d <> desc -> view s' d = view s d) /\
    (forall j, (j < nslots s)%nat -> get_slot s' j = get_slot s j)).
  { inversion E as [A|k s1 A L N Ef|k s1 A L Ef|k s1 A|k s1 A]; subst; try congruence.
    - pose proof (field_dead _ _ N) as F. split; [|split].
      + destruct (view_effect s s' k _ desc Hd Ef) as (l1 & l2 & E1 & E2). rewrite (lookup_none _ _ L) in *.
        rewrite F in E1. cbn [item app tl] in *. symmetry in E1. apply app_eq_nil in E1. destruct E1 as [-> ->].
        rewrite E2, Z.eqb_refl. reflexivity.
      + intros d Dd Nd. apply (effect_other s s' k _ desc d Dd Ef); [congruence|rewrite F; exact I|reflexivity].
      + intros j Hj. eapply effect_get_slot; eauto. discriminate.
    - destruct (lookup_some _ _ _ Hd L) as [Hl Hg]. split; [|split].
      + rewrite (view_replace s s' desc k _ Hd L Ef). cbn [item]. rewrite Z.eqb_refl. reflexivity.
      + intros d Dd Nd. apply (effect_other s s' k _ desc d Dd Ef); [congruence| |reflexivity].
        rewrite field_live by assumption. exact Hg.
      + intros j Hj. eapply effect_get_slot; eauto. discriminate. }
  destruct M as (M1 & M2 & M3). split; [exact M1|]. split; [exact M2|]. split; [exact M3|].
  rewrite get_loose_view, M1 by assumption. cbn [obs1]. eapply stores_obs. exact St.
Qed.

Lemma stores_disc desc v : (fixed_genus (descriptor2genus desc) = true \/ pay v <> []) -> stores desc true v = true.
Proof.
  unfold stores. intros [H|H]; [rewrite H; reflexivity|]. destruct (fixed_genus (descriptor2genus desc)); [reflexivity|].
  unfold needed. cbn [orb]. destruct (pay v) as [|x l]; [congruence|]. cbn [length]. apply Bool.negb_true_iff. apply Z.eqb_neq. lia.
Qed.

Lemma value_genus_range k : 0 <= value_genus k < 31.
Proof. destruct k; cbn [value_genus]; vm_compute; split; congruence || reflexivity. Qed.
Lemma token_ok g id c d s : 0 <= g < 31 -> 0 <= id <= 2047 -> exists t, token_loose g id c d s = Some t /\
  tag2genus_and_id t = g * 2048 + id /\ tag2genus t = g /\ is_discernible_null t = d.
Proof.
  intros Hg Hi. exists (make_tag g id c d s).
  assert (E : token_loose g id c d s = Some (make_tag g id c d s)).
  { unfold token_loose. change g_hole with 31. unfold max_ident. replace (g >=? 31) with false by lia.
    replace (id >? 2047) with false by lia. reflexivity. }
  split; [exact E|]. destruct (loose_descriptor g id c d s _ ltac:(lia) ltac:(lia) E) as (A & _ & _).
  split; [exact A|]. destruct (token_loose_val _ _ _ _ _ _ E ltac:(lia) ltac:(lia)) as (_ & _ & V).
  split.
  - rewrite tag2genus_arith, V. destruct c, d, s; lia.
  - unfold is_discernible_null. change discernible_null_flag with (Z.shiftl 1 16). rewrite testbit_mask by lia. rewrite V.
    rewrite Z.testbit_odd, Z.shiftr_div_pow2 by lia. change (2 ^ 16) with 65536.
    set (q := (_ / 65536)). assert (Hq : q mod 2 = if d then 1 else 0) by (subst q; destruct c, d, s; lia).
    clearbody q. rewrite Zodd_mod. destruct d; rewrite Hq; reflexivity.
Qed.
Lemma token_big g id c d s : 2047 < id -> token_loose g id c d s = None.
Proof.
  intros H. unfold token_loose. destruct (g >=? g_hole); [reflexivity|]. unfold max_ident. replace (id >? 2047) with true by lia. reflexivity.
Qed.
Lemma value_desc k column : 0 <= column <= 2047 -> real_desc (value_genus k * 2048 + column) /\
  descriptor2genus (value_genus k * 2048 + column) = value_genus k.
Proof.
  intros H. pose proof (value_genus_range k) as R. unfold real_desc. rewrite descriptor2genus_arith. change g_hole with 31.
  set (g := value_genus k) in *. clearbody g. lia.
Qed.

(** ** Blocks of bytes and C strings *)
Fixpoint up_to_nul (v : list Z) : list Z :=
  match v with [] => [] | b :: v => if b =? 0 then [] else b :: up_to_nul v end.
Lemma c_string_up v rest : c_string (v ++ 0 :: rest) = Some (up_to_nul v).
Proof.
  induction v as [|b v IH]; [reflexivity|]. cbn [app c_string up_to_nul]. destruct (b =? 0); [reflexivity|].
  rewrite IH. reflexivity.
Qed.

Lemma nested_iovec m t after : zlen t = units2bytes (u16_at t 0) -> 4 <= zlen t -> 
  nested_store m (Some t) = t -> as_iovec g_nested (nested_store m (Some t)) after = t.
Proof.
  intros H H4 ->. unfold as_iovec. change (is_inplaced_genus g_nested) with false. change (fixed_genus g_nested) with false.
  cbv iota. unfold stretchy_length. change (g_nested =? g_text) with false. change (g_nested =? g_varbin) with false.
  change (g_nested =? g_nested) with true. cbv iota. unfold nested_brutto_units. rewrite <- H.
  pose proof (peek_mid [] t after) as P. cbn [app] in P. exact P.
Qed.

(** ** Comparison *)
Inductive before : list Z -> list Z -> Prop :=
| b_nil y b : before [] (y :: b)
| b_less x y a b : x < y -> before (x :: a) (y :: b)
| b_skip x a b : before a b -> before (x :: a) (x :: b).
Lemma cmp_cons x y a b : fptu_cmp_binary (x :: a) (y :: b) =
  if x =? y then fptu_cmp_binary a b else if x <? y then Llt else Lgt.
Proof.
  unfold fptu_cmp_binary. cbn [length Nat.min memcmp]. destruct (x =? y) eqn:E.
  - destruct (memcmp a b (Nat.min (length a) (length b)) =? 0) eqn:Em; [|reflexivity].
    f_equal. unfold cmp2int. rewrite !zlen_cons. repeat match goal with |- context [?p >? ?q] => destruct (Z.gtb_spec p q) end; lia.
  - replace (x - y =? 0) with false by lia. unfold diff2lge. replace (x - y =? 0) with false by lia.
    replace (x - y <? 0) with (x <? y) by lia. reflexivity.
Qed.
Lemma cmp_binary_spec : forall a b,
  match fptu_cmp_binary a b with Leq => a = b | Llt => before a b | Lgt => before b a | Lic => False end.
Proof.
  induction a as [|x a IH]; intros [|y b].
  - reflexivity.
  - unfold fptu_cmp_binary. cbn [length Nat.min memcmp]. cbn [Z.eqb]. unfold cmp2int. rewrite zlen_cons, zlen_nil.
    pose proof (zlen_nonneg b). replace (1 + zlen b >? 0) with true by lia. cbn. constructor.
  - unfold fptu_cmp_binary. cbn [length Nat.min memcmp]. cbn [Z.eqb]. unfold cmp2int. rewrite zlen_cons, zlen_nil.
    pose proof (zlen_nonneg a). replace (0 >? 1 + zlen a) with false by lia. replace (1 + zlen a >? 0) with true by lia. cbn. constructor.
  - rewrite cmp_cons. destruct (x =? y) eqn:E.
    + assert (x = y) as -> by lia. specialize (IH b). destruct (fptu_cmp_binary a b); try constructor; try assumption; congruence.
    + destruct (x <? y) eqn:E2; constructor; lia.
Qed.
Lemma before_irrefl a : ~ before a a.
Proof. induction a as [|x a IH]; intros H; inversion H; subst; [lia|auto]. Qed.
Lemma before_trans : forall a b, before a b -> forall c, before b c -> before a c.
Proof.
  induction 1 as [y b|x y a b L|x a b H IH]; intros c Hc; inversion Hc; subst; try (constructor; lia).
  apply b_skip. apply IH. assumption.
Qed.

Lemma memcmp_same : forall n a b, length a = n -> length b = n ->
  diff2lge (memcmp a b n) = fptu_cmp_binary a b.
Proof.
  intros n a b Ha Hb. unfold fptu_cmp_binary. rewrite Ha, Hb, Nat.min_id.
  destruct (memcmp a b n =? 0) eqn:E; [|reflexivity].
  unfold cmp2int, zlen. rewrite Ha, Hb. replace (Z.of_nat n >? Z.of_nat n) with false by lia. replace (memcmp a b n) with 0 by lia. reflexivity.
Qed.
