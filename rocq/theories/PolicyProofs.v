(** * PolicyProofs: what a failing operation asks for, and how much room is made (proofs). *)
From Verif Require Import Base Tag TagProofs Codec Gear GearBase GearSearch GearProofs GearMerge GearAlloc
  GearRealloc GearResize GearAsis Tuple TupleProofs TupleSteps TupleView TupleOps TupleMore TupleHist TupleFacts PropertiesTuple
  Hippeus Scan Audit AuditProofs Image ImageProofs PropertiesImage GearOpt GearOptProofs GearSortProofs PropertiesOpt Growth GrowthProofs.
From Coq Require Import ZifyBool ZifyNat Permutation.
Ltac Zify.zify_post_hook ::= Z.div_mod_to_equations.

(** ** The space asked for is missing *)
Definition missing (s : st) (w : Z * Z) : Prop := head_space s < fst w \/ tail_space s < snd w.

Lemma index_alloc_missing s s' : index_alloc s = Throw s' -> head_space s < 1.
Proof.
  unfold index_alloc. destruct (if jc s >? 0 then _ else _); [discriminate|].
  destruct (head_space s <? 1) eqn:E; [lia|discriminate].
Qed.
Lemma alloc_loose_missing q s tag u s' : alloc_loose q s tag u = Throw s' -> missing s (1, u).
Proof.
  unfold alloc_loose, missing. cbn [fst snd]. destruct (u =? 0).
  - destruct (index_alloc s) eqn:E; cbn [bind]; try discriminate. intros _. left. eapply index_alloc_missing; eassumption.
  - destruct (lookup_fit s u) as [[h|]|]; [| |discriminate].
    + destruct (_ =? 0); [discriminate|]. destruct (index_alloc s) eqn:E; cbn [bind]; try discriminate.
      intros _. left. eapply index_alloc_missing; eassumption.
    + destruct (tail_space s <? u) eqn:E0; [lia|]. destruct (index_alloc s) eqn:E; cbn [bind]; try discriminate.
      intros _. left. eapply index_alloc_missing; eassumption.
Qed.
Lemma release_loose_calm s k u s' : release_loose s k u <> Throw s'.
Proof.
  unfold release_loose. cbv zeta. destruct (u =? 0); [discriminate|]. destruct (lookup_adjacent _ _ _) as [[bf af]|]; [|discriminate].
  repeat match goal with |- context [let '(_, _) := ?x in _] => destruct x end. destruct (negb _); discriminate.
Qed.
Lemma erase_all_calm desc n : forall s s', erase_all_from s desc n <> Throw s'.
Proof.
  induction n as [|n IH]; intros s s'; cbn [erase_all_from]; [discriminate|]. destruct (_ =? desc); [|apply IH].
  unfold erase_loose. destruct (release_loose s n _) as [a t|t|] eqn:E; cbn [bind]; [apply IH| |discriminate].
  intros _. exact (release_loose_calm _ _ _ _ E).
Qed.
Lemma realloc_throw_same s r have n s' : realloc_data asis s r have n = Throw s' -> realloc_data repaired s r have n = Throw s'.
Proof.
  unfold realloc_data. cbv zeta. destruct (jv s =? 0); [auto|]. destruct (lookup_adjacent _ _ _) as [ba|]; [|auto].
  destruct (_ && _); [auto|]. destruct (negb _); [|auto]. destruct (lookup_exact s n) as [h|]; [|auto].
  match goal with |- (if ?b then _ else _) = _ -> _ => destruct b; discriminate end.
Qed.
Lemma realloc_missing s L r n s' : Inv s L -> live s r -> 0 < L r -> 0 < n < 65536 -> n <> L r ->
  wide_slip s r (L r) n = false ->
  realloc_data repaired s r (L r) n = Throw s' -> missing s (realloc_wants s r (L r) n).
Proof.
  intros Hi Hl HL Hn Hne Hcap. assert (Hi0 := Hi). destruct Hi0 as [H Hna Hnt].
  pose proof (lookup_adjacent_spec s (raddr s r) (raddr s r + L r)
    ltac:(pose proof (i_jc _ _ _ _ _ _ H); lia)) as ([bf af] & Ela & Hadj).
  assert (Hadj0 := Hadj). destruct Hadj0 as [Hb Ha]. cbn [fst snd] in Hb, Ha.
  unfold realloc_data, realloc_wants, missing. cbv zeta.
  unfold wide_slip, beside in Hcap. rewrite Ela in Hcap. cbn [fst snd] in Hcap.
  destruct (jv s =? 0) eqn:Ejv.
  - destruct (raddr s r + L r =? tail s) eqn:Et; cbn [fst snd].
    + destruct ((L r <? n) && (tail_space s <? n - L r)) eqn:E; [lia|discriminate].
    + pose proof (i_jcr _ _ _ _ _ _ H) as Hj. destruct (n >? L r) eqn:Eg.
      * destruct ((tail_space s <? n) || (head_space s + jc s <? 1)) eqn:E; [unfold head_space in *; lia|].
        destruct (index_alloc s) as [k s1|s1|] eqn:Ei; cbn [bind]; [|intros _; left; eapply index_alloc_missing; eassumption|discriminate].
        unfold tail_alloc. match goal with |- bind (if ?b then _ else _) _ = _ -> _ => destruct b eqn:Eb; cbn [bind]; [|discriminate] end.
        intros _. right. unfold index_alloc in Ei.
        assert (Et1 : tail s1 = tail s /\ end_ s1 = end_ s).
        { destruct (if jc s >? 0 then _ else _); [injection Ei as _ <-; auto|]. destruct (head_space s <? 1); [discriminate|]. injection Ei as _ <-; auto. }
        unfold tail_space, set_ent, with_jv, with_jc, with_idx in *. cbn [tail end_] in Eb. lia.
      * destruct (index_alloc s) as [k s1|s1|] eqn:Ei; cbn [bind]; [discriminate|intros _; left; eapply index_alloc_missing; eassumption|discriminate].
  - rewrite Ela. cbn [fst snd]. fold (hu s bf) (hu s af).
    assert (Hhb : 0 <= hu s bf) by (destruct bf as [b|]; cbn [hu]; [pose proof (hunits_range (idx s b))|]; lia).
    assert (Hha : 0 <= hu s af) by (destruct af as [b|]; cbn [hu]; [pose proof (hunits_range (idx s b))|]; lia).
    set (adjacent := hu s bf + hu s af) in *.
    destruct ((L r <? n) && (L r + adjacent >=? n)) eqn:E1.
    { destruct (release_and_alloc_spec s L r n bf af None None Hi Hl HL Hn Hadj
        ltac:(cbn [negb andb] in Hcap; unfold adjacent in *; lia)) as (s1 & E & R).
      - discriminate.
      - left. fold adjacent. lia.
      - left. unfold adjacent in *. lia.
      - rewrite E. discriminate. }
    cbn [negb andb] in Hcap.
    set (hole0 := if (adjacent >? 0) || (head_space s >? 0) then None else lookup_exact s 0).
    pose proof (lookup_exact_spec s L 0 H ltac:(lia)) as Q0.
    assert (H0 : forall h, hole0 = Some h -> (h < cnt s)%nat /\ is_hole (idx s h) = true /\ hunits (idx s h) = 0).
    { intros h E. unfold hole0 in E. destruct ((adjacent >? 0) || (head_space s >? 0)); [discriminate|].
      rewrite E in Q0. exact Q0. }
    destruct ((adjacent >? 0) || (head_space s >? 0) ||
              match hole0 with Some _ => true | None => false end) eqn:Ec; cbn [negb].
    + assert (Cap : raddr s r + L r = tail s \/ L r + hu s bf + hu s af <= 2047).
      { unfold hole0 in Ec.
        destruct (adjacent >? 0) eqn:E3; [cbn [negb andb] in Hcap; unfold adjacent in *; lia|].
        destruct (head_space s >? 0) eqn:E4; [cbn [negb andb] in Hcap; unfold adjacent in *; lia|].
        cbn [orb] in Ec. destruct (lookup_exact s 0); [|discriminate].
        cbn [negb andb] in Hcap. unfold adjacent in *; lia. }
      assert (HR : 0 < hu s bf + hu s af \/ head_space s > 0 \/ hole0 <> None).
      { fold adjacent. destruct hole0; [right; right; discriminate|]. lia. }
      destruct ((L r >? n) || (n <=? tail_space s)) eqn:E2.
      * destruct (release_and_alloc_spec s L r n bf af hole0 None Hi Hl HL Hn Hadj Cap H0 HR) as (s1 & E & R).
        { lia. } rewrite E. discriminate.
      * intros _. right. match goal with |- _ < snd (if ?b then _ else _) => destruct b end; cbn [snd]; lia.
    + intros _. left. unfold hole0 in Ec. destruct ((adjacent >? 0) || (head_space s >? 0)) eqn:E3; [cbn in Ec; discriminate|].
      destruct (lookup_exact s 0); [cbn in Ec; discriminate|]. cbn [orb fst]. lia.
Qed.
Lemma ref_missing s r disc v s' : TInv s -> live s r -> stretchy_ref s r = true -> stretchy_wf (rgenus s r) disc v ->
  roomy s r (needed disc v) = true -> assign_ref asis s r disc v = Throw s' -> missing s (ref_wants s r (needed disc v)).
Proof.
  intros T Hl Hst [Hlen Hb] Hr. pose proof (t_inv _ T) as Ti. destruct (stretchy_not _ _ Hst) as [F1 F2].
  pose proof (needed_len disc v) as Hnl. assert (Hn0 : 0 <= needed disc v) by (unfold needed; destruct (_ || _); lia).
  assert (Wf : stretchy_wf (rgenus s r) disc v) by (split; assumption).
  pose proof (assign_ref_spec s r disc v T Hl Hst Wf Hr) as Q.
  unfold assign_ref in *. cbv zeta in *. unfold ref_wants. set (n := needed disc v) in *.
  destruct (rrel s r =? 0) eqn:Er; cbn [negb] in *.
  - destruct (n =? 0); [discriminate|]. unfold missing. cbn [fst snd]. unfold alloc_data.
    destruct (lookup_fit s n) as [[h|]|] eqn:El; cbn [bind]; [| |discriminate].
    + unfold alloc_data_at. cbv zeta. match goal with |- bind (if ?b then _ else _) _ = _ -> _ => destruct b end; cbn [bind]; discriminate.
    + cbn [alloc_data_at]. unfold tail_alloc. destruct (tail_space s <? n) eqn:E; cbn [bind]; [lia|discriminate].
  - assert (Hp : brutto (rgenus s r) (dat s (raddr s r)) = plen s r) by (unfold plen; rewrite F1, Er; reflexivity).
    rewrite Hp in *. assert (Hpos : 0 < plen s r) by (apply (t_pos _ T); auto; lia).
    destruct (n =? plen s r) eqn:En; [discriminate|]. destruct (n =? 0) eqn:E0.
    + destruct r as [k|j]; [intros E; elim (release_loose_calm _ _ _ _ E)|].
      destruct (release_data s (raddr s (RP j)) (plen s (RP j))) as [a t|t|] eqn:E; cbn [bind] in *; try discriminate.
      intros _. left. cbn [fst]. destruct Q as [[[X _]|(X & _)] _]; lia.
    + specialize (Hnl ltac:(lia)). intros E. destruct (realloc_data asis s r (plen s r) n) as [a t|t|] eqn:Ea; cbn [bind] in E; try discriminate.
      apply realloc_throw_same in Ea. eapply (realloc_missing s (plen s) r n t); eauto; try lia.
      unfold roomy in Hr. rewrite Er, En, E0 in Hr. cbn [orb] in Hr. apply Bool.negb_true_iff. exact Hr.
Qed.

Definition roomy_op (s : st) (o : op) : Prop :=
  match o with
  | OSet desc disc v =>
    match lookup_gid s desc with
    | Some k => fixed_genus (descriptor2genus desc) = true \/ roomy s (RL k) (needed disc v) = true
    | None => True
    end
  | OSlot j disc v => roomy s (RP j) (needed disc v) = true
  | OSlotDel j => roomy s (RP j) 0 = true
  | _ => True
  end.
Lemma op_missing multi s o s' : TInv s -> valid multi s o -> roomy_op s o -> run1 asis s o = Throw s' -> missing s (wants s o).
Proof.
  intros T V R. destruct o as [desc disc v|desc|desc disc v|desc|k|j disc v|j]; cbn [valid roomy_op run1 wants] in *.
  - destruct V as (Hd & Hm & Hw). destruct (fixed_genus (descriptor2genus desc)) eqn:Fx.
    + unfold assign_fixed. destruct (lookup_gid s desc) as [k|].
      * destruct (negb disc && v_empty v); [|discriminate]. destruct (release_loose s k _) eqn:E; cbn [bind void]; try discriminate.
        intros _. elim (release_loose_calm _ _ _ _ E).
      * destruct (negb disc && v_empty v); [discriminate|]. destruct (alloc_loose asis s desc _) eqn:E; cbn [bind void]; try discriminate.
        intros _. exact (alloc_loose_missing _ _ _ _ _ E).
    + unfold assign_stretchy. destruct (lookup_gid s desc) as [k|] eqn:Lk.
      * destruct (lookup_some _ _ _ Hd Lk) as [Hl Hg]. destruct R as [R|R]; [discriminate|].
        assert (Eg : rgenus s (RL k) = descriptor2genus desc) by (cbn [rgenus]; unfold egenus; rewrite Hg; reflexivity).
        apply ref_missing; auto; [unfold stretchy_ref; rewrite Eg, Fx; reflexivity|]. rewrite Eg.
        unfold wf_pay in Hw. rewrite Fx in Hw.
        destruct (is_inplaced_genus (descriptor2genus desc)) eqn:Ei; [apply inplaced_units in Ei; destruct Ei; congruence|]. exact Hw.
      * destruct (needed disc v =? 0); [discriminate|]. destruct (alloc_loose asis s desc _) eqn:E; cbn [bind]; try discriminate.
        intros _. exact (alloc_loose_missing _ _ _ _ _ E).
  - destruct (lookup_gid s desc) as [k|]; [|discriminate]. intros E. elim (release_loose_calm _ _ _ _ E).
  - unfold append_loose. cbv zeta. destruct (negb disc && v_empty v); [discriminate|].
    destruct (fixed_genus _); destruct (alloc_loose asis s desc _) eqn:E; cbn [bind void]; try discriminate; intros _; exact (alloc_loose_missing _ _ _ _ _ E).
  - unfold erase_all. destruct (lookup_gid s desc); [|discriminate]. intros E. elim (erase_all_calm _ _ _ _ E).
  - intros E. elim (release_loose_calm _ _ _ _ E).
  - destruct V as [Hj Hw]. apply ref_missing; auto.
  - intros E. rewrite (erase_slot_assign asis s j T V) in E. change 0 with (needed false (mkV true [])) in *. eapply ref_missing; eauto.
    split; [cbn; lia|]. cbn. congruence.
Qed.

(** ** Sharing the free space *)
Lemma share_spec s wi wd : TInv s -> 0 <= wi -> 0 <= wd -> wi + wd <= unallocated s -> head s < wi \/ end_ s - tail s < wd ->
  let h := head s + border_shift s wi wd in let t := end_ s - (tail s + border_shift s wi wd) in
  let iu := Z.of_nat (cnt s) + wi in let du := tail s - pivot s + wd in
  wi <= h /\ wd <= t /\ h + t = unallocated s /\ (h = wi \/ t = wd \/ 0 <= h * du - t * iu < iu + du).
Proof.
  intros T Hi Hd Hu Hs h t iu du. pose proof (head_base s T) as HB. unfold h, t, border_shift, unallocated in *. cbv zeta.
  replace (pivot s - head s + wi) with iu by (unfold iu, head; lia). fold du. clear h t.
  assert (Hw : 0 < iu + du).
  { unfold iu, du. lia. }
  set (un := end_ s - (tail s - head s)) in *. assert (0 <= iu) by (unfold iu; lia). assert (0 <= du) by (unfold du; lia).
  clearbody iu du.
  destruct (wi >? head s) eqn:E1.
  - set (c := (un * iu + (iu + du) - 1) / (iu + du)).
    assert (Hc : un * iu <= c * (iu + du) < un * iu + (iu + du)).
    { unfold c. pose proof (Z.div_mod (un * iu + (iu + du) - 1) (iu + du) ltac:(lia)) as D.
      pose proof (Z.mod_pos_bound (un * iu + (iu + du) - 1) (iu + du) Hw) as M. nia. }
    replace (un * iu + (iu + du) - 1) with (un * iu + (iu + du) - 1) by lia. fold c. clearbody c.
    split; [lia|]. split; [lia|]. split; [lia|].
    destruct (Z.max_spec wi (Z.min c (un - wd))) as [[A ->]|[A ->]]; [|left; lia].
    destruct (Z.min_spec c (un - wd)) as [[B E]|[B E]]; [|right; left; lia].
    right; right. rewrite E. replace (end_ s - (tail s + (c - head s))) with (un - c) by (unfold un; lia).
    replace (head s + (c - head s)) with c by lia. nia.
  - replace (wd >? end_ s - tail s) with true by lia.
    set (c := un * du / (iu + du)).
    assert (Hc : un * du - (iu + du) < c * (iu + du) <= un * du).
    { unfold c. pose proof (Z.div_mod (un * du) (iu + du) ltac:(lia)) as D.
      pose proof (Z.mod_pos_bound (un * du) (iu + du) Hw) as M. nia. }
    clearbody c.
    split; [lia|]. split; [lia|]. split; [lia|].
    destruct (Z.max_spec wd (Z.min c (un - wi))) as [[A ->]|[A ->]]; [|right; left; lia].
    destruct (Z.min_spec c (un - wi)) as [[B E]|[B E]]; [|left; lia].
    right; right. rewrite E. replace (end_ s - (tail s + - (c - (end_ s - tail s)))) with c by lia.
    replace (head s + - (c - (end_ s - tail s))) with (un - c) by (unfold un; lia). nia.
Qed.

(** ** The size of a new buffer *)
(** the standard sizes: an index of so many fields and so many bytes of data, or the preplaced part
    if that is larger *)
Definition standards : list (Z * Z) := [(32, 1023); (128, 4095); (512, 16383); (2048, 65534); (8191, 262136)].
Definition standard (pbytes : Z) (x : Z * Z) : Z := 44 + 4 * fst x + ceil4 (Z.max pbytes (snd x)).
(** [n] is the size asked for when [need] bytes are needed *)
Definition asked (pbytes need n : Z) : Prop :=
  (In n (map (standard pbytes) standards) /\ need <= n /\ forall m, In m (map (standard pbytes) standards) -> need <= m -> n <= m) \/
  (n = need /\ forall m, In m (map (standard pbytes) standards) -> m < need).
Lemma granulated_standard pb k : 0 <= pb <= max_tuple_bytes_netto -> (k < 5)%nat -> granulated pb k = Some (standard pb (nth k standards (0, 0))).
Proof.
  intros P K. unfold granulated. cbv zeta.
  assert (B : 0 <= nth k scale_bytes 0 <= max_tuple_bytes_netto /\ 0 <= nth k scale_items 0 <= max_fields).
  { do 5 (destruct k as [|k]; [vm_compute; intuition discriminate|]). lia. }
  rewrite estimate_some by lia. f_equal. unfold standard.
  assert (E : nth k standards (0, 0) = (nth k scale_items 0, nth k scale_bytes 0)) by (do 5 (destruct k as [|k]; [reflexivity|]); lia).
  rewrite E. cbn [fst snd]. replace (nth k scale_bytes 0 - Z.min (nth k scale_bytes 0) pb + pb) with (Z.max pb (nth k scale_bytes 0)) by lia. lia.
Qed.
Lemma standard_mono pb i j : (i <= j < 5)%nat -> standard pb (nth i standards (0, 0)) <= standard pb (nth j standards (0, 0)).
Proof.
  intros H. unfold standard, ceil4.
  assert (M : fst (nth i standards (0, 0)) <= fst (nth j standards (0, 0)) /\ snd (nth i standards (0, 0)) <= snd (nth j standards (0, 0))).
  { do 5 (destruct j as [|j]; [do 5 (destruct i as [|i]; [first [exfalso; lia|vm_compute; split; discriminate]|]); exfalso; lia|]). exfalso; lia. }
  lia.
Qed.
Lemma pick_scale_asked pb need : 0 <= pb <= max_tuple_bytes_netto -> forall n k, (n + k = 5)%nat ->
  (forall j, (j < k)%nat -> standard pb (nth j standards (0, 0)) < need) -> exists g, pick_scale n k pb need = Some g /\ asked pb need g.
Proof.
  intros P. assert (I : forall m, In m (map (standard pb) standards) -> exists j, (j < 5)%nat /\ m = standard pb (nth j standards (0, 0))).
  { intros m Hm. apply in_map_iff in Hm. destruct Hm as (x & <- & Hx). apply (In_nth _ _ (0, 0)) in Hx. destruct Hx as (j & Hj & <-). exists j. auto. }
  induction n as [|n IH]; intros k K B; cbn [pick_scale].
  - exists need. split; [reflexivity|]. right. split; [reflexivity|]. intros m Hm. destruct (I m Hm) as (j & Hj & ->). apply B. lia.
  - rewrite granulated_standard by lia. destruct (_ >=? need) eqn:E.
    + eexists. split; [reflexivity|]. left. split; [apply in_map, nth_In; cbn; lia|]. split; [lia|].
      intros m Hm Hn. destruct (I m Hm) as (j & Hj & ->). destruct (Nat.lt_ge_cases j k) as [Q|Q]; [specialize (B j Q); lia|]. apply standard_mono. lia.
    + apply IH; [lia|]. intros j Hj. destruct (Nat.eq_dec j k) as [->|N]; [lia|apply B; lia].
Qed.
(** how many index slots and bytes of data a new buffer is made for *)
Definition index_next (s : st) (wi : Z) : Z :=
  if (wi <=? head s) && (pivot s <=? 2 * head s) then Z.min 8191 (pivot s) else Z.min 8191 (2 * (pivot s + wi)).
Definition data_next (s : st) (wd : Z) : Z :=
  Z.min 262136 (if wd <=? end_ s - tail s then 4 * (end_ s - pivot s) + 168 else 8 * (end_ s - pivot s + wd)).
Lemma new_buffer srt borrow l d s wi wd s' : TInv s -> 0 <= l_bytes l <= 262136 -> 0 <= wi -> 0 <= wd ->
  jc s = 0 -> jv s = 0 -> unallocated s < wi + wd ->
  manage srt borrow true l d s wi wd = Room s' ->
  exists n, asked (l_bytes l) (44 + 4 * index_next s wi + ceil4 (data_next s wd + l_bytes l)) n /\
    pivot s' = index_next s wi /\ end_ s' = Z.min 65534 (Z.shiftr (u32 (borrow n - 44)) 2) /\ cnt s' = cnt s /\ tail s' - pivot s' = tail s - pivot s.
Proof.
  intros T L Hi Hd Jc Jv Un. unfold manage. cbv zeta.
  match goal with |- (if ?b then _ else _) = _ -> _ => destruct b eqn:E0; [discriminate|] end.
  replace (wd + wi <=? _) with false by lia.
  rewrite (compact_id s srt Jc Jv). match goal with |- context [if ?b then s else s] => replace (if b then s else s) with s by (destruct b; reflexivity) end.
  replace (growth_index s wi) with (index_next s wi).
  2:{ unfold growth_index, index_next. change max_fields with 8191. clear E0.
      destruct ((wi <=? head s) && (pivot s <=? 2 * head s)) eqn:A; destruct ((wi >? head s) || (head s + head s <? pivot s)) eqn:B; lia. }
  replace (growth_data s wd) with (data_next s wd).
  2:{ unfold growth_data, data_next, tail_space. cbv zeta. change max_tuple_bytes_netto with 262136. clear E0.
      destruct (wd <=? end_ s - tail s) eqn:A; destruct (wd >? end_ s - tail s) eqn:B; lia. }
  destruct (estimate _ _ _ _) as [space|] eqn:Es; [|discriminate].
  apply estimate_inv in Es.
  destruct (pick_scale_asked (l_bytes l) space ltac:(change max_tuple_bytes_netto with 262136; lia) 5 0 eq_refl ltac:(lia)) as (n & -> & A).
  unfold into_buffer, construct. destruct (estimate _ 0 _ _) as [need|]; [|discriminate].
  match goal with |- match (if ?b then _ else _) with _ => _ end = _ -> _ => destruct b; [discriminate|] end.
  cbv zeta. match goal with |- (if ?b then _ else _) = _ -> _ => destruct b; [discriminate|] end. intros X.
  exists n. replace (44 + 4 * index_next s wi + ceil4 (data_next s wd + l_bytes l)) with space by lia. split; [exact A|].
  assert (Y : forall a b, Room a = Room b -> a = b) by congruence. apply Y in X. rewrite <- X. cbn [pivot end_ cnt tail fresh].
  split; [reflexivity|]. split; [reflexivity|]. split; [reflexivity|]. lia.
Qed.
(** A tuple of the C interface keeps its fields and its junk when it is reallocated. *)
Record carried (s s' : st) (d : Z) : Prop := {
  k_cnt : cnt s' = cnt s; k_idx : forall k, (k < cnt s)%nat -> idx s' k = idx s k; k_pre : forall j, pre s' j = pre s j;
  k_tail : tail s' = tail s + d; k_pivot : pivot s' = pivot s + d; k_jc : jc s' = jc s; k_jv : jv s' = jv s;
  k_dat : forall x, head s <= x < tail s -> u32 (dat s' (x + d)) = u32 (dat s x)
}.
Lemma realloc_carried s space gi : exists d, d = Z.max 0 (gi - pivot s) /\ carried s (reallocated s space gi) d.
Proof.
  exists (Z.max 0 (gi - pivot s)). split; [reflexivity|]. unfold reallocated. cbv zeta.
  set (e := u32 (Z.min max_tuple_units_netto (space mod 4 - 10))). clearbody e. destruct (gi >? pivot s) eqn:E.
  - replace (Z.max 0 (gi - pivot s)) with (gi - pivot s) by lia. constructor; try reflexivity.
    intros x Hx. unfold shift_tuple, head in *. cbn [with_border dat pivot cnt tail].
    replace (_ && _) with true by lia. replace (x + (gi - pivot s) - (gi - pivot s)) with x by lia. apply u32_u32.
  - replace (Z.max 0 (gi - pivot s)) with 0 by lia. constructor; cbn [cnt idx pre tail pivot jc jv dat]; try reflexivity; try lia.
    intros x Hx. rewrite Z.add_0_r. reflexivity.
Qed.
Lemma legacy_carried srt borrow l d s wi wd s' : unallocated s + (jv s + jc s) < wi + wd -> 2 * (jv s + jc s) <= tail s - head s ->
  tail s - head s + wi + wd < 65535 -> manage srt borrow false l d s wi wd = Room s' -> exists k, k = Z.max 0 (index_next s wi - pivot s) /\ carried s s' k.
Proof.
  intros A B C. unfold manage. cbv zeta. match goal with |- (if ?b then _ else _) = _ -> _ => destruct b eqn:E0; [discriminate|] end.
  replace (wd + wi <=? _) with false by lia. replace ((_ >=? 65535) || _) with false by lia.
  replace (growth_index s wi) with (index_next s wi).
  2:{ unfold growth_index, index_next. change max_fields with 8191. clear E0.
      destruct ((wi <=? head s) && (pivot s <=? 2 * head s)) eqn:X; destruct ((wi >? head s) || (head s + head s <? pivot s)) eqn:Y; lia. }
  destruct (estimate _ _ _ _) as [space|]; [|discriminate]. intros X.
  assert (Y : forall a b, Room a = Room b -> a = b) by congruence. apply Y in X. rewrite <- X. apply realloc_carried.
Qed.
