(** * TupleSteps: every operation touches one field only (proofs). *)
From Verif Require Import Base Tag TagProofs Codec Gear GearBase GearSearch GearProofs GearMerge GearAlloc
  GearRealloc GearResize GearAsis Tuple TupleProofs.
From Coq Require Import ZifyBool ZifyNat.
Ltac Zify.zify_post_hook ::= Z.div_mod_to_equations.

(** ** Erasing *)
Lemma erase_loose_spec s k : TInv s -> live s (RL k) -> wide_hole s (addr s k) (plen s (RL k)) = false ->
  exists s', erase_loose s k = Ok tt s' /\ TInv s' /\ effect s s' (RL k) None /\
    (forall i, i <> k -> is_hole (idx s i) = true -> is_hole (idx s' i) = true).
Proof.
  intros T Hl Hc. apply (wide_hole_cap s (plen s) _ _ (v_acc _ _ (t_inv _ T))) in Hc.
  destruct (release_loose_spec s (plen s) k (t_inv _ T) Hl Hc) as (s' & E & I & N & S & _).
  exists s'. split; [exact E|].
  destruct (finish_gone s s' (plen s) (RL k) T S I) as [A B]; auto.
  split; [exact A|]. split; [exact B|]. intros i Ni. apply (f_hole _ _ _ S). intros X. apply Ni. congruence.
Qed.

Lemma same_refl' s X : same s s X.
Proof. apply same_refl. Qed.

(** storing nothing in a field: the reference becomes null *)
Lemma finish_null s s1 L1 r : TInv s -> same s s1 (only r) -> Inv s1 L1 ->
  (forall r', r' <> r -> L1 r' = plen s r') -> live s1 r -> L1 r = 0 -> rrel s1 r = 0 ->
  stretchy_ref s1 r = true -> TInv s1 /\ effect s s1 r (Some (rdesc s1 r, [])).
Proof.
  intros [Ti Tp Ts] S I1 E1 Hl HL Hrr Hst. pose proof (f_cfg _ _ _ S) as Cf.
  assert (Pr : plen s1 r = 0).
  { unfold plen. rewrite Hrr. unfold stretchy_ref in Hst.
    destruct r; [destruct (fixed_genus _); [discriminate|]|]; reflexivity. }
  assert (Other : forall r', r' <> r -> live s1 r' -> live s r').
  { intros r' N Hr. apply (f_live _ _ _ S); [intros E; apply N; exact E|assumption]. }
  split.
  - constructor.
    + apply Inv_Llive with (L := L1); [|apply plen_nonneg|assumption].
      intros r' Hr. destruct (ref_eq_dec r' r) as [->|N]; [congruence|].
      rewrite E1 by assumption. apply (same_plen s s1 r r' S N (Other r' N Hr)).
    + intros r' Hr Hs Hn. destruct (ref_eq_dec r' r) as [->|N]; [congruence|].
      destruct (same_plen s s1 r r' S N (Other r' N Hr)) as (A & B & Cc & Dd). rewrite A.
      apply Tp; [auto| |congruence]. unfold stretchy_ref in *. rewrite Dd in Hs. exact Hs.
    + intros j. rewrite (q_nslots _ _ Cf), (q_stype _ _ Cf). apply Ts.
  - constructor; try (apply Cf).
    + intros r' N. apply (field_same s s1 r r' S N).
    + unfold field. replace (liveb s1 r) with true by (symmetry; apply liveb_iff; assumption).
      f_equal. f_equal. unfold value. rewrite Pr.
      replace (match r with RL _ => is_inplaced_genus (rgenus s1 r) | RP _ => false end) with false; [reflexivity|].
      destruct r as [k|j]; [|reflexivity]. unfold stretchy_ref in Hst.
      destruct (is_inplaced_genus (rgenus s1 (RL k))) eqn:E; [|reflexivity].
      apply inplaced_units in E. destruct E as [_ E]. rewrite E in Hst. discriminate.
    + intros x _. rewrite (q_dat _ _ Cf). reflexivity.
    + intros r' N Hr. apply (same_plen s s1 r r' S N Hr).
Qed.

(** the entry of a loose field becomes [x] (a 16-bit value stored in the entry itself) *)
Lemma finish_inplaced s s1 L1 k x : TInv s -> same s s1 (only (RL k)) -> Inv s1 L1 ->
  (forall r', r' <> RL k -> L1 r' = plen s r') -> live s1 (RL k) -> L1 (RL k) = 0 -> 0 <= x < 65536 ->
  is_inplaced_genus (egenus (idx s1 k)) = true ->
  let s2 := set_ent s1 k (mkE x (gid (idx s1 k))) in
  TInv s2 /\ effect s s2 (RL k) (Some (gid (idx s1 k), [x])).
Proof.
  intros T S I1 E1 Hl HL Hx Hin s2.
  destruct (Inv_reref s1 L1 (RL k) x I1 Hl HL Hx) as (I2 & S2 & Hl2). cbn [set_rrel] in I2, S2, Hl2.
  fold s2 in I2, S2, Hl2.
  assert (Ss : same s s2 (only (RL k))) by (eapply same_trans; eassumption).
  assert (Ei : idx s2 k = mkE x (gid (idx s1 k))) by apply fupd_same.
  assert (Gi : rgenus s2 (RL k) = egenus (idx s1 k)) by (cbn [rgenus]; rewrite Ei; reflexivity).
  destruct (inplaced_units _ Hin) as [U0 Fx].
  assert (Pr : plen s2 (RL k) = 0) by (unfold plen; rewrite Gi, Fx; exact U0).
  destruct T as [Ti Tp Ts]. pose proof (f_cfg _ _ _ Ss) as Cf.
  assert (Other : forall r', r' <> RL k -> live s2 r' -> live s r').
  { intros r' N Hr. apply (f_live _ _ _ Ss); [intros E; apply N; exact E|assumption]. }
  split.
  - constructor.
    + apply Inv_Llive with (L := L1); [|apply plen_nonneg|assumption].
      intros r' Hr. destruct (ref_eq_dec r' (RL k)) as [->|N]; [congruence|].
      rewrite E1 by assumption. apply (same_plen s s2 (RL k) r' Ss N (Other r' N Hr)).
    + intros r' Hr Hs Hn. destruct (ref_eq_dec r' (RL k)) as [->|N].
      * unfold stretchy_ref in Hs. rewrite Gi, Fx in Hs. discriminate.
      * destruct (same_plen s s2 (RL k) r' Ss N (Other r' N Hr)) as (A & B & Cc & Dd). rewrite A.
        apply Tp; [auto| |congruence]. unfold stretchy_ref in *. rewrite Dd in Hs. exact Hs.
    + intros j. rewrite (q_nslots _ _ Cf), (q_stype _ _ Cf). apply Ts.
  - constructor; try (apply Cf).
    + intros r' N. apply (field_same s s2 (RL k) r' Ss N).
    + unfold field. replace (liveb s2 (RL k)) with true by (symmetry; apply liveb_iff; assumption).
      f_equal. unfold rdesc, value. rewrite Gi, Hin. cbn [rrel]. rewrite Ei. reflexivity.
    + intros y _. rewrite (q_dat _ _ Cf). reflexivity.
    + intros r' N Hr. apply (same_plen s s2 (RL k) r' Ss N Hr).
Qed.

(** ** Changing the payload of an existing variable-length field *)
Definition new_content (s : st) (r : ref) (disc : bool) (v : tv) : option (Z * list Z) :=
  if needed disc v =? 0 then
    match r with
    | RL _ => if rrel s r =? 0 then Some (rdesc s r, []) else None
    | RP _ => Some (rdesc s r, [])
    end
  else Some (rdesc s r, pay v).

(** no hole this operation makes is wider than 2047 units *)
Definition roomy (s : st) (r : ref) (n : Z) : bool :=
  (rrel s r =? 0) || (n =? plen s r) ||
  (if n =? 0
   then match r with RP _ => raddr s r + plen s r =? tail s | RL _ => false end ||
        negb (wide_hole s (raddr s r) (plen s r))
   else negb (wide_slip s r (plen s r) n)).

(** why an operation on an existing field fails *)
Definition no_room (s : st) (r : ref) (n : Z) : Prop :=
  index_full s \/
  (plen s r < n /\ (forall k, nzh s k -> hunits (idx s k) < n) /\
   tail_space s < n - (if raddr s r + plen s r =? tail s then if jv s =? 0 then plen s r else 0 else 0)).

Definition stretchy_wf (g : Z) (disc : bool) (v : tv) : Prop :=
  Z.of_nat (length (pay v)) < 65536 /\
  (pay v <> [] -> brutto g (nth 0 (pay v) 0) = Z.of_nat (length (pay v))).

Lemma needed_len disc v : needed disc v <> 0 -> needed disc v = Z.of_nat (length (pay v)) /\ pay v <> [].
Proof.
  unfold needed. destruct (disc || negb (v_empty v)); [|congruence]. intros H. split; [reflexivity|].
  intros E. rewrite E in H. apply H. reflexivity.
Qed.

Lemma stretchy_not s r : stretchy_ref s r = true ->
  match r with RL _ => fixed_genus (rgenus s r) | RP _ => false end = false /\
  match r with RL _ => is_inplaced_genus (rgenus s r) | RP _ => false end = false.
Proof.
  unfold stretchy_ref. destruct r as [k|j]; [|auto]. intros H. apply Bool.negb_true_iff in H.
  split; [assumption|]. destruct (is_inplaced_genus _) eqn:E; [|reflexivity].
  apply inplaced_units in E. destruct E. congruence.
Qed.

Lemma resized_desc s s' L r u : resized s s' L r u -> rdesc s' r = rdesc s r /\ rgenus s' r = rgenus s r.
Proof.
  intros Z. destruct r as [k|j]; cbn [rdesc rgenus].
  - unfold egenus. rewrite (z_gid _ _ _ _ _ Z k eq_refl). auto.
  - rewrite (q_stype _ _ (f_cfg _ _ _ (z_same _ _ _ _ _ Z))). auto.
Qed.

Lemma finish_resized s s1 r ws : TInv s -> resized s s1 (plen s) r (Z.of_nat (length ws)) ->
  stretchy_ref s r = true -> brutto (rgenus s r) (nth 0 ws 0) = Z.of_nat (length ws) -> ws <> [] ->
  TInv (write_units s1 (raddr s1 r) ws) /\
  effect s (write_units s1 (raddr s1 r) ws) r (Some (rdesc s r, ws)).
Proof.
  intros T Z Hst Hb Hne. destruct (resized_desc _ _ _ _ _ Z) as [Ed Eg].
  assert (Hst1 : stretchy_ref s1 r = true) by (unfold stretchy_ref in *; rewrite Eg; exact Hst).
  destruct (stretchy_not _ _ Hst1) as [F1 F2]. rewrite <- Ed.
  apply (finish_write s s1 (Lset (plen s) r (Z.of_nat (length ws))) r ws T).
  - exact (z_same _ _ _ _ _ Z).
  - exact (z_inv _ _ _ _ _ Z).
  - intros. apply Lset_other. assumption.
  - exact (z_live _ _ _ _ _ Z).
  - apply Lset_same.
  - exact F2.
  - intros _. rewrite Eg. split; assumption.
  - intros F. rewrite F1 in F. discriminate.
Qed.

Lemma assign_ref_spec s r disc v : TInv s -> live s r -> stretchy_ref s r = true ->
  stretchy_wf (rgenus s r) disc v -> roomy s r (needed disc v) = true ->
  match assign_ref repaired s r disc v with
  | Ok _ s' => TInv s' /\ effect s s' r (new_content s r disc v)
  | Throw s' => no_room s r (needed disc v) /\
      (s' = s \/ (exists j, r = RP j /\ needed disc v = 0 /\ s' = with_jv s (jv s + plen s r)))
  | Bad => False
  end.
Proof.
  intros T Hl Hst [Hlen Hb] Hroom. pose proof (t_inv _ T) as Ti.
  pose proof (v_acc _ _ Ti) as H.
  destruct (stretchy_not _ _ Hst) as [F1 F2].
  pose proof (needed_len disc v) as Hnl.
  assert (Hn0 : 0 <= needed disc v) by (unfold needed; destruct (_ || _); lia).
  unfold assign_ref, new_content. cbv zeta. set (n := needed disc v) in *.
  destruct (rrel s r =? 0) eqn:Er; cbn [negb].
  - (* no payload yet *)
    assert (P0 : plen s r = 0) by (unfold plen; rewrite F1, Er; reflexivity).
    destruct (n =? 0) eqn:En.
    { replace (match r with RL _ => Some (rdesc s r, []) | RP _ => Some (rdesc s r, []) end)
        with (Some (rdesc s r, @nil Z)) by (destruct r; reflexivity).
      apply (finish_null s s (plen s) r T (same_refl' _ _) Ti); auto. lia. }
    specialize (Hnl ltac:(lia)). destruct Hnl as [Hnl Hne].
    destruct (lookup_fit_spec s (plen s) n H ltac:(lia)) as (o & Eo & Ho).
    unfold alloc_data. rewrite Eo.
    assert (Ho' : forall h, o = Some h -> nzh s h /\ n <= hunits (idx s h)) by (intros h ->; destruct Ho as (X & Y & _); auto).
    pose proof (alloc_data_at_spec s (plen s) n o Ti ltac:(lia) Ho') as A.
    destruct (alloc_data_at s n o) as [c s0|s0|]; cbn [bind]; [| |contradiction].
    + destruct A as (G & S1 & _).
      assert (Hl1 : live s0 r) by (apply (f_live _ _ _ S1); auto).
      destruct (attach s0 (plen s) r c n G Hl1 P0) as (A1 & A2 & A3 & A4 & A5 & A6).
      set (s1 := set_rpayload s0 r c) in *.
      assert (Z1 : resized s s1 (plen s) r n).
      { constructor; auto.
        - eapply same_trans; [eapply same_weaken; [exact S1|intros x []]|exact A2].
        - intros k ->. rewrite (A6 k eq_refl). rewrite (f_ent _ _ _ S1) by auto. reflexivity. }
      rewrite Hnl in Z1. rewrite <- A4.
      exact (finish_resized s s1 r (pay v) T Z1 Hst (Hb Hne) Hne).
    + destruct A as (-> & -> & A).
      split; [|auto]. right. split; [lia|]. split; [exact Ho|]. rewrite P0.
      destruct (_ =? tail s); [destruct (jv s =? 0)|]; lia.
  - (* there is a payload *)
    assert (Hp : brutto (rgenus s r) (dat s (raddr s r)) = plen s r) by (unfold plen; rewrite F1, Er; reflexivity).
    rewrite Hp.
    assert (Hpos : 0 < plen s r) by (apply (t_pos _ T); auto; lia).
    destruct (n =? plen s r) eqn:En.
    { destruct (Hnl ltac:(lia)) as [Hnl' Hne]. replace (n =? 0) with false by lia.
      apply (finish_write s s (plen s) r (pay v) T (same_refl' _ _) Ti); auto; try lia.
      intros F. rewrite F1 in F. discriminate. }
    unfold roomy in Hroom. rewrite Er, En in Hroom. cbn [orb] in Hroom.
    destruct (n =? 0) eqn:En0.
    { destruct r as [k|j].
      - assert (Hc : wide_hole s (addr s k) (plen s (RL k)) = false).
        { cbn [orb] in Hroom. apply Bool.negb_true_iff in Hroom. exact Hroom. }
        destruct (erase_loose_spec s k T Hl Hc) as (s' & E & T' & Ef & _).
        unfold erase_loose in E. rewrite E. split; assumption.
      - unfold release_data.
        pose proof (i_jc _ _ _ _ _ _ H) as Hjc.
        destruct (lookup_adjacent_spec s (raddr s (RP j)) (raddr s (RP j) + plen s (RP j)) ltac:(lia)) as ([bf af] & E & Hadj).
        rewrite E.
        assert (Hc : raddr s (RP j) + plen s (RP j) = tail s \/ plen s (RP j) + hu s bf + hu s af <= 2047).
        { destruct (raddr s (RP j) + plen s (RP j) =? tail s) eqn:Et; [left; lia|right].
          cbn [orb] in Hroom. apply Bool.negb_true_iff in Hroom.
          destruct (wide_hole_cap s (plen s) _ _ H Hroom) as [X|X]; [lia|exact (X (bf, af) Hadj)]. }
        pose proof (detach s (plen s) (RP j) Ti Hl Hpos) as G.
        pose proof (release_data_at_spec s _ _ _ bf af None G Hadj Hc ltac:(discriminate)) as Q.
        destruct (release_data_at s (raddr s (RP j)) (plen s (RP j)) (bf, af) None) as [o s1|s1|]; cbn [bind]; [| |contradiction].
        + destruct Q as (I1 & S1 & _ & _ & _).
          assert (Hl1 : live s1 (RP j)) by (apply (f_live _ _ _ S1); auto).
          destruct (Inv_reref s1 _ (RP j) 0 I1 Hl1 (Lset_same _ _ _) ltac:(lia)) as (I2 & S2 & Hl2).
          assert (Ss : same s (set_rrel s1 (RP j) 0) (only (RP j))).
          { eapply same_trans; [eapply same_weaken; [exact S1|intros x []]|exact S2]. }
          replace (rdesc s (RP j)) with (rdesc (set_rrel s1 (RP j) 0) (RP j)).
          2:{ cbn [rdesc]. rewrite (q_stype _ _ (f_cfg _ _ _ Ss)). reflexivity. }
          apply (finish_null s _ (Lset (plen s) (RP j) 0) (RP j) T Ss I2); auto.
          * intros r' N. apply Lset_other. assumption.
          * apply Lset_same.
          * cbn. apply fupd_same.
        + destruct Q as (_ & _ & _ & _ & -> & Hf). split; [left; exact Hf|].
          right. exists j. split; [reflexivity|]. split; [lia|reflexivity]. }
    assert (Hn1 : n <> 0) by lia. destruct (Hnl Hn1) as [Hnl' Hne].
    apply Bool.negb_true_iff in Hroom.
    pose proof (realloc_data_spec s (plen s) r n Ti Hl Hpos ltac:(lia) ltac:(lia) Hroom) as Q.
    destruct (realloc_data repaired s r (plen s r) n) as [o s1|s1|]; cbn [bind]; [| |contradiction].
    + rewrite Hnl' in Q. exact (finish_resized s s1 r (pay v) T Q Hst (Hb Hne) Hne).
    + destruct Q as (-> & Q). split; [|auto]. destruct Q as [Q|(Q1 & Q2 & Q3 & _)]; [left; exact Q|].
      right. auto.
Qed.

(** ** Adding a field *)
Lemma alloc_loose_field s desc v u k s1 : TInv s -> 0 <= desc < 65536 ->
  is_hole (mkE 0 desc) = false -> wf_pay (descriptor2genus desc) v ->
  u = (if fixed_genus (descriptor2genus desc) then loose_units (descriptor2genus desc) else Z.of_nat (length v)) ->
  alloc_loose repaired s desc u = Ok k s1 ->
  ~ live s (RL k) /\
  let s2 := if is_inplaced_genus (descriptor2genus desc) then write_fixed s1 k v
            else write_units s1 (addr s1 k) v in
  TInv s2 /\ effect s s2 (RL k) (Some (desc, v)).
Proof.
  intros T Hd Hh Hwf Hu E. pose proof (t_inv _ T) as Ti.
  set (g := descriptor2genus desc) in *.
  pose proof (loose_units_range g) as Lr.
  assert (Hub : 0 <= u < 65536).
  { unfold wf_pay in Hwf. destruct (fixed_genus g) eqn:Ef; [lia|].
    destruct (is_inplaced_genus g) eqn:Ei; [apply inplaced_units in Ei; destruct Ei; congruence|]. lia. }
  pose proof (alloc_loose_spec s (plen s) desc u Ti Hub Hd Hh) as Q. rewrite E in Q.
  destruct Q as (Q1 & Q2 & Q3 & Q4 & Q5 & Q6). split; [exact Q1|].
  assert (Eg : egenus (idx s1 k) = g) by (unfold egenus; rewrite Q3; reflexivity).
  assert (Ed : rdesc s1 (RL k) = desc) by exact Q3.
  assert (HLo : forall r', r' <> RL k -> Lset (plen s) (RL k) u r' = plen s r') by (intros; apply Lset_other; assumption).
  unfold wf_pay in Hwf. destruct (is_inplaced_genus g) eqn:Ei.
  - destruct Hwf as (x & -> & Hx). destruct (inplaced_units _ Ei) as [U0 Fx]. rewrite Fx, U0 in Hu.
    unfold write_fixed. rewrite Eg, Ei. cbn [nth]. unfold u16. change (2 ^ 16) with 65536. rewrite Z.mod_small by lia.
    pose proof (finish_inplaced s s1 _ k x T Q4 Q5 HLo Q2) as P. rewrite Lset_same, Eg, Ei, Q3 in P.
    specialize (P Hu Hx eq_refl). rewrite Q3. exact P.
  - assert (Hlen : Z.of_nat (length v) = u) by (destruct (fixed_genus g); lia).
    change (addr s1 k) with (raddr s1 (RL k)).
    destruct (list_eq_dec Z.eq_dec v []) as [Ev|Ev].
    + (* an empty payload *)
      subst v. cbn [length] in Hlen.
      assert (Fx : fixed_genus g = false).
      { destruct (fixed_genus g) eqn:Ef; [|reflexivity].
        assert (g <= 30).
        { unfold g, is_hole in *. cbn [gid] in Hh. rewrite descriptor2genus_arith in *. change g_hole with 31 in Hh. lia. }
        pose proof (fixed_units g Ef ltac:(lia) Ei). lia. }
      assert (R0 : rrel s1 (RL k) = 0) by (apply Q6; lia).
      pose proof (finish_null s s1 _ (RL k) T Q4 Q5 HLo Q2) as P. rewrite Lset_same in P.
      specialize (P ltac:(lia) R0). unfold stretchy_ref in P. cbn [rgenus] in P. rewrite Eg, Fx, Ed in P.
      destruct (P eq_refl) as [P1 P2]. clear P.
      set (s2 := write_units s1 (raddr s1 (RL k)) []).
      assert (Dx : forall x, dat s2 x = dat s1 x).
      { intros x. unfold s2, write_units. cbn [dat with_dat length].
        replace ((raddr s1 (RL k) <=? x) && (x <? raddr s1 (RL k) + Z.of_nat 0)) with false by lia. reflexivity. }
      assert (Px : forall r, plen s2 r = plen s1 r).
      { intros r. unfold plen. change (rgenus s2 r) with (rgenus s1 r). change (rrel s2 r) with (rrel s1 r).
        change (raddr s2 r) with (raddr s1 r). rewrite Dx. reflexivity. }
      assert (Fe : forall r, field s2 r = field s1 r).
      { intros r. unfold field. change (liveb s2 r) with (liveb s1 r). change (rdesc s2 r) with (rdesc s1 r).
        replace (value s2 r) with (value s1 r); [reflexivity|].
        unfold value. rewrite Px. change (rgenus s2 r) with (rgenus s1 r). change (rrel s2 r) with (rrel s1 r).
        change (raddr s2 r) with (raddr s1 r). unfold read_units.
        destruct (match r with RL _ => _ | RP _ => _ end); [reflexivity|].
        apply map_ext. intros. symmetry. apply Dx. }
      split.
      * destruct P1 as [a b c]. constructor.
        -- apply Inv_Lext with (L := plen s1); [intros; apply Px|]. apply Inv_dat. exact a.
        -- intros r Hr Hs Hn. rewrite Px. apply b; auto.
        -- exact c.
      * destruct P2 as [p1 p2 p3 p4 p5 p6 p7 p8 p9 p10]. constructor; auto; [intros; rewrite Fe; auto..|].
        intros x Hx. rewrite Dx. apply p9. rewrite <- Px. exact Hx.
    + rewrite <- Ed. apply (finish_write s s1 _ (RL k) v T Q4 Q5 HLo Q2).
      * rewrite Lset_same. lia.
      * cbn [rgenus]. rewrite Eg. exact Ei.
      * cbn [rgenus]. rewrite Eg. intros Ef. rewrite Ef in Hwf. destruct Hwf as [_ W]. auto.
      * cbn [rgenus]. rewrite Eg. intros Ef. rewrite Ef in Hu. lia.
Qed.

(** rewriting an existing loose field of fixed size *)
Lemma write_fixed_field s k v : TInv s -> live s (RL k) -> fixed_genus (egenus (idx s k)) = true ->
  wf_pay (egenus (idx s k)) v ->
  TInv (write_fixed s k v) /\ effect s (write_fixed s k v) (RL k) (Some (gid (idx s k), v)).
Proof.
  intros T Hl Hf Hwf. pose proof (t_inv _ T) as Ti. unfold wf_pay in Hwf. unfold write_fixed.
  destruct (is_inplaced_genus (egenus (idx s k))) eqn:Ei.
  - destruct Hwf as (x & -> & Hx). cbn [nth]. unfold u16. change (2 ^ 16) with 65536. rewrite Z.mod_small by lia.
    apply (finish_inplaced s s (plen s) k x T (same_refl' _ _) Ti); auto.
    unfold plen. cbn [rgenus]. rewrite Hf. apply inplaced_units. exact Ei.
  - rewrite Hf in Hwf. change (addr s k) with (raddr s (RL k)).
    apply (finish_write s s (plen s) (RL k) v T (same_refl' _ _) Ti); auto.
    + unfold plen. cbn [rgenus]. rewrite Hf. lia.
    + cbn [rgenus]. rewrite Hf. discriminate.
Qed.

