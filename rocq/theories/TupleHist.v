(** * TupleHist: whole editing histories (proofs). *)
From Verif Require Import Base Tag TagProofs Codec Gear GearBase GearSearch GearProofs GearMerge GearAlloc
  GearRealloc GearResize GearAsis Tuple TupleProofs TupleSteps TupleView TupleOps.
From Coq Require Import ZifyBool ZifyNat Permutation.
Ltac Zify.zify_post_hook ::= Z.div_mod_to_equations.

(** ** Valid calls.  [multi] says which descriptors the caller uses as collections. *)
Definition stretchy_ok (g : Z) (v : tv) : Prop := stretchy_wf g false v.
Definition valid (multi : Z -> bool) (s : st) (o : op) : Prop :=
  match o with
  | OSet desc disc v => real_desc desc /\ multi desc = false /\ wf_pay (descriptor2genus desc) (pay v)
  | ORemove desc => real_desc desc /\ multi desc = false
  | OAppend desc disc v => real_desc desc /\ multi desc = true /\ wf_pay (descriptor2genus desc) (pay v)
  | OEraseAll desc => real_desc desc /\ multi desc = true
  | OErase k => live s (RL k) /\ multi (gid (idx s k)) = true
  | OSlot j disc v => (j < nslots s)%nat /\ stretchy_ok (stype s j) v
  | OSlotDel j => (j < nslots s)%nat
  end.

(** ** What a caller expects *)
Inductive key := KL (desc : Z) | KP (j : nat).
Definition key_eqb (a b : key) : bool :=
  match a, b with KL x, KL y => x =? y | KP x, KP y => Nat.eqb x y | _, _ => false end.
(** the value an operation gives to a field: [None] = the operation does not concern the field,
    [Some None] = the field is removed, [Some (Some p)] = it gets the value [p] *)
Definition wrote (k : key) (o : op) : option (option (list Z)) :=
  match o with
  | OSet desc disc v =>
    if key_eqb k (KL desc) then Some (if stores desc disc v then Some (pay v) else None) else None
  | ORemove desc => if key_eqb k (KL desc) then Some None else None
  | OSlot j disc v =>
    if key_eqb k (KP j) then Some (if needed disc v =? 0 then None else Some (pay v)) else None
  | OSlotDel j => if key_eqb k (KP j) then Some None else None
  | _ => None
  end.
(** the value of the last successful write *)
Fixpoint last_write (k : key) (init : option (list Z)) (h : list (op * bool)) : option (list Z) :=
  match h with
  | [] => init
  | (o, ok) :: h =>
    last_write k (if ok then match wrote k o with Some x => x | None => init end else init) h
  end.
(** reading *)
Definition get (s : st) (k : key) : option (list Z) :=
  match k with KL desc => get_loose s desc | KP j => get_slot s j end.
Definition single_key (multi : Z -> bool) (s : st) (k : key) : Prop :=
  match k with KL desc => real_desc desc /\ multi desc = false | KP j => (j < nslots s)%nat end.

(** ** Collections *)
Fixpoint remove1 (p : list Z) (B : list (list Z)) : list (list Z) :=
  match B with
  | [] => []
  | x :: B => if list_eq_dec Z.eq_dec x p then B else x :: remove1 p B
  end.
(** [shown] is what reading the element showed just before it was erased *)
Definition shown (s : st) (o : op) : option (Z * list Z) :=
  match o with OErase k => field s (RL k) | _ => None end.
Definition bag_step (desc : Z) (B : list (list Z)) (o : op) (ok : bool) (sh : option (Z * list Z)) : list (list Z) :=
  if ok then
    match o with
    | OAppend d disc v => if (d =? desc) && negb (negb disc && v_empty v) then pay v :: B else B
    | OEraseAll d => if d =? desc then [] else B
    | OErase k => match sh with Some (d, p) => if d =? desc then remove1 p B else B | None => B end
    | _ => B
    end
  else B.

Lemma remove1_perm p l B : Permutation (p :: l) B -> Permutation l (remove1 p B).
Proof.
  revert l. induction B as [|x B IH]; intros l H.
  - symmetry in H. apply Permutation_nil in H. discriminate.
  - cbn [remove1]. destruct (list_eq_dec Z.eq_dec x p) as [->|N].
    + apply Permutation_cons_inv in H. exact H.
    + assert (Hin : In x (p :: l)) by (eapply Permutation_in; [symmetry; exact H|left; reflexivity]).
      destruct Hin as [E|Hin]; [congruence|]. apply in_split in Hin. destruct Hin as (a & b & ->).
      assert (H2 : Permutation (p :: a ++ b) B).
      { apply Permutation_cons_inv with (a := x). etransitivity; [|exact H].
        rewrite perm_swap. apply perm_skip. apply Permutation_middle. }
      specialize (IH _ H2). etransitivity; [symmetry; apply Permutation_middle|]. apply perm_skip. exact IH.
Qed.

(** ** One step *)
Definition uniq (multi : Z -> bool) (s : st) : Prop :=
  forall desc, real_desc desc -> multi desc = false -> (length (view s desc) <= 1)%nat.

(** an effect on one loose field of descriptor [d] leaves the views of other descriptors alone *)
Lemma effect_other s s' k o d desc : real_desc desc -> effect s s' (RL k) o -> d <> desc ->
  (match field s (RL k) with Some (x, _) => x = d | None => True end) ->
  (match o with Some (x, _) => x = d | None => True end) -> view s' desc = view s desc.
Proof.
  intros Hd E N F1 F2. destruct (view_effect s s' k o desc Hd E) as (l1 & l2 & E1 & E2). rewrite E1, E2.
  assert (I1 : item desc (field s (RL k)) = []).
  { unfold item. destruct (field s (RL k)) as [[x p]|]; [|reflexivity]. subst x. replace (d =? desc) with false by lia. reflexivity. }
  assert (I2 : item desc o = []).
  { unfold item. destruct o as [[x p]|]; [|reflexivity]. subst x. replace (d =? desc) with false by lia. reflexivity. }
  rewrite I1, I2. reflexivity.
Qed.

Lemma effect_get_slot s s' r o j : TInv s -> TInv s' -> effect s s' r o -> r <> RP j -> (j < nslots s)%nat ->
  get_slot s' j = get_slot s j.
Proof.
  intros T T' E N Hj. rewrite !get_slot_view; auto.
  - rewrite (effect_slots s s' r o j E N Hj). reflexivity.
  - rewrite (e_nslots _ _ _ _ E). exact Hj.
Qed.

Record stepped (multi : Z -> bool) (s s' : st) (o : op) : Prop := {
  p_inv : TInv s';
  p_nslots : nslots s' = nslots s;
  p_stype : forall j, (j < nslots s)%nat -> stype s' j = stype s j;
  p_get : forall k, single_key multi s k ->
            get s' k = match wrote k o with Some x => x | None => get s k end;
  p_uniq : uniq multi s';
  p_bag : forall desc B, real_desc desc -> multi desc = true -> Permutation (view s desc) B ->
            Permutation (view s' desc) (bag_step desc B o true (shown s o))
}.

Lemma obs_some desc p : (fixed_genus (descriptor2genus desc) = true \/ p <> []) -> obs desc p = Some p.
Proof. unfold obs. intros [->|H]; [reflexivity|]. destruct (fixed_genus _); [reflexivity|]. destruct p; congruence. Qed.

Lemma stores_obs desc disc v : stores desc disc v = true -> obs desc (pay v) = Some (pay v).
Proof.
  intros H. apply obs_some. unfold stores in H. destruct (fixed_genus _); [auto|right].
  apply Bool.negb_true_iff in H. destruct (needed_len disc v ltac:(lia)). assumption.
Qed.

Lemma set_stepped multi s s' desc disc v : TInv s -> uniq multi s -> real_desc desc -> multi desc = false ->
  TInv s' -> set_effect s desc disc v s' -> stepped multi s s' (OSet desc disc v).
Proof.
  intros T U Hd Hm T' E.
  assert (Main : (nslots s' = nslots s /\ forall j, stype s' j = stype s j) /\
    (forall j, (j < nslots s)%nat -> get_slot s' j = get_slot s j) /\
    (forall d, real_desc d -> d <> desc -> view s' d = view s d) /\
    (length (view s' desc) <= 1)%nat /\
    obs1 desc (view s' desc) = if stores desc disc v then Some (pay v) else None).
  { pose proof (U desc Hd Hm) as U1.
    assert (Eff : forall k o, effect s s' (RL k) o ->
       (match field s (RL k) with Some (x, _) => x = desc | None => True end) ->
       (match o with Some (x, _) => x = desc | None => True end) ->
       (nslots s' = nslots s /\ forall j, stype s' j = stype s j) /\
       (forall j, (j < nslots s)%nat -> get_slot s' j = get_slot s j) /\
       (forall d, real_desc d -> d <> desc -> view s' d = view s d)).
    { intros k o Ef F1 F2. split; [split; [apply (e_nslots _ _ _ _ Ef)|rewrite (e_stype _ _ _ _ Ef); reflexivity]|].
      split; [intros j Hj; eapply effect_get_slot; eauto; discriminate|].
      intros d Hd' N. eapply effect_other; eauto. }
    inversion E as [St Lk E0|k s0 St Lk Nl Ef E0|k s0 St Lk Ef E0|k s0 St Lk Ef E0|k s0 St Lk Fx Ef E0]; subst.
    - split; [auto|]. split; [auto|]. split; [auto|]. rewrite St.
      rewrite (lookup_none _ _ Lk). cbn. auto.
    - destruct (Eff k _ Ef) as (A & B & C); [rewrite field_dead by assumption; exact I|reflexivity|].
      split; [exact A|]. split; [exact B|]. split; [exact C|].
      destruct (view_effect s s' k _ desc Hd Ef) as (l1 & l2 & E1 & E2).
      rewrite (lookup_none _ _ Lk), (field_dead s) in E1 by assumption. cbn [item app] in E1.
      destruct l1; [|discriminate]. cbn [app] in E1. subst l2.
      rewrite E2. unfold item. rewrite Z.eqb_refl. cbn [app length obs1]. rewrite St. split; [lia|].
      eapply stores_obs; eassumption.
    - destruct (lookup_some _ _ _ Hd Lk) as [Hl Hg].
      assert (Fk : field s (RL k) = Some (desc, value s (RL k))) by (rewrite field_live by assumption; cbn [rdesc]; rewrite Hg; reflexivity).
      destruct (Eff k _ Ef) as (A & B & C); [rewrite Fk; reflexivity|reflexivity|].
      split; [exact A|]. split; [exact B|]. split; [exact C|].
      destruct (view_effect s s' k _ desc Hd Ef) as (l1 & l2 & E1 & E2).
      rewrite Fk in E1. unfold item in E1, E2. rewrite Z.eqb_refl in E1, E2.
      rewrite E1, app_length in U1. cbn [length app] in U1.
      destruct l1; [|cbn in U1; lia]. destruct l2; [|cbn in U1; lia].
      rewrite E2, St. cbn [app length obs1]. split; [lia|]. eapply stores_obs; eassumption.
    - destruct (lookup_some _ _ _ Hd Lk) as [Hl Hg].
      assert (Fk : field s (RL k) = Some (desc, value s (RL k))) by (rewrite field_live by assumption; cbn [rdesc]; rewrite Hg; reflexivity).
      destruct (Eff k _ Ef) as (A & B & C); [rewrite Fk; reflexivity|exact I|].
      split; [exact A|]. split; [exact B|]. split; [exact C|].
      destruct (view_effect s s' k _ desc Hd Ef) as (l1 & l2 & E1 & E2).
      rewrite Fk in E1. unfold item in E1, E2. rewrite Z.eqb_refl in E1.
      rewrite E1, app_length in U1. cbn [length app] in U1.
      destruct l1; [|cbn in U1; lia]. destruct l2; [|cbn in U1; lia].
      rewrite E2, St. cbn. auto.
    - destruct (lookup_some _ _ _ Hd Lk) as [Hl Hg].
      assert (Fk : field s (RL k) = Some (desc, value s (RL k))) by (rewrite field_live by assumption; cbn [rdesc]; rewrite Hg; reflexivity).
      destruct (Eff k _ Ef) as (A & B & C); [rewrite Fk; reflexivity|reflexivity|].
      split; [exact A|]. split; [exact B|]. split; [exact C|].
      destruct (view_effect s s' k _ desc Hd Ef) as (l1 & l2 & E1 & E2).
      rewrite Fk in E1. unfold item in E1, E2. rewrite Z.eqb_refl in E1, E2.
      rewrite E1, app_length in U1. cbn [length app] in U1.
      destruct l1; [|cbn in U1; lia]. destruct l2; [|cbn in U1; lia].
      rewrite E2, St. cbn [app length obs1]. unfold obs. rewrite Fx. auto. }
  destruct Main as ((M1 & M1') & M2 & M3 & M4 & M5). constructor; auto.
  - intros [d|j] Hk; cbn [get wrote key_eqb].
    + destruct Hk as [Hr Hs]. rewrite !get_loose_view by assumption. destruct (d =? desc) eqn:Ed.
      * assert (d = desc) by lia. subst d. exact M5.
      * rewrite M3 by (auto; lia). reflexivity.
    + apply M2. exact Hk.
  - intros d Hr Hs. destruct (Z.eq_dec d desc) as [->|N]; [exact M4|]. rewrite M3 by auto. apply U; assumption.
  - intros d B Hr Hs HP. cbn [bag_step shown]. rewrite M3; auto. congruence.
Qed.

(** removing one loose field *)
Lemma gone_view s s' k desc : real_desc desc -> live s (RL k) -> effect s s' (RL k) None ->
  if gid (idx s k) =? desc
  then exists l1 l2, view s desc = l1 ++ value s (RL k) :: l2 /\ view s' desc = l1 ++ l2
  else view s' desc = view s desc.
Proof.
  intros Hd Hl E. destruct (view_effect s s' k None desc Hd E) as (l1 & l2 & E1 & E2).
  rewrite field_live in E1 by assumption. unfold item in E1. cbn [rdesc] in E1.
  destruct (gid (idx s k) =? desc).
  - exists l1, l2. auto.
  - rewrite E1, E2. reflexivity.
Qed.

(** changing one preplaced field *)
Lemma slot_stepped multi s s' j p o : TInv s -> uniq multi s -> TInv s' -> (j < nslots s)%nat ->
  effect s s' (RP j) (Some (stype s j, p)) ->
  (forall k, wrote k o = if key_eqb k (KP j) then Some (match p with [] => None | _ => Some p end) else None) ->
  (forall desc B, bag_step desc B o true (shown s o) = B) ->
  stepped multi s s' o.
Proof.
  intros T U T' Hj E W Bg. constructor; auto.
  - apply (e_nslots _ _ _ _ E).
  - intros i _. rewrite (e_stype _ _ _ _ E); reflexivity.
  - intros k Hk. rewrite W. destruct k as [d|i]; cbn [key_eqb get single_key] in *.
    + destruct Hk as [Hr Hs]. rewrite !get_loose_view by assumption.
      rewrite (view_effect_slot s s' j _ d Hr E). reflexivity.
    + destruct (Nat.eqb i j) eqn:Ei.
      * apply Nat.eqb_eq in Ei. subst i. rewrite get_slot_view; auto; [|rewrite (e_nslots _ _ _ _ E); exact Hj].
        rewrite (effect_slot_same _ _ _ _ _ E Hj). destruct p; reflexivity.
      * apply Nat.eqb_neq in Ei. eapply effect_get_slot; eauto. congruence.
  - intros d Hr Hs. rewrite (view_effect_slot s s' j _ d Hr E). apply U; assumption.
  - intros d B Hr Hs HP. rewrite Bg, (view_effect_slot s s' j _ d Hr E). exact HP.
Qed.

Lemma erase_slot_assign q s j : TInv s -> (j < nslots s)%nat ->
  erase_slot s j = assign_ref q s (RP j) false (mkV true []).
Proof.
  intros T Hj. unfold erase_slot, assign_ref. cbv zeta. destruct (rrel s (RP j) =? 0) eqn:E; cbn [negb].
  - reflexivity.
  - pose proof (t_pos _ T (RP j) Hj eq_refl ltac:(lia)) as P.
    unfold plen in P. cbv zeta in P. rewrite E in P. change (rgenus s (RP j)) with (stype s j) in *.
    replace (needed false (mkV true [])) with 0 by reflexivity.
    replace (0 =? brutto (stype s j) (dat s (raddr s (RP j)))) with false by lia. reflexivity.
Qed.

Lemma step multi s o : TInv s -> uniq multi s -> valid multi s o -> calm s o = true ->
  match run1 asis s o with
  | Ok _ s' => stepped multi s s' o
  | Throw s' => s' = s
  | Bad => False
  end.
Proof.
  intros T U V C. destruct o as [desc disc v|desc|desc disc v|desc|k|j disc v|j].
  - destruct V as (Hd & Hm & Hw). pose proof (set_step s desc disc v T Hd Hw C) as Q.
    destruct (run1 asis s (OSet desc disc v)) as [[] s'|s'|]; [|apply Q|contradiction].
    destruct Q as [T' E]. apply set_stepped; assumption.
  - destruct V as (Hd & Hm). cbn [run1 calm] in *. destruct (lookup_gid s desc) as [k|] eqn:Lk.
    + destruct (lookup_some _ _ _ Hd Lk) as [Hl Hg]. unfold calm_free in C.
      destruct (erase_loose_spec s k T Hl ltac:(apply Bool.negb_true_iff; assumption)) as (s' & -> & T' & E & _).
      pose proof (U desc Hd Hm) as U1.
      assert (Vw : view s' desc = []).
      { pose proof (gone_view s s' k desc Hd Hl E) as G. rewrite Hg, Z.eqb_refl in G.
        destruct G as (l1 & l2 & E1 & E2). rewrite E1, app_length in U1. cbn in U1.
        destruct l1; [|cbn in U1; lia]. destruct l2; [|cbn in U1; lia]. exact E2. }
      assert (Vo : forall d, real_desc d -> d <> desc -> view s' d = view s d).
      { intros d Hr N. pose proof (gone_view s s' k d Hr Hl E) as G. rewrite Hg in G.
        replace (desc =? d) with false in G by lia. exact G. }
      constructor; auto.
      * apply (e_nslots _ _ _ _ E).
      * intros; rewrite (e_stype _ _ _ _ E); reflexivity.
      * intros [d|j] Hk; cbn [get wrote key_eqb].
        -- destruct Hk as [Hr Hs]. rewrite !get_loose_view by assumption. destruct (d =? desc) eqn:Ed.
           ++ assert (d = desc) by lia. subst d. rewrite Vw. reflexivity.
           ++ rewrite Vo by (auto; lia). reflexivity.
        -- eapply effect_get_slot; eauto. discriminate.
      * intros d Hr Hs. destruct (Z.eq_dec d desc) as [->|N]; [rewrite Vw; cbn; lia|]. rewrite Vo by auto. apply U; assumption.
      * intros d B Hr Hs HP. cbn [bag_step shown]. rewrite Vo; auto. congruence.
    + constructor; auto. intros [d|j] Hk; cbn [get wrote key_eqb]; [|reflexivity].
      destruct (d =? desc) eqn:Ed; [|reflexivity]. assert (d = desc) by lia. subst d.
      rewrite get_loose_view by assumption. rewrite (lookup_none _ _ Lk). reflexivity.
  - destruct V as (Hd & Hm & Hw). cbn [run1].
    pose proof (append_step s desc disc v T Hd Hw C) as Q. clear C Hw.
    destruct (append_loose asis s desc disc v) as [[k|] s'|s'|]; cbn [void bind]; [| |apply Q|contradiction].
    + destruct Q as (Ee & T' & Nl & E).
      assert (Vo : forall d, real_desc d -> d <> desc -> view s' d = view s d).
      { intros d Hr N. eapply (effect_other s s' k _ desc d Hr E); auto. rewrite field_dead by assumption. exact I. }
      constructor; auto.
      * apply (e_nslots _ _ _ _ E).
      * intros; rewrite (e_stype _ _ _ _ E); reflexivity.
      * intros [d|j] Hk; cbn [get wrote].
        -- destruct Hk as [Hr Hs]. rewrite !get_loose_view by assumption. rewrite Vo; auto. congruence.
        -- eapply effect_get_slot; eauto. discriminate.
      * intros d Hr Hs. rewrite Vo; auto. congruence.
      * intros d B Hr Hs HP. cbn [bag_step shown]. rewrite Ee. cbn [negb]. rewrite Bool.andb_true_r.
        destruct (desc =? d) eqn:Ed; [|rewrite Vo; auto; lia].
        assert (desc = d) by lia. subst d.
        destruct (view_effect s s' k _ desc Hd E) as (l1 & l2 & E1 & E2).
        rewrite field_dead in E1 by assumption. unfold item in E1, E2. rewrite Z.eqb_refl in E2. cbn [app] in E1, E2.
        rewrite E2. rewrite E1 in HP. etransitivity; [symmetry; apply Permutation_middle|]. apply perm_skip. exact HP.
    + destruct Q as (Ee & ->). constructor; auto.
      intros d B Hr Hs HP. cbn [bag_step shown]. rewrite Ee. cbn [negb]. rewrite Bool.andb_false_r. exact HP.
  - destruct V as (Hd & Hm). cbn [run1 calm] in *. unfold erase_all.
    destruct (lookup_gid s desc) as [k|] eqn:Lk.
    + destruct (lookup_some _ _ _ Hd Lk) as [Hl Hg].
      assert (Hs : forall i, (k < i < cnt s)%nat -> gid (idx s i) <> desc).
      { intros i Hi. pose proof (scan_down_spec (fun e => gid e =? desc) (idx s) (cnt s)) as Sp.
        unfold lookup_gid in Lk. rewrite Lk in Sp. destruct Sp as (_ & _ & Sp). specialize (Sp i Hi). cbv beta in Sp. lia. }
      destruct (erase_all_from_step desc Hd (S k) s T) as (s' & -> & T' & F & Ns & Pl); [| |exact C|].
      { intros i Hi [A B]. apply Hs. lia. }
      { intros i Hi. destruct (is_hole (idx s i)) eqn:Eh; [right; reflexivity|left].
        destruct Hl as [Kk _]. split; [lia|exact Eh]. }
      assert (Vd : view s' desc = []).
      { rewrite view_vlist by assumption. generalize (cnt s'). intros n. induction n as [|n IH]; [reflexivity|].
        cbn [vlist]. rewrite IH, app_nil_r, F. destruct (field s (RL n)) as [[x p]|]; [|reflexivity].
        unfold item. destruct (x =? desc) eqn:Ex; [reflexivity|]. rewrite Ex. reflexivity. }
      assert (Vo : forall d, real_desc d -> d <> desc -> view s' d = view s d).
      { intros d Hr N. rewrite !view_vlist by assumption.
        set (n := Nat.max (cnt s) (cnt s')).
        rewrite <- (vlist_more _ d (cnt s) n) by (try apply field_out; lia).
        rewrite <- (vlist_more _ d (cnt s') n) by (try apply field_out; lia).
        clear -F N. induction n as [|n IH]; [reflexivity|]. cbn [vlist]. rewrite IH, F. f_equal.
        destruct (field s (RL n)) as [[x p]|]; [|reflexivity]. unfold item.
        destruct (x =? desc) eqn:Ex; [|reflexivity]. replace (x =? d) with false by lia. reflexivity. }
      assert (Fs : forall j, (j < nslots s)%nat -> stype s' j = stype s j /\ value s' (RP j) = value s (RP j)).
      { intros j Hj. specialize (F (RP j)). rewrite !field_live in F; [|exact Hj|unfold live; rewrite Ns; exact Hj].
        cbn [rdesc] in F. injection F as F1 F2. auto. }
      constructor; auto.
      * intros j Hj. apply Fs. exact Hj.
      * intros [d|j] Hk; cbn [get wrote].
        -- destruct Hk as [Hr Hs']. rewrite !get_loose_view by assumption. rewrite Vo; auto. congruence.
        -- cbn [single_key] in Hk. rewrite !get_slot_view; auto; [|rewrite Ns; exact Hk].
           rewrite (proj2 (Fs j Hk)). reflexivity.
      * intros d Hr Hs'. rewrite Vo; auto. congruence.
      * intros d B Hr Hs' HP. cbn [bag_step shown]. destruct (desc =? d) eqn:Ed.
        -- assert (desc = d) by lia. subst d. rewrite Vd. constructor.
        -- rewrite Vo; auto. lia.
    + constructor; auto. intros d B Hr Hs HP. cbn [bag_step shown]. destruct (desc =? d) eqn:Ed; [|exact HP].
      assert (desc = d) by lia. subst d. rewrite (lookup_none _ _ Lk) in *. constructor.
  - destruct V as (Hl & Hm). cbn [run1 calm] in *. unfold calm_free in C.
    destruct (erase_loose_spec s k T Hl ltac:(apply Bool.negb_true_iff; assumption)) as (s' & -> & T' & E & _).
    assert (Vo : forall d, real_desc d -> d <> gid (idx s k) -> view s' d = view s d).
    { intros d Hr N. pose proof (gone_view s s' k d Hr Hl E) as G.
      replace (gid (idx s k) =? d) with false in G by lia. exact G. }
    constructor; auto.
    + apply (e_nslots _ _ _ _ E).
    + intros; rewrite (e_stype _ _ _ _ E); reflexivity.
    + intros [d|j] Hk; cbn [get wrote].
      * destruct Hk as [Hr Hs]. rewrite !get_loose_view by assumption. rewrite Vo; auto. congruence.
      * eapply effect_get_slot; eauto. discriminate.
    + intros d Hr Hs. rewrite Vo; auto. congruence.
    + intros d B Hr Hs HP. cbn [bag_step shown]. rewrite field_live by assumption. cbn [rdesc].
      pose proof (gone_view s s' k d Hr Hl E) as G. destruct (gid (idx s k) =? d); [|rewrite G; exact HP].
      destruct G as (l1 & l2 & E1 & E2). rewrite E2. apply remove1_perm. rewrite E1 in HP.
      etransitivity; [|exact HP]. apply Permutation_middle.
  - destruct V as (Hj & Hw). cbn [run1 calm] in *.
    pose proof (assign_ref_step s (RP j) disc v T Hj eq_refl Hw C) as Q.
    destruct (assign_ref asis s (RP j) disc v) as [[] s'|s'|]; [|apply Q|contradiction].
    destruct Q as [T' E]. unfold new_content in E.
    destruct (needed disc v =? 0) eqn:En.
    + apply (slot_stepped multi s s' j []); auto.
      intros k. cbn [wrote]. rewrite En. reflexivity.
    + apply (slot_stepped multi s s' j (pay v)); auto.
      intros k. cbn [wrote]. rewrite En. destruct (needed_len disc v ltac:(lia)) as [_ Np].
      destruct (pay v); [congruence|]. reflexivity.
  - cbn [run1 calm valid] in *. rewrite (erase_slot_assign asis s j T V).
    pose proof (assign_ref_step s (RP j) false (mkV true []) T V eq_refl) as Q.
    destruct (assign_ref asis s (RP j) false (mkV true [])) as [[] s'|s'|].
    + destruct Q as [T' E]; [split; cbn; [lia|congruence]|exact C|].
      unfold new_content in E. cbn [needed orb negb v_empty Z.eqb] in E.
      apply (slot_stepped multi s s' j []); auto.
    + apply Q; [split; cbn; [lia|congruence]|exact C].
    + apply Q; [split; cbn; [lia|congruence]|exact C].
Qed.

(** ** Histories *)
(** every call is valid and calm in the state it meets *)
Fixpoint calm_run (multi : Z -> bool) (s : st) (l : list op) : Prop :=
  match l with
  | [] => True
  | o :: l => valid multi s o /\ calm s o = true /\
    match run1 asis s o with Ok _ s' | Throw s' => calm_run multi s' l | Bad => False end
  end.
(** outcome of every call together with what was shown before it *)
Fixpoint trace (q : quirks) (s : st) (l : list op) : list (op * bool * option (Z * list Z)) :=
  match l with
  | [] => []
  | o :: l =>
    match run1 q s o with
    | Ok _ s' => (o, true, shown s o) :: trace q s' l
    | Throw s' => (o, false, shown s o) :: trace q s' l
    | Bad => []
    end
  end.
Fixpoint bag_run (desc : Z) (B : list (list Z)) (tr : list (op * bool * option (Z * list Z))) : list (list Z) :=
  match tr with
  | [] => B
  | (o, ok, sh) :: tr => bag_run desc (bag_step desc B o ok sh) tr
  end.

Theorem history multi l : forall s, TInv s -> uniq multi s -> calm_run multi s l ->
  exists outs s', run asis s l = Some (outs, s') /\ length outs = length l /\ TInv s' /\ uniq multi s' /\
    nslots s' = nslots s /\
    (forall k, single_key multi s k -> get s' k = last_write k (get s k) (combine l outs)) /\
    (forall desc B, real_desc desc -> multi desc = true -> Permutation (view s desc) B ->
       Permutation (view s' desc) (bag_run desc B (trace asis s l))).
Proof.
  induction l as [|o l IH]; intros s T U C; cbn [run trace calm_run] in *.
  - exists [], s. repeat (split; [auto|]). auto.
  - destruct C as (V & Cm & C). pose proof (step multi s o T U V Cm) as St.
    destruct (run1 asis s o) as [[] s1|s1|]; [| |contradiction].
    + destruct St as [T1 N1 _ G1 U1 B1].
      destruct (IH s1 T1 U1 C) as (outs & s' & -> & L & T' & U' & N' & G & B).
      exists (true :: outs), s'. split; [reflexivity|]. split; [cbn; lia|]. split; [exact T'|]. split; [exact U'|].
      split; [congruence|]. split.
      * intros k Hk. cbn [combine last_write]. rewrite G, G1; auto.
        destruct k; cbn [single_key] in *; [exact Hk|rewrite N1; exact Hk].
      * intros desc B0 Hr Hm HP. cbn [bag_run]. apply B; auto.
    + subst s1. destruct (IH s T U C) as (outs & s' & -> & L & T' & U' & N' & G & B).
      exists (false :: outs), s'. split; [reflexivity|]. split; [cbn; lia|]. split; [exact T'|]. split; [exact U'|].
      split; [exact N'|]. split.
      * intros k Hk. cbn [combine last_write]. rewrite G; auto.
      * intros desc B0 Hr Hm HP. cbn [bag_run bag_step]. apply B; assumption.
Qed.

(** ** Fresh tuples *)
(** what the constructor accepts (rw.h:192-209): the index and the preplaced part fit the buffer,
    at most 65534 units *)
Record fresh_ok (units pvt ppu : Z) (ns : nat) (so st0 : nat -> Z) : Prop := {
  fo_pvt : 0 <= pvt;
  fo_pp : 0 <= ppu;
  fo_fit : pvt + ppu <= units <= 65534;
  fo_off : forall j, (j < ns)%nat -> 0 <= so j < ppu;
  fo_type : forall j, (j < ns)%nat -> 0 <= st0 j < 4
}.

Lemma fresh_TInv units pvt ppu ns so st0 d : fresh_ok units pvt ppu ns so st0 ->
  TInv (fresh units pvt ppu ns so st0 d).
Proof.
  intros [H1 H2 H3 H4 H5].
  set (s := fresh units pvt ppu ns so st0 d).
  assert (Pl : forall j, plen s (RP j) = 0) by (intros j; reflexivity).
  assert (Z0 : forall f, (forall j, f j = 0) -> sumn ns f = 0) by (intros; apply sumn_zero; auto).
  constructor.
  - constructor.
    + constructor; unfold s, fresh, base; cbn [pivot pp tail end_ cnt nslots soff idx pre jc jv]; try lia; auto.
      * constructor; unfold base; cbn [pivot pp tail end_ cnt nslots soff]; auto; lia.
      * intros x. unfold cov. cbn [cnt sumn nslots]. rewrite Z0; [unfold ind, zero_d; lia|].
        intros j. apply ind_0. exact (Z.le_refl 0).
      * intros [k|j]; [vm_compute; congruence|exact (Z.le_refl 0)].
      * unfold total. cbn [cnt sumn nslots]. rewrite Z0; [lia|]. exact Pl.
    + intros k k' Hk. destruct Hk as [Hk _]. cbn in Hk. lia.
    + intros k Hk. destruct Hk as [Hk _]. cbn in Hk. lia.
  - intros [k|j] Hl Hs Hr; [destruct Hl as [Hk _]; cbn in Hk; lia|]. cbn in Hr. lia.
  - exact H5.
Qed.

Lemma fresh_uniq multi units pvt ppu ns so st0 d : uniq multi (fresh units pvt ppu ns so st0 d).
Proof. intros desc Hd Hm. cbn. lia. Qed.

(** states reached by calm histories *)
Definition reached (multi : Z -> bool) (s : st) : Prop :=
  exists units pvt ppu ns so st0 d l outs,
    fresh_ok units pvt ppu ns so st0 /\
    calm_run multi (fresh units pvt ppu ns so st0 d) l /\
    run asis (fresh units pvt ppu ns so st0 d) l = Some (outs, s).

Lemma reached_inv multi s : reached multi s -> TInv s /\ uniq multi s.
Proof.
  intros (units & pvt & ppu & ns & so & st0 & d & l & outs & F & C & R).
  destruct (history multi l _ (fresh_TInv _ _ _ _ _ _ d F) (fresh_uniq _ _ _ _ _ _ _ _) C)
    as (o' & s' & R' & _ & T & U & _). rewrite R in R'. injection R' as -> ->. auto.
Qed.

(** ** Boolean versions, to show that concrete histories meet the hypotheses *)
Definition real_descb (d : Z) : bool := (0 <=? d) && (d <? 65536) && negb (descriptor2genus d =? g_hole).
Definition wf_payb (g : Z) (v : list Z) : bool :=
  if is_inplaced_genus g then match v with [x] => (0 <=? x) && (x <? 65536) | _ => false end
  else if fixed_genus g then Z.of_nat (length v) =? loose_units g
  else (Z.of_nat (length v) <? 65536) &&
       match v with [] => true | w :: _ => brutto g w =? Z.of_nat (length v) end.
Definition stretchy_okb (g : Z) (v : tv) : bool :=
  (Z.of_nat (length (pay v)) <? 65536) &&
  match pay v with [] => true | w :: _ => brutto g w =? Z.of_nat (length (pay v)) end.
Definition validb (multi : Z -> bool) (s : st) (o : op) : bool :=
  match o with
  | OSet desc disc v => real_descb desc && negb (multi desc) && wf_payb (descriptor2genus desc) (pay v)
  | ORemove desc => real_descb desc && negb (multi desc)
  | OAppend desc disc v => real_descb desc && multi desc && wf_payb (descriptor2genus desc) (pay v)
  | OEraseAll desc => real_descb desc && multi desc
  | OErase k => liveb s (RL k) && multi (gid (idx s k))
  | OSlot j disc v => Nat.ltb j (nslots s) && stretchy_okb (stype s j) v
  | OSlotDel j => Nat.ltb j (nslots s)
  end.
Lemma real_descb_ok d : real_descb d = true -> real_desc d.
Proof. unfold real_descb, real_desc. lia. Qed.
Lemma wf_payb_ok g v : wf_payb g v = true -> wf_pay g v.
Proof.
  unfold wf_payb, wf_pay. destruct (is_inplaced_genus g).
  - destruct v as [|x [|]]; try discriminate. intros H. exists x. split; [reflexivity|lia].
  - destruct (fixed_genus g); [lia|]. intros H. apply andb_prop in H. destruct H as [A B]. split; [lia|].
    intros N. destruct v; [congruence|]. cbn [nth]. lia.
Qed.
Lemma stretchy_okb_ok g v : stretchy_okb g v = true -> stretchy_ok g v.
Proof.
  unfold stretchy_okb, stretchy_ok, stretchy_wf. intros H. apply andb_prop in H. destruct H as [A B].
  split; [lia|]. intros N. destruct (pay v); [congruence|]. cbn [nth]. lia.
Qed.
Lemma validb_ok multi s o : validb multi s o = true -> valid multi s o.
Proof.
  destruct o; cbn [valid validb]; intros H;
    repeat match goal with H : _ && _ = true |- _ => apply andb_prop in H; destruct H end;
    repeat match goal with H : negb _ = true |- _ => apply Bool.negb_true_iff in H end;
    repeat match goal with |- _ /\ _ => split end;
    auto using real_descb_ok, wf_payb_ok, stretchy_okb_ok.
  - apply liveb_iff. assumption.
  - apply Nat.ltb_lt. assumption.
  - apply Nat.ltb_lt. assumption.
Qed.
Fixpoint calm_runb (multi : Z -> bool) (s : st) (l : list op) : bool :=
  match l with
  | [] => true
  | o :: l => validb multi s o && calm s o &&
    match run1 asis s o with Ok _ s' | Throw s' => calm_runb multi s' l | Bad => false end
  end.
Lemma calm_runb_ok multi l : forall s, calm_runb multi s l = true -> calm_run multi s l.
Proof.
  induction l as [|o l IH]; intros s H; cbn [calm_runb calm_run] in *; [exact I|].
  apply andb_prop in H. destruct H as [H1 H2]. apply andb_prop in H1. destruct H1 as [H0 H1].
  split; [apply validb_ok; assumption|]. split; [assumption|].
  destruct (run1 asis s o); [| |discriminate]; apply IH; assumption.
Qed.
Lemma reached_intro multi units pvt ppu ns so st0 d l outs s :
  fresh_ok units pvt ppu ns so st0 -> calm_runb multi (fresh units pvt ppu ns so st0 d) l = true ->
  run asis (fresh units pvt ppu ns so st0 d) l = Some (outs, s) -> reached multi s.
Proof.
  intros F C R. exists units, pvt, ppu, ns, so, st0, d, l, outs. split; [assumption|].
  split; [apply calm_runb_ok; assumption|assumption].
Qed.

(** the state after a history *)
Definition final (s : st) (l : list op) : st := match run asis s l with Some (_, s') => s' | None => s end.
Definition outcome (s : st) (l : list op) : option (list bool) := option_map fst (run asis s l).
Lemma run_final s l outs : outcome s l = Some outs -> run asis s l = Some (outs, final s l).
Proof. unfold outcome, final. destruct (run asis s l) as [[o s']|]; cbn; congruence. Qed.
Lemma reached_final multi units pvt ppu ns so st0 d l :
  fresh_ok units pvt ppu ns so st0 -> calm_runb multi (fresh units pvt ppu ns so st0 d) l = true ->
  reached multi (final (fresh units pvt ppu ns so st0 d) l).
Proof.
  intros F C.
  destruct (history multi l _ (fresh_TInv _ _ _ _ _ _ d F) (fresh_uniq multi _ _ _ _ _ _ d) (calm_runb_ok _ _ _ C))
    as (outs & s' & R & _).
  exists units, pvt, ppu, ns, so, st0, d, l, outs. split; [exact F|]. split; [apply calm_runb_ok; exact C|].
  unfold final. rewrite R. reflexivity.
Qed.
Lemma run1_final s o : outcome s [o] = Some [true] -> run1 asis s o = Ok tt (final s [o]).
Proof. unfold outcome, final. cbn [run]. destruct (run1 asis s o) as [[] s'|s'|]; cbn; congruence. Qed.
Lemma run1_failed s o : outcome s [o] = Some [false] -> run1 asis s o = Throw (final s [o]).
Proof. unfold outcome, final. cbn [run]. destruct (run1 asis s o) as [[] s'|s'|]; cbn; congruence. Qed.
