(** * PropertiesWalk: C83, walking over a collection while editing it. *)
From Verif Require Import Base Tag TagProofs Codec Gear GearBase GearSearch GearProofs Tuple TupleProofs TupleSteps TupleView TupleOps TupleMore
  TupleHist TupleFacts PropertiesTuple Growth GrowthProofs PropertiesGrowth Held HeldProofs PropertiesHeld Walk WalkProofs.
From Coq Require Import ZifyBool ZifyNat Sorted.
Ltac Zify.zify_post_hook ::= Z.div_mod_to_equations.

Definition members (s : st) (desc : Z) (k : nat) (p : list Z) : Prop := field s (RL k) = Some (desc, p).
Lemma start s desc : it_first s desc = it_next s desc (Some (cnt s)).
Proof. reflexivity. Qed.
Lemma start_clean s : clean s (cnt s).
Proof. intros i Hi. left. exact Hi. Qed.

(** ** Any body: the loop ends, meets no element twice, and meets every element that the body does not
    remove before its turn, with the value it had *)
Theorem C83_walk_meets_every_element : forall multi s desc disc body,
  lived multi s -> real_desc desc -> multi desc = true -> steady multi desc disc body (S (cnt s)) s (it_first s desc) [] ->
  exists vis s', loop by_copy s desc disc body = Some (vis, s') /\
    StronglySorted (fun a b => (b < a)%nat) (map v_pos vis) /\
    forall k p, members s desc k p -> spared desc disc body k (S (cnt s)) s (it_first s desc) [] ->
      exists x, In x vis /\ v_pos x = k /\ v_read x = read_of desc disc p /\ forall y, In y vis -> v_pos y = k -> y = x.
Proof.
  intros multi s desc disc body Lv D M St. destruct (lived_inv multi s Lv) as [T U]. rewrite start in *.
  destruct (walk_steady multi desc disc body D M (S (cnt s)) s (cnt s) [] T U (start_clean s) ltac:(lia) St) as (vis & s' & W & _ & _ & So & _ & Al).
  exists vis, s'. split; [exact W|]. split; [exact So|]. intros k p F Sp. destruct (field_desc _ _ _ _ F) as [[Lk _] _].
  destruct (Al k p Lk F Sp) as (x & X1 & X2 & X3). exists x. split; [exact X1|]. split; [exact X2|]. split; [exact X3|].
  intros y Y1 Y2. clear - So X1 X2 Y1 Y2. induction vis as [|v vis IH]; [destruct X1|]. cbn [map] in So. apply StronglySorted_inv in So. destruct So as [So Fa].
  rewrite Forall_forall in Fa. assert (Q : forall z, In z vis -> (v_pos z < v_pos v)%nat) by (intros z Hz; apply Fa, in_map, Hz).
  destruct X1 as [->|X1], Y1 as [->|Y1]; [reflexivity| | |auto].
  - specialize (Q y Y1). lia.
  - specialize (Q x X1). lia.
Qed.

(** ** A body that acts on the current element only: exactly the elements present at the start are met,
    in order; each is left as its act leaves it (or as it was, when the act failed); no other field
    changes *)
Definition outcome (desc : Z) (disc : bool) (x : visit) (p : list Z) : list (list Z) :=
  if v_ok x then match leaves desc disc p (v_act x) with Some (_, w) => [w] | None => [] end else [p].
Theorem C83_acts_exact : forall multi s desc disc f,
  lived multi s -> real_desc desc -> multi desc = true -> steady multi desc disc (acts f) (S (cnt s)) s (it_first s desc) [] ->
  exists vis s', loop by_copy s desc disc (acts f) = Some (vis, s') /\
    map v_read vis = map (read_of desc disc) (view s desc) /\
    (forall a x b, vis = a ++ x :: b -> v_act x = f (map v_read a) (v_pos x) (v_read x)) /\
    view s' desc = flat_map (fun xp => outcome desc disc (fst xp) (snd xp)) (combine vis (view s desc)) /\
    (forall r, (forall k p, members s desc k p -> r <> RL k) -> field s' r = field s r).
Proof.
  intros multi s desc disc f Lv D M St. destruct (lived_inv multi s Lv) as [T U]. rewrite start in *.
  destruct (acts_walk multi desc disc f D (S (cnt s)) s (cnt s) [] T (start_clean s) ltac:(lia) St) as (vis & s' & W & T' & Po & Fa & Al & Ac).
  exists vis, s'. split; [exact W|].
  assert (Vw : view s desc = map (fun x => value s (RL (v_pos x))) vis). { unfold view, collect. rewrite <- Po, map_map. reflexivity. }
  assert (Mem : forall x, In x vis -> exists p, field s (RL (v_pos x)) = Some (desc, p) /\ value s (RL (v_pos x)) = p /\ v_read x = read_of desc disc p /\ field s' (RL (v_pos x)) = rest_of desc disc x p).
  { intros x Hx. rewrite Forall_forall in Fa. destruct (Fa x Hx) as (p & A1 & A2 & A3). exists p. split; [exact A1|]. split; [|auto].
    destruct (field_desc _ _ _ _ A1) as [L _]. rewrite (field_live _ _ L) in A1. congruence. }
  split; [|split; [|split]].
  - rewrite Vw, map_map. apply map_ext_in. intros x Hx. destruct (Mem x Hx) as (p & _ & -> & A & _). exact A.
  - exact Ac.
  - assert (E : view s' desc = flat_map (fun i => item desc (field s' (RL i))) (collect_from s desc (cnt s))).
    { rewrite (view_vlist s' desc D). set (n := Nat.max (cnt s) (cnt s')).
      assert (Out : forall i, (cnt s <= i)%nat -> field s' (RL i) = None).
      { intros i Hi. rewrite Al; [apply field_out; exact Hi|]. intros X. apply in_map_iff in X. destruct X as (j & Ej & Hj). apply collect_lt in Hj. injection Ej as ->. lia. }
      rewrite <- (vlist_more (fun k => field s' (RL k)) desc (cnt s') n) by (try lia; intros; apply field_out; lia).
      rewrite (vlist_more (fun k => field s' (RL k)) desc (cnt s) n) by (try lia; exact Out).
      apply vlist_collect. intros i Hi N. rewrite Al by (intros X; apply in_map_iff in X; destruct X as (j & Ej & Hj); injection Ej as ->; contradiction).
      unfold item. destruct (field s (RL i)) as [[d p]|] eqn:F; [|reflexivity]. destruct (d =? desc) eqn:Ed; [|reflexivity]. exfalso. apply N.
      destruct (field_desc _ _ _ _ F) as [_ G]. apply collect_in; [exact Hi|lia]. }
    rewrite E, Vw, <- Po. clear - Mem. induction vis as [|x vis IH]; [reflexivity|]. cbn [map combine flat_map fst snd].
    rewrite IH by (intros y Hy; apply Mem; right; exact Hy). f_equal. destruct (Mem x (or_introl eq_refl)) as (p & _ & -> & _ & ->).
    unfold rest_of, outcome, item. destruct (v_ok x); [|rewrite Z.eqb_refl; reflexivity].
    pose proof (leaves_desc desc disc p (v_act x)) as Q. destruct (leaves desc disc p (v_act x)) as [[d w]|]; [|reflexivity]. subst d. rewrite Z.eqb_refl. reflexivity.
  - intros r Hr. apply Al. intros X. apply in_map_iff in X. destruct X as (k & <- & Hk). rewrite <- Po in Hk. apply in_map_iff in Hk. destruct Hk as (x & <- & Hx).
    destruct (Mem x Hx) as (p & A & _). apply (Hr (v_pos x) p A eq_refl).
Qed.

(** Removing the elements that satisfy a condition: the others stay, in order. *)
Definition drop_if (c : rd -> bool) : list rd -> nat -> rd -> act := fun _ _ now => if c now then Drop else Keep.
Lemma acts_succeed desc disc f : real_desc desc -> forall fuel s n seen vis s', walk asis by_copy desc disc (acts f) fuel s (it_next s desc (Some n)) seen = Some (vis, s') -> TInv s -> clean s n ->
  (forall a k r, match f a k r with Put _ => False | _ => True end) -> forall multi, steady multi desc disc (acts f) fuel s (it_next s desc (Some n)) seen -> Forall (fun x => v_ok x = true) vis.
Proof.
  intros D. induction fuel as [|fuel IH]; intros s n seen vis s' W T C Np multi St; pose proof (scan_facts (fun e => gid e =? desc) (idx s) n) as SF; cbn [it_next] in *;
    destruct (scan_down (fun e => gid e =? desc) (idx s) n) as [k|]; cbn [walk] in W; try discriminate; try (injection W as <- _; constructor).
  destruct SF as (Hk & Gk & _). cbn [steady] in St. cbv zeta in *. unfold acts in St at 1 2 3 4 5. cbn [fst snd run] in St. unfold acts in W at 1. cbn [run] in W.
  assert (Lk : live s (RL k)) by (apply (clean_live s n k desc C D Hk); lia).
  pose proof (field_live _ _ Lk) as F. cbn [rdesc] in F. replace (gid (idx s k)) with desc in F by lia.
  destruct St as (_ & _ & Ao & St). pose proof (copy_step s desc disc k _ (f seen k (acc_get s (mkAcc desc disc (Some k)))) T D F Ao) as Cs.
  specialize (Np seen k (acc_get s (mkAcc desc disc (Some k)))) as Np1.
  destruct (by_copy asis s desc disc k (f seen k (acc_get s (mkAcc desc disc (Some k))))) as [q s2|s2|] eqn:Ea; [| |contradiction].
  - destruct Cs as (-> & T2 & _ & _ & C2). destruct (walk asis by_copy desc disc (acts f) fuel s2 _ _) as [[vs s3]|] eqn:W2; [|discriminate]. cbn [option_map fst snd] in W.
    injection W as <- <-. constructor; [reflexivity|]. apply (IH s2 k _ vs s3 W2 T2 C2 Np multi St).
  - exfalso. destruct (f seen k (acc_get s (mkAcc desc disc (Some k)))); cbn [by_copy] in Ea; [discriminate|contradiction|].
    cbn [act_ok] in Ao. destruct (drop_step s desc disc k _ T D F Ao) as (s3 & E3 & _). rewrite E3 in Ea. discriminate.
Qed.
Theorem C83_remove_if : forall multi s desc disc c,
  lived multi s -> real_desc desc -> multi desc = true -> steady multi desc disc (acts (drop_if c)) (S (cnt s)) s (it_first s desc) [] ->
  exists vis s', loop by_copy s desc disc (acts (drop_if c)) = Some (vis, s') /\
    view s' desc = filter (fun p => negb (c (read_of desc disc p))) (view s desc) /\
    (forall r, (forall k p, members s desc k p -> r <> RL k) -> field s' r = field s r).
Proof.
  intros multi s desc disc c Lv D M St. destruct (C83_acts_exact multi s desc disc (drop_if c) Lv D M St) as (vis & s' & W & Rd & Ac & Vw & Fr).
  exists vis, s'. split; [exact W|]. split; [|exact Fr]. rewrite Vw.
  assert (Ok : Forall (fun x => v_ok x = true) vis).
  { destruct (lived_inv multi s Lv) as [T _]. unfold loop in W. rewrite start in *. apply (acts_succeed desc disc (drop_if c) D _ s (cnt s) [] vis s' W T (start_clean s)) with (multi := multi); [|exact St].
    intros a k r. unfold drop_if. destruct (c r); exact I. }
  assert (Ax : Forall (fun x => v_act x = if c (v_read x) then Drop else Keep) vis).
  { apply Forall_forall. intros x Hx. apply in_split in Hx. destruct Hx as (a & b & E). apply (Ac a x b E). }
  clear - Rd Ok Ax. revert vis Rd Ok Ax. induction (view s desc) as [|p l IH]; intros vis Rd Ok Ax; destruct vis as [|x vis]; try discriminate; [reflexivity|].
  cbn [map] in Rd. injection Rd as R1 R2. inversion Ok as [|? ? O1 O2]; subst. inversion Ax as [|? ? A1 A2]; subst. cbn [combine flat_map filter fst snd].
  rewrite (IH vis R2 O2 A2). unfold outcome. rewrite O1, A1, R1. destruct (c (read_of desc disc p)); reflexivity.
Qed.

(** ** By reference: the first element that is removed ends the loop *)
Theorem C83_remove_by_reference_refuted : forall multi s desc disc k l,
  lived multi s -> real_desc desc -> multi desc = true -> collect s desc = k :: l -> calm_free s k = true ->
  exists vis s', loop by_reference s desc disc (acts (fun _ _ _ => Drop)) = Some (vis, s') /\
    map v_pos vis = [k] /\ view s' desc = List.tl (view s desc) /\ length (view s' desc) = length l.
Proof.
  intros multi s desc disc k l Lv D M Cl Cf. destruct (lived_inv multi s Lv) as [T U].
  assert (Lk : lookup_gid s desc = Some k) by (rewrite lookup_collect, Cl; reflexivity).
  destruct (lookup_some _ _ _ D Lk) as [L G]. pose proof (field_live _ _ L) as F. cbn [rdesc] in F. rewrite G in F.
  destruct (drop_step s desc disc k _ T D F Cf) as (s' & E & T' & Ef & _).
  exists [mkVisit k (acc_get s (mkAcc desc disc (Some k))) Drop true], s'. unfold loop, it_first. rewrite Lk. cbn [walk acts run by_reference]. rewrite E. cbn [bind a_pos it_next].
  assert (W : forall fuel x y, walk asis by_reference desc disc (acts (fun _ _ _ => Drop)) fuel x None y = Some ([], x)) by (intros [|fuel] x y; reflexivity).
  rewrite W. cbn [option_map fst snd map v_pos]. split; [reflexivity|]. split; [reflexivity|].
  assert (V : view s' desc = List.tl (view s desc)).
  { rewrite (view_vlist s' desc D). set (n := Nat.max (cnt s) (cnt s')).
    rewrite <- (vlist_more (fun k => field s' (RL k)) desc (cnt s') n) by (try lia; intros; apply field_out; lia).
    assert (Out : forall i, (cnt s <= i)%nat -> field s' (RL i) = None).
    { intros i Hi. rewrite (e_frame _ _ _ _ Ef); [apply field_out; exact Hi|]. intros X. injection X as ->. destruct L. lia. }
    rewrite (vlist_more (fun k => field s' (RL k)) desc (cnt s) n) by (try lia; exact Out).
    rewrite (vlist_collect desc s (fun k => field s' (RL k)) (cnt s)).
    2: { intros i Hi N. destruct (Nat.eq_dec i k) as [->|Ni]; [rewrite (e_field _ _ _ _ Ef); reflexivity|]. rewrite (e_frame _ _ _ _ Ef) by congruence.
      unfold item. destruct (field s (RL i)) as [[d p]|] eqn:Fi; [|reflexivity]. destruct (d =? desc) eqn:Ed; [|reflexivity]. exfalso. apply N.
      destruct (field_desc _ _ _ _ Fi) as [_ Gi]. apply collect_in; [exact Hi|lia]. }
    unfold view. fold (collect s desc). rewrite Cl. cbn [flat_map map List.tl]. rewrite (e_field _ _ _ _ Ef). cbn [item app].
    pose proof (collect_scan desc s (cnt s)) as CS. change (scan_down (fun e => gid e =? desc) (idx s) (cnt s)) with (lookup_gid s desc) in CS. rewrite Lk in CS. fold (collect s desc) in CS. rewrite Cl in CS. injection CS as CS.
    assert (Hl : forall i, In i l -> (i < k)%nat /\ gid (idx s i) = desc).
    { intros i Hi. split; [rewrite CS in Hi; apply (collect_lt desc s k i Hi)|]. rewrite CS in Hi. clear - Hi. induction k as [|k IH]; cbn [collect_from] in Hi; [destruct Hi|].
      destruct (gid (idx s k) =? desc) eqn:Q; [destruct Hi as [<-|Hi]; [lia|auto]|auto]. }
    clear - Hl Ef D L. induction l as [|i l IH]; [reflexivity|]. cbn [flat_map map]. rewrite IH by (intros j Hj; apply Hl; right; exact Hj).
    destruct (Hl i (or_introl eq_refl)) as [Hi Gi]. rewrite (e_frame _ _ _ _ Ef) by (intros X; injection X; lia).
    rewrite field_live. 2: { destruct L. split; [lia|apply (real_gid _ desc D Gi)]. }
    cbn [rdesc item]. rewrite Gi, Z.eqb_refl. reflexivity. }
  split; [exact V|]. rewrite V. unfold view. rewrite Cl. cbn [map List.tl]. apply map_length.
Qed.

(** ** erase(begin, end) *)
Lemma range_stays desc disc j : forall fuel s p c, match p with Some k => (k < j)%nat | None => True end -> erase_range fuel s desc disc p (Some j) c = None.
Proof.
  induction fuel as [|fuel IH]; intros s p c H; cbn [erase_range]; (assert (E : same_place p (Some j) = false) by (destruct p as [k|]; cbn [same_place]; [apply Nat.eqb_neq; lia|reflexivity])); rewrite E; [reflexivity|].
  destruct p as [k|]; [|apply IH; exact I]. destruct (acc_remove s (mkAcc desc disc (Some k))) as [a s'|s'|]; try reflexivity. apply IH.
  cbn [it_next]. pose proof (scan_facts (fun e => gid e =? desc) (idx s') k) as SF. destruct (scan_down _ _ k) as [m|]; [lia|exact I].
Qed.
(** A range whose end lies before its beginning, or is gone: everything behind the beginning is removed
    and the loop never ends. *)
Theorem C83_reversed_range_refuted : forall s desc disc k j, (k < j)%nat -> forall fuel, erase_range fuel s desc disc (Some k) (Some j) 0 = None.
Proof. intros s desc disc k j H fuel. apply range_stays. exact H. Qed.

Fixpoint calm_range (fuel : nat) (s : st) (desc : Z) (disc : bool) (p e : option nat) : Prop :=
  if same_place p e then True
  else match fuel, p with
  | S fuel, Some k => calm_free s k = true /\
      match acc_remove s (mkAcc desc disc (Some k)) with Ok _ s => calm_range fuel s desc disc (it_next s desc p) e | _ => True end
  | _, _ => True
  end.
Definition beyond (e : option nat) (i : nat) : bool := match e with Some j => Nat.ltb j i | None => true end.
Lemma range_ok desc disc e : real_desc desc -> forall fuel s n c, TInv s -> clean s n -> (n <= fuel)%nat ->
  (match e with Some j => (j < n)%nat /\ exists p, members s desc j p | None => True end) ->
  calm_range fuel s desc disc (it_next s desc (Some n)) e ->
  exists s', erase_range fuel s desc disc (it_next s desc (Some n)) e c = Some ((c + length (filter (beyond e) (collect_from s desc n)))%nat, s') /\ TInv s' /\
    forall r, field s' r = match r with
      | RL i => match field s (RL i) with Some (d, p) => if (d =? desc) && Nat.ltb i n && beyond e i then None else Some (d, p) | None => None end
      | RP _ => field s r end.
Proof.
  intros D. induction fuel as [|fuel IH]; intros s n c T C L He Cm.
  - assert (n = O) by lia. subst n. destruct e as [j|]; [destruct He; lia|]. cbn. exists s. split; [f_equal; f_equal; lia|]. split; [exact T|].
    intros [i|j]; [|reflexivity]. destruct (field s (RL i)) as [[d p]|]; [|reflexivity]. rewrite Bool.andb_false_r. reflexivity.
  - pose proof (scan_facts (fun e => gid e =? desc) (idx s) n) as SF. pose proof (collect_scan desc s n) as CS. cbn [it_next] in *.
    destruct (scan_down (fun e => gid e =? desc) (idx s) n) as [k|] eqn:Ek.
    + destruct SF as (Hk & Gk & Hi). rewrite CS.
      assert (Lk : live s (RL k)) by (apply (clean_live s n k desc C D Hk); lia).
      pose proof (field_live _ _ Lk) as F. cbn [rdesc] in F. replace (gid (idx s k)) with desc in F by lia.
      cbn [erase_range calm_range] in *. destruct (same_place (Some k) e) eqn:Se.
      * destruct e as [j|]; [|discriminate]. cbn [same_place] in Se. apply Nat.eqb_eq in Se. subst j. exists s.
        assert (Z0 : filter (beyond (Some k)) (k :: collect_from s desc k) = []).
        { cbn [filter beyond]. rewrite Nat.ltb_irrefl. assert (Q : forall i, In i (collect_from s desc k) -> (k <? i)%nat = false) by (intros i Hj; apply collect_lt in Hj; apply Nat.ltb_ge; lia).
          clear - Q. induction (collect_from s desc k) as [|y l IHl]; [reflexivity|]. cbn [filter beyond]. rewrite (Q y) by (left; reflexivity). apply IHl. intros i Hj. apply Q. right. exact Hj. }
        rewrite Z0. cbn [length]. split; [f_equal; f_equal; lia|]. split; [exact T|]. intros [i|j]; [|reflexivity]. destruct (field s (RL i)) as [[d p]|] eqn:Fi; [|reflexivity].
        cbn [beyond]. destruct (d =? desc) eqn:Ed; [|reflexivity]. destruct (Nat.ltb i n) eqn:Li; [|reflexivity]. destruct (Nat.ltb k i) eqn:Lj; [|reflexivity].
        destruct (field_desc _ _ _ _ Fi) as [_ Gi]. apply Nat.ltb_lt in Li, Lj. pose proof (Hi i ltac:(lia)) as Q. cbn beta in Q. lia.
      * destruct Cm as [Cf Cm]. destruct (drop_step s desc disc k _ T D F Cf) as (s1 & E & T1 & Ef & H1). rewrite E in *.
        assert (C1 : clean s1 k).
        { intros i Hik. destruct (is_hole (idx s i)) eqn:Eh; [right; apply H1; [lia|exact Eh]|].
          assert (Li : live s (RL i)) by (destruct Lk; split; [lia|exact Eh]). pose proof (e_frame _ _ _ _ Ef (RL i) ltac:(intros X; injection X; lia)) as X.
          rewrite (field_live s) in X by exact Li. destruct (field_desc _ _ _ _ X) as [[X1 _] _]. left. exact X1. }
        assert (He1 : match e with Some j => (j < k)%nat /\ exists p, members s1 desc j p | None => True end).
        { destruct e as [j|]; [|exact I]. destruct He as [Hj (p & Fj)]. cbn [same_place] in Se. apply Nat.eqb_neq in Se. destruct (field_desc _ _ _ _ Fj) as [_ Gj].
          assert (j < k)%nat. { destruct (Nat.lt_ge_cases j k) as [X|X]; [exact X|]. pose proof (Hi j ltac:(lia)) as Y. cbn beta in Y. lia. }
          split; [assumption|]. exists p. unfold members. rewrite (e_frame _ _ _ _ Ef) by (intros X; injection X; lia). exact Fj. }
        destruct (IH s1 k (S c) T1 C1 ltac:(lia) He1 Cm) as (s' & W & T' & Fr). cbn [it_next] in W.
        assert (CE : collect_from s1 desc k = collect_from s desc k).
        { symmetry. apply collect_ext. intros i Hi2. apply (frame_gid desc s s1 k k D); [intros j Hj; left; destruct Lk; lia|exact C1| |exact Hi2|lia]. intros j N. apply (e_frame _ _ _ _ Ef). congruence. }
        rewrite CE in W. assert (Bk : beyond e k = true). { destruct e as [j|]; [|reflexivity]. cbn [beyond]. apply Nat.ltb_lt. apply He1. }
        exists s'. cbn [it_next]. rewrite W. cbn [filter]. rewrite Bk. cbn [length]. split; [f_equal; f_equal; lia|]. split; [exact T'|].
        intros [i|j]; [|rewrite Fr; apply (e_frame _ _ _ _ Ef); discriminate]. rewrite Fr. destruct (Nat.eq_dec i k) as [->|N].
        -- rewrite (e_field _ _ _ _ Ef), F, Z.eqb_refl, Bk. replace (Nat.ltb k n) with true by (symmetry; apply Nat.ltb_lt; lia). reflexivity.
        -- rewrite (e_frame _ _ _ _ Ef) by congruence. destruct (field s (RL i)) as [[d p]|] eqn:Fi; [|reflexivity]. destruct (d =? desc) eqn:Ed; [|reflexivity]. cbn [andb].
           destruct (field_desc _ _ _ _ Fi) as [_ Gi]. replace (Nat.ltb i n) with (Nat.ltb i k); [reflexivity|].
           destruct (Nat.ltb i n) eqn:Li.
           ++ apply Nat.ltb_lt in Li. apply Nat.ltb_lt. destruct (Nat.lt_ge_cases i k) as [X|X]; [exact X|]. pose proof (Hi i ltac:(lia)) as Y. cbn beta in Y. lia.
           ++ apply Nat.ltb_ge in Li. apply Nat.ltb_ge. lia.
    + rewrite CS. destruct e as [j|].
      * destruct He as [Hj (p & Fj)]. destruct (field_desc _ _ _ _ Fj) as [_ Gj]. specialize (SF j Hj). cbn beta in SF. lia.
      * cbn [erase_range same_place filter length]. exists s. split; [f_equal; f_equal; lia|]. split; [exact T|]. intros [i|j]; [|reflexivity]. destruct (field s (RL i)) as [[d p]|] eqn:Fi; [|reflexivity].
        destruct (d =? desc) eqn:Ed; [|reflexivity]. cbn [andb]. destruct (Nat.ltb i n) eqn:Li; [|reflexivity]. destruct (field_desc _ _ _ _ Fi) as [_ Gi]. apply Nat.ltb_lt in Li. specialize (SF i Li). cbn beta in SF. lia.
Qed.
(** The elements from the beginning of the collection up to (and without) another element, or up to the
    end, are removed and counted; nothing else changes. *)
Theorem C83_erase_range : forall multi s desc disc e,
  lived multi s -> real_desc desc -> (match e with Some j => exists p, members s desc j p | None => True end) ->
  calm_range (S (cnt s)) s desc disc (it_first s desc) e ->
  exists s', erase_range (S (cnt s)) s desc disc (it_first s desc) e 0 = Some (length (filter (beyond e) (collect s desc)), s') /\
    forall r, field s' r = match r with
      | RL i => match field s (RL i) with Some (d, p) => if (d =? desc) && beyond e i then None else Some (d, p) | None => None end
      | RP _ => field s r end.
Proof.
  intros multi s desc disc e Lv D He Cm. destruct (lived_inv multi s Lv) as [T _]. rewrite start in *.
  destruct (range_ok desc disc e D (S (cnt s)) s (cnt s) 0 T (start_clean s) ltac:(lia)) as (s' & W & _ & Fr); [|exact Cm|].
  { destruct e as [j|]; [|exact I]. destruct He as (p & F). destruct (field_desc _ _ _ _ F) as [[L _] _]. split; [exact L|]. exists p. exact F. }
  exists s'. split; [exact W|]. intros [i|j]; rewrite Fr; [|reflexivity]. destruct (field s (RL i)) as [[d p]|] eqn:F; [|reflexivity].
  destruct (field_desc _ _ _ _ F) as [[L _] _]. replace (Nat.ltb i (cnt s)) with true by (symmetry; apply Nat.ltb_lt; exact L). rewrite Bool.andb_true_r. reflexivity.
Qed.

(** ** Postfix ++ does not move the iterator: the loop over a collection that is not empty never ends,
    where the loop with prefix ++ ends after one round for each element *)
Theorem C83_postfix_refuted : forall s desc k l, collect s desc = k :: l -> forall fuel, post_walk fuel s desc (it_first s desc) = None.
Proof.
  intros s desc k l Cl fuel. unfold it_first. rewrite lookup_collect, Cl. cbn [first]. induction fuel as [|fuel IH]; [reflexivity|].
  cbn [post_walk it_post fst]. rewrite IH. reflexivity.
Qed.

(** ** Concrete loops *)
Definition addressedb (s : st) (o : op) (k : nat) : bool :=
  match o with
  | OSet d _ _ | ORemove d => same_place (lookup_gid s d) (Some k)
  | OAppend _ _ _ | OSlot _ _ _ | OSlotDel _ => false
  | OEraseAll d => gid (idx s k) =? d
  | OErase j => Nat.eqb j k
  end.
Lemma addressedb_ok s o k : addressedb s o k = false -> ~ addressed s o (RL k).
Proof.
  destruct o as [d disc v|d|d disc v|d|j|j disc v|j]; cbn [addressedb addressed]; intros H.
  - intros (i & E & Q). rewrite E in H. injection Q as ->. cbn [same_place] in H. rewrite Nat.eqb_refl in H. discriminate.
  - intros (i & E & Q). rewrite E in H. injection Q as ->. cbn [same_place] in H. rewrite Nat.eqb_refl in H. discriminate.
  - auto.
  - intros (i & Q & E). injection Q as ->. lia.
  - intros Q. injection Q as ->. rewrite Nat.eqb_refl in H. discriminate.
  - discriminate.
  - discriminate.
Qed.
Fixpoint untouchedb (s : st) (l : list op) (k : nat) : bool :=
  match l with
  | [] => true
  | o :: l => match run1 asis s o with Ok _ s' => negb (addressedb s o k) && untouchedb s' l k | Throw s' => untouchedb s' l k | Bad => true end
  end.
Lemma untouchedb_ok l k : forall s, untouchedb s l k = true -> untouched s l k.
Proof.
  induction l as [|o l IH]; intros s H; [exact I|]. cbn [untouchedb untouched] in *. destruct (run1 asis s o); auto.
  apply andb_prop in H. destruct H as [H1 H2]. split; [apply addressedb_ok; apply Bool.negb_true_iff; exact H1|auto].
Qed.
Definition act_okb (s : st) (desc : Z) (disc : bool) (k : nat) (a : act) : bool :=
  match a with Keep => true | Put v => wf_payb (descriptor2genus desc) (pay v) && calm_put s desc disc k v | Drop => calm_free s k end.
Fixpoint steadyb (multi : Z -> bool) (desc : Z) (disc : bool) (body : turns) (fuel : nat) (s : st) (p : option nat) (seen : list rd) : bool :=
  match p, fuel with
  | Some k, S fuel =>
    let now := acc_get s (mkAcc desc disc (Some k)) in
    let b := body seen k now in
    calm_runb multi s (fst b) && untouchedb s (fst b) k &&
    match run asis s (fst b) with
    | None => true
    | Some (_, s) =>
      act_okb s desc disc k (snd b) &&
      match by_copy asis s desc disc k (snd b) with
      | Bad => true
      | Ok p s => steadyb multi desc disc body fuel s (it_next s desc p) (seen ++ [now])
      | Throw s => steadyb multi desc disc body fuel s (it_next s desc (Some k)) (seen ++ [now])
      end
    end
  | _, _ => true
  end.
Lemma steadyb_ok multi desc disc body : forall fuel s p seen, steadyb multi desc disc body fuel s p seen = true -> steady multi desc disc body fuel s p seen.
Proof.
  induction fuel as [|fuel IH]; intros s [k|] seen H; cbn [steadyb steady] in *; try exact I. cbv zeta in *. set (now := acc_get s _) in *. set (b := body seen k now) in *.
  apply andb_prop in H. destruct H as [H H3]. apply andb_prop in H. destruct H as [H1 H2]. split; [apply calm_runb_ok; exact H1|]. split; [apply untouchedb_ok; exact H2|].
  destruct (run asis s (fst b)) as [[o s1]|]; [|exact I]. apply andb_prop in H3. destruct H3 as [H3 H4]. split.
  - destruct (snd b) as [|v|]; cbn [act_okb act_ok] in *; [exact I| |exact H3]. apply andb_prop in H3. destruct H3 as [A B]. split; [apply wf_payb_ok; exact A|exact B].
  - destruct (by_copy asis s1 desc disc k (snd b)); auto.
Qed.

Fixpoint sparedb (desc : Z) (disc : bool) (body : turns) (i fuel : nat) (s : st) (p : option nat) (seen : list rd) : bool :=
  match p, fuel with
  | Some k, S fuel =>
    if Nat.eqb i k then true else
    let now := acc_get s (mkAcc desc disc (Some k)) in
    let b := body seen k now in
    untouchedb s (fst b) i &&
    match run asis s (fst b) with
    | None => true
    | Some (_, s) =>
      match by_copy asis s desc disc k (snd b) with
      | Bad => true
      | Ok p s => sparedb desc disc body i fuel s (it_next s desc p) (seen ++ [now])
      | Throw s => sparedb desc disc body i fuel s (it_next s desc (Some k)) (seen ++ [now])
      end
    end
  | _, _ => true
  end.
Lemma sparedb_ok desc disc body i : forall fuel s p seen, sparedb desc disc body i fuel s p seen = true -> spared desc disc body i fuel s p seen.
Proof.
  induction fuel as [|fuel IH]; intros s [k|] seen H; cbn [sparedb spared] in *; try exact I. destruct (Nat.eqb i k); [exact I|]. cbv zeta in *.
  apply andb_prop in H. destruct H as [H1 H2]. split; [apply untouchedb_ok; exact H1|]. destruct (run asis s _) as [[o s1]|]; [|exact I].
  destruct (by_copy asis s1 desc disc k _); auto.
Qed.
Fixpoint calm_rangeb (fuel : nat) (s : st) (desc : Z) (disc : bool) (p e : option nat) : bool :=
  if same_place p e then true
  else match fuel, p with
  | S fuel, Some k => calm_free s k &&
      match acc_remove s (mkAcc desc disc (Some k)) with Ok _ s => calm_rangeb fuel s desc disc (it_next s desc p) e | _ => true end
  | _, _ => true
  end.
Lemma calm_rangeb_ok desc disc e : forall fuel s p, calm_rangeb fuel s desc disc p e = true -> calm_range fuel s desc disc p e.
Proof.
  induction fuel as [|fuel IH]; intros s p H; cbn [calm_rangeb calm_range] in *; destruct (same_place p e); try exact I. destruct p as [k|]; [|exact I].
  apply andb_prop in H. destruct H as [H1 H2]. split; [exact H1|]. destruct (acc_remove s _); auto.
Qed.

Definition words7 : Z := fd g_text 7.
Definition stock : st := final (new_tuple 24 8)
  [OAppend words7 true (text_of 97 97); OSet (fd g_u32 2) true (blob 1 5); OAppend words7 true (text_of 98 98); OAppend words7 true (text_of 99 99); OAppend (fd g_u32 9) true (blob 1 3);
   OAppend words7 true (text_of 100 100)].
Lemma stock_lived : lived odd_multi stock.
Proof. apply l_reached. apply reached_final; [constructor; unfold no_slots; intros; lia|vm_compute; reflexivity]. Qed.
Definition longer : tv := mkV false [5 + 256 * 104 + 65536 * 105; 106 + 256 * 107].
(** the body removes one element, makes another longer, sets one to the empty text, and changes other
    fields and adds members to the same collection on the way *)
Definition edits7 : turns := fun seen k now =>
  match seen with
  | [] => ([OSet (fd g_u32 2) true (blob 1 6); OAppend words7 true (text_of 120 120)], Drop)
  | [_] => ([OAppend (fd g_u32 9) true (blob 1 4)], Put longer)
  | [_; _] => ([OEraseAll (fd g_u32 9)], Put (mkV true [0]))
  | _ => ([], Keep)
  end.
Example C83_walk_case : lived odd_multi stock /\ real_desc words7 /\ odd_multi words7 = true /\
  steady odd_multi words7 false edits7 (S (cnt stock)) stock (it_first stock words7) [] /\
  (forall k p, members stock words7 k p -> spared words7 false edits7 k (S (cnt stock)) stock (it_first stock words7) []) /\
  length (view stock words7) = 4%nat /\
  (match loop by_copy stock words7 false edits7 with Some (vis, s) => Some (map v_pos vis, map v_ok vis, view s words7, view s (fd g_u32 9), view s (fd g_u32 2)) | None => None end) =
    Some ([5; 3; 2; 0]%nat, [true; true; true; true], [pay (text_of 120 120); pay longer; pay (text_of 97 97)], [], [[6]]).
Proof.
  split; [exact stock_lived|]. split; [split; [vm_compute; split; congruence|vm_compute; congruence]|]. split; [reflexivity|].
  split; [apply steadyb_ok; vm_compute; reflexivity|]. split; [|split; vm_compute; reflexivity].
  intros k p F. destruct (field_desc _ _ _ _ F) as [[L _] G]. assert (L' : (k < 6)%nat) by (change 6%nat with (cnt stock); exact L).
  assert (Q : forallb (fun k => negb (gid (idx stock k) =? words7) || sparedb words7 false edits7 k (S (cnt stock)) stock (it_first stock words7) []) (seq 0 6) = true) by (vm_compute; reflexivity).
  rewrite forallb_forall in Q. specialize (Q k ltac:(apply in_seq; lia)). rewrite G, Z.eqb_refl in Q. apply sparedb_ok. exact Q.
Qed.
Lemma words7_real : real_desc words7.
Proof. split; [vm_compute; split; congruence|vm_compute; congruence]. Qed.
Definition low (r : rd) : bool := match r with RVal [w] => w <? nth 0 (pay (text_of 99 99)) 0 | _ => false end.
Example C83_remove_if_case :
  steady odd_multi words7 false (acts (drop_if low)) (S (cnt stock)) stock (it_first stock words7) [] /\
  (match loop by_copy stock words7 false (acts (drop_if low)) with Some (vis, s) => Some (map v_pos vis, view s words7) | None => None end) =
    Some ([5; 3; 2; 0]%nat, [pay (text_of 100 100); pay (text_of 99 99)]).
Proof. split; [apply steadyb_ok; vm_compute; reflexivity|vm_compute; reflexivity]. Qed.
Example C83_by_reference_case : calm_free stock 5 = true /\ collect stock words7 = [5; 3; 2; 0]%nat /\
  (match loop by_reference stock words7 false (acts (fun _ _ _ => Drop)) with Some (vis, s) => Some (map v_pos vis, view s words7) | None => None end) =
    Some ([5]%nat, [pay (text_of 99 99); pay (text_of 98 98); pay (text_of 97 97)]).
Proof. split; [vm_compute; reflexivity|]. split; vm_compute; reflexivity. Qed.
Example C83_range_case :
  calm_range (S (cnt stock)) stock words7 false (it_first stock words7) (Some 2%nat) /\ calm_range (S (cnt stock)) stock words7 false (it_first stock words7) None /\
  members stock words7 2 (pay (text_of 98 98)) /\
  (match erase_range (S (cnt stock)) stock words7 false (it_first stock words7) (Some 2%nat) 0 with Some (n, s) => Some (n, view s words7) | None => None end) =
    Some (2%nat, [pay (text_of 98 98); pay (text_of 97 97)]) /\
  (match erase_range (S (cnt stock)) stock words7 false (it_first stock words7) None 0 with Some (n, s) => Some (n, view s words7) | None => None end) = Some (4%nat, []).
Proof. split; [apply calm_rangeb_ok; vm_compute; reflexivity|]. split; [apply calm_rangeb_ok; vm_compute; reflexivity|]. split; [vm_compute; reflexivity|]. split; vm_compute; reflexivity. Qed.

Print Assumptions C83_walk_meets_every_element.
Print Assumptions C83_acts_exact.
Print Assumptions C83_remove_if.
Print Assumptions C83_remove_by_reference_refuted.
Print Assumptions C83_reversed_range_refuted.
Print Assumptions C83_erase_range.
Print Assumptions C83_postfix_refuted.
