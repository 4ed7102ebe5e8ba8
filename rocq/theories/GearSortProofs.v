(** * GearSortProofs: what sorting the index does to the fields (proofs). *)
From Verif Require Import Base Tag TagProofs Codec Gear GearBase GearSearch GearProofs Tuple TupleProofs TupleSteps TupleView
  Hippeus Scan Audit Image ImageProofs GearOpt GearOptProofs.
From Coq Require Import ZifyBool ZifyNat Permutation Sorted.
Ltac Zify.zify_post_hook ::= Z.div_mod_to_equations.

(** ** Writing items *)
Definition item_ent (hd x : Z) (i : sitem) : ent :=
  mkE (if negb (is_inplaced_genus (descriptor2genus (i_desc i))) && negb (i_off i =? 0) then u16 (hd + i_off i - x) else i_off i) (i_desc i).
Lemma put_index l : forall s hd x, head s <= x -> x + Z.of_nat (length l) <= pivot s ->
  exists f, put_items s hd x l = with_idx s f /\
    (forall k, pivot s - 1 - Z.of_nat k < x \/ x + Z.of_nat (length l) <= pivot s - 1 - Z.of_nat k -> f k = idx s k) /\
    forall i k, (i < length l)%nat -> pivot s - 1 - Z.of_nat k = x + Z.of_nat i -> f k = item_ent hd (x + Z.of_nat i) (nth i l (mkI 0 0)).
Proof.
  induction l as [|a l IH]; intros s hd x H1 H2; cbn [put_items length] in *.
  - exists (idx s). split; [destruct s; reflexivity|]. split; [reflexivity|]. intros; lia.
  - assert (E : put_item s hd x a = set_ent s (Z.to_nat (pivot s - 1 - x)) (item_ent hd x a)).
    { unfold put_item, set_word. replace ((head s <=? x) && (x <? pivot s)) with true by lia. reflexivity. }
    rewrite E. set (s1 := set_ent s _ _). destruct (IH s1 hd (x + 1)) as (f & F1 & F2 & F3).
    { unfold s1, head in *. cbn [set_ent with_idx pivot cnt]. lia. }
    { unfold s1. cbn [set_ent with_idx pivot]. lia. }
    exists f. split; [rewrite F1; reflexivity|]. change (pivot s1) with (pivot s) in *. split.
    + intros k Hk. rewrite F2 by lia. unfold s1. cbn [set_ent with_idx idx]. apply fupd_other. lia.
    + intros [|i] k Hi Hk; cbn [nth].
      * rewrite F2 by lia. unfold s1. cbn [set_ent with_idx idx]. replace (Z.to_nat (pivot s - 1 - x)) with k by lia. rewrite fupd_same. f_equal. lia.
      * rewrite (F3 i k) by lia. f_equal. lia.
Qed.
(** units above the index *)
Lemma put_data n : forall s hd x, pivot s <= x ->
  exists d p, put_items s hd x (repeat (mkI 0 0) n) = with_pre (with_dat s d) p /\
    (forall y, y < x \/ x + Z.of_nat n <= y -> d y = dat s y) /\ (forall y, x <= y < x + Z.of_nat n -> d y = 0) /\
    (forall j, (j < nslots s)%nat -> soff s j + pivot s < x \/ x + Z.of_nat n <= soff s j + pivot s -> p j = pre s j).
Proof.
  induction n as [|n IH]; intros s hd x H; cbn [repeat put_items].
  - exists (dat s), (pre s). split; [destruct s; reflexivity|]. repeat split; intros; lia || reflexivity.
  - assert (E : exists p, put_item s hd x (mkI 0 0) = with_pre (with_dat s (fun y => if y =? x then 0 else dat s y)) p /\
      forall j, (j < nslots s)%nat -> soff s j + pivot s <> x -> p j = pre s j).
    { unfold put_item, set_word. cbn [i_desc i_off]. replace ((head s <=? x) && (x <? pivot s)) with false by lia.
      rewrite Bool.andb_false_r. replace (0 + 65536 * 0) with 0 by reflexivity.
      destruct ((pivot s <=? x) && (x <? base s)); [|exists (pre s); split; [destruct s; reflexivity|reflexivity]].
      destruct (slot_at s (x - pivot s)) as [j0|] eqn:F; [|exists (pre s); split; [destruct s; reflexivity|reflexivity]].
      exists (fupd (pre s) j0 0). split; [reflexivity|]. intros j Hj N. apply fupd_other. intros ->. unfold slot_at in F. apply find_some in F as [_ F]. lia. }
    destruct E as (p0 & E & P0). rewrite E. set (s1 := with_pre _ p0).
    destruct (IH s1 hd (x + 1)) as (d & p & F1 & F2 & F3 & F4); [unfold s1; cbn; lia|].
    exists d, p. split; [rewrite F1; reflexivity|]. split; [|split].
    + intros y Hy. rewrite F2 by lia. unfold s1. cbn [with_pre with_dat dat]. replace (y =? x) with false by lia. reflexivity.
    + intros y Hy. destruct (Z.eq_dec y x) as [->|N]; [|apply F3; lia]. rewrite F2 by lia. unfold s1. cbn [with_pre with_dat dat]. rewrite Z.eqb_refl. reflexivity.
    + intros j Hj Hy. rewrite F4; [unfold s1; cbn [with_pre pre]; apply P0; [assumption|lia]|exact Hj|unfold s1; cbn [with_pre with_dat soff pivot]; lia].
Qed.
Lemma put_items_app l l' : forall s hd x, put_items s hd x (l ++ l') = put_items (put_items s hd x l) hd (x + Z.of_nat (length l)) l'.
Proof.
  induction l as [|a l IH]; intros s hd x; cbn [app put_items length]; [rewrite Z.add_0_r; reflexivity|]. rewrite IH. f_equal. lia.
Qed.

(** ** A sorted list with zeros *)
Lemma sorted_split {A} (key : A -> Z) (p : A -> bool) l : StronglySorted (fun a b => key a <= key b) l ->
  (forall a b, p a = true -> p b = false -> key a < key b) -> l = filter p l ++ filter (fun x => negb (p x)) l.
Proof.
  intros S H. induction S as [|a l S IH F]; [reflexivity|]. cbn [filter]. destruct (p a) eqn:E; cbn [negb app].
  - f_equal. exact IH.
  - assert (N : filter p l = []).
    { rewrite Forall_forall in F. clear IH S. induction l as [|b l IHl]; [reflexivity|]. cbn [filter]. destruct (p b) eqn:Eb.
      - specialize (H b a Eb E). specialize (F b (or_introl eq_refl)). lia.
      - apply IHl. intros x Hx. apply F. right. assumption. }
    rewrite N. cbn [app]. f_equal. rewrite N in IH. exact IH.
Qed.
Lemma filter_perm {A} (p : A -> bool) l l' : Permutation l l' -> Permutation (filter p l) (filter p l').
Proof.
  induction 1 as [| |x y l|]; cbn [filter]; auto.
  - destruct (p x); auto.
  - destruct (p x), (p y); auto. apply perm_swap.
  - eapply Permutation_trans; eassumption.
Qed.
Lemma zeros_last (srt : list sitem -> list sitem) n items : sorter (fun i => - i_desc i) srt -> (forall i, In i items -> 0 < i_desc i) ->
  exists l, srt (repeat (mkI 0 0) n ++ items) = l ++ repeat (mkI 0 0) n /\ Permutation items l.
Proof.
  intros S H. destruct (S (repeat (mkI 0 0) n ++ items)) as [Pm St]. set (p := fun i => 0 <? i_desc i).
  pose proof (sorted_split _ p _ St) as E. rewrite E by (unfold p; intros; lia). clear E.
  assert (E1 : filter p (repeat (mkI 0 0) n ++ items) = items).
  { rewrite filter_app. replace (filter p (repeat (mkI 0 0) n)) with (@nil sitem) by (clear; induction n; cbn; auto). cbn [app].
    clear Pm St. induction items as [|a l IH]; [reflexivity|]. cbn [filter]. unfold p at 1. replace (0 <? i_desc a) with true by (specialize (H a (or_introl eq_refl)); lia).
    f_equal. apply IH. intros i Hi. apply H. right. assumption. }
  assert (E2 : filter (fun x => negb (p x)) (repeat (mkI 0 0) n ++ items) = repeat (mkI 0 0) n).
  { rewrite filter_app. replace (filter (fun x => negb (p x)) items) with (@nil sitem).
    - rewrite app_nil_r. clear. induction n; cbn; [reflexivity|]. f_equal. assumption.
    - symmetry. clear Pm St E1. induction items as [|a l IH]; [reflexivity|]. cbn [filter]. unfold p at 1. replace (0 <? i_desc a) with true by (specialize (H a (or_introl eq_refl)); lia).
      cbn [negb]. apply IH. intros i Hi. apply H. right. assumption. }
  set (l0 := repeat (mkI 0 0) n ++ items) in *. exists (filter p (srt l0)). split.
  - f_equal. pose proof (filter_perm (fun x => negb (p x)) _ _ Pm) as Q. rewrite E2 in Q.
    assert (G : forall l', Permutation (repeat (mkI 0 0) n) l' -> l' = repeat (mkI 0 0) n).
    { intros l' Q'. assert (L : length l' = n) by (rewrite <- (Permutation_length Q'), repeat_length; reflexivity).
      assert (All : forall i, In i l' -> i = mkI 0 0) by (intros i Hi; apply (repeat_spec n), (Permutation_in _ (Permutation_sym Q')), Hi).
      clear - L All. revert n L. induction l' as [|a l IH]; intros n L; cbn [length] in L; subst n; [reflexivity|]. cbn [repeat]. f_equal; [apply All; left; reflexivity|].
      apply IH; [intros; apply All; right; assumption|reflexivity]. }
    apply G. exact Q.
  - pose proof (filter_perm p _ _ Pm) as Q. rewrite E1 in Q. exact Q.
Qed.

Lemma sorted_nth {A} (key : A -> Z) l : StronglySorted (fun a b => key a <= key b) l ->
  forall i j d, (i < j < length l)%nat -> key (nth i l d) <= key (nth j l d).
Proof.
  intros S. induction S as [|a l S IH F]; intros i j d H; cbn [length] in H; [lia|]. destruct j as [|j]; [lia|]. destruct i as [|i]; cbn [nth].
  - rewrite Forall_forall in F. apply F, nth_In. lia.
  - apply IH. lia.
Qed.

(** ** Reordered index *)
(** [pi] gives, for every position, where its entry was; [w] units from the pivot are overwritten *)
Record reordered (s s' : st) (pi : nat -> nat) (w : Z) : Prop := {
  ro_perm : Permutation (map pi (seq 0 (cnt s))) (seq 0 (cnt s));
  ro_cnt : cnt s' = cnt s;
  ro_gid : forall p, (p < cnt s)%nat -> gid (idx s' p) = gid (idx s (pi p));
  ro_inp : forall p, (p < cnt s)%nat -> is_inplaced_genus (egenus (idx s' p)) = true -> rel (idx s' p) = rel (idx s (pi p));
  ro_ref : forall p, (p < cnt s)%nat -> is_inplaced_genus (egenus (idx s' p)) = false ->
    (rel (idx s' p) = 0 <-> rel (idx s (pi p)) = 0) /\ (rel (idx s' p) <> 0 -> addr s' p = addr s (pi p));
  ro_rng : forall p, (p < cnt s)%nat -> 0 <= rel (idx s' p) < 65536;
  ro_dat : forall x, x < pivot s \/ pivot s + w <= x -> dat s' x = dat s x;
  ro_pre : forall j, (j < nslots s)%nat -> w <= soff s j -> pre s' j = pre s j;
  ro_tail : tail s' = tail s; ro_jc : jc s' = jc s; ro_jv : jv s' = jv s; ro_pivot : pivot s' = pivot s; ro_end : end_ s' = end_ s;
  ro_pp : pp s' = pp s; ro_nslots : nslots s' = nslots s; ro_soff : soff s' = soff s; ro_stype : stype s' = stype s
}.
Lemma entry_paid s k : TInv s -> (k < cnt s)%nat -> is_inplaced_genus (egenus (idx s k)) = false -> rel (idx s k) <> 0 ->
  base s <= addr s k /\ addr s k <= tail s /\ 0 < len s (plen s) k.
Proof.
  intros T Hk HI HR. pose proof (v_acc _ _ (t_inv _ T)) as A.
  assert (P : 0 < len s (plen s) k).
  { unfold len. destruct (is_hole (idx s k)) eqn:E.
    - pose proof (hunits_range (idx s k)). destruct (i_ent _ _ _ _ _ _ A k Hk) as (_ & _ & Z0). destruct (Z.eq_dec (hunits (idx s k)) 0) as [X|X]; [|lia]. elim HR. apply Z0; assumption.
    - apply (rel_pos s k T); [split; assumption|auto|assumption]. }
  pose proof (entry_bounds s (plen s) A k Hk P). lia.
Qed.
Lemma sort_reordered s srt presize : TInv s -> sorter (fun i => - i_desc i) srt -> descending s = false ->
  (presize = true -> forall k, (k < cnt s)%nat -> gid (idx s k) <> 0) ->
  exists pi, reordered s (snd (sort_index presize srt s)) pi (if presize then Z.of_nat (cnt s) else 0) /\
    descending (snd (sort_index presize srt s)) = true.
Proof.
  intros T SRT ND HG. pose proof (v_acc _ _ (t_inv _ T)) as A. destruct (i_cfg _ _ _ _ _ _ A) as [C1 C2 C3 C4 C5].
  unfold sort_index. rewrite ND. cbn [snd].
  set (items := map (sort_item s) (rev (seq 0 (cnt s)))).
  destruct (SRT ((if presize then repeat (mkI 0 0) (cnt s) else []) ++ items)) as [_ SS].
  assert (EX : exists l rest, srt ((if presize then repeat (mkI 0 0) (cnt s) else []) ++ items) = l ++ rest /\ Permutation items l /\
     rest = (if presize then repeat (mkI 0 0) (cnt s) else [])).
  { destruct presize.
    - destruct (zeros_last srt (cnt s) items SRT) as (l & E & Pm); [|exists l, (repeat (mkI 0 0) (cnt s)); auto].
      intros i Hi. unfold items in Hi. apply in_map_iff in Hi as (k & <- & Hk). rewrite <- in_rev in Hk. apply in_seq in Hk. cbn [sort_item i_desc].
      specialize (HG eq_refl k ltac:(lia)). destruct (i_ent _ _ _ _ _ _ A k ltac:(lia)) as (_ & G & _). lia.
    - destruct (SRT items) as [Pm _]. exists (srt items), []. rewrite app_nil_r. cbn [app]. auto. }
  destruct EX as (l & rest & EQ & Pm & Er). rewrite EQ in *. rewrite put_items_app.
  assert (LL : length l = cnt s) by (rewrite <- (Permutation_length Pm); unfold items; rewrite map_length, rev_length, seq_length; reflexivity).
  apply Permutation_sym, Permutation_map_inv in Pm. destruct Pm as (ks & El & Pk).
  assert (LK : length ks = cnt s) by (rewrite <- (Permutation_length Pk), rev_length, seq_length; reflexivity).
  destruct (put_index l s (head s) (head s)) as (f & F1 & F2 & F3); [lia|unfold head; lia|]. rewrite F1.
  set (s1 := with_idx s f).
  set (n := if presize then cnt s else 0%nat). assert (En : (if presize then repeat (mkI 0 0) (cnt s) else []) = repeat (mkI 0 0) n) by (unfold n; destruct presize; reflexivity).
  replace (if presize then Z.of_nat (cnt s) else 0) with (Z.of_nat n) by (unfold n; destruct presize; reflexivity). rewrite Er, En.
  destruct (put_data n s1 (head s) (head s + Z.of_nat (length l))) as (d & p & D1 & D2 & D3 & D4); [unfold s1, head; cbn; lia|]. rewrite D1. clear D1 F1.
  replace (head s + Z.of_nat (length l)) with (pivot s) in * by (unfold head; lia).
  set (s' := with_pre (with_dat s1 d) p). exists (fun q => nth (cnt s - 1 - q) ks 0%nat).
  assert (KK : forall q, (q < cnt s)%nat -> (nth (cnt s - 1 - q) ks 0%nat < cnt s)%nat).
  { intros q Hq. assert (I : In (nth (cnt s - 1 - q) ks 0%nat) ks) by (apply nth_In; lia). apply (Permutation_in _ (Permutation_sym Pk)) in I. rewrite <- in_rev in I. apply in_seq in I. lia. }
  assert (EE : forall q, (q < cnt s)%nat -> idx s' q = item_ent (head s) (pivot s - 1 - Z.of_nat q) (sort_item s (nth (cnt s - 1 - q) ks 0%nat))).
  { intros q Hq. change (idx s' q) with (f q). rewrite (F3 (cnt s - 1 - q)%nat q) by (unfold head; lia). f_equal; [unfold head; lia|].
    rewrite El. rewrite (nth_indep _ _ (sort_item s 0)) by (rewrite map_length; lia). rewrite map_nth. reflexivity. }
  assert (EI : forall q, (q < cnt s)%nat -> gid (idx s' q) = gid (idx s (nth (cnt s - 1 - q) ks 0%nat)) /\ 0 <= rel (idx s' q) < 65536 /\
     (is_inplaced_genus (egenus (idx s' q)) = true -> rel (idx s' q) = rel (idx s (nth (cnt s - 1 - q) ks 0%nat))) /\
     (is_inplaced_genus (egenus (idx s' q)) = false -> (rel (idx s' q) = 0 <-> rel (idx s (nth (cnt s - 1 - q) ks 0%nat)) = 0) /\ (rel (idx s' q) <> 0 -> addr s' q = addr s (nth (cnt s - 1 - q) ks 0%nat)))).
  { intros q Hq. specialize (KK q Hq). set (k := nth (cnt s - 1 - q) ks 0%nat) in *. pose proof (EE q Hq) as E. fold k in E.
    assert (G : gid (idx s' q) = gid (idx s k)) by (rewrite E; reflexivity).
    assert (GG : egenus (idx s' q) = egenus (idx s k)) by (unfold egenus; rewrite G; reflexivity). rewrite GG.
    destruct (i_ent _ _ _ _ _ _ A k KK) as (R & _ & _).
    assert (ER : rel (idx s' q) = rel (item_ent (head s) (pivot s - 1 - Z.of_nat q) (sort_item s k))) by (rewrite E; reflexivity).
    unfold item_ent, sort_item in ER. cbn [rel i_desc i_off] in ER. fold (egenus (idx s k)) in ER.
    split; [assumption|]. destruct (is_inplaced_genus (egenus (idx s k))) eqn:IP; cbn [negb andb orb] in ER.
    - rewrite ER. repeat split; try lia; discriminate.
    - destruct (rel (idx s k) =? 0) eqn:Z0.
      + rewrite Z0 in ER. cbn [negb] in ER. rewrite ER. repeat split; try lia; try discriminate.
      + destruct (entry_paid s k T KK IP ltac:(lia)) as (B1 & B2 & _). unfold base, head in *.
        assert (EO : u16 (addr s k - (pivot s - Z.of_nat (cnt s))) = addr s k - (pivot s - Z.of_nat (cnt s))) by (unfold u16; change (2 ^ 16) with 65536; apply Z.mod_small; lia).
        rewrite EO in ER. replace (addr s k - (pivot s - Z.of_nat (cnt s)) =? 0) with false in ER by lia. cbn [negb] in ER.
        assert (EU : u16 (pivot s - Z.of_nat (cnt s) + (addr s k - (pivot s - Z.of_nat (cnt s))) - (pivot s - 1 - Z.of_nat q)) = addr s k - (pivot s - 1 - Z.of_nat q)).
        { unfold u16. change (2 ^ 16) with 65536. rewrite Z.mod_small; lia. }
        rewrite EU in ER. assert (EA : addr s' q = addr s k) by (unfold addr at 1; unfold own; change (pivot s') with (pivot s); rewrite ER; lia).
        assert (NZ : rel (idx s' q) <> 0 /\ 0 <= rel (idx s' q) < 65536) by (rewrite ER; lia).
        split; [lia|]. split; [discriminate|]. intros _. split; [lia|]. intros _. exact EA. }
  split; [constructor; try reflexivity; try (intros q Hq; apply (EI q Hq))|].
  - apply Permutation_trans with (l' := ks); [|apply Permutation_sym; eapply Permutation_trans; [apply Permutation_rev|exact Pk]].
    replace (map (fun q => nth (cnt s - 1 - q) ks 0%nat) (seq 0 (cnt s))) with (rev ks); [apply Permutation_sym, Permutation_rev|].
    apply (nth_ext _ _ 0%nat 0%nat); [rewrite rev_length, map_length, seq_length; assumption|]. intros i Hi. rewrite rev_length in Hi.
    rewrite rev_nth by assumption. set (g := fun q => nth (cnt s - 1 - q) ks 0%nat). rewrite (nth_indep (map g _) _ (g 0%nat)) by (rewrite map_length, seq_length; lia).
    rewrite map_nth, seq_nth by lia. unfold g. f_equal. lia.
  - intros x Hx. change (dat s' x) with (d x). rewrite D2 by lia. reflexivity.
  - intros j Hj Hw. change (pre s' j) with (p j). rewrite D4; [reflexivity|exact Hj|]. change (soff s1 j) with (soff s j). change (pivot s1) with (pivot s). lia.
  - unfold descending. apply forallb_forall. intros q Hq. apply in_seq in Hq. change (cnt s') with (cnt s) in Hq. rewrite !EE by lia. cbn [item_ent gid].
    pose proof (sorted_nth (fun i => - i_desc i) (l ++ rest) SS (cnt s - 1 - S q)%nat (cnt s - 1 - q)%nat (mkI 0 0) ltac:(rewrite app_length; lia)) as Q.
    rewrite !app_nth1 in Q by lia. rewrite El in Q. rewrite !(nth_indep (map _ _) (mkI 0 0) (sort_item s 0)) in Q by (rewrite map_length; lia). rewrite !map_nth in Q.
    cbn beta in Q. lia.
Qed.

Section Reordered.
  Variables (s s' : st) (pi : nat -> nat) (w : Z).
  Hypothesis T : TInv s.
  Hypothesis R : reordered s s' pi w.
  Hypothesis W : 0 <= w.
  Let A := v_acc _ _ (t_inv _ T).

  Definition prm (r : ref) : ref := match r with RL p => RL (pi p) | RP j => RP j end.
  (** the units overwritten do not belong to the field *)
  Definition spared (r : ref) : Prop :=
    (plen s (prm r) = 0 \/ pivot s + w <= raddr s (prm r)) /\ match r with RL _ => True | RP j => w <= soff s j end.
  Lemma pi_range p : (p < cnt s)%nat -> (pi p < cnt s)%nat.
  Proof.
    intros H. assert (I : In (pi p) (map pi (seq 0 (cnt s)))) by (apply in_map, in_seq; lia). apply (Permutation_in _ (ro_perm _ _ _ _ R)) in I. apply in_seq in I. lia.
  Qed.
  Lemma pi_inj p q : (p < cnt s)%nat -> (q < cnt s)%nat -> pi p = pi q -> p = q.
  Proof.
    intros Hp Hq E. assert (N : NoDup (map pi (seq 0 (cnt s)))) by (eapply Permutation_NoDup; [apply Permutation_sym, (ro_perm _ _ _ _ R)|apply seq_NoDup]).
    rewrite (NoDup_nth _ (pi 0%nat)) in N. rewrite map_length, seq_length in N. apply (N p q Hp Hq). rewrite !map_nth, !seq_nth by assumption. exact E.
  Qed.
  Lemma pi_sum f : sumn (cnt s) (fun p => f (pi p)) = sumn (cnt s) f.
  Proof. rewrite <- !lsum_seq. rewrite <- (lsum_map f pi). apply lsum_perm. apply (ro_perm _ _ _ _ R). Qed.
  Lemma ro_hole p : (p < cnt s)%nat -> is_hole (idx s' p) = is_hole (idx s (pi p)) /\ hunits (idx s' p) = hunits (idx s (pi p)).
  Proof. intros H. unfold is_hole, hunits. rewrite (ro_gid _ _ _ _ R) by assumption. auto. Qed.
  Lemma ro_live r : live s' r <-> match r with RL p => (p < cnt s)%nat /\ live s (prm r) | RP j => live s r end.
  Proof.
    destruct r as [p|j]; cbn [live prm]; [|rewrite (ro_nslots _ _ _ _ R); tauto]. rewrite (ro_cnt _ _ _ _ R). split.
    - intros [H1 H2]. rewrite (proj1 (ro_hole p H1)) in H2. split; [assumption|]. split; [apply pi_range; assumption|assumption].
    - intros [H1 [_ H2]]. rewrite (proj1 (ro_hole p H1)). auto.
  Qed.
  Lemma ro_genus r : live s' r -> rgenus s' r = rgenus s (prm r) /\ rdesc s' r = rdesc s (prm r) /\ stretchy_ref s' r = stretchy_ref s (prm r).
  Proof.
    destruct r as [p|j]; cbn [prm rgenus rdesc]; intros H; unfold stretchy_ref; cbn [rgenus]; unfold egenus.
    - destruct H as [H _]. rewrite (ro_cnt _ _ _ _ R) in H. rewrite (ro_gid _ _ _ _ R) by assumption. auto.
    - rewrite (ro_stype _ _ _ _ R). auto.
  Qed.
  Lemma ro_addr r : live s' r -> spared r -> (match r with RL _ => is_inplaced_genus (rgenus s' r) | RP _ => false end) = false ->
    (rrel s' r = 0 <-> rrel s (prm r) = 0) /\ (rrel s' r <> 0 -> raddr s' r = raddr s (prm r)).
  Proof.
    destruct r as [p|j]; cbn [prm rgenus rrel]; intros H Sp E.
    - destruct H as [H _]. rewrite (ro_cnt _ _ _ _ R) in H. exact (ro_ref _ _ _ _ R p H E).
    - cbn in H. rewrite (ro_nslots _ _ _ _ R) in H. destruct Sp as [_ Sp]. rewrite (ro_pre _ _ _ _ R) by assumption. split; [tauto|]. intros _.
      unfold raddr. cbn [rown rrel]. rewrite (ro_pre _ _ _ _ R), (ro_pivot _ _ _ _ R), (ro_soff _ _ _ _ R) by assumption. reflexivity.
  Qed.
  Lemma ro_plen r : live s' r -> spared r -> plen s' r = plen s (prm r).
  Proof.
    intros H Sp. pose proof (ro_addr r H Sp) as AD. destruct (ro_genus r H) as (G & _ & G3). destruct Sp as [Sp _].
    assert (FX : match prm r with RL _ => fixed_genus (rgenus s (prm r)) | RP _ => false end = match r with RL _ => fixed_genus (rgenus s' r) | RP _ => false end) by (destruct r; cbn [prm] in *; [rewrite G|]; reflexivity).
    assert (L : live s (prm r)) by (destruct r; [apply (proj1 (ro_live (RL k)) H)|apply (proj1 (ro_live (RP j)) H)]).
    pose proof (t_pos _ T (prm r) L) as TP. unfold plen in *. rewrite FX in *. rewrite <- G in *.
    destruct (match r with RL _ => fixed_genus (rgenus s' r) | RP _ => false end) eqn:F; [reflexivity|].
    assert (I : match r with RL _ => is_inplaced_genus (rgenus s' r) | RP _ => false end = false).
    { destruct r; [|reflexivity]. destruct (is_inplaced_genus (rgenus s' (RL k))) eqn:X; [|reflexivity]. apply inplaced_units in X. destruct X. congruence. }
    destruct (AD I) as [A1 A2]. destruct (Z.eq_dec (rrel s' r) 0) as [Z0|Z0].
    - replace (rrel s' r =? 0) with true by lia. replace (rrel s (prm r) =? 0) with true by lia. reflexivity.
    - assert (N : rrel s (prm r) <> 0) by tauto. replace (rrel s' r =? 0) with false by lia. replace (rrel s (prm r) =? 0) with false in * by lia.
      assert (ST : stretchy_ref s (prm r) = true) by (rewrite <- G3; unfold stretchy_ref; destruct r; [rewrite F|]; reflexivity).
      specialize (TP ST N). rewrite A2 by assumption. rewrite (ro_dat _ _ _ _ R) by lia. reflexivity.
  Qed.
  Lemma ro_field r : live s' r -> spared r -> field s' r = field s (prm r).
  Proof.
    intros H Sp. assert (L : live s (prm r)) by (destruct r; [apply (proj1 (ro_live (RL k)) H)|apply (proj1 (ro_live (RP j)) H)]).
    destruct (ro_genus r H) as (G & D & G3). pose proof (ro_addr r H Sp) as AD. rewrite !field_live by assumption. rewrite D. do 2 f_equal.
    unfold value. rewrite (ro_plen r H Sp).
    replace (match prm r with RL _ => is_inplaced_genus (rgenus s (prm r)) | RP _ => false end) with (match r with RL _ => is_inplaced_genus (rgenus s' r) | RP _ => false end)
      by (destruct r; cbn [prm] in *; [rewrite G|]; reflexivity).
    destruct (match r with RL _ => is_inplaced_genus (rgenus s' r) | RP _ => false end) eqn:I.
    - destruct r as [p|j]; [|discriminate]. cbn [rrel prm]. destruct H as [H _]. rewrite (ro_cnt _ _ _ _ R) in H. rewrite (ro_inp _ _ _ _ R) by assumption. reflexivity.
    - pose proof (plen_nonneg s (prm r)). destruct (Z.eq_dec (plen s (prm r)) 0) as [E|E]; [rewrite E; reflexivity|].
      pose proof (live_bounds s (plen s) A (prm r) L ltac:(lia)) as B.
      assert (N : rrel s (prm r) <> 0).
      { intros X. unfold raddr in B. rewrite X in B. destruct (i_cfg _ _ _ _ _ _ A) as [C1 C2 C3 C4 C5]. unfold base in *.
        destruct r as [i|j]; cbn [prm rown] in *; [unfold own in B; lia|]. specialize (C5 j L). lia. }
      destruct (AD eq_refl) as [A1 A2]. rewrite A2 by tauto. unfold read_units. apply map_ext_in. intros i Hi. apply in_seq in Hi.
      destruct Sp as [Sp _]. apply (ro_dat _ _ _ _ R). lia.
  Qed.

  (** when the overwritten units are all fixed-size preplaced space the invariant survives *)
  Hypothesis WP : w <= pp s.
  Hypothesis WS : forall j, (j < nslots s)%nat -> w <= soff s j.
  Lemma all_spared r : live s' r -> spared r.
  Proof.
    intros H. assert (L : live s (prm r)) by (destruct r; [apply (proj1 (ro_live (RL k)) H)|apply (proj1 (ro_live (RP j)) H)]). split.
    - pose proof (plen_nonneg s (prm r)). destruct (Z.eq_dec (plen s (prm r)) 0) as [|E]; [left; assumption|right].
      pose proof (live_bounds s (plen s) A (prm r) L ltac:(lia)) as B. unfold base in B. lia.
    - destruct r; [exact I|]. apply WS. exact L.
  Qed.
  Lemma ro_len p : (p < cnt s)%nat -> len s' (plen s') p = len s (plen s) (pi p).
  Proof.
    intros H. unfold len. destruct (ro_hole p H) as [H1 H2]. rewrite H1, H2. destruct (is_hole (idx s (pi p))) eqn:E; [reflexivity|].
    assert (L : live s' (RL p)) by (split; [rewrite (ro_cnt _ _ _ _ R); assumption|rewrite H1; reflexivity]).
    apply (ro_plen (RL p) L (all_spared _ L)).
  Qed.
  Lemma ro_ind p x : (p < cnt s)%nat -> ind (addr s' p) (len s' (plen s') p) x = ind (addr s (pi p)) (len s (plen s) (pi p)) x.
  Proof.
    intros H. rewrite ro_len by assumption. pose proof (pi_range p H) as PR.
    pose proof (len_nonneg s (plen s) (pi p) (plen_nonneg s)). destruct (Z.eq_dec (len s (plen s) (pi p)) 0) as [E|E]; [rewrite !ind_0 by lia; reflexivity|].
    pose proof (entry_bounds s (plen s) A (pi p) PR ltac:(lia)) as B.
    assert (I : is_inplaced_genus (egenus (idx s (pi p))) = false).
    { destruct (is_inplaced_genus (egenus (idx s (pi p)))) eqn:X; [|reflexivity]. exfalso.
      assert (NH : is_hole (idx s (pi p)) = false) by (unfold is_hole; unfold egenus in X; unfold is_inplaced_genus in X; change g_i8 with 4 in X; change g_u8 with 5 in X; change g_i16 with 6 in X; change g_u16 with 7 in X; change g_hole with 31; lia).
      apply inplaced_units in X as [X1 X2]. unfold len in E. rewrite NH in E. unfold plen in E. cbn [rgenus] in E. rewrite X2 in E. lia. }
    assert (I' : is_inplaced_genus (egenus (idx s' p)) = false) by (unfold egenus; rewrite (ro_gid _ _ _ _ R) by assumption; exact I).
    destruct (ro_ref _ _ _ _ R p H I') as [R1 R2].
    assert (N : rel (idx s (pi p)) <> 0).
    { intros X. unfold addr, own, base in B. rewrite X in B. destruct (i_cfg _ _ _ _ _ _ A) as [C1 C2 C3 C4 C5]. lia. }
    rewrite R2 by tauto. reflexivity.
  Qed.
  Lemma ro_nzh p : nzh s' p -> nzh s (pi p) /\ (p < cnt s)%nat /\ hole_begin s' p = hole_begin s (pi p) /\ hole_end s' p = hole_end s (pi p).
  Proof.
    intros (H1 & H2 & H3). rewrite (ro_cnt _ _ _ _ R) in H1. destruct (ro_hole p H1) as [E1 E2]. rewrite E1 in H2. rewrite E2 in H3.
    assert (N : nzh s (pi p)) by (split; [apply pi_range; assumption|split; assumption]). split; [exact N|]. split; [assumption|]. unfold hole_begin, hole_end. rewrite E2.
    pose proof (nzh_bounds s (plen s) A (pi p) N) as B. unfold hole_begin in B.
    assert (I' : is_inplaced_genus (egenus (idx s' p)) = false).
    { assert (egenus (idx s' p) = 31) as -> by (unfold egenus; rewrite H2 in E1; unfold is_hole in E1; change g_hole with 31 in E1; lia). reflexivity. }
    destruct (ro_ref _ _ _ _ R p H1 I') as [R1 R2].
    assert (X : rel (idx s (pi p)) <> 0).
    { intros X. unfold addr, own, base in B. rewrite X in B. destruct (i_cfg _ _ _ _ _ _ A) as [C1 C2 C3 C4 C5]. lia. }
    rewrite R2 by tauto. auto.
  Qed.
  Theorem reordered_inv : TInv s'.
  Proof.
    destruct (i_cfg _ _ _ _ _ _ A) as [C1 C2 C3 C4 C5]. assert (B : base s' = base s) by (unfold base; rewrite (ro_pivot _ _ _ _ R), (ro_pp _ _ _ _ R); reflexivity).
    assert (SL : forall j, (j < nslots s)%nat -> plen s' (RP j) = plen s (RP j) /\ raddr s' (RP j) = raddr s (RP j) /\ pre s' j = pre s j).
    { intros j Hj. assert (L : live s' (RP j)) by (cbn; rewrite (ro_nslots _ _ _ _ R); assumption). split; [apply (ro_plen (RP j) L (all_spared _ L))|].
      pose proof (ro_pre _ _ _ _ R j Hj (WS j Hj)) as E. split; [|assumption]. unfold raddr. cbn [rown rrel]. rewrite E, (ro_pivot _ _ _ _ R), (ro_soff _ _ _ _ R). reflexivity. }
    constructor; [constructor|..].
    - constructor.
      + constructor; rewrite ?B, ?(ro_cnt _ _ _ _ R), ?(ro_pivot _ _ _ _ R), ?(ro_pp _ _ _ _ R), ?(ro_tail _ _ _ _ R), ?(ro_end _ _ _ _ R), ?(ro_nslots _ _ _ _ R), ?(ro_soff _ _ _ _ R); assumption.
      + intros x. rewrite B, (ro_tail _ _ _ _ R), <- (i_cov _ _ _ _ _ _ A x). unfold cov. rewrite (ro_cnt _ _ _ _ R), (ro_nslots _ _ _ _ R). f_equal.
        * rewrite <- (pi_sum (fun k => ind (addr s k) (len s (plen s) k) x)). apply sumn_ext. intros p Hp. apply ro_ind. assumption.
        * apply sumn_ext. intros j Hj. destruct (SL j Hj) as (-> & -> & _). reflexivity.
      + intros r. apply plen_nonneg.
      + rewrite B, (ro_tail _ _ _ _ R), <- (i_tot _ _ _ _ _ _ A). unfold total. rewrite (ro_cnt _ _ _ _ R), (ro_nslots _ _ _ _ R). f_equal.
        * rewrite <- (pi_sum (len s (plen s))). apply sumn_ext. intros p Hp. apply ro_len. assumption.
        * apply sumn_ext. intros j Hj. apply (SL j Hj).
      + rewrite (ro_cnt _ _ _ _ R), (ro_jc _ _ _ _ R), <- (i_jc _ _ _ _ _ _ A). rewrite <- (pi_sum (hcount s)). apply sumn_ext. intros p Hp. unfold hcount. rewrite (proj1 (ro_hole p Hp)). reflexivity.
      + rewrite (ro_cnt _ _ _ _ R), (ro_jv _ _ _ _ R), <- (i_jv _ _ _ _ _ _ A). rewrite <- (pi_sum (hvol s)). apply sumn_ext. intros p Hp. unfold hvol. destruct (ro_hole p Hp) as [-> ->]. reflexivity.
      + intros p Hp. rewrite (ro_cnt _ _ _ _ R) in Hp. destruct (i_ent _ _ _ _ _ _ A (pi p) (pi_range p Hp)) as (E1 & E2 & E3).
        split; [apply (ro_rng _ _ _ _ R); assumption|]. split; [rewrite (ro_gid _ _ _ _ R) by assumption; assumption|]. destruct (ro_hole p Hp) as [H1 H2]. rewrite H1, H2. intros Hh Hu.
        assert (I' : is_inplaced_genus (egenus (idx s' p)) = false).
        { assert (egenus (idx s' p) = 31) as -> by (unfold egenus; rewrite Hh in H1; unfold is_hole in H1; change g_hole with 31 in H1; lia). reflexivity. }
        apply (ro_ref _ _ _ _ R p Hp I'). apply E3; assumption.
      + intros j Hj. rewrite (ro_nslots _ _ _ _ R) in Hj. destruct (SL j Hj) as (_ & _ & ->). apply (i_pre _ _ _ _ _ _ A). assumption.
      + rewrite (ro_jc _ _ _ _ R). apply (i_jcr _ _ _ _ _ _ A).
      + rewrite (ro_jv _ _ _ _ R). apply (i_jvr _ _ _ _ _ _ A).
    - intros i j Hi Hj. destruct (ro_nzh i Hi) as (N1 & _ & _ & ->). destruct (ro_nzh j Hj) as (N2 & _ & -> & _). apply (v_nonadj _ _ (t_inv _ T)); assumption.
    - intros i Hi. destruct (ro_nzh i Hi) as (N1 & _ & _ & ->). rewrite (ro_tail _ _ _ _ R). apply (v_notail _ _ (t_inv _ T)). assumption.
    - intros r H ST N. assert (L : live s (prm r)) by (destruct r; [apply (proj1 (ro_live (RL k)) H)|apply (proj1 (ro_live (RP j)) H)]).
      rewrite (ro_plen r H (all_spared r H)). destruct (ro_genus r H) as (_ & _ & G3). apply (t_pos _ T); [assumption|congruence|].
      assert (I : match r with RL _ => is_inplaced_genus (rgenus s' r) | RP _ => false end = false).
      { destruct r as [i|j]; [|reflexivity]. unfold stretchy_ref in ST. destruct (is_inplaced_genus (rgenus s' (RL i))) eqn:X; [|reflexivity]. apply inplaced_units in X. destruct X as [_ X]. rewrite X in ST. discriminate. }
      destruct (ro_addr r H (all_spared r H) I) as [A1 _]. tauto.
    - intros j Hj. rewrite (ro_nslots _ _ _ _ R) in Hj. rewrite (ro_stype _ _ _ _ R). apply (t_slot _ T). assumption.
  Qed.
End Reordered.

(** ** What a reader sees after compaction *)
Lemma vlist_flat F desc n : vlist F desc n = flat_map (fun k => item desc (F k)) (rev (seq 0 n)).
Proof.
  induction n as [|n IH]; [reflexivity|]. cbn [vlist]. rewrite IH, seq_S, rev_app_distr. cbn [rev app flat_map plus]. reflexivity.
Qed.
Lemma flat_kept F desc s l : (forall k, In k l -> is_hole (idx s k) = true -> F k = None) ->
  flat_map (fun k => item desc (F k)) (rev (filter (fun k => negb (is_hole (idx s k))) l)) = flat_map (fun k => item desc (F k)) (rev l).
Proof.
  induction l as [|a l IH]; intros H; [reflexivity|]. cbn [filter rev]. rewrite flat_map_app. rewrite <- IH by (intros; apply H; [right|]; assumption).
  destruct (is_hole (idx s a)) eqn:E; cbn [negb].
  - cbn [flat_map]. rewrite (H a) by (auto; left; reflexivity). cbn [item app]. rewrite app_nil_r. reflexivity.
  - cbn [rev]. rewrite flat_map_app. reflexivity.
Qed.
Lemma fields_kept s s2 : compacted s s2 ->
  map (fun i => field s2 (RL i)) (seq 0 (cnt s2)) = map (fun k => field s (RL k)) (filter (fun k => negb (is_hole (idx s k))) (seq 0 (cnt s))).
Proof.
  intros C. rewrite (k_cnt _ _ C). change (filter _ _) with (kept s).
  apply (nth_ext _ _ None None); [rewrite !map_length, seq_length; reflexivity|]. intros i Hi. rewrite map_length, seq_length in Hi.
  set (g := fun i => field s2 (RL i)). set (h := fun k => field s (RL k)).
  rewrite (nth_indep (map g _) _ (g 0%nat)) by (rewrite map_length, seq_length; assumption). rewrite (nth_indep (map h _) _ (h 0%nat)) by (rewrite map_length; assumption).
  rewrite !map_nth, seq_nth by assumption. unfold g, h. rewrite (k_loose _ _ C) by assumption. reflexivity.
Qed.
Lemma compacted_view s s2 desc : compacted s s2 -> real_desc desc -> view s2 desc = view s desc.
Proof.
  intros C D. rewrite !view_vlist by assumption. rewrite !vlist_flat.
  assert (G : forall (g h : nat -> option (Z * list Z)) l l', map g l = map h l' -> flat_map (fun k => item desc (g k)) (rev l) = flat_map (fun k => item desc (h k)) (rev l')).
  { intros g h l l' E. rewrite !flat_map_concat_map. f_equal. rewrite <- (map_map g (item desc)), <- (map_map h (item desc)). rewrite !map_rev, E. reflexivity. }
  rewrite (G _ _ _ _ (fields_kept s s2 C)). apply flat_kept. intros k Hk H. apply field_dead. intros [_ X]. congruence.
Qed.
Lemma compacted_get_loose s s2 desc : TInv s -> compacted s s2 -> real_desc desc -> get_loose s2 desc = get_loose s desc.
Proof. intros T C D. rewrite !get_loose_view by (assumption || apply C). rewrite (compacted_view s s2) by assumption. reflexivity. Qed.
Lemma compacted_get_slot s s2 j : TInv s -> compacted s s2 -> (j < nslots s)%nat -> get_slot s2 j = get_slot s j.
Proof.
  intros T C D. rewrite !get_slot_view by (assumption || apply C || (rewrite (k_nslots _ _ C); assumption)).
  pose proof (k_slot _ _ C j) as E. rewrite !field_live in E by (exact D || (cbn; rewrite (k_nslots _ _ C); exact D)).
  assert (value s2 (RP j) = value s (RP j)) as -> by congruence. reflexivity.
Qed.
