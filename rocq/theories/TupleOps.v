(** * TupleOps: the operations of the code as it stands, wherever its allocator slips do not
    strike (proofs). *)
From Verif Require Import Base Tag TagProofs Codec Gear GearBase GearSearch GearProofs GearMerge GearAlloc
  GearRealloc GearResize GearAsis Tuple TupleProofs TupleSteps TupleView.
From Coq Require Import ZifyBool ZifyNat Permutation.
Ltac Zify.zify_post_hook ::= Z.div_mod_to_equations.

(** units taken by a new loose field *)
Definition new_units (desc : Z) (v : tv) : Z :=
  if fixed_genus (descriptor2genus desc) then loose_units (descriptor2genus desc)
  else Z.of_nat (length (pay v)).
(** does a write of [v] leave a field behind? *)
Definition stores (desc : Z) (disc : bool) (v : tv) : bool :=
  if fixed_genus (descriptor2genus desc) then negb (negb disc && v_empty v)
  else negb (needed disc v =? 0).

(** ** Calm operations: none of the known slips of the allocator is triggered.
    - a new field is not cut out of a larger hole in the faulty way (gear.cxx:300);
    - the exchange of payloads at the end of the data does not happen (gear.cxx:591);
    - no hole is made wider than 2047 units (a hole keeps its size in 11 bits), and no hole of more
      than 2047 units is searched for;
    - freeing the payload of a preplaced field does not fail for lack of an index slot. *)
Definition calm_new (s : st) (u : Z) : bool := negb (split_slip s u).
Definition calm_free (s : st) (k : nat) : bool := negb (wide_hole s (addr s k) (plen s (RL k))).
Definition calm_ref (s : st) (r : ref) (n : Z) : bool :=
  roomy s r n &&
  ((rrel s r =? 0) || (n =? 0) || (n =? plen s r) || negb (swap_slip s r (plen s r) n)) &&
  match r with
  | RL _ => true
  | RP _ => if (n =? 0) && negb (rrel s r =? 0)
            then match release_data s (raddr s r) (plen s r) with Throw _ => false | _ => true end
            else true
  end.
Fixpoint calm_all_from (s : st) (desc : Z) (n : nat) : bool :=
  match n with
  | O => true
  | S m => if gid (idx s m) =? desc
           then calm_free s m &&
                match erase_loose s m with Ok _ s' => calm_all_from s' desc m | _ => true end
           else calm_all_from s desc m
  end.
Definition calm (s : st) (o : op) : bool :=
  match o with
  | OSet desc disc v =>
    match lookup_gid s desc with
    | None => negb (stores desc disc v) || calm_new s (new_units desc v)
    | Some k =>
      if fixed_genus (descriptor2genus desc) then stores desc disc v || calm_free s k
      else calm_ref s (RL k) (needed disc v)
    end
  | ORemove desc => match lookup_gid s desc with None => true | Some k => calm_free s k end
  | OAppend desc disc v => (negb disc && v_empty v) || calm_new s (new_units desc v)
  | OEraseAll desc => match lookup_gid s desc with None => true | Some k => calm_all_from s desc (S k) end
  | OErase k => calm_free s k
  | OSlot j disc v => calm_ref s (RP j) (needed disc v)
  | OSlotDel j => calm_ref s (RP j) 0
  end.

(** ** Existing variable-length fields *)
Lemma assign_ref_asis s r disc v : TInv s -> live s r -> stretchy_ref s r = true ->
  calm_ref s r (needed disc v) = true -> assign_ref asis s r disc v = assign_ref repaired s r disc v.
Proof.
  intros T Hl Hst Hc. unfold calm_ref in Hc. apply andb_prop in Hc. destruct Hc as [Hc _].
  apply andb_prop in Hc. destruct Hc as [_ Hc].
  destruct (stretchy_not _ _ Hst) as [F1 F2].
  unfold assign_ref. cbv zeta. destruct (rrel s r =? 0) eqn:Er; [reflexivity|]. cbn [negb].
  assert (Hp : brutto (rgenus s r) (dat s (raddr s r)) = plen s r) by (unfold plen; rewrite F1, Er; reflexivity).
  rewrite Hp. destruct (needed disc v =? plen s r) eqn:E1; [reflexivity|].
  destruct (needed disc v =? 0) eqn:E2; [reflexivity|].
  rewrite orb_false_r in Hc. cbn [orb] in Hc. apply Bool.negb_true_iff in Hc.
  assert (Hpos : 0 < plen s r) by (apply (t_pos _ T); auto; lia).
  rewrite realloc_data_asis; auto.
  apply (live_bounds s (plen s) (v_acc _ _ (t_inv _ T)) r Hl Hpos).
Qed.

Lemma assign_ref_step s r disc v : TInv s -> live s r -> stretchy_ref s r = true ->
  stretchy_wf (rgenus s r) disc v -> calm_ref s r (needed disc v) = true ->
  match assign_ref asis s r disc v with
  | Ok _ s' => TInv s' /\ effect s s' r (new_content s r disc v)
  | Throw s' => s' = s /\ no_room s r (needed disc v)
  | Bad => False
  end.
Proof.
  intros T Hl Hst Hwf Hc. rewrite (assign_ref_asis s r disc v T Hl Hst Hc).
  assert (Hr : roomy s r (needed disc v) = true).
  { unfold calm_ref in Hc. apply andb_prop in Hc. destruct Hc as [Hc _]. apply andb_prop in Hc. tauto. }
  pose proof (assign_ref_spec s r disc v T Hl Hst Hwf Hr) as Q.
  destruct (assign_ref repaired s r disc v) as [a s'|s'|] eqn:E; auto.
  destruct Q as [Hn [->|(j & -> & Hz & ->)]]; [auto|exfalso].
  unfold calm_ref in Hc. apply andb_prop in Hc. destruct Hc as [_ Hc].
  rewrite Hz in Hc. cbn [Z.eqb andb] in Hc.
  unfold assign_ref in E. cbv zeta in E.
  destruct (rrel s (RP j) =? 0) eqn:Er; cbn [negb] in *.
  - rewrite Hz in E. cbn [Z.eqb] in E. discriminate.
  - assert (Hp : brutto (rgenus s (RP j)) (dat s (raddr s (RP j))) = plen s (RP j)) by (unfold plen; rewrite Er; reflexivity).
    rewrite Hp, Hz in E.
    assert (Hpos : 0 < plen s (RP j)) by (apply (t_pos _ T); auto; lia).
    replace (0 =? plen s (RP j)) with false in E by lia. cbn [Z.eqb] in E.
    destruct (release_data s (raddr s (RP j)) (plen s (RP j))); cbn [bind] in E; discriminate.
Qed.

(** ** New fields *)
Definition no_slot_or_data (s : st) (u : Z) : Prop :=
  (0 < u /\ tail_space s < u /\ forall k, nzh s k -> hunits (idx s k) < u) \/
  (index_full s /\ forall k, nzh s k -> u = 0 \/ hunits (idx s k) <> u).

Lemma new_units_range desc v : wf_pay (descriptor2genus desc) (pay v) -> 0 <= new_units desc v < 65536.
Proof.
  intros H. unfold new_units. pose proof (loose_units_range (descriptor2genus desc)).
  unfold wf_pay in H. destruct (fixed_genus (descriptor2genus desc)) eqn:E; [lia|].
  destruct (is_inplaced_genus (descriptor2genus desc)) eqn:Ei; [apply inplaced_units in Ei; destruct Ei; congruence|]. lia.
Qed.

Definition write_new (desc : Z) (k : nat) (v : tv) (s : st) : st :=
  if is_inplaced_genus (descriptor2genus desc) then write_fixed s k (pay v)
  else write_units s (addr s k) (pay v).

Lemma new_field_step s desc v : TInv s -> real_desc desc -> wf_pay (descriptor2genus desc) (pay v) ->
  calm_new s (new_units desc v) = true ->
  match alloc_loose asis s desc (new_units desc v) with
  | Ok k s1 => ~ live s (RL k) /\ TInv (write_new desc k v s1) /\ gid (idx s1 k) = desc /\
      effect s (write_new desc k v s1) (RL k) (Some (desc, pay v))
  | Throw s' => s' = s /\ no_slot_or_data s (new_units desc v)
  | Bad => False
  end.
Proof.
  intros T Hd Hwf Hc. unfold calm_new in Hc. apply Bool.negb_true_iff in Hc.
  rewrite alloc_loose_asis by assumption.
  pose proof (alloc_loose_spec s (plen s) desc (new_units desc v) (t_inv _ T) (new_units_range _ _ Hwf) (proj1 Hd)
                (real_not_hole _ _ Hd)) as Q.
  destruct (alloc_loose repaired s desc (new_units desc v)) as [k s1|s1|] eqn:E; [|exact Q|contradiction].
  destruct (alloc_loose_field s desc (pay v) (new_units desc v) k s1 T (proj1 Hd) (real_not_hole _ _ Hd) Hwf eq_refl E)
    as (A & B & C).
  destruct Q as (_ & _ & Hg & _). auto.
Qed.

Lemma write_fixed_new desc k v s1 : fixed_genus (descriptor2genus desc) = true -> gid (idx s1 k) = desc ->
  write_fixed s1 k (pay v) = write_new desc k v s1.
Proof.
  intros F E. unfold write_new, write_fixed, egenus. rewrite E. destruct (is_inplaced_genus _); reflexivity.
Qed.
Lemma write_stretchy_new desc k v s1 : fixed_genus (descriptor2genus desc) = false ->
  write_units s1 (addr s1 k) (pay v) = write_new desc k v s1.
Proof.
  intros F. unfold write_new. destruct (is_inplaced_genus _) eqn:E; [|reflexivity].
  apply inplaced_units in E. destruct E. congruence.
Qed.

(** ** The effect of setting a loose field *)
Inductive set_effect (s : st) (desc : Z) (disc : bool) (v : tv) : st -> Prop :=
| se_none : stores desc disc v = false -> lookup_gid s desc = None -> set_effect s desc disc v s
| se_new k s' : stores desc disc v = true -> lookup_gid s desc = None -> ~ live s (RL k) ->
    effect s s' (RL k) (Some (desc, pay v)) -> set_effect s desc disc v s'
| se_over k s' : stores desc disc v = true -> lookup_gid s desc = Some k ->
    effect s s' (RL k) (Some (desc, pay v)) -> set_effect s desc disc v s'
| se_gone k s' : stores desc disc v = false -> lookup_gid s desc = Some k ->
    effect s s' (RL k) None -> set_effect s desc disc v s'
| se_keep k s' : stores desc disc v = false -> lookup_gid s desc = Some k ->
    fixed_genus (descriptor2genus desc) = false ->
    effect s s' (RL k) (Some (desc, [])) -> set_effect s desc disc v s'.

(** why setting fails *)
Definition set_fails (s : st) (desc : Z) (disc : bool) (v : tv) : Prop :=
  match lookup_gid s desc with
  | None => no_slot_or_data s (new_units desc v)
  | Some k => no_room s (RL k) (needed disc v)
  end.

Lemma set_step s desc disc v : TInv s -> real_desc desc -> wf_pay (descriptor2genus desc) (pay v) ->
  calm s (OSet desc disc v) = true ->
  match run1 asis s (OSet desc disc v) with
  | Ok _ s' => TInv s' /\ set_effect s desc disc v s'
  | Throw s' => s' = s /\ set_fails s desc disc v
  | Bad => False
  end.
Proof.
  intros T Hd Hwf Hc. cbn [run1 calm] in *. unfold set_fails.
  pose proof (new_field_step s desc v T Hd Hwf) as New.
  destruct (fixed_genus (descriptor2genus desc)) eqn:Ef.
  - unfold assign_fixed. destruct (lookup_gid s desc) as [k|] eqn:El.
    + destruct (lookup_some _ _ _ Hd El) as [Hl Hg].
      assert (Eg : egenus (idx s k) = descriptor2genus desc) by (unfold egenus; rewrite Hg; reflexivity).
      destruct (negb disc && v_empty v) eqn:Ee.
      * assert (St : stores desc disc v = false) by (unfold stores; rewrite Ef, Ee; reflexivity).
        rewrite St in Hc. cbn [orb] in Hc. unfold calm_free in Hc.
        destruct (erase_loose_spec s k T Hl ltac:(apply Bool.negb_true_iff; assumption)) as (s' & E & T' & Ee' & _).
        unfold erase_loose in E. replace (plen s (RL k)) with (loose_units (descriptor2genus desc)) in E.
        2:{ unfold plen. cbn [rgenus]. rewrite Eg, Ef. reflexivity. }
        rewrite E. cbn [void bind]. split; [assumption|]. eapply se_gone; eassumption.
      * assert (St : stores desc disc v = true) by (unfold stores; rewrite Ef, Ee; reflexivity).
        cbn [void bind].
        destruct (write_fixed_field s k (pay v) T Hl) as [T' E'].
        { rewrite Eg. exact Ef. } { rewrite Eg. exact Hwf. }
        split; [assumption|]. rewrite Hg in E'. eapply se_over; eassumption.
    + destruct (negb disc && v_empty v) eqn:Ee.
      * cbn [void bind]. split; [assumption|]. apply se_none; [|assumption]. unfold stores. rewrite Ef, Ee. reflexivity.
      * assert (St : stores desc disc v = true) by (unfold stores; rewrite Ef, Ee; reflexivity).
        rewrite St in Hc. cbn [negb orb] in Hc. specialize (New Hc).
        unfold new_units in New. rewrite Ef in New. unfold new_units. rewrite Ef.
        destruct (alloc_loose asis s desc (loose_units (descriptor2genus desc))) as [k s1|s1|]; cbn [void bind]; [|exact New|contradiction].
        destruct New as (N & T' & Hg & E'). rewrite (write_fixed_new desc) by assumption.
        split; [assumption|]. eapply se_new; eassumption.
  - assert (Wf2 : forall r, rgenus s r = descriptor2genus desc -> stretchy_wf (rgenus s r) disc v).
    { intros r ->. unfold wf_pay in Hwf. rewrite Ef in Hwf.
      destruct (is_inplaced_genus (descriptor2genus desc)) eqn:Ei; [apply inplaced_units in Ei; destruct Ei; congruence|].
      exact Hwf. }
    unfold assign_stretchy. destruct (lookup_gid s desc) as [k|] eqn:El.
    + destruct (lookup_some _ _ _ Hd El) as [Hl Hg].
      assert (Eg : rgenus s (RL k) = descriptor2genus desc) by (cbn [rgenus]; unfold egenus; rewrite Hg; reflexivity).
      assert (Hst : stretchy_ref s (RL k) = true) by (unfold stretchy_ref; rewrite Eg, Ef; reflexivity).
      pose proof (assign_ref_step s (RL k) disc v T Hl Hst (Wf2 _ Eg) Hc) as Q.
      destruct (assign_ref asis s (RL k) disc v) as [[] s'|s'|]; [|exact Q|contradiction].
      destruct Q as [T' E']. split; [assumption|]. unfold new_content in E'.
      cbn [rdesc] in E'. rewrite Hg in E'.
      destruct (needed disc v =? 0) eqn:En.
      * assert (St : stores desc disc v = false) by (unfold stores; rewrite Ef, En; reflexivity).
        destruct (rrel s (RL k) =? 0); [eapply se_keep|eapply se_gone]; eassumption.
      * assert (St : stores desc disc v = true) by (unfold stores; rewrite Ef, En; reflexivity).
        eapply se_over; eassumption.
    + destruct (needed disc v =? 0) eqn:En.
      * split; [assumption|]. apply se_none; [|assumption]. unfold stores. rewrite Ef, En. reflexivity.
      * assert (St : stores desc disc v = true) by (unfold stores; rewrite Ef, En; reflexivity).
        rewrite St in Hc. cbn [negb orb] in Hc. specialize (New Hc).
        destruct (needed_len disc v ltac:(lia)) as [Hn _].
        unfold new_units in *. rewrite Ef in *. rewrite Hn.
        destruct (alloc_loose asis s desc (Z.of_nat (length (pay v)))) as [k s1|s1|]; cbn [bind]; [|exact New|contradiction].
        destruct New as (N & T' & Hg & E'). rewrite (write_stretchy_new desc) by assumption.
        split; [assumption|]. eapply se_new; eassumption.
Qed.

(** ** Appending *)
Lemma append_step s desc disc v : TInv s -> real_desc desc -> wf_pay (descriptor2genus desc) (pay v) ->
  calm s (OAppend desc disc v) = true ->
  match append_loose asis s desc disc v with
  | Ok None s' => negb disc && v_empty v = true /\ s' = s
  | Ok (Some k) s' => negb disc && v_empty v = false /\ TInv s' /\ ~ live s (RL k) /\
      effect s s' (RL k) (Some (desc, pay v))
  | Throw s' => s' = s /\ no_slot_or_data s (new_units desc v)
  | Bad => False
  end.
Proof.
  intros T Hd Hwf Hc. cbn [calm] in Hc. unfold append_loose. cbv zeta.
  destruct (negb disc && v_empty v) eqn:Ee; [auto|]. cbn [orb] in Hc.
  pose proof (new_field_step s desc v T Hd Hwf Hc) as New. unfold new_units in *.
  destruct (fixed_genus (descriptor2genus desc)) eqn:Ef.
  - destruct (alloc_loose asis s desc (loose_units (descriptor2genus desc))) as [k s1|s1|]; cbn [bind]; [|exact New|contradiction].
    destruct New as (N & T' & Hg & E'). rewrite (write_fixed_new desc) by assumption. auto.
  - destruct (alloc_loose asis s desc (Z.of_nat (length (pay v)))) as [k s1|s1|]; cbn [bind]; [|exact New|contradiction].
    destruct New as (N & T' & Hg & E'). rewrite (write_stretchy_new desc) by assumption. auto.
Qed.

(** ** Erasing all members of a collection *)
Lemma erase_all_from_step desc : real_desc desc -> forall n s, TInv s ->
  (forall i, (n <= i)%nat -> live s (RL i) -> gid (idx s i) <> desc) ->
  (forall i, (i < n)%nat -> live s (RL i) \/ is_hole (idx s i) = true) ->
  calm_all_from s desc n = true ->
  exists s', erase_all_from s desc n = Ok tt s' /\ TInv s' /\
    (forall r, field s' r = match field s r with
                            | Some (d, p) => match r with
                                             | RL _ => if d =? desc then None else Some (d, p)
                                             | RP _ => Some (d, p) end
                            | None => None end) /\
    nslots s' = nslots s /\
    (forall r, live s r -> live s' r -> raddr s' r = raddr s r).
Proof.
  intros Hd. induction n as [|n IH]; intros s T Hhi Hlo Hc; cbn [erase_all_from calm_all_from] in *.
  - exists s. split; [reflexivity|]. split; [assumption|]. split; [|split; [reflexivity|reflexivity]]. intros r.
    destruct (field s r) as [[d p]|] eqn:Ef; [|reflexivity]. destruct r as [k|j]; [|reflexivity].
    destruct (d =? desc) eqn:E; [|reflexivity]. exfalso.
    assert (Hl : live s (RL k)).
    { apply liveb_iff. unfold field in Ef. destruct (liveb s (RL k)); [reflexivity|discriminate]. }
    rewrite (field_live _ _ Hl) in Ef. injection Ef as E1 _. cbn [rdesc] in E1.
    apply (Hhi k ltac:(lia) Hl). lia.
  - destruct (gid (idx s n) =? desc) eqn:Eg.
    + apply andb_prop in Hc. destruct Hc as [Hc1 Hc2]. unfold calm_free in Hc1.
      assert (Hl : live s (RL n)).
      { destruct (Hlo n ltac:(lia)) as [A|A]; [exact A|]. rewrite (real_gid (idx s n) desc Hd) in A by lia. discriminate. }
      destruct (erase_loose_spec s n T Hl ltac:(apply Bool.negb_true_iff; assumption)) as (s1 & E1 & T1 & Ef1 & Hh1). rewrite E1 in *. cbn [bind].
      assert (Hdead : ~ live s1 (RL n)).
      { intros A. pose proof (e_field _ _ _ _ Ef1) as F. rewrite field_live in F by assumption. discriminate. }
      assert (Hfr : forall i, i <> n -> live s1 (RL i) -> live s (RL i) /\ gid (idx s1 i) = gid (idx s i)).
      { intros i Ni Hi. pose proof (e_frame _ _ _ _ Ef1 (RL i) ltac:(congruence)) as F.
        rewrite field_live in F by assumption. destruct (liveb s (RL i)) eqn:Eb.
        - apply liveb_iff in Eb. rewrite field_live in F by assumption. injection F as F1 _. split; assumption.
        - unfold field in F. rewrite Eb in F. discriminate. }
      destruct (IH s1 T1) as (s2 & E2 & T2 & F2 & N2 & A2); [| |exact Hc2|].
      * intros i Hi Hl1. destruct (Nat.eq_dec i n) as [->|N]; [contradiction|].
        destruct (Hfr i N Hl1) as [A ->]. apply Hhi; [lia|exact A].
      * intros i Hi. destruct (Hlo i ltac:(lia)) as [A|A].
        -- left. pose proof (e_frame _ _ _ _ Ef1 (RL i) ltac:(intros X; injection X; lia)) as F.
           rewrite (field_live s) in F by assumption. apply liveb_iff. unfold field in F.
           destruct (liveb s1 (RL i)); [reflexivity|discriminate].
        -- right. apply Hh1; [lia|exact A].
      * exists s2. split; [exact E2|]. split; [exact T2|]. split; [|split; [rewrite N2; apply (e_nslots _ _ _ _ Ef1)|]].
        2:{ intros r H0 H2. assert (N : r <> RL n).
            { intros ->. pose proof (F2 (RL n)) as F. rewrite (e_field _ _ _ _ Ef1), (field_live s2) in F by assumption. discriminate. }
            assert (H1 : live s1 r).
            { apply liveb_iff. pose proof (e_frame _ _ _ _ Ef1 r N) as F. rewrite (field_live s) in F by assumption.
              unfold field in F. destruct (liveb s1 r); [reflexivity|discriminate]. }
            rewrite (A2 r H1 H2). apply (e_place _ _ _ _ Ef1 r N H0). }
        intros r. rewrite F2. destruct (ref_eq_dec r (RL n)) as [->|N].
        -- rewrite (e_field _ _ _ _ Ef1), (field_live _ _ Hl). cbn [rdesc]. rewrite Eg. reflexivity.
        -- rewrite (e_frame _ _ _ _ Ef1) by assumption. reflexivity.
    + apply IH; auto.
      intros i Hi Hl. destruct (Nat.eq_dec i n) as [->|N]; [lia|]. apply Hhi; auto. lia.
Qed.
