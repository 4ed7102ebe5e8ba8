(** * WanderProofs: what calls on a tuple do to the part of the index behind which a loop stands, and
    loops with any calls in the body (proofs). *)
From Verif Require Import Base Tag TagProofs Codec Gear GearBase GearSearch GearProofs GearMerge GearAlloc GearRealloc GearResize GearAsis
  Tuple TupleProofs TupleSteps TupleView TupleOps TupleMore TupleHist TupleFacts PropertiesTuple Growth GrowthProofs PropertiesGrowth Held HeldProofs PropertiesHeld
  Walk WalkProofs.
From Coq Require Import ZifyBool ZifyNat Sorted.
Ltac Zify.zify_post_hook ::= Z.div_mod_to_equations.

(** ** Entries cut off the index are holes, and holes cut off earlier stay holes *)
Definition sound (s : st) (i : nat) : Prop := (i < cnt s)%nat \/ is_hole (idx s i) = true.
Definition keeps (s s' : st) : Prop := forall i, sound s i -> sound s' i.
Lemma keeps_refl s : keeps s s.
Proof. intros i H. exact H. Qed.
Lemma keeps_trans a b c : keeps a b -> keeps b c -> keeps a c.
Proof. intros A B i H. apply B, A, H. Qed.
Lemma keeps_clean s s' n : keeps s s' -> clean s n -> clean s' n.
Proof. intros K C i Hi. apply K, C, Hi. Qed.
Lemma keeps_same s s' X : same s s' X -> (forall k, X (RL k) -> sound s' k) -> keeps s s'.
Proof.
  intros S H i Hi. destruct (is_hole (idx s i)) eqn:Eh.
  - destruct (is_hole (idx s' i)) eqn:Eh'; [right; exact Eh'|].
    destruct (Nat.lt_ge_cases i (cnt s')) as [L|L]; [left; exact L|]. exfalso.
    assert (N : ~ X (RL i)). { intros A. destruct (H i A) as [B|B]; [lia|congruence]. }
    rewrite (f_hole _ _ _ S i N Eh) in Eh'. discriminate.
  - destruct Hi as [Hi|Hi]; [|congruence]. destruct (is_hole (idx s' i)) eqn:Eh'; [right; exact Eh'|].
    destruct (Nat.lt_ge_cases i (cnt s')) as [L|L]; [left; exact L|]. exfalso.
    assert (N : ~ X (RL i)). { intros A. destruct (H i A) as [B|B]; [lia|congruence]. }
    assert (Lv : live s' (RL i)) by (apply (f_live _ _ _ S _ N); split; assumption). destruct Lv. lia.
Qed.
Lemma keeps_only s s' r : same s s' (only r) -> live s' r -> keeps s s'.
Proof. intros S L. apply (keeps_same s s' _ S). intros k E. unfold only in E. subst r. left. apply L. Qed.
Lemma keeps_none s s' : same s s' none -> keeps s s'.
Proof. intros S. apply (keeps_same s s' _ S). intros k []. Qed.
(** nothing but the data, the junk counters or the preplaced references changes *)
Lemma keeps_write s a ws : keeps s (write_units s a ws).
Proof. intros i H. exact H. Qed.
Lemma keeps_set s k e : (k < cnt s)%nat -> keeps s (set_ent s k e).
Proof.
  intros Hk i [H|H]; [left; exact H|]. destruct (Nat.eq_dec i k) as [->|N]; [left; exact Hk|]. right. cbn [set_ent with_idx idx]. unfold fupd.
  replace (Nat.eqb i k) with false by (symmetry; apply Nat.eqb_neq; exact N). exact H.
Qed.
Lemma keeps_write_fixed s k v : (k < cnt s)%nat -> keeps s (write_fixed s k v).
Proof. intros Hk. unfold write_fixed. destruct (is_inplaced_genus _); [apply keeps_set; exact Hk|apply keeps_write]. Qed.

(** ** Call by call *)
Lemma erase_keeps s k s' : TInv s -> live s (RL k) -> calm_free s k = true -> erase_loose s k = Ok tt s' -> keeps s s'.
Proof.
  intros T L C E. unfold calm_free in C. apply Bool.negb_true_iff in C. apply (wide_hole_cap s (plen s) _ _ (v_acc _ _ (t_inv _ T))) in C.
  destruct (release_loose_full s (plen s) k (t_inv _ T) L C) as (s1 & E1 & _ & [_ H] & S & _). unfold erase_loose in E. rewrite E1 in E. injection E as <-.
  apply (keeps_same s s1 _ S). intros i Q. unfold only in Q. injection Q as ->. right. exact H.
Qed.
Lemma alloc_keeps s desc v k s1 : TInv s -> real_desc desc -> wf_pay (descriptor2genus desc) (pay v) -> calm_new s (new_units desc v) = true ->
  alloc_loose asis s desc (new_units desc v) = Ok k s1 -> keeps s s1 /\ (k < cnt s1)%nat.
Proof.
  intros T D W C E. unfold calm_new in C. apply Bool.negb_true_iff in C. rewrite alloc_loose_asis in E by assumption.
  pose proof (alloc_loose_spec s (plen s) desc (new_units desc v) (t_inv _ T) (new_units_range _ _ W) (proj1 D) (real_not_hole _ _ D)) as Q.
  rewrite E in Q. destruct Q as (_ & L & _ & S & _). split; [apply (keeps_only s s1 _ S L)|apply L].
Qed.
Lemma assign_keeps s r disc v s' : TInv s -> live s r -> stretchy_ref s r = true -> stretchy_wf (rgenus s r) disc v -> calm_ref s r (needed disc v) = true ->
  assign_ref asis s r disc v = Ok tt s' -> keeps s s'.
Proof.
  intros T Hl Hst [Hlen Hb] Hc. rewrite (assign_ref_asis s r disc v T Hl Hst Hc).
  assert (Hroom : roomy s r (needed disc v) = true). { unfold calm_ref in Hc. apply andb_prop in Hc. destruct Hc as [Hc _]. apply andb_prop in Hc. tauto. }
  pose proof (t_inv _ T) as Ti. pose proof (v_acc _ _ Ti) as H. destruct (stretchy_not _ _ Hst) as [F1 F2].
  pose proof (needed_len disc v) as Hnl. assert (Hn0 : 0 <= needed disc v) by (unfold needed; destruct (_ || _); lia).
  unfold assign_ref. cbv zeta. set (n := needed disc v) in *. destruct (rrel s r =? 0) eqn:Er; cbn [negb].
  - assert (P0 : plen s r = 0) by (unfold plen; rewrite F1, Er; reflexivity).
    destruct (n =? 0) eqn:En; [intros E; injection E as <-; apply keeps_refl|]. specialize (Hnl ltac:(lia)). destruct Hnl as [Hnl _].
    destruct (lookup_fit_spec s (plen s) n H ltac:(lia)) as (o & Eo & Ho). unfold alloc_data. rewrite Eo.
    assert (Ho' : forall h, o = Some h -> nzh s h /\ n <= hunits (idx s h)) by (intros h ->; destruct Ho as (X & Y & _); auto).
    pose proof (alloc_data_at_spec s (plen s) n o Ti ltac:(lia) Ho') as A.
    destruct (alloc_data_at s n o) as [c s0|s0|]; cbn [bind]; [|discriminate|contradiction]. destruct A as (G & S1 & _).
    assert (Hl1 : live s0 r) by (apply (f_live _ _ _ S1); auto). destruct (attach s0 (plen s) r c n G Hl1 P0) as (_ & A2 & A3 & _).
    intros E. injection E as <-. eapply keeps_trans; [apply (keeps_none _ _ S1)|]. eapply keeps_trans; [apply (keeps_only _ _ _ A2 A3)|]. apply keeps_write.
  - assert (Hp : brutto (rgenus s r) (dat s (raddr s r)) = plen s r) by (unfold plen; rewrite F1, Er; reflexivity). rewrite Hp.
    assert (Hpos : 0 < plen s r) by (apply (t_pos _ T); auto; lia).
    destruct (n =? plen s r) eqn:En; [intros E; injection E as <-; apply keeps_write|].
    unfold roomy in Hroom. rewrite Er, En in Hroom. cbn [orb] in Hroom. destruct (n =? 0) eqn:En0.
    + destruct r as [k|j].
      * cbn [orb] in Hroom. intros E. apply (erase_keeps s k s' T Hl); [exact Hroom|exact E].
      * unfold release_data. pose proof (i_jc _ _ _ _ _ _ H) as Hjc.
        destruct (lookup_adjacent_spec s (raddr s (RP j)) (raddr s (RP j) + plen s (RP j)) ltac:(lia)) as ([bf af] & E & Hadj). rewrite E.
        assert (Hcp : raddr s (RP j) + plen s (RP j) = tail s \/ plen s (RP j) + hu s bf + hu s af <= 2047).
        { destruct (raddr s (RP j) + plen s (RP j) =? tail s) eqn:Et; [left; lia|right]. cbn [orb] in Hroom. apply Bool.negb_true_iff in Hroom.
          destruct (wide_hole_cap s (plen s) _ _ H Hroom) as [X|X]; [lia|exact (X (bf, af) Hadj)]. }
        pose proof (detach s (plen s) (RP j) Ti Hl Hpos) as G. pose proof (release_data_at_spec s _ _ _ bf af None G Hadj Hcp ltac:(discriminate)) as Q.
        destruct (release_data_at s (raddr s (RP j)) (plen s (RP j)) (bf, af) None) as [o s1|s1|]; cbn [bind]; [|discriminate|contradiction].
        destruct Q as (_ & S1 & _). intros E2. injection E2 as <-. apply (keeps_none _ _ S1).
    + assert (Hn1 : n <> 0) by lia. destruct (Hnl Hn1) as [Hnl' _]. apply Bool.negb_true_iff in Hroom.
      pose proof (realloc_data_spec s (plen s) r n Ti Hl Hpos ltac:(lia) ltac:(lia) Hroom) as Q.
      destruct (realloc_data repaired s r (plen s r) n) as [o s1|s1|]; cbn [bind]; [|discriminate|contradiction].
      intros E. injection E as <-. eapply keeps_trans; [apply (keeps_only _ _ _ (z_same _ _ _ _ _ Q) (z_live _ _ _ _ _ Q))|]. apply keeps_write.
Qed.
Lemma erase_all_keeps desc : real_desc desc -> forall n s s', TInv s -> clean s n -> calm_all_from s desc n = true -> erase_all_from s desc n = Ok tt s' -> keeps s s'.
Proof.
  intros D. induction n as [|n IH]; intros s s' T C Cm E; cbn [erase_all_from calm_all_from] in *; [injection E as <-; apply keeps_refl|].
  destruct (gid (idx s n) =? desc) eqn:Eg.
  - apply andb_prop in Cm. destruct Cm as [C1 C2]. assert (L : live s (RL n)) by (apply (clean_live s (S n) n desc C D); lia).
    destruct (erase_loose_spec s n T L ltac:(apply Bool.negb_true_iff; exact C1)) as (s1 & E1 & T1 & _). rewrite E1 in *. cbn [bind] in E.
    pose proof (erase_keeps s n s1 T L C1 E1) as K. eapply keeps_trans; [exact K|]. apply (IH s1 s' T1); [|exact C2|exact E].
    apply (keeps_clean s s1 n K). intros i Hi. apply C. lia.
  - apply (IH s s' T); [|exact Cm|exact E]. intros i Hi. apply C. lia.
Qed.
Lemma call_keeps multi s o s' : TInv s -> valid multi s o -> calm s o = true -> run1 asis s o = Ok tt s' -> keeps s s'.
Proof.
  intros T V C R. destruct o as [desc disc v|desc|desc disc v|desc|k|j disc v|j]; cbn [valid run1 calm] in *.
  - destruct V as (D & _ & W). destruct (fixed_genus (descriptor2genus desc)) eqn:Ef.
    + unfold assign_fixed in R. destruct (lookup_gid s desc) as [k|] eqn:El.
      * destruct (lookup_some _ _ _ D El) as [L G]. destruct (negb disc && v_empty v) eqn:Ee.
        -- assert (St : stores desc disc v = false) by (unfold stores; rewrite Ef, Ee; reflexivity). rewrite St in C. cbn [orb] in C.
           apply (erase_keeps s k s' T L C). unfold erase_loose. replace (plen s (RL k)) with (loose_units (descriptor2genus desc)).
           2:{ unfold plen. cbn [rgenus]. unfold egenus. rewrite G, Ef. reflexivity. }
           destruct (release_loose s k _) as [[] s1|s1|]; cbn [void bind] in R; congruence.
        -- cbn [void bind] in R. injection R as <-. apply keeps_write_fixed, L.
      * destruct (negb disc && v_empty v) eqn:Ee; [cbn [void bind] in R; injection R as <-; apply keeps_refl|].
        assert (St : stores desc disc v = true) by (unfold stores; rewrite Ef, Ee; reflexivity). rewrite St in C. cbn [negb orb] in C.
        pose proof (alloc_keeps s desc v) as A. unfold new_units in *. rewrite Ef in *.
        destruct (alloc_loose asis s desc (loose_units (descriptor2genus desc))) as [k s1|s1|]; cbn [void bind] in R; try discriminate.
        injection R as <-. destruct (A k s1 T D W C eq_refl) as [A1 A2]. eapply keeps_trans; [exact A1|apply keeps_write_fixed, A2].
    + unfold assign_stretchy in R. destruct (lookup_gid s desc) as [k|] eqn:El.
      * destruct (lookup_some _ _ _ D El) as [L G]. assert (Eg : rgenus s (RL k) = descriptor2genus desc) by (cbn [rgenus]; unfold egenus; rewrite G; reflexivity).
        apply (assign_keeps s (RL k) disc v s' T L); [unfold stretchy_ref; rewrite Eg, Ef; reflexivity| |exact C|exact R].
        rewrite Eg. unfold wf_pay in W. rewrite Ef in W. destruct (is_inplaced_genus (descriptor2genus desc)) eqn:Ei; [apply inplaced_units in Ei; destruct Ei; congruence|]. exact W.
      * destruct (needed disc v =? 0) eqn:En; [injection R as <-; apply keeps_refl|].
        assert (St : stores desc disc v = true) by (unfold stores; rewrite Ef, En; reflexivity). rewrite St in C. cbn [negb orb] in C.
        destruct (needed_len disc v ltac:(lia)) as [Hn _]. pose proof (alloc_keeps s desc v) as A. unfold new_units in *. rewrite Ef in *. rewrite Hn in R.
        destruct (alloc_loose asis s desc (Z.of_nat (length (pay v)))) as [k s1|s1|]; cbn [bind] in R; try discriminate.
        injection R as <-. destruct (A k s1 T D W C eq_refl) as [A1 _]. eapply keeps_trans; [exact A1|apply keeps_write].
  - destruct V as (D & _). destruct (lookup_gid s desc) as [k|] eqn:El; [|injection R as <-; apply keeps_refl].
    destruct (lookup_some _ _ _ D El) as [L _]. apply (erase_keeps s k s' T L C R).
  - destruct V as (D & _ & W). unfold append_loose in R. cbv zeta in R. destruct (negb disc && v_empty v) eqn:Ee; [cbn [void bind] in R; injection R as <-; apply keeps_refl|].
    cbn [orb] in C. pose proof (alloc_keeps s desc v) as A. unfold new_units in *. destruct (fixed_genus (descriptor2genus desc)) eqn:Ef.
    + destruct (alloc_loose asis s desc (loose_units (descriptor2genus desc))) as [k s1|s1|]; cbn [void bind] in R; try discriminate.
      injection R as <-. destruct (A k s1 T D W C eq_refl) as [A1 A2]. eapply keeps_trans; [exact A1|apply keeps_write_fixed, A2].
    + destruct (alloc_loose asis s desc (Z.of_nat (length (pay v)))) as [k s1|s1|]; cbn [void bind] in R; try discriminate.
      injection R as <-. destruct (A k s1 T D W C eq_refl) as [A1 _]. eapply keeps_trans; [exact A1|apply keeps_write].
  - destruct V as (D & _). unfold erase_all in R. destruct (lookup_gid s desc) as [k|] eqn:El; [|injection R as <-; apply keeps_refl].
    destruct (lookup_some _ _ _ D El) as [[L _] _]. apply (erase_all_keeps desc D (S k) s s' T); [intros i Hi; left; lia|exact C|exact R].
  - destruct V as (L & _). apply (erase_keeps s k s' T L C R).
  - destruct V as (Hj & W). apply (assign_keeps s (RP j) disc v s' T Hj eq_refl W C R).
  - rewrite (erase_slot_assign asis s j T V) in R. apply (assign_keeps s (RP j) false (mkV true []) s' T V eq_refl); [split; cbn; [lia|congruence]|exact C|exact R].
Qed.
Lemma run_keeps multi l : forall s, TInv s -> uniq multi s -> calm_run multi s l ->
  exists outs s', run asis s l = Some (outs, s') /\ TInv s' /\ uniq multi s' /\ keeps s s'.
Proof.
  induction l as [|o l IH]; intros s T U C; cbn [run calm_run] in *; [exists [], s; split; [reflexivity|]; split; [exact T|]; split; [exact U|apply keeps_refl]|].
  destruct C as (V & Cm & C). pose proof (step multi s o T U V Cm) as St. destruct (run1 asis s o) as [[] s1|s1|] eqn:E; [| |contradiction].
  - destruct (IH s1 (p_inv _ _ _ _ St) (p_uniq _ _ _ _ St) C) as (o1 & s2 & R & T2 & U2 & K). exists (true :: o1), s2. rewrite R.
    split; [reflexivity|]. split; [exact T2|]. split; [exact U2|]. eapply keeps_trans; [apply (call_keeps multi s o s1 T V Cm E)|exact K].
  - subst s1. destruct (IH s T U C) as (o1 & s2 & R & Q). exists (false :: o1), s2. rewrite R. auto.
Qed.

(** ** The loop *)
Section Wander.
  Variables (multi : Z -> bool) (desc : Z) (disc : bool) (body : wide_turns).
  Definition b_before (b : list op * act * list op) := fst (fst b).
  Definition b_act (b : list op * act * list op) := snd (fst b).
  Definition b_after (b : list op * act * list op) := snd b.
  (** no call of the loop meets one of the known slips of the allocator, and an act other than keeping
      is applied to the element that the iterator points to *)
  Fixpoint quiet (fuel : nat) (s : st) (p : option nat) (seen : list rd) : Prop :=
    match p, fuel with
    | Some k, S fuel =>
      let now := acc_get s (mkAcc desc disc (Some k)) in
      let b := body seen k now in
      calm_run multi s (b_before b) /\ (b_act b <> Keep -> untouched s (b_before b) k) /\
      match run asis s (b_before b) with
      | None => True
      | Some (_, s) =>
        act_ok s desc disc k (b_act b) /\
        match by_copy asis s desc disc k (b_act b) with
        | Bad => True
        | Ok _ s | Throw s => calm_run multi s (b_after b) /\
          match run asis s (b_after b) with None => True | Some (_, s) => quiet fuel s (it_next s desc (Some k)) (seen ++ [now]) end
        end
      end
    | _, _ => True
    end.
  (** no successful call addresses the entry [i] before the loop has reached it *)
  Fixpoint passed_by (i : nat) (fuel : nat) (s : st) (p : option nat) (seen : list rd) : Prop :=
    match p, fuel with
    | Some k, S fuel =>
      if Nat.eqb i k then True else
      let now := acc_get s (mkAcc desc disc (Some k)) in
      let b := body seen k now in
      untouched s (b_before b) i /\
      match run asis s (b_before b) with
      | None => True
      | Some (_, s) =>
        match by_copy asis s desc disc k (b_act b) with
        | Bad => True
        | Ok _ s | Throw s => untouched s (b_after b) i /\
          match run asis s (b_after b) with None => True | Some (_, s) => passed_by i fuel s (it_next s desc (Some k)) (seen ++ [now]) end
        end
      end
    | _, _ => True
    end.
  Hypotheses (D : real_desc desc) (M : multi desc = true).

  Lemma wander_quiet : forall fuel s n seen, TInv s -> uniq multi s -> clean s n -> (n <= fuel)%nat -> quiet fuel s (it_next s desc (Some n)) seen ->
    exists vis s', wander asis desc disc body fuel s (it_next s desc (Some n)) seen = Some (vis, s') /\ TInv s' /\ uniq multi s' /\
      StronglySorted (fun a b => (b < a)%nat) (map v_pos vis) /\ Forall (fun x => (v_pos x < n)%nat) vis /\
      (forall i p, (i < n)%nat -> field s (RL i) = Some (desc, p) -> passed_by i fuel s (it_next s desc (Some n)) seen ->
         exists x, In x vis /\ v_pos x = i /\ v_read x = read_of desc disc p).
  Proof.
    induction fuel as [|fuel IH]; intros s n seen T U C L St.
    - assert (n = O) by lia. subst n. exists [], s. cbn. split; [reflexivity|]. split; [exact T|]. split; [exact U|]. split; [constructor|]. split; [constructor|]. intros; lia.
    - pose proof (scan_facts (fun e => gid e =? desc) (idx s) n) as SF. cbn [it_next] in *.
      destruct (scan_down (fun e => gid e =? desc) (idx s) n) as [k|] eqn:Ek.
      2: { exists [], s. cbn [wander]. split; [reflexivity|]. split; [exact T|]. split; [exact U|]. split; [constructor|]. split; [constructor|].
        intros i p Hi F _. destruct (field_desc _ _ _ _ F) as [_ G]. specialize (SF i Hi). cbn beta in SF. lia. }
      destruct SF as (Hk & Gk & Hi). cbn [wander quiet passed_by] in *. cbv zeta in *.
      assert (Lk : live s (RL k)) by (apply (clean_live s n k desc C D Hk); lia).
      pose proof (field_live _ _ Lk) as F. cbn [rdesc] in F. replace (gid (idx s k)) with desc in F by lia. set (p := value s (RL k)) in F.
      set (now := acc_get s (mkAcc desc disc (Some k))) in *. set (ba := body seen k now) in *.
      destruct St as (St1 & St2 & St3). destruct (run_keeps multi (b_before ba) s T U St1) as (outs & s1 & R & T1 & U1 & K1).
      rewrite R in St3. destruct St3 as [Ao St3].
      assert (Now : now = read_of desc disc p) by (apply read_field; assumption).
      assert (C1 : clean s1 k). { intros i Hi2. apply (keeps_clean s s1 n K1 C). lia. }
      assert (Act : match by_copy asis s1 desc disc k (b_act ba) with
        | Ok q s2 => q = Some k /\ TInv s2 /\ uniq multi s2 /\ clean s2 k /\ (forall i, i <> k -> field s2 (RL i) = field s1 (RL i))
        | Throw s2 => s2 = s1 | Bad => False end).
      { destruct (b_act ba) as [|v|] eqn:Ea; [cbn [by_copy]; auto| |];
          (destruct (run_kept multi (b_before ba) s k desc p T U St1 (St2 ltac:(discriminate)) F) as (o2 & s2 & R2 & _ & _ & F1); rewrite R in R2; injection R2 as <- <-).
        - pose proof (copy_step s1 desc disc k p (Put v) T1 D F1 Ao) as Cs. destruct (by_copy asis s1 desc disc k (Put v)) as [q s2|s2|]; [|exact Cs|contradiction].
          destruct Cs as (-> & T2 & Ef & _ & C2). split; [reflexivity|]. split; [exact T2|]. split; [|split; [exact C2|]].
          + destruct Ef as [->|Ef]; [exact U1|]. apply (effect_uniq multi s1 s2 desc k p _ U1 M F1 (leaves_desc _ _ _ _) Ef).
          + intros i N. destruct Ef as [->|Ef]; [reflexivity|]. apply (e_frame _ _ _ _ Ef). congruence.
        - pose proof (copy_step s1 desc disc k p Drop T1 D F1 Ao) as Cs. destruct (by_copy asis s1 desc disc k Drop) as [q s2|s2|]; [|exact Cs|contradiction].
          destruct Cs as (-> & T2 & Ef & _ & C2). split; [reflexivity|]. split; [exact T2|]. split; [|split; [exact C2|]].
          + destruct Ef as [->|Ef]; [exact U1|]. apply (effect_uniq multi s1 s2 desc k p (leaves desc disc p Drop) U1 M F1 (leaves_desc desc disc p Drop) Ef).
          + intros i N. destruct Ef as [->|Ef]; [reflexivity|]. apply (e_frame _ _ _ _ Ef). congruence. }
      assert (Go : forall ok s2, TInv s2 -> uniq multi s2 -> clean s2 k -> (forall i, i <> k -> field s2 (RL i) = field s1 (RL i)) ->
        calm_run multi s2 (b_after ba) /\ match run asis s2 (b_after ba) with None => True | Some (_, s) => quiet fuel s (scan_down (fun e => gid e =? desc) (idx s) k) (seen ++ [now]) end ->
        exists vis s', match run asis s2 (b_after ba) with None => None
            | Some (_, s) => option_map (fun r => (mkVisit k now (b_act ba) ok :: fst r, snd r)) (wander asis desc disc body fuel s (scan_down (fun e => gid e =? desc) (idx s) k) (seen ++ [now])) end = Some (vis, s') /\
          TInv s' /\ uniq multi s' /\
          StronglySorted (fun a b => (b < a)%nat) (map v_pos vis) /\ Forall (fun x => (v_pos x < n)%nat) vis /\
          (forall i p0, (i < n)%nat -> field s (RL i) = Some (desc, p0) ->
            (i <> k -> untouched s (b_before ba) i /\ untouched s2 (b_after ba) i /\ match run asis s2 (b_after ba) with None => True | Some (_, s) => passed_by i fuel s (scan_down (fun e => gid e =? desc) (idx s) k) (seen ++ [now]) end) ->
            exists x, In x vis /\ v_pos x = i /\ v_read x = read_of desc disc p0)).
      { intros ok s2 T2 U2 C2 Fr [Cm St4]. destruct (run_keeps multi (b_after ba) s2 T2 U2 Cm) as (o3 & s3 & R3 & T3 & U3 & K3). rewrite R3 in *.
        destruct (IH s3 k (seen ++ [now]) T3 U3 (keeps_clean _ _ _ K3 C2) ltac:(lia) St4) as (vis & s' & W & T' & U' & So & Fa & Al).
        exists (mkVisit k now (b_act ba) ok :: vis), s'. cbn [it_next] in W. rewrite W. cbn [option_map fst snd map v_pos]. split; [reflexivity|]. split; [exact T'|]. split; [exact U'|]. split; [|split].
        - constructor; [exact So|]. apply Forall_map. exact Fa.
        - constructor; [exact Hk|]. eapply Forall_impl; [|exact Fa]. cbn beta. intros x Hx. lia.
        - intros i p0 Hin Fi Sp. destruct (Nat.eq_dec i k) as [->|N].
          + exists (mkVisit k now (b_act ba) ok). split; [left; reflexivity|]. split; [reflexivity|]. cbn [v_read]. rewrite Now. congruence.
          + destruct (Sp N) as (Sp1 & Sp2 & Sp3). destruct (field_desc _ _ _ _ Fi) as [_ Gi].
            assert (i < k)%nat. { destruct (Nat.lt_ge_cases i k) as [X|X]; [exact X|]. pose proof (Hi i ltac:(lia)) as Y. cbn beta in Y. lia. }
            destruct (run_kept multi (b_before ba) s i desc p0 T U St1 Sp1 Fi) as (o2 & s4 & R2 & _ & _ & Fi1). rewrite R in R2. injection R2 as <- <-.
            rewrite <- Fr in Fi1 by exact N. destruct (run_kept multi (b_after ba) s2 i desc p0 T2 U2 Cm Sp2 Fi1) as (o5 & s5 & R5 & _ & _ & Fi2). rewrite R3 in R5. injection R5 as <- <-.
            destruct (Al i p0 ltac:(lia) Fi2 Sp3) as (x & X1 & X2 & X3). exists x. split; [right; exact X1|]. auto. }
      destruct ba as [[l1 a1] l2] eqn:Eb. unfold b_before, b_act, b_after in *. cbn [fst snd] in *. rewrite R.
      destruct (by_copy asis s1 desc disc k a1) as [q s2|s2|] eqn:Ea; [| |contradiction].
      + destruct Act as (-> & T2 & U2 & C2 & Fr). cbn [it_next]. destruct (Go true s2 T2 U2 C2 Fr St3) as (vis & s' & W & Q1 & Q2 & Q3 & Q4 & Q5).
        exists vis, s'. split; [exact W|]. split; [exact Q1|]. split; [exact Q2|]. split; [exact Q3|]. split; [exact Q4|].
        intros i p0 Hin Fi Sp. apply (Q5 i p0 Hin Fi). intros N. replace (Nat.eqb i k) with false in Sp by (symmetry; apply Nat.eqb_neq; exact N).
        exact Sp.
      + subst s2. cbn [it_next]. destruct (Go false s1 T1 U1 C1 ltac:(reflexivity) St3) as (vis & s' & W & Q1 & Q2 & Q3 & Q4 & Q5).
        exists vis, s'. split; [exact W|]. split; [exact Q1|]. split; [exact Q2|]. split; [exact Q3|]. split; [exact Q4|].
        intros i p0 Hin Fi Sp. apply (Q5 i p0 Hin Fi). intros N. replace (Nat.eqb i k) with false in Sp by (symmetry; apply Nat.eqb_neq; exact N).
        exact Sp.
  Qed.
End Wander.
