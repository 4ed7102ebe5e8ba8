(** * WalkProofs: loops over a collection that edit the tuple (proofs). *)
From Verif Require Import Base Tag TagProofs Codec Gear GearBase GearSearch GearProofs Tuple TupleProofs TupleSteps TupleView TupleOps TupleMore
  TupleHist TupleFacts PropertiesTuple Growth GrowthProofs PropertiesGrowth Held HeldProofs PropertiesHeld Walk.
From Coq Require Import ZifyBool ZifyNat Sorted.
Ltac Zify.zify_post_hook ::= Z.div_mod_to_equations.

(** ** Searching on *)
Lemma scan_facts P f n : match scan_down P f n with
  | Some k => (k < n)%nat /\ P (f k) = true /\ (forall i, (k < i < n)%nat -> P (f i) = false)
  | None => forall i, (i < n)%nat -> P (f i) = false end.
Proof.
  induction n as [|n IH]; cbn [scan_down]; [intros; lia|]. destruct (P (f n)) eqn:E.
  - split; [lia|]. split; [exact E|]. intros; lia.
  - destruct (scan_down P f n) as [k|].
    + destruct IH as (A & B & C). split; [lia|]. split; [exact B|]. intros i Hi. destruct (Nat.eq_dec i n) as [->|]; [exact E|]. apply C; lia.
    + intros i Hi. destruct (Nat.eq_dec i n) as [->|]; [exact E|]. apply IH; lia.
Qed.
(** below [n] there are entries of the index and holes only *)
Definition clean (s : st) (n : nat) : Prop := forall i, (i < n)%nat -> (i < cnt s)%nat \/ is_hole (idx s i) = true.
Lemma clean_live s n i desc : clean s n -> real_desc desc -> (i < n)%nat -> gid (idx s i) = desc -> live s (RL i).
Proof.
  intros C D Hi G. pose proof (real_gid (idx s i) desc D G) as H. split; [|exact H]. destruct (C i Hi) as [A|A]; [exact A|congruence].
Qed.

(** ** Calls by token in the body *)
Lemma run_kept multi l : forall s k d p, TInv s -> uniq multi s -> calm_run multi s l -> untouched s l k -> field s (RL k) = Some (d, p) ->
  exists outs s', run asis s l = Some (outs, s') /\ TInv s' /\ uniq multi s' /\ field s' (RL k) = Some (d, p).
Proof.
  induction l as [|o l IH]; intros s k d p T U C N F; cbn [run calm_run untouched] in *; [exists [], s; auto|].
  destruct C as (V & Cm & C). pose proof (step multi s o T U V Cm) as St. destruct (run1 asis s o) as [[] s1|s1|] eqn:E; [| |contradiction].
  - destruct N as [N1 N2]. destruct (IH s1 k d p (p_inv _ _ _ _ St) (p_uniq _ _ _ _ St) C N2) as (o1 & s2 & R & T2 & U2 & F2).
    + apply (proj1 (step_framed multi s o s1 T V Cm E)); assumption.
    + exists (true :: o1), s2. rewrite R. auto.
  - subst s1. destruct (IH s k d p T U C N F) as (o1 & s2 & R & Q). exists (false :: o1), s2. rewrite R. auto.
Qed.

(** ** Acting on the element *)
Definition calm_put (s : st) (desc : Z) (disc : bool) (k : nat) (v : tv) : bool :=
  if fixed_genus (descriptor2genus desc) then stores desc disc v || calm_free s k else calm_ref s (RL k) (needed disc v).
Definition act_ok (s : st) (desc : Z) (disc : bool) (k : nat) (a : act) : Prop :=
  match a with
  | Keep => True
  | Put v => wf_pay (descriptor2genus desc) (pay v) /\ calm_put s desc disc k v = true
  | Drop => calm_free s k = true
  end.
(** what is left of an element with payload [p] *)
Definition leaves (desc : Z) (disc : bool) (p : list Z) (a : act) : option (Z * list Z) :=
  match a with
  | Keep => Some (desc, p)
  | Drop => None
  | Put v =>
    if fixed_genus (descriptor2genus desc) then if stores desc disc v then Some (desc, pay v) else None
    else if needed disc v =? 0 then match p with [] => Some (desc, []) | _ => None end else Some (desc, pay v)
  end.

Lemma put_step s desc disc k p v : TInv s -> real_desc desc -> field s (RL k) = Some (desc, p) ->
  wf_pay (descriptor2genus desc) (pay v) -> calm_put s desc disc k v = true ->
  match acc_set asis s (mkAcc desc disc (Some k)) v with
  | Ok a' s' => TInv s' /\ effect s s' (RL k) (leaves desc disc p (Put v)) /\
      a_pos a' = match leaves desc disc p (Put v) with Some _ => Some k | None => None end /\
      (leaves desc disc p (Put v) = None -> forall i, i <> k -> is_hole (idx s i) = true -> is_hole (idx s' i) = true)
  | Throw s' => s' = s
  | Bad => False
  end.
Proof.
  intros T D F W C. destruct (field_desc _ _ _ _ F) as [L G]. pose proof F as F0. rewrite (field_live _ _ L) in F0. injection F0 as _ Vp. cbn [rdesc] in *.
  unfold acc_set. cbv zeta. cbn [a_desc a_disc a_pos]. assert (E : egenus (idx s k) = descriptor2genus desc) by (unfold egenus; congruence).
  rewrite E, Z.eqb_refl. cbn [negb]. unfold calm_put in C. cbn [leaves]. destruct (fixed_genus (descriptor2genus desc)) eqn:Ef.
  - assert (Sv : stores desc disc v = negb (negb disc && v_empty v)) by (unfold stores; rewrite Ef; reflexivity). rewrite Sv in *.
    destruct (negb disc && v_empty v) eqn:Ev; cbn [negb orb] in *.
    + assert (P : loose_units (descriptor2genus desc) = plen s (RL k)). { unfold plen. cbv zeta. cbn [rgenus]. rewrite E, Ef. reflexivity. }
      rewrite P. change (release_loose s k (plen s (RL k))) with (erase_loose s k).
      destruct (erase_loose_spec s k T L ltac:(apply Bool.negb_true_iff; exact C)) as (s' & E' & T' & Ef' & H'). rewrite E'. cbn [bind]. auto.
    + rewrite <- E in Ef, W. destruct (write_fixed_field s k (pay v) T L Ef W) as [T' E']. rewrite G in E'. split; [exact T'|]. split; [exact E'|]. split; [reflexivity|discriminate].
  - assert (St : stretchy_ref s (RL k) = true) by (unfold stretchy_ref; cbn [rgenus]; rewrite E, Ef; reflexivity).
    assert (SW : stretchy_wf (rgenus s (RL k)) disc v).
    { cbn [rgenus]. rewrite E. unfold wf_pay in W. destruct (is_inplaced_genus (descriptor2genus desc)) eqn:Ei; [apply inplaced_units in Ei; destruct Ei; congruence|].
      rewrite Ef in W. exact W. }
    pose proof (assign_ref_step s (RL k) disc v T L St SW C) as Q. pose proof (value_nil s (RL k) T L St) as VN. cbn [rrel] in VN. rewrite Vp in VN.
    assert (NC : new_content s (RL k) disc v = (if needed disc v =? 0 then match p with [] => Some (desc, []) | _ => None end else Some (desc, pay v))).
    { unfold new_content. cbn [rdesc rrel]. rewrite G. destruct (needed disc v =? 0); [|reflexivity].
      destruct (rel (idx s k) =? 0) eqn:Er; [rewrite (proj2 VN) by lia; reflexivity|]. destruct p; [pose proof (proj1 VN eq_refl); lia|reflexivity]. }
    destruct ((needed disc v =? 0) && negb (rel (idx s k) =? 0)) eqn:Gone.
    + apply andb_prop in Gone. destruct Gone as [N0 R0]. assert (Nd : needed disc v = 0) by lia. rewrite N0 in NC |- *.
      assert (Pn : match p with [] => Some (desc, @nil Z) | _ => None end = None). { destruct p; [pose proof (proj1 VN eq_refl); lia|reflexivity]. }
      rewrite Pn in NC |- *.
      assert (Pl : plen s (RL k) = brutto (descriptor2genus desc) (dat s (raddr s (RL k)))). { unfold plen. cbv zeta. cbn [rgenus rrel]. rewrite E, Ef. destruct (rel (idx s k) =? 0); [discriminate|reflexivity]. }
      assert (P0 : 0 < plen s (RL k)). { apply (t_pos _ T (RL k) L St). cbn [rrel]. lia. }
      assert (Ar : assign_ref asis s (RL k) disc v = erase_loose s k).
      { unfold assign_ref. cbv zeta. cbn [rrel rgenus]. rewrite R0, E, Nd, <- Pl. replace (0 =? plen s (RL k)) with false by lia. reflexivity. }
      rewrite Ar in *. unfold calm_ref, roomy in C. cbn [rrel] in C. rewrite Nd in C. rewrite Bool.negb_true_iff in R0. rewrite R0 in C. replace (0 =? plen s (RL k)) with false in C by lia.
      cbn [orb Z.eqb] in C. rewrite !Bool.andb_true_iff in C. destruct C as [[C _] _].
      destruct (erase_loose_spec s k T L) as (s' & E' & T' & Ef' & H'). { cbn [raddr rown rrel] in C. apply Bool.negb_true_iff in C. exact C. }
      rewrite E'. cbn [bind moved a_pos]. auto.
    + destruct (assign_ref asis s (RL k) disc v) as [[] s'|s'|]; cbn [bind]; [|apply Q|contradiction]. destruct Q as [T' Ef']. rewrite NC in Ef'.
      assert (Sm : exists y, (if needed disc v =? 0 then match p with [] => Some (desc, []) | _ => None end else Some (desc, pay v)) = Some y).
      { destruct (needed disc v =? 0); [|eauto]. destruct p; [eauto|]. cbn [andb] in Gone. apply Bool.negb_false_iff in Gone. pose proof (proj2 VN ltac:(lia)). discriminate. }
      destruct Sm as [y Sm]. rewrite Sm in *. split; [exact T'|]. split; [exact Ef'|]. split; [reflexivity|discriminate].
Qed.
Lemma drop_step s desc disc k p : TInv s -> real_desc desc -> field s (RL k) = Some (desc, p) -> calm_free s k = true ->
  exists s', acc_remove s (mkAcc desc disc (Some k)) = Ok (mkAcc desc disc None) s' /\ TInv s' /\ effect s s' (RL k) None /\
    (forall i, i <> k -> is_hole (idx s i) = true -> is_hole (idx s' i) = true).
Proof.
  intros T D F C. destruct (field_desc _ _ _ _ F) as [L G]. unfold acc_remove. cbn [a_pos a_desc]. unfold egenus. rewrite G, Z.eqb_refl. cbn [negb].
  destruct (erase_loose_spec s k T L ltac:(apply Bool.negb_true_iff; exact C)) as (s' & E' & T' & Ef' & H'). rewrite E'. exists s'. auto.
Qed.

(** an act touches the element only, and the search may go on behind it *)
Lemma copy_step s desc disc k p a : TInv s -> real_desc desc -> field s (RL k) = Some (desc, p) -> act_ok s desc disc k a ->
  match by_copy asis s desc disc k a with
  | Ok q s' => q = Some k /\ TInv s' /\ (s' = s \/ effect s s' (RL k) (leaves desc disc p a)) /\ field s' (RL k) = leaves desc disc p a /\ clean s' k
  | Throw s' => s' = s
  | Bad => False
  end.
Proof.
  intros T D F A. destruct (field_desc _ _ _ _ F) as [[Lk Lh] G].
  assert (CL : forall s' c, effect s s' (RL k) c -> (c = None -> forall i, i <> k -> is_hole (idx s i) = true -> is_hole (idx s' i) = true) -> clean s' k).
  { intros s' c Ef H i Hi. destruct c as [x|].
    - pose proof (e_field _ _ _ _ Ef) as X. destruct x as [d0 p0]. destruct (field_desc _ _ _ _ X) as [[X1 _] _]. left. lia.
    - destruct (is_hole (idx s i)) eqn:Eh; [right; apply H; [reflexivity|lia|exact Eh]|].
      assert (Li : live s (RL i)) by (split; [lia|exact Eh]). pose proof (e_frame _ _ _ _ Ef (RL i) ltac:(intros X; injection X; lia)) as X.
      rewrite (field_live s) in X by exact Li. destruct (field_desc _ _ _ _ X) as [[X1 _] _]. left. exact X1. }
  destruct a as [|v|]; cbn [by_copy act_ok] in *.
  - split; [reflexivity|]. split; [exact T|]. split; [auto|]. split; [exact F|]. intros i Hi. left. lia.
  - destruct A as [W C]. pose proof (put_step s desc disc k p v T D F W C) as Q.
    destruct (acc_set asis s (mkAcc desc disc (Some k)) v) as [a' s'|s'|]; cbn [bind]; [|exact Q|contradiction].
    destruct Q as (T' & Ef & _ & H). split; [reflexivity|]. split; [exact T'|]. split; [auto|]. split; [apply (e_field _ _ _ _ Ef)|]. apply (CL s' _ Ef H).
  - destruct (drop_step s desc disc k p T D F A) as (s' & E & T' & Ef & H). rewrite E. cbn [bind leaves].
    split; [reflexivity|]. split; [exact T'|]. split; [auto|]. split; [apply (e_field _ _ _ _ Ef)|]. apply (CL s' _ Ef ltac:(auto)).
Qed.
Lemma effect_uniq multi s s' desc k p c : uniq multi s -> multi desc = true -> field s (RL k) = Some (desc, p) ->
  (match c with Some (d, _) => d = desc | None => True end) -> effect s s' (RL k) c -> uniq multi s'.
Proof.
  intros U M F H E d D Md. rewrite (effect_other s s' k c desc d D E); [exact (U d D Md)|congruence|rewrite F; reflexivity|exact H].
Qed.
Lemma leaves_desc desc disc p a : match leaves desc disc p a with Some (d, _) => d = desc | None => True end.
Proof. destruct a as [|v|]; cbn [leaves]; auto. destruct (fixed_genus _); [destruct (stores desc disc v); auto|]. destruct (needed disc v =? 0); auto. destruct p; auto. Qed.

(** ** Reading an element *)
Definition read_of (desc : Z) (disc : bool) (p : list Z) : rd :=
  if fixed_genus (descriptor2genus desc) then RVal p
  else match p with [] => if disc then RAbsent else REmpty | _ => RVal p end.
Lemma read_field s desc disc k p : TInv s -> field s (RL k) = Some (desc, p) -> acc_get s (mkAcc desc disc (Some k)) = read_of desc disc p.
Proof.
  intros T F. destruct (field_desc _ _ _ _ F) as [L G]. rewrite (field_live _ _ L) in F. injection F as _ F.
  assert (V : entry_value s (descriptor2genus desc) k = value s (RL k)).
  { unfold entry_value, entry_units, value, plen. cbv zeta. cbn [rgenus rrel]. unfold egenus. rewrite G. reflexivity. }
  unfold acc_get, read_of. cbv zeta. cbn [a_desc a_disc a_pos]. rewrite V, F. destruct (fixed_genus (descriptor2genus desc)) eqn:Ef; [reflexivity|]. cbn [orb].
  assert (St : stretchy_ref s (RL k) = true) by (unfold stretchy_ref; cbn [rgenus]; unfold egenus; rewrite G, Ef; reflexivity).
  pose proof (value_nil s (RL k) T L St) as VN. cbn [rrel] in VN. rewrite F in VN.
  destruct (rel (idx s k) =? 0) eqn:Er; cbn [negb].
  - rewrite (proj2 VN) by lia. reflexivity.
  - destruct p; [pose proof (proj1 VN eq_refl); lia|reflexivity].
Qed.

(** ** The loop *)
Section Steady.
  Variables (multi : Z -> bool) (desc : Z) (disc : bool) (body : turns).
  (** no call of the loop meets one of the known slips of the allocator, and the calls by token leave the
      current element to the act at the end of the body *)
  Fixpoint steady (fuel : nat) (s : st) (p : option nat) (seen : list rd) : Prop :=
    match p, fuel with
    | Some k, S fuel =>
      let now := acc_get s (mkAcc desc disc (Some k)) in
      calm_run multi s (fst (body seen k now)) /\ untouched s (fst (body seen k now)) k /\
      match run asis s (fst (body seen k now)) with
      | None => True
      | Some (_, s) =>
        act_ok s desc disc k (snd (body seen k now)) /\
        match by_copy asis s desc disc k (snd (body seen k now)) with
        | Bad => True
        | Ok p s => steady fuel s (it_next s desc p) (seen ++ [now])
        | Throw s => steady fuel s (it_next s desc (Some k)) (seen ++ [now])
        end
      end
    | _, _ => True
    end.
  (** no successful call by token addresses the entry [i] before the loop has reached it *)
  Fixpoint spared (i : nat) (fuel : nat) (s : st) (p : option nat) (seen : list rd) : Prop :=
    match p, fuel with
    | Some k, S fuel =>
      if Nat.eqb i k then True else
      let now := acc_get s (mkAcc desc disc (Some k)) in
      untouched s (fst (body seen k now)) i /\
      match run asis s (fst (body seen k now)) with
      | None => True
      | Some (_, s) =>
        match by_copy asis s desc disc k (snd (body seen k now)) with
        | Bad => True
        | Ok p s => spared i fuel s (it_next s desc p) (seen ++ [now])
        | Throw s => spared i fuel s (it_next s desc (Some k)) (seen ++ [now])
        end
      end
    | _, _ => True
    end.
  Hypotheses (D : real_desc desc) (M : multi desc = true).
  Notation from s n := (it_next s desc (Some n)).

  Lemma walk_steady : forall fuel s n seen, TInv s -> uniq multi s -> clean s n -> (n <= fuel)%nat -> steady fuel s (from s n) seen ->
    exists vis s', walk asis by_copy desc disc body fuel s (from s n) seen = Some (vis, s') /\ TInv s' /\ uniq multi s' /\
      StronglySorted (fun a b => (b < a)%nat) (map v_pos vis) /\ Forall (fun x => (v_pos x < n)%nat) vis /\
      (forall i p, (i < n)%nat -> field s (RL i) = Some (desc, p) -> spared i fuel s (from s n) seen ->
         exists x, In x vis /\ v_pos x = i /\ v_read x = read_of desc disc p).
  Proof.
    induction fuel as [|fuel IH]; intros s n seen T U C L St.
    - assert (n = O) by lia. subst n. exists [], s. cbn. split; [reflexivity|]. split; [exact T|]. split; [exact U|]. split; [constructor|]. split; [constructor|]. intros; lia.
    - pose proof (scan_facts (fun e => gid e =? desc) (idx s) n) as SF. cbn [it_next] in *.
      destruct (scan_down (fun e => gid e =? desc) (idx s) n) as [k|] eqn:Ek.
      + destruct SF as (Hk & Gk & Hi). cbn [walk steady spared] in *. cbv zeta in *.
        assert (Lk : live s (RL k)) by (apply (clean_live s n k desc C D Hk); lia).
        pose proof (field_live _ _ Lk) as F. cbn [rdesc] in F. replace (gid (idx s k)) with desc in F by lia. set (p := value s (RL k)) in F.
        set (now := acc_get s (mkAcc desc disc (Some k))) in *. set (ba := body seen k now) in *.
        destruct St as (St1 & St2 & St3). destruct (run_kept multi (fst ba) s k desc p T U St1 St2 F) as (outs & s1 & R & T1 & U1 & F1).
        rewrite R in St3. destruct St3 as [Ao St3]. pose proof (copy_step s1 desc disc k p (snd ba) T1 D F1 Ao) as Cs.
        destruct ba as [l a] eqn:Eb. cbn [fst snd] in *. rewrite R.
        assert (Now : now = read_of desc disc p) by (apply read_field; assumption).
        assert (K1 : clean s1 k). { intros i Hi2. destruct (field_desc _ _ _ _ F1) as [[X _] _]. left. lia. }
        assert (Go : forall ok s2, TInv s2 -> uniq multi s2 -> clean s2 k -> (forall i, i <> k -> field s2 (RL i) = field s1 (RL i)) ->
          steady fuel s2 (scan_down (fun e => gid e =? desc) (idx s2) k) (seen ++ [now]) ->
          (forall i, spared i fuel s2 (scan_down (fun e => gid e =? desc) (idx s2) k) (seen ++ [now]) \/ True) ->
          exists vis s', option_map (fun r => (mkVisit k now a ok :: fst r, snd r)) (walk asis by_copy desc disc body fuel s2 (from s2 k) (seen ++ [now])) = Some (vis, s') /\ TInv s' /\ uniq multi s' /\
            StronglySorted (fun a b => (b < a)%nat) (map v_pos vis) /\ Forall (fun x => (v_pos x < n)%nat) vis /\
            (forall i p0, (i < n)%nat -> field s (RL i) = Some (desc, p0) -> (i <> k -> untouched s l i /\ spared i fuel s2 (scan_down (fun e => gid e =? desc) (idx s2) k) (seen ++ [now])) ->
              exists x, In x vis /\ v_pos x = i /\ v_read x = read_of desc disc p0)).
        { intros ok s2 T2 U2 C2 Fr St4 _. destruct (IH s2 k (seen ++ [now]) T2 U2 C2 ltac:(lia) St4) as (vis & s' & W & T' & U' & So & Fa & Al).
          exists (mkVisit k now a ok :: vis), s'. cbn [it_next]. rewrite W. cbn [option_map fst snd map v_pos]. split; [reflexivity|]. split; [exact T'|]. split; [exact U'|]. split; [|split].
          - constructor; [exact So|]. apply Forall_map. exact Fa.
          - constructor; [exact Hk|]. eapply Forall_impl; [|exact Fa]. cbn beta. intros x Hx. lia.
          - intros i p0 Hin Fi Sp. destruct (Nat.eq_dec i k) as [->|N].
            + exists (mkVisit k now a ok). split; [left; reflexivity|]. split; [reflexivity|]. cbn [v_read]. rewrite Now. congruence.
            + destruct (Sp N) as [Sp1 Sp2]. destruct (field_desc _ _ _ _ Fi) as [_ Gi].
              assert (i < k)%nat. { destruct (Nat.lt_ge_cases i k) as [X|X]; [exact X|]. pose proof (Hi i ltac:(lia)) as Y. lia. }
              destruct (run_kept multi l s i desc p0 T U St1 Sp1 Fi) as (o2 & s3 & R2 & _ & _ & Fi1). rewrite R in R2. injection R2 as <- <-.
              rewrite <- Fr in Fi1 by exact N. destruct (Al i p0 ltac:(lia) Fi1 Sp2) as (x & X1 & X2 & X3). exists x. split; [right; exact X1|]. auto. }
        destruct (by_copy asis s1 desc disc k a) as [q s2|s2|] eqn:Ea; [| |contradiction].
        * destruct Cs as (-> & T2 & Ef & Fk & C2). cbn [it_next] in *.
          destruct (Go true s2) as (vis & s' & W & Q1 & Q2 & Q3 & Q4 & Q5); [exact T2| |exact C2| |exact St3|auto|].
          { destruct Ef as [->|Ef]; [exact U1|]. apply (effect_uniq multi s1 s2 desc k p (leaves desc disc p a) U1 M F1 (leaves_desc _ _ _ _) Ef). }
          { intros i N. destruct Ef as [->|Ef]; [reflexivity|]. apply (e_frame _ _ _ _ Ef). congruence. }
          exists vis, s'. split; [exact W|]. split; [exact Q1|]. split; [exact Q2|]. split; [exact Q3|]. split; [exact Q4|].
          intros i p0 Hin Fi Sp. apply (Q5 i p0 Hin Fi). intros N. replace (Nat.eqb i k) with false in Sp by (symmetry; apply Nat.eqb_neq; exact N). exact Sp.
        * subst s2. cbn [it_next] in *.
          destruct (Go false s1) as (vis & s' & W & Q1 & Q2 & Q3 & Q4 & Q5); [exact T1|exact U1|exact K1|reflexivity|exact St3|auto|].
          exists vis, s'. split; [exact W|]. split; [exact Q1|]. split; [exact Q2|]. split; [exact Q3|]. split; [exact Q4|].
          intros i p0 Hin Fi Sp. apply (Q5 i p0 Hin Fi). intros N. replace (Nat.eqb i k) with false in Sp by (symmetry; apply Nat.eqb_neq; exact N). exact Sp.
      + exists [], s. cbn [walk]. split; [reflexivity|]. split; [exact T|]. split; [exact U|]. split; [constructor|]. split; [constructor|].
        intros i p Hi F _. destruct (field_desc _ _ _ _ F) as [_ G]. specialize (SF i Hi). cbn beta in SF. lia.
  Qed.
End Steady.

Lemma collect_scan desc s n : match scan_down (fun e => gid e =? desc) (idx s) n with
  | Some k => collect_from s desc n = k :: collect_from s desc k | None => collect_from s desc n = [] end.
Proof.
  induction n as [|n IH]; cbn [scan_down collect_from]; [reflexivity|]. destruct (gid (idx s n) =? desc); [reflexivity|]. exact IH.
Qed.
Lemma collect_ext desc s s' n : (forall i, (i < n)%nat -> (gid (idx s i) =? desc) = (gid (idx s' i) =? desc)) -> collect_from s desc n = collect_from s' desc n.
Proof. induction n as [|n IH]; intros H; cbn [collect_from]; [reflexivity|]. rewrite <- (H n) by lia. rewrite IH by (intros; apply H; lia). reflexivity. Qed.
Lemma collect_lt desc s n k : In k (collect_from s desc n) -> (k < n)%nat.
Proof. induction n as [|n IH]; cbn [collect_from]; [intros []|]. destruct (gid (idx s n) =? desc); [intros [<-|H]; [lia|]|intros H]; specialize (IH H); lia. Qed.
Lemma frame_gid desc s s' n k : real_desc desc -> clean s n -> clean s' n -> (forall i, i <> k -> field s' (RL i) = field s (RL i)) ->
  forall i, (i < n)%nat -> i <> k -> (gid (idx s i) =? desc) = (gid (idx s' i) =? desc).
Proof.
  intros D C C' Fr i Hi N. specialize (Fr i N).
  destruct (gid (idx s i) =? desc) eqn:E1, (gid (idx s' i) =? desc) eqn:E2; try reflexivity; exfalso.
  - pose proof (clean_live s n i desc C D Hi ltac:(lia)) as L. rewrite (field_live s) in Fr by exact L. destruct (field_desc _ _ _ _ Fr) as [_ G]. cbn [rdesc] in G. lia.
  - pose proof (clean_live s' n i desc C' D Hi ltac:(lia)) as L. rewrite (field_live s') in Fr by exact L. symmetry in Fr. destruct (field_desc _ _ _ _ Fr) as [_ G]. cbn [rdesc] in G. lia.
Qed.
Lemma vlist_collect desc s F n : (forall i, (i < n)%nat -> ~ In i (collect_from s desc n) -> item desc (F i) = []) ->
  vlist F desc n = flat_map (fun i => item desc (F i)) (collect_from s desc n).
Proof.
  induction n as [|n IH]; intros H; cbn [vlist collect_from]; [reflexivity|].
  assert (IH' : vlist F desc n = flat_map (fun i => item desc (F i)) (collect_from s desc n)).
  { apply IH. intros i Hi N. apply H; [lia|]. cbn [collect_from]. destruct (gid (idx s n) =? desc); [|exact N]. intros [X|X]; [lia|contradiction]. }
  rewrite IH'. destruct (gid (idx s n) =? desc) eqn:E; cbn [flat_map]; [reflexivity|].
  rewrite H; [reflexivity|lia|]. cbn [collect_from]. rewrite E. intros X. apply collect_lt in X. lia.
Qed.
(** ** A loop that only acts on the elements *)
Definition acts (f : list rd -> nat -> rd -> act) : turns := fun seen k now => ([], f seen k now).
Section Acts.
  Variables (multi : Z -> bool) (desc : Z) (disc : bool) (f : list rd -> nat -> rd -> act).
  Hypotheses (D : real_desc desc).
  Definition rest_of (x : visit) (p : list Z) : option (Z * list Z) := if v_ok x then leaves desc disc p (v_act x) else Some (desc, p).
  Lemma acts_walk : forall fuel s n seen, TInv s -> clean s n -> (n <= fuel)%nat -> steady multi desc disc (acts f) fuel s (it_next s desc (Some n)) seen ->
    exists vis s', walk asis by_copy desc disc (acts f) fuel s (it_next s desc (Some n)) seen = Some (vis, s') /\ TInv s' /\
      map v_pos vis = collect_from s desc n /\
      Forall (fun x => exists p, field s (RL (v_pos x)) = Some (desc, p) /\ v_read x = read_of desc disc p /\ field s' (RL (v_pos x)) = rest_of x p) vis /\
      (forall r, ~ In r (map RL (collect_from s desc n)) -> field s' r = field s r) /\
      (forall a x b, vis = a ++ x :: b -> v_act x = f (seen ++ map v_read a) (v_pos x) (v_read x)).
  Proof.
    induction fuel as [|fuel IH]; intros s n seen T C L St.
    - assert (n = O) by lia. subst n. exists [], s. cbn. split; [reflexivity|]. split; [exact T|]. split; [reflexivity|]. split; [constructor|]. split; [reflexivity|]. intros [|? ?]; discriminate.
    - pose proof (scan_facts (fun e => gid e =? desc) (idx s) n) as SF. pose proof (collect_scan desc s n) as CS. cbn [it_next] in *.
      destruct (scan_down (fun e => gid e =? desc) (idx s) n) as [k|] eqn:Ek.
      + destruct SF as (Hk & Gk & Hi). cbn [walk steady] in *. cbv zeta in *. unfold acts in St at 1 2 3 4 5. cbn [fst snd run] in St.
        assert (Lk : live s (RL k)) by (apply (clean_live s n k desc C D Hk); lia).
        pose proof (field_live _ _ Lk) as F. cbn [rdesc] in F. replace (gid (idx s k)) with desc in F by lia. set (p := value s (RL k)) in F.
        set (now := acc_get s (mkAcc desc disc (Some k))) in *.
        destruct St as (_ & _ & Ao & St3). pose proof (copy_step s desc disc k p (f seen k now) T D F Ao) as Cs.
        unfold acts at 1. cbn [run].
        assert (Now : now = read_of desc disc p) by (apply read_field; assumption).
        assert (K1 : clean s k). { intros i Hi2. destruct Lk as [X _]. left. lia. }
        assert (Go : forall ok s2, TInv s2 -> clean s2 k -> (forall r, r <> RL k -> field s2 r = field s r) ->
          field s2 (RL k) = rest_of (mkVisit k now (f seen k now) ok) p ->
          steady multi desc disc (acts f) fuel s2 (it_next s2 desc (Some k)) (seen ++ [now]) ->
          exists vis s', option_map (fun r => (mkVisit k now (f seen k now) ok :: fst r, snd r)) (walk asis by_copy desc disc (acts f) fuel s2 (it_next s2 desc (Some k)) (seen ++ [now])) = Some (vis, s') /\ TInv s' /\
      map v_pos vis = collect_from s desc n /\
      Forall (fun x => exists p, field s (RL (v_pos x)) = Some (desc, p) /\ v_read x = read_of desc disc p /\ field s' (RL (v_pos x)) = rest_of x p) vis /\
      (forall r, ~ In r (map RL (collect_from s desc n)) -> field s' r = field s r) /\
      (forall a x b, vis = a ++ x :: b -> v_act x = f (seen ++ map v_read a) (v_pos x) (v_read x))).
        { intros ok s2 T2 C2 Fr Fk St4. destruct (IH s2 k (seen ++ [now]) T2 C2 ltac:(lia) St4) as (vis & s' & W & T' & Po & Fa & Al & Ac).
          assert (CE : collect_from s2 desc k = collect_from s desc k).
          { symmetry. apply collect_ext. intros i Hi2. apply (frame_gid desc s s2 k k D K1 C2); [|exact Hi2|lia]. intros j N. apply Fr. congruence. }
          rewrite CE in Po, Al.
          exists (mkVisit k now (f seen k now) ok :: vis), s'. cbn [it_next] in W |- *. rewrite W. cbn [option_map fst snd map v_pos]. split; [reflexivity|]. split; [exact T'|].
          split; [rewrite CS, Po; reflexivity|].
          assert (Nk : ~ In (RL k) (map RL (collect_from s desc k))).
          { intros X. apply in_map_iff in X. destruct X as (j & Ej & Hj). apply collect_lt in Hj. injection Ej as ->. lia. }
          split; [|split].
          - constructor.
            + exists p. cbn [v_pos v_read]. split; [exact F|]. split; [exact Now|]. rewrite (Al (RL k) Nk). exact Fk.
            + apply Forall_forall. intros x Hx. rewrite Forall_forall in Fa. destruct (Fa x Hx) as (p0 & A1 & A2 & A3). exists p0. split; [|auto]. rewrite <- Fr; [exact A1|].
              assert (X : In (v_pos x) (collect_from s desc k)) by (rewrite <- Po; apply in_map, Hx). apply collect_lt in X. intros Y. injection Y. lia.
          - intros r Hr. rewrite CS in Hr. cbn [map In] in Hr. rewrite Al by tauto. apply Fr. intros ->. tauto.
          - intros a x b E. destruct a as [|y a]; cbn [app] in E; injection E as E1 E2.
            + subst x. cbn [map v_act v_pos v_read]. rewrite app_nil_r. reflexivity.
            + subst y. cbn [map v_read]. rewrite (Ac a x b E2), <- app_assoc. reflexivity. }
        destruct (by_copy asis s desc disc k (f seen k now)) as [q s2|s2|] eqn:Ea; [| |contradiction].
        * destruct Cs as (-> & T2 & Ef & Fk & C2). apply (Go true s2 T2 C2); [|exact Fk|exact St3].
          intros r N. destruct Ef as [->|Ef]; [reflexivity|]. apply (e_frame _ _ _ _ Ef _ N).
        * subst s2. apply (Go false s T K1); [reflexivity|exact F|exact St3].
      + exists [], s. cbn [walk]. split; [reflexivity|]. split; [exact T|]. split; [symmetry; exact CS|]. split; [constructor|]. split; [reflexivity|]. intros [|? ?]; discriminate.
  Qed.
End Acts.
