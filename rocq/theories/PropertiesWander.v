(** * PropertiesWander: C83, loops over a collection with any calls in the body. *)
From Verif Require Import Base Tag TagProofs Codec Gear GearBase GearSearch GearProofs Tuple TupleProofs TupleSteps TupleView TupleOps TupleMore
  TupleHist TupleFacts PropertiesTuple Growth GrowthProofs PropertiesGrowth Held HeldProofs PropertiesHeld Walk WalkProofs PropertiesWalk WanderProofs.
From Coq Require Import ZifyBool ZifyNat Sorted.
Ltac Zify.zify_post_hook ::= Z.div_mod_to_equations.

(** ** Any calls before and after the act, with the current element removed at any moment: the loop ends,
    meets no place twice, and meets every element that is not touched before its turn, once and with the
    value it had *)
Theorem C83_any_calls : forall multi s desc disc body,
  lived multi s -> real_desc desc -> multi desc = true -> quiet multi desc disc body (S (cnt s)) s (it_first s desc) [] ->
  exists vis s', wander asis desc disc body (S (cnt s)) s (it_first s desc) [] = Some (vis, s') /\
    StronglySorted (fun a b => (b < a)%nat) (map v_pos vis) /\ (length vis <= cnt s)%nat /\
    forall k p, members s desc k p -> passed_by desc disc body k (S (cnt s)) s (it_first s desc) [] ->
      exists x, In x vis /\ v_pos x = k /\ v_read x = read_of desc disc p /\ forall y, In y vis -> v_pos y = k -> y = x.
Proof.
  intros multi s desc disc body Lv D M St. destruct (lived_inv multi s Lv) as [T U]. rewrite start in *.
  destruct (wander_quiet multi desc disc body D M (S (cnt s)) s (cnt s) [] T U (start_clean s) ltac:(lia) St) as (vis & s' & W & _ & _ & So & Bd & Al).
  exists vis, s'. split; [exact W|]. split; [exact So|]. split.
  { clear - So Bd. revert Bd. generalize (cnt s). induction vis as [|v vis IH]; intros n Bd; [cbn; lia|]. cbn [map] in So. apply StronglySorted_inv in So. destruct So as [So Fa].
    inversion Bd as [|? ? B1 B2]; subst. cbn [length]. specialize (IH So (v_pos v)). rewrite Forall_map in Fa. specialize (IH Fa). lia. }
  intros k p F Sp. destruct (field_desc _ _ _ _ F) as [[Lk _] _].
  destruct (Al k p Lk F Sp) as (x & X1 & X2 & X3). exists x. split; [exact X1|]. split; [exact X2|]. split; [exact X3|].
  intros y Y1 Y2. clear - So X1 X2 Y1 Y2. induction vis as [|v vis IH]; [destruct X1|]. cbn [map] in So. apply StronglySorted_inv in So. destruct So as [So Fa].
  rewrite Forall_forall in Fa. assert (Q : forall z, In z vis -> (v_pos z < v_pos v)%nat) by (intros z Hz; apply Fa, in_map, Hz).
  destruct X1 as [->|X1], Y1 as [->|Y1]; [reflexivity| | |auto].
  - specialize (Q y Y1). lia.
  - specialize (Q x X1). lia.
Qed.

(** ** erase(begin, end) from any member: the members from there up to (and without) a later one, or up to
    the end, are removed and counted; nothing else changes *)
Theorem C83_erase_any_range : forall multi s desc disc b pb e,
  lived multi s -> real_desc desc -> members s desc b pb -> (match e with Some j => (j <= b)%nat /\ exists p, members s desc j p | None => True end) ->
  calm_range (S (cnt s)) s desc disc (Some b) e ->
  exists s', erase_range (S (cnt s)) s desc disc (Some b) e 0 = Some (length (filter (fun i => Nat.leb i b && beyond e i) (collect s desc)), s') /\
    forall r, field s' r = match r with
      | RL i => match field s (RL i) with Some (d, p) => if (d =? desc) && (Nat.leb i b && beyond e i) then None else Some (d, p) | None => None end
      | RP _ => field s r end.
Proof.
  intros multi s desc disc b pb e Lv D F He Cm. destruct (lived_inv multi s Lv) as [T _]. destruct (field_desc _ _ _ _ F) as [[Lb _] Gb].
  assert (St : Some b = it_next s desc (Some (S b))). { cbn [it_next scan_down]. rewrite Gb, Z.eqb_refl. reflexivity. }
  rewrite St in *. destruct (range_ok desc disc e D (S (cnt s)) s (S b) 0 T) as (s' & W & _ & Fr); [intros i Hi; left; lia|lia| |exact Cm|].
  { destruct e as [j|]; [|exact I]. destruct He as [Hj Mj]. split; [lia|exact Mj]. }
  exists s'. split.
  - rewrite W. f_equal. f_equal. cbn [Nat.add]. unfold collect.
    assert (Q : forall n, (S b <= n)%nat -> filter (fun i => Nat.leb i b && beyond e i) (collect_from s desc n) = filter (beyond e) (collect_from s desc (S b))).
    { intros n Hn. induction n as [|n IH]; [lia|]. destruct (Nat.eq_dec n b) as [->|N].
      - apply filter_ext_in. intros i Hi. apply collect_lt in Hi. replace (Nat.leb i b) with true by (symmetry; apply Nat.leb_le; lia). reflexivity.
      - cbn [collect_from] in IH |- *. specialize (IH ltac:(lia)). destruct (gid (idx s n) =? desc); [|exact IH]. cbn [filter].
        replace (Nat.leb n b) with false by (symmetry; apply Nat.leb_gt; lia). cbn [andb]. exact IH. }
    rewrite (Q (cnt s)) by lia. reflexivity.
  - intros [i|j]; rewrite Fr; [|reflexivity]. destruct (field s (RL i)) as [[d p]|]; [|reflexivity]. change (Nat.ltb i (S b)) with (Nat.leb i b).
    destruct (d =? desc), (Nat.leb i b), (beyond e i); reflexivity.
Qed.

(** ** Concrete loops *)
Fixpoint quietb (multi : Z -> bool) (desc : Z) (disc : bool) (body : wide_turns) (fuel : nat) (s : st) (p : option nat) (seen : list rd) : bool :=
  match p, fuel with
  | Some k, S fuel =>
    let now := acc_get s (mkAcc desc disc (Some k)) in
    let b := body seen k now in
    calm_runb multi s (b_before b) && (match b_act b with Keep => true | _ => untouchedb s (b_before b) k end) &&
    match run asis s (b_before b) with
    | None => true
    | Some (_, s) =>
      act_okb s desc disc k (b_act b) &&
      match by_copy asis s desc disc k (b_act b) with
      | Bad => true
      | Ok _ s | Throw s => calm_runb multi s (b_after b) &&
        match run asis s (b_after b) with None => true | Some (_, s) => quietb multi desc disc body fuel s (it_next s desc (Some k)) (seen ++ [now]) end
      end
    end
  | _, _ => true
  end.
Lemma quietb_ok multi desc disc body : forall fuel s p seen, quietb multi desc disc body fuel s p seen = true -> quiet multi desc disc body fuel s p seen.
Proof.
  induction fuel as [|fuel IH]; intros s [k|] seen H; cbn [quietb quiet] in *; try exact I. cbv zeta in *. set (now := acc_get s _) in *. set (b := body seen k now) in *.
  apply andb_prop in H. destruct H as [H H3]. apply andb_prop in H. destruct H as [H1 H2]. split; [apply calm_runb_ok; exact H1|].
  split; [intros N; apply untouchedb_ok; destruct (b_act b); [congruence|exact H2|exact H2]|].
  destruct (run asis s (b_before b)) as [[o s1]|]; [|exact I]. apply andb_prop in H3. destruct H3 as [H3 H4]. split.
  - destruct (b_act b) as [|v|]; cbn [act_okb act_ok] in *; [exact I| |exact H3]. apply andb_prop in H3. destruct H3 as [A B]. split; [apply wf_payb_ok; exact A|exact B].
  - destruct (by_copy asis s1 desc disc k (b_act b)) as [q s2|s2|]; [| |exact I]; (apply andb_prop in H4; destruct H4 as [H4 H5]; split; [apply calm_runb_ok; exact H4|];
      destruct (run asis s2 (b_after b)) as [[o2 s3]|]; [apply IH; exact H5|exact I]).
Qed.
Fixpoint passed_byb (desc : Z) (disc : bool) (body : wide_turns) (i fuel : nat) (s : st) (p : option nat) (seen : list rd) : bool :=
  match p, fuel with
  | Some k, S fuel =>
    if Nat.eqb i k then true else
    let now := acc_get s (mkAcc desc disc (Some k)) in
    let b := body seen k now in
    untouchedb s (b_before b) i &&
    match run asis s (b_before b) with
    | None => true
    | Some (_, s) =>
      match by_copy asis s desc disc k (b_act b) with
      | Bad => true
      | Ok _ s | Throw s => untouchedb s (b_after b) i &&
        match run asis s (b_after b) with None => true | Some (_, s) => passed_byb desc disc body i fuel s (it_next s desc (Some k)) (seen ++ [now]) end
      end
    end
  | _, _ => true
  end.
Lemma passed_byb_ok desc disc body i : forall fuel s p seen, passed_byb desc disc body i fuel s p seen = true -> passed_by desc disc body i fuel s p seen.
Proof.
  induction fuel as [|fuel IH]; intros s [k|] seen H; cbn [passed_byb passed_by] in *; try exact I. destruct (Nat.eqb i k); [exact I|]. cbv zeta in *.
  apply andb_prop in H. destruct H as [H1 H2]. split; [apply untouchedb_ok; exact H1|]. destruct (run asis s _) as [[o s1]|]; [|exact I].
  destruct (by_copy asis s1 desc disc k _) as [q s2|s2|]; [| |exact I]; (apply andb_prop in H2; destruct H2 as [H2 H3]; split; [apply untouchedb_ok; exact H2|];
    destruct (run asis s2 _) as [[o2 s3]|]; [apply IH; exact H3|exact I]).
Qed.

(** the first element is at the beginning of the index: its removal trims the index, and what is added then
    takes its place; the second is removed through another handle; the third goes
    together with another field, and a new member takes its place *)
Definition edits9 : wide_turns := fun seen k now =>
  match seen with
  | [] => ([OSet (fd g_u32 2) true (blob 1 6)], Drop, [OAppend words7 true (text_of 120 120); OAppend (fd g_u32 9) true (blob 1 4)])
  | [_] => ([OErase k; OAppend (fd g_u32 9) true (blob 1 5)], Keep, [OSet (fd g_u32 2) true (blob 1 7)])
  | [_; _] => ([ORemove (fd g_u32 2)], Drop, [OAppend words7 true (text_of 121 121)])
  | _ => ([], Keep, [])
  end.
Example C83_any_calls_case : lived odd_multi stock /\ real_desc words7 /\ odd_multi words7 = true /\
  quiet odd_multi words7 false edits9 (S (cnt stock)) stock (it_first stock words7) [] /\
  (forall k p, members stock words7 k p -> passed_by words7 false edits9 k (S (cnt stock)) stock (it_first stock words7) []) /\
  (match wander asis words7 false edits9 (S (cnt stock)) stock (it_first stock words7) [] with Some (vis, s) => Some (map v_pos vis, map v_read vis, view s words7, view s (fd g_u32 2)) | None => None end) =
    Some ([5; 3; 2; 0]%nat, map RVal [pay (text_of 100 100); pay (text_of 99 99); pay (text_of 98 98); pay (text_of 97 97)],
      [pay (text_of 120 120); pay (text_of 121 121); pay (text_of 97 97)], []).
Proof.
  split; [exact stock_lived|]. split; [exact words7_real|]. split; [reflexivity|]. split; [apply quietb_ok; vm_compute; reflexivity|]. split; [|vm_compute; reflexivity].
  intros k p F. destruct (field_desc _ _ _ _ F) as [[L _] G]. assert (L' : (k < 6)%nat) by (change 6%nat with (cnt stock); exact L).
  assert (Q : forallb (fun k => negb (gid (idx stock k) =? words7) || passed_byb words7 false edits9 k (S (cnt stock)) stock (it_first stock words7) []) (seq 0 6) = true) by (vm_compute; reflexivity).
  rewrite forallb_forall in Q. specialize (Q k ltac:(apply in_seq; lia)). rewrite G, Z.eqb_refl in Q. apply passed_byb_ok. exact Q.
Qed.
(** a member added into a freed entry that lies ahead is met as well, once *)
Definition adds : wide_turns := fun seen k now =>
  match seen with [] => ([ORemove (fd g_u32 2)], Drop, [OAppend words7 true (text_of 120 120)]) | _ => ([], Keep, []) end.
Example C83_added_met_case : quiet odd_multi words7 false adds (S (cnt stock)) stock (it_first stock words7) [] /\
  (match wander asis words7 false adds (S (cnt stock)) stock (it_first stock words7) [] with Some (vis, s) => Some (map v_pos vis, view s words7) | None => None end) =
    Some ([5; 3; 2; 1; 0]%nat, [pay (text_of 99 99); pay (text_of 98 98); pay (text_of 120 120); pay (text_of 97 97)]).
Proof. split; [apply quietb_ok; vm_compute; reflexivity|vm_compute; reflexivity]. Qed.
Example C83_any_range_case :
  calm_range (S (cnt stock)) stock words7 false (Some 3%nat) (Some 0%nat) /\ members stock words7 3 (pay (text_of 99 99)) /\ members stock words7 0 (pay (text_of 97 97)) /\
  (match erase_range (S (cnt stock)) stock words7 false (Some 3%nat) (Some 0%nat) 0 with Some (n, s) => Some (n, view s words7) | None => None end) =
    Some (2%nat, [pay (text_of 100 100); pay (text_of 97 97)]).
Proof. split; [apply calm_rangeb_ok; vm_compute; reflexivity|]. split; [vm_compute; reflexivity|]. split; vm_compute; reflexivity. Qed.
Print Assumptions C83_any_calls.
Print Assumptions C83_erase_any_range.
