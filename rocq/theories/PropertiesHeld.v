(** * PropertiesHeld: C79, accessors kept while the tuple is edited. *)
From Verif Require Import Base Tag TagProofs Codec Gear GearBase GearSearch GearProofs Tuple TupleProofs TupleSteps TupleView TupleOps TupleMore
  TupleHist TupleFacts PropertiesTuple GearOpt GearOptProofs GearSortProofs PropertiesOpt Growth GrowthProofs PropertiesGrowth Held HeldProofs.
From Coq Require Import ZifyBool ZifyNat.
Ltac Zify.zify_post_hook ::= Z.div_mod_to_equations.

Definition nobody : vars := fun _ => None.

(** ** A program with accessors does what the same program does by token *)
Theorem C79_as_by_token : forall multi s l, lived multi s -> orderly multi s nobody l ->
  exists outs s' A', calls asis s nobody l = Some (outs, s', A') /\ length outs = length l /\
    run asis s (by_token (fun _ => None) l) = Some (edit_outs l outs, s') /\
    forall i a, A' i = Some a -> acc_get s' a = read_loose s' (a_desc a) (a_disc a).
Proof.
  intros multi s l Lv O. destruct (lived_inv multi s Lv) as [T U].
  assert (I : in_step multi s nobody) by (constructor; [exact T|exact U|unfold nobody; discriminate|unfold nobody; discriminate]).
  destruct (orderly_runs multi l s nobody I O) as (outs & s' & A' & E & L & I' & _ & R).
  exists outs, s', A'. split; [exact E|]. split; [exact L|]. split; [exact R|].
  intros i a Ea. destruct (n_acc _ _ _ I' i a Ea) as (D & _ & Sy). apply synced_get; assumption.
Qed.
(** ... and the next assignment or removal through a held accessor is a call by token as well *)
Theorem C79_next_call : forall multi s l outs s' A' i a, lived multi s -> orderly multi s nobody l -> calls asis s nobody l = Some (outs, s', A') ->
  A' i = Some a ->
  (forall v, wf_pay (descriptor2genus (a_desc a)) (pay v) -> calm s' (OSet (a_desc a) (a_disc a) v) = true ->
     match acc_set asis s' a v with
     | Ok _ s2 => run1 asis s' (OSet (a_desc a) (a_disc a) v) = Ok tt s2
     | Throw s2 => run1 asis s' (OSet (a_desc a) (a_disc a) v) = Throw s2 /\ s2 = s'
     | Bad => False
     end) /\
  (calm s' (ORemove (a_desc a)) = true -> a_pos a <> None ->
     exists a2 s2, acc_remove s' a = Ok a2 s2 /\ a_pos a2 = None /\ run1 asis s' (ORemove (a_desc a)) = Ok tt s2) /\
  (a_pos a = None <-> get_loose s' (a_desc a) = None /\ lookup_gid s' (a_desc a) = None).
Proof.
  intros multi s l outs s' A' i a Lv O E Ea. destruct (lived_inv multi s Lv) as [T U].
  assert (I : in_step multi s nobody) by (constructor; [exact T|exact U|unfold nobody; discriminate|unfold nobody; discriminate]).
  destruct (orderly_runs multi l s nobody I O) as (outs1 & s1 & A1 & E1 & L & I' & _ & R). rewrite E in E1. injection E1 as <- <- <-.
  destruct (n_acc _ _ _ I' i a Ea) as (D & M & Sy). pose proof (n_inv _ _ _ I') as T'. pose proof (n_uniq _ _ _ I') as U'.
  split; [|split].
  - intros v W C. pose proof (set_synced multi s' a v T' U' D M Sy W C) as Z. destruct (acc_set asis s' a v) as [a2 s2|s2|]; [apply Z| |exact Z].
    split; [exact Z|]. pose proof (step multi s' (OSet (a_desc a) (a_disc a) v) T' U' ltac:(cbn [valid]; auto) C) as St. rewrite Z in St. exact St.
  - intros C N. pose proof (remove_synced multi s' a T' U' D M Sy N C) as Z. unfold acc_remove in *. destruct (a_pos a) as [k|]; [|congruence].
    destruct (negb (egenus (idx s' k) =? descriptor2genus (a_desc a))); [contradiction|]. destruct (erase_loose s' k) as [[] s2|s2|]; cbn [bind] in *; try contradiction.
    exists (moved a None), s2. split; [reflexivity|]. split; [reflexivity|]. apply Z.
  - unfold synced in Sy. rewrite Sy. unfold get_loose. destruct (lookup_gid s' (a_desc a)); split; intros H; try discriminate; [destruct H; discriminate| |reflexivity]. auto.
Qed.
(** every value is the one of the last successful call on the field, by token or through the accessor *)
Theorem C79_reads_last_write : forall multi s l outs s' A' i a, lived multi s -> orderly multi s nobody l -> calls asis s nobody l = Some (outs, s', A') ->
  A' i = Some a ->
  acc_get s' a = match last_write (KL (a_desc a)) (get s (KL (a_desc a))) (combine (by_token (fun _ => None) l) (edit_outs l outs)) with
                 | Some p => RVal p | None => if a_disc a then RAbsent else REmpty end.
Proof.
  intros multi s l outs s' A' i a Lv O E Ea. destruct (lived_inv multi s Lv) as [T U].
  assert (I : in_step multi s nobody) by (constructor; [exact T|exact U|unfold nobody; discriminate|unfold nobody; discriminate]).
  destruct (orderly_runs multi l s nobody I O) as (outs1 & s1 & A1 & E1 & L & I' & C & R). rewrite E in E1. injection E1 as <- <- <-.
  destruct (n_acc _ _ _ I' i a Ea) as (D & M & Sy). rewrite (synced_get s' a D Sy). unfold read_loose.
  destruct (history multi _ s T U C) as (o2 & s2 & R2 & _ & _ & _ & _ & G & _). rewrite R in R2. injection R2 as <- <-.
  pose proof (G (KL (a_desc a)) (conj D M)) as G1. cbn [get] in G1. rewrite G1. reflexivity.
Qed.

Definition d1 : Z := fd g_u32 2.
Definition d2 : Z := fd g_text 4.
Definition d3 : Z := fd g_u32 6.
Definition text_of (x y : Z) : tv := mkV false [2 + 256 * x + 65536 * y].
Definition busy : list call :=
  [CTok (OSet d1 false (blob 1 5)); CTake 0 d1 false; CTake 1 d2 true; CSet 1 (text_of 104 105); CTok (OSet d3 true (blob 1 9));
   CSet 0 (blob 1 6); CTok (OAppend (fd g_u32 7) true (blob 1 3)); CDel 1; CTok (ORemove d3); CSet 1 (text_of 111 107); CTok (OSet d3 true (blob 1 8)); CSet 0 (blob 1 7)].
Definition politeb (multi : Z -> bool) (s : st) (A : vars) (n : nat) (c : call) : bool :=
  match c with
  | CTok o => validb multi s o && calm s o &&
      forallb (fun i => match A i with Some a => match o with OSet d _ _ | ORemove d => negb (d =? a_desc a) | _ => true end | None => true end) (seq 0 n)
  | CTake i desc _ => real_descb desc && negb (multi desc) && (i <? n)%nat &&
      forallb (fun j => Nat.eqb j i || match A j with Some a => negb (a_desc a =? desc) | None => true end) (seq 0 n)
  | CSet i v => match A i with Some a => wf_payb (descriptor2genus (a_desc a)) (pay v) && calm s (OSet (a_desc a) (a_disc a) v) | None => false end
  | CDel i => match A i with Some a => match a_pos a with Some _ => calm s (ORemove (a_desc a)) | None => false end | None => false end
  | CDrop _ => true
  end.
Fixpoint orderlyb (multi : Z -> bool) (s : st) (A : vars) (n : nat) (l : list call) : bool :=
  match l with
  | [] => true
  | c :: l => politeb multi s A n c &&
    match call1 asis s A c with Ok A' s' => orderlyb multi s' A' n l | Throw s' => orderlyb multi s' A n l | Bad => false end
  end.
Lemma politeb_ok multi s A n c : (forall i, (n <= i)%nat -> A i = None) -> politeb multi s A n c = true -> polite multi s A c.
Proof.
  intros B H. destruct c as [o|i desc disc|i v|i|i]; cbn [politeb polite] in *; [| | | |exact I].
  - apply andb_prop in H. destruct H as [H H3]. apply andb_prop in H. destruct H as [H1 H2]. split; [apply validb_ok; exact H1|]. split; [exact H2|].
    intros i a Ea. assert (L : (i < n)%nat) by (destruct (Nat.lt_ge_cases i n) as [X|X]; [exact X|rewrite (B i X) in Ea; discriminate]).
    rewrite forallb_forall in H3. specialize (H3 i ltac:(apply in_seq; lia)). rewrite Ea in H3. destruct o; cbn [by_name]; try tauto; apply Bool.negb_true_iff in H3; lia.
  - apply andb_prop in H. destruct H as [H H3]. apply andb_prop in H. destruct H as [H _]. apply andb_prop in H. destruct H as [H1 H2].
    split; [apply real_descb_ok; exact H1|]. split; [apply Bool.negb_true_iff; exact H2|].
    intros j a N Ea. assert (L : (j < n)%nat) by (destruct (Nat.lt_ge_cases j n) as [X|X]; [exact X|rewrite (B j X) in Ea; discriminate]).
    rewrite forallb_forall in H3. specialize (H3 j ltac:(apply in_seq; lia)). rewrite Ea in H3. replace (Nat.eqb j i) with false in H3 by lia. cbn [orb] in H3. apply Bool.negb_true_iff in H3. lia.
  - destruct (A i) as [a|]; [|discriminate]. apply andb_prop in H. destruct H as [H1 H2]. split; [apply wf_payb_ok; exact H1|exact H2].
  - destruct (A i) as [a|]; [|discriminate]. destruct (a_pos a); [|discriminate]. split; [discriminate|exact H].
Qed.
Lemma orderlyb_ok multi n l : forall s A, (forall i, (n <= i)%nat -> A i = None) -> orderlyb multi s A n l = true -> orderly multi s A l.
Proof.
  induction l as [|c l IH]; intros s A B H; [exact I|]. cbn [orderlyb orderly] in *. apply andb_prop in H. destruct H as [H1 H2].
  split; [apply (politeb_ok multi s A n c B H1)|]. assert (B' : forall A' s', call1 asis s A c = Ok A' s' -> forall i, (n <= i)%nat -> A' i = None).
  { intros A' s' E i Hi. destruct c as [o|j desc disc|j v|j|j]; cbn [call1 politeb] in *.
    - destruct (run1 asis s o); cbn [bind] in E; try discriminate. injection E as <- _. exact (B i Hi).
    - injection E as <- _. rewrite put_other; [exact (B i Hi)|]. rewrite !Bool.andb_true_iff in H1. destruct H1 as [[_ H1] _]. apply Nat.ltb_lt in H1. lia.
    - destruct (A j) as [a|] eqn:Ej; [|discriminate]. destruct (acc_set asis s a v); cbn [bind] in E; try discriminate. injection E as <- _.
      rewrite put_other; [exact (B i Hi)|]. intros ->. rewrite (B j Hi) in Ej. discriminate.
    - destruct (A j) as [a|] eqn:Ej; [|discriminate]. destruct (acc_remove s a); cbn [bind] in E; try discriminate. injection E as <- _.
      rewrite put_other; [exact (B i Hi)|]. intros ->. rewrite (B j Hi) in Ej. discriminate.
    - injection E as <- _. unfold put. destruct (Nat.eqb i j); [reflexivity|exact (B i Hi)]. }
  destruct (call1 asis s A c) as [A' s'|s'|]; [apply IH; [apply (B' A' s' eq_refl)|exact H2]|apply IH; assumption|exact I].
Qed.
Lemma fresh_tuple_lived multi : lived multi (new_tuple 16 6).
Proof.
  apply l_reached. change (new_tuple 16 6) with (final (new_tuple 16 6) []). apply reached_final; [|vm_compute; reflexivity]. constructor; unfold no_slots; intros; lia.
Qed.
Definition all_ok (r : option (list bool * st * vars)) : bool := match r with Some (o, _, _) => forallb id o | None => false end.
Definition reads (r : option (list bool * st * vars)) (i : nat) (w : Z) : bool :=
  match r with Some (_, s, A) => match A i with Some a => match acc_get s a with RVal [x] => x =? w | _ => false end | None => false end | None => false end.
Example C79_busy_case : lived odd_multi (new_tuple 16 6) /\ orderly odd_multi (new_tuple 16 6) nobody busy /\
  all_ok (calls asis (new_tuple 16 6) nobody busy) = true /\ reads (calls asis (new_tuple 16 6) nobody busy) 0 7 = true /\
  reads (calls asis (new_tuple 16 6) nobody busy) 1 (nth 0 (pay (text_of 111 107)) 0) = true.
Proof.
  split; [apply fresh_tuple_lived|]. split; [apply (orderlyb_ok odd_multi 2); [reflexivity|vm_compute; reflexivity]|]. vm_compute. repeat split.
Qed.

(** ** Positions *)
(** no successful call addresses the entry *)
Fixpoint untouched (s : st) (l : list op) (k : nat) : Prop :=
  match l with
  | [] => True
  | o :: l => match run1 asis s o with Ok _ s' => ~ addressed s o (RL k) /\ untouched s' l k | Throw s' => untouched s' l k | Bad => True end
  end.
(** An accessor or an iterator standing at an entry (of a single field or of a member of a
    collection) goes on reading the same value. *)
Theorem C79_position_kept : forall multi s l outs s' k d p disc, lived multi s -> field s (RL k) = Some (d, p) -> real_desc d -> calm_run multi s l ->
  run asis s l = Some (outs, s') -> untouched s l k ->
  field s' (RL k) = Some (d, p) /\ acc_get s' (mkAcc d disc (Some k)) = acc_get s (mkAcc d disc (Some k)).
Proof.
  intros multi s l outs s' k d p disc Lv F D C R N. destruct (lived_inv multi s Lv) as [T U].
  assert (G : TInv s' /\ field s' (RL k) = Some (d, p)).
  { clear Lv. revert s outs T U F C R N. induction l as [|o l IH]; intros s outs T U F C R N; cbn [run calm_run untouched] in *; [injection R as _ <-; auto|].
    destruct C as (V & Cm & C). pose proof (step multi s o T U V Cm) as St. destruct (run1 asis s o) as [[] s1|s1|] eqn:E; [| |contradiction].
    - destruct N as [N1 N2]. destruct (run asis s1 l) as [[o1 s2]|] eqn:E1; [|discriminate]. injection R as _ <-.
      apply (IH s1 o1 (p_inv _ _ _ _ St) (p_uniq _ _ _ _ St)); auto. apply (proj1 (step_framed multi s o s1 T V Cm E)); assumption.
    - subst s1. destruct (run asis s l) as [[o1 s2]|] eqn:E1; [|discriminate]. injection R as _ <-. apply (IH s o1 T U F C E1 N). }
  destruct G as [T' F']. split; [exact F'|].
  destruct (field_desc _ _ _ _ F) as [L1 G1]. destruct (field_desc _ _ _ _ F') as [L2 G2].
  rewrite (field_live _ _ L1) in F. rewrite (field_live _ _ L2) in F'. injection F as _ F. injection F' as _ F'.
  assert (V1 : forall x, gid (idx x k) = d -> entry_value x (descriptor2genus d) k = value x (RL k)).
  { intros x Gx. unfold entry_value, entry_units, value, plen. cbv zeta. cbn [rgenus rrel]. unfold egenus. rewrite Gx. reflexivity. }
  unfold acc_get. cbv zeta. cbn [a_desc a_disc a_pos]. rewrite !V1 by assumption. rewrite F, F'.
  destruct (fixed_genus (descriptor2genus d)) eqn:Ef; [reflexivity|]. cbn [orb].
  assert (Z1 : forall x, TInv x -> live x (RL k) -> gid (idx x k) = d -> value x (RL k) = p -> (rel (idx x k) =? 0) = match p with [] => true | _ => false end).
  { intros x Tx Lx Gx <-. destruct (rel (idx x k) =? 0) eqn:Er.
    - unfold value, plen. cbv zeta. cbn [rgenus rrel]. unfold egenus. rewrite Gx, Ef, Er. destruct (is_inplaced_genus (descriptor2genus d)) eqn:Ei; [apply inplaced_units in Ei; destruct Ei; congruence|]. reflexivity.
    - assert (P : 0 < plen x (RL k)). { apply (t_pos _ Tx (RL k) Lx); [|cbn [rrel]; lia]. unfold stretchy_ref. cbn [rgenus]. unfold egenus. rewrite Gx, Ef. reflexivity. }
      unfold value. cbn [rgenus]. unfold egenus. rewrite Gx. destruct (is_inplaced_genus (descriptor2genus d)) eqn:Ei; [apply inplaced_units in Ei; destruct Ei; congruence|].
      unfold read_units. destruct (Z.to_nat (plen x (RL k))) eqn:En; [lia|]. reflexivity. }
  rewrite (Z1 s T L1 G1 F), (Z1 s' T' L2 G2 F'). reflexivity.
Qed.
Definition busy_tokens : list op := [OSet d1 false (blob 1 5); OAppend (fd g_u32 7) true (blob 1 3); OAppend (fd g_u32 7) true (blob 1 4)].
Definition busy_more : list op := [ORemove d1; OAppend (fd g_u32 7) true (blob 1 6); OErase 1; OSet d2 true (text_of 104 105)].
Example C79_position_case : let s := final (new_tuple 16 6) busy_tokens in
  lived odd_multi s /\ field s (RL 2) = Some (fd g_u32 7, [4]) /\ calm_run odd_multi s busy_more /\ outcome s busy_more = Some [true; true; true; true] /\ untouched s busy_more 2 /\
  acc_get (final s busy_more) (mkAcc (fd g_u32 7) true (Some 2%nat)) = RVal [4].
Proof.
  cbv zeta. split. { apply l_reached. apply reached_final; [constructor; unfold no_slots; intros; lia|vm_compute; reflexivity]. }
  split; [vm_compute; reflexivity|]. split; [apply calm_runb_ok; vm_compute; reflexivity|]. split; [vm_compute; reflexivity|]. split; [|vm_compute; reflexivity].
  vm_compute. split; [intros (k & H & E); congruence|]. split; [tauto|]. split; [discriminate|]. split; [intros (k & H & E); congruence|exact I].
Qed.

(** ** What goes wrong without the discipline *)
(** what a program leaves: the outcomes and the values read through the variables and by token *)
Definition seen_by (s : st) (l : list call) (vs : list nat) (ds : list Z) : option (list bool * list (option rd) * list rd) :=
  match calls asis s nobody l with
  | Some (o, s', A) => Some (o, map (fun i => option_map (acc_get s') (A i)) vs, map (fun d => read_loose s' d true) ds)
  | None => None
  end.
Lemma fresh_reached multi : reached multi (new_tuple 16 6).
Proof. change (new_tuple 16 6) with (final (new_tuple 16 6) []). apply reached_final; [constructor; unfold no_slots; intros; lia|vm_compute; reflexivity]. Qed.

(** Two accessors taken while a field is absent: both assignments succeed and make two entries.
    Removing the field by token then removes one of them only, and the other value shows up. *)
Theorem C79_twins_refuted : exists s d, lived (fun _ => false) s /\
  seen_by s [CTake 0 d false; CTake 1 d false; CSet 0 (blob 1 5); CSet 1 (blob 1 6)] [0; 1]%nat [d] =
    Some ([true; true; true; true], [Some (RVal [5]); Some (RVal [6])], [RVal [6]]) /\
  seen_by s [CTake 0 d false; CTake 1 d false; CSet 0 (blob 1 5); CSet 1 (blob 1 6); CTok (ORemove d)] [] [d] =
    Some ([true; true; true; true; true], [], [RVal [5]]).
Proof. exists (new_tuple 16 6), d1. split; [apply l_reached, fresh_reached|]. split; vm_compute; reflexivity. Qed.

(** An accessor of a removed field is not noticed to be stale once another field of the same type
    has taken the entry: it reads the other field and an assignment through it changes the other. *)
Theorem C79_reused_entry_refuted : exists s d e, lived (fun _ => false) s /\ d <> e /\
  seen_by s [CTok (OSet d false (blob 1 5)); CTake 0 d false; CTok (ORemove d); CTok (OSet e false (blob 1 9))] [0%nat] [d; e] =
    Some ([true; true; true; true], [Some (RVal [9])], [RAbsent; RVal [9]]) /\
  seen_by s [CTok (OSet d false (blob 1 5)); CTake 0 d false; CTok (ORemove d); CTok (OSet e false (blob 1 9)); CSet 0 (blob 1 77)] [0%nat] [d; e] =
    Some ([true; true; true; true; true], [Some (RVal [77])], [RAbsent; RVal [77]]).
Proof. exists (new_tuple 16 6), d1, d3. split; [apply l_reached, fresh_reached|]. split; [discriminate|]. split; vm_compute; reflexivity. Qed.

(** Removing through an accessor of an absent field follows a null pointer, and so does removing
    through the same accessor twice. *)
Theorem C79_remove_absent_refuted : exists s d, lived (fun _ => false) s /\
  calls asis s nobody [CTake 0 d false; CDel 0] = None /\
  calls asis s nobody [CTok (OSet d false (blob 1 5)); CTake 0 d false; CDel 0; CDel 0] = None /\
  run asis s [ORemove d] <> None.
Proof. exists (new_tuple 16 6), d1. split; [apply l_reached, fresh_reached|]. split; [vm_compute; reflexivity|]. split; [vm_compute; reflexivity|]. vm_compute. discriminate. Qed.

(** Compaction moves entries under an accessor, which then reads another field; the answer of
    optimize() (C67) is the only warning. *)
Definition d4 : Z := fd g_u32 8.
Definition holed : st := final (new_tuple 16 6) [OSet d1 false (blob 1 5); OSet d3 false (blob 1 6); OSet d4 false (blob 1 7); ORemove d1].
Theorem C79_compaction_refuted : exists s d e, let t := compactify srt_chunks s in lived (fun _ => false) s /\ settled s /\ d <> e /\
  read_loose t d true = read_loose s d true /\ acc_get s (take s d true) = read_loose s d true /\
  acc_get t (take s d true) = read_loose t e true /\ read_loose t e true <> read_loose t d true /\ optimize srt_chunks srt_items (mkOF true false false) s = (true, t).
Proof.
  exists holed, d3, d4. cbv zeta. split. { apply l_reached. apply reached_final; [constructor; unfold no_slots; intros; lia|vm_compute; reflexivity]. }
  split; [apply settled_dec; vm_compute; reflexivity|].
  split; [discriminate|]. split; [vm_compute; reflexivity|]. split; [vm_compute; reflexivity|]. split; [vm_compute; reflexivity|]. split; [vm_compute; discriminate|].
  unfold optimize. cbn [f_compact f_sort f_force orb andb negb]. replace (jc holed =? 0) with false by (vm_compute; reflexivity). cbn [andb negb].
  replace (jc holed >? 0) with true by (vm_compute; reflexivity). reflexivity.
Qed.

Print Assumptions C79_as_by_token.
Print Assumptions C79_next_call.
Print Assumptions C79_reads_last_write.
Print Assumptions C79_position_kept.
Print Assumptions C79_twins_refuted.
Print Assumptions C79_reused_entry_refuted.
Print Assumptions C79_remove_absent_refuted.
Print Assumptions C79_compaction_refuted.
