(** * The room asked for, in tuples with holes: C94 *)
From Coq Require Import List ZArith Lia ZifyBool ZifyNat.
From Verif Require Import Base Tag TagProofs Codec Gear GearBase GearSearch GearProofs GearAlloc GearRealloc Tuple TupleProofs TupleSteps TupleView TupleOps TupleMore
  TupleHist TupleFacts PropertiesTuple Hippeus Scan Audit Image ImageProofs PropertiesImage GearOpt GearOptProofs PropertiesOpt Growth GrowthProofs PropertiesGrowth PolicyProofs Scales PropertiesScales Wider PropertiesWider.
Ltac Zify.zify_post_hook ::= Z.div_mod_to_equations.

(** an added field takes at most one entry and its units from the room, and is refused only without them *)
Record within_step (s s' : st) (u : Z) : Prop := {
  w_cnt : (cnt s' <= S (cnt s))%nat; w_tail : tail s' <= tail s + u; w_end : end_ s' = end_ s; w_pivot : pivot s' = pivot s
}.
Lemma index_within s : match index_alloc s with
  | Ok k s' => (cnt s' <= S (cnt s))%nat /\ tail s' = tail s /\ end_ s' = end_ s /\ pivot s' = pivot s
  | Throw s' => head_space s < 1
  | Bad => False end.
Proof.
  unfold index_alloc. destruct (if jc s >? 0 then _ else _) as [k|]; [cbn; auto 9|]. destruct (head_space s <? 1) eqn:E; [lia|cbn; auto 9].
Qed.
Lemma alloc_within s tag u : 0 <= u -> match alloc_loose asis s tag u with
  | Ok k s' => within_step s s' u
  | Throw s' => tail_space s < u \/ head_space s < 1
  | Bad => True end.
Proof.
  intros U. pose proof (index_within s) as I. unfold alloc_loose. destruct (u =? 0).
  - destruct (index_alloc s) as [k s1|s1|]; cbn [bind]; auto. destruct I as (A & B & C & D). constructor; cbn [cnt tail end_ pivot set_ent with_idx]; lia || auto.
  - destruct (lookup_fit s u) as [[h|]|]; [| |exact Logic.I].
    + cbv zeta. destruct (u32 _ =? 0); [constructor; cbn; lia || auto|]. destruct (index_alloc s) as [k s1|s1|]; cbn [bind]; auto.
      destruct I as (A & B & C & D). constructor; cbn [cnt tail end_ pivot set_ent with_idx with_jv]; lia || auto.
    + destruct (tail_space s <? u) eqn:E; [lia|]. destruct (index_alloc s) as [k s1|s1|]; cbn [bind]; auto.
      destruct I as (A & B & C & D). constructor; cbn [cnt tail end_ pivot set_ent with_idx with_tail]; lia || auto.
Qed.
Lemma adding_within multi s o : valid_new multi o -> adding o = true ->
  match o with OSet desc _ _ => lookup_gid s desc = None | _ => True end ->
  match run1 asis s o with
  | Ok _ s' => within_step s s' (op_units o)
  | Throw _ => tail_space s < op_units o \/ head_space s < 1
  | Bad => True end.
Proof.
  intros V A F. pose proof (op_units_range multi s o (valid_new_ok multi s o V)) as Hu.
  assert (WF : forall s s1 k v u, within_step s s1 u -> within_step s (write_fixed s1 k v) u).
  { intros a b k v u [W1 W2 W3 W4]. destruct (write_fixed_exact b k v) as (B1 & B2 & B3 & B4 & B5 & B6 & _). constructor; [rewrite B1|rewrite B2|rewrite B5|rewrite B6]; assumption. }
  destruct o as [desc disc v| |desc disc v| | | |]; cbn [adding storing] in A; try discriminate; cbn [run1 op_units] in *; unfold new_units in *.
  - unfold stores in A. destruct (fixed_genus (descriptor2genus desc)) eqn:Fx.
    + unfold assign_fixed. rewrite F. apply Bool.negb_true_iff in A. rewrite A. pose proof (alloc_within s desc (loose_units (descriptor2genus desc)) ltac:(lia)) as Q.
      destruct (alloc_loose asis s desc _) as [k s1|s1|]; cbn [void bind]; auto.
    + unfold assign_stretchy. rewrite F. destruct (needed_len disc v ltac:(lia)) as [N _]. rewrite <- N in *.
      replace (needed disc v =? 0) with false by lia. pose proof (alloc_within s desc (needed disc v) ltac:(lia)) as Q.
      destruct (alloc_loose asis s desc _) as [k s1|s1|]; cbn [void bind]; auto. destruct Q as [W1 W2 W3 W4]. constructor; assumption.
  - apply Bool.negb_true_iff in A. unfold append_loose. rewrite A. cbv zeta. destruct (fixed_genus (descriptor2genus desc)) eqn:Fx.
    + pose proof (alloc_within s desc (loose_units (descriptor2genus desc)) ltac:(lia)) as Q. destruct (alloc_loose asis s desc _) as [k s1|s1|]; cbn [void bind]; auto.
    + pose proof (alloc_within s desc (Z.of_nat (length (pay v))) ltac:(lia)) as Q. destruct (alloc_loose asis s desc _) as [k s1|s1|]; cbn [void bind]; auto.
      destruct Q as [W1 W2 W3 W4]. constructor; assumption.
Qed.

(** any calm sequence of additions that fits, whatever holes there are *)
Lemma additions_within multi l : forall s, TInv s -> uniq multi s -> calm_run multi s l -> Forall (valid_new multi) l -> forallb adding l = true ->
  NoDup (set_descs l) -> (forall desc, In desc (set_descs l) -> lookup_gid s desc = None) ->
  Z.of_nat (length l) <= head_space s -> sum_units l <= tail_space s ->
  exists s', run asis s l = Some (map (fun _ => true) l, s').
Proof.
  induction l as [|o l IH]; intros s T U C V A ND Fr H1 H2; [exists s; reflexivity|].
  apply Forall_cons_iff in V. destruct V as [V Vl]. cbn [forallb] in A. apply andb_prop in A. destruct A as [A Al].
  cbn [sum_units fold_right] in H2. fold (sum_units l) in H2. pose proof (sum_units_nonneg multi l Vl) as Sn.
  pose proof (valid_new_ok multi s o V) as Vo. pose proof (op_units_range multi s o Vo) as Hu. cbn [length] in H1.
  cbn [calm_run] in C. destruct C as (_ & Cm & C).
  assert (F0 : match o with OSet desc _ _ => lookup_gid s desc = None | _ => True end).
  { destruct o; auto. apply Fr. left. reflexivity. }
  pose proof (step multi s o T U Vo Cm) as Q. pose proof (adding_within multi s o V A F0) as W. cbn [run].
  destruct (run1 asis s o) as [[] s1|s1|] eqn:E; [|exfalso; lia|contradiction]. destruct W as [X1 X2 X3 X4].
  destruct (IH s1) as (s' & R); auto.
  - apply Q.
  - apply Q.
  - destruct o; cbn [set_descs flat_map app] in ND; try exact ND. apply NoDup_cons_iff in ND. apply ND.
  - intros desc Hin.
    assert (D : real_desc desc).
    { unfold set_descs in Hin. apply in_flat_map in Hin. destruct Hin as (x & Hx & Hd). rewrite Forall_forall in Vl. specialize (Vl x Hx).
      destruct x; cbn in Hd; try contradiction. destruct Hd as [<-|[]]. apply Vl. }
    assert (Nd : desc <> op_desc o).
    { destruct o as [d0 disc v| |d0 disc v| | | |]; cbn [adding storing valid_new op_desc set_descs flat_map app] in *; try discriminate; try contradiction.
      - apply NoDup_cons_iff in ND. intros ->. apply ND. exact Hin.
      - intros ->. unfold set_descs in Hin. apply in_flat_map in Hin. destruct Hin as (x & Hx & Hd). rewrite Forall_forall in Vl. specialize (Vl x Hx).
        destruct x; cbn in Hd; try contradiction. destruct Hd as [->|[]]. cbn [valid_new] in Vl. destruct V as (_ & V & _), Vl as (_ & Vl & _). congruence. }
    apply lookup_view_nil; [exact D|]. rewrite (adding_other multi s o s1 desc T V A Cm F0 E D Nd). apply lookup_none. apply Fr.
    destruct o; cbn [set_descs flat_map app]; try exact Hin. right. exact Hin.
  - unfold head_space in *. rewrite X4. lia.
  - unfold tail_space in *. rewrite X3. lia.
  - exists s'. rewrite R. reflexivity.
Qed.

(** The answer is enough for tuples with holes too: every sequence of additions within the asked room goes through
    and reads back, if it does not meet one of the slips of the allocator. *)
Theorem C94_enough_with_holes : forall multi s A l mi mp n size d, lived multi s -> distinct_slots s -> layout_of s l -> 0 <= mi -> 0 <= mp ->
  Z.of_nat (cnt s) + mi < 2 ^ 64 -> 4 * (tail s - pivot s) + mp < 2 ^ 64 -> estimate_more s mi mp (l_bytes l) = Some n -> n <= size <= buffer_limit ->
  Z.of_nat (cnt s) + mi + (4 * (tail s - pivot s) + mp + 3) / 4 <= 65534 ->
  exists s', create_copy A s size mi mp l d = Some s' /\ TInv s' /\ (forall r, field s' r = as_u32 (field s r)) /\
    forall ops, calm_run multi s' ops -> Forall (valid_new multi) ops -> forallb adding ops = true -> NoDup (set_descs ops) ->
      (forall desc, In desc (set_descs ops) -> view s desc = []) -> Z.of_nat (length ops) <= mi -> 4 * sum_units ops <= mp ->
      exists s2, run asis s' ops = Some (map (fun _ => true) ops, s2) /\ TInv s2 /\
        forall k, single_key multi s' k -> get s2 k = last_write k (get s' k) (combine ops (map (fun _ => true) ops)).
Proof.
  intros multi s A l mi mp n size d Lv DS LO Hi Hp Wi Wp E Sz Fit. destruct (lived_inv multi s Lv) as [T U].
  pose proof (C94_excess_partial multi s l mi mp n Lv LO Hi Hp Wi Wp E) as X.
  apply (C94_exact_partial multi s l mi mp n Lv LO Hi Hp Wi Wp) in E. destruct E as (E1 & E2 & En).
  destruct (copy_with A s l mi mp size d T DS LO Hi Hp E1 E2 Fit ltac:(lia)) as (s' & Ec & T' & MV & H1 & H2).
  exists s'. split; [exact Ec|]. split; [exact T'|]. split; [intros r; apply (mv_field s s' _ MV T)|].
  intros ops C V Ad ND Fr Len Sum. pose proof (moved_alike multi s s' _ MV T T') as Al.
  destruct (additions_within multi ops s' T' (a_uniq _ _ _ Al U) C) as (s2 & R); auto; try lia.
  { intros desc I. assert (D : real_desc desc) by (unfold set_descs in I; apply in_flat_map in I; destruct I as (o & Io & I); pose proof (proj1 (Forall_forall _ _) V o Io) as Vo; destruct o; cbn in I; try contradiction; destruct I as [<-|[]]; apply Vo).
    apply lookup_view_nil; [exact D|]. pose proof (a_view _ _ _ Al desc D) as Q. rewrite (Fr desc I) in Q. destruct (view s' desc); [reflexivity|discriminate]. }
  exists s2. split; [exact R|].
  destruct (history multi ops s' T' (a_uniq _ _ _ Al U) C) as (outs & s3 & R' & _ & T2 & _ & _ & G & _). rewrite R in R'.
  assert (Q : s3 = s2 /\ outs = map (fun _ => true) ops) by (split; congruence). destruct Q as [-> ->]. split; [exact T2|exact G].
Qed.
Print Assumptions C94_enough_with_holes.

(** a tuple with a hole of two units: the first addition takes the hole, the second the room *)
Definition holes9_ops : list op := [OSet (fd g_u64 4) true (blob 2 5); OSet (fd g_bin96 8) true (blob 3 9)].
Example C94_holes_case : lived odd_multi before9 /\ distinct_slots before9 /\ layout_of before9 layout9 /\ jc before9 = 1 /\ jv before9 = 2 /\
  estimate_more before9 3 20 4 = Some 152 /\ map (view before9) (set_descs holes9_ops) = [[]; []] /\
  match create_copy 4096 before9 152 3 20 layout9 zeros with
  | Some s' => calm_runb odd_multi s' holes9_ops = true /\ jc s' = 1 /\ jv s' = 2 /\ cnt s' = 4%nat /\ tail s' = 21 /\
      match run asis s' holes9_ops with Some (outs, s2) => outs = [true; true] /\ cnt s2 = 5%nat /\ tail s2 = 24 /\ jc s2 = 0 /\ jv s2 = 0 | None => False end
  | None => False
  end.
Proof.
  split; [apply l_reached; now_reach|]. destruct C09_copy_case as (DS & LO & _). split; [exact DS|]. split; [exact LO|].
  do 4 (split; [vm_compute; reflexivity|]). vm_compute. repeat split; reflexivity.
Qed.
Lemma holes9_ok : Forall (valid_new odd_multi) holes9_ops /\ forallb adding holes9_ops = true /\ NoDup (set_descs holes9_ops) /\ 4 * sum_units holes9_ops <= 20.
Proof.
  split; [|split; [vm_compute; reflexivity|split]].
  - repeat constructor; vm_compute; try reflexivity; try discriminate; auto; intros; try discriminate; try (repeat constructor; discriminate).
  - vm_compute. constructor; [intros [H|[]]; discriminate|constructor; [intros []|constructor]].
  - vm_compute. discriminate.
Qed.
