(** * Properties of views taken of a modifiable tuple: C90 *)
From Verif Require Import Base Tag TagProofs Codec Gear GearBase GearSearch GearProofs GearOpt GearOptProofs Tuple TupleProofs TupleSteps TupleView TupleOps TupleHist
  Hippeus HippeusProofs Scan PropertiesTuple PropertiesOpt Audit AuditProofs Image ImageProofs PropertiesImage Stale StaleProofs StaleTwin.
From Coq Require Import ZifyBool ZifyNat.
Ltac Zify.zify_post_hook ::= Z.div_mod_to_equations.

(** tuples whose views may have been taken any number of times between calls *)
Inductive viewed (multi : Z -> bool) : st -> Prop :=
| v_worked s : worked multi s -> viewed multi s
| v_take s : viewed multi s -> viewed multi (take s)
| v_calls s l outs s' : viewed multi s -> calm_run multi s l -> run asis s l = Some (outs, s') -> viewed multi s'.
Lemma viewed_inv multi s : viewed multi s -> TInv s /\ uniq multi s.
Proof.
  induction 1 as [s W|s W [T U]|s l outs s' W [T U] C E].
  - apply (worked_inv multi s W).
  - split; [apply take_inv|apply take_uniq]; assumption.
  - destruct (history multi l s T U C) as (outs' & s1 & E' & _ & T1 & U1 & _). rewrite E in E'. assert (s' = s1) as -> by congruence. auto.
Qed.


(** ** Taking a view shows the tuple as it is and changes nothing *)
Theorem C90_take : forall multi s A, viewed multi s -> distinct_slots s -> Z.of_nat (cnt s) <= max_fields ->
  (forall r, field (take s) r = field s r) /\
  (forall k, single_key multi s k -> get (take s) k = get s k) /\
  (forall desc, lookup_gid (take s) desc = lookup_gid s desc /\ collect (take s) desc = collect s desc) /\
  (forall k, ro_loose (held_mem A (take s)) (taken A s) k = as_u32 (field s (RL k))) /\
  (forall j, (j < nslots s)%nat -> ro_slot (held_mem A (take s)) (taken A s) (stype s j) (4 * soff s j) = map u32 (value s (RP j))) /\
  ro_units (held_mem A (take s)) (taken A s) = tail s - head s + 1 /\
  same_as A (take s) (taken A s) = true /\
  taken A (take s) = taken A s /\ (forall x, memory (take (take s)) x = memory (take s) x).
Proof.
  intros multi s A V DS Few. destruct (viewed_inv multi s V) as [T U]. pose proof (take_inv s T) as T'.
  destruct (held_readers A s (take s) T Few (left_take s) T' DS) as [R1 R2].
  split; [apply take_field|]. split; [intros k Hk; apply (take_get multi); assumption|].
  split; [intros d; split; [apply take_lookup|apply take_collect]|].
  split; [intros k; rewrite R1, take_field; reflexivity|].
  split. { intros j Hj. rewrite R2 by exact Hj. f_equal. }
  split; [exact (held_units A s (take s) T Few (left_take s))|].
  split; [rewrite (same_as_cnt A s (take s) (left_take s)); apply Nat.eqb_refl|]. split; [reflexivity|].
  intros x. unfold memory. change (pivot (take (take s))) with (pivot (take s)). destruct (x <? pivot (take s)) eqn:E.
  - set (k := Z.to_nat (pivot (take s) - 1 - x)). replace (idx (take (take s)) k) with (idx (take s) k); [reflexivity|].
    destruct (Nat.eq_dec k (cnt s)) as [->|N].
    + rewrite take_at. symmetry. exact (take_at (take s)).
    + symmetry. unfold take at 1. unfold set_ent. cbn [idx with_idx]. apply fupd_other. exact N.
  - unfold word. change (head (take (take s))) with (head (take s)). change (pivot (take (take s))) with (pivot (take s)). change (base (take (take s))) with (base (take s)).
    replace ((head (take s) <=? x) && (x <? pivot (take s))) with false by lia. reflexivity.
Qed.
(** a tuple of four entries (one is a hole of two units) and a preplaced field *)
Example C90_take_case : viewed odd_multi before9 /\ distinct_slots before9 /\ Z.of_nat (cnt before9) <= max_fields /\
  cnt before9 = 4%nat /\ idx (take before9) 4 = mkE 19 34 /\ idx before9 4 = mkE 0 63488 /\
  ro_loose (held_mem 4096 (take before9)) (taken 4096 before9) 0 = Some (2050, [5; 1; 1; 1; 1]).
Proof.
  split; [apply v_worked, w_reached; now_reach|].
  assert (N : nslots before9 = 1%nat) by (vm_compute; reflexivity).
  split; [intros i j Hi Hj _; rewrite N in Hi, Hj; lia|]. vm_compute. repeat split; discriminate.
Qed.

(** ** Taking views never influences what later calls do *)
(** calls with views taken in between: [None] takes a view *)
Fixpoint run_views (s : st) (l : list (option op)) : option (list bool * st) :=
  match l with
  | [] => Some ([], s)
  | None :: l => run_views (take s) l
  | Some o :: l =>
    match run1 asis s o with
    | Bad => None
    | Ok _ s' => option_map (fun p => (true :: fst p, snd p)) (run_views s' l)
    | Throw s' => option_map (fun p => (false :: fst p, snd p)) (run_views s' l)
    end
  end.
Fixpoint changes (l : list (option op)) : list op :=
  match l with [] => [] | None :: l => changes l | Some o :: l => o :: changes l end.
(** removals through iterators name positions of the index *)
Fixpoint within_run (s : st) (l : list op) : bool :=
  match l with
  | [] => true
  | o :: l => within_index s o && match run1 asis s o with Ok _ s' | Throw s' => within_run s' l | Bad => true end
  end.
Lemma twin_take s g n : (cnt s <= n)%nat -> agree n g s -> exists g', take (with_idx s g) = with_idx s g' /\ agree (cnt s) g' s.
Proof.
  intros H A. exists (fupd g (cnt s) (mkE (header s mod 65536) (header s / 65536))). split; [reflexivity|]. intros k Hk. unfold fupd.
  replace (Nat.eqb k (cnt s)) with false by (symmetry; apply Nat.eqb_neq; lia). apply A. lia.
Qed.
Lemma twin_run : forall l s g, agree (cnt s) g s -> within_run s (changes l) = true ->
  match run asis s (changes l) with
  | None => run_views (with_idx s g) l = None
  | Some (bs, s') => exists g', run_views (with_idx s g) l = Some (bs, with_idx s' g') /\ agree (cnt s') g' s'
  end.
Proof.
  induction l as [|[o|] l IH]; intros s g A W; cbn [changes run run_views] in *.
  - exists g. auto.
  - cbn [within_run] in W. apply andb_prop in W. destruct W as [W1 W2].
    pose proof (tw_run1 (cnt s) asis s g o (Nat.le_refl _) A W1) as S1.
    destruct (run1 asis s o) as [a s1|s1|]; destruct (run1 asis (with_idx s g) o) as [b t1|t1|]; cbn [simr] in S1; try contradiction; [| |reflexivity].
    + destruct S1 as (_ & g1 & N & -> & _ & C1 & A1 & _). assert (A2 : agree (cnt s1) g1 s1) by (intros k Hk; apply A1; lia).
      specialize (IH s1 g1 A2 W2). destruct (run asis s1 (changes l)) as [[bs s']|]; cbn [option_map fst snd].
      * destruct IH as (g' & -> & A'). exists g'. auto.
      * rewrite IH. reflexivity.
    + destruct S1 as (g1 & N & -> & _ & C1 & A1). assert (A2 : agree (cnt s1) g1 s1) by (intros k Hk; apply A1; lia).
      specialize (IH s1 g1 A2 W2). destruct (run asis s1 (changes l)) as [[bs s']|]; cbn [option_map fst snd].
      * destruct IH as (g' & -> & A'). exists g'. auto.
      * rewrite IH. reflexivity.
  - destruct (twin_take s g (cnt s) (Nat.le_refl _) A) as (g1 & -> & A1). exact (IH s g1 A1 W).
Qed.
Theorem C90_take_silent : forall s l, within_run s (changes l) = true ->
  (run asis s (changes l) = None <-> run_views s l = None) /\
  forall bs s', run asis s (changes l) = Some (bs, s') ->
  exists t, run_views s l = Some (bs, t) /\
    cnt t = cnt s' /\ tail t = tail s' /\ jc t = jc s' /\ jv t = jv s' /\ pivot t = pivot s' /\ end_ t = end_ s' /\
    (forall x, head s' <= x -> memory t x = memory s' x) /\
    (forall r, field t r = field s' r) /\ (forall desc, get_loose t desc = get_loose s' desc) /\
    (forall j, get_slot t j = get_slot s' j) /\ (forall desc, collect t desc = collect s' desc) /\
    (forall x, head s' - 1 <= x -> memory (take t) x = memory (take s') x).
Proof.
  intros s l W. assert (A0 : agree (cnt s) (idx s) s) by (intros k _; reflexivity).
  pose proof (twin_run l s (idx s) A0 W) as X. replace (with_idx s (idx s)) with s in X by (destruct s; reflexivity).
  split. { destruct (run asis s (changes l)) as [[bs s']|]; [|tauto]. destruct X as (g' & -> & _). split; discriminate. }
  intros bs s' E. rewrite E in X. destruct X as (g & E' & A). exists (with_idx s' g). split; [exact E'|]. clear s l W A0 E E'.
  repeat match goal with |- _ = _ /\ _ => split; [reflexivity|] end.
  assert (AB : forall k, (k < cnt s')%nat -> idx (with_idx s' g) k = idx s' k) by exact A.
  assert (M : forall x, head s' <= x -> memory (with_idx s' g) x = memory s' x).
  { intros x Hx. unfold memory. change (pivot (with_idx s' g)) with (pivot s'). destruct (x <? pivot s') eqn:Ex.
    - rewrite AB by (unfold head in Hx; lia). reflexivity.
    - unfold word. change (head (with_idx s' g)) with (head s'). change (pivot (with_idx s' g)) with (pivot s'). replace ((head s' <=? x) && (x <? pivot s')) with false by lia. reflexivity. }
  split; [exact M|].
  split. { intros r. apply ab_field; try reflexivity. exact AB. }
  split. { intros desc. unfold get_loose. rewrite (tw_lookup s' g (cnt s')) by (try exact A; lia). pose proof (lookup_below s' desc (cnt s') (Nat.le_refl _)) as L. destruct (lookup_gid s' desc) as [k|]; [|reflexivity].
    specialize (L k eq_refl). rewrite AB by exact L. rewrite (tw_value s' g (cnt s')) by (try exact A; exact L). reflexivity. }
  split. { intros j. unfold get_slot. rewrite (tw_value s' g (cnt s')) by (try exact A; exact I). reflexivity. }
  split. { intros desc. apply ab_collect; try reflexivity. exact AB. }
  intros x Hx. destruct (Z.eq_dec x (head s' - 1)) as [->|Nx].
  - unfold memory. change (pivot (take (with_idx s' g))) with (pivot s'). change (pivot (take s')) with (pivot s'). replace (head s' - 1 <? pivot s') with true by (unfold head; lia).
    replace (Z.to_nat (pivot s' - 1 - (head s' - 1))) with (cnt s') by (unfold head; lia). rewrite take_at. change (cnt s') with (cnt (with_idx s' g)) at 1 2. rewrite !(take_at (with_idx s' g)). reflexivity.
  - assert (TM : forall s x, head s <= x -> memory (take s) x = memory s x).
    { intros s y Hy. unfold memory. change (pivot (take s)) with (pivot s). destruct (y <? pivot s) eqn:Ey.
      - unfold take, set_ent. cbn [idx with_idx]. rewrite fupd_other by (unfold head in Hy; lia). reflexivity.
      - unfold word. change (head (take s)) with (head s). change (pivot (take s)) with (pivot s). replace ((head s <=? y) && (y <? pivot s)) with false by lia. reflexivity. }
    rewrite TM by (change (head (with_idx s' g)) with (head s'); lia). rewrite (TM s') by lia. apply M. lia.
Qed.
(** three views between calls that remove, store anew and are refused *)
Definition spied : list (option op) :=
  [None; Some (ORemove (fd g_i64 6)); None; Some (OSet (fd g_u64 9) true (mkV false [7; 8])); Some (OAppend (fd g_varbin 3) true (mkV false (repeat 1 90))); None].
Example C90_take_silent_case : within_run before9 (changes spied) = true /\
  option_map (fun p => (fst p, cnt (snd p))) (run asis before9 (changes spied)) = Some ([true; true; false], 4%nat) /\
  option_map (fun p => (fst p, idx (snd p) 4)) (run_views before9 spied) = Some ([true; true; false], mkE 19 34).
Proof. split; [vm_compute; reflexivity|]. split; vm_compute; reflexivity. Qed.

(** ** While no index entry is asked for, the view shows the tuple as it has become *)
(** Removals, and stores that keep the length of what is there: the view taken before them shows
    exactly the present fields, at the same positions.  Its size remains the old one, and the tuple
    says it is "the same" exactly when the index has not shrunk. *)
Theorem C90_survives_partial : forall multi s A l, viewed multi s -> distinct_slots s -> Z.of_nat (cnt s) <= max_fields ->
  calm_run multi (take s) l -> tame_run (take s) l = true ->
  exists outs s', run asis (take s) l = Some (outs, s') /\ viewed multi s' /\
    (forall k, ro_loose (held_mem A s') (taken A s) k = as_u32 (field s' (RL k))) /\
    (forall j, (j < nslots s)%nat -> ro_slot (held_mem A s') (taken A s) (stype s j) (4 * soff s j) = map u32 (value s' (RP j))) /\
    ro_units (held_mem A s') (taken A s) = tail s - head s + 1 /\
    same_as A s' (taken A s) = Nat.eqb (cnt s') (cnt s).
Proof.
  intros multi s A l V DS Few C Tm. destruct (viewed_inv multi s V) as [T U].
  destruct (left_run multi (cnt s) (take s) l (take s) (take_inv s T) (take_uniq multi s U) C Tm (left_take s)) as (outs & s' & E & T' & U' & J).
  exists outs, s'. split; [exact E|]. split; [exact (v_calls multi (take s) l outs s' (v_take multi s V) C E)|].
  destruct (held_readers A s s' T Few J T' DS) as [R1 R2]. split; [exact R1|]. split; [exact R2|].
  split; [exact (held_units A s s' T Few J)|apply same_as_cnt; exact J].
Qed.
(** the collection's member and the two others are removed one after another, and a number is
    replaced first: the index shrinks by an entry, the data by five units *)
Definition shrinking : list op := [OSlot 0 true (mkV false [4; 8; 8; 8]); ORemove 24582; OEraseAll 14337; ORemove 2050].
Example C90_survives_case : calm_run odd_multi (take before9) shrinking /\ tame_run (take before9) shrinking = true /\
  match run asis (take before9) shrinking with
  | Some (outs, s') => outs = [true; true; true; true] /\ cnt s' = 3%nat /\ tail s' = 15 /\ tail before9 = 20 /\ ro_index (held_mem 4096 s') (taken 4096 before9) = 4 /\
      same_as 4096 s' (taken 4096 before9) = false /\ ro_slot (held_mem 4096 s') (taken 4096 before9) 1 0 = [4; 8; 8; 8]
  | None => False
  end.
Proof. split; [apply calm_runb_ok; vm_compute; reflexivity|]. split; [vm_compute; reflexivity|]. vm_compute. repeat split. Qed.

(** ** When neither the index nor the data have shrunk, the view is accepted as it stands *)
Theorem C90_valid_partial : forall multi s A l outs s' schema, viewed multi s -> distinct_slots s ->
  Z.of_nat (cnt s) + Z.of_nat (nslots s) <= max_fields -> tail s - head s + 1 <= 65534 -> taken A s <> 0 ->
  calm_run multi (take s) l -> tame_run (take s) l = true -> run asis (take s) l = Some (outs, s') ->
  schema_of s' schema -> cnt s' = cnt s -> tail s' = tail s ->
  snd (ro_audit (held_mem A s') (taken A s) (4 * ro_units (held_mem A s') (taken A s)) schema) = Good (jc s', jv s').
Proof.
  intros multi s A l outs s' schema V DS Few Big NN C Tm E SO Ec Et. destruct (viewed_inv multi s V) as [T U].
  destruct (left_run multi (cnt s) (take s) l (take s) (take_inv s T) (take_uniq multi s U) C Tm (left_take s)) as (outs' & s1 & E1 & T' & U' & J).
  assert (s1 = s') by congruence. subst s1.
  exact (held_accepted A s s' T ltac:(lia) J schema T' DS SO Ec Et Few Big NN).
Qed.
Definition middle : list op := [ORemove 24582].
Example C90_valid_case : calm_run odd_multi (take before9) middle /\ tame_run (take before9) middle = true /\
  Z.of_nat (cnt before9) + Z.of_nat (nslots before9) <= max_fields /\ tail before9 - head before9 + 1 <= 65534 /\ taken 4096 before9 <> 0 /\
  match run asis (take before9) middle with
  | Some (outs, s') => schema_of s' schema9 /\ cnt s' = cnt before9 /\ tail s' = tail before9 /\ jc s' = 2 /\ jv s' = 4
  | None => False
  end.
Proof.
  split; [apply calm_runb_ok; vm_compute; reflexivity|]. split; [vm_compute; reflexivity|].
  split; [vm_compute; discriminate|]. split; [vm_compute; discriminate|]. split; [vm_compute; discriminate|].
  vm_compute. repeat split; discriminate.
Qed.
(** Removing the last of the data is enough: the tuple still says it is the same, but the size of
    the view is the old one and validation refuses it. *)
Theorem C90_size_refuted : exists s l s', viewed odd_multi s /\ calm_run odd_multi (take s) l /\ tame_run (take s) l = true /\
  run asis (take s) l = Some (map (fun _ => true) l, s') /\ schema_of s schema9 /\
  snd (ro_audit (held_mem 4096 (take s)) (taken 4096 s) (4 * ro_units (held_mem 4096 (take s)) (taken 4096 s)) schema9) = Good (jc s, jv s) /\
  same_as 4096 s' (taken 4096 s) = true /\
  ro_units (held_mem 4096 s') (taken 4096 s) <> tail s' - head s' + 1 /\
  snd (ro_audit (held_mem 4096 s') (taken 4096 s) (4 * ro_units (held_mem 4096 s') (taken 4096 s)) schema9) = Trouble.
Proof.
  exists before9, [ORemove 2050], (final (take before9) [ORemove 2050]).
  split; [apply v_worked, w_reached; now_reach|]. split; [apply calm_runb_ok; vm_compute; reflexivity|]. split; [vm_compute; reflexivity|].
  split; [apply run_final; vm_compute; reflexivity|]. vm_compute. repeat split; discriminate.
Qed.

(** ** A new index entry is written over the header *)
(** Whatever the tuple: a 16-bit number stored under a new identifier makes the view claim that
    number of units, and an index as long as the type and identifier of the field say. *)
Theorem C90_grown_refuted : forall multi s A desc x, viewed multi s -> real_desc desc -> is_inplaced_genus (descriptor2genus desc) = true ->
  lookup_gid s desc = None -> jc s = 0 -> 1 <= head_space s -> 0 <= x < 65536 ->
  exists s', run1 asis (take s) (OSet desc true (mkV false [x])) = Ok tt s' /\
    field s' (RL (cnt s)) = Some (desc, [x]) /\
    ro_units (held_mem A s') (taken A s) = x /\ ro_index (held_mem A s') (taken A s) = desc / 8 /\
    same_as A s' (taken A s) = false.
Proof.
  intros multi s A desc x V Hd Hi Lk J H Hx. destruct (viewed_inv multi s V) as [T U].
  destruct (inplaced_units _ Hi) as [I1 I2].
  assert (Rd : 0 <= desc < 65536) by (unfold real_desc in Hd; lia).
  assert (Nh : descriptor2genus desc <> g_hole) by apply Hd.
  cbn [run1]. rewrite I2. unfold assign_fixed. rewrite take_lookup, Lk. cbn [negb andb pay]. rewrite I1.
  unfold alloc_loose. cbn [Z.eqb]. unfold index_alloc. change (jc (take s)) with (jc s). rewrite J. cbn [Z.gtb Z.compare].
  change (head_space (take s)) with (head_space s). replace (head_space s <? 1) with false by lia. cbn [bind void]. rewrite (u16_id desc Rd).
  change (cnt (take s)) with (cnt s). unfold write_fixed. cbn [set_ent with_idx idx]. rewrite fupd_same. unfold egenus at 1. cbn [gid]. rewrite Hi. cbn [nth]. rewrite (u16_id x Hx).
  eexists. split; [reflexivity|].
  set (s' := set_ent _ (cnt s) (mkE x desc)). assert (E : idx s' (cnt s) = mkE x desc) by (unfold s', set_ent; cbn [idx with_idx]; apply fupd_same).
  assert (Ec : cnt s' = S (cnt s)) by reflexivity. assert (Ep : pivot s' = pivot s) by reflexivity.
  split. { unfold field. cbn [liveb]. rewrite E, Ec. replace (Nat.ltb (cnt s) (S (cnt s))) with true by (symmetry; apply Nat.ltb_lt; lia).
    unfold is_hole. cbn [gid]. replace (descriptor2genus desc =? g_hole) with false by lia. cbn [negb andb rdesc]. rewrite E. cbn [gid].
    unfold value. cbn [rgenus rrel]. unfold egenus. rewrite E. cbn [gid rel]. rewrite Hi. reflexivity. }
  unfold ro_units, ro_index, taken, asis_ptr, held_mem. replace (head s - 1) with (pivot s' - 1 - Z.of_nat (cnt s)) by (unfold head; lia).
  rewrite half_lo, half_hi, memory_entry, E. cbn [rel gid]. rewrite (u16_id x Hx), (u16_id desc Rd), Z.shiftr_div_pow2 by lia. change (2 ^ 3) with 8.
  split; [lia|]. split; [lia|]. unfold same_as, head. rewrite Ec, Ep. lia.
Qed.
Example C90_grown_case : viewed odd_multi (new_tuple 60 6) /\ real_desc (fd g_u16 2) /\ is_inplaced_genus (descriptor2genus (fd g_u16 2)) = true /\
  lookup_gid (new_tuple 60 6) (fd g_u16 2) = None /\ jc (new_tuple 60 6) = 0 /\ 1 <= head_space (new_tuple 60 6) /\ fd g_u16 2 / 8 = 1792.
Proof.
  split; [apply v_worked, w_reached; change (new_tuple 60 6) with (final (new_tuple 60 6) []); now_reach|].
  split; [apply real_descb_ok; vm_compute; reflexivity|]. vm_compute. repeat split; discriminate.
Qed.
(** The view is overwritten although the field is gone again: the tuple has the fields it had and says
    it is the same, but the view has no fields, no size, and an index of 7936 entries. *)
Theorem C90_equal_refuted : exists s l s', viewed odd_multi s /\ calm_run odd_multi (take s) l /\
  run asis (take s) l = Some (map (fun _ => true) l, s') /\
  map (fun k => field s' (RL k)) (seq 0 (cnt s')) = map (fun k => field s (RL k)) (seq 0 (cnt s)) /\
  same_as 4096 s' (taken 4096 s) = true /\
  ro_units (held_mem 4096 s') (taken 4096 s) = 0 /\ ro_index (held_mem 4096 s') (taken 4096 s) = 7936 /\
  ro_loose (held_mem 4096 s') (taken 4096 s) 0 <> as_u32 (field s' (RL 0)) /\
  snd (ro_audit (held_mem 4096 s') (taken 4096 s) (4 * ro_units (held_mem 4096 s') (taken 4096 s)) schema9) = Trouble.
Proof.
  exists before9, [OSet (fd g_u16 2) true (mkV false [9]); ORemove (fd g_u16 2)], (final (take before9) [OSet (fd g_u16 2) true (mkV false [9]); ORemove (fd g_u16 2)]).
  split; [apply v_worked, w_reached; now_reach|]. split; [apply calm_runb_ok; vm_compute; reflexivity|].
  split; [apply run_final; vm_compute; reflexivity|]. vm_compute. repeat split; discriminate.
Qed.

(** ** Comparison of handles *)
(** The two ways to ask agree, the sides may be exchanged, and a modifiable tuple equals the view
    just taken of it and no view of another address. *)
Theorem C90_handles : 
  (forall x y, differ x y = option_map negb (equal x y)) /\ (forall x y, equal x y = equal y x) /\
  (forall x, equal x x = Some true) /\
  (forall A s p, equal (Fixed (Some (A, s))) (Weak p) = Some true <-> p = taken A s) /\
  (forall A s t p q, equal (Fixed (Some (A, s))) p = Some true -> equal (Fixed (Some (A, t))) q = Some true -> pointer p <> None -> pointer q <> None ->
     (equal p q = Some true <-> head s = head t)).
Proof.
  split; [intros [p|p|[[A s]|]] [q|q|[[B t]|]]; reflexivity|].
  split; [intros [p|p|[[A s]|]] [q|q|[[B t]|]]; cbn [equal]; try reflexivity; f_equal; lia|].
  split; [intros [p|p|[[A s]|]]; cbn [equal]; f_equal; lia|].
  split.
  - intros A s p. cbn [equal]. unfold same_as, taken, asis_ptr. split; intros H; [|f_equal; lia]. assert (E : (p =? A + 4 * (head s - 1)) = true) by congruence. lia.
  - intros A s t p q. destruct p as [p|p|[[B1 t1]|]]; cbn [pointer]; try congruence; destruct q as [q|q|[[B2 t2]|]]; cbn [pointer]; try congruence;
      cbn [equal]; unfold same_as; intros H1 H2 _ _; (assert (E1 : (p =? A + 4 * (head s - 1)) = true) by congruence; assert (E2 : (q =? A + 4 * (head t - 1)) = true) by congruence);
      (split; [intros H; assert (E3 : (p =? q) = true) by congruence; lia|intros H; f_equal; lia]).
Qed.
(** Comparing a tuple that was moved from with any view goes through a null pointer, whichever side
    it is on, and nothing else does. *)
Theorem C90_moved_refuted : forall x y, equal x y = None <-> ((x = Fixed None /\ pointer y <> None) \/ (y = Fixed None /\ pointer x <> None)).
Proof.
  intros [p|p|[[A s]|]] [q|q|[[B t]|]]; cbn [equal pointer]; (split; [try discriminate; intros _; ((left; split; congruence) || (right; split; congruence))|intros [[H1 H2]|[H1 H2]]; congruence]).
Qed.
Example C90_handles_case : equal (Fixed (Some (4096, take before9))) (Weak (taken 4096 before9)) = Some true /\ taken 4096 before9 = 4100 /\
  equal (Fixed (Some (4096, before9))) (Weak 0) = Some false /\ equal (Weak 0) (Managed 0) = Some true /\ equal (Fixed None) (Weak 0) = None.
Proof. vm_compute. repeat split. Qed.

Print Assumptions C90_take.
Print Assumptions C90_take_silent.
Print Assumptions C90_survives_partial.
Print Assumptions C90_valid_partial.
Print Assumptions C90_size_refuted.
Print Assumptions C90_grown_refuted.
Print Assumptions C90_equal_refuted.
Print Assumptions C90_handles.
Print Assumptions C90_moved_refuted.
