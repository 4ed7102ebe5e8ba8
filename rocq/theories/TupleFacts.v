(** * TupleFacts: consequences of the tuple invariant (proofs). *)
From Verif Require Import Base Tag TagProofs Codec Gear GearBase GearSearch GearProofs GearMerge GearAlloc
  GearRealloc GearResize GearAsis Tuple TupleMore TupleProofs TupleSteps TupleView TupleOps TupleHist.
From Coq Require Import ZifyBool ZifyNat Permutation.
Ltac Zify.zify_post_hook ::= Z.div_mod_to_equations.

(** ** Only the addressed field changes *)
Definition addressed (s : st) (o : op) (r : ref) : Prop :=
  match o with
  | OSet desc _ _ | ORemove desc => exists k, lookup_gid s desc = Some k /\ r = RL k
  | OAppend _ _ _ => False
  | OEraseAll desc => exists k, r = RL k /\ gid (idx s k) = desc
  | OErase k => r = RL k
  | OSlot j _ _ | OSlotDel j => r = RP j
  end.
Definition creates (o : op) (x : Z * list Z) : Prop :=
  match o with
  | OSet desc _ v | OAppend desc _ v => x = (desc, pay v)
  | _ => False
  end.
Definition framed (s s' : st) (o : op) : Prop :=
  (forall r x, field s r = Some x -> ~ addressed s o r -> field s' r = Some x) /\
  (forall r x, field s r = None -> field s' r = Some x -> creates o x) /\
  (forall r1 r2, field s r1 = None -> field s r2 = None -> field s' r1 <> None -> field s' r2 <> None -> r1 = r2).

Lemma framed_refl s o : framed s s o.
Proof. repeat split; intros; congruence. Qed.

Lemma framed_effect s s' r o c : effect s s' r c ->
  (field s r <> None -> addressed s o r) ->
  (field s r = None -> match c with Some x => creates o x | None => True end) ->
  framed s s' o.
Proof.
  intros E Ha Hc. repeat split.
  - intros r' x F N. rewrite (e_frame _ _ _ _ E); [exact F|]. intros ->. apply N. apply Ha. congruence.
  - intros r' x F F'. destruct (ref_eq_dec r' r) as [->|N].
    + rewrite (e_field _ _ _ _ E) in F'. specialize (Hc F). rewrite F' in Hc. exact Hc.
    + rewrite (e_frame _ _ _ _ E) in F' by assumption. congruence.
  - intros r1 r2 F1 F2 G1 G2.
    assert (X : forall q, field s q = None -> field s' q <> None -> q = r).
    { intros q F G. destruct (ref_eq_dec q r) as [->|N]; [reflexivity|].
      rewrite (e_frame _ _ _ _ E) in G by assumption. congruence. }
    rewrite (X r1), (X r2); auto.
Qed.

Lemma slot_live s j : (j < nslots s)%nat -> field s (RP j) <> None.
Proof. intros H. rewrite field_live by exact H. discriminate. Qed.
Lemma lookup_field s desc k : real_desc desc -> lookup_gid s desc = Some k -> field s (RL k) <> None.
Proof. intros Hd H. destruct (lookup_some _ _ _ Hd H) as [Hl _]. rewrite field_live by assumption. discriminate. Qed.

Lemma step_framed multi s o s' : TInv s -> valid multi s o -> calm s o = true ->
  run1 asis s o = Ok tt s' -> framed s s' o.
Proof.
  intros T V C R. destruct o as [desc disc v|desc|desc disc v|desc|k|j disc v|j]; cbn [valid] in V.
  - destruct V as (Hd & _ & Hw). pose proof (set_step s desc disc v T Hd Hw C) as Q. rewrite R in Q.
    destruct Q as [_ E].
    inversion E as [St Lk E0|k s0 St Lk Nl Ef E0|k s0 St Lk Ef E0|k s0 St Lk Ef E0|k s0 St Lk Fx Ef E0]; subst.
    + apply framed_refl.
    + eapply framed_effect; [exact Ef| |reflexivity]. rewrite field_dead by assumption. congruence.
    + eapply framed_effect; [exact Ef|exists k; auto|]. intros X. destruct (lookup_field _ _ _ Hd Lk X).
    + eapply framed_effect; [exact Ef|exists k; auto|]. intros X. destruct (lookup_field _ _ _ Hd Lk X).
    + eapply framed_effect; [exact Ef|exists k; auto|]. intros X. destruct (lookup_field _ _ _ Hd Lk X).
  - destruct V as (Hd & _). cbn [run1 calm] in *. destruct (lookup_gid s desc) as [k|] eqn:Lk.
    + destruct (lookup_some _ _ _ Hd Lk) as [Hl Hg]. unfold calm_free in C.
      destruct (erase_loose_spec s k T Hl ltac:(apply Bool.negb_true_iff; assumption)) as (s1 & E & _ & Ef & _). rewrite R in E. injection E as <-.
      eapply framed_effect; [exact Ef|exists k; auto|intros; exact I].
    + injection R as <-. apply framed_refl.
  - destruct V as (Hd & _ & Hw). cbn [run1] in R.
    pose proof (append_step s desc disc v T Hd Hw C) as Q.
    destruct (append_loose asis s desc disc v) as [[k|] s1|s1|]; cbn [void bind] in R; try discriminate; injection R as <-.
    + destruct Q as (_ & _ & Nl & Ef). eapply framed_effect; [exact Ef| |reflexivity].
      rewrite field_dead by assumption. congruence.
    + destruct Q as (_ & ->). apply framed_refl.
  - destruct V as (Hd & _). cbn [run1 calm] in *. unfold erase_all in R.
    destruct (lookup_gid s desc) as [k|] eqn:Lk; [|injection R as <-; apply framed_refl].
    destruct (lookup_some _ _ _ Hd Lk) as [Hl Hg].
    destruct (erase_all_from_step desc Hd (S k) s T) as (s1 & E & T' & F & Ns & Pl); [| |exact C|].
    { intros i Hi [A B]. pose proof (scan_down_spec (fun e => gid e =? desc) (idx s) (cnt s)) as Sp.
      unfold lookup_gid in Lk. rewrite Lk in Sp. destruct Sp as (_ & _ & Sp). specialize (Sp i ltac:(lia)). cbv beta in Sp. lia. }
    { intros i Hi. destruct (is_hole (idx s i)) eqn:Eh; [right; reflexivity|left].
      destruct Hl as [Kk _]. split; [lia|exact Eh]. }
    rewrite R in E. injection E as <-. repeat split.
    + intros r x Fr Na. rewrite F, Fr. destruct x as [d p]. destruct r as [i|j]; [|reflexivity].
      destruct (d =? desc) eqn:Ed; [exfalso|reflexivity]. apply Na. exists i. split; [reflexivity|].
      unfold field in Fr. destruct (liveb s (RL i)); [|discriminate]. cbn [rdesc] in Fr. injection Fr as -> _. lia.
    + intros r x Fr Fr'. rewrite F, Fr in Fr'. discriminate.
    + intros r1 r2 F1 F2 G1 _. rewrite F, F1 in G1. congruence.
  - destruct V as (Hl & _). cbn [run1 calm] in *. unfold calm_free in C.
    destruct (erase_loose_spec s k T Hl ltac:(apply Bool.negb_true_iff; assumption)) as (s1 & E & _ & Ef & _). rewrite R in E. injection E as <-.
    eapply framed_effect; [exact Ef|reflexivity|intros; exact I].
  - destruct V as (Hj & Hw). cbn [run1 calm] in *.
    pose proof (assign_ref_step s (RP j) disc v T Hj eq_refl Hw C) as Q. rewrite R in Q. destruct Q as [_ Ef].
    eapply framed_effect; [exact Ef|reflexivity|]. intros X. destruct (slot_live s j Hj X).
  - cbn [run1 calm] in *. rewrite (erase_slot_assign asis s j T V) in R.
    pose proof (assign_ref_step s (RP j) false (mkV true []) T V eq_refl) as Q. rewrite R in Q.
    destruct Q as [_ Ef]; [split; cbn; [lia|congruence]|exact C|].
    eapply framed_effect; [exact Ef|reflexivity|]. intros X. destruct (slot_live s j V X).
Qed.

(** ** Accounting *)
Definition live_len (s : st) (k : nat) : Z := if is_hole (idx s k) then 0 else plen s (RL k).
Definition live_one (s : st) (k : nat) : Z := if is_hole (idx s k) then 0 else 1.

Lemma accounting s : TInv s ->
  jc s = sumn (cnt s) (hcount s) /\ jv s = sumn (cnt s) (hvol s) /\
  sumn (cnt s) (live_len s) + sumn (nslots s) (fun j => plen s (RP j)) + jv s + tail_space s =
    end_ s - pivot s - pp s /\
  sumn (cnt s) (live_one s) + jc s + head_space s = pivot s /\
  0 <= tail_space s /\ 0 <= head_space s.
Proof.
  intros T. pose proof (v_acc _ _ (t_inv _ T)) as A. pose proof (i_cfg _ _ _ _ _ _ A) as [c1 c2 c3 c4 c6].
  pose proof (i_jc _ _ _ _ _ _ A) as J1. pose proof (i_jv _ _ _ _ _ _ A) as J2.
  pose proof (i_tot _ _ _ _ _ _ A) as Tt. unfold total in Tt.
  assert (S1 : sumn (cnt s) (len s (plen s)) = sumn (cnt s) (live_len s) + sumn (cnt s) (hvol s)).
  { rewrite <- sumn_split. apply sumn_ext. intros k _. unfold len, live_len, hvol. destruct (is_hole _); lia. }
  assert (S2 : sumn (cnt s) (live_one s) + sumn (cnt s) (hcount s) = Z.of_nat (cnt s)).
  { rewrite <- sumn_split. generalize (cnt s) as n. induction n as [|n IH]; [reflexivity|]. cbn [sumn]. rewrite IH.
    unfold live_one, hcount. destruct (is_hole _); cbn; lia. }
  unfold tail_space, head_space, base in *. repeat split; lia.
Qed.

(** the topmost unit of the data belongs to a live field *)
Lemma top_live s : TInv s -> base s < tail s -> exists r, live s r /\ 0 < plen s r.
Proof.
  intros T H. pose proof (v_acc _ _ (t_inv _ T)) as A.
  pose proof (i_cov _ _ _ _ _ _ A (tail s - 1)) as Cv. unfold zero_d in Cv.
  rewrite ind_1 in Cv by lia. unfold cov in Cv.
  assert (N1 : forall f g n x, (forall k, (k < n)%nat -> 0 <= ind (f k) (g k) x))
    by (intros; apply ind_range).
  destruct (Z_le_gt_dec (sumn (nslots s) (fun j => ind (raddr s (RP j)) (plen s (RP j)) (tail s - 1))) 0) as [Le|Gt].
  - assert (P : 0 < sumn (cnt s) (fun k => ind (addr s k) (len s (plen s) k) (tail s - 1))) by lia.
    apply sumn_pos in P; [|intros; apply ind_range]. destruct P as (k & Hk & P). apply ind_1_inv in P.
    unfold len in P. destruct (is_hole (idx s k)) eqn:Eh.
    + exfalso. assert (Nz : nzh s k) by (repeat split; [assumption|assumption|lia]).
      apply (v_notail _ _ (t_inv _ T) k Nz). unfold hole_end.
      pose proof (entry_bounds s (plen s) A k Hk) as B. unfold len in B. rewrite Eh in B. lia.
    + exists (RL k). split; [split; assumption|]. lia.
  - apply Z.gt_lt, sumn_pos in Gt; [|intros; apply ind_range]. destruct Gt as (j & Hj & P). apply ind_1_inv in P.
    exists (RP j). split; [exact Hj|]. lia.
Qed.

Lemma sum_one_zero s : sumn (cnt s) (live_one s) = 0 <-> forall k, ~ live s (RL k).
Proof.
  assert (N : forall k, 0 <= live_one s k) by (intros k; unfold live_one; destruct (is_hole _); lia).
  split.
  - intros H k [Hk Eh]. pose proof (sumn_ge1 (cnt s) (live_one s) k Hk ltac:(auto)) as G.
    unfold live_one at 1 in G. rewrite Eh in G. lia.
  - intros H. apply sumn_zero. intros k Hk. unfold live_one. destruct (is_hole (idx s k)) eqn:Eh; [reflexivity|].
    destruct (H k). split; assumption.
Qed.

(** [empty()] of a tuple without preplaced part *)
Lemma empty_iff s : TInv s -> pp s = 0 -> (tuple_empty s = true <-> forall k, ~ live s (RL k)).
Proof.
  intros T Hp. destruct (accounting s T) as (_ & _ & _ & A & _).
  pose proof (v_acc _ _ (t_inv _ T)) as I. pose proof (i_cfg _ _ _ _ _ _ I) as [c1 c2 c3 c4 c6].
  pose proof (sumn_nonneg (cnt s) (live_one s)) as P.
  assert (P1 : 0 <= sumn (cnt s) (live_one s)).
  { apply P. intros k _. unfold live_one. destruct (is_hole _); lia. }
  unfold tuple_empty, head_, head_space, base in *. rewrite <- sum_one_zero. split.
  - intros E. lia.
  - intros E. destruct (Z.eq_dec (tail s) (pivot s)) as [|N]; [lia|exfalso].
    destruct (top_live s T) as (r & Hr & _); [unfold base; lia|].
    rewrite sum_one_zero in E. destruct r as [k|j]; [apply (E k Hr)|].
    pose proof (c6 j Hr). lia.
Qed.

(** number of fields *)
Lemma count_live s : TInv s -> loose_count s = sumn (cnt s) (live_one s).
Proof. intros T. destruct (accounting s T) as (_ & _ & _ & A & _). unfold loose_count, index_size, head_, head_space in *. lia. Qed.

(** ** Where payloads are *)
Lemma placement s : TInv s ->
  (forall r, live s r -> 0 < plen s r -> pivot s + pp s <= raddr s r /\ raddr s r + plen s r <= tail s /\ tail s <= end_ s) /\
  (forall r r' x, live s r -> live s r' -> r <> r' ->
     raddr s r <= x < raddr s r + plen s r -> raddr s r' <= x < raddr s r' + plen s r' -> False).
Proof.
  intros T. pose proof (v_acc _ _ (t_inv _ T)) as A. pose proof (i_cfg _ _ _ _ _ _ A) as [c1 c2 c3 c4 c6]. split.
  - intros r Hr Hp. pose proof (live_bounds s (plen s) A r Hr Hp). unfold base in *. lia.
  - apply (live_disjoint s (plen s) A).
Qed.

(** ** Junk-free tuples are calm *)
Lemma nojunk_calm_new s u : jv s = 0 -> 0 <= u -> calm_new s u = true.
Proof. intros H Hu. unfold calm_new. rewrite split_slip_nojunk by assumption. reflexivity. Qed.

(** ** Clearing *)
Lemma reset_fresh s s' : reset s = Some s' ->
  cnt s' = 0%nat /\ tail s' = pivot s + pp s /\ jc s' = 0 /\ jv s' = 0 /\ (forall j, pre s' j = 0) /\
  pivot s' = pivot s /\ end_ s' = end_ s /\ pp s' = pp s /\ nslots s' = nslots s /\ soff s' = soff s /\ stype s' = stype s.
Proof.
  unfold reset. destruct (_ || _); [discriminate|]. destruct (_ >? _); [discriminate|]. intros [= <-].
  repeat split.
Qed.

Lemma reset_inv s s' : TInv s -> reset s = Some s' -> TInv s'.
Proof.
  intros T E. pose proof (v_acc _ _ (t_inv _ T)) as A. pose proof (i_cfg _ _ _ _ _ _ A) as [c1 c2 c3 c4 c6].
  unfold reset in E. destruct (_ || _); [discriminate|]. destruct (_ >? _); [discriminate|].
  assert (E' : mkS (idx s) 0 (fun _ => 0) (dat s) (pivot s + pp s) 0 0 (pivot s) (end_ s) (pp s)
               (nslots s) (soff s) (stype s) = s') by congruence. clear E. subst s'.
  set (s' := mkS _ _ _ _ _ _ _ _ _ _ _ _ _).
  assert (Pl : forall j, plen s' (RP j) = 0) by (intros j; reflexivity).
  assert (Z0 : forall n f, (forall j, f j = 0) -> sumn n f = 0) by (intros; apply sumn_zero; auto).
  unfold base in *. constructor.
  - constructor.
    + constructor; unfold s', base; cbn [pivot pp tail end_ cnt nslots soff idx pre jc jv]; try lia; auto.
      * constructor; unfold base; cbn [pivot pp tail end_ cnt nslots soff]; auto; lia.
      * intros x. unfold cov. cbn [cnt sumn nslots]. rewrite Z0; [unfold ind, zero_d; lia|].
        intros j. apply ind_0. exact (Z.le_refl 0).
      * intros [k|j]; [|exact (Z.le_refl 0)]. exact (i_len _ _ _ _ _ _ A (RL k)).
      * unfold total. cbn [cnt sumn nslots]. rewrite Z0; [lia|]. exact Pl.
    + intros k k' Hk. destruct Hk as [Hk _]. cbn in Hk. lia.
    + intros k Hk. destruct Hk as [Hk _]. cbn in Hk. lia.
  - intros [k|j] Hl Hs Hr; [destruct Hl as [Hk _]; cbn in Hk; lia|]. cbn in Hr. lia.
  - exact (t_slot _ T).
Qed.
Lemma reset_spec s s' : TInv s -> reset s = Some s' ->
  TInv s' /\ (forall desc, get_loose s' desc = None) /\ (forall j, get_slot s' j = None) /\
  tail_space s' = end_ s - pivot s - pp s /\ head_space s' = pivot s /\ junk_units s' = 0 /\ end_ s' = end_ s.
Proof.
  intros T E. split; [exact (reset_inv s s' T E)|].
  destruct (reset_fresh s s' E) as (e1 & e2 & e3 & e4 & e5 & e6 & e7 & e8 & e9 & e10 & e11).
  split; [intros desc; unfold get_loose, lookup_gid; rewrite e1; reflexivity|].
  split; [intros j; unfold get_slot; rewrite e5; reflexivity|].
  unfold tail_space, head_space, junk_units. rewrite e1, e2, e3, e4, e6, e7. repeat split; lia.
Qed.
Lemma reset_ok s : TInv s -> 1 <= pivot s <= max_fields -> reset s <> None.
Proof.
  intros T H. pose proof (v_acc _ _ (t_inv _ T)) as A. pose proof (i_cfg _ _ _ _ _ _ A) as [c1 c2 c3 c4 c6].
  unfold reset, base, u32 in *. 
  replace (_ || _) with false by (symmetry; unfold max_fields in *; lia).
  rewrite Z.mod_small by lia. replace (pp s >? end_ s - pivot s) with false by lia. discriminate.
Qed.

(** ** Failing inserts *)
Lemma index_alloc_throw s s' : index_alloc s = Throw s' -> s' = s.
Proof.
  unfold index_alloc. destruct (if jc s >? 0 then _ else _); [discriminate|]. destruct (head_space s <? 1); congruence.
Qed.
Lemma alloc_loose_throw q s tag u s' : alloc_loose q s tag u = Throw s' -> s' = s.
Proof.
  unfold alloc_loose. destruct (u =? 0).
  - destruct (index_alloc s) eqn:E; cbn [bind]; try discriminate. intros [= <-]. exact (index_alloc_throw _ _ E).
  - destruct (lookup_fit s u) as [[h|]|]; [| |discriminate].
    + cbv zeta. destruct (_ =? 0); [discriminate|]. destruct (index_alloc s) eqn:E; cbn [bind]; try discriminate.
      intros [= <-]. exact (index_alloc_throw _ _ E).
    + destruct (tail_space s <? u); [congruence|]. destruct (index_alloc s) eqn:E; cbn [bind]; try discriminate.
      intros [= <-]. exact (index_alloc_throw _ _ E).
Qed.
Lemma failed_insert_noop s desc disc v s' : lookup_gid s desc = None ->
  run1 asis s (OSet desc disc v) = Throw s' \/ run1 asis s (OAppend desc disc v) = Throw s' -> s' = s.
Proof.
  intros L. cbn [run1]. unfold assign_fixed, assign_stretchy, append_loose. rewrite L. cbv zeta.
  intros [H|H].
  - destruct (fixed_genus _).
    + destruct (_ && _); [discriminate|]. destruct (alloc_loose _ _ _ _) eqn:E; cbn [void bind] in H; try discriminate.
      injection H as <-. exact (alloc_loose_throw _ _ _ _ _ E).
    + destruct (_ =? 0); [discriminate|]. destruct (alloc_loose _ _ _ _) eqn:E; cbn [void bind] in H; try discriminate.
      injection H as <-. exact (alloc_loose_throw _ _ _ _ _ E).
  - destruct (_ && _); [discriminate|]. destruct (fixed_genus _).
    + destruct (alloc_loose _ _ _ _) eqn:E; cbn [void bind] in H; try discriminate.
      injection H as <-. exact (alloc_loose_throw _ _ _ _ _ E).
    + destruct (alloc_loose _ _ _ _) eqn:E; cbn [void bind] in H; try discriminate.
      injection H as <-. exact (alloc_loose_throw _ _ _ _ _ E).
Qed.

(** ** Succeeding inserts *)
Lemma insert_succeeds multi s desc disc v : TInv s -> valid multi s (OSet desc disc v) ->
  calm s (OSet desc disc v) = true -> lookup_gid s desc = None ->
  (new_units desc v <= tail_space s /\ 1 <= head_space s) \/
  (exists k, nzh s k /\ hunits (idx s k) = new_units desc v) ->
  exists s', run1 asis s (OSet desc disc v) = Ok tt s'.
Proof.
  intros T (Hd & _ & Hw) C L H. pose proof (set_step s desc disc v T Hd Hw C) as Q.
  destruct (run1 asis s (OSet desc disc v)) as [[] s'|s'|]; [eauto| |contradiction].
  exfalso. destruct Q as [_ Q]. unfold set_fails in Q. rewrite L in Q. destruct Q as [(A & B & D)|(A & B)].
  - destruct H as [[H _]|(k & Hk & Hu)]; [lia|]. specialize (D k Hk). lia.
  - destruct H as [[_ H]|(k & Hk & Hu)].
    + destruct A as [A _]. unfold head_space in *. lia.
    + pose proof (B k Hk) as Bk. destruct Hk as (_ & _ & Hp). lia.
Qed.

(** ** Writes stay inside the written field *)
Lemma trim_from_dat n : forall s, dat (trim_from n s) = dat s.
Proof.
  induction n as [|n IH]; intros s; [reflexivity|]. cbn [trim_from]. cbv zeta.
  destruct n as [|p]; [reflexivity|]. destruct (negb (is_hole _)); [reflexivity|].
  destruct (_ =? 0); [rewrite IH; reflexivity|]. destruct (negb _); [reflexivity|]. rewrite IH. reflexivity.
Qed.
Lemma purge_trim_dat s k : dat (purge_trim s k) = dat s.
Proof. unfold purge_trim, trim_hole. cbv zeta. destruct (is_begin _ _); [rewrite trim_from_dat|]; reflexivity. Qed.
Lemma merge_holes_dat s f g : dat (snd (merge_holes s f g)) = dat s.
Proof.
  unfold merge_holes. cbv zeta. destruct (negb _); cbn [snd].
  - rewrite purge_trim_dat. reflexivity.
  - unfold trim_hole. rewrite trim_from_dat. reflexivity.
Qed.
Lemma release_loose_dat s k u s' : release_loose s k u = Ok tt s' -> dat s' = dat s.
Proof.
  unfold release_loose. cbv zeta. destruct (u =? 0).
  - intros [= <-]. rewrite purge_trim_dat. reflexivity.
  - set (s1 := with_jv _ _). assert (E1 : dat s1 = dat s) by reflexivity. clearbody s1.
    destruct (lookup_adjacent s1 _ _) as [[bf af]|]; [|discriminate].
    assert (X : exists k1 s2, (match bf with Some b => merge_holes s1 b k | None => (k, s1) end) = (k1, s2) /\ dat s2 = dat s).
    { destruct bf as [b|]; [|exists k, s1; auto]. pose proof (merge_holes_dat s1 b k) as M.
      destruct (merge_holes s1 b k) as [k1 s2]. exists k1, s2. cbn [snd] in M. split; congruence. }
    destruct X as (k1 & s2 & -> & E2).
    assert (X : exists k2 s3, (match af with Some b => merge_holes s2 k1 b | None => (k1, s2) end) = (k2, s3) /\ dat s3 = dat s).
    { destruct af as [b|]; [|exists k1, s2; auto]. pose proof (merge_holes_dat s2 k1 b) as M.
      destruct (merge_holes s2 k1 b) as [k2 s3]. exists k2, s3. cbn [snd] in M. split; congruence. }
    destruct X as (k2 & s3 & -> & E3).
    destruct (negb _); intros [= <-]; [exact E3|]. rewrite purge_trim_dat. exact E3.
Qed.
Lemma erase_all_from_dat desc n : forall s s', erase_all_from s desc n = Ok tt s' -> dat s' = dat s.
Proof.
  induction n as [|n IH]; intros s s'; cbn [erase_all_from]; [congruence|].
  destruct (gid (idx s n) =? desc); [|apply IH].
  destruct (erase_loose s n) as [[] s1|s1|] eqn:E; cbn [bind]; try discriminate. intros H.
  rewrite (IH _ _ H). exact (release_loose_dat _ _ _ _ E).
Qed.

Lemma effect_inside s s' r c x : TInv s' -> effect s s' r c -> dat s' x <> dat s x ->
  exists r, live s' r /\ raddr s' r <= x < raddr s' r + plen s' r /\
            pivot s' + pp s' <= x < tail s' /\ tail s' <= end_ s'.
Proof.
  intros T E N. exists r.
  assert (D : live s' r /\ raddr s' r <= x < raddr s' r + plen s' r).
  { destruct (liveb s' r) eqn:Eb.
    - apply liveb_iff in Eb.
      destruct (Z_le_gt_dec (raddr s' r) x); [destruct (Z_lt_ge_dec x (raddr s' r + plen s' r))|]; auto;
        exfalso; apply N; apply (e_dat _ _ _ _ E); intros [_ ?]; lia.
    - exfalso. apply N. apply (e_dat _ _ _ _ E). intros [X _]. apply liveb_iff in X. congruence. }
  destruct D as [Hl Hx]. destruct (placement s' T) as [P _]. specialize (P r Hl ltac:(lia)).
  repeat split; auto; lia.
Qed.

Lemma writes_inside multi s o s' x : TInv s -> uniq multi s -> valid multi s o -> calm s o = true ->
  run1 asis s o = Ok tt s' -> dat s' x <> dat s x ->
  exists r, live s' r /\ raddr s' r <= x < raddr s' r + plen s' r /\
            pivot s' + pp s' <= x < tail s' /\ tail s' <= end_ s'.
Proof.
  intros T U V C R N. destruct o as [desc disc v|desc|desc disc v|desc|k|j disc v|j]; cbn [valid] in V.
  - destruct V as (Hd & _ & Hw). pose proof (set_step s desc disc v T Hd Hw C) as Q. rewrite R in Q.
    destruct Q as [T' E].
    inversion E as [St Lk E0|k s0 St Lk Nl Ef E0|k s0 St Lk Ef E0|k s0 St Lk Ef E0|k s0 St Lk Fx Ef E0]; subst;
      try congruence; exact (effect_inside _ _ _ _ _ T' Ef N).
  - destruct V as (Hd & _). cbn [run1 calm] in *. destruct (lookup_gid s desc) as [k|] eqn:Lk; [|congruence].
    destruct N. rewrite (release_loose_dat _ _ _ _ R). reflexivity.
  - destruct V as (Hd & _ & Hw). cbn [run1] in R.
    pose proof (append_step s desc disc v T Hd Hw C) as Q.
    destruct (append_loose asis s desc disc v) as [[k|] s1|s1|]; cbn [void bind] in R; try discriminate; injection R as <-.
    + destruct Q as (_ & T' & Nl & Ef). exact (effect_inside _ _ _ _ _ T' Ef N).
    + destruct Q as (_ & ->). congruence.
  - cbn [run1] in R. unfold erase_all in R. destruct (lookup_gid s desc) as [k|]; [|congruence].
    destruct N. rewrite (erase_all_from_dat _ _ _ _ R). reflexivity.
  - cbn [run1] in R. destruct N. rewrite (release_loose_dat _ _ _ _ R). reflexivity.
  - destruct V as (Hj & Hw). cbn [run1 calm] in *.
    pose proof (assign_ref_step s (RP j) disc v T Hj eq_refl Hw C) as Q. rewrite R in Q. destruct Q as [T' Ef].
    exact (effect_inside _ _ _ _ _ T' Ef N).
  - cbn [run1 calm] in *. rewrite (erase_slot_assign asis s j T V) in R.
    pose proof (assign_ref_step s (RP j) false (mkV true []) T V eq_refl) as Q. rewrite R in Q.
    destruct Q as [T' Ef]; [split; cbn; [lia|congruence]|exact C|].
    exact (effect_inside _ _ _ _ _ T' Ef N).
Qed.

(** ** Empty values *)
Lemma empty_removes desc v : v_empty v = true -> wrote (KL desc) (OSet desc false v) = Some None.
Proof.
  intros E. cbn [wrote key_eqb]. rewrite Z.eqb_refl. unfold stores, needed. rewrite E. cbn [negb andb orb].
  destruct (fixed_genus _); reflexivity.
Qed.
Lemma nonempty_stored desc disc v : v_empty v = false -> pay v <> [] ->
  wrote (KL desc) (OSet desc disc v) = Some (Some (pay v)).
Proof.
  intros E N. cbn [wrote key_eqb]. rewrite Z.eqb_refl. unfold stores, needed. rewrite E, Bool.andb_false_r, Bool.orb_true_r.
  destruct (fixed_genus _); [reflexivity|]. destruct (pay v); [congruence|]. reflexivity.
Qed.
Lemma empty_stored desc v : pay v <> [] -> wrote (KL desc) (OSet desc true v) = Some (Some (pay v)).
Proof.
  intros N. cbn [wrote key_eqb]. rewrite Z.eqb_refl. unfold stores, needed. cbn [negb andb orb].
  destruct (fixed_genus _); [reflexivity|]. destruct (pay v); [congruence|]. reflexivity.
Qed.

(** ** Preplaced fields of fixed size *)
Lemma pread_length m off n : length (pread m off n) = Z.to_nat n.
Proof. unfold pread. rewrite map_length, seq_length. reflexivity. Qed.
Lemma pread_nth m off n i d : (i < Z.to_nat n)%nat -> nth i (pread m off n) d = m (off + Z.of_nat i).
Proof.
  intros H. unfold pread. rewrite (nth_indep _ d (m (off + Z.of_nat 0))) by (rewrite map_length, seq_length; exact H).
  change (m (off + Z.of_nat 0)) with ((fun i => m (off + Z.of_nat i)) 0%nat). rewrite map_nth, seq_nth by exact H. reflexivity.
Qed.
Lemma pread_pwrite m off v n : (Z.to_nat n <= length v)%nat -> pread (pwrite m off v) off n = firstn (Z.to_nat n) v.
Proof.
  intros H. apply nth_ext with (d := 0) (d' := 0).
  - rewrite pread_length, firstn_length. lia.
  - intros i Hi. rewrite pread_length in Hi. rewrite pread_nth by exact Hi. unfold pwrite.
    replace ((off <=? off + Z.of_nat i) && (off + Z.of_nat i <? off + Z.of_nat (length v))) with true by lia.
    replace (Z.to_nat (off + Z.of_nat i - off)) with i by lia.
    rewrite <- (firstn_skipn (Z.to_nat n) v) at 1. apply app_nth1. rewrite firstn_length. lia.
Qed.
Lemma pread_pwrite_all m off v n : length v = Z.to_nat n -> pread (pwrite m off v) off n = v.
Proof. intros H. rewrite pread_pwrite by lia. rewrite <- H. apply firstn_all. Qed.
Lemma pread_pwrite_out m off v off' n : (off' + n <= off \/ off + Z.of_nat (length v) <= off') ->
  pread (pwrite m off v) off' n = pread m off' n.
Proof.
  intros H. unfold pread. apply map_ext_in. intros i Hi. apply in_seq in Hi. unfold pwrite.
  replace ((off <=? off' + Z.of_nat i) && (off' + Z.of_nat i <? off + Z.of_nat (length v))) with false; [reflexivity|].
  symmetry. lia.
Qed.
Lemma genus_cases g (P : Z -> Prop) : Forall P (map Z.of_nat (seq 4 27)) -> 4 <= g <= 30 -> P g.
Proof.
  intros F H. rewrite Forall_forall in F. apply F. apply in_map_iff. exists (Z.to_nat g). split; [lia|].
  apply in_seq. lia.
Qed.
Lemma denil_len_le g : 4 <= g <= 30 -> (Z.to_nat (denil_len g) <= Z.to_nat (preplaced_bytes g))%nat.
Proof.
  intros H. apply (genus_cases g (fun g => (Z.to_nat (denil_len g) <= Z.to_nat (preplaced_bytes g))%nat)); [|exact H].
  apply Forall_forall. intros x Hx. apply Nat.leb_le. revert x Hx. apply Forall_forall.
  vm_compute. repeat constructor.
Qed.
Definition erased (g : Z) : list Z := if negb (g =? g_ipnet) then denil g else repeat 0 (Z.to_nat (preplaced_bytes g)).
Lemma erased_ok g : 4 <= g <= 30 -> length (erased g) = Z.to_nat (preplaced_bytes g) /\
  firstn (Z.to_nat (denil_len g)) (erased g) = denil g.
Proof.
  intros H. apply (genus_cases g (fun g => length (erased g) = Z.to_nat (preplaced_bytes g) /\
    firstn (Z.to_nat (denil_len g)) (erased g) = denil g)); [|exact H].
  vm_compute. repeat constructor.
Qed.
Lemma fixed_preplaced_table g m off v m' : 4 <= g <= 30 -> length v = Z.to_nat (preplaced_bytes g) ->
  (forall disc, fixed_set g disc m off v = Some m' ->
     fixed_get g false m' off = RVal v /\
     fixed_get g true m' off = if list_eq_dec Z.eq_dec (firstn (Z.to_nat (denil_len g)) v) (denil g) then RAbsent else RVal v) /\
  fixed_get g true (fixed_erase g true m off) off = RAbsent /\
  fixed_get g false (fixed_erase g false m off) off = RVal (repeat 0 (Z.to_nat (preplaced_bytes g))).
Proof.
  intros Hg Hv. pose proof (denil_len_le g Hg) as Hl. destruct (erased_ok g Hg) as [E1 E2]. split; [|split].
  - intros disc E. assert (m' = pwrite m off v) as ->. { unfold fixed_set in E. destruct disc; cbn in E; congruence. }
    unfold fixed_get, is_denil. cbn [andb]. rewrite pread_pwrite_all by exact Hv. split; [reflexivity|].
    rewrite pread_pwrite by lia. destruct (list_eq_dec _ _ _); reflexivity.
  - unfold fixed_erase. cbn [andb]. change (if negb (g =? g_ipnet) then _ else _) with (erased g).
    unfold fixed_get, is_denil. cbn [andb]. rewrite pread_pwrite by lia. rewrite E2.
    destruct (list_eq_dec _ _ _); [reflexivity|congruence].
  - unfold fixed_erase, fixed_get. cbn [andb]. rewrite pread_pwrite_all; [reflexivity|]. apply repeat_length.
Qed.
Lemma fixed_set_frame g disc m m' off v off' n : fixed_set g disc m off v = Some m' ->
  (off' + n <= off \/ off + Z.of_nat (length v) <= off') -> pread m' off' n = pread m off' n.
Proof.
  intros E H. unfold fixed_set in E. rewrite Bool.andb_false_r in E. injection E as <-. apply pread_pwrite_out. exact H.
Qed.

(** ** Presence *)
Lemma loose_presence s desc : TInv s -> real_desc desc ->
  (exist_loose s desc = false -> read_loose s desc true = RAbsent) /\
  (exist_loose s desc = true -> fixed_genus (descriptor2genus desc) = true -> read_loose s desc true <> RAbsent).
Proof.
  intros T Hd. unfold exist_loose, read_loose, get_loose. destruct (lookup_gid s desc); split; intros H; try discriminate.
  - intros ->. discriminate.
  - reflexivity.
Qed.
Lemma fixed_inverted g m off : exist_fixed g true m off = true <-> fixed_get g true m off = RAbsent.
Proof. unfold exist_fixed, fixed_is_null, fixed_get. cbn [andb]. destruct (is_denil g m off); split; congruence. Qed.
Lemma slot_inverted s j : exist_slot s j = true <-> read_slot s j true = RAbsent.
Proof. unfold exist_slot, slot_is_null, read_slot, get_slot. destruct (pre s j =? 0); split; congruence. Qed.
Lemma erase_slot_keeps s j : get_slot s j <> None -> erase_token_slot s j = Ok false s.
Proof. unfold erase_token_slot, exist_slot, slot_is_null, get_slot. destruct (pre s j =? 0); congruence. Qed.
Lemma erase_fixed_keeps g m off : fixed_get g true m off <> RAbsent -> erase_token_fixed g true m off = (false, m).
Proof. unfold erase_token_fixed, exist_fixed, fixed_is_null, fixed_get. cbn [andb]. destruct (is_denil g m off); congruence. Qed.

Lemma empty_fields s : TInv s -> pp s = 0 -> (tuple_empty s = true <-> forall r, field s r = None).
Proof.
  intros T Hp. rewrite (empty_iff s T Hp). split.
  - intros H r. apply field_dead. destruct r as [k|j]; [apply H|]. intros Hj.
    pose proof (i_cfg _ _ _ _ _ _ (v_acc _ _ (t_inv _ T))) as [c1 c2 c3 c4 c6]. pose proof (c6 j Hj). lia.
  - intros H k Hl. specialize (H (RL k)). rewrite field_live in H by exact Hl. discriminate.
Qed.

(** ** Histories that only add and overwrite need no proviso *)
Definition adds (o : op) : bool :=
  match o with
  | OSet desc disc v => disc && fixed_genus (descriptor2genus desc)
  | OAppend desc disc v => disc
  | _ => false
  end.
Lemma alloc_nojunk s tag u k s' : jc s = 0 -> jv s = 0 -> 0 <= u -> alloc_loose asis s tag u = Ok k s' ->
  jc s' = 0 /\ jv s' = 0.
Proof.
  intros J V Hu. unfold alloc_loose, index_alloc, lookup_fit. rewrite J, V.
  change (0 >? 0) with false. change (0 <? 1) with true. cbn [orb].
  destruct (u =? 0); [|destruct (tail_space s <? u); [discriminate|]];
    (destruct (head_space s <? 1); cbn [bind]; [discriminate|]); intros [= _ <-]; auto.
Qed.
Lemma write_fixed_junk s k v : jc (write_fixed s k v) = jc s /\ jv (write_fixed s k v) = jv s.
Proof. unfold write_fixed. destruct (is_inplaced_genus _); auto. Qed.
Lemma adds_calm multi s o : TInv s -> valid multi s o -> adds o = true -> jc s = 0 -> jv s = 0 ->
  calm s o = true /\
  match run1 asis s o with Ok _ s' => jc s' = 0 /\ jv s' = 0 | Throw s' => s' = s | Bad => True end.
Proof.
  intros T V A J Jv. destruct o as [desc disc v| |desc disc v| | | |]; cbn [adds valid] in *; try discriminate.
  - apply andb_prop in A. destruct A as [-> Fx]. destruct V as (Hd & _ & Hw).
    pose proof (new_units_range desc v Hw) as Hu.
    assert (C : calm s (OSet desc true v) = true).
    { cbn [calm]. destruct (lookup_gid s desc); rewrite ?Fx.
      - unfold stores. rewrite Fx. reflexivity.
      - rewrite nojunk_calm_new by lia. apply Bool.orb_true_r. }
    split; [exact C|]. pose proof (set_step s desc true v T Hd Hw C) as Q.
    destruct (run1 asis s (OSet desc true v)) as [[] s'|s'|] eqn:E; [|tauto|exact I].
    cbn [run1] in E. rewrite Fx in E. unfold assign_fixed in E. cbn [negb andb] in E.
    destruct (lookup_gid s desc) as [k|].
    + cbn [void bind] in E. injection E as <-. destruct (write_fixed_junk s k (pay v)). split; congruence.
    + destruct (alloc_loose asis s desc _) as [k s1|s1|] eqn:El; cbn [void bind] in E; try discriminate.
      injection E as <-. destruct (write_fixed_junk s1 k (pay v)) as [-> ->].
      unfold new_units in Hu. rewrite Fx in Hu.
      eapply alloc_nojunk; [exact J|exact Jv| |exact El]; lia.
  - subst disc. destruct V as (Hd & _ & Hw).
    pose proof (new_units_range desc v Hw) as Hu.
    assert (C : calm s (OAppend desc true v) = true).
    { cbn [calm negb andb orb]. apply nojunk_calm_new; lia. }
    split; [exact C|]. pose proof (append_step s desc true v T Hd Hw C) as Q. cbn [run1].
    destruct (append_loose asis s desc true v) as [[k|] s1|s1|] eqn:E; cbn [void bind]; [| |tauto|exact I].
    + unfold append_loose in E. cbv zeta in E. cbn [negb andb] in E. unfold new_units in Hu.
      clear Q C. destruct (fixed_genus (descriptor2genus desc)).
      * destruct (alloc_loose asis s desc _) as [k1 s2|s2|] eqn:El; cbn [bind] in E; try discriminate.
        injection E as _ <-. destruct (write_fixed_junk s2 k1 (pay v)) as [-> ->].
        eapply alloc_nojunk; [exact J|exact Jv| |exact El]; lia.
      * destruct (alloc_loose asis s desc _) as [k1 s2|s2|] eqn:El; cbn [bind] in E; try discriminate.
        injection E as _ <-. cbn [jc jv write_units with_dat].
        eapply alloc_nojunk; [exact J|exact Jv| |exact El]; lia.
    + destruct Q as [Q _]. cbn in Q. discriminate.
Qed.

(** static validity *)
Definition valid_add (multi : Z -> bool) (o : op) : Prop :=
  match o with
  | OSet desc disc v => real_desc desc /\ multi desc = false /\ wf_pay (descriptor2genus desc) (pay v)
  | OAppend desc disc v => real_desc desc /\ multi desc = true /\ wf_pay (descriptor2genus desc) (pay v)
  | _ => False
  end.
Lemma adds_calm_run multi l : forall s, TInv s -> uniq multi s -> jc s = 0 -> jv s = 0 ->
  Forall (fun o => valid_add multi o /\ adds o = true) l -> calm_run multi s l.
Proof.
  induction l as [|o l IH]; intros s T U J V F; [exact I|]. inversion F as [|? ? [Hv Ha] F']; subst.
  assert (Vo : valid multi s o) by (destruct o; cbn in *; tauto).
  destruct (adds_calm multi s o T Vo Ha J V) as [C Q]. cbn [calm_run]. split; [exact Vo|]. split; [exact C|].
  pose proof (step multi s o T U Vo C) as St.
  destruct (run1 asis s o) as [[] s'|s'|]; [| |contradiction].
  - apply IH; [exact (p_inv _ _ _ _ St)|exact (p_uniq _ _ _ _ St)|tauto|tauto|exact F'].
  - subst s'. apply IH; auto.
Qed.
