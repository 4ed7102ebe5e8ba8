(** * TupleQuiet: when editing needs no further proviso (proofs).
    The allocator slips listed by [calm] need either a new field cut out of a hole, a full index,
    or a hole wider than 2047 units.  Here it is shown that a tuple with few fields compared with
    its index never has a full index, so that only the first one remains for tuples of ordinary size. *)
From Verif Require Import Base Tag TagProofs Codec Gear GearBase GearSearch GearProofs GearMerge GearAlloc
  GearRealloc GearResize GearAsis Tuple TupleMore TupleProofs TupleSteps TupleView TupleOps TupleHist TupleFacts.
From Coq Require Import ZifyBool ZifyNat Permutation.
Ltac Zify.zify_post_hook ::= Z.div_mod_to_equations.

(** ** Every unit of the data has an owner *)
Lemma unit_owner s x : TInv s -> base s <= x < tail s ->
  (exists i, nzh s i /\ hole_begin s i <= x < hole_end s i) \/
  (exists r, live s r /\ raddr s r <= x < raddr s r + plen s r).
Proof.
  intros T Hx. pose proof (v_acc _ _ (t_inv _ T)) as A.
  pose proof (i_cov _ _ _ _ _ _ A x) as Cv. unfold zero_d in Cv. rewrite ind_1 in Cv by lia. unfold cov in Cv.
  destruct (Z_le_gt_dec (sumn (nslots s) (fun j => ind (raddr s (RP j)) (plen s (RP j)) x)) 0) as [Le|Gt].
  - assert (P : 0 < sumn (cnt s) (fun k => ind (addr s k) (len s (plen s) k) x)) by lia.
    apply sumn_pos in P; [|intros; apply ind_range]. destruct P as (k & Hk & P). apply ind_1_inv in P.
    unfold len in P. destruct (is_hole (idx s k)) eqn:Eh.
    + left. exists k. split; [repeat split; [assumption|assumption|lia]|]. unfold hole_begin, hole_end. lia.
    + right. exists (RL k). split; [split; assumption|exact P].
  - right. apply Z.gt_lt, sumn_pos in Gt; [|intros; apply ind_range]. destruct Gt as (j & Hj & P). apply ind_1_inv in P.
    exists (RP j). split; [exact Hj|exact P].
Qed.

(** a hole is followed by a payload *)
Lemma hole_follower s i : TInv s -> nzh s i -> exists r, live s r /\ raddr s r = hole_end s i /\ 0 < plen s r.
Proof.
  intros T Hi. pose proof (v_acc _ _ (t_inv _ T)) as A. destruct (nzh_bounds s (plen s) A i Hi) as [B1 B2].
  pose proof (v_notail _ _ (t_inv _ T) i Hi) as Nt. pose proof Hi as (_ & _ & Hu).
  assert (Hw : hole_begin s i < hole_end s i) by (unfold hole_begin, hole_end; lia).
  destruct (unit_owner s (hole_end s i) T ltac:(lia)) as [(j & Hj & Xj)|(r & Hr & Xr)].
  - exfalso. pose proof (v_nonadj _ _ (t_inv _ T) i j Hi Hj) as Na.
    destruct (Nat.eq_dec i j) as [->|N]; [lia|].
    apply (nzh_disjoint s (plen s) A i j (hole_end s i - 1) Hi Hj N); lia.
  - exists r. split; [exact Hr|].
    destruct (Z.eq_dec (raddr s r) (hole_end s i)) as [E|N]; [split; lia|].
    exfalso. apply (nzh_live_disjoint s (plen s) A i r (hole_end s i - 1) Hi Hr); lia.
Qed.

(** ** Counting holes *)
Definition nzb (s : st) (k : nat) : bool := is_hole (idx s k) && (0 <? hunits (idx s k)).
Definition ref_eq_dec (a b : ref) : {a = b} + {a <> b}.
Proof. decide equality; apply Nat.eq_dec. Defined.
Definition refs (s : st) : list ref :=
  map RL (filter (fun k => negb (is_hole (idx s k))) (seq 0 (cnt s))) ++ map RP (seq 0 (nslots s)).
Lemma refs_live s r : In r (refs s) <-> live s r.
Proof.
  unfold refs. rewrite in_app_iff, !in_map_iff. destruct r as [k|j]; cbn [live]; split.
  - intros [(x & [= ->] & H)|(x & [=] & _)]. apply filter_In in H. destruct H as [H1 H2]. apply in_seq in H1.
    split; [lia|]. apply Bool.negb_true_iff. exact H2.
  - intros [H1 H2]. left. exists k. split; [reflexivity|]. apply filter_In. split; [apply in_seq; lia|]. rewrite H2. reflexivity.
  - intros [(x & [=] & _)|(x & [= ->] & H)]. apply in_seq in H. lia.
  - intros H. right. exists j. split; [reflexivity|]. apply in_seq. lia.
Qed.
Lemma filter_sum p n : Z.of_nat (length (filter p (seq 0 n))) = sumn n (fun k => Z.b2z (p k)).
Proof.
  induction n as [|n IH]; [reflexivity|]. rewrite seq_S, filter_app, app_length. cbn [sumn Nat.add filter].
  destruct (p n); cbn [length Z.b2z]; lia.
Qed.
Lemma refs_length s : Z.of_nat (length (refs s)) = sumn (cnt s) (live_one s) + Z.of_nat (nslots s).
Proof.
  unfold refs. rewrite app_length, !map_length, seq_length, Nat2Z.inj_add, filter_sum. f_equal.
  apply sumn_ext. intros k _. unfold live_one. destruct (is_hole _); reflexivity.
Qed.
Lemma follower_inj s : TInv s -> forall l, NoDup l -> (forall i, In i l -> nzh s i) ->
  exists f, NoDup f /\ length f = length l /\
    (forall r, In r f -> live s r /\ exists i, In i l /\ raddr s r = hole_end s i /\ 0 < plen s r).
Proof.
  intros T. induction l as [|i l IH]; intros N Z0.
  - exists []. split; [constructor|]. split; [reflexivity|]. intros r [].
  - inversion N as [|? ? Ni Nl]; subst. destruct (IH Nl ltac:(intros; apply Z0; right; assumption)) as (f & Nf & Lf & Pf).
    destruct (hole_follower s i T (Z0 i (or_introl eq_refl))) as (r & Hr & Er & Pr).
    exists (r :: f). split; [|split].
    + constructor; [|exact Nf]. intros Hin. destruct (Pf r Hin) as (_ & j & Hj & Ej & _).
      pose proof (Z0 i (or_introl eq_refl)) as Zi. pose proof (Z0 j (or_intror Hj)) as Zj.
      assert (D : i <> j) by (intros ->; contradiction).
      pose proof Zi as (_ & _ & Ui). pose proof Zj as (_ & _ & Uj).
      apply (nzh_disjoint s (plen s) (v_acc _ _ (t_inv _ T)) i j (hole_end s i - 1) Zi Zj D); unfold hole_begin, hole_end in *; lia.
    + cbn [length]. rewrite Lf. reflexivity.
    + intros x [<-|Hx].
      * split; [exact Hr|]. exists i. split; [left; reflexivity|auto].
      * destruct (Pf x Hx) as (Hl & j & Hj & Ej). split; [exact Hl|]. exists j. split; [right; exact Hj|exact Ej].
Qed.
(** there are not more holes with room than fields *)
Lemma holes_le_fields s : TInv s ->
  sumn (cnt s) (fun k => Z.b2z (nzb s k)) <= sumn (cnt s) (live_one s) + Z.of_nat (nslots s).
Proof.
  intros T. rewrite <- filter_sum, <- refs_length.
  assert (Nd : NoDup (filter (nzb s) (seq 0 (cnt s)))) by (apply NoDup_filter, seq_NoDup).
  destruct (follower_inj s T _ Nd) as (f & Nf & Lf & Pf).
  { intros i Hi. apply filter_In in Hi. destruct Hi as [H1 H2]. apply in_seq in H1. unfold nzb in H2.
    apply andb_prop in H2. destruct H2. repeat split; [lia|assumption|lia]. }
  rewrite <- Lf. apply inj_le. apply NoDup_incl_length; [exact Nf|]. intros r Hr. apply refs_live, Pf. exact Hr.
Qed.

(** ** An index with room to spare is never full *)
(** the index has more places than twice the loose fields plus the preplaced references *)
Definition spare (s : st) : bool := 2 * loose_count s + Z.of_nat (nslots s) <? pivot s.
Lemma spare_not_full s : TInv s -> spare s = true -> ~ index_full s.
Proof.
  intros T Sp [Hs Hz]. unfold spare in Sp. rewrite (count_live s T) in Sp.
  destruct (accounting s T) as (J & _ & _ & A & _ & _). pose proof (holes_le_fields s T) as Q.
  assert (E : sumn (cnt s) (fun k => Z.b2z (nzb s k)) = jc s).
  { rewrite J. apply sumn_ext. intros k Hk. unfold nzb, hcount. destruct (is_hole (idx s k)) eqn:Eh; [|reflexivity].
    specialize (Hz k Hk Eh). pose proof (hunits_range (idx s k)). cbn [andb]. replace (0 <? hunits (idx s k)) with true by lia. reflexivity. }
  lia.
Qed.
Lemma spare_swap s r have n : TInv s -> spare s = true -> swap_slip s r have n = false.
Proof.
  intros T Sp. pose proof (spare_not_full s T Sp) as Nf. destruct (swap_slip s r have n) eqn:E; [|reflexivity].
  exfalso. apply Nf. unfold swap_slip in E. apply andb_prop in E. destruct E as [E1 E].
  destruct (lookup_adjacent _ _ _) as [ba|]; [|discriminate]. cbv zeta in E.
  apply andb_prop in E. destruct E as [E _]. apply andb_prop in E. destruct E as [E Ex].
  apply andb_prop in E. destruct E as [_ Eh].
  pose proof (v_acc _ _ (t_inv _ T)) as A. split; [lia|].
  pose proof (lookup_hole_gid s 0 (i_ent _ _ _ _ _ _ A) ltac:(lia)) as Q.
  unfold lookup_exact in Ex. pose proof (i_jvr _ _ _ _ _ _ A). pose proof (i_jcr _ _ _ _ _ _ A). pose proof (i_jc _ _ _ _ _ _ A) as Jc.
  destruct ((jc s <? 1) || (jv s <? 0)) eqn:Ej.
  - intros k Hk Hh _. assert (Z0 : jc s = 0) by lia.
    pose proof (sumn_ge1 (cnt s) (hcount s) k Hk (fun i _ => hcount_nonneg s i)) as G.
    unfold hcount in G at 1. rewrite Hh in G. cbn [Z.b2z] in G. lia.
  - destruct (lookup_gid s (u16 (make_hole 0))); [discriminate|exact Q].
Qed.

(** ** Ordinary sizes *)
Definition modest (s : st) : Prop := end_ s - pivot s - pp s <= 2047.
Lemma modest_len s r : TInv s -> modest s -> live s r -> jv s + plen s r <= 2047.
Proof.
  intros T M Hl. pose proof (v_acc _ _ (t_inv _ T)) as A. pose proof (jv_live_bound s (plen s) A r Hl).
  pose proof (c_tail _ (i_cfg _ _ _ _ _ _ A)). unfold modest, base in *. lia.
Qed.
Lemma modest_free s k : TInv s -> modest s -> live s (RL k) -> calm_free s k = true.
Proof.
  intros T M Hl. unfold calm_free. apply Bool.negb_true_iff.
  apply (wide_hole_small s (plen s)); [apply (v_acc _ _ (t_inv _ T))|apply plen_nonneg|apply modest_len; assumption].
Qed.
Lemma modest_roomy s r n : TInv s -> modest s -> live s r -> 0 <= n -> roomy s r n = true.
Proof.
  intros T M Hl Hn. unfold roomy. destruct (rrel s r =? 0) eqn:Er; [reflexivity|].
  destruct (n =? plen s r); [reflexivity|]. cbn [orb]. pose proof (modest_len s r T M Hl) as B.
  pose proof (v_acc _ _ (t_inv _ T)) as A.
  destruct (n =? 0) eqn:E0.
  - rewrite (wide_hole_small s (plen s)) by (auto; apply plen_nonneg). apply Bool.orb_true_r.
  - destruct (Z.eq_dec (plen s r) 0) as [Ez|Nz].
    + unfold wide_slip. rewrite Ez. pose proof (i_jvr _ _ _ _ _ _ A) as R.
      destruct (jv s =? 0); [destruct (n >? 0) eqn:G; [rewrite Bool.andb_false_r; reflexivity|lia]|].
      cbv zeta. pose proof (beside_le s (plen s) (raddr s r) (raddr s r + 0) A ltac:(lia)).
      destruct (_ && _ && _ && _); [|lia].
      destruct (lookup_exact s n) as [h|] eqn:E; [|reflexivity].
      unfold lookup_exact in E. destruct ((jc s <? 1) || (jv s <? n)) eqn:El; [discriminate|]. lia.
    + rewrite (wide_slip_small s (plen s)); [reflexivity|exact A|pose proof (plen_nonneg s r); lia|exact Hn|exact B].
Qed.

Lemma release_throw_full s j s' : TInv s -> modest s -> (j < nslots s)%nat -> rrel s (RP j) <> 0 ->
  release_data s (raddr s (RP j)) (plen s (RP j)) = Throw s' -> index_full s.
Proof.
  intros T M Hj Hr. pose proof (t_inv _ T) as Ti. pose proof (v_acc _ _ Ti) as H. pose proof (i_jc _ _ _ _ _ _ H) as Hjc.
  unfold release_data.
  destruct (lookup_adjacent_spec s (raddr s (RP j)) (raddr s (RP j) + plen s (RP j)) ltac:(lia)) as ([bf af] & E & Hadj).
  rewrite E. assert (Hl : live s (RP j)) by exact Hj.
  assert (Hpos : 0 < plen s (RP j)) by (apply (t_pos _ T); auto; cbn; lia).
  pose proof (modest_len s (RP j) T M Hl) as B.
  assert (Hroom : wide_hole s (raddr s (RP j)) (plen s (RP j)) = false) by (apply (wide_hole_small s (plen s)); [exact H|lia|lia]).
  assert (Hc : raddr s (RP j) + plen s (RP j) = tail s \/ plen s (RP j) + hu s bf + hu s af <= 2047).
  { right. destruct (wide_hole_cap s (plen s) _ _ H Hroom) as [X|X]; [lia|exact (X (bf, af) Hadj)]. }
  pose proof (detach s (plen s) (RP j) Ti Hl Hpos) as G.
  pose proof (release_data_at_spec s _ _ _ bf af None G Hadj Hc ltac:(discriminate)) as Q.
  destruct (release_data_at s (raddr s (RP j)) (plen s (RP j)) (bf, af) None) as [o s1|s1|]; cbn [bind]; [discriminate| |discriminate].
  intros _. tauto.
Qed.
Lemma quiet_ref s r n : TInv s -> modest s -> spare s = true -> live s r -> 0 <= n -> calm_ref s r n = true.
Proof.
  intros T M Sp Hl Hn. unfold calm_ref. rewrite modest_roomy, spare_swap by assumption. cbn [negb andb].
  rewrite Bool.orb_true_r. cbn [andb]. destruct r as [k|j]; [reflexivity|].
  destruct ((n =? 0) && negb (rrel s (RP j) =? 0)) eqn:E; [|reflexivity].
  destruct (release_data s (raddr s (RP j)) (plen s (RP j))) as [a s'|s'|] eqn:Er; try reflexivity.
  exfalso. apply (spare_not_full s T Sp). apply (release_throw_full s j s' T M Hl ltac:(lia) Er).
Qed.
Lemma modest_all_from desc n : forall s, TInv s -> real_desc desc -> modest s ->
  (forall i, (i < n)%nat -> live s (RL i) \/ is_hole (idx s i) = true) -> calm_all_from s desc n = true.
Proof.
  induction n as [|n IH]; intros s T Hd M Hlo; cbn [calm_all_from]; [reflexivity|].
  destruct (gid (idx s n) =? desc) eqn:Eg; [|apply IH; auto].
  assert (Hl : live s (RL n)).
  { destruct (Hlo n ltac:(lia)) as [A|A]; [exact A|].
    unfold is_hole in A. assert (gid (idx s n) = desc) as E by lia. rewrite E in A.
    exfalso. destruct Hd as [_ Hd]. lia. }
  pose proof (modest_free s n T M Hl) as C. rewrite C. cbn [andb]. unfold calm_free in C.
  destruct (erase_loose_spec s n T Hl ltac:(apply Bool.negb_true_iff; assumption)) as (s1 & E1 & T1 & Ef1 & Hh1). rewrite E1.
  apply IH; [exact T1|exact Hd| |].
  - unfold modest. rewrite (e_end _ _ _ _ Ef1), (e_pivot _ _ _ _ Ef1), (e_pp _ _ _ _ Ef1). exact M.
  - intros i Hi. destruct (Hlo i ltac:(lia)) as [A|A].
    + left. pose proof (e_frame _ _ _ _ Ef1 (RL i) ltac:(intros X; injection X; lia)) as F.
      rewrite (field_live s) in F by assumption. apply liveb_iff. unfold field in F.
      destruct (liveb s1 (RL i)); [reflexivity|discriminate].
    + right. apply Hh1; [lia|exact A].
Qed.

(** ** The shape of the tuple does not change *)
Definition shaped (s s' : st) : Prop :=
  end_ s' = end_ s /\ pivot s' = pivot s /\ pp s' = pp s /\ nslots s' = nslots s /\ soff s' = soff s /\ stype s' = stype s.
Lemma shaped_refl s : shaped s s. Proof. repeat split. Qed.
Lemma shaped_trans a b c : shaped a b -> shaped b c -> shaped a c.
Proof. unfold shaped. intuition congruence. Qed.
Lemma effect_shaped s s' r o : effect s s' r o -> shaped s s'.
Proof. intros E. repeat split; [apply (e_end _ _ _ _ E)|apply (e_pivot _ _ _ _ E)|apply (e_pp _ _ _ _ E)|apply (e_nslots _ _ _ _ E)|apply (e_soff _ _ _ _ E)|apply (e_stype _ _ _ _ E)]. Qed.
Lemma erase_all_shaped desc n : forall s s', TInv s -> real_desc desc ->
  (forall i, (i < n)%nat -> live s (RL i) \/ is_hole (idx s i) = true) -> calm_all_from s desc n = true ->
  erase_all_from s desc n = Ok tt s' -> shaped s s'.
Proof.
  induction n as [|n IH]; intros s s' T Hd Hlo C E; cbn [calm_all_from erase_all_from] in *; [injection E as <-; apply shaped_refl|].
  destruct (gid (idx s n) =? desc) eqn:Eg; [|eapply IH; eauto].
  assert (Hl : live s (RL n)).
  { destruct (Hlo n ltac:(lia)) as [A|A]; [exact A|].
    unfold is_hole in A. assert (gid (idx s n) = desc) as Q by lia. rewrite Q in A.
    exfalso. destruct Hd as [_ Hd]. lia. }
  apply andb_prop in C. destruct C as [C1 C]. unfold calm_free in C1.
  destruct (erase_loose_spec s n T Hl ltac:(apply Bool.negb_true_iff; assumption)) as (s1 & E1 & T1 & Ef1 & Hh1). rewrite E1 in *.
  cbn [bind] in E. eapply shaped_trans; [eapply effect_shaped; exact Ef1|]. eapply (IH s1 s' T1 Hd); [|exact C|exact E].
  intros i Hi. destruct (Hlo i ltac:(lia)) as [A|A].
  - left. pose proof (e_frame _ _ _ _ Ef1 (RL i) ltac:(intros X; injection X; lia)) as F.
    rewrite (field_live s) in F by assumption. apply liveb_iff. unfold field in F.
    destruct (liveb s1 (RL i)); [reflexivity|discriminate].
  - right. apply Hh1; [lia|exact A].
Qed.
Lemma step_shaped multi s o s' : TInv s -> valid multi s o -> calm s o = true ->
  run1 asis s o = Ok tt s' -> shaped s s'.
Proof.
  intros T V C R. destruct o as [desc disc v|desc|desc disc v|desc|k|j disc v|j]; cbn [valid] in V.
  - destruct V as (Hd & _ & Hw). pose proof (set_step s desc disc v T Hd Hw C) as Q. rewrite R in Q.
    destruct Q as [_ E].
    inversion E as [St Lk E0|k s0 St Lk Nl Ef E0|k s0 St Lk Ef E0|k s0 St Lk Ef E0|k s0 St Lk Fx Ef E0]; subst;
      try apply shaped_refl; exact (effect_shaped _ _ _ _ Ef).
  - destruct V as (Hd & _). cbn [run1 calm] in *. destruct (lookup_gid s desc) as [k|] eqn:Lk; [|injection R as <-; apply shaped_refl].
    destruct (lookup_some _ _ _ Hd Lk) as [Hl Hg]. unfold calm_free in C.
    destruct (erase_loose_spec s k T Hl ltac:(apply Bool.negb_true_iff; assumption)) as (s1 & E & _ & Ef & _). rewrite R in E. injection E as <-.
    exact (effect_shaped _ _ _ _ Ef).
  - destruct V as (Hd & _ & Hw). cbn [run1] in R.
    pose proof (append_step s desc disc v T Hd Hw C) as Q.
    destruct (append_loose asis s desc disc v) as [[k|] s1|s1|]; cbn [void bind] in R; try discriminate; injection R as <-.
    + destruct Q as (_ & _ & Nl & Ef). exact (effect_shaped _ _ _ _ Ef).
    + destruct Q as (_ & ->). apply shaped_refl.
  - destruct V as (Hd & _). cbn [run1 calm] in *. unfold erase_all in R.
    destruct (lookup_gid s desc) as [k|] eqn:Lk; [|injection R as <-; apply shaped_refl].
    destruct (lookup_some _ _ _ Hd Lk) as [Hl Hg]. apply (erase_all_shaped desc (S k) s s' T Hd); [|exact C|exact R].
    intros i Hi. destruct (is_hole (idx s i)) eqn:Eh; [right; reflexivity|left].
    destruct Hl as [Kk _]. split; [lia|exact Eh].
  - destruct V as (Hl & _). cbn [run1 calm] in *. unfold calm_free in C.
    destruct (erase_loose_spec s k T Hl ltac:(apply Bool.negb_true_iff; assumption)) as (s1 & E & _ & Ef & _). rewrite R in E. injection E as <-.
    exact (effect_shaped _ _ _ _ Ef).
  - destruct V as (Hj & Hw). cbn [run1 calm] in *.
    pose proof (assign_ref_step s (RP j) disc v T Hj eq_refl Hw C) as Q. rewrite R in Q. destruct Q as [_ Ef].
    exact (effect_shaped _ _ _ _ Ef).
  - cbn [run1 calm] in *. rewrite (erase_slot_assign asis s j T V) in R.
    pose proof (assign_ref_step s (RP j) false (mkV true []) T V eq_refl) as Q. rewrite R in Q.
    destruct Q as [_ Ef]; [split; cbn; [lia|congruence]|exact C|].
    exact (effect_shaped _ _ _ _ Ef).
Qed.

(** ** Quiet histories *)
(** the call makes a new field that needs room for its payload *)
Definition makes (s : st) (o : op) : bool :=
  match o with
  | OSet desc disc v =>
    match lookup_gid s desc with None => stores desc disc v && (0 <? new_units desc v) | Some _ => false end
  | OAppend desc disc v => negb (negb disc && v_empty v) && (0 <? new_units desc v)
  | _ => false
  end.
(** the index has room to spare, and new payload is only added while there are no holes *)
Definition quiet (s : st) (o : op) : bool := spare s && (negb (makes s o) || (jv s =? 0)).
Lemma needed_nonneg disc v : 0 <= needed disc v.
Proof. unfold needed. destruct (_ || _); lia. Qed.
Lemma calm_new_none s u : u <= 0 -> 0 <= u -> calm_new s u = true.
Proof. intros A B. unfold calm_new, split_slip. replace (u =? 0) with true by lia. reflexivity. Qed.
Lemma quiet_calm multi s o : TInv s -> modest s -> valid multi s o -> quiet s o = true -> calm s o = true.
Proof.
  intros T M V Q. unfold quiet in Q. apply andb_prop in Q. destruct Q as [Sp Q].
  destruct o as [desc disc v|desc|desc disc v|desc|k|j disc v|j]; cbn [calm makes valid] in *.
  - destruct V as (Hd & _ & Hw). pose proof (new_units_range desc v Hw) as Nu. destruct (lookup_gid s desc) as [k|] eqn:Lk.
    + destruct (lookup_some _ _ _ Hd Lk) as [Hl Hg].
      destruct (fixed_genus _); [rewrite modest_free by assumption; apply Bool.orb_true_r|].
      apply quiet_ref; auto. apply needed_nonneg.
    + destruct (stores desc disc v); [|reflexivity]. cbn [negb orb andb] in *.
      destruct (jv s =? 0) eqn:Ej; [apply nojunk_calm_new; lia|apply calm_new_none; lia].
  - destruct V as (Hd & _). destruct (lookup_gid s desc) as [k|] eqn:Lk; [|reflexivity].
    destruct (lookup_some _ _ _ Hd Lk) as [Hl Hg]. apply modest_free; assumption.
  - destruct V as (Hd & _ & Hw). pose proof (new_units_range desc v Hw) as Nu.
    destruct (negb disc && v_empty v); [reflexivity|]. cbn [negb orb andb] in *.
    destruct (jv s =? 0) eqn:Ej; [apply nojunk_calm_new; lia|apply calm_new_none; lia].
  - destruct V as (Hd & _). destruct (lookup_gid s desc) as [k|] eqn:Lk; [|reflexivity].
    destruct (lookup_some _ _ _ Hd Lk) as [Hl Hg]. apply modest_all_from; auto.
    intros i Hi. destruct (is_hole (idx s i)) eqn:Eh; [right; reflexivity|left].
    destruct Hl as [Kk _]. split; [lia|exact Eh].
  - destruct V as (Hl & _). apply modest_free; assumption.
  - destruct V as (Hj & _). apply quiet_ref; auto. apply needed_nonneg.
  - apply quiet_ref; auto. lia.
Qed.

(** every call is valid and quiet when it is made *)
Fixpoint quiet_run (multi : Z -> bool) (s : st) (l : list op) : Prop :=
  match l with
  | [] => True
  | o :: l => valid multi s o /\ quiet s o = true /\
      match run1 asis s o with Ok _ s' | Throw s' => quiet_run multi s' l | Bad => True end
  end.
Fixpoint quiet_runb (multi : Z -> bool) (s : st) (l : list op) : bool :=
  match l with
  | [] => true
  | o :: l => validb multi s o && quiet s o &&
      match run1 asis s o with Ok _ s' | Throw s' => quiet_runb multi s' l | Bad => true end
  end.
Lemma quiet_runb_ok multi l : forall s, quiet_runb multi s l = true -> quiet_run multi s l.
Proof.
  induction l as [|o l IH]; intros s H; cbn [quiet_runb quiet_run] in *; [exact I|].
  apply andb_prop in H. destruct H as [H R]. apply andb_prop in H. destruct H as [V Q].
  split; [apply validb_ok; exact V|]. split; [exact Q|].
  destruct (run1 asis s o) as [a s'|s'|]; [apply IH; exact R|apply IH; exact R|exact I].
Qed.
Lemma shaped_modest s s' : shaped s s' -> modest s -> modest s'.
Proof. unfold shaped, modest. intros (-> & -> & -> & _). auto. Qed.
Lemma quiet_run_calm multi l : forall s, TInv s -> uniq multi s -> modest s -> quiet_run multi s l -> calm_run multi s l.
Proof.
  induction l as [|o l IH]; intros s T U M Q; cbn [quiet_run calm_run] in *; [exact I|].
  destruct Q as (V & Q & R). pose proof (quiet_calm multi s o T M V Q) as C. split; [exact V|]. split; [exact C|].
  pose proof (step multi s o T U V C) as P. pose proof (step_shaped multi s o) as Sh.
  destruct (run1 asis s o) as [[] s'|s'|]; [| |contradiction].
  - apply IH; [exact (p_inv _ _ _ _ P)|exact (p_uniq _ _ _ _ P)| |exact R].
    eapply shaped_modest; [apply Sh; auto|exact M].
  - subst s'. apply IH; assumption.
Qed.
