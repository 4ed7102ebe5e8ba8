(** * HeldProofs: held accessors stay in step with the tuple (proofs). *)
From Verif Require Import Base Tag TagProofs Codec Gear GearBase GearSearch GearProofs GearMerge GearAlloc
  GearRealloc GearResize GearAsis Tuple TupleMore TupleProofs TupleSteps TupleView TupleOps TupleHist TupleFacts Held.
From Coq Require Import ZifyBool ZifyNat Permutation.
Ltac Zify.zify_post_hook ::= Z.div_mod_to_equations.

(** ** Positions *)
Lemma field_desc s k d p : field s (RL k) = Some (d, p) -> live s (RL k) /\ gid (idx s k) = d.
Proof.
  unfold field. destruct (liveb s (RL k)) eqn:E; [|discriminate]. apply liveb_iff in E. cbn [rdesc]. intros H. injection H as H _. auto.
Qed.
Lemma effect_descs s s' r c : effect s s' r c -> (forall d p, field s r = Some (d, p) -> match c with Some (d', _) => d' = d | None => True end) ->
  forall k d p d' p', field s (RL k) = Some (d, p) -> field s' (RL k) = Some (d', p') -> d' = d.
Proof.
  intros E H k d p d' p' F F'. destruct (ref_eq_dec (RL k) r) as [<-|N].
  - rewrite (e_field _ _ _ _ E) in F'. specialize (H _ _ F). rewrite F' in H. exact H.
  - rewrite (e_frame _ _ _ _ E) in F' by exact N. congruence.
Qed.
Lemma lookup_desc s desc k d p : real_desc desc -> lookup_gid s desc = Some k -> field s (RL k) = Some (d, p) -> desc = d.
Proof. intros D L F. destruct (lookup_some _ _ _ D L) as [_ G]. destruct (field_desc _ _ _ _ F). congruence. Qed.
(** an entry that stays a field keeps its type and identity *)
Lemma step_descs multi s o s' : TInv s -> valid multi s o -> calm s o = true -> run1 asis s o = Ok tt s' ->
  forall k d p d' p', field s (RL k) = Some (d, p) -> field s' (RL k) = Some (d', p') -> d' = d.
Proof.
  intros T V C R. destruct o as [desc disc v|desc|desc disc v|desc|k0|j disc v|j]; cbn [valid] in V.
  - destruct V as (Hd & _ & Hw). pose proof (set_step s desc disc v T Hd Hw C) as Q. rewrite R in Q. destruct Q as [_ E].
    inversion E as [St Lk E0|k s0 St Lk Nl Ef E0|k s0 St Lk Ef E0|k s0 St Lk Ef E0|k s0 St Lk Fx Ef E0]; subst.
    + intros; congruence.
    + apply (effect_descs _ _ _ _ Ef). intros d p F. rewrite field_dead in F by assumption. discriminate.
    + apply (effect_descs _ _ _ _ Ef). intros d p F. exact (lookup_desc _ _ _ _ _ Hd Lk F).
    + apply (effect_descs _ _ _ _ Ef). trivial.
    + apply (effect_descs _ _ _ _ Ef). intros d p F. exact (lookup_desc _ _ _ _ _ Hd Lk F).
  - destruct V as (Hd & _). cbn [run1 calm] in *. destruct (lookup_gid s desc) as [k|] eqn:Lk; [|injection R as <-; intros; congruence].
    destruct (lookup_some _ _ _ Hd Lk) as [Hl Hg]. unfold calm_free in C.
    destruct (erase_loose_spec s k T Hl ltac:(apply Bool.negb_true_iff; assumption)) as (s1 & E & _ & Ef & _). rewrite R in E. injection E as <-.
    apply (effect_descs _ _ _ _ Ef). trivial.
  - destruct V as (Hd & _ & Hw). cbn [run1] in R. pose proof (append_step s desc disc v T Hd Hw C) as Q.
    destruct (append_loose asis s desc disc v) as [[k|] s1|s1|]; cbn [void bind] in R; try discriminate; injection R as <-.
    + destruct Q as (_ & _ & Nl & Ef). apply (effect_descs _ _ _ _ Ef). intros d p F. rewrite field_dead in F by assumption. discriminate.
    + destruct Q as (_ & ->). intros; congruence.
  - destruct V as (Hd & _). cbn [run1 calm] in *. unfold erase_all in R.
    destruct (lookup_gid s desc) as [k|] eqn:Lk; [|injection R as <-; intros; congruence].
    destruct (lookup_some _ _ _ Hd Lk) as [Hl Hg].
    destruct (erase_all_from_step desc Hd (S k) s T) as (s1 & E & T' & F & Ns & Pl); [| |exact C|].
    { intros i Hi [A B]. pose proof (scan_down_spec (fun e => gid e =? desc) (idx s) (cnt s)) as Sp.
      unfold lookup_gid in Lk. rewrite Lk in Sp. destruct Sp as (_ & _ & Sp). specialize (Sp i ltac:(lia)). cbv beta in Sp. lia. }
    { intros i Hi. destruct (is_hole (idx s i)) eqn:Eh; [right; reflexivity|left]. destruct Hl as [Kk _]. split; [lia|exact Eh]. }
    rewrite R in E. injection E as <-. intros i d p d' p' F1 F2. rewrite F, F1 in F2. destruct (d =? desc); congruence.
  - destruct V as (Hl & _). cbn [run1 calm] in *. unfold calm_free in C.
    destruct (erase_loose_spec s k0 T Hl ltac:(apply Bool.negb_true_iff; assumption)) as (s1 & E & _ & Ef & _). rewrite R in E. injection E as <-.
    apply (effect_descs _ _ _ _ Ef). trivial.
  - destruct V as (Hj & Hw). cbn [run1 calm] in *.
    pose proof (assign_ref_step s (RP j) disc v T Hj eq_refl Hw C) as Q. rewrite R in Q. destruct Q as [_ Ef].
    intros i d p d' p' F1 F2. rewrite (e_frame _ _ _ _ Ef) in F2 by discriminate. congruence.
  - cbn [run1 calm] in *. rewrite (erase_slot_assign asis s j T V) in R.
    pose proof (assign_ref_step s (RP j) false (mkV true []) T V eq_refl) as Q. rewrite R in Q.
    destruct Q as [_ Ef]; [split; cbn; [lia|congruence]|exact C|].
    intros i d p d' p' F1 F2. rewrite (e_frame _ _ _ _ Ef) in F2 by discriminate. congruence.
Qed.

(** ** The only entry of a single field *)
Lemma collect_in s desc n k : (k < n)%nat -> gid (idx s k) = desc -> In k (collect_from s desc n).
Proof.
  induction n as [|n IH]; intros L G; [lia|]. cbn [collect_from]. destruct (Nat.eq_dec k n) as [->|N].
  - rewrite G, Z.eqb_refl. left. reflexivity.
  - destruct (gid (idx s n) =? desc); [right|]; apply IH; auto; lia.
Qed.
Lemma only_pos multi s desc k : uniq multi s -> real_desc desc -> multi desc = false -> live s (RL k) -> gid (idx s k) = desc ->
  lookup_gid s desc = Some k.
Proof.
  intros U D M [L _] G. pose proof (collect_in s desc (cnt s) k L G) as I. pose proof (U desc D M) as V. unfold view in V. rewrite map_length in V.
  rewrite lookup_collect. unfold collect in *. destruct (collect_from s desc (cnt s)) as [|x [|y l]]; [destruct I| |cbn in V; lia].
  destruct I as [->|[]]. reflexivity.
Qed.
Lemma no_pos s desc : real_desc desc -> (forall k, live s (RL k) -> gid (idx s k) <> desc) -> lookup_gid s desc = None.
Proof. intros D H. destruct (lookup_gid s desc) as [k|] eqn:E; [|reflexivity]. destruct (lookup_some _ _ _ D E) as [L G]. destruct (H k L G). Qed.
Lemma no_pos_inv s desc k : lookup_gid s desc = None -> live s (RL k) -> gid (idx s k) <> desc.
Proof.
  intros E [L _] G. pose proof (collect_in s desc (cnt s) k L G) as I. rewrite lookup_collect in E. unfold collect in E.
  destruct (collect_from s desc (cnt s)); [exact I|discriminate].
Qed.

(** the calls that name a field by its token *)
Definition by_name (desc : Z) (o : op) : Prop := match o with OSet d _ _ | ORemove d => d = desc | _ => False end.
Lemma step_lookup multi s o s' desc : TInv s -> uniq multi s -> valid multi s o -> calm s o = true -> run1 asis s o = Ok tt s' ->
  real_desc desc -> multi desc = false -> ~ by_name desc o -> lookup_gid s' desc = lookup_gid s desc.
Proof.
  intros T U V C R D M N. pose proof (step_framed multi s o s' T V C R) as (F1 & F2 & _). pose proof (step_descs multi s o s' T V C R) as FD.
  pose proof (step multi s o T U V C) as St. rewrite R in St. pose proof (p_uniq _ _ _ _ St) as U'.
  destruct (lookup_gid s desc) as [k|] eqn:Lk.
  - destruct (lookup_some _ _ _ D Lk) as [Hl Hg]. pose proof (field_live _ _ Hl) as Fk. cbn [rdesc] in Fk. rewrite Hg in Fk.
    assert (Na : ~ addressed s o (RL k)).
    { intros A. destruct o as [d disc v|d|d disc v|d|k0|j disc v|j]; cbn [addressed valid by_name] in *.
      - destruct A as (k1 & L1 & E). injection E as <-. destruct (lookup_some _ _ _ (proj1 V) L1). apply N. congruence.
      - destruct A as (k1 & L1 & E). injection E as <-. destruct (lookup_some _ _ _ (proj1 V) L1). apply N. congruence.
      - exact A.
      - destruct A as (k1 & E & G). injection E as <-. destruct V. congruence.
      - injection A as ->. destruct V. congruence.
      - discriminate.
      - discriminate. }
    pose proof (F1 _ _ Fk Na) as Fk'. destruct (field_desc _ _ _ _ Fk') as [Hl' Hg']. apply (only_pos multi); assumption.
  - apply no_pos; [exact D|]. intros k Hl Hg. pose proof (field_live _ _ Hl) as Fk. cbn [rdesc] in Fk. rewrite Hg in Fk.
    destruct (field s (RL k)) as [[d p]|] eqn:F.
    + pose proof (FD _ _ _ _ _ F Fk) as E. destruct (field_desc _ _ _ _ F) as [Hl0 Hg0]. apply (no_pos_inv _ _ _ Lk Hl0). congruence.
    + pose proof (F2 _ _ F Fk) as Cr. destruct o as [d disc v|d|d disc v|d|k0|j disc v|j]; cbn [creates valid by_name] in *; try contradiction.
      * injection Cr as Cr _. apply N. congruence.
      * injection Cr as Cr _. destruct V as (_ & V & _). congruence.
Qed.

(** ** A held accessor that is in step *)
Definition synced (s : st) (a : acc) : Prop := a_pos a = lookup_gid s (a_desc a).
Lemma synced_get s a : real_desc (a_desc a) -> synced s a -> acc_get s a = read_loose s (a_desc a) (a_disc a).
Proof.
  intros D E. unfold synced in E. unfold acc_get, read_loose, get_loose. rewrite E. destruct (lookup_gid s (a_desc a)) as [k|] eqn:Lk; [|reflexivity].
  destruct (lookup_some _ _ _ D Lk) as [_ G]. destruct (fixed_genus (descriptor2genus (a_desc a)) || negb (rel (idx s k) =? 0)) eqn:F; [|reflexivity].
  f_equal. unfold entry_value, entry_units, value, plen. cbv zeta. cbn [rgenus rrel]. unfold egenus. rewrite G. reflexivity.
Qed.

(** what the pointer becomes *)
Definition next_pos (s' : st) (a : acc) : acc := moved a (lookup_gid s' (a_desc a)).
Lemma moved_same a : moved a (a_pos a) = a.
Proof. destruct a; reflexivity. Qed.

Lemma needed_pay disc v : needed disc v <> 0 -> needed disc v = Z.of_nat (length (pay v)) /\ negb disc && v_empty v = false.
Proof. unfold needed. destruct disc, (v_empty v); cbn; intros H; try (split; reflexivity); congruence. Qed.

Lemma set_synced multi s a v : TInv s -> uniq multi s -> real_desc (a_desc a) -> multi (a_desc a) = false -> synced s a ->
  wf_pay (descriptor2genus (a_desc a)) (pay v) -> calm s (OSet (a_desc a) (a_disc a) v) = true ->
  match acc_set asis s a v with
  | Ok a' s' => run1 asis s (OSet (a_desc a) (a_disc a) v) = Ok tt s' /\ a_desc a' = a_desc a /\ a_disc a' = a_disc a /\ synced s' a'
  | Throw s' => run1 asis s (OSet (a_desc a) (a_disc a) v) = Throw s'
  | Bad => False
  end.
Proof.
  intros T U D M Sy Hw C. destruct a as [desc disc pos]. unfold synced in Sy. cbn [a_desc a_disc a_pos] in *. subst pos.
  pose proof (step multi s (OSet desc disc v) T U ltac:(cbn [valid]; auto) C) as St.
  unfold acc_set, moved, synced. cbv zeta. cbn [a_desc a_disc a_pos]. cbn [run1] in *.
  destruct (lookup_gid s desc) as [k|] eqn:Lk.
  - destruct (lookup_some _ _ _ D Lk) as [Hl Hg]. unfold egenus. rewrite Hg, Z.eqb_refl. cbn [negb].
    assert (Lv : forall s' o, uniq multi s' -> effect s s' (RL k) (Some (desc, o)) -> lookup_gid s' desc = Some k).
    { intros s' o U' E. destruct (field_desc s' k desc o (e_field _ _ _ _ E)). apply (only_pos multi); assumption. }
    assert (Gn : forall s', effect s s' (RL k) None -> lookup_gid s' desc = None).
    { intros s' E. apply no_pos; [exact D|]. intros i Li Gi. destruct (Nat.eq_dec i k) as [->|N].
      - pose proof (e_field _ _ _ _ E) as X. rewrite (field_live _ _ Li) in X. discriminate.
      - pose proof (field_live _ _ Li) as X. rewrite (e_frame _ _ _ _ E) in X by congruence. destruct (field_desc _ _ _ _ X) as [L0 G0].
        pose proof (only_pos multi s desc i U D M L0) as P. rewrite Lk in P. apply N. specialize (P ltac:(rewrite G0; exact Gi)). congruence. }
    pose proof (set_step s desc disc v T D Hw C) as Q. cbn [run1] in Q.
    destruct (fixed_genus (descriptor2genus desc)) eqn:Ef.
    + unfold assign_fixed in *. rewrite Lk in *. destruct (negb disc && v_empty v) eqn:Ee.
      * destruct (release_loose s k (loose_units (descriptor2genus desc))) as [[] s'|s'|]; cbn [bind void a_desc a_disc a_pos] in *; [|reflexivity|contradiction].
        split; [reflexivity|]. split; [reflexivity|]. split; [reflexivity|]. symmetry. apply Gn. destruct Q as [_ Q].
        assert (Ns : stores desc disc v = false) by (unfold stores; rewrite Ef, Ee; reflexivity).
        inversion Q; subst; congruence.
      * cbn [void bind a_desc a_disc a_pos] in *. split; [reflexivity|]. split; [reflexivity|]. split; [reflexivity|]. symmetry. destruct Q as [_ Q].
        assert (Ns : stores desc disc v = true) by (unfold stores; rewrite Ef, Ee; reflexivity).
        inversion Q; subst; try congruence. apply (Lv _ (pay v)); [apply (p_uniq _ _ _ _ St)|]. congruence.
    + unfold assign_stretchy in *. rewrite Lk in *. set (gone := (needed disc v =? 0) && negb (rel (idx s k) =? 0)).
      assert (A : assign_ref asis s (RL k) disc v = Ok tt s /\ needed disc v = 0 /\ rel (idx s k) = 0 \/
                  (needed disc v <> 0 /\ gone = false) \/ (needed disc v = 0 /\ gone = true)).
      { unfold gone. destruct (needed disc v =? 0) eqn:E0; [|right; left; split; [lia|reflexivity]]. destruct (rel (idx s k) =? 0) eqn:E1; [left|right; right; split; [lia|reflexivity]].
        split; [|lia]. unfold assign_ref. cbv zeta. cbn [rrel]. rewrite E1, E0. reflexivity. }
      destruct A as [(A & N0 & R0)|A].
      * rewrite A in *. cbn [bind]. replace gone with false by (unfold gone; rewrite R0; cbn; rewrite Bool.andb_false_r; reflexivity).
        cbn [a_desc a_disc a_pos]. auto.
      * pose proof (assign_ref_step s (RL k) disc v T Hl) as W. cbn [run1 calm] in C. rewrite Lk, Ef in C.
        assert (Sr : stretchy_ref s (RL k) = true) by (unfold stretchy_ref; cbn [rgenus]; unfold egenus; rewrite Hg, Ef; reflexivity).
        specialize (W Sr). unfold wf_pay in Hw. destruct (is_inplaced_genus (descriptor2genus desc)) eqn:Ei; [apply inplaced_units in Ei; destruct Ei; congruence|]. rewrite Ef in Hw.
        assert (Hw' : stretchy_ok (rgenus s (RL k)) v) by (unfold stretchy_ok, stretchy_wf; cbn [rgenus]; unfold egenus; rewrite Hg; exact Hw).
        specialize (W Hw' C). destruct (assign_ref asis s (RL k) disc v) as [[] s'|s'|]; cbn [bind]; [|reflexivity|contradiction].
        destruct W as [_ W]. split; [reflexivity|].
        destruct A as [[A1 A2]|[A1 A2]]; rewrite A2; cbn [a_desc a_disc a_pos]; split; try reflexivity; split; try reflexivity; symmetry.
        -- unfold new_content in W. cbn [rdesc] in W.
           replace (needed disc v =? 0) with false in W by lia. rewrite Hg in W.
           apply (Lv _ (pay v)); [apply (p_uniq _ _ _ _ St)|exact W].
        -- apply Gn. unfold new_content in W. cbn [rrel] in W. unfold gone in A2. apply andb_prop in A2. destruct A2 as [A2 A3].
           rewrite A2 in W. apply Bool.negb_true_iff in A3. rewrite A3 in W. exact W.
  - assert (Ap : calm s (OAppend desc disc v) = true \/ stores desc disc v = false).
    { cbn [calm] in C. rewrite Lk in C. cbn [calm]. destruct (stores desc disc v); [left|right; reflexivity]. cbn [negb orb] in C. rewrite C. apply Bool.orb_true_r. }
    assert (Nw : forall k s', effect s s' (RL k) (Some (desc, pay v)) -> uniq multi s' -> lookup_gid s' desc = Some k).
    { intros k s' E U'. destruct (field_desc s' k desc (pay v) (e_field _ _ _ _ E)). apply (only_pos multi); assumption. }
    destruct (fixed_genus (descriptor2genus desc)) eqn:Ef.
    + unfold assign_fixed in *. rewrite Lk in *. destruct (negb disc && v_empty v) eqn:Ee.
      * cbn [void bind a_desc a_disc a_pos]. auto.
      * assert (Ns : stores desc disc v = true) by (unfold stores; rewrite Ef, Ee; reflexivity). destruct Ap as [Ap|Ap]; [|congruence].
        pose proof (append_step s desc disc v T D Hw Ap) as Q. unfold append_loose in Q. cbv zeta in Q. rewrite Ee, Ef in Q.
        destruct (alloc_loose asis s desc (loose_units (descriptor2genus desc))) as [k s1|s1|]; cbn [bind void a_desc a_disc a_pos] in *; [|reflexivity|contradiction].
        destruct Q as (_ & _ & _ & E). split; [reflexivity|]. split; [reflexivity|]. split; [reflexivity|]. symmetry. apply (Nw k _ E). apply (p_uniq _ _ _ _ St).
    + unfold assign_stretchy in *. rewrite Lk in *. destruct (needed disc v =? 0) eqn:E0.
      * cbn [a_desc a_disc a_pos]. auto.
      * destruct (needed_pay disc v ltac:(lia)) as [Np Ee].
        assert (Ns : stores desc disc v = true) by (unfold stores; rewrite Ef, E0; reflexivity). destruct Ap as [Ap|Ap]; [|congruence].
        pose proof (append_step s desc disc v T D Hw Ap) as Q. unfold append_loose in Q. cbv zeta in Q. rewrite Ee, Ef, <- Np in Q.
        destruct (alloc_loose asis s desc (needed disc v)) as [k s1|s1|]; cbn [bind a_desc a_disc a_pos] in *; [|reflexivity|contradiction].
        destruct Q as (_ & _ & _ & E). split; [reflexivity|]. split; [reflexivity|]. split; [reflexivity|]. symmetry. apply (Nw k _ E). apply (p_uniq _ _ _ _ St).
Qed.

Lemma remove_synced multi s a : TInv s -> uniq multi s -> real_desc (a_desc a) -> multi (a_desc a) = false -> synced s a ->
  a_pos a <> None -> calm s (ORemove (a_desc a)) = true ->
  match acc_remove s a with
  | Ok a' s' => run1 asis s (ORemove (a_desc a)) = Ok tt s' /\ a_desc a' = a_desc a /\ a_disc a' = a_disc a /\ synced s' a'
  | Throw _ => False
  | Bad => False
  end.
Proof.
  intros T U D M Sy P C. destruct a as [desc disc pos]. unfold synced in Sy. cbn [a_desc a_disc a_pos] in *. subst pos.
  unfold acc_remove, moved, synced. cbn [a_desc a_disc a_pos]. cbn [run1 calm] in *. destruct (lookup_gid s desc) as [k|] eqn:Lk; [|congruence].
  destruct (lookup_some _ _ _ D Lk) as [Hl Hg]. unfold egenus. rewrite Hg, Z.eqb_refl. cbn [negb]. unfold calm_free in C.
  destruct (erase_loose_spec s k T Hl ltac:(apply Bool.negb_true_iff; assumption)) as (s1 & E & _ & Ef & _). rewrite E. cbn [bind a_desc a_disc a_pos].
  split; [reflexivity|]. split; [reflexivity|]. split; [reflexivity|]. symmetry. apply no_pos; [exact D|]. intros i Li Gi.
  destruct (Nat.eq_dec i k) as [->|N].
  - pose proof (e_field _ _ _ _ Ef) as X. rewrite (field_live _ _ Li) in X. discriminate.
  - pose proof (field_live _ _ Li) as X. rewrite (e_frame _ _ _ _ Ef) in X by congruence. destruct (field_desc _ _ _ _ X) as [L0 G0].
    pose proof (only_pos multi s desc i U D M L0 ltac:(rewrite G0; exact Gi)) as Q. rewrite Lk in Q. congruence.
Qed.

(** ** Programs *)
(** the same calls made by token *)
Definition held := nat -> option (Z * bool).
Definition descs (A : vars) : held := fun i => option_map (fun a => (a_desc a, a_disc a)) (A i).
Definition putd (D : held) (i : nat) (x : option (Z * bool)) : held := fun j => if Nat.eqb j i then x else D j.
Fixpoint by_token (D : held) (l : list call) : list op :=
  match l with
  | [] => []
  | CTok o :: l => o :: by_token D l
  | CTake i desc disc :: l => by_token (putd D i (Some (desc, disc))) l
  | CSet i v :: l => match D i with Some (desc, disc) => OSet desc disc v :: by_token D l | None => by_token D l end
  | CDel i :: l => match D i with Some (desc, _) => ORemove desc :: by_token D l | None => by_token D l end
  | CDrop i :: l => by_token (putd D i None) l
  end.
Definition edits (c : call) : bool := match c with CTok _ | CSet _ _ | CDel _ => true | _ => false end.
Definition edit_outs (l : list call) (outs : list bool) : list bool := map snd (filter (fun x => edits (fst x)) (combine l outs)).

(** every field with a held accessor is named only through that accessor *)
Definition polite (multi : Z -> bool) (s : st) (A : vars) (c : call) : Prop :=
  match c with
  | CTok o => valid multi s o /\ calm s o = true /\ forall i a, A i = Some a -> ~ by_name (a_desc a) o
  | CTake i desc _ => real_desc desc /\ multi desc = false /\ forall j a, j <> i -> A j = Some a -> a_desc a <> desc
  | CSet i v => match A i with Some a => wf_pay (descriptor2genus (a_desc a)) (pay v) /\ calm s (OSet (a_desc a) (a_disc a) v) = true | None => False end
  | CDel i => match A i with Some a => a_pos a <> None /\ calm s (ORemove (a_desc a)) = true | None => False end
  | CDrop _ => True
  end.
Fixpoint orderly (multi : Z -> bool) (s : st) (A : vars) (l : list call) : Prop :=
  match l with
  | [] => True
  | c :: l => polite multi s A c /\
    match call1 asis s A c with Ok A' s' => orderly multi s' A' l | Throw s' => orderly multi s' A l | Bad => True end
  end.

Record in_step (multi : Z -> bool) (s : st) (A : vars) : Prop := {
  n_inv : TInv s; n_uniq : uniq multi s;
  n_acc : forall i a, A i = Some a -> real_desc (a_desc a) /\ multi (a_desc a) = false /\ synced s a;
  n_apart : forall i j a b, i <> j -> A i = Some a -> A j = Some b -> a_desc a <> a_desc b
}.
Lemma put_same A i x : put A i x i = x.
Proof. unfold put. rewrite Nat.eqb_refl. reflexivity. Qed.
Lemma put_other A i j x : j <> i -> put A i x j = A j.
Proof. intros N. unfold put. replace (Nat.eqb j i) with false by lia. reflexivity. Qed.
Lemma by_token_ext l : forall D D', (forall i, D i = D' i) -> by_token D l = by_token D' l.
Proof.
  induction l as [|c l IH]; intros D D' E; [reflexivity|]. destruct c as [o|i desc disc|i v|i|i]; cbn [by_token].
  - f_equal. apply IH, E.
  - apply IH. intros j. unfold putd. rewrite E. reflexivity.
  - rewrite E. destruct (D' i) as [[d b]|]; [f_equal|]; apply IH, E.
  - rewrite E. destruct (D' i) as [[d b]|]; [f_equal|]; apply IH, E.
  - apply IH. intros j. unfold putd. rewrite E. reflexivity.
Qed.
Lemma descs_put A i a : forall j, descs (put A i a) j = putd (descs A) i (option_map (fun a => (a_desc a, a_disc a)) a) j.
Proof. intros j. unfold descs, putd, put. destruct (Nat.eqb j i); reflexivity. Qed.
Lemma descs_keep A i a a' : A i = Some a -> a_desc a' = a_desc a -> a_disc a' = a_disc a -> forall j, descs (put A i (Some a')) j = descs A j.
Proof. intros E1 E2 E3 j. unfold descs, put. destruct (Nat.eqb j i) eqn:E; [|reflexivity]. apply Nat.eqb_eq in E. subst j. rewrite E1. cbn [option_map]. congruence. Qed.

(** replacing an accessor by its successor *)
Lemma in_step_put multi s s' A i a a' o : in_step multi s A -> A i = Some a -> valid multi s o -> calm s o = true -> run1 asis s o = Ok tt s' ->
  (forall desc, by_name desc o -> desc = a_desc a) -> a_desc a' = a_desc a -> synced s' a' -> in_step multi s' (put A i (Some a')).
Proof.
  intros [T U P Q] E V C R B E1 Sy. pose proof (step multi s o T U V C) as St. rewrite R in St.
  constructor; [exact (p_inv _ _ _ _ St)|exact (p_uniq _ _ _ _ St)| |].
  - intros j b Ej. destruct (Nat.eq_dec j i) as [->|N].
    + rewrite put_same in Ej. injection Ej as <-. destruct (P i a E) as (P1 & P2 & _). rewrite E1. auto.
    + rewrite put_other in Ej by exact N. destruct (P j b Ej) as (P1 & P2 & P3). split; [exact P1|]. split; [exact P2|].
      unfold synced in *. rewrite P3. symmetry. apply (step_lookup multi s o); auto. intros X. apply (Q j i b a N Ej E). exact (B _ X).
  - intros j k b c N Ej Ek. destruct (Nat.eq_dec j i) as [->|Nj], (Nat.eq_dec k i) as [->|Nk]; try congruence.
    + rewrite put_same in Ej. rewrite put_other in Ek by exact Nk. injection Ej as <-. rewrite E1. apply (Q i k); auto.
    + rewrite put_same in Ek. rewrite put_other in Ej by exact Nj. injection Ek as <-. rewrite E1. apply (Q j i); auto.
    + rewrite put_other in Ej, Ek by assumption. apply (Q j k); auto.
Qed.
Lemma orderly_runs multi l : forall s A, in_step multi s A -> orderly multi s A l ->
  exists outs s' A', calls asis s A l = Some (outs, s', A') /\ length outs = length l /\ in_step multi s' A' /\
    calm_run multi s (by_token (descs A) l) /\ run asis s (by_token (descs A) l) = Some (edit_outs l outs, s').
Proof.
  induction l as [|c l IH]; intros s A I O.
  - exists [], s, A. cbn. auto.
  - cbn [orderly] in O. destruct O as [P O]. pose proof I as [T U IA Q]. cbn [calls].
    assert (Go : forall s1 A1 (b : bool), in_step multi s1 A1 -> orderly multi s1 A1 l ->
              (forall tl, run asis s1 (by_token (descs A1) l) = Some tl -> calm_run multi s1 (by_token (descs A1) l) ->
                 calm_run multi s (by_token (descs A) (c :: l)) /\
                 run asis s (by_token (descs A) (c :: l)) = Some ((if edits c then [b] else []) ++ fst tl, snd tl)) ->
              exists outs s' A', option_map (fun r => (b :: fst (fst r), snd (fst r), snd r)) (calls asis s1 A1 l) = Some (outs, s', A') /\
                length outs = length (c :: l) /\ in_step multi s' A' /\ calm_run multi s (by_token (descs A) (c :: l)) /\
                run asis s (by_token (descs A) (c :: l)) = Some (edit_outs (c :: l) outs, s')).
    { intros s1 A1 b I1 O1 H. destruct (IH s1 A1 I1 O1) as (outs & s' & A' & E & L & I' & C' & R'). rewrite E. cbn [option_map fst snd].
      exists (b :: outs), s', A'. split; [reflexivity|]. split; [cbn; lia|]. split; [exact I'|]. destruct (H _ R' C') as [H1 H2]. split; [exact H1|].
      rewrite H2. cbn [fst snd]. unfold edit_outs. cbn [combine filter fst]. destruct (edits c); reflexivity. }
    destruct c as [o|i desc disc|i v|i|i]; cbn [polite call1 edits] in *.
    + destruct P as (V & C & N). pose proof (step multi s o T U V C) as St. destruct (run1 asis s o) as [[] s1|s1|] eqn:R; cbn [bind] in *; [| |contradiction].
      * apply Go; [|exact O|].
        -- constructor; [exact (p_inv _ _ _ _ St)|exact (p_uniq _ _ _ _ St)| |exact Q].
           intros j a Ej. destruct (IA j a Ej) as (P1 & P2 & P3). split; [exact P1|]. split; [exact P2|]. unfold synced in *. rewrite P3.
           symmetry. apply (step_lookup multi s o); auto. exact (N j a Ej).
        -- intros [lo sl] R1 C1. cbn [by_token calm_run run]. rewrite R, R1. cbn [option_map fst snd app]. auto.
      * subst s1. apply Go; [exact I|exact O|]. intros [lo sl] R1 C1. cbn [by_token calm_run run]. rewrite R, R1. cbn [option_map fst snd app]. auto.
    + destruct P as (D & M & N). apply Go; [|exact O|].
      * constructor; [exact T|exact U| |].
        -- intros j a Ej. destruct (Nat.eq_dec j i) as [->|Nj].
           ++ rewrite put_same in Ej. injection Ej as <-. cbn [take a_desc]. repeat split; try assumption; try apply D.
           ++ rewrite put_other in Ej by exact Nj. exact (IA j a Ej).
        -- intros j k a b Njk Ej Ek. destruct (Nat.eq_dec j i) as [->|Nj], (Nat.eq_dec k i) as [->|Nk]; try congruence.
           ++ rewrite put_same in Ej. rewrite put_other in Ek by exact Nk. injection Ej as <-. cbn [take a_desc]. intros X. apply (N k b Nk Ek). congruence.
           ++ rewrite put_same in Ek. rewrite put_other in Ej by exact Nj. injection Ek as <-. cbn [take a_desc]. exact (N j a Nj Ej).
           ++ rewrite put_other in Ej, Ek by assumption. apply (Q j k); auto.
      * intros [lo sl] R1 C1. cbn [by_token app fst snd]. pose proof (by_token_ext l _ _ (descs_put A i (Some (take s desc disc)))) as Z. cbn [option_map take a_desc a_disc] in Z. unfold take in *. rewrite <- Z. auto.
    + destruct (A i) as [a|] eqn:Ei; [|contradiction]. destruct P as [Hw C]. destruct (IA i a Ei) as (D & M & Sy).
      pose proof (set_synced multi s a v T U D M Sy Hw C) as Z. destruct (acc_set asis s a v) as [a' s1|s1|]; cbn [bind] in *; [| |contradiction].
      * destruct Z as (R & E1 & E2 & Sy'). apply Go; [|exact O|].
        -- apply (in_step_put multi s s1 A i a a' (OSet (a_desc a) (a_disc a) v)); try assumption; [cbn [valid]; auto|cbn [by_name]; congruence].
        -- intros [lo sl] R1 C1. cbn [by_token]. assert (Hd : descs A i = Some (a_desc a, a_disc a)) by (unfold descs; rewrite Ei; reflexivity). rewrite Hd. rewrite (by_token_ext l _ _ (descs_keep A i a a' Ei E1 E2)) in *.
           cbn [calm_run run valid]. rewrite R, R1. cbn [option_map fst snd app]. auto.
      * pose proof (step multi s (OSet (a_desc a) (a_disc a) v) T U ltac:(cbn [valid]; auto) C) as St. rewrite Z in St. subst s1.
        apply Go; [exact I|exact O|]. intros [lo sl] R1 C1. cbn [by_token]. assert (Hd : descs A i = Some (a_desc a, a_disc a)) by (unfold descs; rewrite Ei; reflexivity). rewrite Hd.
        cbn [calm_run run valid]. rewrite Z, R1. cbn [option_map fst snd app]. auto.
    + destruct (A i) as [a|] eqn:Ei; [|contradiction]. destruct P as [Np C]. destruct (IA i a Ei) as (D & M & Sy).
      pose proof (remove_synced multi s a T U D M Sy Np C) as Z. destruct (acc_remove s a) as [a' s1|s1|]; cbn [bind] in *; [|contradiction|contradiction].
      destruct Z as (R & E1 & E2 & Sy'). apply Go; [|exact O|].
      * apply (in_step_put multi s s1 A i a a' (ORemove (a_desc a))); try assumption; [cbn [valid]; auto|cbn [by_name]; congruence].
      * intros [lo sl] R1 C1. cbn [by_token]. assert (Hd : descs A i = Some (a_desc a, a_disc a)) by (unfold descs; rewrite Ei; reflexivity). rewrite Hd. rewrite (by_token_ext l _ _ (descs_keep A i a a' Ei E1 E2)) in *.
        cbn [calm_run run valid]. rewrite R, R1. cbn [option_map fst snd app]. auto.
    + apply Go; [|exact O|].
      * constructor; [exact T|exact U| |].
        -- intros j a Ej. destruct (Nat.eq_dec j i) as [->|Nj]; [rewrite put_same in Ej; discriminate|]. rewrite put_other in Ej by exact Nj. exact (IA j a Ej).
        -- intros j k a b Njk Ej Ek. destruct (Nat.eq_dec j i) as [->|Nj]; [rewrite put_same in Ej; discriminate|]. destruct (Nat.eq_dec k i) as [->|Nk]; [rewrite put_same in Ek; discriminate|].
           rewrite put_other in Ej, Ek by assumption. apply (Q j k); auto.
      * intros [lo sl] R1 C1. cbn [by_token app fst snd]. pose proof (by_token_ext l _ _ (descs_put A i None)) as Z. cbn [option_map] in Z. rewrite <- Z. auto.
Qed.
