(** * TupleView: what a reader sees, before and after an operation (proofs). *)
From Verif Require Import Base Tag TagProofs Codec Gear GearBase GearSearch GearProofs GearMerge GearAlloc
  GearRealloc GearResize GearAsis Tuple TupleProofs TupleSteps.
From Coq Require Import ZifyBool ZifyNat Permutation.
Ltac Zify.zify_post_hook ::= Z.div_mod_to_equations.

(** payloads of the fields with one descriptor, in the order of iteration *)
Definition view (s : st) (desc : Z) : list (list Z) := map (fun k => value s (RL k)) (collect s desc).

(** what a getter makes of a stored payload *)
Definition obs (desc : Z) (p : list Z) : option (list Z) :=
  if fixed_genus (descriptor2genus desc) then Some p else match p with [] => None | _ => Some p end.
Definition first {A} (l : list A) : option A := match l with [] => None | x :: _ => Some x end.
Definition obs1 (desc : Z) (l : list (list Z)) : option (list Z) :=
  match l with [] => None | p :: _ => obs desc p end.

Definition real_desc (desc : Z) : Prop := 0 <= desc < 65536 /\ descriptor2genus desc <> g_hole.
Lemma real_not_hole desc v : real_desc desc -> is_hole (mkE v desc) = false.
Proof. intros [_ H]. unfold is_hole. cbn [gid]. apply Z.eqb_neq. exact H. Qed.
Lemma real_gid e desc : real_desc desc -> gid e = desc -> is_hole e = false.
Proof. intros [_ H] E. unfold is_hole. rewrite E. apply Z.eqb_neq. exact H. Qed.

(** ** Views as lists of items *)
Definition item (desc : Z) (f : option (Z * list Z)) : list (list Z) :=
  match f with Some (d, p) => if d =? desc then [p] else [] | None => [] end.
Fixpoint vlist (F : nat -> option (Z * list Z)) (desc : Z) (n : nat) : list (list Z) :=
  match n with O => [] | S m => item desc (F m) ++ vlist F desc m end.

Lemma vlist_ext F G desc n : (forall k, (k < n)%nat -> F k = G k) -> vlist F desc n = vlist G desc n.
Proof. intros H. induction n as [|n IH]; cbn [vlist]; [reflexivity|]. rewrite H, IH by auto. reflexivity. Qed.

Lemma vlist_more F desc n m : (n <= m)%nat -> (forall k, (n <= k)%nat -> F k = None) ->
  vlist F desc m = vlist F desc n.
Proof.
  intros Hm H. induction Hm as [|m Hm IH]; [reflexivity|]. cbn [vlist]. rewrite H by assumption. exact IH.
Qed.

Lemma vlist_change F G desc n k : (k < n)%nat -> (forall i, i <> k -> G i = F i) ->
  exists l1 l2, vlist F desc n = l1 ++ item desc (F k) ++ l2 /\ vlist G desc n = l1 ++ item desc (G k) ++ l2.
Proof.
  intros Hk H. induction n as [|n IH]; [lia|]. cbn [vlist].
  destruct (Nat.eq_dec k n) as [->|N].
  - exists [], (vlist F desc n). cbn [app]. split; [reflexivity|]. f_equal. apply vlist_ext. intros. apply H. lia.
  - destruct IH as (l1 & l2 & E1 & E2); [lia|].
    exists (item desc (F n) ++ l1), l2. rewrite E1, E2, (H n) by auto. rewrite <- !app_assoc. auto.
Qed.

Lemma field_out s k : (cnt s <= k)%nat -> field s (RL k) = None.
Proof.
  intros H. unfold field. replace (liveb s (RL k)) with false; [reflexivity|].
  unfold liveb. symmetry. apply Bool.andb_false_iff. left. apply Nat.ltb_ge. assumption.
Qed.

Lemma view_vlist s desc : real_desc desc -> view s desc = vlist (fun k => field s (RL k)) desc (cnt s).
Proof.
  intros Hd. unfold view, collect.
  assert (G : forall n, (n <= cnt s)%nat ->
    map (fun k => value s (RL k)) (collect_from s desc n) = vlist (fun k => field s (RL k)) desc n).
  { induction n as [|n IH]; intros Hn; cbn [collect_from vlist map]; [reflexivity|].
    rewrite <- IH by lia. unfold item, field.
    destruct (gid (idx s n) =? desc) eqn:E.
    - assert (Hl : liveb s (RL n) = true).
      { apply liveb_iff. split; [lia|]. apply (real_gid _ desc Hd). lia. }
      rewrite Hl. cbn [rdesc]. rewrite E. reflexivity.
    - destruct (liveb s (RL n)); [|reflexivity]. cbn [rdesc]. rewrite E. reflexivity. }
  apply G. lia.
Qed.

(** the central lemma: an operation on one loose field changes one place of one view *)
Lemma view_effect s s' k o desc : real_desc desc -> effect s s' (RL k) o ->
  exists l1 l2, view s desc = l1 ++ item desc (field s (RL k)) ++ l2 /\ view s' desc = l1 ++ item desc o ++ l2.
Proof.
  intros Hd E. rewrite !view_vlist by assumption.
  set (n := S (Nat.max (Nat.max (cnt s) (cnt s')) k)).
  rewrite <- (vlist_more _ desc (cnt s) n) by (try apply field_out; lia).
  rewrite <- (vlist_more _ desc (cnt s') n) by (try apply field_out; lia).
  destruct (vlist_change (fun k => field s (RL k)) (fun k => field s' (RL k)) desc n k) as (l1 & l2 & A & B).
  - lia.
  - intros i Hi. apply (e_frame _ _ _ _ E). congruence.
  - cbv beta in A, B. rewrite (e_field _ _ _ _ E) in B. exists l1, l2. auto.
Qed.

Lemma view_effect_slot s s' j o desc : real_desc desc -> effect s s' (RP j) o -> view s' desc = view s desc.
Proof.
  intros Hd E. rewrite !view_vlist by assumption.
  set (n := Nat.max (cnt s) (cnt s')).
  rewrite <- (vlist_more _ desc (cnt s) n) by (try apply field_out; lia).
  rewrite <- (vlist_more _ desc (cnt s') n) by (try apply field_out; lia).
  apply vlist_ext. intros i Hi. apply (e_frame _ _ _ _ E). congruence.
Qed.

(** ** Lookups *)
Lemma lookup_collect s desc : lookup_gid s desc = first (collect s desc).
Proof.
  unfold lookup_gid, collect. induction (cnt s) as [|n IH]; cbn [scan_down collect_from]; [reflexivity|].
  destruct (gid (idx s n) =? desc); [reflexivity|exact IH].
Qed.

Lemma lookup_some s desc k : real_desc desc -> lookup_gid s desc = Some k ->
  live s (RL k) /\ gid (idx s k) = desc.
Proof.
  intros Hd E. unfold lookup_gid in E. pose proof (scan_down_spec (fun e => gid e =? desc) (idx s) (cnt s)) as S.
  rewrite E in S. destruct S as (A & B & _). split; [|lia]. split; [exact A|]. apply (real_gid _ desc Hd). lia.
Qed.
Lemma lookup_none s desc : lookup_gid s desc = None -> view s desc = [].
Proof. rewrite lookup_collect. unfold view. destruct (collect s desc); [reflexivity|discriminate]. Qed.
Lemma lookup_view s desc k : lookup_gid s desc = Some k -> exists l, view s desc = value s (RL k) :: l.
Proof.
  rewrite lookup_collect. unfold view. destruct (collect s desc) as [|x l]; [discriminate|].
  cbn. intros [= ->]. eauto.
Qed.

Lemma field_live s r : live s r -> field s r = Some (rdesc s r, value s r).
Proof. intros H. unfold field. apply liveb_iff in H. rewrite H. reflexivity. Qed.
Lemma field_dead s r : ~ live s r -> field s r = None.
Proof.
  intros H. unfold field. destruct (liveb s r) eqn:E; [apply liveb_iff in E; contradiction|reflexivity].
Qed.

(** the value of a variable-length field is empty exactly when it has no payload *)
Lemma value_nil s r : TInv s -> live s r -> stretchy_ref s r = true -> (value s r = [] <-> rrel s r = 0).
Proof.
  intros T Hl Hst. destruct (stretchy_not _ _ Hst) as [F1 F2]. unfold value. rewrite F2. split.
  - intros E. destruct (Z.eq_dec (rrel s r) 0) as [|N]; [assumption|exfalso].
    pose proof (t_pos _ T r Hl Hst N) as P. apply (f_equal (@length Z)) in E. rewrite read_units_length in E.
    cbn in E. lia.
  - intros E. unfold plen. rewrite F1, E. reflexivity.
Qed.

Lemma get_loose_view s desc : TInv s -> real_desc desc -> get_loose s desc = obs1 desc (view s desc).
Proof.
  intros T Hd. unfold get_loose. destruct (lookup_gid s desc) as [k|] eqn:E.
  - destruct (lookup_view _ _ _ E) as (l & ->). cbn [obs1]. unfold obs.
    destruct (lookup_some _ _ _ Hd E) as [Hl Hg].
    destruct (fixed_genus (descriptor2genus desc)) eqn:Ef; [reflexivity|]. cbn [orb].
    assert (Hst : stretchy_ref s (RL k) = true).
    { unfold stretchy_ref. cbn [rgenus]. unfold egenus. rewrite Hg, Ef. reflexivity. }
    pose proof (value_nil s (RL k) T Hl Hst) as V. cbn [rrel] in V.
    destruct (rel (idx s k) =? 0) eqn:Er; cbn [negb].
    + replace (value s (RL k)) with (@nil Z) by (symmetry; apply V; lia). reflexivity.
    + destruct (value s (RL k)) eqn:Ev; [|reflexivity]. exfalso. assert (rel (idx s k) = 0) by (apply V; reflexivity). lia.
  - rewrite lookup_none by assumption. reflexivity.
Qed.

Lemma get_slot_view s j : TInv s -> (j < nslots s)%nat ->
  get_slot s j = match value s (RP j) with [] => None | p => Some p end.
Proof.
  intros T Hj. pose proof (value_nil s (RP j) T Hj eq_refl) as V. cbn [rrel] in V. unfold get_slot.
  destruct (pre s j =? 0) eqn:E.
  - replace (value s (RP j)) with (@nil Z) by (symmetry; apply V; lia). reflexivity.
  - destruct (value s (RP j)) eqn:Ev; [|reflexivity]. assert (pre s j = 0) by (apply V; reflexivity). lia.
Qed.

Lemma effect_slots s s' r o j : effect s s' r o -> r <> RP j -> (j < nslots s)%nat -> value s' (RP j) = value s (RP j).
Proof.
  intros E N Hj. pose proof (e_frame _ _ _ _ E (RP j) ltac:(congruence)) as F.
  rewrite !field_live in F; [congruence|exact Hj|].
  unfold live. rewrite (e_nslots _ _ _ _ E). exact Hj.
Qed.
Lemma effect_slot_same s s' j p d : effect s s' (RP j) (Some (d, p)) -> (j < nslots s)%nat -> value s' (RP j) = p.
Proof.
  intros E Hj. pose proof (e_field _ _ _ _ E) as F. rewrite field_live in F; [congruence|].
  unfold live. rewrite (e_nslots _ _ _ _ E). exact Hj.
Qed.
