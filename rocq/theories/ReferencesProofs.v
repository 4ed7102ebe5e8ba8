(** * ReferencesProofs: payloads keep their place (proofs). *)
From Verif Require Import Base Tag TagProofs Codec CodecProofs Gear GearBase GearSearch GearProofs GearMerge GearAlloc GearRealloc GearResize GearAsis Tuple TupleProofs TupleSteps TupleView
  TupleOps TupleMore TupleHist TupleFacts Growth Traits Typed TypedProofs Image Alias AliasProofs References.
From Coq Require Import ZifyBool ZifyNat.
Ltac Zify.zify_post_hook ::= Z.div_mod_to_equations.

Lemma live_of_field s r x : field s r = Some x -> live s r.
Proof. intros H. apply liveb_iff. unfold field in H. destruct (liveb s r); [reflexivity|discriminate]. Qed.

Lemma effect_placed s s' r o r' : effect s s' r o -> r' <> r -> live s r' -> raddr s' r' = raddr s r'.
Proof. intros E N L. exact (e_place _ _ _ _ E r' N L). Qed.

(** a call that succeeds leaves every payload it does not address where it is *)
Lemma step_placed multi s o s' r : TInv s -> valid multi s o -> calm s o = true ->
  run1 asis s o = Ok tt s' -> live s r -> ~ addressed s o r -> raddr s' r = raddr s r.
Proof.
  intros T V C R L N. pose proof (proj1 (step_framed multi s o s' T V C R)) as Fr.
  assert (L' : live s' r).
  { pose proof (field_live s r L) as F. apply (live_of_field s' r _ (Fr r _ F N)). }
  destruct o as [desc disc v|desc|desc disc v|desc|k|j disc v|j]; cbn [valid] in V; cbn [addressed] in N.
  - destruct V as (Hd & _ & Hw). pose proof (set_step s desc disc v T Hd Hw C) as Q. rewrite R in Q. destruct Q as [_ E].
    inversion E as [St Lk E0|k s0 St Lk Nl Ef E0|k s0 St Lk Ef E0|k s0 St Lk Ef E0|k s0 St Lk Fx Ef E0]; subst; [reflexivity|..];
      apply (effect_placed _ _ _ _ _ Ef); try exact L; intros ->; [contradiction|..]; apply N; exists k; auto.
  - destruct V as (Hd & _). cbn [run1 calm] in *. destruct (lookup_gid s desc) as [k|] eqn:Lk; [|injection R as <-; reflexivity].
    destruct (lookup_some _ _ _ Hd Lk) as [Hl Hg]. unfold calm_free in C.
    destruct (erase_loose_spec s k T Hl ltac:(apply Bool.negb_true_iff; assumption)) as (s1 & E & _ & Ef & _). rewrite R in E. injection E as <-.
    apply (effect_placed _ _ _ _ _ Ef); [|exact L]. intros ->. apply N. exists k. auto.
  - destruct V as (Hd & _ & Hw). cbn [run1] in R. pose proof (append_step s desc disc v T Hd Hw C) as Q.
    destruct (append_loose asis s desc disc v) as [[k|] s1|s1|]; cbn [void bind] in R; try discriminate; injection R as <-.
    + destruct Q as (_ & _ & Nl & Ef). apply (effect_placed _ _ _ _ _ Ef); [|exact L]. intros ->. contradiction.
    + destruct Q as (_ & ->). reflexivity.
  - destruct V as (Hd & _). cbn [run1 calm] in *. unfold erase_all in R.
    destruct (lookup_gid s desc) as [k|] eqn:Lk; [|injection R as <-; reflexivity].
    destruct (lookup_some _ _ _ Hd Lk) as [Hl Hg].
    destruct (erase_all_from_step desc Hd (S k) s T) as (s1 & E & T' & F & Ns & Pl); [| |exact C|].
    { intros i Hi [A B]. pose proof (scan_down_spec (fun e => gid e =? desc) (idx s) (cnt s)) as Sp.
      unfold lookup_gid in Lk. rewrite Lk in Sp. destruct Sp as (_ & _ & Sp). specialize (Sp i ltac:(lia)). cbv beta in Sp. lia. }
    { intros i Hi. destruct (is_hole (idx s i)) eqn:Eh; [right; reflexivity|left]. destruct Hl as [Kk _]. split; [lia|exact Eh]. }
    rewrite R in E. injection E as <-. apply Pl; assumption.
  - destruct V as (Hl & _). cbn [run1 calm] in *. unfold calm_free in C.
    destruct (erase_loose_spec s k T Hl ltac:(apply Bool.negb_true_iff; assumption)) as (s1 & E & _ & Ef & _). rewrite R in E. injection E as <-.
    apply (effect_placed _ _ _ _ _ Ef); assumption.
  - destruct V as (Hj & Hw). cbn [run1 calm] in *.
    pose proof (assign_ref_step s (RP j) disc v T Hj eq_refl Hw C) as Q. rewrite R in Q. destruct Q as [_ Ef].
    apply (effect_placed _ _ _ _ _ Ef); assumption.
  - cbn [run1 calm] in *. rewrite (erase_slot_assign asis s j T V) in R.
    pose proof (assign_ref_step s (RP j) false (mkV true []) T V eq_refl) as Q. rewrite R in Q.
    destruct Q as [_ Ef]; [split; cbn; [lia|congruence]|exact C|]. apply (effect_placed _ _ _ _ _ Ef); assumption.
Qed.

(** no successful call of the sequence is about the field *)
Fixpoint spared (s : st) (l : list op) (r : ref) : Prop :=
  match l with
  | [] => True
  | o :: l => match run1 asis s o with Ok _ s' => ~ addressed s o r /\ spared s' l r | Throw s' => spared s' l r | Bad => True end
  end.
Lemma spared_run multi l r x : forall s outs s', TInv s -> uniq multi s -> field s r = Some x -> calm_run multi s l -> run asis s l = Some (outs, s') ->
  spared s l r -> TInv s' /\ uniq multi s' /\ field s' r = Some x /\ raddr s' r = raddr s r.
Proof.
  induction l as [|o l IH]; intros s outs s' T U F C R N; cbn [run calm_run spared] in *; [injection R as _ <-; auto|].
  destruct C as (V & Cm & C). pose proof (step multi s o T U V Cm) as St. destruct (run1 asis s o) as [[] s1|s1|] eqn:E; [| |contradiction].
  - destruct N as [N1 N2]. destruct (run asis s1 l) as [[o1 s2]|] eqn:E1; [|discriminate]. injection R as _ <-.
    assert (F1 : field s1 r = Some x) by (apply (proj1 (step_framed multi s o s1 T V Cm E)); assumption).
    destruct (IH s1 o1 s2 (p_inv _ _ _ _ St) (p_uniq _ _ _ _ St) F1 C E1 N2) as (A & B & D & G). repeat (split; [assumption|]).
    rewrite G. apply (step_placed multi s o s1 r T V Cm E (live_of_field _ _ _ F) N1).
  - subst s1. destruct (run asis s l) as [[o1 s2]|] eqn:E1; [|discriminate]. injection R as _ <-. apply (IH s o1 s2 T U F C E1 N).
Qed.

Definition in_entry (s : st) (r : ref) : bool := match r with RL _ => is_inplaced_genus (rgenus s r) | RP _ => false end.
Lemma value_units s r : in_entry s r = false -> value s r = read_units s (raddr s r) (plen s r).
Proof. intros H. unfold value, in_entry in *. rewrite H. reflexivity. Qed.
Lemma genus_same s s' r d p p' : field s r = Some (d, p) -> field s' r = Some (d, p') -> rgenus s' r = rgenus s r.
Proof.
  unfold field. destruct (liveb s r); [|discriminate]. destruct (liveb s' r); [|discriminate]. intros A B.
  assert (E : rdesc s' r = rdesc s r) by congruence. destruct r as [k|j]; cbn [rdesc rgenus] in *; [unfold egenus; rewrite E; reflexivity|exact E].
Qed.
(** the same field at the same place: the same units *)
Lemma place_same s s' r x : TInv s -> TInv s' -> field s r = Some x -> field s' r = Some x -> raddr s' r = raddr s r -> in_entry s r = false ->
  plen s' r = plen s r /\ value s' r = value s r /\ rgenus s' r = rgenus s r /\ forall y, raddr s r <= y < raddr s r + plen s r -> dat s' y = dat s y.
Proof.
  intros T T' F F' A I. destruct x as [d p]. pose proof (genus_same _ _ _ _ _ _ F F') as G.
  assert (I' : in_entry s' r = false) by (unfold in_entry in *; rewrite G; exact I).
  rewrite (field_live _ _ (live_of_field _ _ _ F)) in F. rewrite (field_live _ _ (live_of_field _ _ _ F')) in F'.
  assert (E : value s' r = value s r) by congruence. pose proof (plen_nonneg s r) as P. pose proof (plen_nonneg s' r) as P'.
  pose proof E as Q. rewrite (value_units _ _ I), (value_units _ _ I'), A in Q.
  assert (PL : plen s' r = plen s r).
  { pose proof (read_units_length s' (raddr s r) (plen s' r) P') as L1. pose proof (read_units_length s (raddr s r) (plen s r) P) as L2. rewrite Q in L1. lia. }
  split; [exact PL|]. split; [exact E|]. split; [exact G|]. intros y Hy. rewrite PL in Q.
  pose proof (read_units_nth s' (raddr s r) (plen s r) (y - raddr s r) ltac:(lia)) as N1.
  pose proof (read_units_nth s (raddr s r) (plen s r) (y - raddr s r) ltac:(lia)) as N2. rewrite Q, N2 in N1.
  replace (raddr s r + (y - raddr s r)) with y in N1 by lia. congruence.
Qed.

Lemma lend_same s s' r : raddr s' r = raddr s r -> value s' r = value s r -> rgenus s' r = rgenus s r -> lend s' r = lend s r.
Proof. intros A B C. unfold lend. rewrite A, B, C. reflexivity. Qed.
Lemma read_units_ext s s' a n : (forall y, a <= y < a + n -> dat s' y = dat s y) -> read_units s' a n = read_units s a n.
Proof. intros H. unfold read_units. apply map_ext_in. intros i Hi. apply in_seq in Hi. apply H. lia. Qed.
Lemma lent_same s s' le : lent_ok s le -> (forall x, covers s le x -> dat s' x = dat s x) -> lent_value s' le = lent_value s le.
Proof.
  intros K H. destruct le as [p n|p n|p n id|u]; cbn [lent_value covers lent_ok] in *; [f_equal; apply area_bytes_ext; intros x Hx; apply H; exists x; auto..|].
  rewrite (H u) by lia. do 3 f_equal. apply read_units_ext. exact H.
Qed.

(** ** Setting a field in place *)
Lemma set_fixed_place s desc disc v k s' : lookup_gid s desc = Some k -> fixed_genus (descriptor2genus desc) = true -> negb disc && v_empty v = false ->
  run1 asis s (OSet desc disc v) = Ok tt s' -> s' = write_fixed s k (pay v).
Proof. intros L F E R. cbn [run1] in R. rewrite F in R. unfold assign_fixed in R. rewrite L, E in R. cbn [void bind] in R. congruence. Qed.
Lemma assign_same s r disc v s' : TInv s -> live s r -> stretchy_ref s r = true -> rrel s r <> 0 -> needed disc v = plen s r ->
  assign_ref asis s r disc v = Ok tt s' -> s' = write_units s (raddr s r) (pay v).
Proof.
  intros T L St Rr N R. destruct (stretchy_not _ _ St) as [F1 F2]. unfold assign_ref in R. cbv zeta in R.
  replace (rrel s r =? 0) with false in R by lia. cbn [negb] in R.
  replace (brutto (rgenus s r) (dat s (raddr s r))) with (plen s r) in R.
  2:{ unfold plen. rewrite F1. replace (rrel s r =? 0) with false by lia. reflexivity. }
  rewrite N, Z.eqb_refl in R. congruence.
Qed.
