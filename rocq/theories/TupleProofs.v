(** * TupleProofs: fields survive and are isolated (proofs). *)
From Verif Require Import Base Tag TagProofs Codec Gear GearBase GearSearch GearProofs GearMerge GearAlloc
  GearRealloc GearResize GearAsis Tuple.
From Coq Require Import ZifyBool ZifyNat.
Ltac Zify.zify_post_hook ::= Z.div_mod_to_equations.

(** ** Small facts *)
Lemma read_units_length s a n : length (read_units s a n) = Z.to_nat n.
Proof. unfold read_units. rewrite map_length, seq_length. reflexivity. Qed.

Lemma read_units_ext s s' a n : (forall x, a <= x < a + n -> dat s' x = dat s x) ->
  read_units s' a n = read_units s a n.
Proof.
  intros H. unfold read_units. apply map_ext_in. intros i Hi. apply in_seq in Hi. apply H. lia.
Qed.

Lemma read_write s a ws : read_units (write_units s a ws) a (Z.of_nat (length ws)) = ws.
Proof.
  unfold read_units, write_units. cbn [dat with_dat]. rewrite Nat2Z.id.
  apply nth_ext with (d := 0) (d' := 0); [rewrite map_length, seq_length; reflexivity|].
  intros n Hn. rewrite map_length, seq_length in Hn.
  set (f := fun i : nat => _).
  rewrite (nth_indep _ 0 (f O)) by (rewrite map_length, seq_length; assumption).
  rewrite map_nth. rewrite seq_nth by assumption. unfold f.
  replace ((a <=? a + Z.of_nat (0 + n)) && (a + Z.of_nat (0 + n) <? a + Z.of_nat (length ws))) with true by lia.
  f_equal. lia.
Qed.

Lemma bytes_of_unit w : forall b, In b (unit_bytes w) -> 0 <= b < 256.
Proof. intros b. cbn. intros [<-|[<-|[<-|[<-|[]]]]]; lia. Qed.

Lemma brutto_range g w : 0 <= brutto g w < 65536.
Proof.
  pose proof (bytes_of_unit w) as B. unfold brutto, stretchy_brutto_units.
  assert (B0 : 0 <= byte_at (unit_bytes w) 0 < 256) by (apply B; cbn; auto).
  assert (B1 : 0 <= byte_at (unit_bytes w) 1 < 256) by (apply B; cbn; auto).
  assert (B2 : 0 <= byte_at (unit_bytes w) 2 < 256) by (apply B; cbn; auto).
  assert (U1 : 0 <= u16_at (unit_bytes w) 1 < 65536) by (unfold u16_at; change (1 + 1) with 2; lia).
  assert (U0 : 0 <= u16_at (unit_bytes w) 0 < 65536) by (unfold u16_at; change (0 + 1) with 1; lia).
  destruct (g =? 0).
  { unfold string_brutto_units. rewrite bytes2units_div. destruct (string_is_tiny _); lia. }
  destruct (g =? 1); [exact U0|]. destruct (g =? 2); [exact U0|].
  unfold property_brutto_units. rewrite bytes2units_div. lia.
Qed.

Lemma loose_units_range g : 0 <= loose_units g <= 16.
Proof.
  unfold loose_units. destruct g as [|p|p]; try lia.
  do 5 (destruct p as [p|p|]; try lia).
Qed.
Lemma inplaced_units g : is_inplaced_genus g = true -> loose_units g = 0 /\ fixed_genus g = true.
Proof.
  unfold is_inplaced_genus. intros H.
  assert (E : g = 4 \/ g = 5 \/ g = 6 \/ g = 7)
    by (change g_i8 with 4 in H; change g_u8 with 5 in H; change g_i16 with 6 in H; change g_u16 with 7 in H; lia).
  destruct E as [E|[E|[E|E]]]; subst g; split; reflexivity.
Qed.
Lemma fixed_units g : fixed_genus g = true -> g <= 30 -> is_inplaced_genus g = false -> 0 < loose_units g.
Proof.
  unfold fixed_genus. intros H H1 H2.
  assert (E : all_below 31 (fun g => if (4 <=? g) && negb (is_inplaced_genus g) then 0 <? loose_units g else true) = true)
    by (vm_compute; reflexivity).
  pose proof (all_below_spec 31 _ E g ltac:(lia)) as A. cbn beta in A. rewrite H, H2 in A. cbn [negb andb] in A. lia.
Qed.

Lemma plen_nonneg s r : 0 <= plen s r.
Proof.
  unfold plen. pose proof (loose_units_range (rgenus s r)). pose proof (brutto_range (rgenus s r) (dat s (raddr s r))).
  destruct (match r with RL _ => _ | RP _ => _ end); [lia|]. destruct (rrel s r =? 0); lia.
Qed.

(** ** The invariant of a tuple *)
Definition stretchy_ref (s : st) (r : ref) : bool :=
  match r with RL _ => negb (fixed_genus (rgenus s r)) | RP _ => true end.

Record TInv (s : st) : Prop := {
  t_inv : Inv s (plen s);
  t_pos : forall r, live s r -> stretchy_ref s r = true -> rrel s r <> 0 -> 0 < plen s r;
  t_slot : forall j, (j < nslots s)%nat -> 0 <= stype s j < 4
}.

(** ** Ghost lengths matter only on live references *)
Lemma InvD_Llive s L L' D T C V : (forall r, live s r -> L' r = L r) -> (forall r, 0 <= L' r) ->
  InvD s L D T C V -> InvD s L' D T C V.
Proof.
  intros E N H.
  assert (El : forall k, (k < cnt s)%nat -> len s L' k = len s L k).
  { intros k Hk. unfold len. destruct (is_hole (idx s k)) eqn:Eh; [reflexivity|]. apply E. split; assumption. }
  destruct H as [h1 h2 h3 h4 h5 h6 h7 h8 h9 h10]. constructor; auto.
  - intros x. rewrite <- h2. unfold cov.
    rewrite (sumn_ext (cnt s) _ (fun k => ind (addr s k) (len s L k) x)) by (intros; rewrite El by assumption; reflexivity).
    f_equal. apply sumn_ext. intros. rewrite E by assumption. reflexivity.
  - rewrite <- h4. unfold total. rewrite (sumn_ext (cnt s) _ (len s L)) by (intros; apply El; assumption).
    f_equal. apply sumn_ext. intros. apply E. assumption.
Qed.
Lemma Inv_Llive s L L' : (forall r, live s r -> L' r = L r) -> (forall r, 0 <= L' r) -> Inv s L -> Inv s L'.
Proof. intros E N [H A B]. constructor; auto. eapply InvD_Llive; eassumption. Qed.

Lemma Inv_dat s L d : Inv s L -> Inv (with_dat s d) L.
Proof.
  intros [[h1 h2 h3 h4 h5 h6 h7 h8 h9 h10] A B]. destruct h1.
  constructor; [constructor; auto|exact A|exact B]. constructor; auto.
Qed.

(** changing the reference of a field that owns no units *)
Lemma Inv_reref s L r v : Inv s L -> live s r -> L r = 0 -> 0 <= v < 65536 ->
  Inv (set_rrel s r v) L /\ same s (set_rrel s r v) (only r) /\ live (set_rrel s r v) r.
Proof.
  intros [H Hna Hnt] Hl HL Hv. destruct r as [k|j].
  - destruct Hl as [Kk Hk]. pose proof (i_ent _ _ _ _ _ _ H k Kk) as (Rk & Gk & _).
    cbn [set_rrel]. set (e := mkE v (gid (idx s k))).
    assert (He : is_hole e = false) by exact Hk.
    assert (Ho : ent_ok e) by (split; [exact Hv|split; [exact Gk|congruence]]).
    pose proof (P_set s L _ _ _ _ H k e L Kk Ho ltac:(lia) (fun _ _ => eq_refl)) as A. cbv zeta in A.
    set (s' := set_ent s k e) in *.
    assert (E1 : idx s' k = e) by apply fupd_same.
    assert (Eo : forall i, i <> k -> idx s' i = idx s i) by (intros; apply fupd_other; assumption).
    assert (Nz : forall x, nzh s' x -> nzh s x /\ hole_begin s' x = hole_begin s x /\ hole_end s' x = hole_end s x).
    { intros x (X1 & X2 & X3). assert (N : x <> k) by (intros ->; rewrite E1 in X2; congruence).
      rewrite Eo in X2, X3 by assumption. split; [split; [exact X1|auto]|].
      unfold hole_begin, hole_end, addr. rewrite Eo by assumption. split; reflexivity. }
    split; [constructor|split; [apply same_any|split; [exact Kk|rewrite E1; exact He]]].
    + eapply InvD_eq; [exact A|..]; unfold zero_d, len, hcount, hvol; rewrite ?Hk, ?He, ?HL; cbn [Z.b2z]; try lia.
      intros x. rewrite !ind_0 by lia. reflexivity.
    + eapply hsub_nonadj; [|exact Hna]. exact Nz.
    + eapply hsub_notail; [exact Nz|reflexivity|exact Hnt].
  - split; [constructor|split; [apply same_slot|exact Hl]].
    + pose proof (P_slot s L _ _ _ _ H j v L Hl Hv ltac:(lia) (fun _ _ => eq_refl)) as A.
      eapply InvD_eq; [exact A|..]; unfold zero_d; rewrite ?HL; try lia.
      intros x. rewrite !ind_0 by lia. reflexivity.
    + exact Hna.
    + exact Hnt.
Qed.

(** ** Fields *)
Definition liveb (s : st) (r : ref) : bool :=
  match r with RL k => Nat.ltb k (cnt s) && negb (is_hole (idx s k)) | RP j => Nat.ltb j (nslots s) end.
Lemma liveb_iff s r : liveb s r = true <-> live s r.
Proof.
  destruct r as [k|j]; unfold liveb, live; [|apply Nat.ltb_lt].
  rewrite Bool.andb_true_iff, Nat.ltb_lt, Bool.negb_true_iff. reflexivity.
Qed.
(** descriptor (type and number) of a field *)
Definition rdesc (s : st) (r : ref) : Z := match r with RL k => gid (idx s k) | RP j => stype s j end.
Definition field (s : st) (r : ref) : option (Z * list Z) :=
  if liveb s r then Some (rdesc s r, value s r) else None.

(** what a payload of the given type may look like *)
Definition wf_pay (g : Z) (v : list Z) : Prop :=
  if is_inplaced_genus g then exists x, v = [x] /\ 0 <= x < 65536
  else if fixed_genus g then Z.of_nat (length v) = loose_units g
  else Z.of_nat (length v) < 65536 /\ (v <> [] -> brutto g (nth 0 v 0) = Z.of_nat (length v)).

(** the effect of an operation on the fields: only field [r] changes, and it becomes [o] *)
Record effect (s s' : st) (r : ref) (o : option (Z * list Z)) : Prop := {
  e_frame : forall r', r' <> r -> field s' r' = field s r';
  e_field : field s' r = o;
  e_end : end_ s' = end_ s; e_pivot : pivot s' = pivot s; e_pp : pp s' = pp s;
  e_nslots : nslots s' = nslots s; e_soff : soff s' = soff s; e_stype : stype s' = stype s;
  e_dat : forall x, ~ (live s' r /\ raddr s' r <= x < raddr s' r + plen s' r) -> dat s' x = dat s x;
  e_place : forall r', r' <> r -> live s r' -> raddr s' r' = raddr s r'
}.

Lemma live_genus s k L : Inv s L -> live s (RL k) -> 0 <= egenus (idx s k) <= 30.
Proof.
  intros H [Kk Hk]. pose proof (i_ent _ _ _ _ _ _ (v_acc _ _ H) k Kk) as (_ & G & _).
  unfold egenus, is_hole in *. rewrite descriptor2genus_arith in *. change g_hole with 31 in Hk. lia.
Qed.

(** a frame step keeps the other fields *)
Lemma field_same s s' r r' : same s s' (only r) -> r' <> r -> field s' r' = field s r'.
Proof.
  intros S N. unfold field.
  assert (Nx : ~ only r r') by (intros E; apply N; exact E).
  pose proof (f_live _ _ _ S r' Nx) as Lv.
  assert (Eb : liveb s' r' = liveb s r').
  { destruct (liveb s r') eqn:E1; destruct (liveb s' r') eqn:E2; auto.
    - apply liveb_iff in E1. apply Lv in E1. apply liveb_iff in E1. congruence.
    - apply liveb_iff in E2. apply Lv in E2. apply liveb_iff in E2. congruence. }
  rewrite Eb. destruct (liveb s r') eqn:E1; [|reflexivity]. apply liveb_iff in E1.
  pose proof (f_cfg _ _ _ S) as Cf.
  assert (Rr : rrel s' r' = rrel s r' /\ raddr s' r' = raddr s r' /\ rgenus s' r' = rgenus s r' /\ rdesc s' r' = rdesc s r').
  { unfold raddr, own. destruct r' as [k|j]; cbn [rrel rown rgenus rdesc].
    - unfold own. rewrite (f_ent _ _ _ S k Nx E1), (q_pivot _ _ Cf). auto.
    - rewrite (f_pre _ _ _ S j Nx), (q_pivot _ _ Cf), (q_soff _ _ Cf), (q_stype _ _ Cf). auto. }
  destruct Rr as (R1 & R2 & R3 & R4). rewrite R4. unfold value, plen. rewrite R1, R2, R3, (q_dat _ _ Cf).
  unfold read_units. rewrite (q_dat _ _ Cf). reflexivity.
Qed.

Lemma same_plen s s' r r' : same s s' (only r) -> r' <> r -> live s r' ->
  plen s' r' = plen s r' /\ raddr s' r' = raddr s r' /\ rrel s' r' = rrel s r' /\ rgenus s' r' = rgenus s r'.
Proof.
  intros S N Hl. assert (Nx : ~ only r r') by (intros E; apply N; exact E).
  pose proof (f_cfg _ _ _ S) as Cf.
  assert (Rr : rrel s' r' = rrel s r' /\ raddr s' r' = raddr s r' /\ rgenus s' r' = rgenus s r').
  { unfold raddr, own. destruct r' as [k|j]; cbn [rrel rown rgenus].
    - unfold own. rewrite (f_ent _ _ _ S k Nx Hl), (q_pivot _ _ Cf). auto.
    - rewrite (f_pre _ _ _ S j Nx), (q_pivot _ _ Cf), (q_soff _ _ Cf), (q_stype _ _ Cf). auto. }
  destruct Rr as (R1 & R2 & R3). unfold plen. rewrite R1, R2, R3, (q_dat _ _ Cf). auto.
Qed.

(** removing a field *)
Lemma finish_gone s s1 L1 r : TInv s -> same s s1 (only r) -> Inv s1 L1 ->
  (forall r', r' <> r -> L1 r' = plen s r') -> ~ live s1 r -> TInv s1 /\ effect s s1 r None.
Proof.
  intros [Ti Tp Ts] S I1 E1 Nl. pose proof (f_cfg _ _ _ S) as Cf.
  assert (Other : forall r', live s1 r' -> r' <> r /\ live s r').
  { intros r' Hr. assert (N : r' <> r) by (intros ->; contradiction).
    split; [assumption|]. apply (f_live _ _ _ S); [intros E; apply N; exact E|assumption]. }
  split.
  - constructor.
    + apply Inv_Llive with (L := L1); [|apply plen_nonneg|assumption].
      intros r' Hr. destruct (Other r' Hr) as [N Hl]. rewrite E1 by assumption.
      apply (same_plen s s1 r r' S N Hl).
    + intros r' Hr Hs Hrr. destruct (Other r' Hr) as [N Hl].
      destruct (same_plen s s1 r r' S N Hl) as (A & B & Cc & Dd). rewrite A.
      apply Tp; [assumption| |congruence]. unfold stretchy_ref in *. rewrite Dd in Hs. exact Hs.
    + intros j. rewrite (q_nslots _ _ Cf), (q_stype _ _ Cf). apply Ts.
  - constructor; try (apply Cf).
    + intros r' N. apply (field_same s s1 r r' S N).
    + unfold field. destruct (liveb s1 r) eqn:E; [apply liveb_iff in E; contradiction|reflexivity].
    + intros x _. rewrite (q_dat _ _ Cf). reflexivity.
    + intros r' N Hr. apply (same_plen s s1 r r' S N Hr).
Qed.

(** writing the payload of a field that has just received its units *)
Lemma finish_write s s1 L1 r ws : TInv s -> same s s1 (only r) -> Inv s1 L1 ->
  (forall r', r' <> r -> L1 r' = plen s r') -> live s1 r -> L1 r = Z.of_nat (length ws) ->
  (match r with RL _ => is_inplaced_genus (rgenus s1 r) | RP _ => false end = false) ->
  (match r with RL _ => fixed_genus (rgenus s1 r) | RP _ => false end = false ->
     brutto (rgenus s1 r) (nth 0 ws 0) = Z.of_nat (length ws) /\ ws <> []) ->
  (match r with RL _ => fixed_genus (rgenus s1 r) | RP _ => false end = true ->
     Z.of_nat (length ws) = loose_units (rgenus s1 r)) ->
  let s2 := write_units s1 (raddr s1 r) ws in
  TInv s2 /\ effect s s2 r (Some (rdesc s1 r, ws)).
Proof.
  intros [Ti Tp Ts] S I1 E1 Hl HL Hin Hst Hfx s2. pose proof (f_cfg _ _ _ S) as Cf.
  assert (Hdat : forall x, ~ (raddr s1 r <= x < raddr s1 r + L1 r) -> dat s2 x = dat s1 x).
  { intros x Hx. unfold s2, write_units. cbn [dat with_dat].
    replace ((raddr s1 r <=? x) && (x <? raddr s1 r + Z.of_nat (length ws))) with false by lia. reflexivity. }
  assert (Sm : forall r', raddr s2 r' = raddr s1 r' /\ rrel s2 r' = rrel s1 r' /\ rgenus s2 r' = rgenus s1 r'
                /\ rdesc s2 r' = rdesc s1 r' /\ liveb s2 r' = liveb s1 r').
  { intros [k|j]; repeat split. }
  assert (Other : forall r', r' <> r -> live s1 r' -> live s r' /\ plen s2 r' = plen s1 r' /\ value s2 r' = value s1 r'
                   /\ plen s1 r' = plen s r').
  { intros r' N Hr. assert (Nx : ~ only r r') by (intros E; apply N; exact E).
    assert (Hlr : live s r') by (apply (f_live _ _ _ S); assumption).
    destruct (same_plen s s1 r r' S N Hlr) as (A & B & Cc & Dd).
    destruct (Sm r') as (M1 & M2 & M3 & M4 & _).
    assert (LE : L1 r' = plen s1 r') by (rewrite A; apply E1; assumption).
    assert (Dj : forall x, raddr s1 r' <= x < raddr s1 r' + plen s1 r' -> dat s2 x = dat s1 x).
    { intros x Hx. apply Hdat. intros Hy.
      apply (live_disjoint s1 L1 (v_acc _ _ I1) r' r x Hr Hl N); [rewrite LE|]; assumption. }
    assert (PE : plen s2 r' = plen s1 r').
    { unfold plen. rewrite M1, M2, M3.
      destruct (match r' with RL _ => fixed_genus (rgenus s1 r') | RP _ => false end) eqn:Ef; [reflexivity|].
      destruct (rrel s1 r' =? 0) eqn:Er; [reflexivity|]. f_equal.
      apply Dj. assert (0 < plen s1 r'); [|lia]. rewrite A. apply Tp; [assumption| |lia].
      unfold stretchy_ref. destruct r'; [rewrite <- Dd; rewrite Ef|]; reflexivity. }
    split; [assumption|]. split; [assumption|]. split; [|assumption].
    unfold value. rewrite PE, M1, M2, M3.
    destruct (match r' with RL _ => _ | RP _ => _ end); [reflexivity|].
    apply read_units_ext. assumption. }
  assert (Rne : ws <> [] -> rrel s1 r <> 0).
  { intros N E. assert (Hp : 0 < L1 r) by (rewrite HL; destruct ws; [congruence|cbn; lia]).
    pose proof (live_bounds s1 L1 (v_acc _ _ I1) r Hl Hp) as [Bb _].
    unfold raddr in Bb. rewrite E in Bb. destruct r as [k|j]; cbn [rown] in Bb.
    - destruct Hl as [Kk _]. pose proof (own_lt_base _ _ _ _ _ _ k (v_acc _ _ I1) Kk). lia.
    - pose proof (c_soff _ (i_cfg _ _ _ _ _ _ (v_acc _ _ I1)) j Hl). unfold base in Bb. lia. }
  assert (Pr : plen s2 r = Z.of_nat (length ws)).
  { destruct (Sm r) as (M1 & M2 & M3 & _). unfold plen. rewrite M1, M2, M3.
    destruct (match r with RL _ => fixed_genus (rgenus s1 r) | RP _ => false end) eqn:Ef.
    - symmetry. apply Hfx. reflexivity.
    - destruct (Hst eq_refl) as [Hb Hne]. specialize (Rne Hne).
      replace (rrel s1 r =? 0) with false by lia.
      replace (dat s2 (raddr s1 r)) with (nth 0 ws 0); [assumption|].
      unfold s2, write_units. cbn [dat with_dat].
      assert (0 < Z.of_nat (length ws)) by (destruct ws; [congruence|cbn; lia]).
      replace ((raddr s1 r <=? raddr s1 r) && (raddr s1 r <? raddr s1 r + Z.of_nat (length ws))) with true by lia.
      f_equal. lia. }
  assert (I2 : Inv s2 L1) by (apply Inv_dat; assumption).
  split.
  - constructor.
    + apply Inv_Llive with (L := L1); [|apply plen_nonneg|assumption].
      intros r' Hr. assert (Hr1 : live s1 r') by (destruct r'; exact Hr).
      destruct (ref_eq_dec r' r) as [->|N]; [congruence|].
      destruct (Other r' N Hr1) as (A & B & Cc & Dd). rewrite B, Dd. symmetry. apply E1. assumption.
    + intros r' Hr Hs Hrr. assert (Hr1 : live s1 r') by (destruct r'; exact Hr).
      destruct (Sm r') as (M1 & M2 & M3 & _).
      destruct (ref_eq_dec r' r) as [->|N].
      * rewrite Pr. destruct ws; [|cbn; lia]. exfalso.
        destruct (match r with RL _ => fixed_genus (rgenus s1 r) | RP _ => false end) eqn:Ef.
        { unfold stretchy_ref in Hs. destruct r; [|discriminate]. rewrite M3, Ef in Hs. discriminate. }
        destruct (Hst eq_refl) as [_ X]. congruence.
      * destruct (Other r' N Hr1) as (A & B & Cc & Dd). rewrite B, Dd. apply Tp; [assumption|..].
        -- destruct (same_plen s s1 r r' S N A) as (_ & _ & _ & Gg). unfold stretchy_ref in *. rewrite M3, Gg in Hs. exact Hs.
        -- destruct (same_plen s s1 r r' S N A) as (_ & _ & Gg & _). congruence.
    + intros j Hj. change (nslots s2) with (nslots s1) in Hj. change (stype s2) with (stype s1).
      rewrite (q_nslots _ _ Cf) in Hj. rewrite (q_stype _ _ Cf). apply Ts; assumption.
  - constructor; try (apply Cf).
    + intros r' N. rewrite <- (field_same s s1 r r' S N). unfold field.
      destruct (Sm r') as (_ & _ & _ & M4 & M5). rewrite M4, M5.
      destruct (liveb s1 r') eqn:E; [|reflexivity]. apply liveb_iff in E.
      destruct (Other r' N E) as (_ & _ & V & _). rewrite V. reflexivity.
    + unfold field. destruct (Sm r) as (M1 & M2 & M3 & M4 & M5). rewrite M5, M4.
      replace (liveb s1 r) with true by (symmetry; apply liveb_iff; assumption).
      f_equal. f_equal. unfold value. rewrite M1, M2, M3, Hin, Pr. apply read_write.
    + intros x Hx. rewrite Hdat; [rewrite (q_dat _ _ Cf); reflexivity|]. intros Hy. apply Hx.
      split; [destruct r; exact Hl|]. rewrite Pr, <- HL. exact Hy.
    + intros r' N Hr. destruct (Sm r') as [-> _]. apply (same_plen s s1 r r' S N Hr).
Qed.
