(** * TupleExact: the condition on new fields is exact (proofs): wherever it fails, the code as it
    stands leaves a hole laid over a live payload. *)
From Verif Require Import Base Tag TagProofs Codec Gear GearBase GearSearch GearProofs GearMerge GearAlloc
  GearRealloc GearResize GearAsis Tuple TupleProofs TupleSteps TupleView TupleOps TupleHist TupleFacts.
From Coq Require Import ZifyBool ZifyNat.
Ltac Zify.zify_post_hook ::= Z.div_mod_to_equations.

(** a hole laid over the payload of a field: the next allocation from the hole is handed units of the
    field *)
Definition overlaid (s : st) : Prop := exists h r x, nzh s h /\ hole_begin s h <= x < hole_end s h /\
  live s r /\ raddr s r <= x < raddr s r + plen s r.

Lemma sumn_two n f i k : (i < n)%nat -> (k < n)%nat -> i <> k -> (forall i, 0 <= f i) -> f i + f k <= sumn n f.
Proof.
  intros Hi Hk N P. destruct (Nat.lt_total i k) as [A|[A|A]]; [|contradiction|].
  - apply sumn_ge2; [lia|auto].
  - rewrite Z.add_comm. apply sumn_ge2; [lia|auto].
Qed.
Lemma hole_owner_apart s h r x : TInv s -> nzh s h -> live s r ->
  hole_begin s h <= x < hole_end s h -> raddr s r <= x < raddr s r + plen s r -> False.
Proof.
  intros T (Hk & Hh & Hu) Hl Hx Hy. pose proof (v_acc _ _ (t_inv _ T)) as H.
  pose proof (i_cov _ _ _ _ _ _ H x) as Cv. unfold cov, zero_d in Cv.
  pose proof (ind_range (base s) (tail s - base s) x) as R.
  set (F := fun k => ind (addr s k) (len s (plen s) k) x) in *.
  set (G := fun j => ind (raddr s (RP j)) (plen s (RP j)) x) in *.
  assert (Fn : forall i, 0 <= F i) by (intros i; apply ind_range).
  assert (Gn : forall i, 0 <= G i) by (intros i; apply ind_range).
  assert (F1 : F h = 1). { unfold F. apply ind_1. unfold len. rewrite Hh. exact Hx. }
  destruct r as [k|j].
  - destruct Hl as [Hk' Hh']. assert (N : h <> k) by (intros ->; congruence).
    assert (F2 : F k = 1). { unfold F. apply ind_1. unfold len. rewrite Hh'. exact Hy. }
    pose proof (sumn_two (cnt s) F h k Hk Hk' N Fn).
    pose proof (sumn_nonneg (nslots s) G (fun i _ => Gn i)). lia.
  - assert (G1 : G j = 1) by (apply ind_1; exact Hy).
    pose proof (sumn_ge1 (nslots s) G j Hl (fun i _ => Gn i)).
    pose proof (sumn_ge1 (cnt s) F h Hk (fun i _ => Fn i)). lia.
Qed.
Lemma holes_apart s h k x : TInv s -> nzh s h -> nzh s k -> h <> k ->
  hole_begin s h <= x < hole_end s h -> hole_begin s k <= x < hole_end s k -> False.
Proof.
  intros T (Hk & Hh & Hu) (Hk' & Hh' & Hu') N Hx Hy. pose proof (v_acc _ _ (t_inv _ T)) as H.
  pose proof (i_cov _ _ _ _ _ _ H x) as Cv. unfold cov, zero_d in Cv.
  pose proof (ind_range (base s) (tail s - base s) x) as R.
  set (F := fun k => ind (addr s k) (len s (plen s) k) x) in *.
  assert (Fn : forall i, 0 <= F i) by (intros i; apply ind_range).
  assert (F1 : F h = 1). { unfold F. apply ind_1. unfold len. rewrite Hh. exact Hx. }
  assert (F2 : F k = 1). { unfold F. apply ind_1. unfold len. rewrite Hh'. exact Hy. }
  pose proof (sumn_two (cnt s) F h k Hk Hk' N Fn).
  pose proof (sumn_nonneg (nslots s) _ (fun j _ => proj1 (ind_range (raddr s (RP j)) (plen s (RP j)) x))). lia.
Qed.
Lemma not_overlaid s : TInv s -> ~ overlaid s.
Proof. intros T (h & r & x & A & B & C & D). eapply hole_owner_apart; eassumption. Qed.

Lemma unit_owner s x : TInv s -> base s <= x < tail s ->
  (exists r, live s r /\ raddr s r <= x < raddr s r + plen s r) \/
  (exists h, nzh s h /\ hole_begin s h <= x < hole_end s h).
Proof.
  intros T Hx. pose proof (v_acc _ _ (t_inv _ T)) as H.
  pose proof (i_cov _ _ _ _ _ _ H x) as Cv. unfold cov, zero_d in Cv. rewrite (ind_1 (base s)) in Cv by lia.
  set (F := fun k => ind (addr s k) (len s (plen s) k) x) in *.
  set (G := fun j => ind (raddr s (RP j)) (plen s (RP j)) x) in *.
  assert (Fn : forall i, 0 <= F i) by (intros i; apply ind_range).
  assert (Gn : forall i, 0 <= G i) by (intros i; apply ind_range).
  destruct (Z_lt_dec 0 (sumn (cnt s) F)) as [P|P].
  - destruct (sumn_pos _ _ (fun i _ => Fn i) P) as (k & Hk & Pk). apply ind_1_inv in Pk. unfold len in Pk.
    destruct (is_hole (idx s k)) eqn:Eh.
    + right. exists k. split; [split; [exact Hk|split; [exact Eh|lia]]|exact Pk].
    + left. exists (RL k). split; [split; assumption|exact Pk].
  - assert (P' : 0 < sumn (nslots s) G) by (pose proof (sumn_nonneg (cnt s) F (fun i _ => Fn i)); lia).
    destruct (sumn_pos _ _ (fun i _ => Gn i) P') as (j & Hj & Pj). apply ind_1_inv in Pj.
    left. exists (RP j). split; assumption.
Qed.

(** The code as it stands and its repaired variant differ in one entry: the rest of the hole. *)
Lemma split_twin s tag u k s1 : TInv s -> 0 <= u < 65536 -> split_slip s u = true -> alloc_loose asis s tag u = Ok k s1 ->
  exists h s2, let ex := hunits (idx s h) - u in
    nzh s h /\ 0 < u /\ 0 < ex /\ ex <> u /\ alloc_loose repaired s tag u = Ok k s2 /\ k <> h /\
    cfg_eq s2 s1 /\ cnt s1 = cnt s2 /\ jc s1 = jc s2 /\ jv s1 = jv s2 /\ tail s1 = tail s2 /\ pre s1 = pre s2 /\
    (forall i, i <> h -> idx s1 i = idx s2 i) /\ is_hole (idx s1 h) = true /\ is_hole (idx s2 h) = true /\
    hunits (idx s1 h) = ex /\ hunits (idx s2 h) = ex /\ (h < cnt s2)%nat /\
    addr s2 k = hole_begin s h /\ addr s2 h = hole_begin s h + u /\ addr s1 h = hole_begin s h + ex.
Proof.
  intros T Hu Hs E. unfold split_slip in Hs. apply andb_prop in Hs. destruct Hs as [Hs0 Hs].
  pose proof (v_acc _ _ (t_inv _ T)) as H. pose proof (i_cfg _ _ _ _ _ _ H) as Hc. destruct Hc as [c1 c2 c3 c4 c6].
  destruct (lookup_fit_spec s (plen s) u H ltac:(lia)) as ([h|] & Lf & Q); rewrite Lf in Hs; [|discriminate].
  destruct Q as ((Hh1 & Hh2 & Hh3) & Hle & _). pose proof (hunits_range (idx s h)) as Hr.
  assert (Ex : u32 (hunits (idx s h) - u) = hunits (idx s h) - u) by (unfold u32; rewrite Z.mod_small; lia).
  rewrite Ex in Hs. exists h. assert (Up : 0 < u) by lia. assert (Xp : 0 < hunits (idx s h) - u) by lia.
  assert (Xn : hunits (idx s h) - u <> u) by lia. clear Hs Hs0.
  unfold alloc_loose in *. replace (u =? 0) with false in * by lia. rewrite Lf, Ex in *.
  replace (hunits (idx s h) - u =? 0) with false in * by lia.
  pose proof (index_alloc_spec _ _ _ _ _ H) as Q.
  destruct (index_alloc s) as [k' s0|s0|]; cbn [bind q_split asis repaired] in *; [|discriminate|discriminate].
  injection E as <- <-.
  destruct Q as (Q1 & Q2 & Q3 & Q4 & Q5 & Q6 & Q7 & Q8 & Q9 & Q10 & Q11 & Q12).
  assert (Nhk : k' <> h) by (intros ->; apply Q9; repeat split; assumption).
  assert (Ow : forall i, own s0 i = own s i) by (intros; unfold own; rewrite (q_pivot _ _ Q1); reflexivity).
  assert (Hb : base s <= hole_begin s h /\ hole_end s h <= tail s)
    by (apply (nzh_bounds s (plen s) H h); repeat split; assumption).
  pose proof (own_lt_base _ _ _ _ _ _ h H Hh1) as Oh.
  set (ex := hunits (idx s h) - u) in *.
  unfold hole_end in Hb. change (addr s h) with (hole_begin s h) in Hb.
  set (ek := set_payload s0 k' (mkE 0 (u16 tag)) (hole_begin s0 h)).
  assert (Hb0 : hole_begin s0 h = hole_begin s h) by (unfold hole_begin, addr; rewrite Ow, Q2; reflexivity).
  assert (Ok0 : 0 <= own s k' < base s).
  { split; [|unfold own, base; lia]. destruct Q12 as [(X & _)|(X & X')].
    - pose proof (own_lt_base _ _ _ _ _ _ k' H X). lia.
    - unfold own. rewrite X. unfold head_space in X'. lia. }
  assert (Hbd : 0 <= hole_begin s h - own s k' < 65536) by lia.
  assert (Ek : rel ek = hole_begin s h - own s k').
  { cbn [ek set_payload rel]. rewrite Hb0, Ow. unfold u16. rewrite Z.mod_small by exact Hbd. reflexivity. }
  set (s2 := set_ent s0 k' ek) in *.
  assert (E2h : idx s2 h = idx s h).
  { change (idx s2) with (fupd (idx s0) k' ek). rewrite fupd_other by (intros X; apply Nhk; symmetry; exact X). rewrite Q2. reflexivity. }
  change (fupd (idx s0) k' ek h) with (idx s2 h). rewrite E2h.
  set (Fd := fun d => with_jv (set_ent s2 h (set_units (add_delta (idx s h) d) ex)) (jv s2 - u)).
  assert (Fh : forall d, 0 <= d <= hunits (idx s h) -> is_hole (idx (Fd d) h) = true /\ hunits (idx (Fd d) h) = ex /\
                         addr (Fd d) h = hole_begin s h + d).
  { intros d Hd. destruct (set_units_hole (add_delta (idx s h) d) ex ltac:(lia)) as (A1 & A2 & A3 & A4).
    unfold addr, own. change (idx (Fd d)) with (fupd (idx s2) h (set_units (add_delta (idx s h) d) ex)). change (pivot (Fd d)) with (pivot s0). rewrite fupd_same.
    split; [exact A1|]. split; [exact A2|]. rewrite A3. cbn [add_delta rel]. fold (own s0 h). rewrite Ow.
    unfold hole_begin, addr in *. unfold u16. rewrite Z.mod_small by lia. lia. }
  assert (Fo : forall d i, i <> h -> idx (Fd d) i = idx s2 i).
  { intros d i N. change (idx (Fd d)) with (fupd (idx s2) h (set_units (add_delta (idx s h) d) ex)). apply fupd_other. exact N. }
  exists (Fd u). cbv zeta.
  split; [repeat split; assumption|]. split; [exact Up|]. split; [exact Xp|]. split; [exact Xn|].
  split; [reflexivity|]. split; [exact Nhk|].
  change (with_jv (set_ent s2 h (set_units (add_delta (idx s h) ex) ex)) (jv s0 - u)) with (Fd ex).
  split; [constructor; reflexivity|]. split; [reflexivity|]. split; [reflexivity|]. split; [reflexivity|]. split; [reflexivity|]. split; [reflexivity|].
  destruct (Fh ex ltac:(lia)) as (A1 & A2 & A3). destruct (Fh u ltac:(lia)) as (B1 & B2 & B3).
  split; [intros i Ni; transitivity (idx s2 i); [exact (Fo ex i Ni)|symmetry; exact (Fo u i Ni)]|].
  split; [exact A1|]. split; [exact B1|]. split; [exact A2|]. split; [exact B2|].
  split; [change (cnt (Fd u)) with (cnt s0); lia|]. split; [|split; [exact B3|exact A3]].
  unfold addr. rewrite Fo by exact Nhk. change (idx s2) with (fupd (idx s0) k' ek). rewrite fupd_same, Ek.
  change (own (Fd u) k') with (own s0 k'). rewrite Ow. lia.
Qed.

(** a hole [h] laid over the unit [x] of the field [r], which the search by size will find *)
Definition laid (s : st) (h : nat) (r : ref) (x : Z) : Prop :=
  nzh s h /\ hole_begin s h <= x < hole_end s h /\ live s r /\ raddr s r <= x < raddr s r + plen s r.
Definition searchable (s : st) : Prop := jc s = sumn (cnt s) (hcount s) /\ (forall k, nzh s k -> hunits (idx s k) <= jv s).

(** ** A new field cut out of a hole the faulty way *)
Lemma split_overlays s desc v k s1 : TInv s -> real_desc desc -> wf_pay (descriptor2genus desc) (pay v) ->
  calm_new s (new_units desc v) = false -> alloc_loose asis s desc (new_units desc v) = Ok k s1 ->
  exists h r x, laid (write_new desc k v s1) h r x /\ searchable (write_new desc k v s1).
Proof.
  intros T Hd Hwf Hc E. unfold calm_new in Hc. apply Bool.negb_false_iff in Hc.
  pose proof (new_units_range _ _ Hwf) as Hu. set (u := new_units desc v) in *.
  destruct (split_twin s desc u k s1 T Hu Hc E) as (h & s2 & Nh & Up & Xp & Xn & Er & Nk & Cf & Ec & Ejc & Ejv & Et & Ep & Eo & H1 & H2 & U1 & U2 & Hk & Ak & Ah2 & Ah1).
  set (ex := hunits (idx s h) - u) in *.
  destruct (alloc_loose_field s desc (pay v) u k s2 T (proj1 Hd) (real_not_hole _ _ Hd) Hwf eq_refl Er) as (Ndead & T2 & Ef).
  fold (write_new desc k v s2) in T2, Ef.
  assert (Ni : is_inplaced_genus (descriptor2genus desc) = false).
  { destruct (is_inplaced_genus (descriptor2genus desc)) eqn:Ei; [|reflexivity]. apply inplaced_units in Ei. unfold u, new_units in Up.
    rewrite (proj2 Ei) in Up. lia. }
  unfold write_new in *. rewrite Ni in *.
  assert (Ak1 : addr s1 k = addr s2 k).
  { unfold addr. rewrite Eo by exact Nk. unfold own. rewrite (q_pivot _ _ Cf). reflexivity. }
  rewrite Ak1. set (a := addr s2 k) in *.
  set (w1 := write_units s1 a (pay v)). set (w2 := write_units s2 a (pay v)) in *.
  assert (D : dat w1 = dat w2) by (cbn [w1 w2 write_units with_dat dat]; rewrite (q_dat _ _ Cf); reflexivity).
  (* live references other than the rest of the hole are the same in both *)
  assert (Sm : forall r, live w2 r -> live w1 r /\ raddr w1 r = raddr w2 r /\ plen w1 r = plen w2 r).
  { intros r Hl. assert (Nr : r <> RL h). { intros ->. destruct Hl as [_ Hl]. cbn in Hl. congruence. }
    assert (Q : rown w1 r = rown w2 r /\ rrel w1 r = rrel w2 r /\ rgenus w1 r = rgenus w2 r /\ live w1 r).
    { destruct r as [i|j].
      - assert (i <> h) by congruence. destruct Hl as [L1 L2]. cbn [w1 w2 write_units with_dat cnt idx] in L1, L2.
        cbn [rown rrel rgenus live]. unfold own. cbn [w1 w2 write_units with_dat cnt idx pivot].
        rewrite Eo, (q_pivot _ _ Cf), Ec by assumption. auto.
      - cbn [rown rrel rgenus live] in *. cbn [w1 w2 write_units with_dat cnt idx pivot nslots soff stype pre] in *.
        rewrite (q_pivot _ _ Cf), (q_soff _ _ Cf), (q_stype _ _ Cf), (q_nslots _ _ Cf), Ep. auto. }
    destruct Q as (Q1 & Q2 & Q3 & Q4). split; [exact Q4|].
    assert (Qa : raddr w1 r = raddr w2 r) by (unfold raddr; congruence). split; [exact Qa|].
    unfold plen. rewrite Q2, Q3, Qa, D. reflexivity. }
  assert (N1 : nzh w1 h) by (split; [cbn; lia|split; [exact H1|cbn; lia]]).
  assert (B1 : hole_begin w1 h = hole_begin s h + ex) by exact Ah1.
  assert (E1 : hole_end w1 h = hole_begin s h + ex + ex).
  { change (hole_end w1 h) with (addr s1 h + hunits (idx s1 h)). rewrite Ah1, U1. reflexivity. }
  assert (N2 : nzh w2 h) by (split; [exact Hk|split; [exact H2|cbn; lia]]).
  assert (B2 : hole_begin w2 h = hole_begin s h + u) by exact Ah2.
  assert (E2 : hole_end w2 h = hole_begin s h + u + ex).
  { change (hole_end w2 h) with (addr s2 h + hunits (idx s2 h)). rewrite Ah2, U2. reflexivity. }
  assert (Fk : live w2 (RL k) /\ plen w2 (RL k) = u).
  { pose proof (e_field _ _ _ _ Ef) as F. destruct (liveb w2 (RL k)) eqn:Lb; [|unfold field in F; rewrite Lb in F; discriminate].
    apply liveb_iff in Lb. split; [exact Lb|]. rewrite field_live in F by exact Lb.
    assert (G : descriptor2genus (gid (idx s2 k)) = descriptor2genus desc) by (injection F as F1 _; cbn [rdesc] in F1; f_equal; exact F1).
    assert (V : value w2 (RL k) = pay v) by (injection F as _ F2; exact F2).
    assert (Lp : Z.of_nat (length (value w2 (RL k))) = plen w2 (RL k)).
    { unfold value. change (rgenus w2 (RL k)) with (descriptor2genus (gid (idx s2 k))). rewrite G, Ni.
      rewrite read_units_length, Z2Nat.id by apply plen_nonneg. reflexivity. }
    rewrite <- Lp, V. unfold u, new_units. unfold wf_pay in Hwf. rewrite Ni in Hwf.
    destruct (fixed_genus (descriptor2genus desc)); [|reflexivity]. lia. }
  assert (Rk : raddr w2 (RL k) = hole_begin s h) by exact Ak.
  assert (Sh : searchable w1).
  { pose proof (v_acc _ _ (t_inv _ T2)) as I2.
    assert (Hc2 : forall i, is_hole (idx w1 i) = is_hole (idx w2 i) /\ hunits (idx w1 i) = hunits (idx w2 i)).
    { intros i. cbn [w1 w2 write_units with_dat idx]. destruct (Nat.eq_dec i h) as [->|N]; [split; congruence|].
      rewrite (Eo i N). auto. }
    split.
    - change (jc w1) with (jc s1). rewrite Ejc. change (jc s2) with (jc w2). change (cnt w1) with (cnt s1). rewrite Ec. change (cnt s2) with (cnt w2).
      pose proof (i_jc _ _ _ _ _ _ I2) as J. rewrite Z.add_0_r in J. rewrite <- J. apply sumn_ext. intros i _. unfold hcount. rewrite (proj1 (Hc2 i)). reflexivity.
    - intros i (K1 & K2 & K3). change (jv w1) with (jv s1). rewrite Ejv. change (jv s2) with (jv w2).
      rewrite (proj1 (Hc2 i)) in K2. rewrite (proj2 (Hc2 i)) in *. apply (hunits_le_jv w2 (plen w2) I2).
      split; [change (cnt w2) with (cnt s2); rewrite <- Ec; exact K1|auto]. }
  destruct (Z_lt_dec ex u) as [Lt|Ge].
  - (* the rest of the hole lies over the new field *)
    exists h, (RL k), (hole_begin s h + ex). destruct (Sm (RL k) (proj1 Fk)) as (L1 & R1 & P1). split; [|exact Sh].
    split; [exact N1|]. split; [lia|]. split; [exact L1|]. rewrite R1, P1, Rk, (proj2 Fk). lia.
  - (* ... or over what follows the old hole *)
    set (x := hole_begin s h + u + ex).
    pose proof (nzh_bounds w2 (plen w2) (v_acc _ _ (t_inv _ T2)) h N2) as Bd.
    pose proof (v_notail _ _ (t_inv _ T2) h N2) as Nt.
    destruct (unit_owner w2 x T2 ltac:(lia)) as [(r & Lr & Xr)|(i & Ii & Xi)].
    + exists h, r, x. destruct (Sm r Lr) as (L1 & R1 & P1). split; [|exact Sh]. split; [exact N1|]. split; [lia|]. split; [exact L1|]. rewrite R1, P1. exact Xr.
    + exfalso. assert (Nih : i <> h) by (intros ->; lia).
      pose proof (v_nonadj _ _ (t_inv _ T2) h i N2 Ii) as Na.
      apply (holes_apart w2 h i (x - 1) T2 N2 Ii); [congruence|lia|lia].
Qed.

(** the entry of a new field carries its descriptor *)
Lemma alloc_gid s desc v k s1 : TInv s -> real_desc desc -> wf_pay (descriptor2genus desc) (pay v) ->
  alloc_loose asis s desc (new_units desc v) = Ok k s1 -> gid (idx s1 k) = desc.
Proof.
  intros T Hd Hw E. pose proof (new_units_range _ _ Hw) as Hu. destruct (split_slip s (new_units desc v)) eqn:C.
  - destruct (split_twin s desc _ k s1 T Hu C E) as (h & s2 & _ & _ & _ & _ & Er & Nk & _ & _ & _ & _ & _ & _ & Eo & _).
    rewrite (Eo k Nk). pose proof (alloc_loose_spec s (plen s) desc _ (t_inv _ T) Hu (proj1 Hd) (real_not_hole _ _ Hd)) as Q.
    rewrite Er in Q. apply Q.
  - pose proof (new_field_step s desc v T Hd Hw) as Q. unfold calm_new in Q. rewrite C in Q. specialize (Q eq_refl). rewrite E in Q. apply Q.
Qed.

(** ** The next field of exactly that size *)
Lemma fit_finds s h : searchable s -> nzh s h -> (forall k, nzh s k -> hunits (idx s k) = hunits (idx s h) -> k = h) ->
  lookup_fit s (hunits (idx s h)) = Some (Some h).
Proof.
  intros [J V] Nh Un. pose proof (hunits_range (idx s h)) as R. pose proof (V h Nh) as Vh. destruct Nh as (H1 & H2 & H3). unfold lookup_fit.
  assert (Jp : 1 <= jc s).
  { rewrite J. pose proof (sumn_ge1 (cnt s) (hcount s) h H1 (fun i _ => hcount_nonneg s i)) as G. unfold hcount at 1 in G. rewrite H2 in G. cbn in G. lia. }
  replace ((jc s <? 1) || (jv s <? hunits (idx s h))) with false by lia. replace (hunits (idx s h) =? 0) with false by lia.
  destruct (fit_loop_spec s (hunits (idx s h)) (cnt s) (jc s) None ltac:(lia) J) as (r & -> & Q); [intros; discriminate|].
  destruct r as [k|].
  - destruct Q as (Q1 & [Q2|[Q2 Q3]] & _ & Q4); [discriminate|]. f_equal. f_equal.
    assert (k = h); [|assumption]. specialize (Q4 h H1 H2 ltac:(lia)). apply Un; [split; [assumption|split; [assumption|lia]]|lia].
  - exfalso. destruct Q as [_ Q]. specialize (Q h H1 H2). lia.
Qed.
Lemma next_tramples s h r x desc v : laid s h r x -> searchable s ->
  (forall k, nzh s k -> hunits (idx s k) = hunits (idx s h) -> k = h) ->
  real_desc desc -> wf_pay (descriptor2genus desc) (pay v) -> new_units desc v = hunits (idx s h) ->
  exists s', run1 asis s (OAppend desc true v) = Ok tt s' /\ r <> RL h /\ live s' r /\ raddr s' r = raddr s r /\
    live s' (RL h) /\ raddr s' (RL h) <= x < raddr s' (RL h) + Z.of_nat (length (pay v)) /\
    dat s' x = nth (Z.to_nat (x - raddr s' (RL h))) (pay v) 0.
Proof.
  intros (Nh & Xh & Lr & Xr) Sh Un Hd Hwf Hn. pose proof (fit_finds s h Sh Nh Un) as Ff. pose proof (hunits_range (idx s h)) as R.
  assert (Nr : r <> RL h) by (intros ->; destruct Lr as [_ Lr]; destruct Nh as (_ & Nh & _); congruence).
  destruct Nh as (H1 & H2 & H3).
  assert (Ni : is_inplaced_genus (descriptor2genus desc) = false).
  { destruct (is_inplaced_genus (descriptor2genus desc)) eqn:Ei; [|reflexivity]. apply inplaced_units in Ei. unfold new_units in Hn.
    rewrite (proj2 Ei) in Hn. lia. }
  set (s1 := set_ent (with_jc (with_jv s (jv s - hunits (idx s h))) (jc s - 1)) h (mkE (rel (idx s h)) desc)).
  assert (Al : alloc_loose asis s desc (new_units desc v) = Ok h s1).
  { unfold alloc_loose. rewrite Hn. replace (hunits (idx s h) =? 0) with false by lia. rewrite Ff.
    rewrite Z.sub_diag. cbn [u32 Z.modulo Z.eqb]. change (u32 0 =? 0) with true. cbv iota.
    unfold u16. rewrite (Z.mod_small desc) by (destruct Hd as [Hd _]; lia). reflexivity. }
  assert (Gi : idx s1 h = mkE (rel (idx s h)) desc) by (cbn [s1 set_ent idx]; apply fupd_same).
  assert (Ru : run1 asis s (OAppend desc true v) = Ok tt (write_new desc h v s1)).
  { cbn [run1]. unfold append_loose. cbv zeta. cbn [negb andb]. unfold new_units in Al.
    destruct (fixed_genus (descriptor2genus desc)) eqn:Fx; rewrite Al; cbn [bind void].
    - rewrite (write_fixed_new desc) by (try assumption; rewrite Gi; reflexivity). reflexivity.
    - rewrite (write_stretchy_new desc) by assumption. reflexivity. }
  exists (write_new desc h v s1). split; [exact Ru|]. split; [exact Nr|].
  unfold write_new. rewrite Ni.
  assert (Ah : addr s1 h = hole_begin s h) by (unfold addr, hole_begin, addr; rewrite Gi; reflexivity).
  assert (Lp : Z.of_nat (length (pay v)) = hunits (idx s h)).
  { rewrite <- Hn. unfold new_units. unfold wf_pay in Hwf. rewrite Ni in Hwf. destruct (fixed_genus (descriptor2genus desc)); [exact Hwf|reflexivity]. }
  split.
  { destruct r as [i|j]; [|exact Lr]. destruct Lr as [L1 L2]. split; [exact L1|].
    change (idx (write_units s1 (addr s1 h) (pay v)) i) with (fupd (idx s) h (mkE (rel (idx s h)) desc) i).
    rewrite fupd_other by congruence. exact L2. }
  split.
  { destruct r as [i|j]; [|reflexivity]. unfold raddr. cbn [rown rrel]. f_equal.
    change (idx (write_units s1 (addr s1 h) (pay v)) i) with (fupd (idx s) h (mkE (rel (idx s h)) desc) i).
    rewrite fupd_other by congruence. reflexivity. }
  split.
  { split; [exact H1|]. change (idx (write_units s1 (addr s1 h) (pay v)) h) with (idx s1 h). rewrite Gi. apply real_not_hole. exact Hd. }
  change (raddr (write_units s1 (addr s1 h) (pay v)) (RL h)) with (addr s1 h). rewrite Ah.
  unfold hole_end in Xh. change (addr s h) with (hole_begin s h) in Xh. split; [lia|].
  assert (Wd : forall a ws y, a <= y < a + Z.of_nat (length ws) -> dat (write_units s1 a ws) y = nth (Z.to_nat (y - a)) ws 0).
  { intros a ws y Hy. cbn [write_units with_dat dat]. rewrite (proj2 (Z.leb_le _ _)) by lia. rewrite (proj2 (Z.ltb_lt _ _)) by lia. reflexivity. }
  apply Wd. lia.
Qed.

(** ** Removing a payload of more than 2047 units *)
Lemma adj_off s b e n : forall left bf af, sumn n (hcount s) < left -> adj_loop s b e n left bf af = None.
Proof.
  induction n as [|n IH]; intros left bf af H; cbn [adj_loop sumn] in *.
  - replace (left <=? 0) with false by lia. reflexivity.
  - pose proof (sumn_nonneg n (hcount s) (fun k _ => hcount_nonneg s k)) as P. pose proof (hcount_nonneg s n) as P'.
    replace (left <=? 0) with false by lia. unfold hcount at 2 in H. destruct (is_hole (idx s n)); cbn [negb Z.b2z] in *.
    + destruct (hunits (idx s n) =? 0); cbn [negb]; apply IH; lia.
    + apply IH. lia.
Qed.
Lemma wide_not_hole e u : 2047 < u < 65536 -> is_hole (set_units e u) = false.
Proof.
  intros H. rewrite is_hole_arith. unfold set_units. cbn [gid]. unfold make_hole, u16, u32, genus_shift.
  rewrite collection_threshold_val. change g_hole with 31. rewrite Z.shiftl_mul_pow2 by lia.
  change (2 ^ 11) with 2048. change (2 ^ 32) with 4294967296. change (2 ^ 16) with 65536. lia.
Qed.
Lemma release_wide s k u : TInv s -> live s (RL k) -> 2047 < u < 65536 -> release_loose s k u = Bad.
Proof.
  intros T [Hk Hh] Hu. unfold release_loose. cbv zeta. replace (u =? 0) with false by lia.
  match goal with |- match lookup_adjacent ?w _ _ with _ => _ end = _ => set (s1 := w) end.
  assert (J : sumn (cnt s1) (hcount s1) < jc s1).
  { change (cnt s1) with (cnt s). change (jc s1) with (u16 (jc s + 1)).
    pose proof (v_acc _ _ (t_inv _ T)) as A. pose proof (i_jc _ _ _ _ _ _ A) as J. pose proof (i_jcr _ _ _ _ _ _ A) as Jr.
    destruct (i_cfg _ _ _ _ _ _ A) as [c1 c2 c3 c4 _]. unfold base in c3.
    assert (G : sumn (cnt s) (hcount s) <= Z.of_nat (cnt s)).
    { clear. induction (cnt s) as [|n IH]; cbn [sumn]; [lia|]. unfold hcount at 2. destruct (is_hole (idx s n)); cbn [Z.b2z]; lia. }
    assert (U : u16 (jc s + 1) = jc s + 1) by (unfold u16; change (2 ^ 16) with 65536; apply Z.mod_small; lia). rewrite U.
    rewrite (sumn_ext (cnt s) (hcount s1) (hcount s)); [lia|]. intros i _. unfold hcount. f_equal.
    change (idx s1) with (fupd (idx s) k (set_units (idx s k) u)). unfold fupd.
    destruct (Nat.eqb_spec i k) as [->|N]; [|reflexivity]. rewrite Hh. apply wide_not_hole. exact Hu. }
  unfold lookup_adjacent. rewrite adj_off by exact J. reflexivity.
Qed.
Lemma plen_small s r : plen s r < 65536.
Proof.
  unfold plen. pose proof (loose_units_range (rgenus s r)). pose proof (brutto_range (rgenus s r) (dat s (raddr s r))).
  destruct r as [k|j]; [destruct (fixed_genus _)|]; try lia; destruct (rrel s _ =? 0); lia.
Qed.
