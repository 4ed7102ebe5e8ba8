(** * GearMerge: merging holes and releasing (proofs). *)
From Verif Require Import Base Tag TagProofs Gear GearBase GearSearch GearProofs.
From Coq Require Import ZifyBool ZifyNat.
Ltac Zify.zify_post_hook ::= Z.div_mod_to_equations.

(** rewriting a hole into another hole *)
Lemma P_hole s L D T C V k e : InvD s L D T C V ->
  (k < cnt s)%nat -> is_hole (idx s k) = true -> is_hole e = true -> ent_ok e ->
  InvD (set_ent s k e) L
    (fun x => D x - ind (addr s k) (hunits (idx s k)) x + ind (own s k + rel e) (hunits e) x)
    (T - hunits (idx s k) + hunits e) C (V - hunits (idx s k) + hunits e).
Proof.
  intros H Hk Hh He Ho.
  pose proof (P_set s L _ _ _ _ H k e L Hk Ho (i_len _ _ _ _ _ _ H _) (fun _ _ => eq_refl)) as A.
  cbv zeta in A. eapply InvD_eq; [exact A|..]; unfold len, hcount, hvol; rewrite Hh, He; cbn [Z.b2z]; try lia.
Qed.

Lemma hole_end_eq s k : hole_end s k = hole_begin s k + hunits (idx s k).
Proof. reflexivity. Qed.

Lemma own_lt_base s L D T C V k : InvD s L D T C V -> (k < cnt s)%nat -> 0 <= own s k < base s.
Proof.
  intros H Hk. destruct (i_cfg _ _ _ _ _ _ H). unfold own, base in *. lia.
Qed.

(** [nzh] is decided by index entries *)
Lemma nzh_same s s' i : idx s' i = idx s i -> (cnt s <= cnt s')%nat -> nzh s i -> nzh s' i.
Proof. intros E Hc (A & B & Cc). split; [lia|]. rewrite E. auto. Qed.

Lemma merge_spec s L f g : Inv0 s L -> nzh s f -> nzh s g -> hole_end s f = hole_begin s g ->
  hunits (idx s f) + hunits (idx s g) <= 2047 ->
  (forall x, nzh s x -> hole_end s x = tail s -> x = g) ->
  (hole_end s g = tail s -> forall x, nzh s x -> hole_end s x <> hole_begin s f) ->
  let r := fst (merge_holes s f g) in let s' := snd (merge_holes s f g) in
  Inv0 s' L /\ same s s' none /\ (r = f \/ r = g) /\
  hole_begin s' r = hole_begin s f /\ hole_end s' r = hole_end s g /\
  (forall x, nzh s' x -> x <> r -> x <> f /\ x <> g) /\
  (forall x, x <> f -> x <> g -> idx s' x = idx s x /\ (nzh s' x <-> nzh s x)) /\
  ((tail s' = tail s /\ nzh s' r) \/
   (hole_end s g = tail s /\ tail s' = hole_begin s f /\ ~ nzh s' r)).
Proof.
  intros H Nf Ng Hadj Hsum HT HP.
  assert (Nfg : f <> g).
  { intros ->. destruct Nf as (_ & _ & U). rewrite hole_end_eq in Hadj. lia. }
  pose proof (nzh_bounds s L H f Nf) as [Bf Ef]. pose proof (nzh_bounds s L H g Ng) as [Bg Eg].
  pose proof (i_cfg _ _ _ _ _ _ H) as Hc. destruct Hc as [c1 c2 c3 c4 c6].
  assert (Nf0 := Nf). assert (Ng0 := Ng).
  destruct Nf as (Kf & Hf & Uf). destruct Ng as (Kg & Hg & Ug).
  unfold hole_begin, hole_end in Hadj, Bf, Ef, Bg, Eg.
  pose proof (own_lt_base _ _ _ _ _ _ f H Kf) as Of. pose proof (own_lt_base _ _ _ _ _ _ g H Kg) as Og.
  pose proof (i_ent _ _ _ _ _ _ H f Kf) as (Rf & Gf & _).
  pose proof (i_ent _ _ _ _ _ _ H g Kg) as (Rg & Gg & _).
  assert (Hu : 0 < hunits (idx s f) + hunits (idx s g) <= 2047).
  { lia. }
  unfold merge_holes. set (units := hunits (idx s f) + hunits (idx s g)) in *.
  destruct (is_begin s f) eqn:Eb; cbn [negb].
  - (* the second hole grows downwards and the first entry is dropped *)
    set (e1 := set_units (add_delta (idx s g) (- hunits (idx s f))) units).
    destruct (set_units_hole (add_delta (idx s g) (- hunits (idx s f))) units ltac:(lia)) as (S1 & S2 & S3 & S4).
    fold e1 in S1, S2, S3, S4.
    assert (Er : rel e1 = rel (idx s g) - hunits (idx s f)).
    { rewrite S3. cbn [add_delta rel]. unfold u16. unfold addr in Hadj, Bf. rewrite Z.mod_small; lia. }
    assert (Ho : ent_ok e1) by (split; [unfold addr in *; lia|split; [assumption|intros; lia]]).
    set (s1 := set_ent s g e1).
    pose proof (P_hole _ _ _ _ _ _ g e1 H Kg Hg S1 Ho) as H1. fold s1 in H1.
    assert (E1 : idx s1 g = e1) by apply fupd_same.
    assert (Eo : forall i, i <> g -> idx s1 i = idx s i) by (intros; apply fupd_other; assumption).
    assert (Ef1 : idx s1 f = idx s f) by (apply Eo; assumption).
    assert (Af1 : addr s1 f = addr s f) by (unfold addr; rewrite Ef1; reflexivity).
    assert (Ag1 : addr s1 g = addr s f) by (unfold addr; rewrite E1, Er; unfold addr in Hadj; unfold own in *; cbn; lia).
    assert (N1 : forall x, x <> g -> (nzh s1 x <-> nzh s x)).
    { intros x Nx. unfold nzh. rewrite Eo by assumption. tauto. }
    assert (B1 : forall x, x <> g -> hole_begin s1 x = hole_begin s x /\ hole_end s1 x = hole_end s x).
    { intros x Nx. unfold hole_begin, hole_end, addr. rewrite Eo by assumption. auto. }
    assert (Eg1 : hole_end s1 g = hole_end s g) by (unfold hole_end; rewrite Ag1, E1, S2; unfold units; lia).
    replace (trim_hole (purge s1 f)) with (purge_trim s1 f).
    2:{ unfold purge_trim. change (is_begin (purge s1 f) f) with (is_begin s f). rewrite Eb. reflexivity. }
    cbn [fst snd].
    destruct (purge_trim_spec s1 L f) as (A1 & A2 & A3 & A4 & A5 & A6).
    { exact Kf. } { rewrite Ef1. exact Hf. }
    { rewrite Ef1, Af1. eapply InvD_eq; [exact H1|..]; unfold zero_d; rewrite ?S2; unfold units; try lia.
      intros x. rewrite Er.
      replace (own s g + (rel (idx s g) - hunits (idx s f))) with (addr s f) by (unfold addr in *; lia).
      rewrite ind_split, Hadj by lia. lia. }
    { intros h Nh Nhf Eh x Nx Nxf. change (tail s1) with (tail s) in Eh.
      destruct (Nat.eq_dec h g) as [->|Nhg].
      - unfold hole_begin. rewrite Ag1. change (addr s f) with (hole_begin s f).
        destruct (Nat.eq_dec x g) as [->|Nxg].
        + rewrite Eg1. unfold hole_end, hole_begin. lia.
        + rewrite (proj2 (B1 x Nxg)). apply HP; [congruence|apply N1; assumption].
      - exfalso. apply Nhg. apply HT; [apply N1; assumption|rewrite <- (proj2 (B1 h Nhg)); assumption]. }
    assert (Eg' : idx (purge_trim s1 f) g = e1) by (rewrite A5 by auto; exact E1).
    assert (Ow : forall i, own (purge_trim s1 f) i = own s i)
      by (intros; unfold own; rewrite (q_pivot _ _ (f_cfg _ _ _ A2)); reflexivity).
    split; [assumption|]. split.
    { eapply same_trans; [|exact A2]. apply same_hole; assumption. }
    split; [auto|].
    split; [unfold hole_begin, addr; rewrite Eg', Ow, Er; unfold addr in Hadj; lia|].
    split; [unfold hole_end, addr; rewrite Eg', Ow, Er, S2; unfold addr in Hadj; unfold units; lia|].
    split; [intros x Nx Nxg; split; [intros ->; apply (A4 Nx)|assumption]|].
    destruct A6 as [[T1 T2]|(h & T1 & T2 & T3 & T4 & T5 & T6 & T7)].
    + split.
      { intros x Nxf Nxg. split; [rewrite A5, Eo by assumption; reflexivity|]. split.
        - intros X. apply A3 in X. apply N1; [assumption|apply X].
        - intros X. apply T2; [apply N1; assumption|assumption]. }
      left. split; [exact T1|]. apply T2; [|auto].
      split; [exact Kg|]. rewrite E1. split; [assumption|lia].
    + assert (h = g) as ->.
      { destruct (Nat.eq_dec h g) as [->|N]; [reflexivity|]. elim N. apply HT; [apply N1; assumption|].
        rewrite <- (proj2 (B1 h N)). exact T4. }
      split.
      { intros x Nxf Nxg. split; [rewrite A5, Eo by assumption; reflexivity|]. split.
        - intros X. apply A3 in X. apply N1; [assumption|apply X].
        - intros X. apply T6; [apply N1; assumption|assumption|assumption]. }
      right. split; [rewrite <- Eg1; exact T4|]. split; [rewrite T5; unfold hole_begin; rewrite Ag1; reflexivity|].
      intros (X & _). lia.
  - (* the first hole grows upwards and the second entry is dropped *)
    set (e1 := set_units (idx s f) units).
    destruct (set_units_hole (idx s f) units ltac:(lia)) as (S1 & S2 & S3 & S4).
    fold e1 in S1, S2, S3, S4.
    assert (Ho : ent_ok e1) by (split; [lia|split; [assumption|intros; lia]]).
    set (s1 := set_ent s f e1).
    pose proof (P_hole _ _ _ _ _ _ f e1 H Kf Hf S1 Ho) as H1. fold s1 in H1.
    assert (E1 : idx s1 f = e1) by apply fupd_same.
    assert (Eo : forall i, i <> f -> idx s1 i = idx s i) by (intros; apply fupd_other; assumption).
    assert (Eg1 : idx s1 g = idx s g) by (apply Eo; auto).
    assert (Ag1 : addr s1 g = addr s g) by (unfold addr; rewrite Eg1; reflexivity).
    assert (Af1 : addr s1 f = addr s f) by (unfold addr; rewrite E1, S3; reflexivity).
    assert (N1 : forall x, x <> f -> (nzh s1 x <-> nzh s x)).
    { intros x Nx. unfold nzh. rewrite Eo by assumption. tauto. }
    assert (B1 : forall x, x <> f -> hole_begin s1 x = hole_begin s x /\ hole_end s1 x = hole_end s x).
    { intros x Nx. unfold hole_begin, hole_end, addr. rewrite Eo by assumption. auto. }
    assert (Ef1 : hole_end s1 f = hole_end s g) by (unfold hole_end; rewrite Af1, E1, S2; unfold units; lia).
    cbn [fst snd].
    destruct (purge_trim_spec s1 L g) as (A1 & A2 & A3 & A4 & A5 & A6).
    { exact Kg. } { rewrite Eg1. exact Hg. }
    { rewrite Eg1, Ag1. eapply InvD_eq; [exact H1|..]; unfold zero_d; rewrite ?S2; unfold units; try lia.
      intros x. rewrite S3. change (own s f + rel (idx s f)) with (addr s f).
      rewrite ind_split, Hadj by lia. lia. }
    { intros h Nh Nhf Eh x Nx Nxf. change (tail s1) with (tail s) in Eh.
      destruct (Nat.eq_dec h f) as [->|Nhg].
      - unfold hole_begin. rewrite Af1. change (addr s f) with (hole_begin s f).
        destruct (Nat.eq_dec x f) as [->|Nxg].
        + rewrite Ef1. unfold hole_end, hole_begin. lia.
        + rewrite (proj2 (B1 x Nxg)). apply HP; [congruence|apply N1; assumption].
      - exfalso. apply Nhf. apply HT; [apply N1; assumption|rewrite <- (proj2 (B1 h Nhg)); assumption]. }
    assert (Eg' : idx (purge_trim s1 g) f = e1) by (rewrite A5 by auto; exact E1).
    assert (Ow : forall i, own (purge_trim s1 g) i = own s i)
      by (intros; unfold own; rewrite (q_pivot _ _ (f_cfg _ _ _ A2)); reflexivity).
    split; [assumption|]. split.
    { eapply same_trans; [|exact A2]. apply same_hole; assumption. }
    split; [auto|].
    split; [unfold hole_begin, addr; rewrite Eg', Ow, S3; reflexivity|].
    split; [unfold hole_end, addr; rewrite Eg', Ow, S3, S2; unfold addr in Hadj; unfold units; lia|].
    split; [intros x Nx Nxg; split; [assumption|intros ->; apply (A4 Nx)]|].
    destruct A6 as [[T1 T2]|(h & T1 & T2 & T3 & T4 & T5 & T6 & T7)].
    + split.
      { intros x Nxf Nxg. split; [rewrite A5, Eo by assumption; reflexivity|]. split.
        - intros X. apply A3 in X. apply N1; [assumption|apply X].
        - intros X. apply T2; [apply N1; assumption|assumption]. }
      left. split; [exact T1|]. apply T2; [|auto].
      split; [exact Kf|]. rewrite E1. split; [assumption|lia].
    + assert (h = f) as ->.
      { destruct (Nat.eq_dec h f) as [->|N]; [reflexivity|]. elim T1. apply HT; [apply N1; assumption|].
        rewrite <- (proj2 (B1 h N)). exact T4. }
      split.
      { intros x Nxf Nxg. split; [rewrite A5, Eo by assumption; reflexivity|]. split.
        - intros X. apply A3 in X. apply N1; [assumption|apply X].
        - intros X. apply T6; [apply N1; assumption|assumption|assumption]. }
      right. split; [rewrite <- Ef1; exact T4|]. split; [rewrite T5; unfold hole_begin; rewrite Af1; reflexivity|].
      intros (X & _). lia.
Qed.

(** ** The state between "one more hole" and "holes merged" *)
Record Pre (s : st) (L : ref -> Z) (k : nat) : Prop := {
  p_acc : Inv0 s L; p_nz : nzh s k;
  p_nonadj : forall i j, nzh s i -> nzh s j -> i <> k -> j <> k -> hole_end s i <> hole_begin s j;
  p_notail : forall i, nzh s i -> i <> k -> hole_end s i <> tail s
}.

Lemma same_idx_be s s' x : cfg_eq s s' -> idx s' x = idx s x ->
  hole_begin s' x = hole_begin s x /\ hole_end s' x = hole_end s x.
Proof.
  intros Hc E. unfold hole_begin, hole_end, addr, own. rewrite (q_pivot _ _ Hc), E. auto.
Qed.

Lemma merge_left s L k b : Pre s L k -> nzh s b -> hole_end s b = hole_begin s k ->
  hunits (idx s b) + hunits (idx s k) <= 2047 ->
  let r := fst (merge_holes s b k) in let s' := snd (merge_holes s b k) in
  same s s' none /\
  ((Pre s' L r /\ hole_begin s' r = hole_begin s b /\ hole_end s' r = hole_end s k /\ tail s' = tail s /\
    (forall x, x <> r -> (nzh s' x <-> nzh s x /\ x <> b /\ x <> k)) /\
    (forall x, x <> b -> x <> k -> idx s' x = idx s x)) \/
   (Inv s' L /\ hole_end s k = tail s /\ hole_end s' r <> tail s' /\ tail s' <= tail s /\
     tail s' = hole_begin s b /\ forall x, nzh s' x -> nzh s x /\ x <> b /\ x <> k)).
Proof.
  intros [H Nk Hna Hnt] Nb E Hsum r s'.
  assert (Nbk : b <> k).
  { intros ->. destruct Nk as (_ & _ & U). rewrite hole_end_eq in E. lia. }
  assert (HT : forall x, nzh s x -> hole_end s x = tail s -> x = k).
  { intros x Nx Ex. destruct (Nat.eq_dec x k) as [->|N]; [reflexivity|]. elim (Hnt x Nx N Ex). }
  assert (HP : hole_end s k = tail s -> forall x, nzh s x -> hole_end s x <> hole_begin s b).
  { intros Ek x Nx. destruct (Nat.eq_dec x k) as [->|N].
    - pose proof (nzh_bounds s L H b Nb) as [B1 B2]. destruct Nb as (_ & _ & U).
      rewrite hole_end_eq in B2. lia.
    - apply Hna; assumption. }
  destruct (merge_spec s L b k H Nb Nk E Hsum HT HP) as (A1 & A2 & A3 & A4 & A5 & A6 & A7 & A8).
  fold r s' in A1, A2, A3, A4, A5, A6, A7, A8.
  split; [assumption|].
  assert (Hother : forall x, nzh s' x -> x <> r -> nzh s x /\ x <> b /\ x <> k /\
            hole_begin s' x = hole_begin s x /\ hole_end s' x = hole_end s x).
  { intros x X N. destruct (A6 x X N) as [N1 N2]. destruct (A7 x N1 N2) as [Ei En].
    split; [apply En; assumption|]. split; [assumption|]. split; [assumption|].
    apply same_idx_be; [apply (f_cfg _ _ _ A2)|assumption]. }
  destruct A8 as [[T1 T2]|(T1 & T2 & T3)].
  - left. split; [constructor; auto|].
    + intros i j Hi Hj Ni Nj. destruct (Hother i Hi Ni) as (B1 & B2 & B3 & _ & B5).
      destruct (Hother j Hj Nj) as (C1 & C2 & C3 & C4 & _). rewrite B5, C4. apply Hna; assumption.
    + intros i Hi Ni. destruct (Hother i Hi Ni) as (B1 & B2 & B3 & _ & B5).
      rewrite B5, T1. apply Hnt; assumption.
    + split; [assumption|]. split; [assumption|]. split; [assumption|]. split.
      * intros x Nx. split.
        -- intros X. destruct (Hother x X Nx) as (B1 & B2 & B3 & _). auto.
        -- intros (X & N1 & N2). apply A7; assumption.
      * intros x N1 N2. apply A7; assumption.
  - right.
    assert (Nr : forall x, nzh s' x -> x <> r) by (intros x X ->; apply (T3 X)).
    split; [constructor; auto|].
    + intros i j Hi Hj. destruct (Hother i Hi (Nr i Hi)) as (B1 & B2 & B3 & _ & B5).
      destruct (Hother j Hj (Nr j Hj)) as (C1 & C2 & C3 & C4 & _). rewrite B5, C4. apply Hna; assumption.
    + intros i Hi. destruct (Hother i Hi (Nr i Hi)) as (B1 & B2 & B3 & _ & B5).
      rewrite B5, T2. apply HP; assumption.
    + pose proof (nzh_bounds s L H b Nb) as [D1 D2]. destruct Nb as (_ & _ & U). destruct Nk as (_ & _ & U').
      split; [assumption|]. split; [rewrite A5, T1, T2; rewrite hole_end_eq in D2; lia|].
      split; [rewrite T2; rewrite hole_end_eq in D2; lia|]. split; [assumption|].
      intros x X. destruct (Hother x X (Nr x X)) as (B1 & B2 & B3 & _). auto.
Qed.

Lemma merge_right s L k a : Pre s L k -> nzh s a -> hole_end s k = hole_begin s a -> a <> k ->
  hunits (idx s k) + hunits (idx s a) <= 2047 ->
  let r := fst (merge_holes s k a) in let s' := snd (merge_holes s k a) in
  same s s' none /\ Pre s' L r /\ hole_begin s' r = hole_begin s k /\ hole_end s' r = hole_end s a /\
  tail s' = tail s /\ (forall x, x <> r -> (nzh s' x <-> nzh s x /\ x <> k /\ x <> a)) /\
  (forall x, x <> k -> x <> a -> idx s' x = idx s x).
Proof.
  intros [H Nk Hna Hnt] Nb E Nak Hsum r s'.
  pose proof (Hnt a Nb Nak) as Ea.
  pose proof (nzh_bounds s L H a Nb) as [D1 D2].
  assert (HT : forall x, nzh s x -> hole_end s x = tail s -> x = a).
  { intros x Nx Ex. destruct (Nat.eq_dec x k) as [->|N]; [|elim (Hnt x Nx N Ex)].
    destruct Nb as (_ & _ & U). rewrite hole_end_eq in D2. lia. }
  destruct (merge_spec s L k a H Nk Nb E Hsum HT (fun E => False_ind _ (Ea E))) as (A1 & A2 & A3 & A4 & A5 & A6 & A7 & A8).
  fold r s' in A1, A2, A3, A4, A5, A6, A7, A8.
  split; [assumption|].
  assert (Hother : forall x, nzh s' x -> x <> r -> nzh s x /\ x <> k /\ x <> a /\
            hole_begin s' x = hole_begin s x /\ hole_end s' x = hole_end s x).
  { intros x X N. destruct (A6 x X N) as [N1 N2]. destruct (A7 x N1 N2) as [Ei En].
    split; [apply En; assumption|]. split; [assumption|]. split; [assumption|].
    apply same_idx_be; [apply (f_cfg _ _ _ A2)|assumption]. }
  destruct A8 as [[T1 T2]|(T1 & _)]; [|contradiction].
  split; [constructor; auto|].
  - intros i j Hi Hj Ni Nj. destruct (Hother i Hi Ni) as (B1 & B2 & B3 & _ & B5).
    destruct (Hother j Hj Nj) as (C1 & C2 & C3 & C4 & _). rewrite B5, C4. apply Hna; assumption.
  - intros i Hi Ni. destruct (Hother i Hi Ni) as (B1 & B2 & B3 & _ & B5).
    rewrite B5, T1. apply Hnt; assumption.
  - split; [assumption|]. split; [assumption|]. split; [assumption|]. split.
    + intros x Nx. split.
      * intros X. destruct (Hother x X Nx) as (B1 & B2 & B3 & _). auto.
      * intros (X & N1 & N2). apply A7; assumption.
    + intros x N1 N2. apply A7; assumption.
Qed.

(** the hole next to the tail evaporates *)
Lemma evaporate_spec s L k : Pre s L k -> hole_end s k = tail s ->
  (forall x, nzh s x -> hole_end s x <> hole_begin s k) ->
  let u := hunits (idx s k) in
  let s' := purge_trim (with_jv (with_tail s (tail s - u)) (jv s - u)) k in
  Inv s' L /\ same s s' none /\ tail s' = tail s - u /\
  (forall x, nzh s' x <-> nzh s x /\ x <> k) /\ (forall i, i <> k -> idx s' i = idx s i).
Proof.
  intros [H Nk Hna Hnt] Et Hb u s'.
  set (s1 := with_jv (with_tail s (tail s - u)) (jv s - u)) in *.
  pose proof (nzh_bounds s L H k Nk) as [B1 B2].
  pose proof (hunits_le_jv s L H k Nk) as Hv.
  destruct Nk as (Kk & Hk & Uk). rewrite hole_end_eq in Et, B2. fold u in Uk, Hv, Et, B2.
  pose proof (c_tail _ (i_cfg _ _ _ _ _ _ H)) as Ct.
  assert (H1 : InvD s1 L (fun x => ind (addr s1 k) (hunits (idx s1 k)) x) (hunits (idx s1 k)) 0 (hunits (idx s1 k))).
  { pose proof (P_tail _ L _ _ _ _ H (tail s - u) ltac:(lia)) as A.
    pose proof (P_jv _ L _ _ _ _ A (jv s - u)) as B.
    specialize (B ltac:(pose proof (i_jvr _ _ _ _ _ _ H); lia)). fold s1 in B.
    change (idx s1 k) with (idx s k). change (addr s1 k) with (hole_begin s k). fold u.
    eapply InvD_eq; [exact B|..]; unfold zero_d; try lia.
    - intros x. replace (tail s - u) with (hole_begin s k) by lia.
      replace (tail s - base s) with ((hole_begin s k - base s) + u) by lia.
      rewrite ind_split by lia. replace (base s + (hole_begin s k - base s)) with (hole_begin s k) by lia. lia.
    - change (jv (with_tail s (tail s - u))) with (jv s). lia. }
  assert (Nt : forall h, nzh s1 h -> h <> k -> hole_end s1 h = tail s1 -> False).
  { intros h Nh N Eh. change (hole_end s1 h) with (hole_end s h) in Eh.
    change (tail s1) with (tail s - u) in Eh. apply (Hb h Nh). lia. }
  destruct (purge_trim_spec s1 L k Kk Hk H1) as (A1 & A2 & A3 & A4 & A5 & A6).
  { intros h Nh N Eh. elim (Nt h Nh N Eh). }
  fold s' in A1, A2, A3, A4, A5, A6.
  destruct A6 as [[T1 T2]|(h & T1 & T2 & T3 & T4 & _)]; [|elim (Nt h T3 T1 T4)].
  assert (Hx : forall x, nzh s' x -> nzh s x /\ x <> k).
  { intros x X. split; [apply (proj1 (A3 x X))|intros ->; apply (A4 X)]. }
  split.
  { constructor; [assumption|..].
    - intros i j Hi Hj. destruct (A3 i Hi) as (_ & _ & E1). destruct (A3 j Hj) as (_ & E2 & _).
      rewrite E1, E2. destruct (Hx i Hi), (Hx j Hj). apply Hna; assumption.
    - intros i Hi Ei. destruct (A3 i Hi) as (X & _ & E1). destruct (Hx i Hi) as [_ N].
      apply (Nt i X N). congruence. }
  split.
  { eapply same_trans; [|exact A2]. eapply same_trans; [apply same_tail|apply same_jv]. }
  split; [exact T1|]. split; [|exact A5].
  intros x. split; [apply Hx|]. intros [X N]. apply T2; assumption.
Qed.

(** ** Removing a loose field *)
Lemma release_loose_full s L k : Inv s L -> live s (RL k) ->
  (L (RL k) = 0 \/ forall ba, adj_ok s (addr s k) (addr s k + L (RL k)) ba ->
     L (RL k) + hu s (fst ba) + hu s (snd ba) <= 2047) ->
  exists s', release_loose s k (L (RL k)) = Ok tt s' /\ Inv s' L /\
    (~ live s' (RL k) /\ is_hole (idx s' k) = true) /\
    same s s' (only (RL k)) /\ tail s' <= tail s.
Proof.
  intros [H Hna Hnt] [Kk Hk] Hcap. unfold release_loose.
  pose proof (i_len _ _ _ _ _ _ H (RL k)) as Hl0. pose proof (i_jvr _ _ _ _ _ _ H) as Hjvr.
  pose proof (i_cfg _ _ _ _ _ _ H) as Hc. destruct Hc as [c1 c2 c3 c4 c6].
  pose proof (i_ent _ _ _ _ _ _ H k Kk) as (Rk & Gk & _).
  pose proof (i_jcr _ _ _ _ _ _ H) as Hjcr.
  assert (Hjc : jc s + 1 < 65536).
  { pose proof (i_jc _ _ _ _ _ _ H) as E.
    assert (G : forall n, (n <= cnt s)%nat -> sumn n (hcount s) <= Z.of_nat n).
    { induction n as [|n IH]; intros Hn; cbn [sumn]; [lia|]. unfold hcount at 2.
      specialize (IH ltac:(lia)). lia. }
    specialize (G (cnt s) (le_n _)). unfold base in *. lia. }
  set (s0 := with_jc s (jc s + 1)).
  pose proof (P_jc s L _ _ _ _ H (jc s + 1) ltac:(lia)) as H0. fold s0 in H0.
  destruct (L (RL k) =? 0) eqn:El.
  - (* no payload *)
    assert (l0 : L (RL k) = 0) by lia.
    destruct purged_hole as (P1 & P2 & P3 & P4).
    assert (Op : ent_ok purged) by (split; [rewrite P3; lia|split; [lia|intros; lia]]).
    pose proof (P_set s0 L _ _ _ _ H0 k purged L Kk Op Hl0 (fun _ _ => eq_refl)) as A. cbv zeta in A.
    set (s1 := set_ent s0 k purged) in *.
    assert (H1 : Inv0 s1 L).
    { eapply InvD_eq; [exact A|..]; unfold zero_d, len, hcount, hvol;
        change (idx s0 k) with (idx s k); rewrite Hk, P1, ?P2; cbn [Z.b2z]; rewrite ?l0; try lia.
      intros x. rewrite !ind_0 by lia. reflexivity. }
    assert (E1 : idx s1 k = purged) by apply fupd_same.
    assert (Eo : forall i, i <> k -> idx s1 i = idx s i) by (intros; apply fupd_other; assumption).
    assert (N1 : forall x, nzh s1 x -> nzh s x /\ x <> k).
    { intros x (X1 & X2 & X3). assert (x <> k) by (intros ->; rewrite E1, P2 in X3; lia).
      rewrite Eo in X2, X3 by assumption. split; [split; [exact X1|auto]|assumption]. }
    assert (B1 : forall x, x <> k -> hole_begin s1 x = hole_begin s x /\ hole_end s1 x = hole_end s x).
    { intros x Nx. unfold hole_begin, hole_end, addr. rewrite Eo by assumption. auto. }
    assert (S1 : same s s1 (only (RL k))).
    { eapply same_trans; [apply (same_jc s (jc s + 1))|apply same_any]. }
    (* purge_trim s0 k = purge_trim s1 k *)
    replace (purge_trim s0 k) with (if is_begin s1 k then trim_hole s1 else s1) by reflexivity.
    assert (NT : notail s1).
    { intros i Hi. destruct (N1 i Hi) as [X N]. rewrite (proj2 (B1 i N)). apply Hnt; assumption. }
    assert (NA : nonadj s1).
    { intros i j Hi Hj. destruct (N1 i Hi) as [X N]. destruct (N1 j Hj) as [X' N'].
      rewrite (proj2 (B1 i N)), (proj1 (B1 j N')). apply Hna; assumption. }
    destruct (is_begin s1 k) eqn:Eb.
    + unfold is_begin in Eb. apply Nat.eqb_eq in Eb.
      destruct (trim_spec s1 L k (eq_sym Eb)) as (T1 & T2 & T3 & T4 & T5 & T6).
      { rewrite E1; assumption. } { rewrite E1; assumption. } { assumption. }
      { intros h Nh Eh. elim (NT h Nh Eh). }
      destruct T6 as [[T6 T7]|(h & _ & T6 & T7 & _)]; [|elim (NT h T6 T7)].
      eexists. split; [reflexivity|]. split.
      { constructor; [assumption|eapply hsub_nonadj; eassumption|eapply hsub_notail; eassumption]. }
      split; [split; [intros [X _]; lia|rewrite T2, E1; exact P1]|]. split; [|rewrite T6; cbn; lia].
      eapply same_trans; [exact S1|]. eapply same_weaken; [exact T3|]. intros r [].
    + eexists. split; [reflexivity|]. split; [constructor; assumption|].
      split; [|split; [exact S1|cbn; lia]]. rewrite E1, P1. split; [|reflexivity].
      intros [_ X]. rewrite E1, P1 in X. discriminate.
  - (* with payload *)
    pose proof (live_bounds s L H (RL k) (conj Kk Hk) ltac:(lia)) as [B1 B2].
    set (units := L (RL k)) in *.
    change (raddr s (RL k)) with (addr s k) in B1, B2.
    destruct Hcap as [Hcap|Hcap]; [lia|].
    assert (Ucap : units <= 2047).
    { destruct (lookup_adjacent_spec s (addr s k) (addr s k + units)
        ltac:(pose proof (i_jc _ _ _ _ _ _ H); lia)) as (ba & _ & Hba).
      pose proof (Hcap ba Hba). pose proof (hu_range s (fst ba)). pose proof (hu_range s (snd ba)). lia. }
    set (e1 := set_units (idx s0 k) units).
    destruct (set_units_hole (idx s0 k) units ltac:(lia)) as (S1 & S2 & S3 & S4).
    fold e1 in S1, S2, S3, S4.
    assert (Ho : ent_ok e1) by (split; [change (idx s0 k) with (idx s k) in S3; lia|split; [assumption|intros; lia]]).
    pose proof (P_set s0 L _ _ _ _ H0 k e1 L Kk Ho Hl0 (fun _ _ => eq_refl)) as A. cbv zeta in A.
    set (s1 := set_ent s0 k e1) in *.
    change (jv s0) with (jv s). pose proof (jv_live_bound s L H (RL k) (conj Kk Hk)) as Hjv. fold units in Hjv.
    pose proof (P_jv s1 L _ _ _ _ A (jv s + units)
      ltac:(pose proof (i_jvr _ _ _ _ _ _ H); unfold base in *; lia)) as A'.
    set (s2 := with_jv s1 (jv s + units)) in *.
    assert (H2 : Inv0 s2 L).
    { eapply InvD_eq; [exact A'|..]; unfold zero_d, len, hcount, hvol;
        change (idx s0 k) with (idx s k); rewrite Hk, S1, ?S2; cbn [Z.b2z]; try (fold units; lia).
      - intros x. rewrite S3. change (idx s0 k) with (idx s k).
        change (own s0 k + rel (idx s k)) with (addr s k). change (addr s0 k) with (addr s k).
        fold units. lia.
      - change (jv s1) with (jv s). lia. }
    assert (E1 : idx s2 k = e1) by apply fupd_same.
    assert (Eo : forall i, i <> k -> idx s2 i = idx s i) by (intros; apply fupd_other; assumption).
    assert (Nk : nzh s2 k) by (split; [exact Kk|rewrite E1; split; [assumption|lia]]).
    assert (N1 : forall x, x <> k -> (nzh s2 x <-> nzh s x)).
    { intros x Nx. unfold nzh. rewrite Eo by assumption. tauto. }
    assert (Bo : forall x, x <> k -> hole_begin s2 x = hole_begin s x /\ hole_end s2 x = hole_end s x).
    { intros x Nx. unfold hole_begin, hole_end, addr. rewrite Eo by assumption. auto. }
    assert (PP : Pre s2 L k).
    { constructor; auto.
      - intros i j Hi Hj Ni Nj. rewrite (proj2 (Bo i Ni)), (proj1 (Bo j Nj)).
        apply Hna; apply N1; assumption.
      - intros i Hi Ni. rewrite (proj2 (Bo i Ni)). apply Hnt; apply N1; assumption. }
    assert (Sm : same s s2 (only (RL k))).
    { eapply same_trans; [apply (same_jc s (jc s + 1))|].
      eapply same_trans; [apply same_any|apply same_jv]. }
    assert (Dead : ~ live s2 (RL k)) by (intros [_ X]; rewrite E1, S1 in X; discriminate).
    destruct (lookup_adjacent_spec s2 (hole_begin s2 k) (hole_end s2 k)
      ltac:(pose proof (i_jc _ _ _ _ _ _ H2); lia)) as ([bf af] & El' & Hb & Ha).
    rewrite El'. cbn [fst snd] in Hb, Ha.
    assert (Be2 : hole_begin s2 k = addr s k).
    { unfold hole_begin, addr. rewrite E1, S3. reflexivity. }
    assert (Ee2 : hole_end s2 k = addr s k + units) by (rewrite hole_end_eq, Be2, E1, S2; reflexivity).
    assert (Fb : forall b, bf = Some b -> b <> k).
    { intros b -> ->. destruct Hb as [_ Hb]. lia. }
    assert (Fa : forall a, af = Some a -> a <> k).
    { intros a -> ->. destruct Ha as [_ Ha]. lia. }
    assert (Cap2 : units + hu s2 bf + hu s2 af <= 2047).
    { specialize (Hcap (bf, af)). cbn [fst snd] in Hcap.
      replace (hu s2 bf) with (hu s bf)
        by (destruct bf as [b|]; [cbn [hu]; rewrite Eo by (apply Fb; reflexivity)|]; reflexivity).
      replace (hu s2 af) with (hu s af)
        by (destruct af as [b|]; [cbn [hu]; rewrite Eo by (apply Fa; reflexivity)|]; reflexivity).
      apply Hcap. split; cbn [fst snd].
      - destruct bf as [b|].
        + pose proof (Fb b eq_refl) as N. destruct Hb as [X Y]. split; [apply N1; assumption|].
          rewrite <- (proj2 (Bo b N)). lia.
        + intros x X. destruct (Nat.eq_dec x k) as [->|N]; [destruct X as (_ & X & _); congruence|].
          rewrite <- (proj2 (Bo x N)), <- Be2. apply Hb, N1; assumption.
      - destruct af as [b|].
        + pose proof (Fa b eq_refl) as N. destruct Ha as [X Y]. split; [apply N1; assumption|].
          rewrite <- (proj1 (Bo b N)). lia.
        + intros x X. destruct (Nat.eq_dec x k) as [->|N]; [destruct X as (_ & X & _); congruence|].
          rewrite <- (proj1 (Bo x N)), <- Ee2. apply Ha, N1; assumption. }
    (* after both merges *)
    assert (M : forall k' s', Pre s' L k' -> same s2 s' none -> tail s' = tail s2 ->
      (forall x, nzh s' x -> hole_end s' x <> hole_begin s' k') ->
      (forall x, nzh s' x -> hole_begin s' x <> hole_end s' k') ->
      exists s'', (if negb (hole_end s' k' =? tail s') then Ok tt s' else
         let u := hunits (idx s' k') in
         let s0 := with_jv (with_tail s' (tail s' - u)) (jv s' - u) in Ok tt (purge_trim s0 k')) = Ok tt s'' /\
        Inv s'' L /\ (~ live s'' (RL k) /\ is_hole (idx s'' k) = true) /\ same s s'' (only (RL k)) /\ tail s'' <= tail s).
    { intros k' s' Pk Sk Tk Hbk Hak.
      destruct (hole_end s' k' =? tail s') eqn:Et; cbn [negb].
      - destruct (evaporate_spec s' L k' Pk ltac:(lia) Hbk) as (A1 & A2 & A3 & A4 & _).
        eexists. split; [reflexivity|]. split; [exact A1|].
        assert (Sf : same s2 (purge_trim (with_jv (with_tail s' (tail s' - hunits (idx s' k')))
                       (jv s' - hunits (idx s' k'))) k') none)
          by (eapply same_trans; eassumption).
        split; [split; [intros X; apply Dead; apply (f_live _ _ _ Sf); [intros []|exact X]|apply (f_hole _ _ _ Sf); [intros []|apply Nk]]|].
        split; [eapply same_trans; [exact Sm|eapply same_weaken; [exact Sf|intros r []]]|].
        pose proof (hunits_range (idx s' k')). change (tail s) with (tail s2). lia.
      - exists s'. split; [reflexivity|]. destruct Pk as [Q1 Q2 Q3 Q4]. split.
        { constructor; [assumption|..].
          - intros i j Hi Hj. destruct (Nat.eq_dec j k') as [->|Nj]; [apply Hbk; assumption|].
            destruct (Nat.eq_dec i k') as [->|Ni]; [|apply Q3; assumption].
            intros E. apply (Hak j Hj). auto.
          - intros i Hi. destruct (Nat.eq_dec i k') as [->|Ni]; [lia|apply Q4; assumption]. }
        split; [split; [intros X; apply Dead; apply (f_live _ _ _ Sk); [intros []|exact X]|apply (f_hole _ _ _ Sk); [intros []|apply Nk]]|].
        split; [eapply same_trans; [exact Sm|eapply same_weaken; [exact Sk|intros r []]]|].
        change (tail s) with (tail s2). lia. }
    (* the two merges *)
    assert (Mr : forall k' s' (Pk : Pre s' L k') (Sk : same s2 s' none) (Tk : tail s' = tail s2),
      (forall x, nzh s' x -> hole_end s' x <> hole_begin s' k') ->
      (forall x, nzh s' x -> x <> k' -> nzh s2 x /\ x <> k) ->
      (forall x, nzh s' x -> x <> k' -> hole_begin s' x = hole_begin s2 x) ->
      hole_end s' k' = hole_end s2 k ->
      (match af with Some a => a <> k' /\ nzh s' a /\ hole_begin s' a = hole_begin s2 a /\
           hunits (idx s' k') + hunits (idx s' a) <= 2047 | None => True end) ->
      exists s'', (let '(k, s) := match af with Some a => merge_holes s' k' a | None => (k', s') end in
         if negb (hole_end s k =? tail s) then Ok tt s else
         let u := hunits (idx s k) in
         let s0 := with_jv (with_tail s (tail s - u)) (jv s - u) in Ok tt (purge_trim s0 k)) = Ok tt s'' /\
        Inv s'' L /\ (~ live s'' (RL k) /\ is_hole (idx s'' k) = true) /\ same s s'' (only (RL k)) /\ tail s'' <= tail s).
    { intros k' s' Pk Sk Tk Hbk Hxk Hbx Hek Haf. destruct af as [a|].
      - destruct Ha as [Na Ea]. destruct Haf as (Nak & Na' & Ba' & Sum).
        destruct (merge_right s' L k' a Pk Na' ltac:(congruence) Nak Sum) as (A1 & A2 & A3 & A4 & A5 & A6 & A7).
        destruct (merge_holes s' k' a) as [r2 s3] eqn:Em. cbn [fst snd] in *.
        assert (Bx : forall x, nzh s3 x -> x <> r2 -> nzh s' x /\ x <> k' /\ x <> a /\
                  hole_begin s3 x = hole_begin s' x /\ hole_end s3 x = hole_end s' x).
        { intros x X N. apply (A6 x N) in X. destruct X as (X1 & X2 & X3).
          split; [assumption|]. split; [assumption|]. split; [assumption|].
          apply same_idx_be; [apply (f_cfg _ _ _ A1)|apply A7; assumption]. }
        assert (Self : hole_end s3 r2 <> hole_begin s3 r2).
        { destruct (p_nz _ _ _ A2) as (_ & _ & U). rewrite hole_end_eq. lia. }
        apply M; auto.
        + eapply same_trans; eassumption.
        + congruence.
        + intros x X. destruct (Nat.eq_dec x r2) as [->|N]; [assumption|].
          destruct (Bx x X N) as (Y1 & Y2 & Y3 & Y4 & Y5). rewrite Y5, A3. apply Hbk; assumption.
        + intros x X. destruct (Nat.eq_dec x r2) as [->|N]; [auto|].
          destruct (Bx x X N) as (Y1 & Y2 & Y3 & Y4 & Y5). rewrite Y4, A4.
          intros E. apply (p_nonadj _ _ _ Pk a x Na' Y1); auto.
      - apply M; auto. intros x X. destruct (Nat.eq_dec x k') as [->|N].
        + destruct (p_nz _ _ _ Pk) as (_ & _ & U). rewrite hole_end_eq. lia.
        + rewrite Hek, (Hbx x X N). destruct (Hxk x X N) as [X2 _].
          intros E. apply (Ha x X2). exact E. }
    assert (Self : hole_end s2 k <> hole_begin s2 k).
    { destruct Nk as (_ & _ & U). rewrite hole_end_eq. lia. }
    destruct bf as [b|].
    + destruct Hb as [Nb Eb].
      assert (SumL : hunits (idx s2 b) + hunits (idx s2 k) <= 2047).
      { rewrite E1, S2. cbn [hu] in Cap2. pose proof (hu_range s2 af). lia. }
      destruct (merge_left s2 L k b PP Nb Eb SumL) as (A1 & [A2|A2]).
      * destruct A2 as (A2 & A3 & A4 & A5 & A6 & A7).
        destruct (merge_holes s2 b k) as [r1 s3] eqn:Em. cbn [fst snd] in *.
        assert (Rb : b <> k) by (intros ->; congruence).
        assert (Rr : forall a, nzh s2 a -> a <> b -> a <> k -> a <> r1).
        { intros a _ Ha1 Ha2 ->. pose proof (merge_spec s2 L b k H2 Nb Nk Eb SumL) as Q.
          rewrite Em in Q. cbn [fst snd] in Q.
          destruct Q as (_ & _ & [Q|Q] & _); [| |contradiction|contradiction].
          - intros x X Ex. destruct (Nat.eq_dec x k) as [->|N]; [reflexivity|].
            elim (p_notail _ _ _ PP x X N Ex).
          - intros Ek x X. destruct (Nat.eq_dec x k) as [->|N].
            + pose proof (nzh_bounds s2 L H2 b Nb) as [D1 D2].
              destruct Nb as (_ & _ & U). rewrite hole_end_eq in D2. lia.
            + apply (p_nonadj _ _ _ PP); assumption. }
        assert (Bx : forall x, nzh s3 x -> x <> r1 -> nzh s2 x /\ x <> b /\ x <> k /\
                  hole_begin s3 x = hole_begin s2 x /\ hole_end s3 x = hole_end s2 x).
        { intros x X N. apply (A6 x N) in X. destruct X as (X1 & X2 & X3).
          split; [assumption|]. split; [assumption|]. split; [assumption|].
          apply same_idx_be; [apply (f_cfg _ _ _ A1)|apply A7; assumption]. }
        apply Mr; auto.
        -- intros x X. destruct (Nat.eq_dec x r1) as [->|N].
           ++ destruct (p_nz _ _ _ A2) as (_ & _ & U). rewrite hole_end_eq. lia.
           ++ destruct (Bx x X N) as (Y1 & Y2 & Y3 & Y4 & Y5). rewrite Y5, A3.
              apply (p_nonadj _ _ _ PP); assumption.
        -- intros x X N. destruct (Bx x X N) as (Y1 & Y2 & Y3 & Y4 & Y5). auto.
        -- intros x X N. destruct (Bx x X N) as (Y1 & Y2 & Y3 & Y4 & Y5). auto.
        -- destruct af as [a|]; [|auto]. destruct Ha as [Na Ea].
           assert (a <> k) by (intros ->; congruence).
           assert (a <> b).
           { intros ->. pose proof (proj2 (proj2 Nb)). pose proof (proj2 (proj2 Nk)).
             rewrite !hole_end_eq in *. lia. }
           assert (Nar : a <> r1) by (apply Rr; assumption).
           split; [assumption|]. split; [apply A6; auto|].
           split; [apply same_idx_be; [apply (f_cfg _ _ _ A1)|apply A7; assumption]|].
           rewrite (A7 a) by assumption. rewrite hole_end_eq in A4. rewrite A3, Ee2 in A4.
           cbn [hu] in Cap2. rewrite hole_end_eq in Eb. lia.
      * destruct A2 as (A2 & A3 & A4 & A5 & A6).
        destruct (merge_holes s2 b k) as [r1 s3] eqn:Em. cbn [fst snd] in *.
        destruct af as [a|].
        { exfalso. destruct Ha as [Na Ea]. pose proof (nzh_bounds s2 L H2 a Na) as [D1 D2].
          destruct Na as (_ & _ & U). rewrite hole_end_eq in D2. lia. }
        exists s3. replace (hole_end s3 r1 =? tail s3) with false by lia. cbn [negb].
        split; [reflexivity|]. split; [assumption|].
        split; [split; [intros X; apply Dead; apply (f_live _ _ _ A1); [intros []|exact X]|apply (f_hole _ _ _ A1); [intros []|apply Nk]]|].
        split; [eapply same_trans; [exact Sm|eapply same_weaken; [exact A1|intros r []]]|].
        exact A5.
    + apply (Mr k s2 PP (same_refl s2 none) eq_refl); auto.
      * destruct af as [a|]; [|auto]. destruct Ha as [Na Ea].
        split; [intros ->; congruence|]. split; [assumption|]. split; [reflexivity|].
        rewrite E1, S2. cbn [hu] in Cap2. lia.
Qed.
Lemma release_loose_spec s L k : Inv s L -> live s (RL k) ->
  (L (RL k) = 0 \/ forall ba, adj_ok s (addr s k) (addr s k + L (RL k)) ba ->
     L (RL k) + hu s (fst ba) + hu s (snd ba) <= 2047) ->
  exists s', release_loose s k (L (RL k)) = Ok tt s' /\ Inv s' L /\ ~ live s' (RL k) /\
    same s s' (only (RL k)) /\ tail s' <= tail s.
Proof.
  intros H Hl Hc. destruct (release_loose_full s L k H Hl Hc) as (s' & E & I & [N _] & S & T).
  exists s'. auto.
Qed.
