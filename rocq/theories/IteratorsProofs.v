(** * IteratorsProofs: the loops of Iterators.v visit what they should. *)
From Verif Require Import Base Tag TagProofs Schema SchemaProofs Iterators.
From Coq Require Import ZifyBool ZifyNat Permutation.
Ltac Zify.zify_post_hook ::= Z.div_mod_to_equations.

(** the same loop backwards: [while (it != b) { --it; ... }] *)
Fixpoint back (n : nat) (step : Z -> option Z) (p b : Z) : option (list Z) :=
  if p =? b then Some []
  else match n with
  | O => None
  | S n => match step p with
           | None => None
           | Some q => option_map (cons q) (back n step q b)
           end
  end.

Fixpoint chain (step : Z -> option Z) (l : list Z) (e : Z) : Prop :=
  match l with [] => True | x :: r => x <> e /\ step x = Some (hd e r) /\ chain step r e end.
Lemma walk_chain step e l : forall n, (length l <= n)%nat -> chain step l e -> walk n step (hd e l) e = Some l.
Proof.
  induction l as [|x r IH]; intros n Hn C.
  - cbn [hd]. destruct n; cbn [walk]; rewrite Z.eqb_refl; reflexivity.
  - destruct n as [|n]; [cbn in Hn; lia|]. destruct C as (N & S & C). cbn [hd walk]. replace (x =? e) with false by lia.
    rewrite S, IH by (assumption || (cbn in Hn; lia)). reflexivity.
Qed.
Fixpoint down (step : Z -> option Z) (p : Z) (l : list Z) (b : Z) : Prop :=
  match l with [] => p = b | q :: r => p <> b /\ step p = Some q /\ down step q r b end.
Lemma back_down step b l : forall n p, (length l <= n)%nat -> down step p l b -> back n step p b = Some l.
Proof.
  induction l as [|q r IH]; intros n p Hn D.
  - cbn [down] in D. subst p. destruct n; cbn [back]; rewrite Z.eqb_refl; reflexivity.
  - destruct n as [|n]; [cbn in Hn; lia|]. destruct D as (N & S & D). cbn [back]. replace (p =? b) with false by lia.
    rewrite S, IH by (assumption || (cbn in Hn; lia)). reflexivity.
Qed.

Lemma filter_length_le {A} (f : A -> bool) l : (length (filter f l) <= length l)%nat.
Proof. induction l as [|x r IH]; cbn; [lia|]. destruct (f x); cbn; lia. Qed.

(** A schema whose preplaced fields start at 0, have distinct places and positive sizes, and end
    before 16384. *)
Record orderly (s : schema) : Prop := {
  od_table : table (toks s) (npre s);
  od_sizes : forall t, In t (toks s) -> is_preplaced t = true -> 0 < tag2indysize t /\ ending t <= bytes_of s;
  od_distinct : distinct_offsets s;
  od_bytes : bytes_of s <= 16383;
  od_first : 0 < npre s -> tag2offset (tok (toks s) 0) = 0
}.

Section Walks.
  Variables (s : schema) (null : Z -> Z -> bool).
  Hypothesis R : orderly s.
  Let T := od_table s R.
  Definition o (i : nat) : Z := tag2offset (tok (toks s) (Z.of_nat i)).
  Definition alive (i : nat) : bool := negb (null (o i) (tok (toks s) (Z.of_nat i))).
  Definition from (i m : nat) : list Z := map o (filter alive (seq i m)).
  Let N := Z.to_nat (npre s).

  Lemma Nz : Z.of_nat N = npre s.
  Proof. pose proof (npre_range s T). unfold N. lia. Qed.
  Lemma tok_facts i : (i < N)%nat -> let t := tok (toks s) (Z.of_nat i) in
    In t (toks s) /\ is_preplaced t = true /\ 0 < tag2indysize t /\ 0 <= o i /\ o i < bytes_of s /\ t <> 0.
  Proof.
    intros Hi t. pose proof (npre_range s T) as NR. pose proof Nz as NZ.
    assert (I : In t (toks s)) by (apply tok_in; lia). assert (P : is_preplaced t = true) by (apply (tok_pre s T); lia).
    destruct (od_sizes s R t I P) as [S E]. pose proof (tag_parts _ (tb_range _ _ T t I)) as TP. unfold ending in E. fold (o i) in *.
    assert (O : o i = tag2offset t) by reflexivity.
    split; [exact I|]. split; [exact P|]. split; [exact S|]. split; [lia|]. split; [lia|]. intros Q. rewrite Q in S. vm_compute in S. discriminate.
  Qed.
  Lemma rise i j : (i < j < N)%nat -> o i < o j.
  Proof.
    intros H. pose proof Nz as NZ. pose proof (npre_range s T) as NR.
    pose proof (offsets_rise s T (Z.of_nat i) (Z.of_nat j) ltac:(lia) ltac:(lia)) as L. fold (o i) (o j) in L.
    destruct (tok_facts i ltac:(lia)) as (I1 & P1 & _), (tok_facts j ltac:(lia)) as (I2 & P2 & _).
    assert (o i <> o j); [|lia]. intros E.
    pose proof (od_distinct s R _ _ I1 I2 P1 P2 E) as Q.
    pose proof (sorted_nth _ (Z.of_nat i) (Z.of_nat j) (tb_sort _ _ T) ltac:(lia) ltac:(lia)) as K. unfold klt in K. rewrite Q in K. lia.
  Qed.
  Lemma search_at i : (i < N)%nat -> search_preplaced s (o i) = Z.of_nat i.
  Proof.
    intros H. destruct (tok_facts i H) as (_ & _ & _ & O1 & O2 & _). pose proof (od_bytes s R) as B. pose proof Nz as NZ.
    destruct (search_border s T (o i) ltac:(lia)) as (A & L & G). cbv zeta in *. set (k := search_preplaced s (o i)) in *.
    destruct (Z.lt_trichotomy k (Z.of_nat i)) as [Hk|[Hk|Hk]]; [|exact Hk|].
    - specialize (G k ltac:(lia)). pose proof (rise (Z.to_nat k) i ltac:(lia)) as Q. unfold o at 1 in Q. rewrite Z2Nat.id in Q by lia. lia.
    - specialize (L (Z.of_nat i) ltac:(lia)). fold (o i) in L. lia.
  Qed.
  Lemma search_end : search_preplaced s (bytes_of s) = npre s.
  Proof.
    pose proof (od_bytes s R) as B. pose proof Nz as NZ.
    assert (0 <= bytes_of s) by (unfold bytes_of, zlen; lia).
    destruct (search_border s T (bytes_of s) ltac:(lia)) as (A & L & G). cbv zeta in *. set (k := search_preplaced s (bytes_of s)) in *.
    destruct (Z_lt_ge_dec k (npre s)) as [Hk|Hk]; [|lia]. specialize (G k ltac:(lia)).
    destruct (tok_facts (Z.to_nat k) ltac:(lia)) as (_ & _ & _ & _ & Q & _). unfold o in Q. rewrite Z2Nat.id in Q by lia. lia.
  Qed.
  Lemma next_at i : (i < N)%nat -> next_by_offset s (o i) = if (S i <? N)%nat then tok (toks s) (Z.of_nat (S i)) else 0.
  Proof.
    intros H. destruct (tok_facts i H) as (_ & _ & _ & O1 & O2 & _). pose proof Nz as NZ. unfold next_by_offset.
    replace ((o i >=? 0) && (o i <? bytes_of s)) with true by lia. cbv zeta. rewrite (search_at i H).
    replace (Z.of_nat i <? npre s) with true by lia. fold (o i). rewrite Z.eqb_refl. cbn [Z.b2z].
    replace (Z.of_nat i + 1) with (Z.of_nat (S i)) by lia. replace (Z.of_nat (S i) <? npre s) with (S i <? N)%nat by lia. reflexivity.
  Qed.
  Lemma prev_at i : (S i < N)%nat -> prev_by_offset s (o (S i)) = Some (tok (toks s) (Z.of_nat i)).
  Proof.
    intros H. destruct (tok_facts (S i) H) as (_ & _ & _ & O1 & O2 & _). pose proof (rise 0 (S i) ltac:(lia)) as Q.
    destruct (tok_facts 0 ltac:(lia)) as (_ & _ & _ & O0 & _). unfold prev_by_offset.
    replace ((o (S i) >? 0) && (o (S i) <=? bytes_of s)) with true by lia. cbv zeta. rewrite (search_at (S i) H).
    replace (Z.of_nat (S i) - 1) with (Z.of_nat i) by lia. replace (Z.of_nat i >=? 0) with true by lia. reflexivity.
  Qed.
  Lemma prev_end i : N = S i -> prev_by_offset s (bytes_of s) = Some (tok (toks s) (Z.of_nat i)).
  Proof.
    intros H. pose proof Nz as NZ. destruct (tok_facts i ltac:(lia)) as (_ & _ & _ & O1 & O2 & _). unfold prev_by_offset.
    replace ((bytes_of s >? 0) && (bytes_of s <=? bytes_of s)) with true by lia. cbv zeta. rewrite search_end.
    replace (npre s - 1) with (Z.of_nat i) by lia. replace (Z.of_nat i >=? 0) with true by lia. reflexivity.
  Qed.

  Lemma from_S i m : from i (S m) = if alive i then o i :: from (S i) m else from (S i) m.
  Proof. unfold from. cbn [seq filter]. destruct (alive i); reflexivity. Qed.
  Lemma from_end m : from 0 (S m) = from 0 m ++ (if alive m then [o m] else []).
  Proof. unfold from. rewrite seq_S, filter_app, map_app. cbn [filter Nat.add]. destruct (alive m); reflexivity. Qed.

  Lemma next_loop_spec m : forall i fuel, (i + S m = N)%nat -> (m < fuel)%nat ->
    next_loop s null fuel (o i) = Some (hd first_loose (from (S i) m)).
  Proof.
    induction m as [|m IH]; intros i [|fuel] H F; try lia; cbn [next_loop]; cbv zeta; rewrite next_at by lia.
    - replace (S i <? N)%nat with false by lia. reflexivity.
    - replace (S i <? N)%nat with true by lia. destruct (tok_facts (S i) ltac:(lia)) as (_ & P & _ & _ & _ & NZ). rewrite P.
      replace (tok (toks s) (Z.of_nat (S i)) =? 0) with false by lia. cbn [orb negb]. fold (o (S i)). rewrite from_S. unfold alive.
      destruct (null (o (S i)) (tok (toks s) (Z.of_nat (S i)))); cbn [negb]; [apply IH; lia|reflexivity].
  Qed.
  Lemma zero_first : (0 < N)%nat -> o 0 = 0.
  Proof. intros H. unfold o. apply (od_first s R). pose proof Nz. lia. Qed.
  Lemma prev_loop_tok i : forall fuel off, (i < N)%nat -> (i < fuel)%nat -> prev_by_offset s off = Some (tok (toks s) (Z.of_nat i)) ->
    prev_loop s null fuel off = Some (last (from 0 (S i)) 0).
  Proof.
    induction i as [|i IH]; intros [|fuel] off H F E; try lia; cbn [prev_loop]; rewrite E; cbv zeta.
    - change (tag2offset (tok (toks s) (Z.of_nat 0))) with (o 0). rewrite zero_first by lia. rewrite from_end. unfold from at 1. cbn [seq filter map app].
      destruct (alive 0); cbn [last]; rewrite ?zero_first by lia; reflexivity.
    - fold (o (S i)). pose proof (rise 0 (S i) ltac:(lia)) as Q. rewrite zero_first in Q by lia. replace (o (S i) =? 0) with false by lia.
      rewrite from_end. unfold alive at 1. destruct (null (o (S i)) _) eqn:En; cbn [negb].
      + rewrite app_nil_r. apply IH; [lia|lia|]. apply prev_at. lia.
      + rewrite last_last. reflexivity.
  Qed.
  Lemma begin_spec : it_begin s null = hd first_loose (from 0 N).
  Proof.
    pose proof Nz as NZ. pose proof (npre_range s T) as NR. unfold it_begin. destruct (npre s =? 0) eqn:E.
    - replace N with 0%nat by lia. reflexivity.
    - fold N. assert (Q : forall m i, (i + S m = N)%nat -> begin_loop null (firstn (S m) (skipn i (toks s))) (o i) = hd first_loose (from i (S m))).
      { induction m as [|m IH]; intros i H.
        - assert (Sk : skipn i (toks s) = tok (toks s) (Z.of_nat i) :: skipn (S i) (toks s)).
          { unfold tok. rewrite Nat2Z.id. unfold zlen in NR. symmetry. assert (L : (i < length (toks s))%nat) by lia. clear - L.
            revert i L. induction (toks s) as [|x r IHr]; intros [|i] L; cbn [skipn nth length] in *; try lia; [reflexivity|]. apply IHr. lia. }
          rewrite Sk. cbn [firstn begin_loop]. rewrite from_S. unfold alive. destruct (null (o i) _); reflexivity.
        - assert (Sk : forall i, (i < length (toks s))%nat -> skipn i (toks s) = tok (toks s) (Z.of_nat i) :: skipn (S i) (toks s)).
          { intros j L. unfold tok. rewrite Nat2Z.id. clear - L. revert j L. induction (toks s) as [|x r IHr]; intros [|j] L; cbn [skipn nth length] in *; try lia; [reflexivity|]. apply IHr. lia. }
          unfold zlen in NR. rewrite Sk by lia. change (firstn (S (S m)) (tok (toks s) (Z.of_nat i) :: skipn (S i) (toks s)))
            with (tok (toks s) (Z.of_nat i) :: firstn (S m) (skipn (S i) (toks s))).
          cbn [begin_loop]. rewrite from_S. unfold alive. destruct (null (o i) _); cbn [negb]; [|reflexivity].
          rewrite <- (IH (S i)) by lia. rewrite (Sk (S i)) by lia. cbn [firstn]. reflexivity. }
      assert (HN : (0 < N)%nat) by lia. rewrite <- (zero_first HN). destruct N as [|m] eqn:En; [lia|].
      rewrite <- (Q m 0%nat ltac:(lia)). rewrite zero_first by lia. reflexivity.
  Qed.

  Definition loose_positions (n : nat) : list Z := map (fun k => -4 * (Z.of_nat k + 1)) (seq 0 n).
  Definition visited (n : nat) : list Z := from 0 N ++ loose_positions n.
  Lemma chain_loose n : forall k e, e = it_end (Z.of_nat (k + n)) ->
    chain (it_inc s null (S N)) (map (fun k => -4 * (Z.of_nat k + 1)) (seq k n)) e /\
    hd e (map (fun k => -4 * (Z.of_nat k + 1)) (seq k n)) = -4 * (Z.of_nat k + 1).
  Proof.
    induction n as [|n IH]; intros k e E; cbn [seq map chain hd].
    - split; [exact I|]. subst e. unfold it_end. lia.
    - destruct (IH (S k) e ltac:(subst e; f_equal; lia)) as [C H]. split; [|reflexivity]. split; [subst e; unfold it_end; lia|]. split; [|exact C].
      rewrite H. unfold it_inc. replace (-4 * (Z.of_nat k + 1) >=? 0) with false by lia. f_equal. lia.
  Qed.
  Lemma hd_app e (l r : list Z) : hd e (l ++ r) = hd (hd e r) l.
  Proof. destruct l; reflexivity. Qed.
  Theorem forward n : walk (N + n) (it_inc s null (S N)) (it_begin s null) (it_end (Z.of_nat n)) = Some (visited n).
  Proof.
    destruct (chain_loose n 0 (it_end (Z.of_nat n)) eq_refl) as [CL HL]. fold (loose_positions n) in *.
    assert (B : it_begin s null = hd (it_end (Z.of_nat n)) (visited n)).
    { unfold visited. rewrite hd_app, HL, begin_spec. reflexivity. }
    rewrite B. apply walk_chain.
    - unfold visited, loose_positions, from. rewrite app_length, !map_length, seq_length.
      pose proof (filter_length_le alive (seq 0 N)) as L. rewrite seq_length in L. lia.
    - assert (Q : forall m i, (i + m = N)%nat -> chain (it_inc s null (S N)) (from i m ++ loose_positions n) (it_end (Z.of_nat n))).
      { induction m as [|m IH]; intros i H; [exact CL|]. rewrite from_S. specialize (IH (S i) ltac:(lia)). destruct (alive i); [|exact IH].
        destruct (tok_facts i ltac:(lia)) as (_ & _ & _ & O1 & _). cbn [app chain]. split; [unfold it_end; lia|]. split; [|exact IH].
        unfold it_inc. replace (o i >=? 0) with true by lia. rewrite (next_loop_spec m i) by lia. rewrite hd_app, HL. reflexivity. }
      apply (Q N 0%nat). lia.
  Qed.
  Lemma hd_from_end m : from 0 m <> [] -> hd first_loose (from 0 N) = hd first_loose (from 0 m) \/ (N < m)%nat.
  Proof.
    intros H. destruct (Nat.le_gt_cases m N) as [L|L]; [left|right; lia]. replace N with (m + (N - m))%nat by lia.
    unfold from. rewrite seq_app, filter_app, map_app, hd_app. fold (from 0 m). destruct (from 0 m); [congruence|reflexivity].
  Qed.
  Lemma from_bound m x : (m <= N)%nat -> In x (from 0 m) -> exists i, (i < m)%nat /\ x = o i.
  Proof. intros H I. unfold from in I. apply in_map_iff in I. destruct I as (i & <- & I). apply filter_In in I. destruct I as [I _]. apply in_seq in I. exists i. split; [lia|reflexivity]. Qed.
  Lemma down_from i : forall m p, (m = i) -> (m <= N)%nat ->
    (from 0 m = [] -> p = it_begin s null) -> (from 0 m <> [] -> p <> it_begin s null /\ it_dec s null (S N) p = Some (last (from 0 m) 0)) ->
    down (it_dec s null (S N)) p (rev (from 0 m)) (it_begin s null).
  Proof.
    induction i as [i IH] using lt_wf_ind. intros m p -> Hm E0 E1.
    destruct (from 0 i) as [|x r] eqn:F; [cbn; auto|].
    destruct (@exists_last _ (x :: r) ltac:(discriminate)) as (l & y & Ey). rewrite Ey in *. rewrite rev_app_distr. cbn [rev app down].
    destruct (E1 ltac:(destruct l; discriminate)) as [P1 P2]. rewrite last_last in P2. split; [exact P1|]. split; [exact P2|].
    (* the last alive one is some j with l = from 0 j *)
    assert (J : exists j, (j < i)%nat /\ y = o j /\ l = from 0 j /\ alive j = true).
    { clear - F. revert l y F. induction i as [|i IHi]; intros l y F; [destruct l; discriminate|]. rewrite from_end in F.
      destruct (alive i) eqn:A.
      - apply app_inj_tail in F. destruct F as [<- <-]. exists i. repeat split; auto.
      - rewrite app_nil_r in F. destruct (IHi l y F) as (j & J1 & J2). exists j. split; [lia|exact J2]. }
    destruct J as (j & J1 & -> & -> & Aj). pose proof (begin_spec) as B.
    apply (IH j J1 j); [reflexivity|lia| |].
    - intros Fj. rewrite B. replace N with (j + S (N - S j))%nat by lia. unfold from. rewrite seq_app, filter_app, map_app. fold (from 0 j). rewrite Fj.
      cbn [app Nat.add seq filter map]. rewrite Aj. reflexivity.
    - intros Fj. destruct (hd_from_end j Fj) as [H|H]; [|lia]. split.
      + rewrite B, H. destruct (from 0 j) as [|z q] eqn:Fz; [congruence|]. cbn [hd].
        destruct (from_bound j z ltac:(lia) ltac:(rewrite Fz; left; reflexivity)) as (k & K1 & ->). pose proof (rise k j ltac:(lia)). lia.
      + destruct j as [|j]; [contradiction Fj; reflexivity|].
        destruct (tok_facts (S j) ltac:(lia)) as (_ & _ & _ & O1 & _). unfold it_dec. replace (o (S j) <? 0) with false by lia.
        apply prev_loop_tok; [lia|lia|]. apply prev_at. lia.
  Qed.
  Theorem backward n : back (N + n) (it_dec s null (S N)) (it_end (Z.of_nat n)) (it_begin s null) = Some (rev (visited n)).
  Proof.
    apply back_down.
    - rewrite rev_length. unfold visited, loose_positions, from. rewrite app_length, !map_length, seq_length.
      pose proof (filter_length_le alive (seq 0 N)) as L. rewrite seq_length in L. lia.
    - unfold visited. rewrite rev_app_distr. induction n as [|n IH].
      + change (it_end (Z.of_nat 0)) with (-4). cbn [loose_positions seq map rev app].
        apply (down_from N); [reflexivity|lia| |].
        * intros F. rewrite begin_spec, F. reflexivity.
        * intros F. rewrite begin_spec. split.
          -- destruct (from 0 N) as [|z q] eqn:Fz; [congruence|]. cbn [hd].
             destruct (from_bound N z ltac:(lia) ltac:(rewrite Fz; left; reflexivity)) as (k & K1 & ->). destruct (tok_facts k K1) as (_ & _ & _ & O1 & _). lia.
          -- destruct N as [|m] eqn:En; [contradiction F; reflexivity|]. unfold it_dec. cbn [Z.ltb Z.compare Z.add Z.eqb Pos.eqb negb].
             destruct (tok_facts m ltac:(rewrite En; lia)) as (_ & _ & _ & O1 & O2 & _). change (-4 + 4 =? 0) with true. cbn [negb].
             replace (bytes_of s =? 0) with false by lia. rewrite <- En. rewrite (prev_loop_tok m); [rewrite En; reflexivity|lia|lia|]. apply prev_end. exact En.
      + unfold loose_positions. rewrite seq_S, map_app, rev_app_distr. cbn [map rev app Nat.add down]. fold (loose_positions n).
        split; [|split].
        * rewrite begin_spec. unfold it_end. destruct (from 0 N) as [|z q] eqn:Fz; cbn [hd]; [unfold first_loose; lia|].
          destruct (from_bound N z ltac:(lia) ltac:(rewrite Fz; left; reflexivity)) as (k & K1 & ->). destruct (tok_facts k K1) as (_ & _ & _ & O1 & _). lia.
        * unfold it_dec, it_end. replace (-4 * (Z.of_nat (S n) + 1) <? 0) with true by lia. replace (-4 * (Z.of_nat (S n) + 1) + 4 =? 0) with false by lia.
          cbn [negb]. f_equal. lia.
        * exact IH.
  Qed.
  (** what the iterator shows there *)
  Lemma show_pre i : (i < N)%nat -> it_show s (o i) = Some (SPre (tok (toks s) (Z.of_nat i))).
  Proof.
    intros H. destruct (tok_facts i H) as (_ & _ & _ & O1 & O2 & NZ). pose proof Nz as NZ'. unfold it_show. replace (o i >=? 0) with true by lia. cbv zeta.
    unfold by_offset. replace ((o i >=? 0) && (o i <? bytes_of s)) with true by lia. cbv zeta. rewrite (search_at i H). fold (o i). rewrite Z.eqb_refl.
    replace (Z.of_nat i <? npre s) with true by lia. cbn [andb]. replace (tok (toks s) (Z.of_nat i) =? 0) with false by lia. reflexivity.
  Qed.
  Lemma show_loose k : it_show s (-4 * (Z.of_nat k + 1)) = Some (SLoose (Z.of_nat k)).
  Proof. unfold it_show. replace (-4 * (Z.of_nat k + 1) >=? 0) with false by lia. do 2 f_equal. lia. Qed.
End Walks.

(** ** Schemas made by definitions without opaque regions and without tokens from outside *)
Definition plain (d : def) : Prop := tame d /\ match d with DOpacity _ _ _ _ => False | _ => True end.
Lemma plain_first s d t s' : wf_def d -> plain d -> (forall e, In e (toks s) -> tagrange e) -> define s d = Defined t s' ->
  (is_preplaced t = true -> tag2genus t <> g_hole /\ (bytes_of s = 0 -> tag2offset t = 0)) /\ (is_preplaced t = false -> image s' = image s).
Proof.
  intros W [TM NO] R H.
  assert (LO : forall n g c di sa, 0 <= g <= 31 -> define_loose s n g c di sa = Defined t s' -> is_preplaced t = false /\ image s' = image s).
  { intros n g c di sa Hg Hd. apply define_loose_inv in Hd as (A & _ & P); [|exact Hg|exact R]. split; [exact P|].
    apply add_defined in A as (_ & _ & _ & _ & im & Rm & ->). unfold room in Rm. rewrite P in Rm. exact Rm. }
  assert (PR : forall n g di sa init, 0 <= g <= 31 -> define_preplaced s n g di sa init = Defined t s' ->
     is_preplaced t = true /\ tag2genus t <> g_hole /\ (bytes_of s = 0 -> tag2offset t = 0)).
  { intros n g di sa init Hg Hd. apply define_preplaced_image in Hd as (O & G & P & Gn & _); [|exact Hg].
    split; [exact P|]. split; [unfold g_hole; lia|]. intros B. rewrite O, B. destruct (width_cases g ltac:(lia)) as ([E|[E|E]] & _); rewrite E; reflexivity. }
  destruct d as [n g di sa init|n size al init|n g c di sa|n ident init ren]; cbn [define wf_def tame] in *; [| contradiction | |].
  - destruct (PR _ _ _ _ _ W H) as (P & Q). split; [auto|congruence].
  - destruct (LO _ _ _ _ _ W H) as (P & Q). split; [congruence|auto].
  - unfold import_definition in H. pose proof (tag_parts _ W) as TP. assert (GB : 0 <= tag2genus ident <= 31) by lia. destruct ren; cbn [negb] in H.
    + destruct (is_preplaced ident).
      * destruct (tag2genus ident =? g_hole); [discriminate|]. destruct (PR _ _ _ _ _ GB H) as (P & Q). split; [auto|congruence].
      * destruct (LO _ _ _ _ _ GB H) as (P & Q). split; [congruence|auto].
    + pose proof H as H'. apply add_defined in H as (-> & _ & _ & _ & im & Rm & ->). rewrite TM. split; [congruence|]. intros _.
      unfold room in Rm. rewrite TM in Rm. exact Rm.
Qed.
Definition starts_at_0 (s : schema) : Prop :=
  (bytes_of s = 0 /\ forall t, In t (toks s) -> is_preplaced t = false) \/
  exists t, In t (toks s) /\ is_preplaced t = true /\ tag2offset t = 0.
Lemma plain_history ds : forall s log s' log',
  SInv s log -> Forall wf_def ds -> Forall plain ds -> definitions s ds = Some (s', log') ->
  starts_at_0 s -> (forall t, In t (toks s) -> is_preplaced t = true -> tag2genus t <> g_hole) ->
  starts_at_0 s' /\ (forall t, In t (toks s') -> is_preplaced t = true -> tag2genus t <> g_hole).
Proof.
  induction ds as [|d r IH]; intros s log s' log' I W TM H Z0 NH; cbn in H.
  - injection H as <- <-. auto.
  - inversion W as [|? ? W1 W2]; subst. inversion TM as [|? ? T1 T2]; subst.
    destruct (define s d) as [t s1| |] eqn:E; [| |discriminate].
    + destruct (definitions s1 r) as [[s2 lg]|] eqn:E2; [|discriminate].
      injection H as <- <-. pose proof (tb_range _ _ (si_table _ _ I)) as TR.
      destruct (plain_first _ _ _ _ W1 T1 TR E) as (F1 & F2).
      apply define_inv in E as (R & init & A); [|exact W1|exact TR].
      pose proof (inv_step _ _ _ _ _ _ _ I R A) as I1.
      assert (IN : forall x, In x (toks s1) <-> In x (toks s) \/ x = t).
      { intros x. pose proof (si_perm _ _ I) as P0. pose proof (si_perm _ _ I1) as P1. rewrite map_app in P1. cbn [map snd] in P1.
        split; intros Hx.
        - apply (Permutation_in _ P1) in Hx. apply in_app_or in Hx. destruct Hx as [Hx|[Hx|[]]]; [left|right; congruence].
          apply (Permutation_in _ (Permutation_sym P0)). exact Hx.
        - apply (Permutation_in _ (Permutation_sym P1)). apply in_or_app. destruct Hx as [Hx|Hx]; [left; apply (Permutation_in _ P0), Hx|right; left; congruence]. }
      refine (IH s1 (log ++ [(def_name d, t)]) s2 lg I1 W2 T2 E2 _ _).
      * destruct Z0 as [(B & N)|(u & U1 & U2)]; [|right; exists u; split; [apply IN; auto|exact U2]].
        destruct (is_preplaced t) eqn:P.
        -- right. exists t. split; [apply IN; auto|]. split; [exact P|]. apply F1; auto.
        -- left. split; [unfold bytes_of in *; rewrite F2; auto|]. intros x Hx. apply IN in Hx. destruct Hx as [Hx| ->]; [apply N, Hx|exact P].
      * intros x Hx Px. apply IN in Hx. destruct Hx as [Hx| ->]; [apply NH; assumption|apply F1, Px].
    + apply (IH s log s' log'); assumption.
Qed.
Theorem plain_orderly ds s log : Forall wf_def ds -> Forall plain ds -> definitions empty_schema ds = Some (s, log) ->
  bytes_of s <= 16383 -> orderly s.
Proof.
  intros W TM H B. pose proof (reached_schema _ _ _ W H) as I.
  destruct (plain_history ds _ _ _ _ inv_empty W TM H) as (Z0 & NH); [left; split; [reflexivity|intros ? []]|intros ? []|].
  assert (SZ : forall t, In t (toks s) -> is_preplaced t = true -> 0 < tag2indysize t).
  { intros t Ht P. assert (Hl : In t (map snd log)) by (apply (Permutation_in _ (si_perm _ _ I)), Ht). apply in_map_iff in Hl. destruct Hl as (p & <- & Hp).
    assert (TM' : Forall tame ds) by (eapply Forall_impl; [|exact TM]; intros d D; apply D).
    pose proof (tame_log ds _ _ _ _ inv_empty W TM' H p Hp P) as [G|(G & Sz & _)]; [exfalso; apply (NH (snd p)); assumption|].
    rewrite Sz. apply preplaced_bytes_pos. exact G. }
  pose proof (si_table _ _ I) as T.
  constructor.
  - exact T.
  - intros t Ht P. split; [apply SZ; assumption|apply (si_image _ _ I); assumption].
  - intros t1 t2 H1 H2 P1 P2 E. destruct (Z.eq_dec t1 t2) as [|N]; [assumption|exfalso].
    apply (si_share _ _ I t1 t2 H1 H2 N P1 P2 (NH _ H1 P1) (NH _ H2 P2)). exists (tag2offset t1). unfold ending.
    pose proof (SZ _ H1 P1). pose proof (SZ _ H2 P2). lia.
  - exact B.
  - intros N. pose proof (npre_range s T) as NR.
    destruct Z0 as [(_ & Q)|(u & U1 & U2 & U3)].
    + exfalso. pose proof (Q _ (tok_in (toks s) 0 ltac:(lia))) as X. rewrite (tok_pre s T) in X by lia. discriminate.
    + destruct (in_tok _ _ U1) as (i & Hi & Ei). destruct (Z.eq_dec i 0) as [->|Ni]; [rewrite Ei; exact U3|].
      assert (Hp : i < npre s).
      { destruct (Z_lt_ge_dec i (npre s)) as [|G]; [assumption|exfalso].
        pose proof (tok_loose s T i ltac:(lia)) as X. rewrite Ei in X. congruence. }
      pose proof (offsets_rise s T 0 i ltac:(lia) ltac:(lia)) as L. rewrite Ei in L.
      pose proof (tag_parts _ (tb_range _ _ T _ (tok_in (toks s) 0 ltac:(lia)))). lia.
Qed.
