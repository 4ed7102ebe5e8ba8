(** * GearSearch: the searches of the allocator find what they claim (proofs). *)
From Verif Require Import Base Tag TagProofs Gear GearBase.
From Coq Require Import ZifyBool ZifyNat.
Ltac Zify.zify_post_hook ::= Z.div_mod_to_equations.

Lemma scan_down_spec p f n :
  match scan_down p f n with
  | Some k => (k < n)%nat /\ p (f k) = true /\ forall i, (k < i < n)%nat -> p (f i) = false
  | None => forall i, (i < n)%nat -> p (f i) = false
  end.
Proof.
  induction n as [|n IH]; cbn [scan_down]; [intros; lia|].
  destruct (p (f n)) eqn:E; [split; [lia|]; split; [assumption|intros; lia]|].
  destruct (scan_down p f n) as [k|].
  - destruct IH as (A & B & Cc). split; [lia|]. split; [assumption|].
    intros i Hi. destruct (Nat.eq_dec i n) as [->|N]; [assumption|apply Cc; lia].
  - intros i Hi. destruct (Nat.eq_dec i n) as [->|N]; [assumption|apply IH; lia].
Qed.

Lemma hcount_nonneg s k : 0 <= hcount s k.
Proof. unfold hcount. lia. Qed.
Lemma sum_hcount_zero s n : sumn n (hcount s) <= 0 ->
  forall k, (k < n)%nat -> is_hole (idx s k) = false.
Proof.
  intros Hs k Hk. destruct (is_hole (idx s k)) eqn:E; [|reflexivity].
  pose proof (sumn_ge1 n (hcount s) k Hk (fun i _ => hcount_nonneg s i)) as G.
  unfold hcount at 1 in G. rewrite E in G. cbn in G. lia.
Qed.

(** ** Best fit *)
Lemma best_fit_spec s u l r :
  1 <= u < 65536 -> u <= hunits (idx s r) ->
  (forall k, l = Some k -> u <= hunits (idx s k)) ->
  let b := best_fit s u l r in
  (b = r \/ l = Some b) /\ u <= hunits (idx s b) /\
  hunits (idx s b) <= hunits (idx s r) /\
  (forall k, l = Some k -> hunits (idx s b) <= hunits (idx s k)).
Proof.
  intros Hu Hr Hl b. subst b. unfold best_fit. destruct l as [l|].
  2:{ split; [auto|]. split; [assumption|]. split; [lia|]. intros k E; discriminate. }
  specialize (Hl l eq_refl).
  pose proof (hunits_range (idx s l)). pose proof (hunits_range (idx s r)).
  unfold u32. change (2 ^ 32) with 4294967296.
  rewrite !Z.mod_small by lia.
  assert (K : forall k, Some l = Some k -> k = l) by congruence.
  set (b := if _ <? _ then l else _).
  assert (Hb : (b = l /\ hunits (idx s l) <= hunits (idx s r)) \/
               (b = r /\ hunits (idx s r) <= hunits (idx s l))).
  { subst b. destruct (Z.ltb_spec (hunits (idx s l) - u) (hunits (idx s r) - u)); [left; lia|].
    destruct (hunits (idx s l) - u >? hunits (idx s r) - u) eqn:E2; [right; lia|].
    destruct (hole_begin s l <? hole_begin s r); [left|right]; lia. }
  clearbody b.
  destruct Hb as [[-> Hb]|[-> Hb]].
  - split; [auto|]. split; [lia|]. split; [lia|]. intros k Ek. rewrite (K k Ek). lia.
  - split; [auto|]. split; [lia|]. split; [lia|]. intros k Ek. rewrite (K k Ek). lia.
Qed.

Lemma fit_loop_spec s u n : forall left found,
  1 <= u < 65536 -> left = sumn n (hcount s) ->
  (forall k, found = Some k -> u <= hunits (idx s k)) ->
  exists r, fit_loop s u n left found = Some r /\
    match r with
    | None => found = None /\
        forall k, (k < n)%nat -> is_hole (idx s k) = true -> hunits (idx s k) < u
    | Some h => u <= hunits (idx s h) /\
        (found = Some h \/ ((h < n)%nat /\ is_hole (idx s h) = true)) /\
        (forall k, found = Some k -> hunits (idx s h) <= hunits (idx s k)) /\
        (forall k, (k < n)%nat -> is_hole (idx s k) = true -> u <= hunits (idx s k) ->
           hunits (idx s h) <= hunits (idx s k))
    end.
Proof.
  induction n as [|n IH]; intros left found Hu Hleft Hf.
  - cbn [sumn] in Hleft. subst left. cbn [fit_loop]. exists found.
    split; [reflexivity|]. destruct found as [h|].
    + split; [apply Hf; reflexivity|]. split; [auto|]. split; [intros k E; injection E as <-; lia|].
      intros; lia.
    + split; [reflexivity|intros; lia].
  - cbn [sumn] in Hleft. cbn [fit_loop].
    pose proof (sumn_nonneg n (hcount s) (fun k _ => hcount_nonneg s k)) as Hnn.
    destruct (left <=? 0) eqn:E0.
    + assert (Hz : sumn (S n) (hcount s) <= 0) by (cbn [sumn]; lia).
      pose proof (sum_hcount_zero s (S n) Hz) as Hno.
      exists found. split; [reflexivity|]. destruct found as [h|].
      * split; [apply Hf; reflexivity|]. split; [auto|]. split; [intros k E; injection E as <-; lia|].
        intros k Hk Hh. rewrite (Hno k Hk) in Hh. discriminate.
      * split; [reflexivity|]. intros k Hk Hh. rewrite (Hno k Hk) in Hh. discriminate.
    + unfold hcount at 2 in Hleft.
      destruct (is_hole (idx s n)) eqn:Eh; cbn [negb Z.b2z] in *.
      * destruct (hunits (idx s n) >=? u) eqn:Eu.
        -- destruct (best_fit_spec s u found n Hu ltac:(lia) Hf) as (B1 & B2 & B3 & B4).
           set (b := best_fit s u found n) in *.
           destruct (IH (left - 1) (Some b) Hu ltac:(lia)) as (r & Er & Hr).
           { intros k Ek. injection Ek as <-. assumption. }
           exists r. split; [assumption|]. destruct r as [h|]; [|destruct Hr; discriminate].
           destruct Hr as (R1 & R2 & R3 & R4). specialize (R3 b eq_refl).
           split; [assumption|]. split.
           { destruct R2 as [R2|[R2 R2']]; [|right; split; [lia|assumption]].
             injection R2 as R2. destruct B1 as [->|B1]; [right; subst h; split; [lia|assumption]|left; congruence]. }
           split.
           { intros k Ek. specialize (B4 k Ek). lia. }
           intros k Hk Hh Hle. destruct (Nat.eq_dec k n) as [->|N]; [lia|].
           apply R4; [lia|assumption|assumption].
        -- destruct (IH (left - 1) found Hu ltac:(lia) Hf) as (r & Er & Hr).
           exists r. split; [assumption|]. destruct r as [h|].
           ++ destruct Hr as (R1 & R2 & R3 & R4). split; [assumption|]. split.
              { destruct R2 as [R2|[R2 R2']]; [auto|right; split; [lia|assumption]]. }
              split; [assumption|]. intros k Hk Hh Hle.
              destruct (Nat.eq_dec k n) as [->|N]; [lia|]. apply R4; [lia|assumption|assumption].
           ++ destruct Hr as (R1 & R2). split; [assumption|]. intros k Hk Hh.
              destruct (Nat.eq_dec k n) as [->|N]; [lia|]. apply R2; [lia|assumption].
      * destruct (IH left found Hu ltac:(lia) Hf) as (r & Er & Hr).
        exists r. split; [assumption|]. destruct r as [h|].
        -- destruct Hr as (R1 & R2 & R3 & R4). split; [assumption|]. split.
           { destruct R2 as [R2|[R2 R2']]; [auto|right; split; [lia|assumption]]. }
           split; [assumption|]. intros k Hk Hh Hle.
           destruct (Nat.eq_dec k n) as [->|N]; [congruence|]. apply R4; [lia|assumption|assumption].
        -- destruct Hr as (R1 & R2). split; [assumption|]. intros k Hk Hh.
           destruct (Nat.eq_dec k n) as [->|N]; [congruence|]. apply R2; [lia|assumption].
Qed.

(** what lookup_fit returns in a consistent state *)
Lemma lookup_fit_spec s L u : Inv0 s L -> 1 <= u < 65536 ->
  exists r, lookup_fit s u = Some r /\
    match r with
    | None => forall k, nzh s k -> hunits (idx s k) < u
    | Some h => nzh s h /\ u <= hunits (idx s h) /\
        forall k, nzh s k -> u <= hunits (idx s k) -> hunits (idx s h) <= hunits (idx s k)
    end.
Proof.
  intros H Hu. unfold lookup_fit.
  destruct ((jc s <? 1) || (jv s <? u)) eqn:E.
  - exists None. split; [reflexivity|]. intros k Hk.
    pose proof (hunits_le_jv s L H k Hk). destruct Hk as (Hk & Hh & _).
    pose proof (jc_pos s L H k Hk Hh). lia.
  - replace (u =? 0) with false by lia.
    pose proof (i_jc _ _ _ _ _ _ H) as Hjc.
    destruct (fit_loop_spec s u (cnt s) (jc s) None Hu ltac:(lia)) as (r & Er & Hr);
      [intros; discriminate|].
    exists r. split; [assumption|]. destruct r as [h|].
    + destruct Hr as (R1 & R2 & R3 & R4). destruct R2 as [R2|[R2 R2']]; [discriminate|].
      split; [split; [assumption|split; [assumption|lia]]|]. split; [assumption|].
      intros k (Hk & Hh & _) Hle. apply R4; assumption.
    + destruct Hr as [_ R]. intros k (Hk & Hh & _). apply R; assumption.
Qed.

(** ** Adjacent holes *)
Lemma adj_loop_spec s b e n : forall left bf af,
  left = sumn n (hcount s) ->
  exists rb ra, adj_loop s b e n left bf af = Some (rb, ra) /\
    match rb with
    | Some k => bf = Some k \/ ((k < n)%nat /\ is_hole (idx s k) = true /\
                  0 < hunits (idx s k) /\ hole_end s k = b)
    | None => bf = None /\ forall k, (k < n)%nat -> is_hole (idx s k) = true ->
                0 < hunits (idx s k) -> hole_end s k <> b
    end /\
    match ra with
    | Some k => af = Some k \/ ((k < n)%nat /\ is_hole (idx s k) = true /\
                  0 < hunits (idx s k) /\ hole_begin s k = e)
    | None => af = None /\ forall k, (k < n)%nat -> is_hole (idx s k) = true ->
                0 < hunits (idx s k) -> hole_begin s k <> e
    end.
Proof.
  induction n as [|n IH]; intros left bf af Hleft.
  - cbn [sumn] in Hleft. subst left. cbn [adj_loop]. exists bf, af.
    split; [reflexivity|]. split; [destruct bf|destruct af]; auto; split; auto; intros; lia.
  - cbn [sumn] in Hleft. cbn [adj_loop].
    pose proof (sumn_nonneg n (hcount s) (fun k _ => hcount_nonneg s k)) as Hnn.
    destruct (left <=? 0) eqn:E0.
    + assert (Hz : sumn (S n) (hcount s) <= 0) by (cbn [sumn]; lia).
      pose proof (sum_hcount_zero s (S n) Hz) as Hno.
      exists bf, af. split; [reflexivity|].
      split; [destruct bf|destruct af]; auto; split; auto; intros k Hk Hh;
        rewrite (Hno k Hk) in Hh; discriminate.
    + unfold hcount at 2 in Hleft.
      pose proof (hunits_range (idx s n)) as Hur.
      destruct (is_hole (idx s n)) eqn:Eh; cbn [negb Z.b2z] in *.
      * destruct (hunits (idx s n) =? 0) eqn:Eu; cbn [negb].
        -- destruct (IH (left - 1) bf af ltac:(lia)) as (rb & ra & Er & Rb & Ra).
           exists rb, ra. split; [assumption|]. split.
           ++ destruct rb as [k|].
              ** destruct Rb as [Rb|(A & B & Cc & Dd)]; [auto|right; repeat split; auto; lia].
              ** destruct Rb as [R1 R2]. split; [assumption|]. intros k Hk Hh Hp.
                 destruct (Nat.eq_dec k n) as [->|N]; [lia|]. apply R2; [lia|assumption|assumption].
           ++ destruct ra as [k|].
              ** destruct Ra as [Ra|(A & B & Cc & Dd)]; [auto|right; repeat split; auto; lia].
              ** destruct Ra as [R1 R2]. split; [assumption|]. intros k Hk Hh Hp.
                 destruct (Nat.eq_dec k n) as [->|N]; [lia|]. apply R2; [lia|assumption|assumption].
        -- set (af' := if e =? hole_begin s n then Some n else af).
           set (bf' := if hole_end s n =? b then Some n else bf).
           destruct (IH (left - 1) bf' af' ltac:(lia)) as (rb & ra & Er & Rb & Ra).
           exists rb, ra. split; [assumption|]. split.
           ++ destruct rb as [k|].
              ** destruct Rb as [Rb|(A & B & Cc & Dd)]; [|right; repeat split; auto; lia].
                 subst bf'. destruct (hole_end s n =? b) eqn:Ee; [|auto].
                 injection Rb as <-. right. repeat split; auto; lia.
              ** destruct Rb as [R1 R2]. subst bf'.
                 destruct (hole_end s n =? b) eqn:Ee; [discriminate|].
                 split; [assumption|]. intros k Hk Hh Hp.
                 destruct (Nat.eq_dec k n) as [->|N]; [lia|]. apply R2; [lia|assumption|assumption].
           ++ destruct ra as [k|].
              ** destruct Ra as [Ra|(A & B & Cc & Dd)]; [|right; repeat split; auto; lia].
                 subst af'. destruct (e =? hole_begin s n) eqn:Ee; [|auto].
                 injection Ra as <-. right. repeat split; auto; lia.
              ** destruct Ra as [R1 R2]. subst af'.
                 destruct (e =? hole_begin s n) eqn:Ee; [discriminate|].
                 split; [assumption|]. intros k Hk Hh Hp.
                 destruct (Nat.eq_dec k n) as [->|N]; [lia|]. apply R2; [lia|assumption|assumption].
      * destruct (IH left bf af ltac:(lia)) as (rb & ra & Er & Rb & Ra).
        exists rb, ra. split; [assumption|]. split.
        -- destruct rb as [k|].
           ++ destruct Rb as [Rb|(A & B & Cc & Dd)]; [auto|right; repeat split; auto; lia].
           ++ destruct Rb as [R1 R2]. split; [assumption|]. intros k Hk Hh Hp.
              destruct (Nat.eq_dec k n) as [->|N]; [congruence|]. apply R2; [lia|assumption|assumption].
        -- destruct ra as [k|].
           ++ destruct Ra as [Ra|(A & B & Cc & Dd)]; [auto|right; repeat split; auto; lia].
           ++ destruct Ra as [R1 R2]. split; [assumption|]. intros k Hk Hh Hp.
              destruct (Nat.eq_dec k n) as [->|N]; [congruence|]. apply R2; [lia|assumption|assumption].
Qed.

(** correct answer of lookup_adjacent for the chunk [b, e) *)
Definition adj_ok (s : st) (b e : Z) (ba : option nat * option nat) : Prop :=
  match fst ba with
  | Some k => nzh s k /\ hole_end s k = b
  | None => forall k, nzh s k -> hole_end s k <> b
  end /\
  match snd ba with
  | Some k => nzh s k /\ hole_begin s k = e
  | None => forall k, nzh s k -> hole_begin s k <> e
  end.

(** units of a hole that may be absent *)
Definition hu (s : st) (o : option nat) : Z := match o with Some k => hunits (idx s k) | None => 0 end.
Lemma hu_range s o : 0 <= hu s o <= 2047.
Proof. destruct o as [k|]; cbn [hu]; [apply hunits_range|lia]. Qed.
(** units of the holes that touch the run [b..e) *)
Definition beside (s : st) (b e : Z) : Z :=
  match lookup_adjacent s b e with Some ba => hu s (fst ba) + hu s (snd ba) | None => 0 end.
(** A hole keeps its size in 11 bits (gear.h make_hole). Turning [u] units at [c] into a hole,
    merged with its neighbours, would need more. *)
Definition wide_hole (s : st) (c u : Z) : bool := negb (u =? 0) && (2047 <? u + beside s c (c + u)).

Lemma lookup_adjacent_spec s b e : jc s = sumn (cnt s) (hcount s) ->
  exists ba, lookup_adjacent s b e = Some ba /\ adj_ok s b e ba.
Proof.
  intros Hjc. unfold lookup_adjacent.
  destruct (adj_loop_spec s b e (cnt s) (jc s) None None Hjc) as (rb & ra & Er & Rb & Ra).
  exists (rb, ra). split; [assumption|]. unfold adj_ok. cbn [fst snd]. split.
  - destruct rb as [k|].
    + destruct Rb as [Rb|(A & B & Cc & Dd)]; [discriminate|]. repeat split; assumption.
    + destruct Rb as [_ R]. intros k (Hk & Hh & Hu). apply R; assumption.
  - destruct ra as [k|].
    + destruct Ra as [Ra|(A & B & Cc & Dd)]; [discriminate|]. repeat split; assumption.
    + destruct Ra as [_ R]. intros k (Hk & Hh & Hu). apply R; assumption.
Qed.

(** ** Looking up a hole by its exact size *)
Lemma lookup_hole_gid s u :
  (forall k, (k < cnt s)%nat -> ent_ok (idx s k)) -> 0 <= u <= 2047 ->
  match lookup_gid s (u16 (make_hole u)) with
  | Some k => (k < cnt s)%nat /\ is_hole (idx s k) = true /\ hunits (idx s k) = u
  | None => forall k, (k < cnt s)%nat -> is_hole (idx s k) = true -> hunits (idx s k) <> u
  end.
Proof.
  intros He Hu. unfold lookup_gid.
  pose proof (scan_down_spec (fun e => gid e =? u16 (make_hole u)) (idx s) (cnt s)) as H.
  cbn beta in H. destruct (scan_down _ _ _) as [k|].
  - destruct H as (A & B & _). split; [assumption|].
    destruct (He k A) as (_ & Hg & _). apply (hole_of_gid _ u Hg Hu). lia.
  - intros k Hk Hh E. specialize (H k Hk). destruct (He k Hk) as (_ & Hg & _).
    assert (gid (idx s k) = u16 (make_hole u)) by (apply (hole_of_gid _ u Hg Hu); auto). lia.
Qed.
