(** * ManagedProofs: the counters match the handles (proofs for Managed.v). *)
From Verif Require Import Base Hippeus HippeusProofs Managed.

Section Proofs.
Variable V : Type.
Variable sane : V -> bool.
Variable fits : Z -> V -> bool.
Variable holes : V -> Z * Z.
Variable blank : option Z -> V.
Variable nested : V -> option V.
Notation buf := (buf V).
Notation st := (st V).
Notation inside := (inside V nested).
Notation contents := (contents V nested).

(** ** Lists *)
Lemma upd_length {A} i (x : A) l : length (upd i x l) = length l.
Proof. revert i; induction l as [|a l IH]; intros [|i]; cbn; auto. Qed.
Lemma nth_upd_same {A} i (x : A) l : (i < length l)%nat -> nth_error (upd i x l) i = Some x.
Proof. revert i; induction l as [|a l IH]; intros [|i] H; cbn in *; try lia; auto. apply IH; lia. Qed.
Lemma nth_upd_other {A} i k (x : A) l : i <> k -> nth_error (upd i x l) k = nth_error l k.
Proof. revert i k; induction l as [|a l IH]; intros [|i] [|k] H; cbn in *; try congruence; auto. Qed.
Lemma nth_upd {A} i k (x : A) l : nth_error (upd i x l) k = if (i =? k)%nat then (if (i <? length l)%nat then Some x else None) else nth_error l k.
Proof.
  destruct (Nat.eqb_spec i k) as [->|N].
  - destruct (Nat.ltb_spec k (length l)) as [L|L].
    + apply nth_upd_same; auto.
    + apply nth_error_None. rewrite upd_length. lia.
  - apply nth_upd_other; auto.
Qed.
Lemma upd_over {A} i (x : A) l : (length l <= i)%nat -> upd i x l = l.
Proof. revert i; induction l as [|a l IH]; intros [|i] H; cbn in *; try lia; auto. f_equal. apply IH; lia. Qed.
Lemma Forall_upd {A} (P : A -> Prop) i x l : Forall P l -> P x -> Forall P (upd i x l).
Proof. intros H Hx. revert i; induction H as [|a l Ha H IH]; intros [|i]; cbn; constructor; auto. Qed.

(** ** Counting references *)
Definition one (o : option nat) (b : nat) : Z := match o with Some c => if (c =? b)%nat then 1 else 0 | None => 0 end.
Fixpoint cnt (l : list (option nat)) (b : nat) : Z := match l with [] => 0 | o :: l => one o b + cnt l b end.
Definition held (x : slot) : option nat := match x with RO _ h => h | RW p => p end.
Definition held_rw (x : slot) : option nat := match x with RO _ _ => None | RW p => p end.
Definition tot (x : list (option nat)) (s : st) (b : nat) : Z := cnt x b + cnt (map held (slots _ s)) b.
Definition wr (x : list (option nat)) (s : st) (b : nat) : Z := cnt x b + cnt (map held_rw (slots _ s)) b.
Lemma one_nonneg o b : 0 <= one o b. Proof. unfold one. destruct o as [c|]; [destruct (c =? b)%nat|]; lia. Qed.
Lemma cnt_nonneg l b : 0 <= cnt l b. Proof. induction l as [|o l IH]; cbn; [lia|]. pose proof (one_nonneg o b). lia. Qed.
Lemma cnt_app l m b : cnt (l ++ m) b = cnt l b + cnt m b. Proof. induction l as [|o l IH]; cbn; lia. Qed.
Lemma one_same b : one (Some b) b = 1. Proof. unfold one. rewrite Nat.eqb_refl. reflexivity. Qed.
Lemma cnt_upd (f : slot -> option nat) i new old l b : nth_error l i = Some old -> cnt (map f (upd i new l)) b = cnt (map f l) b - one (f old) b + one (f new) b.
Proof.
  revert i; induction l as [|a l IH]; intros [|i] H; cbn in *; try congruence.
  - injection H as ->. lia.
  - rewrite (IH _ H). lia.
Qed.
Lemma cnt_in (f : slot -> option nat) i sl l b : nth_error l i = Some sl -> one (f sl) b <= cnt (map f l) b.
Proof.
  revert i; induction l as [|a l IH]; intros [|i] H; cbn in *; try congruence.
  - injection H as ->. pose proof (cnt_nonneg (map f l) b). lia.
  - specialize (IH _ H). pose proof (one_nonneg (f a) b). lia.
Qed.
Lemma writer_le a b : one (held_rw a) b <= one (held a) b.
Proof. destruct a as [p h|p]; cbn; [apply one_nonneg|lia]. Qed.
Lemma writers_le l b : cnt (map held_rw l) b <= cnt (map held l) b.
Proof. induction l as [|a l IH]; cbn; [lia|]. pose proof (writer_le a b). lia. Qed.
(** a reader of a buffer is one more than its writers *)
Lemma reader_more i p h l b : nth_error l i = Some (RO p h) -> cnt (map held_rw l) b + one h b <= cnt (map held l) b.
Proof.
  revert i; induction l as [|a l IH]; intros [|i] H; cbn in *; try congruence.
  - injection H as ->. cbn. pose proof (writers_le l b). lia.
  - specialize (IH _ H). pose proof (writer_le a b). lia.
Qed.

(** ** What stays the same about a buffer *)
Definition sig (u : buf) := (b_plain _ u, b_readonly _ u, b_host _ u, b_schema _ u, b_val _ u, b_junk _ u).
Definition keeps (s t : st) : Prop :=
  forall b u, nth_error (bufs _ s) b = Some u -> exists u', nth_error (bufs _ t) b = Some u' /\ sig u' = sig u.
Lemma keeps_refl s : keeps s s. Proof. intros b u H. exists u. auto. Qed.
Lemma keeps_trans s t v : keeps s t -> keeps t v -> keeps s v.
Proof. intros H1 H2 b u H. destruct (H1 b u H) as (u' & A & B). destruct (H2 b u' A) as (w & C & D). exists w. split; congruence. Qed.
Lemma keeps_bufs s t : bufs _ t = bufs _ s -> keeps s t. Proof. intros E b u H. exists u. rewrite E. auto. Qed.

(** ** The invariant; [x] are references and [y] are writers that are in no slot at the moment;
    with [e] the buffer of a writer has no other handle and the places of readers are there *)
Definition bufok (u : buf) (n : Z) : Prop :=
  0 <= n /\ (n = 0 -> b_freed _ u = 1) /\ (0 < n -> b_freed _ u = 0 /\ if b_plain _ u then n = 1 else b_ref _ u = n).
Definition wf (e : bool) (l : list buf) (x : slot) : Prop :=
  match x with
  | RO None None => True
  | RO (Some (b, d)) (Some c) => b = c /\ exists u, nth_error l b = Some u /\ b_plain _ u = false /\ (e = true -> inside (b_val _ u) d <> None)
  | RO _ _ => False
  | RW None => True
  | RW (Some b) => exists u, nth_error l b = Some u
  end.
Record G (e : bool) (x y : list (option nat)) (s : st) : Prop := {
  g_cnt : forall b u, nth_error (bufs _ s) b = Some u -> bufok u (tot x s b);
  g_out : forall b, nth_error (bufs _ s) b = None -> tot x s b = 0;
  g_wf : Forall (wf e (bufs _ s)) (slots _ s);
  g_ex : e = true -> forall b, wr y s b = 0 \/ (wr y s b = 1 /\ tot x s b = 1) }.

Lemma wf_keeps e s t sl : keeps s t -> wf e (bufs _ s) sl -> wf e (bufs _ t) sl.
Proof.
  intros K. destruct sl as [[[b d]|] [c|]|[b|]]; cbn; auto.
  - intros (E & u & H & P & I). split; auto. destruct (K _ _ H) as (u' & H' & Sg). exists u'. unfold sig in Sg.
    injection Sg as E1 E2 E3 E4 E5 E6. rewrite E1, E5. auto.
  - intros (u & H). destruct (K _ _ H) as (u' & H' & _). eauto.
Qed.
Lemma wf_all_keeps e s t l : keeps s t -> Forall (wf e (bufs _ s)) l -> Forall (wf e (bufs _ t)) l.
Proof. intros K. apply Forall_impl. intros a. apply wf_keeps; auto. Qed.

Lemma tot_cons o x s b : tot (o :: x) s b = one o b + tot x s b. Proof. unfold tot. cbn. lia. Qed.
Lemma wr_cons o x s b : wr (o :: x) s b = one o b + wr x s b. Proof. unfold wr. cbn. lia. Qed.
Lemma tot_slots x s t b : slots _ s = slots _ t -> tot x s b = tot x t b. Proof. unfold tot. intros ->. reflexivity. Qed.
Lemma wr_slots x s t b : slots _ s = slots _ t -> wr x s b = wr x t b. Proof. unfold wr. intros ->. reflexivity. Qed.

(** ** Primitives *)
Lemma look_live e x y s b u : G e x y s -> nth_error (bufs _ s) b = Some u -> 0 < tot x s b -> look _ b s = Some u.
Proof. intros g H L. unfold look. rewrite H. destruct (g_cnt _ _ _ _ g b u H) as (_ & _ & F). destruct (F L) as (-> & _). reflexivity. Qed.
Lemma i32_small n : 0 <= n < 2 ^ 31 -> i32 n = n.
Proof. intros H. apply HippeusProofs.i32_id. lia. Qed.

Lemma set_buf_keeps (s : st) b u u' : nth_error (bufs _ s) b = Some u -> sig u' = sig u -> keeps s (set_buf _ b u' s).
Proof.
  intros H E c w Hc. unfold set_buf; cbn. rewrite nth_upd. destruct (Nat.eqb_spec b c) as [->|N].
  - assert (L : (c < length (bufs _ s))%nat) by (apply nth_error_Some; congruence).
    destruct (Nat.ltb_spec c (length (bufs _ s))); [|lia]. exists u'. split; auto. congruence.
  - exists w. auto.
Qed.
Lemma G_set_buf e x y x' s b u u' : G e x y s -> nth_error (bufs _ s) b = Some u -> sig u' = sig u ->
  (forall c, c <> b -> tot x' s c = tot x s c) -> bufok u' (tot x' s b) ->
  (e = true -> wr y s b = 0 \/ (wr y s b = 1 /\ tot x' s b = 1)) -> G e x' y (set_buf _ b u' s).
Proof.
  intros g H E Hx Hb He.
  assert (L : (b < length (bufs _ s))%nat) by (apply nth_error_Some; congruence).
  assert (T : forall c, tot x' (set_buf _ b u' s) c = tot x' s c) by reflexivity.
  assert (W : forall c, wr y (set_buf _ b u' s) c = wr y s c) by reflexivity.
  split.
  - intros c w. cbn. rewrite nth_upd, T. destruct (Nat.eqb_spec b c) as [<-|N].
    + destruct (Nat.ltb_spec b (length (bufs _ s))); [|lia]. intros [= <-]. exact Hb.
    + intros Hw. rewrite Hx by congruence. exact (g_cnt _ _ _ _ g c w Hw).
  - intros c. cbn. rewrite nth_upd, T. destruct (Nat.eqb_spec b c) as [<-|N].
    + destruct (Nat.ltb_spec b (length (bufs _ s))); [discriminate|lia].
    + intros Hw. rewrite Hx by congruence. exact (g_out _ _ _ _ g c Hw).
  - cbn [slots set_buf]. apply (wf_all_keeps e s (set_buf _ b u' s)); [|apply (g_wf _ _ _ _ g)]. eapply set_buf_keeps; eauto.
  - intros Ee c. rewrite T, W. destruct (Nat.eq_dec c b) as [->|N]; [auto|]. rewrite Hx by auto. apply (g_ex _ _ _ _ g Ee).
Qed.

Definition small (s : st) : Prop := forall b, tot [] s b < 2 ^ 31 - 1.

Lemma add_reference_ok e x y s b u : G e x y s -> nth_error (bufs _ s) b = Some u -> b_plain _ u = false ->
  0 < tot x s b < 2 ^ 31 - 1 -> (e = true -> wr y s b = 0) ->
  exists t, add_reference _ (Some b) s = Some t /\ G e (Some b :: x) y t /\ slots _ t = slots _ s /\ keeps s t.
Proof.
  intros g H P L W. unfold add_reference. rewrite (look_live _ _ _ _ _ _ g H) by lia.
  destruct (g_cnt _ _ _ _ g b u H) as (_ & _ & F). destruct F as (F0 & F1); [lia|]. rewrite P in F1.
  rewrite i32_small by lia. eexists. split; [reflexivity|]. split; [|split; [reflexivity|eapply set_buf_keeps; eauto]].
  eapply G_set_buf; eauto.
  - intros c N. rewrite tot_cons. unfold one. destruct (Nat.eqb_spec b c); [congruence|lia].
  - rewrite tot_cons, one_same. unfold bufok. cbn [b_freed b_plain b_ref with_ref freed]. rewrite P. split; [lia|]. split; [lia|]. intros _. split; [auto|lia].
Qed.
Lemma release_ok e x y y' s b u : G e (Some b :: x) y s -> nth_error (bufs _ s) b = Some u -> b_plain _ u = false -> tot (Some b :: x) s b < 2 ^ 31 ->
  (forall c, wr y' s c <= wr y s c) -> (forall c, 0 <= wr y' s c) -> (e = true -> wr y' s b = 0) ->
  exists t, detach _ (Some b) s = Some t /\ G e x y' t /\ slots _ t = slots _ s /\ keeps s t.
Proof.
  intros g H P B Hy Hy0 Hyb.
  assert (L : 1 <= tot (Some b :: x) s b). { rewrite tot_cons, one_same. unfold tot. pose proof (cnt_nonneg x b). pose proof (cnt_nonneg (map held (slots _ s)) b). lia. }
  assert (g' : G e (Some b :: x) y' s).
  { destruct g as [g1 g2 g3 g4]. split; auto. intros E c. specialize (g4 E c). specialize (Hy c). specialize (Hy0 c). lia. }
  unfold detach. rewrite (look_live _ _ _ _ _ _ g H) by lia.
  destruct (g_cnt _ _ _ _ g b u H) as (_ & _ & F). destruct F as (F0 & F1); [lia|]. rewrite P in F1.
  assert (T : tot (Some b :: x) s b = 1 + tot x s b) by (rewrite tot_cons, one_same; lia).
  assert (O : forall c, c <> b -> tot x s c = tot (Some b :: x) s c).
  { intros c N. rewrite tot_cons. unfold one. destruct (Nat.eqb_spec b c); [congruence|lia]. }
  assert (Ex : e = true -> wr y' s b = 0 \/ (wr y' s b = 1 /\ tot x s b = 1)) by (intros E; left; auto).
  destruct (b_ref _ u =? 1) eqn:E1; cbn [negb].
  - eexists. split; [reflexivity|]. split; [|split; [reflexivity|eapply set_buf_keeps; eauto; reflexivity]].
    eapply G_set_buf; eauto; try reflexivity. unfold bufok. cbn [b_freed b_plain b_ref with_ref freed]. lia.
  - cbv zeta. rewrite i32_small by lia. destruct (b_ref _ u - 1 >? 0) eqn:E2; [|lia].
    eexists. split; [reflexivity|]. split; [|split; [reflexivity|eapply set_buf_keeps; eauto; reflexivity]].
    eapply G_set_buf; eauto; try reflexivity. unfold bufok. cbn [b_freed b_plain b_ref with_ref freed]. rewrite P. lia.
Qed.
Lemma free_plain_ok e x y y' s b u : G e (Some b :: x) y s -> nth_error (bufs _ s) b = Some u -> b_plain _ u = true ->
  (forall c, wr y' s c <= wr y s c) -> (forall c, 0 <= wr y' s c) -> (e = true -> wr y' s b = 0) ->
  look _ b s = Some u /\ G e x y' (set_buf _ b (freed _ u) s).
Proof.
  intros g H P Hy Hy0 Hyb.
  assert (L : 1 <= tot (Some b :: x) s b). { rewrite tot_cons, one_same. unfold tot. pose proof (cnt_nonneg x b). pose proof (cnt_nonneg (map held (slots _ s)) b). lia. }
  split; [eapply look_live; eauto; lia|].
  assert (g' : G e (Some b :: x) y' s).
  { destruct g as [g1 g2 g3 g4]. split; auto. intros E c. specialize (g4 E c). specialize (Hy c). specialize (Hy0 c). lia. }
  destruct (g_cnt _ _ _ _ g b u H) as (_ & _ & F). destruct F as (F0 & F1); [lia|]. rewrite P in F1.
  assert (T : tot (Some b :: x) s b = 1 + tot x s b) by (rewrite tot_cons, one_same; lia).
  eapply G_set_buf; eauto; try reflexivity; [|unfold bufok; cbn [b_freed b_plain b_ref with_ref freed]; lia].
  intros c N. rewrite tot_cons. unfold one. destruct (Nat.eqb_spec b c); [congruence|lia].
Qed.
Lemma create_ok e x y s host schema v junk mem : G e x y s ->
  match create _ host schema v junk mem s with
  | None => mem = false /\ host <> 0
  | Some (t, None) => t = s /\ host = 0 /\ mem = false
  | Some (t, Some c) => mem = true /\ slots _ t = slots _ s /\ keeps s t /\ G e (Some c :: x) (Some c :: y) t /\ nth_error (bufs _ s) c = None /\
      nth_error (bufs _ t) c = Some (mkBuf _ 1 0 (host =? 0) (Z.odd host) host schema v junk)
  end.
Proof.
  intros g. unfold create.
  assert (N : nth_error (bufs _ s) (length (bufs _ s)) = None) by (apply nth_error_None; lia).
  assert (M : forall u', nth_error (bufs _ s ++ [u']) (length (bufs _ s)) = Some u') by (intros; rewrite nth_error_app2, Nat.sub_diag by lia; reflexivity).
  assert (R : forall u, b_freed _ u = 0 -> b_ref _ u = 1 ->
    let t := mkSt _ (bufs _ s ++ [u]) (slots _ s) in keeps s t /\ G e (Some (length (bufs _ s)) :: x) (Some (length (bufs _ s)) :: y) t).
  { intros u Fr Re t.
    assert (K : keeps s t). { intros b w Hb. exists w. split; auto. cbn. rewrite nth_error_app1; auto. apply nth_error_Some. congruence. }
    split; auto.
    assert (Wz : wr y s (length (bufs _ s)) = 0 \/ e = false).
    { destruct e; auto. left. pose proof (g_out _ _ _ _ g _ N). destruct (g_ex _ _ _ _ g eq_refl (length (bufs _ s))); lia. }
    split.
    - intros b w. cbn [bufs t]. intros Hb. rewrite tot_cons. change (tot x t b) with (tot x s b).
      destruct (Nat.eq_dec b (length (bufs _ s))) as [->|Nb].
      + rewrite M in Hb. injection Hb as <-. rewrite one_same, (g_out _ _ _ _ g _ N). unfold bufok. destruct (b_plain _ u); lia.
      + assert (Lb : (b < length (bufs _ s ++ [u]))%nat) by (apply nth_error_Some; congruence). rewrite app_length in Lb. cbn in Lb.
        rewrite nth_error_app1 in Hb by lia. unfold one. destruct (Nat.eqb_spec (length (bufs _ s)) b); [congruence|]. exact (g_cnt _ _ _ _ g _ _ Hb).
    - intros b. cbn [bufs t]. intros Hb. apply nth_error_None in Hb. rewrite app_length in Hb. cbn in Hb. rewrite tot_cons. change (tot x t b) with (tot x s b).
      rewrite (g_out _ _ _ _ g b) by (apply nth_error_None; lia). unfold one. destruct (Nat.eqb_spec (length (bufs _ s)) b); lia.
    - apply (wf_all_keeps e s t); auto. apply (g_wf _ _ _ _ g).
    - intros Ee b. rewrite tot_cons, wr_cons. change (tot x t b) with (tot x s b). change (wr y t b) with (wr y s b).
      destruct (Nat.eq_dec b (length (bufs _ s))) as [->|Nb].
      + rewrite !one_same, (g_out _ _ _ _ g _ N). destruct Wz; [lia|congruence].
      + unfold one. destruct (Nat.eqb_spec (length (bufs _ s)) b); [congruence|]. apply (g_ex _ _ _ _ g Ee). }
  destruct (Z.eqb_spec host 0) as [->|Hh]; cbn [negb]; destruct mem.
  - destruct (R (mkBuf _ 1 0 true false 0 schema v junk) eq_refl eq_refl) as (K & Gt). split; [reflexivity|]. split; [reflexivity|]. split; [exact K|]. split; [exact Gt|]. split; [exact N|apply M].
  - auto.
  - destruct (R (mkBuf _ 1 0 false (Z.odd host) host schema v junk) eq_refl eq_refl) as (K & Gt). split; [reflexivity|]. split; [reflexivity|]. split; [exact K|]. split; [exact Gt|]. split; [exact N|apply M].
  - auto.
Qed.
(** a handle leaves its slot, another comes into it *)
Lemma set_slot_ok e x y s i old new : G e x y s -> nth_error (slots _ s) i = Some old -> wf e (bufs _ s) new ->
  forall x' y', (forall b, cnt x' b + one (held new) b = cnt x b + one (held old) b) ->
                (forall b, cnt y' b + one (held_rw new) b = cnt y b + one (held_rw old) b) ->
  G e x' y' (set_slot _ i new s).
Proof.
  intros g H Hn x' y' Hx Hy.
  assert (T : forall b, tot x' (set_slot _ i new s) b = tot x s b).
  { intros b. unfold tot, set_slot; cbn [slots]. rewrite (cnt_upd held i new old) by auto. specialize (Hx b). lia. }
  assert (W : forall b, wr y' (set_slot _ i new s) b = wr y s b).
  { intros b. unfold wr, set_slot; cbn [slots]. rewrite (cnt_upd held_rw i new old) by auto. specialize (Hy b). lia. }
  destruct g as [g1 g2 g3 g4]. split.
  - intros b u Hb. rewrite T. apply g1; auto.
  - intros b Hb. rewrite T. apply g2; auto.
  - cbn. apply Forall_upd; auto.
  - intros E b. rewrite T, W. auto.
Qed.
Lemma push_ok e x y s new : G e x y s -> wf e (bufs _ s) new ->
  forall x' y', (forall b, cnt x' b + one (held new) b = cnt x b) -> (forall b, cnt y' b + one (held_rw new) b = cnt y b) ->
  G e x' y' (push _ new s).
Proof.
  intros g Hn x' y' Hx Hy.
  assert (T : forall b, tot x' (push _ new s) b = tot x s b).
  { intros b. unfold tot, push; cbn [slots]. rewrite map_app, cnt_app. cbn. specialize (Hx b). lia. }
  assert (W : forall b, wr y' (push _ new s) b = wr y s b).
  { intros b. unfold wr, push; cbn [slots]. rewrite map_app, cnt_app. cbn. specialize (Hy b). lia. }
  destruct g as [g1 g2 g3 g4]. split.
  - intros b u Hb. rewrite T. apply g1; auto.
  - intros b Hb. rewrite T. apply g2; auto.
  - cbn. apply Forall_app. auto.
  - intros E b. rewrite T, W. auto.
Qed.
Lemma G_forget e x y s : G e x (None :: y) s -> G e x y s.
Proof. intros [g1 g2 g3 g4]. split; auto. Qed.
Lemma G_perm e x y x' y' s : G e x y s -> (forall b, cnt x' b = cnt x b) -> (forall b, cnt y' b = cnt y b) -> G e x' y' s.
Proof.
  intros [g1 g2 g3 g4] Hx Hy. split; auto.
  - intros b u H. replace (tot x' s b) with (tot x s b) by (unfold tot; rewrite Hx; lia). auto.
  - intros b H. replace (tot x' s b) with (tot x s b) by (unfold tot; rewrite Hx; lia). auto.
  - intros E b. replace (tot x' s b) with (tot x s b) by (unfold tot; rewrite Hx; lia).
    replace (wr y' s b) with (wr y s b) by (unfold wr; rewrite Hy; lia). auto.
Qed.
Lemma slot_wf e x y s i sl : G e x y s -> nth_error (slots _ s) i = Some sl -> wf e (bufs _ s) sl.
Proof. intros g H. apply nth_error_In in H. pose proof (g_wf _ _ _ _ g) as F. rewrite Forall_forall in F. auto. Qed.
(** what a slot with a reader gives *)
Lemma reader_facts e s i p b : G e [] [] s -> nth_error (slots _ s) i = Some (RO p (Some b)) ->
  exists d u, p = Some (b, d) /\ nth_error (bufs _ s) b = Some u /\ b_plain _ u = false /\ (e = true -> inside (b_val _ u) d <> None) /\
  look _ b s = Some u /\ 0 < tot [] s b /\ b_ref _ u = tot [] s b /\ (e = true -> wr [] s b = 0).
Proof.
  intros g H. pose proof (slot_wf _ _ _ _ _ _ g H) as Hw. destruct p as [[c d]|]; cbn in Hw; [|tauto].
  destruct Hw as (-> & u & Hb & P & I). exists d, u.
  pose proof (cnt_in held _ _ _ b H) as L. cbn in L. rewrite Nat.eqb_refl in L.
  assert (T : 0 < tot [] s b) by (unfold tot; cbn; lia).
  repeat split; auto.
  - eapply look_live; eauto.
  - destruct (g_cnt _ _ _ _ g b u Hb) as (_ & _ & F). destruct (F T) as (_ & F1). rewrite P in F1. exact F1.
  - intros E. pose proof (reader_more _ _ _ _ b H) as R. rewrite one_same in R. destruct (g_ex _ _ _ _ g E b) as [Z|(Z1 & Z2)]; auto.
    unfold wr, tot in *. cbn in *. lia.
Qed.
Lemma writer_facts e s i b : G e [] [] s -> nth_error (slots _ s) i = Some (RW (Some b)) ->
  exists u, nth_error (bufs _ s) b = Some u /\ look _ b s = Some u /\ 0 < tot [] s b /\ (e = true -> wr [] s b = 1 /\ tot [] s b = 1) /\
  (b_plain _ u = false -> b_ref _ u = tot [] s b).
Proof.
  intros g H. destruct (slot_wf _ _ _ _ _ _ g H) as (u & Hb). exists u.
  pose proof (cnt_in held _ _ _ b H) as L. cbn in L. rewrite Nat.eqb_refl in L.
  pose proof (cnt_in held_rw _ _ _ b H) as Lw. cbn in Lw. rewrite Nat.eqb_refl in Lw.
  assert (T : 0 < tot [] s b) by (unfold tot; cbn; lia).
  repeat split; auto.
  - eapply look_live; eauto.
  - destruct (g_ex _ _ _ _ g H0 b) as [Z|(Z1 & Z2)]; auto. unfold wr in *; cbn in *; lia.
  - destruct (g_ex _ _ _ _ g H0 b) as [Z|(Z1 & Z2)]; auto. unfold wr in *; cbn in *; lia.
  - destruct (g_cnt _ _ _ _ g b u Hb) as (_ & _ & F). destruct (F T) as (_ & F1). intros P. rewrite P in F1. exact F1.
Qed.

(** ** What each call does *)
Notation out := (out V).
Definition frame (tg : list nat) (s t : st) : Prop :=
  forall k sl, ~ In k tg -> nth_error (slots _ s) k = Some sl -> nth_error (slots _ t) k = Some sl.
Definition post (e : bool) (tg : list nat) (bad : Prop) (s : st) (o : out) : Prop :=
  match o with
  | Fine _ t => G e [] [] t /\ keeps s t /\ frame tg s t
  | Thrown _ t => G e [] [] t /\ keeps s t /\ slots _ t = slots _ s
  | Undef _ => e = false \/ bad
  | Terminate _ => False
  end.
Lemma frame_same tg s t : slots _ t = slots _ s -> frame tg s t. Proof. intros E k sl _ H. rewrite E. auto. Qed.
Lemma frame_set i tg s t x : In i tg -> frame tg s t -> frame tg s (set_slot _ i x t).
Proof.
  intros Hi F k sl Hk H. cbn. rewrite nth_upd_other; auto. intros ->. auto.
Qed.
Lemma frame_push tg s t x : frame tg s t -> frame tg s (push _ x t).
Proof.
  intros F k sl Hk H. cbn. rewrite nth_error_app1; auto. apply nth_error_Some. rewrite (F _ _ Hk H). discriminate.
Qed.
Lemma keeps_set i x s t : keeps s t -> keeps s (set_slot _ i x t). Proof. intros K. exact K. Qed.
Lemma keeps_push x s t : keeps s t -> keeps s (push _ x t). Proof. intros K. exact K. Qed.
Hint Resolve frame_same frame_set frame_push keeps_set keeps_push keeps_refl : hnd.
Lemma post_id e tg bad s : G e [] [] s -> post e tg bad s (Fine _ s).
Proof. intros g. cbn. auto using keeps_refl, frame_same. Qed.
Lemma post_thrown e tg bad s : G e [] [] s -> post e tg bad s (Thrown _ s).
Proof. intros g. cbn. auto using keeps_refl, frame_same. Qed.

Lemma sum_zero b (o : option nat) : cnt [] b + one o b = cnt [o] b. Proof. cbn. lia. Qed.

(** a new reader of a buffer that has one *)
Lemma ro_new_ok e s tg bad p h : G e [] [] s -> small s ->
  (forall b, h = Some b -> exists u, nth_error (bufs _ s) b = Some u /\ b_plain _ u = false /\ 0 < tot [] s b /\ (e = true -> wr [] s b = 0) /\
     forall q, p = Some q -> fst q = b -> e = true -> inside (b_val _ u) (snd q) <> None) ->
  post e tg bad s (ro_new _ p h s).
Proof.
  intros g Sm H. unfold ro_new, check_buffer. destruct p as [[b d]|], h as [c|]; cbn [fst];
    [|apply post_thrown; auto..|].
  - destruct (H c eq_refl) as (u & Hu & P & L & W & I). rewrite (look_live _ _ _ _ _ _ g Hu L).
    destruct (Nat.eqb_spec b c) as [->|N]; [|apply post_thrown; auto].
    destruct (add_reference_ok _ _ _ _ _ _ g Hu P) as (t & -> & Gt & Sl & K); [specialize (Sm c); lia|auto|].
    cbn. split; [|split; [auto with hnd|apply frame_push, frame_same; auto]].
    eapply push_ok; [exact Gt| |intros b0; cbn; lia|intros b0; cbn; lia]. cbn. split; auto. destruct (K _ _ Hu) as (u' & Hu' & Sg).
    exists u'. unfold sig in Sg. injection Sg as E1 E2 E3 E4 E5 E6. rewrite E1, E5. split; auto. split; auto. apply (I (c, d)); auto.
  - cbn. split; [|auto with hnd]. eapply push_ok; eauto; cbn; auto; intros; lia.
Qed.
Lemma ro_copy_ok e s j : G e [] [] s -> small s -> post e [] False s (ro_copy _ j s).
Proof.
  intros g Sm. unfold ro_copy. destruct (nth_error (slots _ s) j) as [[p h|p]|] eqn:E; try (apply post_id; auto; fail).
  apply ro_new_ok; auto. intros b ->. destruct (reader_facts _ _ _ _ _ g E) as (d & u & -> & A & B & C & D & F & I & J).
  exists u. repeat split; auto. intros q [= <-] _. auto.
Qed.
Lemma detach_slot_ok e s i p h : G e [] [] s -> small s -> nth_error (slots _ s) i = Some (RO p h) ->
  exists t, detach _ h s = Some t /\ G e [] [] (set_slot _ i (RO None None) t) /\ slots _ t = slots _ s /\ keeps s t.
Proof.
  intros g Sm E. destruct h as [b|].
  - destruct (reader_facts _ _ _ _ _ g E) as (d & u & -> & A & B & C & D & F & I & J).
    assert (g1 : G e [Some b] [] (set_slot _ i (RO None None) s)).
    { eapply set_slot_ok; eauto; cbn; auto; intros; lia. }
    destruct (release_ok _ _ _ [] _ _ _ g1 A B) as (t & Dt & Gt & Sl & K).
    { rewrite tot_cons, one_same. unfold tot, set_slot; cbn [slots]. rewrite (cnt_upd held i (RO None None) _ _ b E). cbn [held one].
      rewrite Nat.eqb_refl. specialize (Sm b). unfold tot in Sm. cbn [cnt] in *. lia. }
    { intros; lia. } { intros; unfold wr; cbn. apply cnt_nonneg. }
    { intros Ee. unfold wr, set_slot; cbn [slots]. rewrite (cnt_upd held_rw i (RO None None) _ _ b E). cbn. specialize (J Ee). unfold wr in J. cbn in J. lia. }
    unfold detach in Dt |- *. change (look V b (set_slot V i (RO None None) s)) with (look V b s) in Dt.
    rewrite D in Dt |- *. destruct (negb (b_ref V u =? 1)).
    + cbv zeta in Dt |- *. destruct (i32 (b_ref V u - 1) >? 0); injection Dt as <-; eexists; (split; [reflexivity|]); (split; [exact Gt|]); split; [reflexivity|exact K|reflexivity|exact K].
    + injection Dt as <-. eexists. split; [reflexivity|]. split; [exact Gt|]. split; [reflexivity|exact K].
  - cbn. exists s. split; auto. split; [|split; auto using keeps_refl].
    eapply set_slot_ok; eauto; cbn; auto.
Qed.
Lemma ro_purge_ok e s i : G e [] [] s -> small s -> post e [i] False s (ro_purge _ i s).
Proof.
  intros g Sm. unfold ro_purge. destruct (nth_error (slots _ s) i) as [[p h|p]|] eqn:E; try (apply post_id; auto; fail).
  destruct (detach_slot_ok _ _ _ _ _ g Sm E) as (t & -> & Gt & Sl & K). cbn. split; auto. split; auto.
  apply frame_set; [left; auto|apply frame_same; auto].
Qed.
Lemma slot_same (s : st) i sl : nth_error (slots _ s) i = Some sl -> (i < length (slots _ s))%nat.
Proof. intros H. apply nth_error_Some. congruence. Qed.
Lemma check_ok e s j p h : G e [] [] s -> nth_error (slots _ s) j = Some (RO p h) -> check_buffer _ p h s = Some true.
Proof.
  intros g E. destruct h as [b|].
  - destruct (reader_facts _ _ _ _ _ g E) as (d & u & -> & A & B & C & D & _). cbn. rewrite D, Nat.eqb_refl. reflexivity.
  - pose proof (slot_wf _ _ _ _ _ _ g E) as W. destruct p as [[c d]|]; cbn in *; tauto.
Qed.
Lemma ro_move_ok e s j : G e [] [] s -> post e [j] False s (ro_move _ j s).
Proof.
  intros g. unfold ro_move. destruct (nth_error (slots _ s) j) as [[p h|p]|] eqn:E; try (apply post_id; auto; fail).
  rewrite (check_ok _ _ _ _ _ g E). cbn. split; [|split; auto with hnd].
  - assert (G1 : G e [h] [] (set_slot _ j (RO None None) s)) by (eapply set_slot_ok; [exact g|exact E|exact I|intros c; cbn; lia|reflexivity]).
    eapply push_ok; [exact G1|exact (slot_wf _ _ _ _ _ _ g E)|intros c; cbn; lia|reflexivity].
  - apply frame_push, frame_set; [left; auto|]. apply frame_same; auto.
Qed.
Lemma same_eq a b : match a, b with Some a, Some b => (a =? b)%nat | None, None => true | _, _ => false end = true -> a = b.
Proof. destruct a as [a|], b as [b|]; try congruence. intros H. apply Nat.eqb_eq in H. congruence. Qed.
Lemma ro_assign_ok e s i j : G e [] [] s -> small s -> post e [i] False s (ro_assign _ i j s).
Proof.
  intros g Sm. unfold ro_assign. destruct (nth_error (slots _ s) i) as [[pi hi|pi]|] eqn:Ei; try (apply post_id; auto; fail).
  destruct (nth_error (slots _ s) j) as [[pj hj|pj]|] eqn:Ej; try (apply post_id; auto; fail).
  rewrite (check_ok _ _ _ _ _ g Ej).
  destruct (match hi with Some a => match hj with Some b => (a =? b)%nat | None => false end | None => match hj with Some _ => false | None => true end end) eqn:Eq.
  - apply same_eq in Eq. subst hj. cbn. split; [|split; auto with hnd].
    + eapply set_slot_ok; [exact g|exact Ei| |reflexivity|reflexivity]. exact (slot_wf _ _ _ _ _ _ g Ej).
    + apply frame_set; [left; auto|apply frame_same; auto].
  - assert (N : i <> j). { intros ->. rewrite Ei in Ej. injection Ej as -> ->. destruct hj; [rewrite Nat.eqb_refl in Eq|]; discriminate. }
    unfold ro_purge. rewrite Ei. destruct (detach_slot_ok _ _ _ _ _ g Sm Ei) as (t & -> & Gt & Sl & K).
    assert (Ej' : nth_error (slots _ (set_slot _ i (RO None None) t)) j = Some (RO pj hj)) by (cbn; rewrite nth_upd_other, Sl; auto).
    assert (Ei' : nth_error (slots _ (set_slot _ i (RO None None) t)) i = Some (RO None None)).
    { cbn. apply nth_upd_same. rewrite Sl. eapply slot_same; eauto. }
    destruct hj as [b|].
    + destruct (reader_facts _ _ _ _ _ Gt Ej') as (d & u & -> & A & B & C & D & F & I & J).
      destruct (add_reference_ok _ _ _ _ _ _ Gt A B) as (v & -> & Gv & Slv & Kv).
      { split; auto. specialize (Sm b). unfold tot in *. cbn [cnt] in *. unfold set_slot; cbn [slots]. rewrite Sl.
        rewrite (cnt_upd held i (RO None None) _ _ b Ei). cbn [held one]. pose proof (one_nonneg hi b). lia. }
      { auto. }
      cbn. split; [|split].
      * eapply set_slot_ok; [exact Gv|rewrite Slv; exact Ei'| |intros c; cbn; lia|reflexivity].
        eapply wf_keeps; [exact Kv|]. exact (slot_wf _ _ _ _ _ _ Gt Ej').
      * apply keeps_set. eapply keeps_trans; [exact K|]. exact Kv.
      * apply frame_set; [left; auto|]. intros k sl Hk H. rewrite Slv. cbn. rewrite nth_upd_other, Sl; auto. intros ->. apply Hk. left; auto.
    + cbn [add_reference]. cbn [post]. split; [|split].
      * eapply set_slot_ok; [exact Gt|exact Ei'| |reflexivity|reflexivity]. exact (slot_wf _ _ _ _ _ _ Gt Ej').
      * apply keeps_set. exact K.
      * apply frame_set; [left; auto|]. intros k sl Hk H. cbn. rewrite nth_upd_other, Sl; auto. intros ->. apply Hk. left; auto.
Qed.
Lemma ro_move_assign_ok e s i j : G e [] [] s -> small s -> post e [i; j] False s (ro_move_assign _ i j s).
Proof.
  intros g Sm. unfold ro_move_assign. destruct (nth_error (slots _ s) i) as [[pi hi|pi]|] eqn:Ei; try (apply post_id; auto; fail).
  destruct (nth_error (slots _ s) j) as [[pj hj|pj]|] eqn:Ej; try (apply post_id; auto; fail).
  rewrite (check_ok _ _ _ _ _ g Ej). unfold ro_purge. rewrite Ei.
  destruct (detach_slot_ok _ _ _ _ _ g Sm Ei) as (t & -> & Gt & Sl & K).
  assert (Ei' : nth_error (slots _ (set_slot _ i (RO None None) t)) i = Some (RO None None)).
  { cbn. apply nth_upd_same. rewrite Sl. eapply slot_same; eauto. }
  destruct (nth_error (slots _ (set_slot _ i (RO None None) t)) j) as [[pj' hj'|]|] eqn:Ej'.
  - cbn [post]. split; [|split].
    + destruct (Nat.eq_dec i j) as [->|N].
      * rewrite Ei' in Ej'. injection Ej' as <- <-.
        assert (G1 : G e [] [] (set_slot _ j (RO None None) (set_slot _ j (RO None None) t))) by (eapply set_slot_ok; [exact Gt|exact Ei'|exact I|reflexivity|reflexivity]).
        eapply set_slot_ok; [exact G1| |exact I|reflexivity|reflexivity].
        cbn. apply nth_upd_same. rewrite upd_length, Sl. eapply slot_same; eauto.
      * assert (G1 : G e [] [] (set_slot _ j (RO None None) (set_slot _ i (RO None None) t)) \/ True) by auto. clear G1.
        assert (G1 : G e [hj'] [] (set_slot _ j (RO None None) (set_slot _ i (RO None None) t))).
        { eapply set_slot_ok; [exact Gt|exact Ej'|exact I|intros c; cbn; lia|reflexivity]. }
        assert (G2 : G e [] [] (set_slot _ i (RO pj' hj') (set_slot _ j (RO None None) (set_slot _ i (RO None None) t)))).
        { eapply set_slot_ok; [exact G1|cbn; rewrite nth_upd_other by auto; exact Ei'|exact (slot_wf _ _ _ _ _ _ Gt Ej')|intros c; cbn; lia|reflexivity]. }
        replace (set_slot _ j (RO None None) (set_slot _ i (RO pj' hj') (set_slot _ i (RO None None) t)))
          with (set_slot _ i (RO pj' hj') (set_slot _ j (RO None None) (set_slot _ i (RO None None) t))); auto.
        unfold set_slot. cbn. f_equal. revert N. clear. generalize (slots _ t) as l. intros l N.
        revert i j N; induction l as [|a l IH]; intros [|i] [|j] N; cbn; try congruence; auto. f_equal. apply IH. congruence.
    + apply keeps_set, keeps_set, keeps_set. exact K.
    + apply frame_set; [right; left; auto|]. apply frame_set; [left; auto|]. apply frame_set; [left; auto|]. apply frame_same; auto.
  - exfalso. destruct (Nat.eq_dec i j) as [->|N]; [congruence|]. cbn in Ej'. rewrite nth_upd_other, Sl in Ej' by auto. congruence.
  - exfalso. destruct (Nat.eq_dec i j) as [->|N]; [congruence|]. cbn in Ej'. rewrite nth_upd_other, Sl in Ej' by auto. congruence.
Qed.
(** two handles of one kind change places *)
Lemma swap_ok e s i j a b : G e [] [] s -> nth_error (slots _ s) i = Some a -> nth_error (slots _ s) j = Some b ->
  G e [] [] (set_slot _ j a (set_slot _ i b s)).
Proof.
  intros g Ei Ej. destruct (Nat.eq_dec i j) as [->|N].
  - rewrite Ei in Ej. injection Ej as <-.
    assert (G1 : G e [] [] (set_slot _ j a s)) by (eapply set_slot_ok; [exact g|exact Ei|exact (slot_wf _ _ _ _ _ _ g Ei)|reflexivity|reflexivity]).
    eapply set_slot_ok; [exact G1| |exact (slot_wf _ _ _ _ _ _ g Ei)|reflexivity|reflexivity].
    cbn. apply nth_upd_same. eapply slot_same; eauto.
  - destruct g as [g1 g2 g3 g4].
    assert (T : forall f c, cnt (map f (upd j a (upd i b (slots _ s)))) c = cnt (map f (slots _ s)) c).
    { intros f c. rewrite (cnt_upd f j a b) by (rewrite nth_upd_other; auto). rewrite (cnt_upd f i b a) by auto. lia. }
    assert (T1 : forall c, tot [] (set_slot _ j a (set_slot _ i b s)) c = tot [] s c) by (intros c; unfold tot; cbn [slots set_slot]; rewrite T; lia).
    assert (T2 : forall c, wr [] (set_slot _ j a (set_slot _ i b s)) c = wr [] s c) by (intros c; unfold wr; cbn [slots set_slot]; rewrite T; lia).
    split.
    + intros c u H. rewrite T1. auto.
    + intros c H. rewrite T1. auto.
    + rewrite Forall_forall in g3. cbn. apply Forall_upd; [apply Forall_upd|].
      * rewrite Forall_forall. exact g3.
      * apply g3. eapply nth_error_In; eauto.
      * apply g3. eapply nth_error_In; eauto.
    + intros E c. rewrite T1, T2. auto.
Qed.
Lemma ro_swap_ok e s i j : G e [] [] s -> post e [i; j] False s (ro_swap _ i j s).
Proof.
  intros g. unfold ro_swap. destruct (nth_error (slots _ s) i) as [[pi hi|pi]|] eqn:Ei; try (apply post_id; auto; fail).
  destruct (nth_error (slots _ s) j) as [[pj hj|pj]|] eqn:Ej; try (apply post_id; auto; fail).
  cbn. split; [eapply swap_ok; eauto|]. split; [auto with hnd|]. apply frame_set; [right; left; auto|]. apply frame_set; [left; auto|]. apply frame_same; auto.
Qed.
Lemma rw_swap_ok e s i j : G e [] [] s -> post e [i; j] False s (rw_swap _ i j s).
Proof.
  intros g. unfold rw_swap. destruct (nth_error (slots _ s) i) as [[pi hi|pi]|] eqn:Ei; try (apply post_id; auto; fail).
  destruct (nth_error (slots _ s) j) as [[pj hj|pj]|] eqn:Ej; try (apply post_id; auto; fail).
  cbn. split; [eapply swap_ok; eauto|]. split; [auto with hnd|]. apply frame_set; [right; left; auto|]. apply frame_set; [left; auto|]. apply frame_same; auto.
Qed.
Lemma inside_next v d w : inside v d = Some w -> inside v (S d) = nested w.
Proof. revert v; induction d as [|d IH]; intros v H; cbn in *. - injection H as <-. destruct (nested v); auto. - destruct (nested v); [apply IH; auto|discriminate]. Qed.
Lemma ro_nested_ok e s j : G e [] [] s -> small s -> post e [] (exists h, nth_error (slots _ s) j = Some (RO None h)) s (ro_nested _ nested j s).
Proof.
  intros g Sm. unfold ro_nested. destruct (nth_error (slots _ s) j) as [[[p|] h|p]|] eqn:E; try (apply post_id; auto; fail).
  - destruct h as [b|]; [|pose proof (slot_wf _ _ _ _ _ _ g E) as W; cbn in W; destruct p; tauto].
    destruct (reader_facts _ _ _ _ _ g E) as (d & u & [= ->] & A & B & C & D & F & I & J).
    unfold nested_place, contents. cbn [fst snd]. rewrite D. destruct (inside (b_val V u) d) as [w|] eqn:Iw.
    + apply ro_new_ok; auto. intros c [= <-]. exists u. repeat split; auto. intros q Hq _ Ee. destruct (nested w) eqn:Nw; [|discriminate].
      injection Hq as <-. cbn [snd]. rewrite (inside_next _ _ _ Iw), Nw. discriminate.
    + cbn. destruct e; auto. exfalso. apply C; auto.
  - cbn. eauto.
Qed.
(** ** Writers *)
Lemma detach_set h i x s : detach _ h (set_slot _ i x s) = option_map (set_slot _ i x) (detach V h s).
Proof.
  destruct h as [b|]; [|reflexivity]. unfold detach. change (look V b (set_slot V i x s)) with (look V b s).
  destruct (look V b s) as [u|]; [|reflexivity]. destruct (negb (b_ref V u =? 1)); [|reflexivity].
  cbv zeta. destruct (i32 (b_ref V u - 1) >? 0); reflexivity.
Qed.
Lemma delete_set p i x s : delete _ p (set_slot _ i x s) = option_map (set_slot _ i x) (delete V p s).
Proof.
  destruct p as [b|]; [|reflexivity]. unfold delete. change (look V b (set_slot V i x s)) with (look V b s).
  destruct (look V b s) as [u|]; [|reflexivity]. destruct (b_plain V u); [reflexivity|]. apply detach_set.
Qed.
Lemma delete_ok e x y s b : G e (Some b :: x) (Some b :: y) s -> tot (Some b :: x) s b < 2 ^ 31 ->
  exists t, delete _ (Some b) s = Some t /\ G e x y t /\ slots _ t = slots _ s /\ keeps s t.
Proof.
  intros g B.
  assert (L : 1 <= tot (Some b :: x) s b). { rewrite tot_cons, one_same. unfold tot. pose proof (cnt_nonneg x b). pose proof (cnt_nonneg (map held (slots _ s)) b). lia. }
  destruct (nth_error (bufs _ s) b) as [u|] eqn:H; [|rewrite (g_out _ _ _ _ g b H) in L; lia].
  assert (W0 : forall c, 0 <= wr y s c) by (intros c; unfold wr; pose proof (cnt_nonneg y c); pose proof (cnt_nonneg (map held_rw (slots _ s)) c); lia).
  assert (W1 : forall c, wr y s c <= wr (Some b :: y) s c) by (intros c; rewrite wr_cons; pose proof (one_nonneg (Some b) c); lia).
  assert (W2 : e = true -> wr y s b = 0). { intros E. pose proof (g_ex _ _ _ _ g E b) as X. rewrite wr_cons, one_same in X. specialize (W0 b). lia. }
  unfold delete. rewrite (look_live _ _ _ _ _ _ g H) by lia. destruct (b_plain V u) eqn:P.
  - destruct (free_plain_ok _ _ _ y _ _ _ g H P W1 W0 W2) as (_ & Gt). eexists. split; [reflexivity|]. split; [exact Gt|].
    split; [reflexivity|]. eapply set_buf_keeps; eauto; reflexivity.
  - destruct (release_ok _ _ _ y _ _ _ g H P B W1 W0 W2) as (t & E & Gt & Sl & K). eauto.
Qed.
Lemma delete_slot_ok e s i p : G e [] [] s -> small s -> nth_error (slots _ s) i = Some (RW p) ->
  exists t, delete _ p s = Some t /\ G e [] [] (set_slot _ i (RW None) t) /\ slots _ t = slots _ s /\ keeps s t.
Proof.
  intros g Sm E. destruct p as [b|].
  - assert (g1 : G e [Some b] [Some b] (set_slot _ i (RW None) s)).
    { eapply set_slot_ok; eauto; cbn; auto; intros; lia. }
    destruct (delete_ok _ _ _ _ _ g1) as (t & Dt & Gt & Sl & K).
    { rewrite tot_cons, one_same. unfold tot, set_slot; cbn [slots]. rewrite (cnt_upd held i (RW None) _ _ b E). cbn [held one].
      rewrite Nat.eqb_refl. specialize (Sm b). unfold tot in Sm. cbn [cnt] in *. lia. }
    rewrite delete_set in Dt. destruct (delete V (Some b) s) as [v|] eqn:Dv; [|discriminate]. cbn in Dt. injection Dt as <-.
    exists v. split; auto. split; auto. split; [|exact K].
    unfold delete in Dv. destruct (look V b s) as [u|]; [|discriminate]. destruct (b_plain V u).
    + injection Dv as <-. reflexivity.
    + unfold detach in Dv. destruct (look V b s) as [w|]; [|discriminate]. destruct (negb (b_ref V w =? 1)); cbv zeta in Dv.
      * destruct (i32 (b_ref V w - 1) >? 0); injection Dv as <-; reflexivity.
      * injection Dv as <-. reflexivity.
  - cbn. exists s. split; auto. split; [|split; auto using keeps_refl].
    eapply set_slot_ok; eauto; cbn; auto.
Qed.
Lemma rw_purge_ok e s i : G e [] [] s -> small s -> post e [i] False s (rw_purge _ i s).
Proof.
  intros g Sm. unfold rw_purge. destruct (nth_error (slots _ s) i) as [[p h|p]|] eqn:E; try (apply post_id; auto; fail).
  destruct (delete_slot_ok _ _ _ _ g Sm E) as (t & -> & Gt & Sl & K). cbn. split; auto. split; auto.
  apply frame_set; [left; auto|apply frame_same; auto].
Qed.
Lemma rw_move_ok e s j : G e [] [] s -> post e [j] False s (rw_move _ j s).
Proof.
  intros g. unfold rw_move. destruct (nth_error (slots _ s) j) as [[p h|p]|] eqn:E; try (apply post_id; auto; fail).
  cbn. split; [|split; auto with hnd].
  - assert (G1 : G e [p] [p] (set_slot _ j (RW None) s)) by (eapply set_slot_ok; [exact g|exact E|exact I|intros c; cbn; lia|intros c; cbn; lia]).
    eapply push_ok; [exact G1|exact (slot_wf _ _ _ _ _ _ g E)|intros c; cbn; lia|intros c; cbn; lia].
  - apply frame_push, frame_set; [left; auto|]. apply frame_same; auto.
Qed.
Lemma rw_move_assign_ok e s i j : G e [] [] s -> small s -> post e [i; j] False s (rw_move_assign _ i j s).
Proof.
  intros g Sm. unfold rw_move_assign. destruct (nth_error (slots _ s) i) as [[pi hi|pi]|] eqn:Ei; try (apply post_id; auto; fail).
  destruct (nth_error (slots _ s) j) as [[pj hj|pj]|] eqn:Ej; try (apply post_id; auto; fail).
  destruct (match pi with Some a => match pj with Some b => (a =? b)%nat | None => false end | None => match pj with Some _ => false | None => true end end) eqn:Eq;
    [apply post_id; auto|].
  assert (N : i <> j). { intros ->. rewrite Ei in Ej. injection Ej as ->. destruct pj; [rewrite Nat.eqb_refl in Eq|]; discriminate. }
  unfold rw_purge. rewrite Ei. destruct (delete_slot_ok _ _ _ _ g Sm Ei) as (t & -> & Gt & Sl & K).
  assert (Ej' : nth_error (slots _ (set_slot _ i (RW None) t)) j = Some (RW pj)) by (cbn; rewrite nth_upd_other, Sl; auto).
  assert (Ei' : nth_error (slots _ (set_slot _ i (RW None) t)) i = Some (RW None)).
  { cbn. apply nth_upd_same. rewrite Sl. eapply slot_same; eauto. }
  cbn [post]. split; [|split].
  - exact (swap_ok _ _ _ _ _ _ Gt Ei' Ej').
  - apply keeps_set, keeps_set, keeps_set. exact K.
  - apply frame_set; [right; left; auto|]. apply frame_set; [left; auto|]. apply frame_set; [left; auto|]. apply frame_same; auto.
Qed.
(** what an R/W-tuple that gives its buffer away gives *)
Lemma take_over_ok (s : st) b u : look _ b s = Some u ->
  take_over _ (Some b) s = Some (if b_plain _ u then None else Some (Some (b, O), Some b)).
Proof.
  intros L. unfold take_over, get_buffer. rewrite L. destruct (b_plain V u); cbn; [reflexivity|]. rewrite L, Nat.eqb_refl. reflexivity.
Qed.
Lemma ro_from_rw_ok e s j : G e [] [] s -> post e [j] (nth_error (slots _ s) j = Some (RW None)) s (ro_from_rw _ j s).
Proof.
  intros g. unfold ro_from_rw. destruct (nth_error (slots _ s) j) as [[p h|[b|]]|] eqn:E; try (apply post_id; auto; fail).
  - destruct (writer_facts _ _ _ _ g E) as (u & A & B & C & D & F). rewrite (take_over_ok _ _ _ B).
    destruct (b_plain V u) eqn:P; [apply post_thrown; auto|].
    cbn. split; [|split; [auto with hnd|]].
    + assert (G1 : G e [Some b] [Some b] (set_slot _ j (RW None) s)) by (eapply set_slot_ok; [exact g|exact E|exact I|intros c; cbn; lia|intros c; cbn; lia]).
      assert (G2 : G e [Some b] [] (set_slot _ j (RW None) s)).
      { destruct G1 as [g1 g2 g3 g4]. split; auto. intros Ee c. specialize (g4 Ee c). rewrite wr_cons in g4. pose proof (one_nonneg (Some b) c).
        unfold wr in *. pose proof (cnt_nonneg (map held_rw (slots _ (set_slot _ j (RW None) s))) c). cbn [cnt] in *. lia. }
      eapply push_ok; [exact G2| |intros c; cbn; lia|reflexivity]. cbn. split; auto. exists u. repeat split; auto. discriminate.
    + apply frame_push, frame_set; [left; auto|]. apply frame_same; auto.
  - cbn. auto.
Qed.
Lemma rw_created_ok e tg bad s r t : G e [] [] s -> slots _ t = slots _ s -> keeps s t ->
  match r with None => t = s | Some c => G e [Some c] [Some c] t /\ exists u, nth_error (bufs _ t) c = Some u end -> post e tg bad s (Fine _ (push _ (RW r) t)).
Proof.
  intros g Sl K H. cbn. split; [|split; [auto with hnd|apply frame_push, frame_same; auto]].
  destruct r as [c|].
  - destruct H as (Gt & Hu). eapply push_ok; [exact Gt|exact Hu|intros c'; cbn; lia|intros c'; cbn; lia].
  - subst t. eapply push_ok; [exact g|exact I|intros c'; cbn; lia|intros c'; cbn; lia].
Qed.
Lemma rw_create_ok e tg bad s host schema v junk mem : G e [] [] s ->
  post e tg bad s (match create _ host schema v junk mem s with None => Thrown _ s | Some (s, q) => Fine _ (push _ (RW q) s) end).
Proof.
  intros g. pose proof (create_ok e [] [] s host schema v junk mem g) as H.
  destruct (create V host schema v junk mem s) as [[t [c|]]|]; [| |apply post_thrown; auto].
  - destruct H as (_ & Sl & K & Gt & _ & Hu). apply rw_created_ok; eauto.
  - destruct H as (-> & _). apply rw_created_ok; auto using keeps_refl.
Qed.
Lemma rw_new_ok e tg bad s host schema mem : G e [] [] s -> post e tg bad s (rw_new _ blank host schema mem s).
Proof. intros g. apply rw_create_ok; auto. Qed.
Lemma rw_from_buffer_ok e tg bad s v host schema mem : G e [] [] s -> post e tg bad s (rw_from_buffer _ sane fits holes v host schema mem s).
Proof. intros g. unfold rw_from_buffer, create_from_buffer. destruct (audit V sane fits schema v); [apply rw_create_ok; auto|apply post_thrown; auto]. Qed.
Lemma ro_from_temporary_ok e s host schema v junk mem : G e [] [] s ->
  post e [] (host = 0 /\ mem = false) s (ro_from_temporary _ (create _ host schema v junk mem s) s).
Proof.
  intros g. unfold ro_from_temporary. pose proof (create_ok e [] [] s host schema v junk mem g) as H.
  destruct (create V host schema v junk mem s) as [[t [c|]]|]; [| |apply post_thrown; auto].
  - destruct H as (_ & Sl & K & Gt & Nc & Hu).
    assert (T : tot [Some c] t c = 1). { rewrite tot_cons, one_same, (tot_slots _ _ s) by auto. rewrite (g_out _ _ _ _ g _ Nc). lia. }
    pose proof (look_live _ _ _ _ _ _ Gt Hu ltac:(lia)) as L. rewrite (take_over_ok _ _ _ L). cbn [b_plain].
    destruct (Z.eqb_spec host 0) as [->|N].
    + destruct (delete_ok _ _ _ _ _ Gt) as (v' & -> & Gv & Slv & Kv); [rewrite T; lia|].
      cbn. split; auto. split; [eapply keeps_trans; eauto|congruence].
    + cbn. split; [|split; [auto with hnd|apply frame_push, frame_same; auto]].
      assert (G2 : G e [Some c] [] t).
      { destruct Gt as [g1 g2 g3 g4]. split; auto. intros Ee b. specialize (g4 Ee b). rewrite wr_cons in g4. pose proof (one_nonneg (Some c) b).
        unfold wr in *. pose proof (cnt_nonneg (map held_rw (slots _ t)) b). cbn [cnt] in *. lia. }
      eapply push_ok; [exact G2| |intros c'; cbn; lia|reflexivity]. cbn. split; auto. eexists. split; [exact Hu|]. cbn. split; [|discriminate].
      destruct (Z.eqb_spec host 0); congruence.
  - destruct H as (-> & -> & ->). cbn. auto.
Qed.
Lemma ro_from_buffer_ok e s host schema v mem : G e [] [] s ->
  post e [] (host = 0 /\ mem = false) s (ro_from_buffer _ sane fits holes v host schema mem s).
Proof. intros g. unfold ro_from_buffer, create_from_buffer. destruct (audit V sane fits schema v); [apply ro_from_temporary_ok; auto|apply post_thrown; auto]. Qed.
Lemma contents_live e s j p b : G e [] [] s -> nth_error (slots _ s) j = Some (RO (Some p) (Some b)) -> contents p s = None -> e = false.
Proof.
  intros g E. destruct (reader_facts _ _ _ _ _ g E) as (d & u & [= ->] & A & B & C & D & _). unfold contents. cbn. rewrite D.
  intros H. destruct e; auto. exfalso. apply C; auto.
Qed.
Lemma ro_clone_weak_ok e s p schema host m mem : G e [] [] s -> (forall q, p = Some q -> contents q s = None -> e = false) ->
  post e [] (host = 0 /\ mem = false) s (ro_clone_weak _ sane fits holes nested p schema host m mem s).
Proof.
  intros g C. unfold ro_clone_weak. destruct p as [p|].
  - destruct (contents p s) as [v|] eqn:Cv; [|left; eapply C; eauto].
    destruct (apply_validation_mode m _); [|apply ro_from_temporary_ok; auto].
    unfold create_from_buffer. destruct (audit V sane fits schema v); [apply ro_from_temporary_ok; auto|apply post_thrown; auto].
  - destruct schema; [apply post_thrown; auto|]. cbn. split; [|auto with hnd]. eapply push_ok; [exact g|exact I|intros c'; cbn; lia|intros c'; cbn; lia].
Qed.
Lemma ro_clone_ok e s j schema host mem : G e [] [] s -> small s ->
  post e [] (host = 0 /\ mem = false) s (ro_clone _ sane fits holes nested j schema host mem s).
Proof.
  intros g Sm. unfold ro_clone. destruct (nth_error (slots _ s) j) as [[[p|] h|p]|] eqn:E; try (apply post_id; auto; fail).
  - destruct h as [b|]; [|pose proof (slot_wf _ _ _ _ _ _ g E) as W; cbn in W; destruct p; tauto].
    destruct (reader_facts _ _ _ _ _ g E) as (d & u & [= ->] & A & B & C & D & F & I & J).
    rewrite D. cbn [peek_basis]. rewrite D.
    match goal with |- context [if ?c then _ else _] => destruct c end.
    + apply ro_new_ok; auto. intros c [= <-]. exists u. repeat split; auto. intros q [= <-] _ Ee. cbn [snd]. auto.
    + apply ro_clone_weak_ok; auto. intros q [= <-] H. eapply contents_live; eauto.
  - destruct schema; [apply post_thrown; auto|]. cbn. split; [|auto with hnd]. eapply push_ok; [exact g|exact I|intros c'; cbn; lia|intros c'; cbn; lia].
Qed.
Lemma ro_clone_rw_ok e s j host mem : G e [] [] s -> small s ->
  post e [] (nth_error (slots _ s) j = Some (RW None) \/ (host = 0 /\ mem = false)) s (ro_clone_rw _ sane fits holes nested j host mem s).
Proof.
  intros g Sm. unfold ro_clone_rw. destruct (nth_error (slots _ s) j) as [[p h|[b|]]|] eqn:E; try (apply post_id; auto; fail).
  - destruct (writer_facts _ _ _ _ g E) as (u & A & B & C & D & F). rewrite B.
    pose proof (ro_clone_weak_ok e s (Some (b, O)) (b_schema V u) host default_validation mem g) as H.
    destruct (ro_clone_weak V sane fits holes nested (Some (b, O)) (b_schema V u) host default_validation mem s); cbn in *; auto;
      try (apply H; intros q [= <-]; unfold contents; cbn; rewrite B; discriminate).
    destruct H as [H|H]; auto. intros q [= <-]; unfold contents; cbn; rewrite B; discriminate.
  - cbn. auto.
Qed.
Lemma rw_clone_ro_ok e s j schema host mem : G e [] [] s -> post e [] False s (rw_clone_ro _ sane fits holes blank nested j schema host mem s).
Proof.
  intros g. unfold rw_clone_ro. destruct (nth_error (slots _ s) j) as [[[p|] h|p]|] eqn:E; try (apply post_id; auto; fail).
  - destruct h as [b|]; [|pose proof (slot_wf _ _ _ _ _ _ g E) as W; cbn in W; destruct p; tauto].
    destruct (reader_facts _ _ _ _ _ g E) as (d & u & [= ->] & A & B & C & D & F & I & J).
    cbn [peek_basis]. rewrite D. destruct (contents (b, d) s) as [v|] eqn:Cv; [|left; eapply contents_live; eauto].
    destruct d as [|d].
    + match goal with |- context [if ?c then _ else _] => destruct c end; [apply rw_create_ok; auto|apply rw_from_buffer_ok; auto].
    + apply rw_from_buffer_ok; auto.
  - apply rw_new_ok; auto.
Qed.
Lemma rw_clone_rw_ok e s j host mem : G e [] [] s -> post e [] False s (rw_clone_rw _ j host mem s).
Proof.
  intros g. unfold rw_clone_rw. destruct (nth_error (slots _ s) j) as [[p h|[b|]]|] eqn:E; try (apply post_id; auto; fail).
  - destruct (writer_facts _ _ _ _ g E) as (u & A & B & C & D & F). rewrite B. apply rw_create_ok; auto.
  - apply post_thrown; auto.
Qed.
Lemma rw_nested_ok s j : G false [] [] s -> small s -> post false [] False s (rw_nested _ nested j s).
Proof.
  intros g Sm. unfold rw_nested. destruct (nth_error (slots _ s) j) as [[p h|[b|]]|] eqn:E; try (apply post_id; auto; fail).
  - destruct (writer_facts _ _ _ _ g E) as (u & A & B & C & D & F). unfold nested_place, contents, get_buffer. cbn [fst snd inside]. rewrite B.
    cbn [Managed.inside]. apply ro_new_ok; auto. intros c Hc. exists u. destruct (b_plain V u) eqn:P; [discriminate|]. injection Hc as <-.
    repeat split; auto; discriminate.
  - cbn. auto.
Qed.
Lemma rw_from_ro_ok e s j mem : G e [] [] s -> small s -> post e [j] False s (rw_from_ro _ sane fits holes nested j mem s).
Proof.
  intros g Sm. unfold rw_from_ro, steal. destruct (nth_error (slots _ s) j) as [[[p|] h|p]|] eqn:E; try (apply post_id; auto; fail); [|apply post_thrown; auto].
  destruct h as [b|]; [|pose proof (slot_wf _ _ _ _ _ _ g E) as W; cbn in W; destruct p; tauto].
  destruct (reader_facts _ _ _ _ _ g E) as (d & u & [= ->] & A & B & C & D & F & I0 & J).
  cbn [peek_basis]. rewrite D. destruct (contents (b, d) s) as [v|] eqn:Cv; [|left; eapply contents_live; eauto].
  match goal with |- context [if ?c then _ else _] => destruct c eqn:Al end.
  - destruct d as [|d]; [|discriminate]. unfold is_alterable in Al.
    assert (R1 : b_ref _ u = 1) by lia. cbn [post]. split; [|split; [auto with hnd|apply frame_push, frame_set; [left; auto|apply frame_same; auto]]].
    assert (G1 : G e [Some b] [] (set_slot _ j (RO None None) s)) by (eapply set_slot_ok; [exact g|exact E|exact I|intros c; cbn; lia|intros c; cbn; lia]).
    assert (G2 : G e [Some b] [Some b] (set_slot _ j (RO None None) s)).
    { assert (Tb : tot [Some b] (set_slot _ j (RO None None) s) b = tot [] s b).
      { unfold tot, set_slot; cbn [slots]. rewrite (cnt_upd held j (RO None None) _ _ b E). cbn [held one cnt]. rewrite Nat.eqb_refl. lia. }
      assert (Wb : wr [] (set_slot _ j (RO None None) s) b = wr [] s b).
      { unfold wr, set_slot; cbn [slots]. rewrite (cnt_upd held_rw j (RO None None) _ _ b E). cbn [held_rw one cnt]. lia. }
      destruct G1 as [g1 g2 g3 g4]. split; auto. intros Ee c. rewrite wr_cons. destruct (Nat.eq_dec c b) as [->|N].
      - rewrite one_same, Wb, Tb. specialize (J Ee). lia.
      - unfold one. destruct (Nat.eqb_spec b c); [congruence|]. apply (g4 Ee). }
    eapply push_ok; [exact G2| |intros c; cbn; lia|intros c; cbn; lia]. cbn. eauto.
  - unfold create_from_buffer. destruct (audit V sane fits _ v); [|apply post_thrown; auto].
    match goal with |- context [create V ?h ?sc ?vv ?jj ?mm s] => pose proof (create_ok e [] [] s h sc vv jj mm g) as H; destruct (create V h sc vv jj mm s) as [[t q]|]; [|apply post_thrown; auto] end.
    assert (Et : nth_error (slots _ t) j = Some (RO (Some (b, d)) (Some b)) /\ slots _ t = slots _ s /\ keeps s t /\
      match q with None => G e [] [] t | Some c => G e [Some c] [Some c] t /\ (exists w, nth_error (bufs _ t) c = Some w) /\ c <> b end).
    { destruct q as [c|].
      - destruct H as (_ & Sl & K & Gt & Nc & Hu). rewrite Sl. split; [auto|]. split; [auto|]. split; [exact K|]. split; [exact Gt|]. split; [eauto|congruence].
      - destruct H as (-> & _). auto using keeps_refl. }
    destruct Et as (Et & Sl & K & Gt). unfold ro_purge. rewrite Et.
    destruct q as [c|].
    + destruct Gt as (Gt & (w & Hw) & Ncb).
      assert (g1 : G e [Some b; Some c] [Some c] (set_slot _ j (RO None None) t)).
      { eapply set_slot_ok; eauto; cbn; auto; intros; lia. }
      destruct (K _ _ A) as (u' & Hu' & Sg).
      assert (P' : b_plain _ u' = false) by (unfold sig in Sg; congruence).
      destruct (release_ok _ _ _ [Some c] _ _ _ g1 Hu' P') as (v2 & Dt & Gv & Slv & Kv).
      { rewrite tot_cons, one_same, tot_cons. unfold one. destruct (Nat.eqb_spec c b); [congruence|].
        unfold tot, set_slot; cbn [slots]. rewrite Sl. rewrite (cnt_upd held j (RO None None) _ _ b E). cbn [held one].
        rewrite Nat.eqb_refl. specialize (Sm b). unfold tot in Sm. cbn [cnt] in *. lia. }
      { intros; lia. } { intros; unfold wr. pose proof (cnt_nonneg [Some c] c0). pose proof (cnt_nonneg (map held_rw (slots _ (set_slot _ j (RO None None) t))) c0). lia. }
      { intros Ee. rewrite wr_cons. unfold one. destruct (Nat.eqb_spec c b); [congruence|]. unfold wr, set_slot; cbn [slots]. rewrite Sl.
        rewrite (cnt_upd held_rw j (RO None None) _ _ b E). cbn. specialize (J Ee). unfold wr in J. cbn in J. lia. }
      rewrite detach_set in Dt. destruct (detach V (Some b) t) as [v3|] eqn:Dv; [|discriminate]. cbn in Dt. injection Dt as <-.
      cbn [post]. split; [|split].
      * eapply push_ok; [exact Gv| |intros c'; cbn; lia|intros c'; cbn; lia]. destruct (Kv _ _ Hw) as (w' & Hw' & _). cbn. eauto.
      * apply keeps_push. eapply keeps_trans; [exact K|exact Kv].
      * apply frame_push. intros k sl Hk Hs. rewrite Slv. cbn. rewrite nth_upd_other, Sl; auto. intros ->. apply Hk; left; auto.
    + destruct H as (-> & _). destruct (detach_slot_ok _ _ _ _ _ g Sm Et) as (v3 & -> & Gv & Slv & Kv).
      cbn [post]. split; [|split].
      * eapply push_ok; [exact Gv|exact I|intros c'; cbn; lia|intros c'; cbn; lia].
      * apply keeps_push. exact Kv.
      * apply frame_push. apply frame_set; [left; auto|]. apply frame_same. auto.
Qed.
Lemma rw_regrow_ok e s i mem : G e [] [] s -> small s -> post e [i] (nth_error (slots _ s) i = Some (RW None)) s (rw_regrow _ i mem s).
Proof.
  intros g Sm. unfold rw_regrow. destruct (nth_error (slots _ s) i) as [[p h|[b|]]|] eqn:E; try (apply post_id; auto; fail).
  - destruct (writer_facts _ _ _ _ g E) as (u & A & B & C & D & F). rewrite B. destruct (b_plain V u) eqn:P.
    { destruct mem; [apply post_id|apply post_thrown]; auto. }
    pose proof (create_ok e [] [] s (b_host V u) (b_schema V u) (b_val V u) (0, 0) mem g) as H.
    destruct (create V (b_host V u) (b_schema V u) (b_val V u) (0, 0) mem s) as [[t [c|]]|]; try (apply post_thrown; auto; fail).
    destruct H as (_ & Sl & K & Gt & Nc & Hu).
    assert (Ncb : c <> b) by congruence.
    assert (Et : nth_error (slots _ t) i = Some (RW (Some b))) by (rewrite Sl; auto).
    assert (g1 : G e [Some b] [Some b] (set_slot _ i (RW (Some c)) t)).
    { eapply set_slot_ok; [exact Gt|exact Et|cbn; eauto|intros; cbn; lia|intros; cbn; lia]. }
    destruct (K _ _ A) as (u' & Hu' & Sg).
    assert (P' : b_plain _ u' = false) by (unfold sig in Sg; congruence).
    assert (TT : forall f, cnt (map f (slots _ (set_slot _ i (RW (Some c)) t))) b = cnt (map f (slots _ s)) b - one (f (RW (Some b))) b + one (f (RW (Some c))) b).
    { intros f. unfold set_slot; cbn [slots]. rewrite Sl. rewrite (cnt_upd f i (RW (Some c)) _ _ b E). lia. }
    destruct (release_ok _ _ _ [] _ _ _ g1 Hu' P') as (v2 & Dt & Gv & Slv & Kv).
    { rewrite tot_cons, one_same. unfold tot. rewrite TT. cbn [held one]. rewrite Nat.eqb_refl. destruct (Nat.eqb_spec c b); [congruence|].
      specialize (Sm b). unfold tot in Sm. cbn [cnt] in *. lia. }
    { intros c0. rewrite wr_cons. pose proof (one_nonneg (Some b) c0). lia. } { intros; unfold wr; cbn [cnt]. pose proof (cnt_nonneg (map held_rw (slots _ (set_slot _ i (RW (Some c)) t))) c0). lia. }
    { intros Ee. unfold wr. rewrite TT. cbn [held_rw one cnt]. rewrite Nat.eqb_refl. destruct (Nat.eqb_spec c b); [congruence|].
      destruct (D Ee) as (D1 & D2). unfold wr in D1. cbn [cnt] in D1. lia. }
    rewrite detach_set in Dt. destruct (detach V (Some b) t) as [v3|] eqn:Dv; [|discriminate]. cbn in Dt. injection Dt as <-.
    cbn [post]. split; [exact Gv|split].
    + eapply keeps_trans; [exact K|exact Kv].
    + intros k sl Hk Hs. rewrite Slv. cbn. rewrite nth_upd_other, Sl; auto. intros ->. apply Hk; left; auto.
  - cbn. auto.
Qed.
Lemma wf_other e (s : st) b u' sl : (forall d c, sl = RO d (Some c) -> c <> b) -> wf e (bufs _ s) sl -> wf e (upd b u' (bufs _ s)) sl.
Proof.
  intros N. destruct sl as [[[c d]|] [c'|]|[c|]]; cbn; auto.
  - intros (-> & u & H & R). split; auto. exists u. split; auto. rewrite nth_upd_other; auto. specialize (N _ _ eq_refl). auto.
  - intros (u & H). rewrite nth_upd. destruct (Nat.eqb_spec b c) as [->|]; eauto.
    assert (L : (c < length (bufs _ s))%nat) by (apply nth_error_Some; congruence). destruct (Nat.ltb_spec c (length (bufs _ s))); [eauto|lia].
Qed.
Lemma wf_same e (s : st) b u u' sl : e = false -> nth_error (bufs _ s) b = Some u -> b_plain _ u' = b_plain _ u -> wf e (bufs _ s) sl -> wf e (upd b u' (bufs _ s)) sl.
Proof.
  intros -> Hb P.
  assert (L : (b < length (bufs _ s))%nat) by (apply nth_error_Some; congruence).
  destruct sl as [[[c d]|] [c'|]|[c|]]; cbn; auto.
  - intros (-> & w & H & Q & _). split; auto. rewrite nth_upd. destruct (Nat.eqb_spec b c') as [->|].
    + destruct (Nat.ltb_spec c' (length (bufs _ s))); [|lia]. exists u'. split; auto. split; [congruence|discriminate].
    + exists w. split; auto. split; auto. discriminate.
  - intros (w & H). rewrite nth_upd. destruct (Nat.eqb_spec b c) as [->|]; eauto.
    destruct (Nat.ltb_spec c (length (bufs _ s))); [eauto|lia].
Qed.
Lemma rw_write_ok e s i v : G e [] [] s ->
  match rw_write _ holes i v s with
  | Fine _ t => G e [] [] t /\ slots _ t = slots _ s /\
      (forall b, nth_error (slots _ s) i <> Some (RW (Some b)) -> nth_error (bufs _ t) b = nth_error (bufs _ s) b)
  | Undef _ => nth_error (slots _ s) i = Some (RW None)
  | _ => False
  end.
Proof.
  intros g. unfold rw_write. destruct (nth_error (slots _ s) i) as [[p h|[b|]]|] eqn:E; auto.
  destruct (writer_facts _ _ _ _ g E) as (u & A & B & C & D & F). rewrite B. cbv zeta.
  match goal with |- G _ _ _ (set_buf _ _ ?w _) /\ _ => set (u' := w) end.
  assert (L : (b < length (bufs _ s))%nat) by (apply nth_error_Some; congruence).
  split; [|split; [reflexivity|]].
  - split.
    + intros c w Hc. change (tot [] (set_buf V b u' s) c) with (tot [] s c). cbn in Hc. rewrite nth_upd in Hc.
      destruct (Nat.eqb_spec b c) as [->|N]; [|eapply g_cnt; eauto].
      destruct (Nat.ltb_spec c (length (bufs _ s))); [|lia]. injection Hc as <-. exact (g_cnt _ _ _ _ g _ _ A).
    + intros c Hc. change (tot [] (set_buf V b u' s) c) with (tot [] s c). cbn in Hc. rewrite nth_upd in Hc.
      destruct (Nat.eqb_spec b c) as [->|N]; [|eapply g_out; eauto].
      destruct (Nat.ltb_spec c (length (bufs _ s))); [discriminate|lia].
    + cbn [slots set_buf bufs]. pose proof (g_wf _ _ _ _ g) as W. rewrite Forall_forall in W |- *. intros sl Hin. specialize (W sl Hin).
      destruct e; [|eapply wf_same; eauto; reflexivity].
      apply wf_other; auto. intros d c -> ->. apply In_nth_error in Hin. destruct Hin as (k & Hk).
      destruct (reader_facts _ _ _ _ _ g Hk) as (d0 & u0 & _ & _ & _ & _ & _ & _ & _ & J). destruct (D eq_refl) as (D1 & _). specialize (J eq_refl). lia.
    + intros Ee c. exact (g_ex _ _ _ _ g Ee c).
  - intros c Hc. cbn. apply nth_upd_other. congruence.
Qed.

(** ** Any call *)
Notation apply := (apply V sane fits holes blank nested).
Definition targets (o : op V) : list nat :=
  match o with
  | RoFromRw _ j | RoMove _ j | RwMove _ j | RwFromRo _ j _ => [j]
  | RoAssign _ i _ | RoPurge _ i | RwPurge _ i | RwRegrow _ i _ | RwWrite _ i _ => [i]
  | RoMoveAssign _ i j | RoSwap _ i j | RwMoveAssign _ i j | RwSwap _ i j => [i; j]
  | _ => []
  end.
Definition improper (o : op V) (s : st) : Prop :=
  match o with
  | RoFromRw _ j | RwRegrow _ j _ | RwWrite _ j _ => nth_error (slots _ s) j = Some (RW None)
  | RoNested _ j => exists h, nth_error (slots _ s) j = Some (RO None h)
  | RoCloneRw _ j host mem => nth_error (slots _ s) j = Some (RW None) \/ (host = 0 /\ mem = false)
  | RoFromBuffer _ _ host _ mem | RoCloneWeak _ _ _ host _ mem | RoClone _ _ _ host mem => host = 0 /\ mem = false
  | _ => False
  end.
Definition is_write (o : op V) : bool := match o with RwWrite _ _ _ => true | _ => false end.
Definition is_rw_nested (o : op V) : bool := match o with RwNested _ _ => true | _ => false end.
Lemma step_ok e o s : G e [] [] s -> small s -> is_write o = false -> (e = true -> is_rw_nested o = false) -> post e (targets o) (improper o s) s (apply o s).
Proof.
  intros g Sm W N. destruct o; cbn [Managed.apply targets improper]; try discriminate.
  - apply rw_new_ok; auto.
  - apply rw_from_buffer_ok; auto.
  - apply ro_from_buffer_ok; auto.
  - apply ro_from_rw_ok; auto.
  - apply ro_copy_ok; auto.
  - apply ro_move_ok; auto.
  - apply ro_assign_ok; auto.
  - apply ro_move_assign_ok; auto.
  - apply ro_swap_ok; auto.
  - apply ro_purge_ok; auto.
  - apply ro_nested_ok; auto.
  - apply rw_move_ok; auto.
  - apply rw_move_assign_ok; auto.
  - apply rw_swap_ok; auto.
  - apply rw_purge_ok; auto.
  - apply rw_from_ro_ok; auto.
  - apply rw_regrow_ok; auto.
  - destruct e; [specialize (N eq_refl); discriminate|]. apply rw_nested_ok; auto.
  - destruct (nth_error (slots _ s) j) as [[p h|p]|] eqn:E; try (apply post_id; auto; fail).
    apply ro_clone_weak_ok; auto. intros q -> H.
    destruct h as [b|]; [eapply contents_live; eauto|]. pose proof (slot_wf _ _ _ _ _ _ g E) as X. cbn in X. destruct q; tauto.
  - apply ro_clone_ok; auto.
  - apply ro_clone_rw_ok; auto.
  - apply rw_clone_ro_ok; auto.
  - apply rw_clone_rw_ok; auto.
Qed.
Lemma step_G e o s t : G e [] [] s -> small s -> (e = true -> is_rw_nested o = false) -> apply o s = Fine _ t \/ apply o s = Thrown _ t -> G e [] [] t.
Proof.
  intros g Sm N H. destruct (is_write o) eqn:W.
  - destruct o; try discriminate. cbn [Managed.apply] in H. pose proof (rw_write_ok e s i v g) as R.
    destruct H as [H|H]; rewrite H in R; tauto.
  - pose proof (step_ok e o s g Sm W N) as P. destruct H as [H|H]; rewrite H in P; cbn in P; tauto.
Qed.
Lemma G_start e : G e [] [] (nothing V).
Proof.
  split.
  - intros [|b] u H; discriminate.
  - reflexivity.
  - constructor.
  - intros _ b. left. reflexivity.
Qed.

(** ** What handles show *)
Definition placeof (x : slot) : option place := match x with RO p _ => p | RW (Some b) => Some (b, O) | RW None => None end.
Definition shows (s : st) (x : slot) : option V := match placeof x with Some p => contents p s | None => None end.
Lemma slot_live e s k x b d : G e [] [] s -> nth_error (slots _ s) k = Some x -> placeof x = Some (b, d) ->
  exists u, nth_error (bufs _ s) b = Some u /\ look _ b s = Some u /\ held x = Some b.
Proof.
  intros g H P. destruct x as [p h|[c|]]; cbn in P; [| |discriminate].
  - subst p. destruct h as [c|]; [|pose proof (slot_wf _ _ _ _ _ _ g H) as W; cbn in W; tauto].
    destruct (reader_facts _ _ _ _ _ g H) as (d' & u & [= -> ->] & A & _ & _ & D & _). eauto.
  - injection P as -> <-. destruct (writer_facts _ _ _ _ g H) as (u & A & B & _). eauto.
Qed.
Lemma shows_of e s k x b d u : G e [] [] s -> nth_error (slots _ s) k = Some x -> placeof x = Some (b, d) -> nth_error (bufs _ s) b = Some u ->
  shows s x = inside (b_val _ u) d.
Proof.
  intros g H P Hu. destruct (slot_live _ _ _ _ _ _ g H P) as (u' & A & B & _). unfold shows. rewrite P. unfold contents. cbn. rewrite B. congruence.
Qed.
Lemma shows_keeps e s t k l x : G e [] [] s -> G e [] [] t -> keeps s t -> nth_error (slots _ s) k = Some x -> nth_error (slots _ t) l = Some x ->
  shows t x = shows s x.
Proof.
  intros g gt K H Ht. destruct (placeof x) as [[b d]|] eqn:P; [|unfold shows; rewrite P; reflexivity].
  destruct (slot_live _ _ _ _ _ _ g H P) as (u & A & _). destruct (K _ _ A) as (u' & A' & Sg).
  rewrite (shows_of _ _ _ _ _ _ _ g H P A), (shows_of _ _ _ _ _ _ _ gt Ht P A'). unfold sig in Sg. congruence.
Qed.
Lemma two_handles (f : slot -> option nat) l i k a b c : i <> k -> nth_error l i = Some a -> nth_error l k = Some b ->
  one (f a) c + one (f b) c <= cnt (map f l) c.
Proof.
  revert i k; induction l as [|x l IH]; intros [|i] [|k] N Ha Hb; cbn in *; try congruence.
  - injection Ha as ->. pose proof (cnt_in f _ _ _ c Hb). lia.
  - injection Hb as ->. pose proof (cnt_in f _ _ _ c Ha). lia.
  - specialize (IH i k ltac:(congruence) Ha Hb). pose proof (one_nonneg (f x) c). lia.
Qed.
Lemma isolated o s t k x : G true [] [] s -> small s -> is_rw_nested o = false -> apply o s = Fine _ t \/ apply o s = Thrown _ t ->
  ~ In k (targets o) -> nth_error (slots _ s) k = Some x -> nth_error (slots _ t) k = Some x /\ shows t x = shows s x.
Proof.
  intros g Sm N H Hk Hx.
  assert (gt : G true [] [] t) by (eapply step_G; eauto).
  destruct (is_write o) eqn:W.
  - destruct o; try discriminate. cbn [Managed.apply targets] in *. pose proof (rw_write_ok true s i v g) as R.
    destruct H as [H|H]; rewrite H in R; [|tauto]. destruct R as (_ & Sl & Bf). rewrite Sl. split; auto.
    destruct (placeof x) as [[b d]|] eqn:P; [|unfold shows; rewrite P; reflexivity].
    destruct (slot_live _ _ _ _ _ _ g Hx P) as (u & A & _ & Hh).
    assert (Nb : nth_error (slots _ s) i <> Some (RW (Some b))).
    { intros E. assert (Nk : i <> k) by (intros ->; apply Hk; left; auto).
      destruct (writer_facts _ _ _ _ g E) as (_ & _ & _ & _ & D & _). destruct (D eq_refl) as (_ & D2).
      pose proof (two_handles held _ _ _ _ _ b Nk E Hx) as T. rewrite Hh in T. cbn [held] in T. rewrite one_same in T. unfold tot in D2. cbn [cnt] in D2. lia. }
    assert (A' : nth_error (bufs _ t) b = Some u) by (rewrite Bf; auto).
    rewrite (shows_of _ _ _ _ _ _ _ g Hx P A). eapply shows_of; eauto. rewrite Sl. exact Hx.
  - pose proof (step_ok true o s g Sm W (fun _ => N)) as P. destruct H as [H|H]; rewrite H in P; cbn in P; destruct P as (_ & K & F).
    + assert (Ht : nth_error (slots _ t) k = Some x) by (apply F; auto). split; auto. eapply shows_keeps; eauto.
    + assert (Ht : nth_error (slots _ t) k = Some x) by (rewrite F; auto). split; auto. eapply shows_keeps; eauto.
Qed.
(** handles that are not hollow show something *)
Lemma shows_some s k x p : G true [] [] s -> nth_error (slots _ s) k = Some x -> placeof x = Some p -> shows s x <> None.
Proof.
  intros g H P. destruct p as [b d]. destruct (slot_live _ _ _ _ _ _ g H P) as (u & A & B & Hh).
  rewrite (shows_of _ _ _ _ _ _ _ g H P A). destruct x as [q h|[c|]]; cbn in P; [| |discriminate].
  - subst q. cbn in Hh. subst h. pose proof (slot_wf _ _ _ _ _ _ g H) as W. cbn in W. destruct W as (_ & w & Hw & _ & I). rewrite A in Hw. injection Hw as <-. auto.
  - injection P as -> <-. discriminate.
Qed.

(** ** New handles show what their source showed *)
Definition newest (s t : st) (v : V) : Prop :=
  exists y b d u, nth_error (slots _ t) (length (slots _ s)) = Some y /\ placeof y = Some (b, d) /\ nth_error (bufs _ t) b = Some u /\ inside (b_val _ u) d = Some v.
Lemma newest_shows e s t v : G e [] [] t -> newest s t v -> exists y, nth_error (slots _ t) (length (slots _ s)) = Some y /\ shows t y = Some v.
Proof. intros g (y & b & d & u & H & P & B & I). exists y. split; auto. rewrite (shows_of _ _ _ _ _ _ _ g H P B). auto. Qed.
Lemma nth_push (t : st) x n : length (slots _ t) = n -> nth_error (slots _ (push _ x t)) n = Some x.
Proof. intros <-. cbn. rewrite nth_error_app2, Nat.sub_diag by lia. reflexivity. Qed.
Lemma newest_keeps (s t : st) y b d u v : nth_error (slots _ t) (length (slots _ s)) = Some y -> placeof y = Some (b, d) ->
  nth_error (bufs _ s) b = Some u -> inside (b_val _ u) d = Some v -> keeps s t -> newest s t v.
Proof.
  intros H P A I K. destruct (K _ _ A) as (u' & A' & Sg). exists y, b, d, u'. repeat split; auto. unfold sig in Sg. congruence.
Qed.
Lemma look_nth (s : st) b u : look _ b s = Some u -> nth_error (bufs _ s) b = Some u.
Proof. unfold look. destruct (nth_error (bufs _ s) b) as [w|]; [|discriminate]. destruct (b_freed _ w =? 0); congruence. Qed.
Lemma shows_inv (s : st) x v : shows s x = Some v -> exists b d u, placeof x = Some (b, d) /\ look _ b s = Some u /\ nth_error (bufs _ s) b = Some u /\ inside (b_val _ u) d = Some v.
Proof.
  unfold shows. destruct (placeof x) as [[b d]|]; [|discriminate]. unfold contents. cbn. destruct (look V b s) as [u|] eqn:L; [|discriminate].
  intros H. exists b, d, u. pose proof (look_nth _ _ _ L). auto.
Qed.
Lemma create_some (s : st) host schema v junk mem t q : create _ host schema v junk mem s = Some (t, q) -> ~ (host = 0 /\ mem = false) ->
  exists u, q = Some (length (bufs _ s)) /\ slots _ t = slots _ s /\ bufs _ t = bufs _ s ++ [u] /\ b_val _ u = v /\ b_freed _ u = 0 /\ b_plain _ u = (host =? 0).
Proof.
  unfold create. destruct (Z.eqb_spec host 0) as [->|N]; cbn [negb]; destruct mem; intros H B; try discriminate; try (injection H as <- <-).
  - eexists. repeat split; reflexivity.
  - exfalso; auto.
  - eexists. repeat split; reflexivity.
Qed.
Lemma nth_last {A} (l : list A) x : nth_error (l ++ [x]) (length l) = Some x.
Proof. rewrite nth_error_app2, Nat.sub_diag by lia. reflexivity. Qed.
Lemma newest_created (s t : st) host schema v junk mem q : create _ host schema v junk mem s = Some (t, q) -> ~ (host = 0 /\ mem = false) ->
  newest s (push _ (RW q) t) v.
Proof.
  intros H B. destruct (create_some _ _ _ _ _ _ _ _ H B) as (u & -> & Sl & Bf & <- & _).
  exists (RW (Some (length (bufs _ s)))), (length (bufs _ s)), O, u. split; [apply nth_push; congruence|]. split; [reflexivity|].
  split; [|reflexivity]. cbn. rewrite Bf. apply nth_last.
Qed.
Lemma newest_temporary (s t : st) host schema v junk mem : ro_from_temporary _ (create _ host schema v junk mem s) s = Fine _ t -> newest s t v.
Proof.
  unfold ro_from_temporary. destruct (create V host schema v junk mem s) as [[w q]|] eqn:C; [|discriminate].
  intros H. assert (B : ~ (host = 0 /\ mem = false)). { intros (-> & ->). cbn in C. injection C as <- <-. discriminate. }
  destruct (create_some _ _ _ _ _ _ _ _ C B) as (u & -> & Sl & Bf & <- & Fr & P).
  assert (L : look _ (length (bufs _ s)) w = Some u) by (unfold look; rewrite Bf, nth_last, Fr; reflexivity).
  rewrite (take_over_ok _ _ _ L) in H. destruct (b_plain V u).
  - destruct (delete V (Some (length (bufs V s))) w); discriminate.
  - injection H as <-. exists (RO (Some (length (bufs _ s), O)) (Some (length (bufs _ s)))), (length (bufs _ s)), O, u.
    split; [apply nth_push; congruence|]. split; [reflexivity|]. split; [|reflexivity]. cbn. rewrite Bf. apply nth_last.
Qed.
Lemma newest_clone (s t : st) p schema host m mem v : contents p s = Some v ->
  ro_clone_weak _ sane fits holes nested (Some p) schema host m mem s = Fine _ t -> newest s t v.
Proof.
  intros C. unfold ro_clone_weak. rewrite C. destruct (apply_validation_mode m _); [|apply newest_temporary].
  unfold create_from_buffer. destruct (audit V sane fits schema v); [apply newest_temporary|discriminate].
Qed.
Lemma newest_ro_new e (s t : st) p h v : G e [] [] s -> small s -> (forall b, h = Some b -> exists u, nth_error (bufs _ s) b = Some u /\ b_plain _ u = false /\ 0 < tot [] s b) ->
  contents p s = Some v -> ro_new _ (Some p) h s = Fine _ t -> newest s t v.
Proof.
  intros g Sm Hh C. unfold ro_new. destruct h as [b|]; [|discriminate]. cbn [check_buffer].
  destruct (Hh b eq_refl) as (u & A & P & T). rewrite (look_live _ _ _ _ _ _ g A T). destruct (Nat.eqb_spec (fst p) b) as [E|]; [|discriminate].
  assert (g0 : G false [] [] s). { destruct g as [g1 g2 g3 g4]. split; auto; [|discriminate]. eapply Forall_impl; [|exact g3].
    intros [[[c d]|] [c'|]|[c|]]; cbn; auto. intros (-> & w & H1 & H2 & _). split; auto. exists w. repeat split; auto. discriminate. }
  destruct (add_reference_ok _ _ _ _ _ _ g0 A P) as (w & -> & _ & Sl & K); [specialize (Sm b); lia|discriminate|].
  intros H. injection H as <-. unfold contents in C. rewrite E in C. rewrite (look_live _ _ _ _ _ _ g A T) in C.
  destruct p as [c d]. cbn in E, C. subst c.
  eapply newest_keeps; [apply nth_push; congruence|reflexivity|exact A|exact C|apply keeps_push; exact K].
Qed.
Definition clean_source (o : op V) (j : nat) (x : slot) : Prop :=
  match o, x with
  | RoCopy _ j', RO _ _ | RoMove _ j', RO _ _ | RoCloneWeak _ j' _ _ _ _, RO _ _ | RoClone _ j' _ _ _, RO _ _
  | RoFromRw _ j', RW _ | RwMove _ j', RW _ | RoCloneRw _ j' _ _, RW _ => j' = j
  | RwFromRo _ j' mem, RO _ _ => j' = j /\ mem = true
  | RwCloneRo _ j' _ host mem, RO _ _ | RwCloneRw _ j' host mem, RW _ => j' = j /\ ~ (host = 0 /\ mem = false)
  | _, _ => False
  end.
Lemma new_handle e o s t j x v : G e [] [] s -> small s -> clean_source o j x -> nth_error (slots _ s) j = Some x -> shows s x = Some v ->
  apply o s = Fine _ t -> newest s t v.
Proof.
  intros g Sm Cl E Sh H. destruct (shows_inv _ _ _ Sh) as (b & d & u & P & L & A & I).
  assert (C : contents (b, d) s = Some v) by (unfold contents; cbn; rewrite L; exact I).
  destruct o; cbn [Managed.apply] in H; destruct x as [p h|q]; cbn [clean_source] in Cl; try tauto; try subst j0; try (destruct Cl as (-> & Nm)); cbn in P.
  - (* RoFromRw *) unfold ro_from_rw in H. rewrite E in H. destruct q as [c|]; [|discriminate]. injection P as -> <-.
    rewrite (take_over_ok _ _ _ L) in H. destruct (b_plain V u); [discriminate|]. injection H as <-.
    eapply newest_keeps; [apply nth_push; cbn; apply upd_length|reflexivity|exact A|exact I|]. apply keeps_push, keeps_set, keeps_refl.
  - (* RoCopy *) unfold ro_copy in H. rewrite E in H. subst p. eapply newest_ro_new; eauto. intros c ->.
    destruct (reader_facts _ _ _ _ _ g E) as (d' & u' & _ & A' & B' & _ & _ & T & _). eauto.
  - (* RoMove *) unfold ro_move in H. rewrite E in H. subst p. rewrite (check_ok _ _ _ _ _ g E) in H. injection H as <-.
    eapply newest_keeps; [apply nth_push; cbn; apply upd_length|reflexivity|exact A|exact I|]. apply keeps_push, keeps_set, keeps_refl.
  - (* RwMove *) unfold rw_move in H. rewrite E in H. injection H as <-. destruct q as [c|]; [|discriminate]. injection P as -> <-.
    eapply newest_keeps; [apply nth_push; cbn; apply upd_length|reflexivity|exact A|exact I|]. apply keeps_push, keeps_set, keeps_refl.
  - (* RwFromRo *) subst p. destruct h as [c|]; [|pose proof (slot_wf _ _ _ _ _ _ g E) as W; cbn in W; tauto].
    destruct (reader_facts _ _ _ _ _ g E) as (d' & u' & [= -> ->] & A' & B' & _ & D' & T & _).
    pose proof (rw_from_ro_ok e s j mem g Sm) as Pst. rewrite H in Pst. cbn in Pst. destruct Pst as (_ & K & _).
    unfold rw_from_ro, steal in H. rewrite E in H. cbn [peek_basis] in H. rewrite D', C in H.
    match type of H with context [if ?c then _ else _] => destruct c eqn:Al end.
    + destruct d' as [|d']; [|discriminate]. injection H as <-.
      eapply newest_keeps; [apply nth_push; cbn; apply upd_length|reflexivity|exact A|exact I|]. apply keeps_push, keeps_set, keeps_refl.
    + unfold create_from_buffer in H. destruct (audit V sane fits _ v); [|discriminate].
      match type of H with context [create V ?h ?sc ?vv ?jj ?mm s] => destruct (create V h sc vv jj mm s) as [[w q]|] eqn:Cr; [|discriminate];
        pose proof (create_ok e [] [] s h sc vv jj mm g) as Hc; rewrite Cr in Hc end.
      assert (Nm' : ~ (b_host _ u' = 0 /\ mem = false)) by (intros (_ & ->); discriminate).
      destruct (create_some _ _ _ _ _ _ _ _ Cr Nm') as (n & -> & Sl & Bf & Vn & _ & _).
      assert (Ew : nth_error (slots _ w) j = Some (RO (Some (c, d')) (Some c))) by (rewrite Sl; exact E).
      unfold ro_purge in H. rewrite Ew in H. destruct (detach V (Some c) w) as [w'|] eqn:Dw; [|discriminate]. injection H as <-.
      assert (Kw : keeps w w' /\ slots _ w' = slots _ w).
      { unfold detach in Dw. destruct (look V c w) as [x|] eqn:Lw; [|discriminate]. apply look_nth in Lw.
        destruct (negb (b_ref V x =? 1)); cbv zeta in Dw; [destruct (i32 (b_ref V x - 1) >? 0)|]; injection Dw as <-;
          (split; [eapply set_buf_keeps; eauto; reflexivity|reflexivity]). }
      destruct Kw as (Kw & Slw). destruct (Kw (length (bufs _ s)) n) as (n' & Hn' & Sg); [rewrite Bf; apply nth_last|].
      exists (RW (Some (length (bufs _ s)))), (length (bufs _ s)), O, n'. split; [apply nth_push; cbn; rewrite upd_length; congruence|].
      split; [reflexivity|]. split; [exact Hn'|]. cbn. unfold sig in Sg. congruence.
  - (* RoCloneWeak *) rewrite E in H. subst p. eapply newest_clone; eauto.
  - (* RoClone *) unfold ro_clone in H. rewrite E in H. subst p. destruct h as [c|]; [|discriminate].
    destruct (reader_facts _ _ _ _ _ g E) as (d' & u' & [= -> ->] & A' & B' & _ & D' & T & _). rewrite D' in H. cbn [peek_basis] in H. rewrite D' in H.
    match type of H with context [if ?c then _ else _] => destruct c end.
    + eapply newest_ro_new; eauto. intros c' [= <-]. eauto.
    + eapply newest_clone; eauto.
  - (* RoCloneRw *) unfold ro_clone_rw in H. rewrite E in H. destruct q as [c|]; [|discriminate]. injection P as -> <-. rewrite L in H. eapply newest_clone; eauto.
  - (* RwCloneRo *) unfold rw_clone_ro in H. rewrite E in H. subst p. destruct h as [c|]; [|pose proof (slot_wf _ _ _ _ _ _ g E) as W; cbn in W; tauto].
    destruct (reader_facts _ _ _ _ _ g E) as (d' & u' & [= -> ->] & A' & B' & _ & D' & T & _). cbn [peek_basis] in H. rewrite D', C in H.
    assert (R : forall sc, rw_from_buffer V sane fits holes v host sc mem s = Fine _ t -> newest s t v).
    { intros sc. unfold rw_from_buffer, create_from_buffer. destruct (audit V sane fits sc v); [|discriminate].
      destruct (create V host sc v (holes v) mem s) as [[w q]|] eqn:Cr; [|discriminate]. intros Hw. injection Hw as <-. eapply newest_created; eauto. }
    destruct d' as [|d']; [|eapply R; eauto].
    match type of H with context [if ?c then _ else _] => destruct c end; [|eapply R; eauto].
    destruct (create V host (b_schema V u') v (b_junk V u') mem s) as [[w q]|] eqn:Cr; [|discriminate]. injection H as <-. eapply newest_created; eauto.
  - (* RwCloneRw *) unfold rw_clone_rw in H. rewrite E in H. destruct q as [c|]; [|discriminate]. injection P as -> <-. rewrite L in H.
    destruct (create V host (b_schema V u) (b_val V u) (b_junk V u) mem s) as [[w q]|] eqn:Cr; [|discriminate]. injection H as <-.
    cbn in I. injection I as <-. eapply newest_created; eauto.
Qed.

(** ** Assignments *)
Lemma assigned e o s t i j x v : G e [] [] s -> small s ->
  match o, x with RoAssign _ i' j', RO _ _ => i' = i /\ j' = j | RoMoveAssign _ i' j', RO _ _ => i' = i /\ j' = j /\ i <> j
  | RwMoveAssign _ i' j', RW _ => i' = i /\ j' = j /\ i <> j | _, _ => False end ->
  (exists y, nth_error (slots _ s) i = Some y /\ match y, x with RO _ _, RO _ _ | RW _, RW _ => True | _, _ => False end) ->
  nth_error (slots _ s) j = Some x -> shows s x = v -> apply o s = Fine _ t ->
  exists y, nth_error (slots _ t) i = Some y /\ shows t y = v.
Proof.
  intros g Sm Cl (y & Ei & Ty) Ej Sh H.
  assert (gt : G e [] [] t). { destruct o; try tauto; cbn [Managed.apply] in H.
    - pose proof (ro_assign_ok e s i0 j0 g Sm) as P. rewrite H in P. apply P.
    - pose proof (ro_move_assign_ok e s i0 j0 g Sm) as P. rewrite H in P. apply P.
    - pose proof (rw_move_assign_ok e s i0 j0 g Sm) as P. rewrite H in P. apply P. }
  assert (K : keeps s t). { destruct o; try tauto; cbn [Managed.apply] in H.
    - pose proof (ro_assign_ok e s i0 j0 g Sm) as P. rewrite H in P. apply P.
    - pose proof (ro_move_assign_ok e s i0 j0 g Sm) as P. rewrite H in P. apply P.
    - pose proof (rw_move_assign_ok e s i0 j0 g Sm) as P. rewrite H in P. apply P. }
  assert (Li : (i < length (slots _ s))%nat) by (eapply slot_same; eauto).
  assert (Fin : forall y', nth_error (slots _ t) i = Some y' -> placeof y' = placeof x -> exists y, nth_error (slots _ t) i = Some y /\ shows t y = v).
  { intros y' Hy Hp. exists y'. split; auto. subst v. destruct (placeof x) as [[b d]|] eqn:P.
    - destruct (slot_live _ _ _ _ _ _ g Ej P) as (u & A & _). destruct (K _ _ A) as (u' & A' & Sg).
      rewrite (shows_of _ _ _ _ _ _ _ g Ej P A), (shows_of _ _ _ _ _ _ _ gt Hy Hp A'). unfold sig in Sg. congruence.
    - unfold shows. rewrite P, Hp. reflexivity. }
  destruct o; try tauto; cbn [Managed.apply] in H; destruct x as [pj hj|pj], y as [pi hi|pi]; try tauto.
  - destruct Cl as (-> & ->). unfold ro_assign in H. rewrite Ei, Ej, (check_ok _ _ _ _ _ g Ej) in H.
    match type of H with context [if ?c then _ else _] => destruct c end.
    + injection H as <-. eapply Fin; [cbn; apply nth_upd_same; auto|reflexivity].
    + unfold ro_purge in H. rewrite Ei in H. destruct (detach_slot_ok _ _ _ _ _ g Sm Ei) as (w & Ew & _ & Sl & _). rewrite Ew in H.
      destruct (add_reference V hj (set_slot V i (RO None None) w)) as [z|] eqn:Ez; [|discriminate]. injection H as <-.
      eapply Fin; [cbn; apply nth_upd_same|reflexivity].
      assert (Sz : slots _ z = slots _ (set_slot _ i (RO None None) w)).
      { unfold add_reference in Ez. destruct hj as [c|]; [|congruence]. destruct (look V c (set_slot V i (RO None None) w)); [|discriminate]. injection Ez as <-. reflexivity. }
      rewrite Sz. cbn. rewrite upd_length, Sl. auto.
  - destruct Cl as (-> & -> & N). unfold ro_move_assign in H. rewrite Ei, Ej, (check_ok _ _ _ _ _ g Ej) in H.
    unfold ro_purge in H. rewrite Ei in H. destruct (detach_slot_ok _ _ _ _ _ g Sm Ei) as (w & Ew & _ & Sl & _). rewrite Ew in H.
    cbn [slots set_slot] in H. rewrite nth_upd_other, Sl, Ej in H by auto. injection H as <-.
    eapply Fin; [cbn; rewrite nth_upd_other by auto; apply nth_upd_same; rewrite upd_length; congruence|reflexivity].
  - destruct Cl as (-> & -> & N). unfold rw_move_assign in H. rewrite Ei, Ej in H.
    match type of H with context [if ?c then _ else _] => destruct c eqn:Eq end.
    + injection H as <-. apply same_eq in Eq. subst pj. eapply Fin; [exact Ei|reflexivity].
    + unfold rw_purge in H. rewrite Ei in H. destruct (delete_slot_ok _ _ _ _ g Sm Ei) as (w & Ew & _ & Sl & _). rewrite Ew in H.
      injection H as <-. eapply Fin; [cbn; rewrite nth_upd_other by auto; apply nth_upd_same; rewrite upd_length; congruence|reflexivity].
Qed.
Lemma regrown e s t i b u : G e [] [] s -> small s -> nth_error (slots _ s) i = Some (RW (Some b)) -> nth_error (bufs _ s) b = Some u ->
  forall mem, apply (RwRegrow _ i mem) s = Fine _ t ->
  exists c w, nth_error (slots _ t) i = Some (RW (Some c)) /\ nth_error (bufs _ t) c = Some w /\ b_val _ w = b_val _ u /\ b_schema _ w = b_schema _ u.
Proof.
  intros g Sm E A mem H. cbn [Managed.apply] in H. destruct (writer_facts _ _ _ _ g E) as (u' & A' & B & _). rewrite A in A'. injection A' as <-.
  unfold rw_regrow in H. rewrite E, B in H. destruct (b_plain V u).
  - destruct mem; [|discriminate]. injection H as <-. exists b, u. auto.
  - destruct (create V (b_host V u) (b_schema V u) (b_val V u) (0, 0) mem s) as [[w [c|]]|] eqn:Cr; try discriminate.
    pose proof (create_ok e [] [] s (b_host V u) (b_schema V u) (b_val V u) (0, 0) mem g) as Hc. rewrite Cr in Hc.
    destruct Hc as (_ & Sl & K & Gt & Nc & Hu).
    destruct (detach V (Some b) w) as [w'|] eqn:Dw; [|discriminate]. injection H as <-.
    assert (Kw : keeps w w' /\ slots _ w' = slots _ w).
    { unfold detach in Dw. destruct (look V b w) as [x|] eqn:Lw; [|discriminate]. apply look_nth in Lw.
      destruct (negb (b_ref V x =? 1)); cbv zeta in Dw; [destruct (i32 (b_ref V x - 1) >? 0)|]; injection Dw as <-;
        (split; [eapply set_buf_keeps; eauto; reflexivity|reflexivity]). }
    destruct Kw as (Kw & Slw). destruct (Kw _ _ Hu) as (n' & Hn' & Sg). exists c, n'. split; [cbn; apply nth_upd_same; rewrite Slw, Sl; eapply slot_same; eauto|].
    split; [exact Hn'|]. unfold sig in Sg. cbn in Sg. split; congruence.
Qed.

(** ** Counters of junk and the schema *)
Definition good (u : buf) : Prop := b_junk _ u = holes (b_val _ u) /\ audit _ sane fits (b_schema _ u) (b_val _ u) = true.
Definition Q (s : st) : Prop := Forall good (bufs _ s).
Lemma good_sig u u' : sig u' = sig u -> good u -> good u'.
Proof. unfold sig, good. intros E (H1 & H2). injection E as E1 E2 E3 E4 E5 E6. rewrite E4, E5, E6. auto. Qed.
Lemma Q_set_buf (s : st) b u u' : Q s -> nth_error (bufs _ s) b = Some u -> sig u' = sig u -> Q (set_buf _ b u' s).
Proof.
  intros H A E. apply Forall_upd; auto. eapply good_sig; eauto. unfold Q in H. rewrite Forall_forall in H. apply H. eapply nth_error_In; eauto.
Qed.
Lemma Q_add (s t : st) h : Q s -> add_reference _ h s = Some t -> Q t.
Proof.
  intros H. unfold add_reference. destruct h as [b|]; [|congruence]. destruct (look V b s) as [u|] eqn:L; [|discriminate].
  intros E. injection E as <-. eapply Q_set_buf; eauto using look_nth.
Qed.
Lemma Q_detach (s t : st) h : Q s -> detach _ h s = Some t -> Q t.
Proof.
  intros H. unfold detach. destruct h as [b|]; [|congruence]. destruct (look V b s) as [u|] eqn:L; [|discriminate]. apply look_nth in L.
  destruct (negb (b_ref V u =? 1)); cbv zeta; [destruct (i32 (b_ref V u - 1) >? 0)|]; intros E; injection E as <-; eapply Q_set_buf; eauto.
Qed.
Lemma Q_delete (s t : st) p : Q s -> delete _ p s = Some t -> Q t.
Proof.
  intros H. unfold delete. destruct p as [b|]; [|congruence]. destruct (look V b s) as [u|] eqn:L; [|discriminate].
  destruct (b_plain V u); [|apply Q_detach; auto]. intros E; injection E as <-; eapply Q_set_buf; eauto using look_nth.
Qed.
Lemma Q_create (s t : st) host schema v junk mem q : Q s -> junk = holes v -> audit _ sane fits schema v = true ->
  create _ host schema v junk mem s = Some (t, q) -> Q t.
Proof.
  intros H J A. unfold create.
  assert (R : forall u, good u -> Q (mkSt _ (bufs _ s ++ [u]) (slots _ s))) by (intros u Hu; apply Forall_app; split; auto).
  destruct (negb (host =? 0)), mem; intros E; try discriminate; injection E as <- <-; auto; apply R; split; auto.
Qed.
Lemma Q_ro_new (s t : st) p h : Q s -> ro_new _ p h s = Fine _ t \/ ro_new _ p h s = Thrown _ t -> Q t.
Proof.
  intros H. unfold ro_new. destruct (check_buffer V p h s) as [[|]|]; [|intros [E|E]; try discriminate; congruence|intros [E|E]; discriminate].
  destruct (add_reference V h s) as [w|] eqn:E; intros [F|F]; try discriminate. injection F as <-. exact (Q_add _ _ _ H E).
Qed.
Definition fine_or_thrown (o : out) (t : st) : Prop := o = Fine _ t \/ o = Thrown _ t.
Ltac outs := intros [HF|HF]; try discriminate; try (injection HF as <-); auto.
Lemma Q_ro_purge (s t : st) i : Q s -> fine_or_thrown (ro_purge _ i s) t -> Q t.
Proof.
  intros H. unfold ro_purge, fine_or_thrown. destruct (nth_error (slots _ s) i) as [[p h|p]|]; try (outs; fail).
  destruct (detach V h s) as [w|] eqn:E; outs. exact (Q_detach _ _ _ H E).
Qed.
Lemma Q_rw_purge (s t : st) i : Q s -> fine_or_thrown (rw_purge _ i s) t -> Q t.
Proof.
  intros H. unfold rw_purge, fine_or_thrown. destruct (nth_error (slots _ s) i) as [[p h|p]|]; try (outs; fail).
  destruct (delete V p s) as [w|] eqn:E; outs. exact (Q_delete _ _ _ H E).
Qed.
Lemma Q_temporary (s t : st) r : Q s -> (forall w q, r = Some (w, q) -> Q w) -> fine_or_thrown (ro_from_temporary _ r s) t -> Q t.
Proof.
  intros H Hr. unfold ro_from_temporary, fine_or_thrown. destruct r as [[w q]|]; [|outs]. specialize (Hr w q eq_refl).
  destruct (take_over V q w) as [[[q' h]|]|]; try (outs; fail).
  destruct (delete V q w) as [z|] eqn:E; outs. exact (Q_delete _ _ _ Hr E).
Qed.
Lemma Q_from_buffer (s : st) v host schema mem w q : Q s -> create_from_buffer _ sane fits holes v host schema mem s = Some (w, q) -> Q w.
Proof.
  intros H. unfold create_from_buffer. destruct (audit V sane fits schema v) eqn:A; [|discriminate]. apply Q_create; auto.
Qed.
Lemma Q_rw_from_buffer (s t : st) v host schema mem : Q s -> fine_or_thrown (rw_from_buffer _ sane fits holes v host schema mem s) t -> Q t.
Proof.
  intros H. unfold rw_from_buffer, fine_or_thrown. destruct (create_from_buffer V sane fits holes v host schema mem s) as [[w q]|] eqn:E; outs.
  exact (Q_from_buffer _ _ _ _ _ _ _ H E).
Qed.
Lemma Q_clone_weak (s t : st) p schema host m mem : Q s -> apply_validation_mode m (match schema with None => true | Some _ => false end) = true ->
  fine_or_thrown (ro_clone_weak _ sane fits holes nested p schema host m mem s) t -> Q t.
Proof.
  intros H Hm. unfold ro_clone_weak. destruct p as [p|].
  - destruct (contents p s) as [v|]; [|unfold fine_or_thrown; outs]. rewrite Hm. apply Q_temporary; auto. intros w q. apply Q_from_buffer; auto.
  - destruct schema; unfold fine_or_thrown; outs.
Qed.
Definition careful (o : op V) (s : st) : Prop :=
  match o with
  | RwRegrow _ i _ => forall b u, nth_error (slots _ s) i = Some (RW (Some b)) -> nth_error (bufs _ s) b = Some u -> holes (b_val _ u) = (0, 0)
  | RwWrite _ i v => forall b u, nth_error (slots _ s) i = Some (RW (Some b)) -> nth_error (bufs _ s) b = Some u -> audit _ sane fits (b_schema _ u) v = true
  | RoCloneWeak _ j schema host m mem => apply_validation_mode m (match schema with None => true | Some _ => false end) = true
  | RoClone _ j schema host mem => schema = None
  | RoCloneRw _ j host mem => forall b u, nth_error (slots _ s) j = Some (RW (Some b)) -> nth_error (bufs _ s) b = Some u -> b_schema _ u = None
  | _ => True
  end.
Lemma Q_step (s t : st) o : (forall c, holes (blank c) = (0, 0) /\ audit _ sane fits c (blank c) = true) ->
  Q s -> careful o s -> fine_or_thrown (apply o s) t -> Q t.
Proof.
  intros Hb H C. 
  assert (HN : forall b u, nth_error (bufs _ s) b = Some u -> good u) by (intros b u A; unfold Q in H; rewrite Forall_forall in H; apply H; eapply nth_error_In; eauto).
  assert (Hnew : forall host schema mem, fine_or_thrown (rw_new _ blank host schema mem s) t -> Q t).
  { intros host schema mem. unfold rw_new, fine_or_thrown. destruct (Hb schema) as (B1 & B2). destruct (create V host schema (blank schema) (0, 0) mem s) as [[w q]|] eqn:E; outs.
    eapply (Q_create s w); [exact H|symmetry; exact B1|exact B2|exact E]. }
  destruct o; cbn [Managed.apply careful] in *.
  - apply Hnew.
  - apply Q_rw_from_buffer; auto.
  - apply Q_temporary; auto. intros w q. apply Q_from_buffer; auto.
  - unfold ro_from_rw, fine_or_thrown. destruct (nth_error (slots _ s) j) as [[p h|p]|]; try (outs; fail). destruct (take_over V p s) as [[[q h]|]|]; outs.
  - unfold ro_copy. destruct (nth_error (slots _ s) j) as [[p h|p]|]; try (unfold fine_or_thrown; outs; fail). apply Q_ro_new; auto.
  - unfold ro_move, fine_or_thrown. destruct (nth_error (slots _ s) j) as [[p h|p]|]; try (outs; fail). destruct (check_buffer V p h s) as [[|]|]; outs.
  - unfold ro_assign. destruct (nth_error (slots _ s) i) as [[pi hi|pi]|]; try (unfold fine_or_thrown; outs; fail).
    destruct (nth_error (slots _ s) j) as [[pj hj|pj]|]; try (unfold fine_or_thrown; outs; fail).
    destruct (check_buffer V pj hj s) as [[|]|]; try (unfold fine_or_thrown; outs; fail).
    match goal with |- context [if ?c then _ else _] => destruct c end; [unfold fine_or_thrown; outs|].
    pose proof (Q_ro_purge s) as QP. destruct (ro_purge V i s) as [w|w| |] eqn:E; try (unfold fine_or_thrown; outs; fail).
    + specialize (QP w i H). destruct (add_reference V hj w) as [z|] eqn:Ez; unfold fine_or_thrown; outs. eapply (Q_add w z); eauto. apply QP. left; auto.
    + unfold fine_or_thrown; outs. eapply QP; eauto. right; eauto.
  - unfold ro_move_assign. destruct (nth_error (slots _ s) i) as [[pi hi|pi]|]; try (unfold fine_or_thrown; outs; fail).
    destruct (nth_error (slots _ s) j) as [[pj hj|pj]|]; try (unfold fine_or_thrown; outs; fail).
    destruct (check_buffer V pj hj s) as [[|]|]; try (unfold fine_or_thrown; outs; fail).
    pose proof (Q_ro_purge s) as QP. destruct (ro_purge V i s) as [w|w| |] eqn:E; try (unfold fine_or_thrown; outs; fail).
    + assert (Qw : Q w) by (eapply QP; eauto; left; eauto). destruct (nth_error (slots V w) j) as [[p h|p]|]; unfold fine_or_thrown; outs.
    + unfold fine_or_thrown; outs. eapply QP; eauto. right; eauto.
  - unfold ro_swap, fine_or_thrown. destruct (nth_error (slots _ s) i) as [[pi hi|pi]|]; try (outs; fail). destruct (nth_error (slots _ s) j) as [[pj hj|pj]|]; outs.
  - apply Q_ro_purge; auto.
  - unfold ro_nested. destruct (nth_error (slots _ s) j) as [[[p|] h|p]|]; try (unfold fine_or_thrown; outs; fail).
    destruct (nested_place V nested p s) as [q|]; [apply Q_ro_new; auto|unfold fine_or_thrown; outs].
  - unfold rw_move, fine_or_thrown. destruct (nth_error (slots _ s) j) as [[p h|p]|]; outs.
  - unfold rw_move_assign. destruct (nth_error (slots _ s) i) as [[pi hi|pi]|]; try (unfold fine_or_thrown; outs; fail).
    destruct (nth_error (slots _ s) j) as [[pj hj|pj]|]; try (unfold fine_or_thrown; outs; fail).
    match goal with |- context [if ?c then _ else _] => destruct c end; [unfold fine_or_thrown; outs|].
    pose proof (Q_rw_purge s) as QP. destruct (rw_purge V i s) as [w|w| |] eqn:E; try (unfold fine_or_thrown; outs; fail).
    + unfold fine_or_thrown; outs. unfold Q; cbn. eapply (QP w); eauto. left; eauto.
    + unfold fine_or_thrown; outs. eapply QP; eauto. right; eauto.
  - unfold rw_swap, fine_or_thrown. destruct (nth_error (slots _ s) i) as [[pi hi|pi]|]; try (outs; fail). destruct (nth_error (slots _ s) j) as [[pj hj|pj]|]; outs.
  - apply Q_rw_purge; auto.
  - unfold rw_from_ro, steal. destruct (nth_error (slots _ s) j) as [[[p|] h|p]|]; try (unfold fine_or_thrown; outs; fail).
    destruct h as [b|]; [|unfold fine_or_thrown; outs].
    destruct (peek_basis V (Some p) s) as [basis|]; [|unfold fine_or_thrown; outs]. destruct (look V b s) as [u|]; [|unfold fine_or_thrown; outs].
    destruct (contents p s) as [v|]; [|unfold fine_or_thrown; outs].
    match goal with |- context [if ?c then _ else _] => destruct c end; [unfold fine_or_thrown; outs|].
    match goal with |- context [create_from_buffer V sane fits holes ?a ?b ?c ?d s] => destruct (create_from_buffer V sane fits holes a b c d s) as [[w q]|] eqn:E; [|unfold fine_or_thrown; outs] end.
    assert (Qw : Q w) by (eapply Q_from_buffer; eauto).
    pose proof (Q_ro_purge w) as QP. destruct (ro_purge V j w) as [z|z| |] eqn:Ez; unfold fine_or_thrown; outs.
    + unfold Q; cbn. eapply (QP z); eauto. left; eauto.
    + eapply QP; eauto. right; eauto.
  - unfold rw_regrow. destruct (nth_error (slots _ s) i) as [[p h|[b|]]|] eqn:E; try (unfold fine_or_thrown; outs; fail).
    destruct (look V b s) as [u|] eqn:L; [|unfold fine_or_thrown; outs]. apply look_nth in L.
    destruct (b_plain V u); [destruct mem; unfold fine_or_thrown; outs|].
    specialize (C b u eq_refl L). destruct (HN _ _ L) as (G1 & G2).
    destruct (create V (b_host V u) (b_schema V u) (b_val V u) (0, 0) mem s) as [[w [c|]]|] eqn:Ec; try (unfold fine_or_thrown; outs; fail).
    assert (Qw : Q w) by (eapply Q_create; [exact H| |exact G2|exact Ec]; auto).
    destruct (detach V (Some b) w) as [z|] eqn:Ed; unfold fine_or_thrown; outs. unfold Q; cbn. eapply (Q_detach w z); eauto.
  - unfold rw_write. destruct (nth_error (slots _ s) i) as [[p h|[b|]]|] eqn:E; try (unfold fine_or_thrown; outs; fail).
    destruct (look V b s) as [u|] eqn:L; [|unfold fine_or_thrown; outs]. apply look_nth in L. unfold fine_or_thrown; cbv zeta; outs.
    apply Forall_upd; auto. destruct (HN _ _ L) as (G1 & G2). split; cbn [b_junk b_val b_schema]; [|apply (C b u); auto].
    rewrite G1. destruct (holes v), (holes (b_val V u)). cbn. f_equal; lia.
  - unfold rw_nested. destruct (nth_error (slots _ s) j) as [[p h|[b|]]|]; try (unfold fine_or_thrown; outs; fail).
    destruct (nested_place V nested (b, O) s) as [q|]; [|unfold fine_or_thrown; outs]. destruct (get_buffer V b s) as [h|]; [apply Q_ro_new; auto|unfold fine_or_thrown; outs].
  - destruct (nth_error (slots _ s) j) as [[p h|p]|]; try (unfold fine_or_thrown; outs; fail). apply Q_clone_weak; auto.
  - unfold ro_clone. subst schema. destruct (nth_error (slots _ s) j) as [[[p|] h|p]|]; try (unfold fine_or_thrown; outs; fail).
    destruct h as [b|]; [|unfold fine_or_thrown; outs]. destruct (look V b s) as [u|]; [|unfold fine_or_thrown; outs].
    destruct (peek_basis V (Some p) s) as [basis|]; [|unfold fine_or_thrown; outs].
    match goal with |- context [if ?c then _ else _] => destruct c end; [apply Q_ro_new; auto|apply Q_clone_weak; auto].
  - unfold ro_clone_rw. destruct (nth_error (slots _ s) j) as [[p h|[b|]]|] eqn:E; try (unfold fine_or_thrown; outs; fail).
    destruct (look V b s) as [u|] eqn:L; [|unfold fine_or_thrown; outs]. apply look_nth in L. rewrite (C b u eq_refl L). apply Q_clone_weak; auto.
  - unfold rw_clone_ro. destruct (nth_error (slots _ s) j) as [[[p|] h|p]|]; try (unfold fine_or_thrown; outs; fail); [|apply Hnew].
    destruct (peek_basis V (Some p) s) as [basis|] eqn:Pb; [|unfold fine_or_thrown; outs]. destruct (contents p s) as [v|] eqn:Cv; [|unfold fine_or_thrown; outs].
    destruct basis as [u|]; [|apply Q_rw_from_buffer; auto].
    match goal with |- context [if ?c then _ else _] => destruct c end; [|apply Q_rw_from_buffer; auto].
    unfold peek_basis in Pb. destruct p as [b d]. unfold contents in Cv. cbn in Cv. destruct (look V b s) as [u'|] eqn:L; [|discriminate]. apply look_nth in L.
    destruct d; [|discriminate]. injection Pb as <-. cbn in Cv. injection Cv as <-. destruct (HN _ _ L) as (G1 & G2).
    destruct (create V host (b_schema V u') (b_val V u') (b_junk V u') mem s) as [[w q]|] eqn:Ec; unfold fine_or_thrown; outs.
    exact (Q_create _ _ _ _ _ _ _ _ H G1 G2 Ec).
  - unfold rw_clone_rw. destruct (nth_error (slots _ s) j) as [[p h|[b|]]|]; try (unfold fine_or_thrown; outs; fail).
    destruct (look V b s) as [u|] eqn:L; [|unfold fine_or_thrown; outs]. apply look_nth in L. destruct (HN _ _ L) as (G1 & G2).
    destruct (create V host (b_schema V u) (b_val V u) (b_junk V u) mem s) as [[w q]|] eqn:Ec; unfold fine_or_thrown; outs.
    exact (Q_create _ _ _ _ _ _ _ _ H G1 G2 Ec).
Qed.
End Proofs.
