(** * Stale: nothing above the end of the index is ever read.  Two tuples that differ there only
    behave alike in every call; so a view, whose header lies there, may be taken at any time. *)
From Verif Require Import Base Tag Codec Gear GearBase Tuple Stale StaleProofs.
From Coq Require Import ZifyBool ZifyNat.
Ltac Zify.zify_post_hook ::= Z.div_mod_to_equations.

Definition agree (n : nat) (g : nat -> ent) (s : st) : Prop := forall k, (k < n)%nat -> g k = idx s k.
Definition st_sim (n : nat) (s t : st) : Prop := exists g N, t = with_idx s g /\ (n <= N)%nat /\ (cnt s <= N)%nat /\ agree N g s.
Definition simr {A} (P : A -> nat -> Prop) (n : nat) (r r' : res A) : Prop :=
  match r, r' with
  | Ok a s, Ok b t => a = b /\ exists g N, t = with_idx s g /\ (n <= N)%nat /\ (cnt s <= N)%nat /\ agree N g s /\ P a N
  | Throw s, Throw t => st_sim n s t
  | Bad, Bad => True
  | _, _ => False
  end.
Definition any {A} (_ : A) (_ : nat) : Prop := True.
Definition below (k n : nat) : Prop := (k < n)%nat.
Definition below_o (o : option nat) (n : nat) : Prop := forall k, o = Some k -> (k < n)%nat.

Lemma simr_bind {A B} (P : A -> nat -> Prop) (Q : B -> nat -> Prop) n r r' f f' : simr P n r r' ->
  (forall a s g N, (n <= N)%nat -> (cnt s <= N)%nat -> agree N g s -> P a N -> simr Q n (f a s) (f' a (with_idx s g))) ->
  simr Q n (bind r f) (bind r' f').
Proof.
  destruct r as [a s|s|], r' as [b t|t|]; cbn [simr bind]; try contradiction; auto.
  intros (<- & g & N & -> & H1 & H2 & H3 & H4) H. apply (H a s g N); assumption.
Qed.
Lemma simr_ok {A} (P : A -> nat -> Prop) n a s g N : (n <= N)%nat -> (cnt s <= N)%nat -> agree N g s -> P a N -> simr P n (Ok a s) (Ok a (with_idx s g)).
Proof. intros. cbn [simr]. split; [reflexivity|]. exists g, N. auto. Qed.
Lemma simr_throw {A} (P : A -> nat -> Prop) n s g N : (n <= N)%nat -> (cnt s <= N)%nat -> agree N g s -> simr P n (@Throw A s) (Throw (with_idx s g)).
Proof. intros. cbn [simr]. exists g, N. auto. Qed.
Lemma simr_any {A} (P : A -> nat -> Prop) n r r' : simr P n r r' -> simr any n r r'.
Proof. destruct r, r'; cbn [simr]; auto. intros (E & g & N & H). split; [exact E|]. exists g, N. unfold any. tauto. Qed.

(** ** Searches *)
Lemma tw_scan p s g n : forall m, (m <= n)%nat -> agree n g s -> scan_down p g m = scan_down p (idx s) m.
Proof. induction m as [|m IH]; intros H A; cbn [scan_down]; [reflexivity|]. rewrite (A m), IH by (try assumption; lia). reflexivity. Qed.
Lemma tw_lookup s g n d : (cnt s <= n)%nat -> agree n g s -> lookup_gid (with_idx s g) d = lookup_gid s d.
Proof. intros H A. unfold lookup_gid. exact (tw_scan _ s g n (cnt s) H A). Qed.
Lemma scan_below p f : forall n k, scan_down p f n = Some k -> (k < n)%nat.
Proof. induction n as [|n IH]; cbn [scan_down]; [discriminate|]. intros k. destruct (p (f n)); [intros H; injection H as <-; lia|]. intros H. apply IH in H. lia. Qed.
Lemma lookup_below s d n : (cnt s <= n)%nat -> below_o (lookup_gid s d) n.
Proof. intros H k E. apply scan_below in E. lia. Qed.
Lemma tw_addr s g n k : agree n g s -> (k < n)%nat -> addr (with_idx s g) k = addr s k.
Proof. intros A H. unfold addr, own. cbn [with_idx idx pivot]. rewrite A by exact H. reflexivity. Qed.
Lemma tw_best s g n u l r : agree n g s -> below_o l n -> (r < n)%nat -> best_fit (with_idx s g) u l r = best_fit s u l r.
Proof.
  intros A Hl Hr. unfold best_fit. destruct l as [l|]; [|reflexivity]. pose proof (Hl l eq_refl) as L. unfold hole_begin. rewrite !(tw_addr s g n) by assumption.
  cbn [with_idx idx]. rewrite !A by assumption. reflexivity.
Qed.
Lemma best_below s u l r n : below_o l n -> (r < n)%nat -> (best_fit s u l r < n)%nat.
Proof. intros Hl Hr. unfold best_fit. destruct l as [l|]; [|exact Hr]. pose proof (Hl l eq_refl). cbv zeta. repeat match goal with |- context [if ?b then _ else _] => destruct b end; assumption. Qed.
Lemma tw_fit_loop s g n u : agree n g s -> forall m left found, (m <= n)%nat -> below_o found n ->
  fit_loop (with_idx s g) u m left found = fit_loop s u m left found /\
  (forall o, fit_loop s u m left found = Some o -> below_o o n).
Proof.
  intros A. induction m as [|m IH]; intros left found H F; cbn [fit_loop]; destruct (left <=? 0).
  1, 3: split; [reflexivity|intros o E; injection E as <-; exact F].
  - split; [reflexivity|discriminate].
  - cbn [with_idx idx]. rewrite (A m) by lia. destruct (negb (is_hole (idx s m))); [apply IH; [lia|exact F]|]. cbv zeta.
    rewrite (tw_best s g n) by (try assumption; lia).
    apply IH; [lia|]. destruct (hunits (idx s m) >=? u); [|exact F]. intros k E. injection E as <-. apply best_below; [exact F|lia].
Qed.
Lemma tw_fit s g n u : (cnt s <= n)%nat -> agree n g s ->
  lookup_fit (with_idx s g) u = lookup_fit s u /\ (forall o, lookup_fit s u = Some o -> below_o o n).
Proof.
  intros H A. unfold lookup_fit. change (jc (with_idx s g)) with (jc s). change (jv (with_idx s g)) with (jv s). destruct (_ || _).
  - split; [reflexivity|]. intros o E. injection E as <-. intros k X. discriminate.
  - destruct (u =? 0).
    + rewrite (tw_lookup s g n) by assumption. split; [reflexivity|]. intros o E. assert (lookup_gid s (u16 (make_hole u)) = o) by congruence. subst o. apply lookup_below. exact H.
    + apply (tw_fit_loop s g n u A); [exact H|]. intros k X. discriminate.
Qed.
Lemma tw_exact s g n u : (cnt s <= n)%nat -> agree n g s ->
  lookup_exact (with_idx s g) u = lookup_exact s u /\ below_o (lookup_exact s u) n.
Proof.
  intros H A. unfold lookup_exact. change (jc (with_idx s g)) with (jc s). change (jv (with_idx s g)) with (jv s). destruct (_ || _).
  - split; [reflexivity|]. intros k X. discriminate.
  - rewrite (tw_lookup s g n) by assumption. split; [reflexivity|apply lookup_below; exact H].
Qed.
Lemma tw_adj_loop s g n b e : agree n g s -> forall m left bf af, (m <= n)%nat -> adj_loop (with_idx s g) b e m left bf af = adj_loop s b e m left bf af.
Proof.
  intros A. induction m as [|m IH]; intros left bf af H; cbn [adj_loop]; destruct (left <=? 0); try reflexivity.
  unfold hole_begin, hole_end. rewrite (tw_addr s g n) by (try assumption; lia). cbn [with_idx idx]. rewrite (A m) by lia. cbv zeta. rewrite !IH by lia. reflexivity.
Qed.
Lemma tw_adjacent s g n b e : (cnt s <= n)%nat -> agree n g s ->
  lookup_adjacent (with_idx s g) b e = lookup_adjacent s b e /\ (forall x y, lookup_adjacent s b e = Some (x, y) -> below_o x n /\ below_o y n).
Proof.
  intros H A. unfold lookup_adjacent. change (cnt (with_idx s g)) with (cnt s). change (jc (with_idx s g)) with (jc s). split; [apply (tw_adj_loop s g n); assumption|].
  intros x y E. apply (adj_below s b e n) in E; [exact E|exact H|discriminate|discriminate].
Qed.

(** ** Primitive steps *)
Lemma agree_ent n g s k e : (k <= n)%nat -> agree n g s -> agree (Nat.max n (S k)) (fupd g k e) (set_ent s k e).
Proof.
  intros H A j Hj. unfold set_ent. cbn [idx with_idx]. unfold fupd. destruct (Nat.eqb j k) eqn:E; [reflexivity|]. apply Nat.eqb_neq in E. apply A. lia.
Qed.
Lemma agree_ent_in n g s k e : (k < n)%nat -> agree n g s -> agree n (fupd g k e) (set_ent s k e).
Proof. intros H A j Hj. apply (agree_ent n g s k e); [lia|exact A|lia]. Qed.
Lemma tw_trim g n : forall m s, (m <= n)%nat -> agree n g s -> trim_from m (with_idx s g) = with_idx (trim_from m s) g.
Proof.
  induction m as [|m IH]; intros s H A; cbn [trim_from]; [reflexivity|]. cbv zeta.
  change (with_cnt (with_jc (with_idx s g) (jc (with_idx s g) - 1)) m) with (with_idx (with_cnt (with_jc s (jc s - 1)) m) g).
  set (s1 := with_cnt (with_jc s (jc s - 1)) m). assert (A1 : agree n g s1) by exact A.
  destruct m as [|p]; [reflexivity|]. unfold hole_end. rewrite (tw_addr s1 g n) by (try exact A1; lia). cbn [with_idx idx]. rewrite (A1 p) by lia.
  change (tail (with_idx s1 g)) with (tail s1).
  destruct (negb (is_hole (idx s1 p))); [reflexivity|]. destruct (hunits (idx s1 p) =? 0); [apply IH; [lia|exact A1]|].
  destruct (negb (addr s1 p + hunits (idx s1 p) =? tail s1)); [reflexivity|].
  change (with_tail (with_jv (with_idx s1 g) (jv (with_idx s1 g) - hunits (idx s1 p))) (tail s1 - hunits (idx s1 p)))
    with (with_idx (with_tail (with_jv s1 (jv s1 - hunits (idx s1 p))) (tail s1 - hunits (idx s1 p))) g). apply IH; [lia|exact A1].
Qed.
Lemma trim_hole_cnt s : (cnt (trim_hole s) <= cnt s)%nat /\ idx (trim_hole s) = idx s.
Proof. destruct (fr_trim (cnt s) s (Nat.le_refl _)) as [A B]. auto. Qed.
Lemma tw_trim_hole s g n : (cnt s <= n)%nat -> agree n g s -> trim_hole (with_idx s g) = with_idx (trim_hole s) g /\ agree n g (trim_hole s) /\ (cnt (trim_hole s) <= n)%nat.
Proof.
  intros H A. destruct (trim_hole_cnt s) as [C I]. split; [exact (tw_trim g n (cnt s) s H A)|]. split; [|lia]. intros k Hk. rewrite I. apply A. exact Hk.
Qed.
Lemma tw_purge_trim s g n k : (cnt s <= n)%nat -> agree n g s -> (k < n)%nat ->
  exists g', purge_trim (with_idx s g) k = with_idx (purge_trim s k) g' /\ agree n g' (purge_trim s k) /\ (cnt (purge_trim s k) <= n)%nat.
Proof.
  intros H A Hk. unfold purge_trim. cbv zeta. change (purge (with_idx s g) k) with (with_idx (purge s k) (fupd g k purged)).
  pose proof (agree_ent_in n g s k purged Hk A) as A1. change (is_begin (with_idx (purge s k) (fupd g k purged)) k) with (is_begin (purge s k) k).
  destruct (is_begin (purge s k) k); [|exists (fupd g k purged); auto].
  destruct (tw_trim_hole (purge s k) (fupd g k purged) n H A1) as (E & A2 & C2). exists (fupd g k purged). auto.
Qed.
Lemma tw_ent s g k e : set_ent (with_idx s g) k e = with_idx (set_ent s k e) (fupd g k e).
Proof. reflexivity. Qed.
Lemma tw_merge s g n f h : (cnt s <= n)%nat -> agree n g s -> (f < n)%nat -> (h < n)%nat ->
  exists g', merge_holes (with_idx s g) f h = (fst (merge_holes s f h), with_idx (snd (merge_holes s f h)) g') /\
    agree n g' (snd (merge_holes s f h)) /\ (cnt (snd (merge_holes s f h)) <= n)%nat /\ (fst (merge_holes s f h) < n)%nat.
Proof.
  intros H A Hf Hh. unfold merge_holes. cbv zeta. change (is_begin (with_idx s g) f) with (is_begin s f). cbn [with_idx idx]. rewrite (A f Hf), (A h Hh).
  destruct (negb (is_begin s f)); cbn [fst snd].
  - set (e := set_units (idx s f) (hunits (idx s f) + hunits (idx s h))).
    change (set_ent (with_idx s g) f e) with (with_idx (set_ent s f e) (fupd g f e)).
    destruct (tw_purge_trim (set_ent s f e) (fupd g f e) n h H (agree_ent_in n g s f e Hf A) Hh) as (g' & E & A' & C'). exists g'. rewrite E. auto.
  - set (e := set_units (add_delta (idx s h) (- hunits (idx s f))) (hunits (idx s f) + hunits (idx s h))).
    change (purge (set_ent (with_idx s g) h e) f) with (with_idx (purge (set_ent s h e) f) (fupd (fupd g h e) f purged)).
    pose proof (agree_ent_in n (fupd g h e) (set_ent s h e) f purged Hf (agree_ent_in n g s h e Hh A)) as A1.
    destruct (tw_trim_hole (purge (set_ent s h e) f) _ n H A1) as (E & A' & C'). exists (fupd (fupd g h e) f purged). rewrite E. auto.
Qed.

(** ** Allocation and release *)
Lemma tw_index_alloc s g n : (cnt s <= n)%nat -> agree n g s ->
  match index_alloc s with
  | Ok k s1 => index_alloc (with_idx s g) = Ok k (with_idx s1 g) /\ agree n g s1 /\ (k <= n)%nat /\ (cnt s1 <= Nat.max n (S k))%nat
  | Throw s1 => index_alloc (with_idx s g) = Throw (with_idx s1 g) /\ agree n g s1 /\ (cnt s1 <= n)%nat
  | Bad => False
  end.
Proof.
  intros H A. unfold index_alloc. rewrite (tw_lookup s g n) by assumption. change (jc (with_idx s g)) with (jc s). change (head_space (with_idx s g)) with (head_space s).
  pose proof (lookup_below s (u16 (make_hole 0)) n H) as L.
  destruct (jc s >? 0); [destruct (lookup_gid s (u16 (make_hole 0))) as [k|]|].
  - pose proof (L k eq_refl). split; [reflexivity|]. split; [exact A|]. cbn [cnt with_jc]. lia.
  - destruct (head_space s <? 1); [split; [reflexivity|split; [exact A|exact H]]|]. split; [reflexivity|]. split; [exact A|]. cbn [cnt with_cnt]. lia.
  - destruct (head_space s <? 1); [split; [reflexivity|split; [exact A|exact H]]|]. split; [reflexivity|]. split; [exact A|]. cbn [cnt with_cnt]. lia.
Qed.
Lemma tw_tail_alloc m s g n u : (m <= n)%nat -> (cnt s <= n)%nat -> agree n g s -> simr any m (tail_alloc s u) (tail_alloc (with_idx s g) u).
Proof.
  intros M H A. unfold tail_alloc. change (tail_space (with_idx s g)) with (tail_space s). destruct (tail_space s <? u).
  - apply (simr_throw any m s g n); assumption.
  - exact (simr_ok any m (tail s) (with_tail s (tail s + u)) g n M H A I).
Qed.
Lemma tw_data_at m s g n u h : (m <= n)%nat -> (cnt s <= n)%nat -> agree n g s -> below_o h n -> simr any m (alloc_data_at s u h) (alloc_data_at (with_idx s g) u h).
Proof.
  intros M H A Hh. unfold alloc_data_at. destruct h as [h|]; [|apply (tw_tail_alloc m s g n); assumption]. pose proof (Hh h eq_refl) as L. cbv zeta.
  change (with_jv (with_idx s g) (jv (with_idx s g) - u)) with (with_idx (with_jv s (jv s - u)) g). set (s1 := with_jv s (jv s - u)).
  assert (A1 : agree n g s1) by exact A. assert (H1 : (cnt s1 <= n)%nat) by exact H. clearbody s1.
  rewrite (tw_addr s1 g n) by assumption. change (idx (with_idx s1 g) h) with (g h). rewrite (A1 h L). destruct (_ =? 0).
  - destruct (tw_purge_trim s1 g n h H1 A1 L) as (g' & E & A' & C'). rewrite E. exact (simr_ok any m _ _ g' n M C' A' I).
  - set (e := set_units _ _). rewrite tw_ent. exact (simr_ok any m _ (set_ent s1 h e) _ n M H1 (agree_ent_in n g s1 h e L A1) I).
Qed.
Ltac alloc_ix s g n H A :=
  let I := fresh "I" in pose proof (tw_index_alloc s g n H A) as I; destruct (index_alloc s) as [?k ?s1|?s1|];
  [destruct I as (-> & ?A1 & ?Hk & ?C1)|destruct I as (-> & ?A1 & ?C1)|contradiction]; cbn [bind].

Lemma tw_alloc_loose m q s g n tag u : (m <= n)%nat -> (cnt s <= n)%nat -> agree n g s -> simr below m (alloc_loose q s tag u) (alloc_loose q (with_idx s g) tag u).
Proof.
  intros M H A. unfold alloc_loose. destruct (u =? 0).
  - alloc_ix s g n H A.
    + rewrite tw_ent. apply (simr_ok below m _ _ _ (Nat.max n (S k))); [lia|exact C1|apply agree_ent; assumption|unfold below; lia].
    + apply (simr_throw below m s1 g n); assumption.
  - destruct (tw_fit s g n u H A) as [F FB]. rewrite F. destruct (lookup_fit s u) as [[h|]|]; [| |exact I].
    + pose proof (FB _ eq_refl h eq_refl) as L. cbn [with_idx idx]. rewrite (A h L). cbv zeta. destruct (u32 (hunits (idx s h) - u) =? 0).
      * set (e := mkE _ _). change (simr below m (Ok h (set_ent (with_jc (with_jv s (jv s - u)) (jc s - 1)) h e)) (Ok h (with_idx (set_ent (with_jc (with_jv s (jv s - u)) (jc s - 1)) h e) (fupd g h e)))).
        apply (simr_ok below m h _ _ n M); [exact H|apply (agree_ent_in n g (with_jc (with_jv s (jv s - u)) (jc s - 1))); [exact L|exact A]|exact L].
      * alloc_ix s g n H A; [|apply (simr_throw below m s1 g n); assumption].
        unfold hole_begin. rewrite (tw_addr s1 g n) by assumption.
        set (e := set_payload s1 k (mkE 0 (u16 tag)) (addr s1 h)).
        change (set_payload (with_idx s1 g) k (mkE 0 (u16 tag)) (addr s1 h)) with e. rewrite tw_ent.
        pose proof (agree_ent n g s1 k e Hk A1) as A2. set (s2 := set_ent s1 k e) in *. set (g2 := fupd g k e) in *. cbn [with_idx idx]. rewrite (A2 h) by lia.
        set (e2 := set_units (add_delta (idx s2 h) (if q_split q then u32 (hunits (idx s h) - u) else u)) (u32 (hunits (idx s h) - u))).
        rewrite tw_ent. assert (L2 : (h < Nat.max n (S k))%nat) by lia. pose proof (agree_ent_in _ g2 s2 h e2 L2 A2) as A3.
        apply (simr_ok below m k (with_jv (set_ent s2 h e2) (jv (set_ent s2 h e2) - u)) (fupd g2 h e2) (Nat.max n (S k))); [lia|exact C1|exact A3|unfold below; lia].
    + change (tail_space (with_idx s g)) with (tail_space s). destruct (tail_space s <? u); [apply (simr_throw below m s g n); assumption|].
      alloc_ix s g n H A; [|apply (simr_throw below m s1 g n); assumption].
      change (tail (with_idx s1 g)) with (tail s1). set (e := set_payload s1 k (mkE 0 (u16 tag)) (tail s1)).
      change (set_payload (with_idx s1 g) k (mkE 0 (u16 tag)) (tail s1)) with e. rewrite tw_ent.
      apply (simr_ok below m k (with_tail (set_ent s1 k e) (tail s1 + u)) (fupd g k e) (Nat.max n (S k))); [lia|exact C1|exact (agree_ent n g s1 k e Hk A1)|unfold below; lia].
Qed.
Lemma tw_release_loose m s g n k u : (m <= n)%nat -> (cnt s <= n)%nat -> agree n g s -> (k < n)%nat -> simr any m (release_loose s k u) (release_loose (with_idx s g) k u).
Proof.
  intros M H A Hk. unfold release_loose. cbv zeta.
  change (with_jc (with_idx s g) (jc (with_idx s g) + 1)) with (with_idx (with_jc s (jc s + 1)) g). set (s0 := with_jc s (jc s + 1)).
  assert (A0 : agree n g s0) by exact A. assert (H0 : (cnt s0 <= n)%nat) by exact H. clearbody s0. destruct (u =? 0).
  - destruct (tw_purge_trim s0 g n k H0 A0 Hk) as (g' & E & A' & C'). rewrite E. exact (simr_ok any m _ _ g' n M C' A' I).
  - change (idx (with_idx s0 g) k) with (g k). rewrite (A0 k Hk). set (e := set_units (idx s0 k) u).
    change (with_jv (set_ent (with_idx s0 g) k e) (jv (with_idx s0 g) + u)) with (with_idx (with_jv (set_ent s0 k e) (jv s0 + u)) (fupd g k e)).
    pose proof (agree_ent_in n g s0 k e Hk A0) as A1'. set (s1 := with_jv (set_ent s0 k e) (jv s0 + u)). set (g1 := fupd g k e).
    assert (A1 : agree n g1 s1) by exact A1'. assert (H1 : (cnt s1 <= n)%nat) by exact H0. clearbody s1 g1. clear A1'.
    unfold hole_begin, hole_end at 1 3. rewrite (tw_addr s1 g1 n) by assumption. change (idx (with_idx s1 g1) k) with (g1 k). rewrite (A1 k Hk).
    destruct (tw_adjacent s1 g1 n (addr s1 k) (addr s1 k + hunits (idx s1 k)) H1 A1) as [E B]. rewrite E.
    destruct (lookup_adjacent s1 (addr s1 k) (addr s1 k + hunits (idx s1 k))) as [[bf af]|]; [|exact I]. destruct (B bf af eq_refl) as [B1 B2]. clear E B.
    assert (X : exists k2 s2 g2, match bf with Some b => merge_holes s1 b k | None => (k, s1) end = (k2, s2) /\
      match bf with Some b => merge_holes (with_idx s1 g1) b k | None => (k, with_idx s1 g1) end = (k2, with_idx s2 g2) /\ agree n g2 s2 /\ (cnt s2 <= n)%nat /\ (k2 < n)%nat).
    { destruct bf as [b|]; [|exists k, s1, g1; auto]. destruct (tw_merge s1 g1 n b k H1 A1 (B1 b eq_refl) Hk) as (g2 & E & A2 & C2 & K2).
      exists (fst (merge_holes s1 b k)), (snd (merge_holes s1 b k)), g2. rewrite <- surjective_pairing. auto. }
    destruct X as (k2 & s2 & g2 & -> & -> & A2 & H2 & Hk2).
    assert (X : exists k3 s3 g3, match af with Some a => merge_holes s2 k2 a | None => (k2, s2) end = (k3, s3) /\
      match af with Some a => merge_holes (with_idx s2 g2) k2 a | None => (k2, with_idx s2 g2) end = (k3, with_idx s3 g3) /\ agree n g3 s3 /\ (cnt s3 <= n)%nat /\ (k3 < n)%nat).
    { destruct af as [a|]; [|exists k2, s2, g2; auto]. destruct (tw_merge s2 g2 n k2 a H2 A2 Hk2 (B2 a eq_refl)) as (g3 & E & A3 & C3 & K3).
      exists (fst (merge_holes s2 k2 a)), (snd (merge_holes s2 k2 a)), g3. rewrite <- surjective_pairing. auto. }
    destruct X as (k3 & s3 & g3 & -> & -> & A3 & H3 & Hk3).
    unfold hole_end. rewrite (tw_addr s3 g3 n) by assumption. change (idx (with_idx s3 g3) k3) with (g3 k3). rewrite (A3 k3 Hk3).
    change (tail (with_idx s3 g3)) with (tail s3). destruct (negb _); [exact (simr_ok any m _ _ g3 n M H3 A3 I)|].
    set (u3 := hunits (idx s3 k3)). change (with_jv (with_tail (with_idx s3 g3) (tail s3 - u3)) (jv (with_idx s3 g3) - u3)) with (with_idx (with_jv (with_tail s3 (tail s3 - u3)) (jv s3 - u3)) g3).
    destruct (tw_purge_trim (with_jv (with_tail s3 (tail s3 - u3)) (jv s3 - u3)) g3 n k3 H3 A3 Hk3) as (g' & E & A' & C'). rewrite E. exact (simr_ok any m _ _ g' n M C' A' I).
Qed.
Lemma tw_release_data_at m s g n c u bf af h0 : (m <= n)%nat -> (cnt s <= n)%nat -> agree n g s -> below_o bf n -> below_o af n -> below_o h0 n ->
  simr below_o m (release_data_at s c u (bf, af) h0) (release_data_at (with_idx s g) c u (bf, af) h0).
Proof.
  intros M H A B1 B2 B0. unfold release_data_at. cbv zeta. change (tail (with_idx s g)) with (tail s). destruct (c + u =? tail s).
  - change (with_tail (with_idx s g) (tail s - u)) with (with_idx (with_tail s (tail s - u)) g). set (s0 := with_tail s (tail s - u)).
    assert (A0 : agree n g s0) by exact A. assert (H0 : (cnt s0 <= n)%nat) by exact H. clearbody s0.
    destruct bf as [b|]; [|apply (simr_ok below_o m _ _ g n); try assumption; intros x X; discriminate].
    pose proof (B1 b eq_refl) as L. change (idx (with_idx s0 g) b) with (g b). rewrite (A0 b L). set (v := hunits (idx s0 b)).
    change (with_jv (with_tail (with_idx s0 g) (tail (with_idx s0 g) - v)) (jv (with_idx s0 g) - v)) with (with_idx (with_jv (with_tail s0 (tail s0 - v)) (jv s0 - v)) g).
    destruct (tw_purge_trim (with_jv (with_tail s0 (tail s0 - v)) (jv s0 - v)) g n b H0 A0 L) as (g' & E & A' & C'). rewrite E.
    apply (simr_ok below_o m _ _ g' n); try assumption. intros x X; discriminate.
  - change (with_jv (with_idx s g) (jv (with_idx s g) + u)) with (with_idx (with_jv s (jv s + u)) g). set (s0 := with_jv s (jv s + u)).
    assert (A0 : agree n g s0) by exact A. assert (H0 : (cnt s0 <= n)%nat) by exact H. clearbody s0.
    destruct bf as [b|]; [pose proof (B1 b eq_refl) as Lb|]; destruct af as [a|]; try pose proof (B2 a eq_refl) as La.
    + change (idx (with_idx s0 g) b) with (g b). rewrite (A0 b Lb). set (e := set_units (idx s0 b) (u + hunits (idx s0 b))). rewrite tw_ent.
      destruct (tw_merge (set_ent s0 b e) (fupd g b e) n b a H0 (agree_ent_in n g s0 b e Lb A0) Lb La) as (g' & E & A' & C' & K'). rewrite E, (surjective_pairing (merge_holes (set_ent s0 b e) b a)). cbn [fst snd].
      apply (simr_ok below_o m _ _ g' n); try assumption. intros x X. injection X as <-. exact K'.
    + change (idx (with_idx s0 g) b) with (g b). rewrite (A0 b Lb). set (e := set_units (idx s0 b) (u + hunits (idx s0 b))). rewrite tw_ent.
      apply (simr_ok below_o m _ (set_ent s0 b e) _ n M H0 (agree_ent_in n g s0 b e Lb A0)). intros x X. injection X as <-. exact Lb.
    + change (idx (with_idx s0 g) a) with (g a). rewrite (A0 a La). set (e := set_units (add_delta (idx s0 a) (- u)) (u + hunits (idx s0 a))). rewrite tw_ent.
      apply (simr_ok below_o m _ (set_ent s0 a e) _ n M H0 (agree_ent_in n g s0 a e La A0)). intros x X. injection X as <-. exact La.
    + destruct h0 as [h|]; cbn [bind].
      * pose proof (B0 h eq_refl) as Lh. set (e := set_payload s0 h (set_units (idx s0 h) u) c). change (set_payload (with_idx s0 g) h (set_units (idx (with_idx s0 g) h) u) c) with e. rewrite tw_ent.
        apply (simr_ok below_o m _ (set_ent s0 h e) _ n M H0 (agree_ent_in n g s0 h e Lh A0)). intros x X. injection X as <-. exact Lh.
      * alloc_ix s0 g n H0 A0; [|apply (simr_throw below_o m s1 g n); assumption].
        set (s2 := with_jc s1 (jc s1 + 1)). set (e := set_payload s2 k (set_units (idx s2 k) u) c).
        change (simr below_o m (Ok (Some k) (set_ent s2 k e)) (Ok (Some k) (with_idx (set_ent s2 k e) (fupd g k e)))).
        apply (simr_ok below_o m _ _ _ (Nat.max n (S k))); [lia|exact C1|exact (agree_ent n g s2 k e Hk A1)|]. intros x X. injection X as <-. lia.
Qed.

(** ** A payload that grows or shrinks *)
Definition ref_below (r : ref) (n : nat) : Prop := match r with RL k => (k < n)%nat | RP _ => True end.
Lemma ref_below_le r n N : (n <= N)%nat -> ref_below r n -> ref_below r N.
Proof. destruct r; cbn [ref_below]; lia. Qed.
Lemma tw_raddr s g n r : agree n g s -> ref_below r n -> raddr (with_idx s g) r = raddr s r.
Proof. intros A H. unfold raddr, rown, rrel, own. destruct r as [k|j]; [|reflexivity]. cbn [with_idx idx pivot]. rewrite (A k H). reflexivity. Qed.
Lemma tw_rpay s g n r c : (cnt s <= n)%nat -> agree n g s -> ref_below r n ->
  exists g', set_rpayload (with_idx s g) r c = with_idx (set_rpayload s r c) g' /\ agree n g' (set_rpayload s r c) /\ (cnt (set_rpayload s r c) <= n)%nat.
Proof.
  intros H A R. unfold set_rpayload, set_rrel. destruct r as [k|j]; [|exists g; auto].
  change (idx (with_idx s g) k) with (g k). rewrite (A k R). change (rown (with_idx s g) (RL k)) with (rown s (RL k)). set (e := mkE _ _). rewrite tw_ent.
  exists (fupd g k e). split; [reflexivity|]. split; [exact (agree_ent_in n g s k e R A)|exact H].
Qed.
Lemma simr_rpay m s g n r c : (m <= n)%nat -> (cnt s <= n)%nat -> agree n g s -> ref_below r n -> simr any m (Ok tt (set_rpayload s r c)) (Ok tt (set_rpayload (with_idx s g) r c)).
Proof. intros M H A R. destruct (tw_rpay s g n r c H A R) as (g' & -> & A' & C'). exact (simr_ok any m tt _ g' n M C' A' I). Qed.
Lemma tw_release_and_alloc m s g n r have nd bf af h4r h4a : (m <= n)%nat -> (cnt s <= n)%nat -> agree n g s -> ref_below r n ->
  below_o bf n -> below_o af n -> below_o h4r n -> below_o h4a n ->
  simr any m (release_and_alloc s r have nd (bf, af) h4r h4a) (release_and_alloc (with_idx s g) r have nd (bf, af) h4r h4a).
Proof.
  intros M H A R B1 B2 B3 B4. unfold release_and_alloc. rewrite (tw_raddr s g n) by assumption.
  assert (W : simr any n (bind (release_data_at s (raddr s r) have (bf, af) h4r) (fun hole4release s =>
    match match h4a with Some h => if Nat.ltb h (cnt s) && negb (hunits (idx s h) =? 0) then Some (Some (best_fit s nd hole4release h)) else lookup_fit s nd | None => lookup_fit s nd end with
    | None => Bad | Some hole4alloc => bind (alloc_data_at s nd hole4alloc) (fun chunk s => Ok tt (set_rpayload s r chunk)) end))
   (bind (release_data_at (with_idx s g) (raddr s r) have (bf, af) h4r) (fun hole4release s =>
    match match h4a with Some h => if Nat.ltb h (cnt s) && negb (hunits (idx s h) =? 0) then Some (Some (best_fit s nd hole4release h)) else lookup_fit s nd | None => lookup_fit s nd end with
    | None => Bad | Some hole4alloc => bind (alloc_data_at s nd hole4alloc) (fun chunk s => Ok tt (set_rpayload s r chunk)) end))).
  { eapply simr_bind; [apply (tw_release_data_at n s g n); try assumption; lia|]. intros h1 s1 g1 N N1 C1 A1 P1. cbv beta.
    assert (X : match h4a with Some h => if Nat.ltb h (cnt s1) && negb (hunits (idx s1 h) =? 0) then Some (Some (best_fit s1 nd h1 h)) else lookup_fit s1 nd | None => lookup_fit s1 nd end =
      match h4a with Some h => if Nat.ltb h (cnt (with_idx s1 g1)) && negb (hunits (idx (with_idx s1 g1) h) =? 0) then Some (Some (best_fit (with_idx s1 g1) nd h1 h)) else lookup_fit (with_idx s1 g1) nd | None => lookup_fit (with_idx s1 g1) nd end /\
      forall o, match h4a with Some h => if Nat.ltb h (cnt s1) && negb (hunits (idx s1 h) =? 0) then Some (Some (best_fit s1 nd h1 h)) else lookup_fit s1 nd | None => lookup_fit s1 nd end = Some o -> below_o o N).
    { destruct (tw_fit s1 g1 N nd C1 A1) as [F FB]. destruct h4a as [h|]; [|split; [symmetry; exact F|exact FB]].
      assert (L : (h < N)%nat) by (specialize (B4 h eq_refl); lia). cbn [with_idx idx cnt]. rewrite (A1 h L). destruct (_ && _); [|split; [symmetry; exact F|exact FB]].
      rewrite (tw_best s1 g1 N) by assumption. split; [reflexivity|]. intros o X. injection X as <-. intros y Y. injection Y as <-. apply best_below; assumption. }
    destruct X as [X XB]. rewrite <- X. destruct (match h4a with Some h => _ | None => _ end) as [o|]; [|exact I]. specialize (XB o eq_refl). clear X.
    eapply simr_bind; [apply (tw_data_at n s1 g1 N); assumption|]. intros c s2 g2 N2 M2 C2 A2 _. apply (simr_rpay n s2 g2 N2); try assumption. apply (ref_below_le r n); assumption. }
  destruct (bind (release_data_at s _ _ _ _) _) as [a s1|s1|], (bind (release_data_at (with_idx s g) _ _ _ _) _) as [b t|t|]; cbn [simr] in *; try contradiction; auto.
  - destruct W as (-> & g' & N & E & L & X). split; [reflexivity|]. exists g', N. split; [exact E|]. split; [lia|exact X].
  - destruct W as (g' & N & E & L & X). exists g', N. split; [exact E|]. split; [lia|exact X].
Qed.
Lemma simr_le {A} (P : A -> nat -> Prop) m n r r' : (m <= n)%nat -> simr P n r r' -> simr P m r r'.
Proof.
  intros M. destruct r as [a s|s|], r' as [b t|t|]; cbn [simr]; auto.
  - intros (-> & g & N & E & L & X). split; [reflexivity|]. exists g, N. split; [exact E|]. split; [lia|exact X].
  - intros (g & N & E & L & X). exists g, N. split; [exact E|]. split; [lia|exact X].
Qed.
Lemma tw_realloc q s g n r have nd : (cnt s <= n)%nat -> agree n g s -> ref_below r n -> simr any n (realloc_data q s r have nd) (realloc_data q (with_idx s g) r have nd).
Proof.
  intros H A R. unfold realloc_data. rewrite (tw_raddr s g n) by assumption. cbv zeta.
  change (jv (with_idx s g)) with (jv s). change (tail (with_idx s g)) with (tail s). change (tail_space (with_idx s g)) with (tail_space s).
  change (head_space (with_idx s g)) with (head_space s). change (jc (with_idx s g)) with (jc s).
  assert (T : simr any n (@Throw unit s) (Throw (with_idx s g))) by (apply (simr_throw any n s g n); auto).
  assert (G : simr any n (if (have <? nd) && (tail_space s <? nd - have) then Throw s else Ok tt (with_tail s (tail s - have + nd)))
    (if (have <? nd) && (tail_space s <? nd - have) then Throw (with_idx s g) else Ok tt (with_tail (with_idx s g) (tail s - have + nd)))).
  { destruct (_ && _); [exact T|]. exact (simr_ok any n tt (with_tail s (tail s - have + nd)) g n (Nat.le_refl n) H A I). }
  destruct (jv s =? 0).
  - destruct (raddr s r + have =? tail s); [exact G|]. destruct (nd >? have).
    + destruct (_ || _); [exact T|]. alloc_ix s g n H A; [|apply (simr_throw any n s1 g n); auto].
      rewrite (tw_raddr s1 g n) by assumption. set (e := set_payload s1 k (set_units (idx s1 k) have) (raddr s1 r)).
      change (set_payload (with_idx s1 g) k (set_units (idx (with_idx s1 g) k) have) (raddr s1 r)) with e. rewrite tw_ent.
      pose proof (agree_ent n g s1 k e Hk A1) as A2. set (g2 := fupd g k e) in *. set (s2 := set_ent s1 k e) in *.
      change (with_jv (with_jc (with_idx s2 g2) (jc (with_idx s2 g2) + 1)) (jv (with_idx s2 g2) + have)) with (with_idx (with_jv (with_jc s2 (jc s2 + 1)) (jv s2 + have)) g2).
      eapply (simr_bind any any); [apply (tw_tail_alloc n _ g2 (Nat.max n (S k))); [lia|exact C1|exact A2]|]. intros c s3 g3 N M3 C3 A3 _.
      apply (simr_rpay n s3 g3 N); try assumption. apply (ref_below_le r n); assumption.
    + alloc_ix s g n H A; [|apply (simr_throw any n s1 g n); auto].
      rewrite (tw_raddr s1 g n) by assumption. set (e := set_payload s1 k (set_units (idx s1 k) (have - nd)) (raddr s1 r + nd)).
      change (set_payload (with_idx s1 g) k (set_units (idx (with_idx s1 g) k) (have - nd)) (raddr s1 r + nd)) with e. rewrite tw_ent.
      pose proof (agree_ent n g s1 k e Hk A1) as A2. set (g2 := fupd g k e) in *. set (s2 := set_ent s1 k e) in *.
      apply (simr_ok any n tt (with_jv (with_jc s2 (jc s2 + 1)) (jv s2 + (have - nd))) g2 (Nat.max n (S k))); [lia|exact C1|exact A2|exact I].
  - destruct (tw_adjacent s g n (raddr s r) (raddr s r + have) H A) as [E B]. rewrite E.
    destruct (lookup_adjacent s (raddr s r) (raddr s r + have)) as [[bf af]|]; [|exact I]. destruct (B bf af eq_refl) as [B1 B2]. clear E B. cbn [fst snd].
    assert (HU : forall o, below_o o n -> match o with Some k => hunits (idx (with_idx s g) k) | None => 0 end = match o with Some k => hunits (idx s k) | None => 0 end).
    { intros [o|] X; [|reflexivity]. cbn [with_idx idx]. rewrite (A o (X o eq_refl)). reflexivity. }
    rewrite (HU bf B1), (HU af B2). set (adj := match bf with Some k => hunits (idx s k) | None => 0 end + match af with Some k => hunits (idx s k) | None => 0 end).
    assert (NO : below_o None n) by (intros x X; discriminate).
    destruct ((have <? nd) && (have + adj >=? nd)); [apply (tw_release_and_alloc n s g n); auto|].
    destruct (tw_exact s g n 0 H A) as [E0 B0]. rewrite E0.
    set (h4r := if (adj >? 0) || (head_space s >? 0) then None else lookup_exact s 0).
    assert (B4 : below_o h4r n) by (unfold h4r; destruct (_ || _); assumption).
    destruct (negb ((adj >? 0) || (head_space s >? 0) || match h4r with Some _ => true | None => false end)).
    + destruct (tw_exact s g n nd H A) as [E1 B5]. rewrite E1. destruct (lookup_exact s nd) as [h|]; [|destruct (raddr s r + have =? tail s); [exact G|exact T]].
      pose proof (B5 h eq_refl) as L. unfold hole_begin. rewrite (tw_addr s g n) by assumption. destruct (tw_rpay s g n r (addr s h) H A R) as (g1 & -> & A1 & H1).
      set (s1 := set_rpayload s r (addr s h)) in *. clearbody s1.
      set (e := set_units (set_payload s1 h (idx s1 h) (raddr s r)) have).
      assert (Ee : set_units (set_payload (with_idx s1 g1) h (idx (with_idx s1 g1) h) (raddr s r)) have = e) by reflexivity. rewrite Ee, tw_ent.
      pose proof (agree_ent_in n g1 s1 h e L A1) as A2. set (g2 := fupd g1 h e) in *. set (s2 := set_ent s1 h e) in *. assert (H2 : (cnt s2 <= n)%nat) by exact H1. clearbody s2 g2. clear Ee.
      change (with_jv (with_idx s2 g2) (jv (with_idx s2 g2) + u16 (have - nd))) with (with_idx (with_jv s2 (jv s2 + u16 (have - nd))) g2). set (s3 := with_jv s2 (jv s2 + u16 (have - nd))).
      assert (A3 : agree n g2 s3) by exact A2. assert (H3 : (cnt s3 <= n)%nat) by exact H2. clearbody s3. change (tail (with_idx s3 g2)) with (tail s3).
      destruct (_ =? tail s3); [|exact (simr_ok any n tt s3 g2 n (Nat.le_refl n) H3 A3 I)].
      change (with_jv (with_tail (with_idx s3 g2) (tail s3 - have)) (jv (with_idx s3 g2) - have)) with (with_idx (with_jv (with_tail s3 (tail s3 - have)) (jv s3 - have)) g2).
      destruct (tw_purge_trim (with_jv (with_tail s3 (tail s3 - have)) (jv s3 - have)) g2 n h H3 A3 L) as (g' & E & A' & C'). rewrite E. exact (simr_ok any n tt _ g' n (Nat.le_refl n) C' A' I).
    + destruct ((have >? nd) || (nd <=? tail_space s)); [apply (tw_release_and_alloc n s g n); auto|]. destruct (tw_fit s g n nd H A) as [F FB]. rewrite F.
      destruct (lookup_fit s nd) as [[h|]|]; [|exact T|exact I]. apply (tw_release_and_alloc n s g n); auto.
Qed.

(** ** Operations of the API *)
Lemma tw_write m s g n a ws : (m <= n)%nat -> (cnt s <= n)%nat -> agree n g s -> simr any m (Ok tt (write_units s a ws)) (Ok tt (write_units (with_idx s g) a ws)).
Proof. intros M H A. exact (simr_ok any m tt (write_units s a ws) g n M H A I). Qed.
Lemma tw_write_fixed s g n k v : (cnt s <= n)%nat -> agree n g s -> (k < n)%nat ->
  exists g', write_fixed (with_idx s g) k v = with_idx (write_fixed s k v) g' /\ agree n g' (write_fixed s k v) /\ (cnt (write_fixed s k v) <= n)%nat.
Proof.
  intros H A L. unfold write_fixed. change (idx (with_idx s g) k) with (g k). rewrite (A k L), (tw_addr s g n) by assumption. destruct (is_inplaced_genus _).
  - set (e := mkE _ _). rewrite tw_ent. exists (fupd g k e). split; [reflexivity|]. split; [exact (agree_ent_in n g s k e L A)|exact H].
  - exists g. split; [reflexivity|]. split; [exact A|exact H].
Qed.
Lemma tw_rgenus s g n r : agree n g s -> ref_below r n -> rgenus (with_idx s g) r = rgenus s r /\ rrel (with_idx s g) r = rrel s r.
Proof. intros A R. destruct r as [k|j]; [|split; reflexivity]. unfold rgenus, rrel. cbn [with_idx idx]. rewrite (A k R). split; reflexivity. Qed.
Lemma tw_plen s g n r : agree n g s -> ref_below r n -> plen (with_idx s g) r = plen s r.
Proof. intros A R. destruct (tw_rgenus s g n r A R) as [E1 E2]. unfold plen. rewrite E1, E2, (tw_raddr s g n) by assumption. reflexivity. Qed.
Lemma tw_value s g n r : agree n g s -> ref_below r n -> value (with_idx s g) r = value s r.
Proof. intros A R. destruct (tw_rgenus s g n r A R) as [E1 E2]. unfold value. rewrite E1, E2, (tw_raddr s g n), (tw_plen s g n) by assumption. reflexivity. Qed.
Lemma tw_void {A} (P : A -> nat -> Prop) n r r' : simr P n r r' -> simr any n (void r) (void r').
Proof.
  intros W. unfold void. eapply simr_bind; [exact W|]. intros a s g N N1 C A' _. exact (simr_ok any n tt s g N N1 C A' I).
Qed.
Lemma tw_store_fixed n q s g desc v u : (cnt s <= n)%nat -> agree n g s ->
  simr any n (bind (alloc_loose q s desc u) (fun k s => Ok (Some k) (write_fixed s k (pay v)))) (bind (alloc_loose q (with_idx s g) desc u) (fun k s => Ok (Some k) (write_fixed s k (pay v)))).
Proof.
  intros H A. eapply simr_bind; [apply (tw_alloc_loose n q s g n); auto|]. intros k s1 g1 N N1 C1 A1 K1.
  destruct (tw_write_fixed s1 g1 N k (pay v) C1 A1 K1) as (g' & -> & A' & C'). exact (simr_ok any n (Some k) _ g' N N1 C' A' I).
Qed.
Lemma tw_assign_fixed n q s g desc disc v : (cnt s <= n)%nat -> agree n g s -> simr any n (assign_fixed q s desc disc v) (assign_fixed q (with_idx s g) desc disc v).
Proof.
  intros H A. unfold assign_fixed. rewrite (tw_lookup s g n) by assumption. pose proof (lookup_below s desc n H) as LB. destruct (lookup_gid s desc) as [k|].
  - pose proof (LB k eq_refl) as L. destruct (_ && _).
    + eapply (simr_bind any any); [apply (tw_release_loose n s g n); auto|]. intros a s1 g1 N N1 C1 A1 _. exact (simr_ok any n None s1 g1 N N1 C1 A1 I).
    + destruct (tw_write_fixed s g n k (pay v) H A L) as (g' & -> & A' & C'). exact (simr_ok any n (Some k) _ g' n (Nat.le_refl n) C' A' I).
  - destruct (_ && _); [exact (simr_ok any n None s g n (Nat.le_refl n) H A I)|]. apply tw_store_fixed; assumption.
Qed.
Lemma tw_release_data n s g c u : (cnt s <= n)%nat -> agree n g s -> simr any n (release_data s c u) (release_data (with_idx s g) c u).
Proof.
  intros H A. unfold release_data. destruct (tw_adjacent s g n c (c + u) H A) as [-> B]. destruct (lookup_adjacent s c (c + u)) as [[bf af]|]; [|exact I].
  destruct (B bf af eq_refl) as [B1 B2]. eapply simr_bind; [apply (tw_release_data_at n s g n); auto; intros x X; discriminate|].
  intros a s1 g1 N N1 C1 A1 _. exact (simr_ok any n tt s1 g1 N N1 C1 A1 I).
Qed.
Lemma tw_slot0 n s g N j : (n <= N)%nat -> (cnt s <= N)%nat -> agree N g s -> simr any n (Ok tt (set_rrel s (RP j) 0)) (Ok tt (set_rrel (with_idx s g) (RP j) 0)).
Proof. intros M H A. exact (simr_ok any n tt (set_rrel s (RP j) 0) g N M H A I). Qed.
Lemma tw_assign_ref n q s g r disc v : (cnt s <= n)%nat -> agree n g s -> ref_below r n -> simr any n (assign_ref q s r disc v) (assign_ref q (with_idx s g) r disc v).
Proof.
  intros H A R. destruct (tw_rgenus s g n r A R) as [E1 E2]. unfold assign_ref. cbv zeta. rewrite E1, E2, (tw_raddr s g n) by assumption. change (dat (with_idx s g)) with (dat s).
  set (have := brutto (rgenus s r) (dat s (raddr s r))). destruct (negb _).
  - destruct (needed disc v =? have); [apply (tw_write n s g n); auto|]. destruct (needed disc v =? 0).
    + destruct r as [k|j]; [apply (tw_release_loose n s g n); auto|]. eapply (simr_bind any any); [apply tw_release_data; assumption|]. intros a s1 g1 N N1 C1 A1 _. apply (tw_slot0 n s1 g1 N); assumption.
    + eapply (simr_bind any any); [apply tw_realloc; assumption|]. intros a s1 g1 N N1 C1 A1 _. rewrite (tw_raddr s1 g1 N) by (try assumption; apply (ref_below_le r n); assumption). apply (tw_write n s1 g1 N); assumption.
  - destruct (needed disc v =? 0); [exact (simr_ok any n tt s g n (Nat.le_refl n) H A I)|].
    assert (W : simr any n (alloc_data s (needed disc v)) (alloc_data (with_idx s g) (needed disc v))).
    { unfold alloc_data. destruct (tw_fit s g n (needed disc v) H A) as [-> FB]. destruct (lookup_fit s (needed disc v)) as [o|]; [|exact I]. apply (tw_data_at n s g n); auto. }
    eapply (simr_bind any any); [exact W|]. intros c s1 g1 N N1 C1 A1 _. destruct (tw_rpay s1 g1 N r c C1 A1 (ref_below_le r n N N1 R)) as (g' & -> & A' & C'). apply (tw_write n _ g' N); assumption.
Qed.
Lemma tw_assign_stretchy n q s g desc disc v : (cnt s <= n)%nat -> agree n g s -> simr any n (assign_stretchy q s desc disc v) (assign_stretchy q (with_idx s g) desc disc v).
Proof.
  intros H A. unfold assign_stretchy. rewrite (tw_lookup s g n) by assumption. pose proof (lookup_below s desc n H) as LB. destruct (lookup_gid s desc) as [k|].
  - apply tw_assign_ref; try assumption. exact (LB k eq_refl).
  - destruct (needed disc v =? 0); [exact (simr_ok any n tt s g n (Nat.le_refl n) H A I)|].
    eapply simr_bind; [apply (tw_alloc_loose n q s g n); auto|]. intros k s1 g1 N N1 C1 A1 K1. rewrite (tw_addr s1 g1 N) by assumption. apply (tw_write n s1 g1 N); assumption.
Qed.
Lemma tw_append n q s g desc disc v : (cnt s <= n)%nat -> agree n g s -> simr any n (append_loose q s desc disc v) (append_loose q (with_idx s g) desc disc v).
Proof.
  intros H A. unfold append_loose. cbv zeta. destruct (_ && _); [exact (simr_ok any n None s g n (Nat.le_refl n) H A I)|].
  destruct (fixed_genus _); [apply tw_store_fixed; assumption|].
  eapply simr_bind; [apply (tw_alloc_loose n q s g n); auto|]. intros k s1 g1 N N1 C1 A1 K1. rewrite (tw_addr s1 g1 N) by assumption.
  exact (simr_ok any n (Some k) (write_units s1 (addr s1 k) (pay v)) g1 N N1 C1 A1 I).
Qed.
Lemma tw_erase n s g k : (cnt s <= n)%nat -> agree n g s -> (k < n)%nat -> simr any n (erase_loose s k) (erase_loose (with_idx s g) k).
Proof. intros H A L. unfold erase_loose. rewrite (tw_plen s g n) by assumption. apply (tw_release_loose n s g n); auto. Qed.
Lemma tw_erase_from n desc : forall m s g N, (n <= N)%nat -> (cnt s <= N)%nat -> agree N g s -> (m <= N)%nat -> simr any n (erase_all_from s desc m) (erase_all_from (with_idx s g) desc m).
Proof.
  induction m as [|m IH]; intros s g N M H A L; cbn [erase_all_from]; [exact (simr_ok any n tt s g N M H A I)|].
  change (idx (with_idx s g) m) with (g m). rewrite (A m) by lia. destruct (gid (idx s m) =? desc); [|apply (IH s g N); try assumption; lia].
  apply (simr_le any n N); [exact M|]. eapply (simr_bind any any); [apply tw_erase; try assumption; lia|]. intros a s1 g1 N1 M1 C1 A1 _.
  assert (X : simr any N (erase_all_from s1 desc m) (erase_all_from (with_idx s1 g1) desc m)).
  { clear IH a. revert s1 g1 N1 M1 C1 A1. revert L. clear s g H A M. induction m as [|m IH]; intros L s1 g1 N1 M1 C1 A1; cbn [erase_all_from]; [exact (simr_ok any N tt s1 g1 N1 M1 C1 A1 I)|].
    change (idx (with_idx s1 g1) m) with (g1 m). rewrite (A1 m) by lia. destruct (gid (idx s1 m) =? desc); [|apply (IH ltac:(lia) s1 g1 N1); assumption].
    eapply (simr_bind any any); [apply (simr_le any N N1); [exact M1|apply tw_erase; try assumption; lia]|]. intros a s2 g2 N2 M2 C2 A2 _. apply (IH ltac:(lia) s2 g2 N2); assumption. }
  exact X.
Qed.
(** the position given to a removal through an iterator is one of the index *)
Definition within_index (s : st) (o : op) : bool := match o with OErase k => Nat.ltb k (cnt s) | _ => true end.
Theorem tw_run1 n q s g o : (cnt s <= n)%nat -> agree n g s -> within_index s o = true -> simr any n (run1 q s o) (run1 q (with_idx s g) o).
Proof.
  intros H A V. destruct o as [desc disc v|desc|desc disc v|desc|k|j disc v|j]; cbn [run1].
  - destruct (fixed_genus _); [eapply tw_void; apply tw_assign_fixed; assumption|apply tw_assign_stretchy; assumption].
  - rewrite (tw_lookup s g n) by assumption. pose proof (lookup_below s desc n H) as LB. destruct (lookup_gid s desc) as [k|]; [apply tw_erase; try assumption; exact (LB k eq_refl)|].
    exact (simr_ok any n tt s g n (Nat.le_refl n) H A I).
  - eapply tw_void. apply tw_append; assumption.
  - unfold erase_all. rewrite (tw_lookup s g n) by assumption. pose proof (lookup_below s desc n H) as LB. destruct (lookup_gid s desc) as [k|]; [|exact (simr_ok any n tt s g n (Nat.le_refl n) H A I)].
    pose proof (LB k eq_refl). apply (tw_erase_from n desc (S k) s g n); try assumption; lia.
  - cbn [within_index] in V. apply Nat.ltb_lt in V. apply tw_erase; try assumption. lia.
  - apply tw_assign_ref; try assumption. exact I.
  - unfold erase_slot. change (rrel (with_idx s g) (RP j)) with (rrel s (RP j)). destruct (rrel s (RP j) =? 0); [exact (simr_ok any n tt s g n (Nat.le_refl n) H A I)|].
    eapply (simr_bind any any); [apply (tw_release_data n s g); assumption|]. intros a s1 g1 N N1 C1 A1 _. apply (tw_slot0 n s1 g1 N); assumption.
Qed.
