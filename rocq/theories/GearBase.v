(** * GearBase: counting lemmas and the accounting invariant of the allocator (proofs). *)
From Verif Require Import Base Tag TagProofs Gear.
From Coq Require Import ZifyBool ZifyNat.
Ltac Zify.zify_post_hook ::= Z.div_mod_to_equations.

(** ** Finite sums *)
Fixpoint sumn (n : nat) (f : nat -> Z) : Z :=
  match n with O => 0 | S m => sumn m f + f m end.

Lemma sumn_ext n f g : (forall k, (k < n)%nat -> f k = g k) -> sumn n f = sumn n g.
Proof.
  induction n as [|n IH]; intros H; cbn [sumn]; [reflexivity|].
  rewrite IH, H by (intros; try apply H; lia). reflexivity.
Qed.

Lemma sumn_nonneg n f : (forall k, (k < n)%nat -> 0 <= f k) -> 0 <= sumn n f.
Proof.
  induction n as [|n IH]; intros H; cbn [sumn]; [lia|].
  assert (0 <= sumn n f) by (apply IH; intros; apply H; lia). specialize (H n). lia.
Qed.

Lemma sumn_le n f g : (forall k, (k < n)%nat -> f k <= g k) -> sumn n f <= sumn n g.
Proof.
  induction n as [|n IH]; intros H; cbn [sumn]; [lia|].
  assert (sumn n f <= sumn n g) by (apply IH; intros; apply H; lia). specialize (H n). lia.
Qed.

(** change of one summand *)
Lemma sumn_change n f g k :
  (k < n)%nat -> (forall i, (i < n)%nat -> i <> k -> g i = f i) ->
  sumn n g = sumn n f - f k + g k.
Proof.
  induction n as [|n IH]; intros Hk H; [lia|]. cbn [sumn].
  destruct (Nat.eq_dec k n) as [->|N].
  - rewrite (sumn_ext n g f); [lia|]. intros i Hi. apply H; lia.
  - rewrite IH by (try lia; intros; apply H; lia). rewrite (H n) by lia. lia.
Qed.

Lemma sumn_ge1 n f k : (k < n)%nat -> (forall i, (i < n)%nat -> 0 <= f i) -> f k <= sumn n f.
Proof.
  induction n as [|n IH]; intros Hk H; [lia|]. cbn [sumn].
  destruct (Nat.eq_dec k n) as [->|N].
  - assert (0 <= sumn n f) by (apply sumn_nonneg; intros; apply H; lia). lia.
  - assert (f k <= sumn n f) by (apply IH; [lia|intros; apply H; lia]).
    specialize (H n). lia.
Qed.

Lemma sumn_ge2 n f i k :
  (i < k < n)%nat -> (forall i, (i < n)%nat -> 0 <= f i) -> f i + f k <= sumn n f.
Proof.
  induction n as [|n IH]; intros Hk H; [lia|]. cbn [sumn].
  destruct (Nat.eq_dec k n) as [->|N].
  - assert (f i <= sumn n f) by (apply sumn_ge1; [lia|intros; apply H; lia]). lia.
  - assert (f i + f k <= sumn n f) by (apply IH; [lia|intros; apply H; lia]).
    specialize (H n). lia.
Qed.

Lemma sumn_zero n f : (forall k, (k < n)%nat -> f k = 0) -> sumn n f = 0.
Proof. intros H. induction n as [|n IH]; cbn [sumn]; [reflexivity|]. rewrite IH, H by auto; reflexivity. Qed.

Lemma sumn_split n f g : sumn n (fun k => f k + g k) = sumn n f + sumn n g.
Proof. induction n as [|n IH]; cbn [sumn]; [reflexivity|]. rewrite IH. lia. Qed.

Lemma sumn_pos n f : (forall k, (k < n)%nat -> 0 <= f k) -> 0 < sumn n f ->
  exists k, (k < n)%nat /\ 0 < f k.
Proof.
  induction n as [|n IH]; intros H P; cbn [sumn] in P; [lia|].
  destruct (Z.lt_ge_cases 0 (f n)) as [G|G]; [exists n; split; [lia|exact G]|].
  destruct IH as (k & Hk & Pk); [intros; apply H; lia|specialize (H n); lia|].
  exists k. split; [lia|exact Pk].
Qed.

(** ** Indicator of an interval *)
Definition ind (a l x : Z) : Z := Z.b2z ((a <=? x) && (x <? a + l)).

Lemma ind_range a l x : 0 <= ind a l x <= 1.
Proof. unfold ind. lia. Qed.
Lemma ind_0 a l x : l <= 0 -> ind a l x = 0.
Proof. unfold ind. lia. Qed.
Lemma ind_1 a l x : a <= x < a + l -> ind a l x = 1.
Proof. unfold ind. lia. Qed.
Lemma ind_1_inv a l x : 0 < ind a l x -> a <= x < a + l.
Proof. unfold ind. lia. Qed.
Lemma ind_split a l1 l2 x : 0 <= l1 -> 0 <= l2 -> ind a (l1 + l2) x = ind a l1 x + ind (a + l1) l2 x.
Proof. unfold ind. lia. Qed.

(** ** Entries *)
Definition ent_ok (e : ent) : Prop :=
  0 <= rel e < 65536 /\ 0 <= gid e < 65536 /\
  (is_hole e = true -> hunits e = 0 -> rel e = 0).

Lemma is_hole_arith e : is_hole e = (gid e / 2048 =? 31).
Proof. unfold is_hole. rewrite descriptor2genus_arith. reflexivity. Qed.
Lemma hunits_arith e : hunits e = gid e mod 2048.
Proof. unfold hunits. rewrite descriptor2id_arith. reflexivity. Qed.

Lemma make_hole16 u : 0 <= u <= 2047 -> u16 (make_hole u) = 63488 + u.
Proof.
  intros H. unfold make_hole, u16, u32, genus_shift. rewrite collection_threshold_val.
  change g_hole with 31. rewrite Z.shiftl_mul_pow2 by lia.
  change (2 ^ 11) with 2048. change (2 ^ 32) with 4294967296. change (2 ^ 16) with 65536. lia.
Qed.

Lemma hole_gid u : 0 <= u <= 2047 ->
  descriptor2genus (u16 (make_hole u)) = g_hole /\ descriptor2id (u16 (make_hole u)) = u.
Proof.
  intros H. rewrite make_hole16, descriptor2genus_arith, descriptor2id_arith by lia.
  change g_hole with 31. change (2 ^ 11) with 2048. split; lia.
Qed.

Lemma set_units_hole e u : 0 <= u <= 2047 ->
  is_hole (set_units e u) = true /\ hunits (set_units e u) = u /\ rel (set_units e u) = rel e /\
  0 <= gid (set_units e u) < 65536.
Proof.
  intros H. unfold is_hole, hunits, set_units; cbn [gid rel].
  destruct (hole_gid u H) as [A B]. rewrite A, B. rewrite make_hole16 by lia.
  split; [apply Z.eqb_refl|]. repeat split; lia.
Qed.

Lemma purged_hole : is_hole purged = true /\ hunits purged = 0 /\ rel purged = 0 /\
  0 <= gid purged < 65536.
Proof. vm_compute. repeat split; congruence. Qed.

Lemma hunits_range e : 0 <= hunits e <= 2047.
Proof. rewrite hunits_arith. lia. Qed.

Lemma hole_of_gid e u : 0 <= gid e < 65536 -> 0 <= u <= 2047 ->
  (gid e = u16 (make_hole u) <-> is_hole e = true /\ hunits e = u).
Proof.
  intros He Hu. rewrite make_hole16, is_hole_arith, hunits_arith by lia. lia.
Qed.

(** ** Accounting invariant with a discrepancy.
    [L] is the ghost length (in units) of the payload of each reference; [D], [T], [C], [V]
    say how far the cover, the total, the junk count and the junk volume are off. *)
Definition base (s : st) : Z := pivot s + pp s.
Definition len (s : st) (L : ref -> Z) (k : nat) : Z :=
  if is_hole (idx s k) then hunits (idx s k) else L (RL k).
Definition hcount (s : st) (k : nat) : Z := Z.b2z (is_hole (idx s k)).
Definition hvol (s : st) (k : nat) : Z := if is_hole (idx s k) then hunits (idx s k) else 0.
Definition cov (s : st) (L : ref -> Z) (x : Z) : Z :=
  sumn (cnt s) (fun k => ind (addr s k) (len s L k) x) +
  sumn (nslots s) (fun j => ind (raddr s (RP j)) (L (RP j)) x).
Definition total (s : st) (L : ref -> Z) : Z :=
  sumn (cnt s) (len s L) + sumn (nslots s) (fun j => L (RP j)).

(** configuration of the tuple *)
Record cfg_ok (s : st) : Prop := {
  c_cnt : Z.of_nat (cnt s) <= pivot s;
  c_pp : 0 <= pp s;
  c_tail : base s <= tail s <= end_ s;
  c_end : end_ s <= 65534;
  c_soff : forall j, (j < nslots s)%nat -> 0 <= soff s j < pp s
}.

Record InvD (s : st) (L : ref -> Z) (D : Z -> Z) (T C V : Z) : Prop := {
  i_cfg : cfg_ok s;
  i_cov : forall x, cov s L x = ind (base s) (tail s - base s) x + D x;
  i_len : forall r, 0 <= L r;
  i_tot : total s L = tail s - base s + T;
  i_jc : sumn (cnt s) (hcount s) = jc s + C;
  i_jv : sumn (cnt s) (hvol s) = jv s + V;
  i_ent : forall k, (k < cnt s)%nat -> ent_ok (idx s k);
  i_pre : forall j, (j < nslots s)%nat -> 0 <= pre s j < 65536;
  i_jcr : 0 <= jc s < 65536;
  i_jvr : 0 <= jv s <= 65535
}.

Definition zero_d : Z -> Z := fun _ => 0.
Definition Inv0 (s : st) (L : ref -> Z) : Prop := InvD s L zero_d 0 0 0.

Lemma InvD_eq s L D D' T T' C C' V V' :
  InvD s L D T C V -> (forall x, D x = D' x) -> T = T' -> C = C' -> V = V' ->
  InvD s L D' T' C' V'.
Proof.
  intros [] HD -> -> ->. constructor; auto. intros x. rewrite <- HD. auto.
Qed.

(** ghost update *)
Definition Lset (L : ref -> Z) (r : ref) (v : Z) : ref -> Z := fun r' =>
  match r, r' with
  | RL a, RL b => if Nat.eqb b a then v else L r'
  | RP a, RP b => if Nat.eqb b a then v else L r'
  | _, _ => L r'
  end.
Lemma Lset_same L r v : Lset L r v r = v.
Proof. destruct r; cbn; rewrite Nat.eqb_refl; reflexivity. Qed.
Lemma Lset_other L r r' v : r' <> r -> Lset L r v r' = L r'.
Proof.
  destruct r, r'; cbn; intros H; try reflexivity;
    destruct (Nat.eqb_spec k0 k) || destruct (Nat.eqb_spec j0 j); congruence.
Qed.
Lemma ref_eq_dec (a b : ref) : {a = b} + {a <> b}.
Proof. decide equality; apply Nat.eq_dec. Qed.

Lemma fupd_same {A} (f : nat -> A) k v : fupd f k v k = v.
Proof. unfold fupd. rewrite Nat.eqb_refl. reflexivity. Qed.
Lemma fupd_other {A} (f : nat -> A) k v i : i <> k -> fupd f k v i = f i.
Proof. unfold fupd. intros H. destruct (Nat.eqb_spec i k); congruence. Qed.

Lemma len_nonneg s L k : (forall r, 0 <= L r) -> 0 <= len s L k.
Proof. intros H. unfold len. destruct (is_hole _); [pose proof (hunits_range (idx s k)); lia|apply H]. Qed.

(** ** Primitive steps *)
Section Steps.
  Variables (s : st) (L : ref -> Z) (D : Z -> Z) (T C V : Z).
  Hypothesis H : InvD s L D T C V.

  (** rewriting one entry (and the ghost length of that entry) *)
  Lemma P_set k e L' :
    (k < cnt s)%nat -> ent_ok e -> 0 <= L' (RL k) -> (forall r, r <> RL k -> L' r = L r) ->
    let l0 := len s L k in
    let l1 := if is_hole e then hunits e else L' (RL k) in
    InvD (set_ent s k e) L'
      (fun x => D x - ind (addr s k) l0 x + ind (own s k + rel e) l1 x)
      (T - l0 + l1)
      (C - hcount s k + Z.b2z (is_hole e))
      (V - hvol s k + (if is_hole e then hunits e else 0)).
  Proof.
    intros Hk He HLk HL l0 l1. destruct H as [Hc Hcov Hlen Htot Hjc Hjv Hent Hpre Hjcr Hjvr].
    assert (HP : forall j, L' (RP j) = L (RP j)) by (intros; apply HL; discriminate).
    set (s' := set_ent s k e).
    assert (Es : idx s' k = e) by (apply fupd_same).
    assert (Eo : forall i, i <> k -> idx s' i = idx s i)
      by (intros; apply fupd_other; assumption).
    assert (El : forall i, i <> k -> len s' L' i = len s L i).
    { intros i N. unfold len. rewrite Eo by assumption. rewrite HL by congruence. reflexivity. }
    assert (Elk : len s' L' k = l1) by (unfold len; rewrite Es; reflexivity).
    constructor.
    - destruct Hc. constructor; auto.
    - intros x. unfold cov. change (cnt s') with (cnt s). change (nslots s') with (nslots s).
      rewrite (sumn_change (cnt s) (fun k => ind (addr s k) (len s L k) x)
                 (fun k => ind (addr s' k) (len s' L' k) x) k Hk).
      + specialize (Hcov x). unfold cov in Hcov. cbn beta. fold l0. rewrite Elk.
        replace (addr s' k) with (own s k + rel e) by (unfold addr; rewrite Es; reflexivity).
        rewrite (sumn_ext (nslots s) (fun j => ind (raddr s' (RP j)) (L' (RP j)) x)
                   (fun j => ind (raddr s (RP j)) (L (RP j)) x))
          by (intros j _; rewrite HP; reflexivity).
        change (base s') with (base s). change (tail s') with (tail s). lia.
      + intros i Hi N. rewrite El by assumption. unfold addr. rewrite Eo by assumption. reflexivity.
    - intros r. destruct (ref_eq_dec r (RL k)) as [->|N]; [assumption|rewrite HL by assumption; apply Hlen].
    - unfold total in *. change (cnt s') with (cnt s). change (nslots s') with (nslots s).
      rewrite (sumn_change (cnt s) (len s L) (len s' L') k Hk) by (intros; apply El; assumption).
      rewrite Elk. fold l0.
      rewrite (sumn_ext (nslots s) (fun j => L' (RP j)) (fun j => L (RP j))) by (intros; apply HP).
      change (base s') with (base s). change (tail s') with (tail s). lia.
    - change (cnt s') with (cnt s). change (jc s') with (jc s).
      rewrite (sumn_change (cnt s) (hcount s) (hcount s') k Hk)
        by (intros i Hi N; unfold hcount; rewrite Eo by assumption; reflexivity).
      replace (hcount s' k) with (Z.b2z (is_hole e)) by (unfold hcount; rewrite Es; reflexivity). lia.
    - change (cnt s') with (cnt s). change (jv s') with (jv s).
      rewrite (sumn_change (cnt s) (hvol s) (hvol s') k Hk)
        by (intros i Hi N; unfold hvol; rewrite Eo by assumption; reflexivity).
      replace (hvol s' k) with (if is_hole e then hunits e else 0)
        by (unfold hvol; rewrite Es; reflexivity). lia.
    - intros i Hi. destruct (Nat.eq_dec i k) as [->|N]; [rewrite Es; assumption|].
      rewrite Eo by assumption. apply Hent; assumption.
    - exact Hpre.
    - exact Hjcr.
    - exact Hjvr.
  Qed.

  (** changing the reference of a preplaced slot *)
  Lemma P_slot j v L' :
    (j < nslots s)%nat -> 0 <= v < 65536 -> 0 <= L' (RP j) -> (forall r, r <> RP j -> L' r = L r) ->
    InvD (set_rrel s (RP j) v) L'
      (fun x => D x - ind (raddr s (RP j)) (L (RP j)) x + ind (rown s (RP j) + v) (L' (RP j)) x)
      (T - L (RP j) + L' (RP j)) C V.
  Proof.
    intros Hj Hv HLj HL. destruct H as [Hc Hcov Hlen Htot Hjc Hjv Hent Hpre Hjcr Hjvr].
    assert (HK : forall k, L' (RL k) = L (RL k)) by (intros; apply HL; discriminate).
    set (s' := set_rrel s (RP j) v).
    assert (Es : pre s' j = v) by (apply fupd_same).
    assert (Eo : forall i, i <> j -> pre s' i = pre s i)
      by (intros; apply fupd_other; assumption).
    constructor.
    - destruct Hc. constructor; auto.
    - intros x. unfold cov. change (cnt s') with (cnt s). change (nslots s') with (nslots s).
      rewrite (sumn_change (nslots s) (fun j => ind (raddr s (RP j)) (L (RP j)) x)
                 (fun j => ind (raddr s' (RP j)) (L' (RP j)) x) j Hj).
      + specialize (Hcov x). unfold cov in Hcov. cbn beta.
        replace (raddr s' (RP j)) with (rown s (RP j) + v)
          by (unfold raddr; cbn [rrel]; rewrite Es; reflexivity).
        rewrite (sumn_ext (cnt s) (fun k => ind (addr s' k) (len s' L' k) x)
                   (fun k => ind (addr s k) (len s L k) x))
          by (intros k _; unfold len; rewrite HK; reflexivity).
        change (base s') with (base s). change (tail s') with (tail s). lia.
      + intros i Hi N. rewrite HL by congruence. unfold raddr. cbn [rrel].
        rewrite Eo by assumption. reflexivity.
    - intros r. destruct (ref_eq_dec r (RP j)) as [->|N]; [assumption|rewrite HL by assumption; apply Hlen].
    - unfold total in *. change (cnt s') with (cnt s). change (nslots s') with (nslots s).
      rewrite (sumn_change (nslots s) (fun j => L (RP j)) (fun j => L' (RP j)) j Hj)
        by (intros; apply HL; congruence).
      rewrite (sumn_ext (cnt s) (len s' L') (len s L))
          by (intros k _; unfold len; rewrite HK; reflexivity).
      change (base s') with (base s). change (tail s') with (tail s). lia.
    - exact Hjc.
    - exact Hjv.
    - exact Hent.
    - intros i Hi. 
      destruct (Nat.eq_dec i j) as [->|N]; [rewrite Es; assumption|].
      rewrite Eo by assumption. apply Hpre; assumption.
    - exact Hjcr.
    - exact Hjvr.
  Qed.

  (** ghost-only change of the length of a live reference *)
  Lemma P_ghost r L' :
    match r with RL k => (k < cnt s)%nat /\ is_hole (idx s k) = false | RP j => (j < nslots s)%nat end ->
    0 <= L' r -> (forall r', r' <> r -> L' r' = L r') ->
    InvD s L' (fun x => D x - ind (raddr s r) (L r) x + ind (raddr s r) (L' r) x)
      (T - L r + L' r) C V.
  Proof.
    intros Hr HLr HL. destruct H as [Hc Hcov Hlen Htot Hjc Hjv Hent Hpre Hjcr Hjvr].
    constructor; auto.
    - intros x. specialize (Hcov x). unfold cov in *. destruct r as [k|j].
      + destruct Hr as [Hk Hh].
        rewrite (sumn_change (cnt s) (fun k => ind (addr s k) (len s L k) x)
                 (fun k0 => ind (addr s k0) (len s L' k0) x) k Hk).
        * rewrite (sumn_ext (nslots s) (fun j => ind (raddr s (RP j)) (L' (RP j)) x)
                     (fun j => ind (raddr s (RP j)) (L (RP j)) x))
            by (intros j _; rewrite HL by discriminate; reflexivity).
          unfold len at 2 3. rewrite Hh. change (raddr s (RL k)) with (addr s k). lia.
        * intros i Hi N. unfold len. rewrite HL by congruence. reflexivity.
      + rewrite (sumn_change (nslots s) (fun j => ind (raddr s (RP j)) (L (RP j)) x)
                 (fun j0 => ind (raddr s (RP j0)) (L' (RP j0)) x) j Hr).
        * rewrite (sumn_ext (cnt s) (fun k => ind (addr s k) (len s L' k) x)
                     (fun k => ind (addr s k) (len s L k) x))
            by (intros k _; unfold len; rewrite HL by discriminate; reflexivity).
          lia.
        * intros i Hi N. rewrite HL by congruence. reflexivity.
    - intros r'. destruct (ref_eq_dec r' r) as [->|N]; [assumption|rewrite HL by assumption; apply Hlen].
    - unfold total in *. destruct r as [k|j].
      + destruct Hr as [Hk Hh].
        rewrite (sumn_change (cnt s) (len s L) (len s L') k Hk).
        * rewrite (sumn_ext (nslots s) (fun j => L' (RP j)) (fun j => L (RP j)))
            by (intros j _; rewrite HL by discriminate; reflexivity).
          unfold len at 2 3. rewrite Hh. lia.
        * intros i Hi N. unfold len. rewrite HL by congruence. reflexivity.
      + rewrite (sumn_change (nslots s) (fun j => L (RP j)) (fun j => L' (RP j)) j Hr)
          by (intros; apply HL; congruence).
        rewrite (sumn_ext (cnt s) (len s L') (len s L))
            by (intros k _; unfold len; rewrite HL by discriminate; reflexivity).
        lia.
  Qed.

  (** moving the tail *)
  Lemma P_tail t :
    base s <= t <= end_ s ->
    InvD (with_tail s t) L
      (fun x => D x + ind (base s) (tail s - base s) x - ind (base s) (t - base s) x)
      (T + tail s - t) C V.
  Proof.
    intros Ht. destruct H as [Hc Hcov Hlen Htot Hjc Hjv Hent Hpre Hjcr Hjvr].
    constructor; auto.
    - destruct Hc. constructor; auto.
    - intros x. specialize (Hcov x). change (cov (with_tail s t) L x) with (cov s L x).
      change (base (with_tail s t)) with (base s). change (tail (with_tail s t)) with t. lia.
    - change (total (with_tail s t) L) with (total s L). 
      change (base (with_tail s t)) with (base s). change (tail (with_tail s t)) with t. lia.
  Qed.

  Lemma P_jc v : 0 <= v < 65536 -> InvD (with_jc s v) L D T (C + jc s - v) V.
  Proof.
    intros Hv. assert (Eu : u16 v = v) by (unfold u16; lia).
    destruct H as [Hc Hcov Hlen Htot Hjc Hjv Hent Hpre Hjcr Hjvr].
    constructor; auto.
    - destruct Hc. constructor; auto.
    - change (sumn (cnt (with_jc s v)) (hcount (with_jc s v))) with (sumn (cnt s) (hcount s)).
      change (jc (with_jc s v)) with (u16 v). rewrite Eu. lia.
    - change (jc (with_jc s v)) with (u16 v). rewrite Eu. lia.
  Qed.

  Lemma P_jv v : 0 <= v <= 65535 -> InvD (with_jv s v) L D T C (V + jv s - v).
  Proof.
    intros Hv. assert (Eu : u16 v = v) by (unfold u16; lia).
    destruct H as [Hc Hcov Hlen Htot Hjc Hjv Hent Hpre Hjcr Hjvr].
    constructor; auto.
    - destruct Hc. constructor; auto.
    - change (sumn (cnt (with_jv s v)) (hvol (with_jv s v))) with (sumn (cnt s) (hvol s)).
      change (jv (with_jv s v)) with (u16 v). rewrite Eu. lia.
    - change (jv (with_jv s v)) with (u16 v). rewrite Eu. lia.
  Qed.

  (** dropping the first entry of the index *)
  Lemma P_drop m :
    cnt s = S m ->
    InvD (with_cnt s m) L
      (fun x => D x - ind (addr s m) (len s L m) x)
      (T - len s L m) (C - hcount s m) (V - hvol s m).
  Proof.
    intros Hm. destruct H as [Hc Hcov Hlen Htot Hjc Hjv Hent Hpre Hjcr Hjvr].
    rewrite Hm in Hjc, Hjv. cbn [sumn] in Hjc, Hjv.
    unfold total in Htot. rewrite Hm in Htot. cbn [sumn] in Htot.
    constructor; auto.
    - destruct Hc. constructor; auto. cbn. lia.
    - intros x. specialize (Hcov x). unfold cov in *. rewrite Hm in Hcov. cbn [sumn] in Hcov.
      cbn [with_cnt cnt nslots].
      change (base (with_cnt s m)) with (base s). change (tail (with_cnt s m)) with (tail s).
      change (fun k => ind (addr (with_cnt s m) k) (len (with_cnt s m) L k) x)
        with (fun k => ind (addr s k) (len s L k) x).
      change (fun j => ind (raddr (with_cnt s m) (RP j)) (L (RP j)) x)
        with (fun j => ind (raddr s (RP j)) (L (RP j)) x). lia.
    - unfold total. cbn [with_cnt cnt nslots].
      change (len (with_cnt s m) L) with (len s L).
      change (base (with_cnt s m)) with (base s). change (tail (with_cnt s m)) with (tail s). lia.
    - change (hcount (with_cnt s m)) with (hcount s). cbn [with_cnt cnt jc]. lia.
    - change (hvol (with_cnt s m)) with (hvol s). cbn [with_cnt cnt jv]. lia.
    - intros k Hk. cbn [with_cnt cnt idx] in *. apply Hent. lia.
  Qed.

  (** growing the index by one entry and filling it *)
  Lemma P_grow e L' :
    Z.of_nat (cnt s) < pivot s -> ent_ok e -> 0 <= L' (RL (cnt s)) ->
    (forall r, r <> RL (cnt s) -> L' r = L r) ->
    let l1 := if is_hole e then hunits e else L' (RL (cnt s)) in
    InvD (set_ent (with_cnt s (S (cnt s))) (cnt s) e) L'
      (fun x => D x + ind (own s (cnt s) + rel e) l1 x)
      (T + l1) (C + Z.b2z (is_hole e)) (V + (if is_hole e then hunits e else 0)).
  Proof.
    intros Hp He HLk HL l1. destruct H as [Hc Hcov Hlen Htot Hjc Hjv Hent Hpre Hjcr Hjvr].
    assert (HP : forall j, L' (RP j) = L (RP j)) by (intros; apply HL; discriminate).
    set (s' := set_ent (with_cnt s (S (cnt s))) (cnt s) e).
    assert (Ec : cnt s' = S (cnt s)) by reflexivity.
    assert (Es : idx s' (cnt s) = e) by (apply fupd_same).
    assert (Eo : forall i, (i < cnt s)%nat -> idx s' i = idx s i)
      by (intros; apply fupd_other; lia).
    constructor.
    - destruct Hc. constructor; auto. rewrite Ec. cbn. lia.
    - intros x. specialize (Hcov x). unfold cov in *. rewrite Ec. cbn [sumn].
      change (nslots s') with (nslots s).
      rewrite (sumn_ext (cnt s) (fun k => ind (addr s' k) (len s' L' k) x)
                 (fun k => ind (addr s k) (len s L k) x)).
      2:{ intros k Hk. unfold addr, len, own. rewrite Eo by assumption.
          rewrite HL by (intros E; injection E; lia). reflexivity. }
      rewrite (sumn_ext (nslots s) (fun j => ind (raddr s' (RP j)) (L' (RP j)) x)
                 (fun j => ind (raddr s (RP j)) (L (RP j)) x))
        by (intros j _; rewrite HP; reflexivity).
      unfold addr at 2, len at 2. rewrite Es. fold l1.
      change (own s' (cnt s)) with (own s (cnt s)).
      change (base s') with (base s). change (tail s') with (tail s). lia.
    - intros r. destruct (ref_eq_dec r (RL (cnt s))) as [->|N]; [assumption|rewrite HL by assumption; apply Hlen].
    - unfold total in *. rewrite Ec. cbn [sumn]. change (nslots s') with (nslots s).
      rewrite (sumn_ext (cnt s) (len s' L') (len s L)).
      2:{ intros k Hk. unfold len. rewrite Eo by assumption.
          rewrite HL by (intros E; injection E; lia). reflexivity. }
      rewrite (sumn_ext (nslots s) (fun j => L' (RP j)) (fun j => L (RP j))) by (intros; apply HP).
      unfold len at 2. rewrite Es. fold l1.
      change (base s') with (base s). change (tail s') with (tail s). lia.
    - rewrite Ec. cbn [sumn]. rewrite (sumn_ext (cnt s) (hcount s') (hcount s))
        by (intros k Hk; unfold hcount; rewrite Eo by assumption; reflexivity).
      unfold hcount at 2. rewrite Es. change (jc s') with (jc s). lia.
    - rewrite Ec. cbn [sumn]. rewrite (sumn_ext (cnt s) (hvol s') (hvol s))
        by (intros k Hk; unfold hvol; rewrite Eo by assumption; reflexivity).
      unfold hvol at 2. rewrite Es. change (jv s') with (jv s). lia.
    - intros k Hk. rewrite Ec in Hk. destruct (Nat.eq_dec k (cnt s)) as [->|N].
      + rewrite Es. assumption.
      + rewrite Eo by lia. apply Hent. lia.
    - exact Hpre.
    - exact Hjcr.
    - exact Hjvr.
  Qed.
End Steps.

(** ** Consequences of the cover *)
Definition live (s : st) (r : ref) : Prop :=
  match r with
  | RL k => (k < cnt s)%nat /\ is_hole (idx s k) = false
  | RP j => (j < nslots s)%nat
  end.
(** a hole that owns payload units *)
Definition nzh (s : st) (k : nat) : Prop :=
  (k < cnt s)%nat /\ is_hole (idx s k) = true /\ 0 < hunits (idx s k).

Section Cover.
  Variables (s : st) (L : ref -> Z).
  Hypothesis H : Inv0 s L.

  Lemma cov_le1 x : cov s L x <= 1.
  Proof. rewrite (i_cov _ _ _ _ _ _ H). unfold zero_d. pose proof (ind_range (base s) (tail s - base s) x). lia. Qed.

  Lemma ind_nn k x : 0 <= ind (addr s k) (len s L k) x.
  Proof. apply ind_range. Qed.

  Lemma entry_bounds k :
    (k < cnt s)%nat -> 0 < len s L k ->
    base s <= addr s k /\ addr s k + len s L k <= tail s.
  Proof.
    intros Hk Hl.
    assert (E : forall x, addr s k <= x < addr s k + len s L k -> base s <= x < tail s).
    { intros x Hx. pose proof (i_cov _ _ _ _ _ _ H x) as Hc. unfold cov, zero_d in Hc.
      pose proof (sumn_ge1 (cnt s) (fun k => ind (addr s k) (len s L k) x) k Hk
                    (fun i _ => proj1 (ind_range _ _ _))) as G. cbn beta in G.
      rewrite ind_1 in G by lia.
      pose proof (sumn_nonneg (nslots s) (fun j => ind (raddr s (RP j)) (L (RP j)) x)
                    (fun i _ => proj1 (ind_range _ _ _))).
      assert (P : 0 < ind (base s) (tail s - base s) x) by lia.
      apply ind_1_inv in P. lia. }
    pose proof (E (addr s k)). pose proof (E (addr s k + len s L k - 1)). lia.
  Qed.

  Lemma slot_bounds j :
    (j < nslots s)%nat -> 0 < L (RP j) ->
    base s <= raddr s (RP j) /\ raddr s (RP j) + L (RP j) <= tail s.
  Proof.
    intros Hk Hl.
    assert (E : forall x, raddr s (RP j) <= x < raddr s (RP j) + L (RP j) -> base s <= x < tail s).
    { intros x Hx. pose proof (i_cov _ _ _ _ _ _ H x) as Hc. unfold cov, zero_d in Hc.
      pose proof (sumn_ge1 (nslots s) (fun j => ind (raddr s (RP j)) (L (RP j)) x) j Hk
                    (fun i _ => proj1 (ind_range _ _ _))) as G. cbn beta in G.
      rewrite ind_1 in G by lia.
      pose proof (sumn_nonneg (cnt s) (fun k => ind (addr s k) (len s L k) x)
                    (fun i _ => proj1 (ind_range _ _ _))).
      assert (P : 0 < ind (base s) (tail s - base s) x) by lia.
      apply ind_1_inv in P. lia. }
    pose proof (E (raddr s (RP j))). pose proof (E (raddr s (RP j) + L (RP j) - 1)). lia.
  Qed.

  Lemma entries_disjoint i k x :
    (i < cnt s)%nat -> (k < cnt s)%nat -> i <> k ->
    addr s i <= x < addr s i + len s L i -> addr s k <= x < addr s k + len s L k -> False.
  Proof.
    intros Hi Hk N Xi Xk.
    pose proof (cov_le1 x) as Hc. unfold cov in Hc.
    pose proof (sumn_nonneg (nslots s) (fun j => ind (raddr s (RP j)) (L (RP j)) x)
                  (fun i _ => proj1 (ind_range _ _ _))).
    assert (G : 2 <= sumn (cnt s) (fun k => ind (addr s k) (len s L k) x)).
    { destruct (Nat.lt_ge_cases i k) as [Lt|Ge].
      - pose proof (sumn_ge2 (cnt s) (fun k => ind (addr s k) (len s L k) x) i k
                      (conj Lt Hk) (fun i _ => proj1 (ind_range _ _ _))) as G. cbn beta in G.
        rewrite !ind_1 in G by lia. lia.
      - pose proof (sumn_ge2 (cnt s) (fun k => ind (addr s k) (len s L k) x) k i
                      ltac:(lia) (fun i _ => proj1 (ind_range _ _ _))) as G. cbn beta in G.
        rewrite !ind_1 in G by lia. lia. }
    lia.
  Qed.

  Lemma slots_disjoint i k x :
    (i < nslots s)%nat -> (k < nslots s)%nat -> i <> k ->
    raddr s (RP i) <= x < raddr s (RP i) + L (RP i) ->
    raddr s (RP k) <= x < raddr s (RP k) + L (RP k) -> False.
  Proof.
    intros Hi Hk N Xi Xk.
    pose proof (cov_le1 x) as Hc. unfold cov in Hc.
    pose proof (sumn_nonneg (cnt s) (fun k => ind (addr s k) (len s L k) x)
                  (fun i _ => proj1 (ind_range _ _ _))).
    assert (G : 2 <= sumn (nslots s) (fun j => ind (raddr s (RP j)) (L (RP j)) x)).
    { destruct (Nat.lt_ge_cases i k) as [Lt|Ge].
      - pose proof (sumn_ge2 (nslots s) (fun j => ind (raddr s (RP j)) (L (RP j)) x) i k
                      (conj Lt Hk) (fun i _ => proj1 (ind_range _ _ _))) as G. cbn beta in G.
        rewrite !ind_1 in G by lia. lia.
      - pose proof (sumn_ge2 (nslots s) (fun j => ind (raddr s (RP j)) (L (RP j)) x) k i
                      ltac:(lia) (fun i _ => proj1 (ind_range _ _ _))) as G. cbn beta in G.
        rewrite !ind_1 in G by lia. lia. }
    lia.
  Qed.

  Lemma entry_slot_disjoint k j x :
    (k < cnt s)%nat -> (j < nslots s)%nat ->
    addr s k <= x < addr s k + len s L k ->
    raddr s (RP j) <= x < raddr s (RP j) + L (RP j) -> False.
  Proof.
    intros Hk Hj Xk Xj.
    pose proof (cov_le1 x) as Hc. unfold cov in Hc.
    pose proof (sumn_ge1 (cnt s) (fun k => ind (addr s k) (len s L k) x) k Hk
                  (fun i _ => proj1 (ind_range _ _ _))) as G. cbn beta in G.
    pose proof (sumn_ge1 (nslots s) (fun j => ind (raddr s (RP j)) (L (RP j)) x) j Hj
                  (fun i _ => proj1 (ind_range _ _ _))) as G2. cbn beta in G2.
    rewrite ind_1 in G, G2 by lia. lia.
  Qed.

  Lemma live_len r : live s r -> match r with RL k => len s L k = L r | RP _ => True end.
  Proof. destruct r as [k|j]; cbn; [intros [_ E]; unfold len; rewrite E; reflexivity|auto]. Qed.

  Lemma live_bounds r : live s r -> 0 < L r ->
    base s <= raddr s r /\ raddr s r + L r <= tail s.
  Proof.
    intros Hr Hl. pose proof (live_len r Hr) as E. destruct r as [k|j].
    - rewrite <- E in *. apply entry_bounds; [apply Hr|assumption].
    - apply slot_bounds; [apply Hr|assumption].
  Qed.

  Lemma live_disjoint r1 r2 x : live s r1 -> live s r2 -> r1 <> r2 ->
    raddr s r1 <= x < raddr s r1 + L r1 -> raddr s r2 <= x < raddr s r2 + L r2 -> False.
  Proof.
    intros H1 H2 N X1 X2.
    pose proof (live_len r1 H1) as E1. pose proof (live_len r2 H2) as E2.
    destruct r1 as [k1|j1], r2 as [k2|j2].
    - apply (entries_disjoint k1 k2 x); [apply H1|apply H2|congruence|rewrite E1; exact X1|rewrite E2; exact X2].
    - apply (entry_slot_disjoint k1 j2 x); [apply H1|apply H2|rewrite E1; exact X1|exact X2].
    - apply (entry_slot_disjoint k2 j1 x); [apply H2|apply H1|rewrite E2; exact X2|exact X1].
    - apply (slots_disjoint j1 j2 x); [apply H1|apply H2|congruence|exact X1|exact X2].
  Qed.

  Lemma hole_len k : is_hole (idx s k) = true -> len s L k = hunits (idx s k).
  Proof. intros E. unfold len. rewrite E. reflexivity. Qed.

  Lemma nzh_bounds k : nzh s k -> base s <= hole_begin s k /\ hole_end s k <= tail s.
  Proof.
    intros (Hk & Hh & Hu). pose proof (hole_len k Hh) as E.
    unfold hole_begin, hole_end. rewrite <- E in *. apply entry_bounds; assumption.
  Qed.

  Lemma nzh_disjoint i k x : nzh s i -> nzh s k -> i <> k ->
    hole_begin s i <= x < hole_end s i -> hole_begin s k <= x < hole_end s k -> False.
  Proof.
    intros (Hi & Hhi & Hui) (Hk & Hhk & Huk) N Xi Xk. unfold hole_begin, hole_end in *.
    apply (entries_disjoint i k x Hi Hk N); rewrite hole_len by assumption; assumption.
  Qed.

  Lemma nzh_live_disjoint k r x : nzh s k -> live s r ->
    hole_begin s k <= x < hole_end s k -> raddr s r <= x < raddr s r + L r -> False.
  Proof.
    intros (Hk & Hhk & Huk) Hr Xk Xr. unfold hole_begin, hole_end in *.
    rewrite <- (hole_len k Hhk) in Xk.
    pose proof (live_len r Hr) as E. destruct r as [i|j].
    - apply (entries_disjoint k i x Hk (proj1 Hr)); [|exact Xk|rewrite E; exact Xr].
      intros ->. destruct Hr. congruence.
    - apply (entry_slot_disjoint k j x Hk Hr Xk Xr).
  Qed.

  (** counters are within range *)
  Lemma jv_bound : jv s <= tail s - base s.
  Proof.
    pose proof (i_jv _ _ _ _ _ _ H). pose proof (i_tot _ _ _ _ _ _ H) as T. unfold total in T.
    pose proof (i_len _ _ _ _ _ _ H) as HL.
    pose proof (sumn_nonneg (nslots s) (fun j => L (RP j)) (fun j _ => HL (RP j))).
    assert (sumn (cnt s) (hvol s) <= sumn (cnt s) (len s L)).
    { apply sumn_le. intros k _. unfold hvol, len. destruct (is_hole _); [lia|apply HL]. }
    lia.
  Qed.
  Lemma jv_live_bound r : live s r -> jv s + L r <= tail s - base s.
  Proof.
    intros Hr. pose proof (i_jv _ _ _ _ _ _ H). pose proof (i_tot _ _ _ _ _ _ H) as T. unfold total in T.
    pose proof (i_len _ _ _ _ _ _ H) as HL.
    pose proof (sumn_nonneg (nslots s) (fun j => L (RP j)) (fun j _ => HL (RP j))).
    set (rest := fun k => if is_hole (idx s k) then 0 else L (RL k)).
    assert (E : sumn (cnt s) (len s L) = sumn (cnt s) (hvol s) + sumn (cnt s) rest).
    { rewrite <- sumn_split. apply sumn_ext. intros k _. unfold len, hvol, rest.
      destruct (is_hole _); lia. }
    assert (P : forall i, (i < cnt s)%nat -> 0 <= rest i).
    { intros i _. unfold rest. destruct (is_hole _); [lia|apply HL]. }
    pose proof (sumn_nonneg (cnt s) rest P).
    destruct r as [k|j].
    - destruct Hr as [Kk Hk]. pose proof (sumn_ge1 (cnt s) rest k Kk P) as G.
      unfold rest at 1 in G. rewrite Hk in G. lia.
    - pose proof (sumn_ge1 (nslots s) (fun j => L (RP j)) j Hr (fun j _ => HL (RP j))) as G.
      cbn beta in G. lia.
  Qed.
  Lemma jc_bound : jc s <= Z.of_nat (cnt s).
  Proof.
    pose proof (i_jc _ _ _ _ _ _ H).
    assert (G : forall n, sumn n (hcount s) <= Z.of_nat n).
    { induction n as [|n IH]; cbn [sumn]; [lia|]. unfold hcount at 2. lia. }
    specialize (G (cnt s)). lia.
  Qed.
  Lemma hvol_nonneg i : 0 <= hvol s i.
  Proof. unfold hvol. pose proof (hunits_range (idx s i)). destruct (is_hole (idx s i)); lia. Qed.
  Lemma hunits_le_jv k : nzh s k -> hunits (idx s k) <= jv s.
  Proof.
    intros (Hk & Hh & Hu). pose proof (i_jv _ _ _ _ _ _ H) as E.
    pose proof (sumn_ge1 (cnt s) (hvol s) k Hk (fun i _ => hvol_nonneg i)) as G.
    replace (hvol s k) with (hunits (idx s k)) in G by (unfold hvol; rewrite Hh; reflexivity).
    lia.
  Qed.
  Lemma hunits2_le_jv i k : nzh s i -> nzh s k -> i <> k ->
    hunits (idx s i) + hunits (idx s k) <= jv s.
  Proof.
    intros (Hi & Hhi & _) (Hk & Hhk & _) N. pose proof (i_jv _ _ _ _ _ _ H) as E.
    assert (Ei : hvol s i = hunits (idx s i)) by (unfold hvol; rewrite Hhi; reflexivity).
    assert (Ek : hvol s k = hunits (idx s k)) by (unfold hvol; rewrite Hhk; reflexivity).
    destruct (Nat.lt_trichotomy i k) as [G|[G|G]]; [|congruence|].
    - pose proof (sumn_ge2 (cnt s) (hvol s) i k ltac:(lia) (fun i _ => hvol_nonneg i)). lia.
    - pose proof (sumn_ge2 (cnt s) (hvol s) k i ltac:(lia) (fun i _ => hvol_nonneg i)). lia.
  Qed.
  Lemma jc_pos k : (k < cnt s)%nat -> is_hole (idx s k) = true -> 1 <= jc s.
  Proof.
    intros Hk Hh. pose proof (i_jc _ _ _ _ _ _ H) as E.
    pose proof (sumn_ge1 (cnt s) (hcount s) k Hk) as G.
    assert (A : forall i, (i < cnt s)%nat -> 0 <= hcount s i) by (intros; unfold hcount; lia).
    specialize (G A). unfold hcount at 1 in G. rewrite Hh in G. cbn in G. lia.
  Qed.
End Cover.
