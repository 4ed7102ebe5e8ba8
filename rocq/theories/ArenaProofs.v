(** * ArenaProofs *)
From Verif Require Import Base Arena.
From Coq Require Import ZifyBool ZifyNat.
Ltac Zify.zify_post_hook ::= Z.div_mod_to_equations.

Lemma land_high_mask k x : 0 <= k <= 64 -> 0 <= x < 2 ^ 64 -> Z.land x (2 ^ 64 - 2 ^ k) = x / 2 ^ k * 2 ^ k.
Proof.
  intros Hk Hx. apply Z.bits_inj'. intros i Hi.
  rewrite Z.land_spec. rewrite <- (Z.shiftl_mul_pow2 (x / 2 ^ k)), Z.shiftl_spec by lia.
  replace (2 ^ 64 - 2 ^ k) with (Z.shiftl (Z.ones (64 - k)) k).
  2:{ rewrite Z.shiftl_mul_pow2, Z.ones_equiv by lia.
      replace (2 ^ 64) with (2 ^ (64 - k) * 2 ^ k) by (rewrite <- Z.pow_add_r by lia; f_equal; lia). lia. }
  rewrite Z.shiftl_spec by lia.
  destruct (Z_lt_ge_dec i k) as [L|G].
  - rewrite !(Z.testbit_neg_r _ (i - k)) by lia. apply Bool.andb_false_r.
  - rewrite <- Z.shiftr_div_pow2, Z.shiftr_spec by lia. replace (i - k + k) with i by lia.
    destruct (Z_lt_ge_dec i 64) as [L2|G2].
    + rewrite Z.ones_spec_low by lia. apply Bool.andb_true_r.
    + rewrite Z.ones_spec_high by lia. rewrite Bool.andb_false_r.
      rewrite <- (Z.mod_small x (2 ^ 64)) by lia. rewrite Z.mod_pow2_bits_high by lia. reflexivity.
Qed.

(** what the static assertions of the class guarantee *)
Definition arena_ok (a : arena) : Prop :=
  0 < a_buf a /\ 0 < a_size a /\ a_buf a + a_size a < 2 ^ 64 /\ 0 <= a_kal a < 64 /\
  a_buf a mod a_align a = 0 /\ a_size a mod a_align a = 0.

Lemma align_up_exact a n : 0 <= a_kal a < 64 -> 0 <= n <= 2 ^ 64 - a_align a ->
  align_up a n = (n + (a_align a - 1)) / a_align a * a_align a.
Proof.
  intros Hk Hn. unfold align_up, u64, a_align in *. assert (0 < 2 ^ a_kal a) by (apply Z.pow_pos_nonneg; lia).
  assert (2 ^ a_kal a <= 2 ^ 64) by (apply Z.pow_le_mono_r; lia).
  rewrite Z.mod_small by lia. apply land_high_mask; lia.
Qed.
Lemma align_up_bounds a n : 0 <= a_kal a < 64 -> 0 <= n <= 2 ^ 64 - a_align a ->
  n <= align_up a n < n + a_align a /\ align_up a n mod a_align a = 0.
Proof.
  intros Hk Hn. rewrite align_up_exact by assumption. unfold a_align in *.
  assert (0 < 2 ^ a_kal a) by (apply Z.pow_pos_nonneg; lia).
  set (q := 2 ^ a_kal a) in *. clearbody q. rewrite Z.mod_mul by lia.
  pose proof (Z.mod_pos_bound (n + (q - 1)) q ltac:(lia)). pose proof (Z.div_mod (n + (q - 1)) q ltac:(lia)). lia.
Qed.
Lemma align_up_any a n : 0 <= a_kal a < 64 -> 0 <= n -> 0 <= align_up a n /\ align_up a n mod a_align a = 0.
Proof.
  intros Hk Hn. unfold align_up, a_align. assert (0 < 2 ^ a_kal a) by (apply Z.pow_pos_nonneg; lia).
  assert (0 <= u64 (n + (2 ^ a_kal a - 1)) < 2 ^ 64) by (unfold u64; lia).
  rewrite land_high_mask by lia. rewrite Z.mod_mul by lia. split; [|reflexivity].
  apply Z.mul_nonneg_nonneg; [apply Z.div_pos; lia|lia].
Qed.

(** ** Invariant *)
Definition no_wrap (a : arena) (n : Z) : Prop := n <= 2 ^ 64 - a_align a.
Fixpoint disjoint_all (l : list (Z * Z)) : Prop :=
  match l with
  | [] => True
  | (p, n) :: l => (forall q m, In (q, m) l -> n = 0 \/ m = 0 \/ p + n <= q \/ q + m <= p) /\ disjoint_all l
  end.

(** aligned extents of the chunks in the arena *)
Definition inside (a : arena) (l : list chunk) : list (Z * Z) :=
  flat_map (fun c => let '(p, n, b) := c in if b : bool then [] else [(p, align_up a n)]) l.
Definition outside (l : list chunk) : list (Z * Z) :=
  flat_map (fun c => let '(p, n, b) := c in if b : bool then [(p, Z.max 1 n)] else []) l.

Record AInv (w : world) : Prop := {
  ai_ok : arena_ok (w_arena w);
  ai_ptr : a_buf (w_arena w) <= a_ptr (w_arena w) <= a_buf (w_arena w) + a_size (w_arena w);
  ai_al : a_ptr (w_arena w) mod a_align (w_arena w) = 0;
  ai_len : forall p n b, In (p, n, b) (w_live w) -> 0 <= n < 2 ^ 64;
  ai_nw : forall p n, In (p, n, false) (w_live w) -> no_wrap (w_arena w) n;
  ai_in : forall p n, In (p, n, false) (w_live w) ->
    a_buf (w_arena w) <= p < a_buf (w_arena w) + a_size (w_arena w) /\
    (0 < n -> p + align_up (w_arena w) n <= a_ptr (w_arena w)) /\ p mod a_align (w_arena w) = 0;
  ai_out : forall p n, In (p, n, true) (w_live w) -> a_out (w_arena w) = true /\ 0 < p /\
    (p + Z.max 1 n <= a_buf (w_arena w) \/ a_buf (w_arena w) + a_size (w_arena w) <= p);
  ai_din : disjoint_all (inside (w_arena w) (w_live w));
  ai_dout : disjoint_all (outside (w_live w))
}.

Lemma disjoint_drop l1 x l2 : disjoint_all (l1 ++ x :: l2) -> disjoint_all (l1 ++ l2).
Proof.
  induction l1 as [|[p n] l1 IH]; cbn [app disjoint_all].
  - destruct x as [p n]. intros [_ H]. exact H.
  - intros [H1 H2]. split; [|auto]. intros q m I. apply H1. apply in_app_or in I. apply in_or_app. cbn [In]. tauto.
Qed.
Lemma disjoint_mid l1 p n l2 : disjoint_all (l1 ++ (p, n) :: l2) ->
  forall q m, In (q, m) (l1 ++ l2) -> n = 0 \/ m = 0 \/ p + n <= q \/ q + m <= p.
Proof.
  induction l1 as [|[p1 n1] l1 IH]; cbn [app disjoint_all].
  - intros [H _] q m I. apply H. exact I.
  - intros [H1 H2] q m [I|I]; [|apply IH; auto].
    injection I as -> ->. destruct (H1 p n) as [?|[?|[?|?]]]; [apply in_or_app; cbn; tauto| | | |]; tauto.
Qed.
Lemma inside_app a l1 l2 : inside a (l1 ++ l2) = inside a l1 ++ inside a l2.
Proof. apply flat_map_app. Qed.
Lemma outside_app l1 l2 : outside (l1 ++ l2) = outside l1 ++ outside l2.
Proof. apply flat_map_app. Qed.
Lemma in_inside a l p e : In (p, e) (inside a l) -> exists n, In (p, n, false) l /\ e = align_up a n.
Proof.
  unfold inside. rewrite in_flat_map. intros ([[p' n] b] & I & J). destruct b; cbn in J; [contradiction|].
  destruct J as [J|[]]. injection J as -> <-. exists n. auto.
Qed.
Lemma in_outside l p e : In (p, e) (outside l) -> exists n, In (p, n, true) l /\ e = Z.max 1 n.
Proof.
  unfold outside. rewrite in_flat_map. intros ([[p' n] b] & I & J). destruct b; cbn in J; [|contradiction].
  destruct J as [J|[]]. injection J as -> <-. exists n. auto.
Qed.
Lemma inside_in a l p n : In (p, n, false) l -> In (p, align_up a n) (inside a l).
Proof. intros I. unfold inside. rewrite in_flat_map. exists (p, n, false). split; [exact I|left; reflexivity]. Qed.

(** steps that do not overflow the rounding *)
Inductive wstep_ok (w : world) : world -> Prop :=
| wso w' : wstep w w' -> (forall p n b, In (p, n, b) (w_live w') -> no_wrap (w_arena w) n) -> wstep_ok w w'.

Lemma align_up_ptr a p n : align_up (with_ptr a p) n = align_up a n. Proof. reflexivity. Qed.
Lemma inside_ptr a p l : inside (with_ptr a p) l = inside a l. Proof. reflexivity. Qed.

Lemma drop_in A (l1 : list A) x l2 c : In c (l1 ++ l2) -> In c (l1 ++ x :: l2).
Proof. rewrite !in_app_iff. cbn [In]. tauto. Qed.

Lemma step_inv w w' : AInv w -> wstep_ok w w' -> AInv w'.
Proof.
  intros V [w'' S N]. clear w'. destruct V as [ok ptr al len nw inn out din dout].
  assert (K : 0 <= a_kal (w_arena w) < 64) by apply ok.
  inversion S; subst.
  - (* in the arena *)
    unfold allocate in H0. destruct (_ && _) eqn:E; [|destruct (a_out _); discriminate].
    injection H0 as <- <-. apply andb_prop in E. destruct E as [E1 E2]. unfold pointer_in_buffer in E1.
    assert (Nw : no_wrap (w_arena w) n) by (apply (N (a_ptr (w_arena w)) n false); left; reflexivity).
    unfold no_wrap in Nw. pose proof (align_up_bounds (w_arena w) n K ltac:(lia)) as [B1 B2].
    constructor; cbn [w_arena w_live]; rewrite ?align_up_ptr; cbn [a_buf a_size a_ptr a_out with_ptr].
    + exact ok.
    + lia.
    + change (a_align (with_ptr (w_arena w) (a_ptr (w_arena w) + align_up (w_arena w) n))) with (a_align (w_arena w)).
      rewrite Z.add_mod, al, B2, Z.add_0_l by (unfold a_align; apply Z.pow_nonzero; lia). apply Z.mod_0_l. unfold a_align; apply Z.pow_nonzero; lia.
    + intros p m b [I|I]; [injection I as <- <- <-; lia|eauto].
    + intros p m [I|I]; [injection I as <- <-; exact Nw|apply (nw p m I)].
    + intros p m [I|I].
      * injection I as <- <-. split; [lia|]. split; [rewrite align_up_ptr; lia|exact al].
      * destruct (inn p m I) as (I1 & I2 & I3). split; [exact I1|]. split; [|exact I3].
        intros Hm. specialize (I2 Hm). rewrite align_up_ptr. lia.
    + intros p m [I|I]; [discriminate|apply (out p m I)].
    + rewrite inside_ptr. cbn [inside flat_map app]. fold (inside (w_arena w) (w_live w)). cbn [disjoint_all]. split; [|exact din].
      intros q e I. destruct (in_inside _ _ _ _ I) as (m & J & ->). destruct (inn q m J) as (J1 & J2 & J3).
      pose proof (len _ _ _ J) as Lm. pose proof (nw _ _ J) as Nm. unfold no_wrap in Nm.
      pose proof (align_up_bounds (w_arena w) m K ltac:(lia)) as [Bm _].
      destruct (Z.eq_dec m 0) as [->|Nz].
      * right; left. rewrite align_up_exact by lia. rewrite Z.add_0_l.
        rewrite Z.div_small; [reflexivity|]. assert (0 < a_align (w_arena w)) by (unfold a_align; apply Z.pow_pos_nonneg; lia). lia.
      * specialize (J2 ltac:(lia)). lia.
    + exact dout.
  - (* from the heap *)
    destruct H1 as (F1 & F2 & F3).
    assert (Ho : a_out (w_arena w) = true).
    { unfold allocate in H0. destruct (_ && _); [discriminate|]. destruct (a_out _); [reflexivity|discriminate]. }
    constructor; cbn [w_arena w_live]; auto.
    + intros p m b [I|I]; [injection I as <- <- <-; lia|eauto].
    + intros p m [I|I]; [discriminate|apply (nw p m I)].
    + intros p m [I|I]; [discriminate|apply (inn p m I)].
    + intros p m [I|I]; [injection I as <- <-; auto|apply (out p m I)].
    + cbn [outside flat_map app]. fold (outside (w_live w)). cbn [disjoint_all]. split; [|exact dout].
      intros q e I. destruct (in_outside _ _ _ I) as (m & J & ->). specialize (F3 q m J). tauto.
  - constructor; auto.
  - (* free inside *)
    unfold deallocate in H0. destruct (pointer_in_buffer (w_arena w) p false) eqn:E; [|destruct (a_out _); discriminate].
    injection H0 as <-. unfold pointer_in_buffer in E.
    assert (Hb : b = false).
    { destruct b; [|reflexivity]. destruct (out p n) as (_ & _ & O); [rewrite H; apply in_or_app; cbn; tauto|]. lia. }
    subst b. assert (J : In (p, n, false) (w_live w)) by (rewrite H; apply in_or_app; cbn; tauto).
    destruct (inn p n J) as (J1 & J2 & J3). pose proof (len _ _ _ J) as Ln. pose proof (nw _ _ J) as Nn. unfold no_wrap in Nn.
    pose proof (align_up_bounds (w_arena w) n K ltac:(lia)) as [Bn _].
    set (a' := if p + align_up (w_arena w) n =? a_ptr (w_arena w) then with_ptr (w_arena w) p else w_arena w).
    assert (Sub : forall c, In c (l1 ++ l2) -> In c (w_live w)) by (intros c I; rewrite H; apply drop_in; exact I).
    assert (Same : a_buf a' = a_buf (w_arena w) /\ a_size a' = a_size (w_arena w) /\ a_kal a' = a_kal (w_arena w) /\ a_out a' = a_out (w_arena w))
      by (unfold a'; destruct (_ =? _); repeat split).
    destruct Same as (S1 & S2 & S3 & S4).
    assert (S5 : a_align a' = a_align (w_arena w)) by (unfold a_align; rewrite S3; reflexivity).
    assert (S6 : forall m, align_up a' m = align_up (w_arena w) m) by (intros; unfold align_up; rewrite S5; reflexivity).
    assert (S7 : inside a' (l1 ++ l2) = inside (w_arena w) (l1 ++ l2)) by (unfold inside; apply flat_map_ext; intros [[? ?] []]; rewrite ?S6; reflexivity).
    assert (Din : disjoint_all (inside (w_arena w) l1 ++ (p, align_up (w_arena w) n) :: inside (w_arena w) l2)).
    { rewrite H, inside_app in din. exact din. }
    constructor; cbn [w_arena w_live].
    + unfold arena_ok. rewrite S1, S2, S3, S5. exact ok.
    + rewrite S1, S2. unfold a'. destruct (_ =? _) eqn:E3; [cbn [a_ptr with_ptr]; lia|exact ptr].
    + rewrite S5. unfold a'. destruct (_ =? _) eqn:E3; [cbn [a_ptr with_ptr]; exact J3|exact al].
    + intros q m b I. apply (len q m b). auto.
    + unfold no_wrap. rewrite S5. intros q m I. apply (nw q m). auto.
    + rewrite S1, S2, S5. intros q m I. destruct (inn q m (Sub _ I)) as (I1 & I2 & I3). split; [exact I1|]. split; [|exact I3].
      intros Hm. specialize (I2 Hm). rewrite S6. unfold a'. destruct (_ =? _) eqn:E3; [cbn [a_ptr with_ptr]|exact I2].
      pose proof (nw _ _ (Sub _ I)) as Nm. unfold no_wrap in Nm.
      pose proof (align_up_bounds (w_arena w) m K ltac:(lia)) as [Bm _].
      assert (Iq : In (q, align_up (w_arena w) m) (inside (w_arena w) l1 ++ inside (w_arena w) l2))
        by (rewrite <- inside_app; apply inside_in; exact I).
      pose proof (disjoint_mid _ _ _ _ Din q (align_up (w_arena w) m) Iq) as X.
      clear - X E3 I2 Bm Hm Bn. lia.
    + rewrite S4. intros q m I. rewrite S1, S2. apply (out q m). auto.
    + rewrite S7, inside_app. eapply disjoint_drop. exact Din.
    + rewrite outside_app. rewrite H, outside_app in dout. exact dout.
  - (* back to the heap *)
    assert (Sub : forall c, In c (l1 ++ l2) -> In c (w_live w)) by (intros c I; rewrite H; apply drop_in; exact I).
    constructor; cbn [w_arena w_live].
    + exact ok.
    + exact ptr.
    + exact al.
    + intros q m b0 I. apply (len q m b0). auto.
    + intros q m I. apply (nw q m). auto.
    + intros q m I. apply (inn q m). auto.
    + intros q m I. apply (out q m). auto.
    + rewrite inside_app. rewrite H, inside_app in din. destruct b; [exact din|].
      cbn [inside flat_map app] in din. eapply disjoint_drop. exact din.
    + rewrite outside_app. rewrite H, outside_app in dout. destruct b; [|exact dout].
      cbn [outside flat_map app] in dout. eapply disjoint_drop. exact dout.
Qed.

Lemma new_inv buf size kal out : arena_ok (arena_new buf size kal out) -> AInv (mkW (arena_new buf size kal out) []).
Proof.
  intros ok. constructor; cbn [w_arena w_live].
  - exact ok.
  - cbn. destruct ok as (? & ? & _). cbn in *. lia.
  - apply ok.
  - intros ? ? ? [].
  - intros ? ? [].
  - intros ? ? [].
  - intros ? ? [].
  - exact I.
  - exact I.
Qed.

(** ** Runs *)
Inductive calls_ok (w : world) : world -> Prop :=
| co_nil : calls_ok w w
| co_cons w1 w2 : calls_ok w w1 -> wstep_ok w1 w2 -> calls_ok w w2.
Lemma calls_inv w w' : AInv w -> calls_ok w w' -> AInv w'.
Proof. intros V C. induction C; auto. eapply step_inv; eassumption. Qed.

Lemma disjoint_nth l : disjoint_all l -> forall i j p n q m, (i < j)%nat ->
  nth_error l i = Some (p, n) -> nth_error l j = Some (q, m) -> n = 0 \/ m = 0 \/ p + n <= q \/ q + m <= p.
Proof.
  induction l as [|[p0 n0] l IH]; cbn [disjoint_all]; intros D i j p n q m L Hi Hj.
  - destruct i; discriminate.
  - destruct D as [D1 D2]. destruct j as [|j]; [lia|]. cbn in Hj. destruct i as [|i]; cbn in Hi.
    + injection Hi as <- <-. apply D1. eapply nth_error_In. exact Hj.
    + eapply (IH D2 i j); eauto. lia.
Qed.
Lemma disjoint_split l1 c1 l2 c2 l3 : disjoint_all (l1 ++ c1 :: l2 ++ c2 :: l3) ->
  snd c1 = 0 \/ snd c2 = 0 \/ fst c1 + snd c1 <= fst c2 \/ fst c2 + snd c2 <= fst c1.
Proof.
  destruct c1 as [p n], c2 as [q m]. intros D. pose proof (disjoint_mid _ _ _ _ D q m) as X. cbn [fst snd]. apply X.
  rewrite !in_app_iff. cbn [In]. tauto.
Qed.
(** any two live chunks share no byte *)
Lemma live_apart w l1 p n b l2 q m c l3 : AInv w -> w_live w = l1 ++ (p, n, b) :: l2 ++ (q, m, c) :: l3 ->
  forall x, ~ (p <= x < p + n /\ q <= x < q + m).
Proof.
  intros V E x [X Y]. destruct V as [ok ptr al len nw inn out din dout].
  assert (Ip : In (p, n, b) (w_live w)) by (rewrite E; rewrite !in_app_iff; cbn [In]; tauto).
  assert (Iq : In (q, m, c) (w_live w)) by (rewrite E; rewrite !in_app_iff; cbn [In]; rewrite in_app_iff; cbn [In]; tauto).
  assert (K : 0 <= a_kal (w_arena w) < 64) by apply ok.
  assert (AU : forall p n, In (p, n, false) (w_live w) -> n <= align_up (w_arena w) n).
  { intros p0 n0 I0. pose proof (len _ _ _ I0). pose proof (nw _ _ I0) as N0. unfold no_wrap in N0.
    apply (align_up_bounds (w_arena w) n0 K). lia. }
  destruct b, c.
  - rewrite E, outside_app in dout. cbn [outside flat_map app] in dout. fold (outside (l2 ++ (q, m, true) :: l3)) in dout.
    rewrite outside_app in dout. cbn [outside flat_map app] in dout.
    apply (disjoint_split _ _ _ (q, Z.max 1 m)) in dout. cbn [fst snd] in dout. clear - dout X Y. lia.
  - destruct (out p n Ip) as (_ & _ & O). destruct (inn q m Iq) as (I1 & I2 & _). specialize (AU _ _ Iq).
    assert (0 < m) by (clear - Y; lia). specialize (I2 H). clear - O I1 I2 X Y AU ptr. lia.
  - destruct (out q m Iq) as (_ & _ & O). destruct (inn p n Ip) as (I1 & I2 & _). specialize (AU _ _ Ip).
    assert (0 < n) by (clear - X; lia). specialize (I2 H). clear - O I1 I2 X Y AU ptr. lia.
  - rewrite E, inside_app in din. cbn [inside flat_map app] in din. fold (inside (w_arena w) (l2 ++ (q, m, false) :: l3)) in din.
    rewrite inside_app in din. cbn [inside flat_map app] in din.
    apply (disjoint_split _ _ _ (q, align_up (w_arena w) m)) in din. cbn [fst snd] in din.
    pose proof (AU _ _ Ip). pose proof (AU _ _ Iq). clear - din X Y H H0. lia.
Qed.
