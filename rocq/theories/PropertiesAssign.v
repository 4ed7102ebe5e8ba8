(** * PropertiesAssign: C95, assignment to the accessor of a field. *)
From Coq Require Import List.
From Verif Require Import Base Tag TagProofs Codec CodecProofs Gear GearBase GearSearch GearProofs GearAlloc GearRealloc Tuple TupleProofs TupleSteps TupleView TupleOps TupleMore
  TupleHist TupleFacts PropertiesTuple Hippeus Scan Audit Image ImageProofs PropertiesImage GearOpt GearOptProofs GearSortProofs PropertiesOpt Growth GrowthProofs PropertiesGrowth Traits Values Numeric NumericProofs PropertiesNumeric Typed TypedProofs
  PropertiesTyped Named PropertiesNamed Assign.
From Coq Require Import ZifyBool ZifyNat Permutation.
Ltac Zify.zify_post_hook ::= Z.div_mod_to_equations.

(** ** What is accepted *)
(** the integer on the right, if it is one of the type it is written with *)
Definition integer (x : source) : option Z :=
  match x with SI8 z | SU8 z | SI16 z | SU16 z | SI32 z | SU32 z | SI64 z | SU64 z => Some z | _ => None end.
Definition integer_ok (x : source) : Prop :=
  match x with
  | SI8 z => - 2 ^ 7 <= z <= 2 ^ 7 - 1 | SU8 z => 0 <= z <= 2 ^ 8 - 1
  | SI16 z => - 2 ^ 15 <= z <= 2 ^ 15 - 1 | SU16 z => 0 <= z <= 2 ^ 16 - 1
  | SI32 z => - 2 ^ 31 <= z <= 2 ^ 31 - 1 | SU32 z => 0 <= z <= 2 ^ 32 - 1
  | SI64 z => - 2 ^ 63 <= z <= 2 ^ 63 - 1 | SU64 z => 0 <= z <= 2 ^ 64 - 1
  | _ => False
  end.
(** the integers that a type of field has room for; for floats those of the documented safe ranges *)
Definition room_for (g z : Z) : Prop :=
  if g =? g_f32 then Z.abs z <= 2 ^ 21 - 1 else if g =? g_f64 then Z.abs z <= 2 ^ 53 - 1 else int_genus g = true /\ fits g z.
Lemma as_call desc disc x z : integer_ok x -> integer x = Some z ->
  exists c, call_ok c /\ call_arg c = z /\ (exists lo hi, lo <= z <= hi /\ forall g, call_plan g c = set_number_int lo hi g z) /\
    assigned desc disc x = by_plan desc disc (call_plan (descriptor2genus desc) c).
Proof.
  intros Ok I. destruct x; cbn [integer integer_ok] in *; try discriminate; injection I as ->.
  1-5: exists (CNum32 z); cbn [call_ok call_arg call_plan assigned]; repeat split; try (exists (- 2 ^ 31), (2 ^ 31 - 1); split; [|reflexivity]); change (2 ^ 31) with 2147483648; change (2 ^ 15) with 32768 in *; change (2 ^ 16) with 65536 in *; change (2 ^ 7) with 128 in *; change (2 ^ 8) with 256 in *; change (2 ^ 31) with 2147483648 in *; lia.
  - exists (CNumU32 z). cbn [call_ok call_arg call_plan assigned]. repeat split; try lia. exists 0, (2 ^ 32 - 1). split; [lia|reflexivity].
  - exists (CNum64 z). cbn [call_ok call_arg call_plan assigned]. repeat split; try lia. exists (- 2 ^ 63), (2 ^ 63 - 1). split; [lia|reflexivity].
  - exists (CNumU64 z). cbn [call_ok call_arg call_plan assigned]. repeat split; try lia. exists 0, (2 ^ 64 - 1). split; [lia|reflexivity].
Qed.
(** An integer of any C++ type is taken exactly by the fields that have room for it, whatever their type. *)
Theorem C95_integers_taken : forall desc disc x z, integer_ok x -> integer x = Some z ->
  ((exists o, assigned desc disc x = Does o) <-> room_for (descriptor2genus desc) z) /\
  (assigned desc disc x = Refuses <-> ~ room_for (descriptor2genus desc) z).
Proof.
  intros desc disc x z Ok I. destruct (as_call desc disc x z Ok I) as (c & Co & Ca & (lo & hi & B & P) & E). rewrite E, P. clear E P Co Ca c Ok I x.
  unfold by_plan, room_for, set_number_int. set (g := descriptor2genus desc). change (2 ^ 21) with 2097152. change (2 ^ 53) with 9007199254740992. unfold safe32, safe64.
  assert (Two : forall (P : Prop) e, (P \/ ~ P) -> (P -> exists o, e = Does o) -> (~ P -> e = Refuses) -> ((exists o, e = Does o) <-> P) /\ (e = Refuses <-> ~ P)).
  { intros P e D H1 H2. split; split; intros H.
    - destruct D as [D|D]; [exact D|]. destruct H as [o' H]. rewrite (H2 D) in H. discriminate.
    - auto.
    - intros D'. destruct (H1 D') as [o H']. rewrite H' in H. discriminate.
    - auto. }
  destruct (g =? g_f32) eqn:E1; [|destruct (g =? g_f64) eqn:E2; [|destruct (int_genus g) eqn:E3]].
  1-3: unfold fits; apply Two; [lia| |]; intros H; match goal with |- context [if ?c then PRange else _] => (replace c with false by lia; eexists; reflexivity) || (replace c with true by lia; reflexivity) end.
  split; split; try (intros [o H]; discriminate); try (intros [H _]; discriminate); try reflexivity. intros _ [H _]. discriminate.
Qed.
(** Text is taken by text fields when it is not too long; characters up to the first zero are. *)
Theorem C95_text_taken : forall desc disc b,
  ((exists o, assigned desc disc (SText b) = Does o) <-> descriptor2genus desc = g_text /\ zlen b <= string_max_length) /\
  (forall t, c_string b = Some t -> assigned desc disc (SChars b) = assigned desc disc (SText t)).
Proof.
  intros desc disc b. split.
  - cbn [assigned]. unfold by_name, set_op. cbn [set_type pass to_tv]. destruct (Z.eqb_spec (descriptor2genus desc) g_text) as [E|N]; [|split; [intros [o H]; discriminate|intros [H _]; congruence]].
    unfold string_estimate. destruct (Z.gtb_spec (zlen b) string_max_length); (split; [intros [o H']; first [discriminate|split; [exact E|lia]]|intros [_ H']; first [lia|eexists; reflexivity]]).
  - intros t E. cbn [assigned]. rewrite E. reflexivity.
Qed.
(** A truth value is taken only by fields of the type of signed bytes, which is also that of truth values. *)
Theorem C95_truth_taken : forall desc disc b,
  ((exists o, assigned desc disc (SBool b) = Does o) <-> descriptor2genus desc = g_i8).
Proof.
  intros desc disc b. cbn [assigned]. unfold by_name, set_op. cbn [set_type pass]. destruct (Z.eqb_spec (descriptor2genus desc) g_i8) as [E|N]; [|split; [intros [o H]; discriminate|congruence]].
  split; [intros _; exact E|intros _]. rewrite E. destruct b; eexists; reflexivity.
Qed.
(** No value can be assigned to fields of binary data of variable length, nor to those of the two types left to
    applications, though the first have a setter. *)
Theorem C95_untaken_refuted : forall desc disc x o, descriptor2genus desc = g_varbin \/ descriptor2genus desc = g_app64 \/ descriptor2genus desc = g_app128 ->
  assigned desc disc x <> Does o.
Proof.
  intros desc disc x o G H. destruct x; cbn [assigned] in H; unfold by_name, set_op, by_plan in H.
  all: destruct G as [G|[G|G]]; rewrite ?G in H; cbn in H; try discriminate.
  all: try (destruct (c_string b); discriminate).
  all: try (unfold set_number_float in H; destruct (fnan (dec _ bits)); cbn in H; discriminate).
  all: destruct n; discriminate.
Qed.
(** every other type takes something *)
Definition trial (g : Z) : source :=
  if g =? g_text then SText [104; 105] else if g =? g_nested then SOther NNested (AVal (TNested (Some [1; 0; 0; 0])))
  else if g =? g_property then SOther NProperty (AVal (TProp [1] 7))
  else if int_genus g || is_float_genus g then SI32 5 else if g =? g_d64 then SOther NDecimal (ANum 5) else if (g =? g_t32) || (g =? g_t64) then SOther NDatetime (ANum (2 ^ 40))
  else if g =? g_ip then SOther NIp (AVal (TFixed (repeat 1 (Z.to_nat (value_size g))))) else if g =? g_mac then SOther NMac (ANum 5)
  else if g =? g_ipnet then SOther NIpNet (AVal (TFixed (repeat 1 (Z.to_nat (value_size g)))))
  else SOther (if g =? g_bin96 then NBin96 else if g =? g_bin128 then NBin128 else if g =? g_bin160 then NBin160 else if g =? g_bin192 then NBin192
    else if g =? g_bin224 then NBin224 else if g =? g_bin256 then NBin256 else if g =? g_bin320 then NBin320 else if g =? g_bin384 then NBin384 else NBin512)
    (AVal (TFixed (repeat 1 (Z.to_nat (value_size g))))).
Theorem C95_others_taken : forall desc disc, real_desc desc -> descriptor2genus desc <> g_varbin -> descriptor2genus desc <> g_app64 -> descriptor2genus desc <> g_app128 ->
  exists x o, assigned desc disc x = Does o.
Proof.
  intros desc disc D N1 N2 N3. exists (trial (descriptor2genus desc)). pose proof (real_genus desc D) as R.
  assert (A : forall e, (match e with Does _ => true | _ => false end) = true -> exists o, e = Does o) by (intros [o| | |] H; try discriminate; exists o; reflexivity).
  apply A. clear A.
  assert (C : forall g, 0 <= g < 31 -> g <> g_varbin -> g <> g_app64 -> g <> g_app128 -> descriptor2genus desc = g -> (match assigned desc disc (trial g) with Does _ => true | _ => false end) = true); [|apply C; auto].
  clear. intros g R N1 N2 N3 E. unfold assigned, by_name, set_op, by_plan. rewrite !E. clear E.
  assert (K : g = Z.of_nat (Z.to_nat g)) by lia. remember (Z.to_nat g) as k eqn:Ek. assert (Hk : (k < 31)%nat) by lia. clear Ek R. subst g.
  do 31 (destruct k as [|k]; [first [exfalso; (apply N1; reflexivity) || (apply N2; reflexivity) || (apply N3; reflexivity)|reflexivity]|]). lia.
Qed.

(** ** What is read afterwards *)
Lemma stored_last multi s l1 desc disc v l2 outs1 outs2 s' : lived multi s -> real_desc desc -> multi desc = false ->
  calm_run multi s (l1 ++ OSet desc disc v :: l2) -> run asis s (l1 ++ OSet desc disc v :: l2) = Some (outs1 ++ true :: outs2, s') ->
  length outs1 = length l1 -> (forall o, In (o, true) (combine l2 outs2) -> ~ names (KL desc) o) ->
  get_loose s' desc = if stores desc disc v then Some (pay v) else None.
Proof.
  intros Lv D M C R Len N. destruct (lived_inv multi s Lv) as [T U].
  destruct (history multi _ s T U C) as (outs & s2 & R' & _ & _ & _ & _ & G & _). rewrite R in R'. assert (Q : s2 = s' /\ outs = outs1 ++ true :: outs2) by (split; congruence). destruct Q as [-> ->].
  specialize (G (KL desc) (conj D M)). cbn [get] in G. rewrite G. rewrite (combine_split l1 _ outs1 _ Len). rewrite last_write_app. cbn [combine last_write wrote key_eqb]. rewrite Z.eqb_refl.
  apply last_write_idle. exact N.
Qed.
Lemma number_last multi s l1 o l2 outs1 outs2 s' desc disc p z : lived multi s -> real_desc desc -> multi desc = false ->
  stores_number (descriptor2genus desc) p z -> by_plan desc disc p = Does o ->
  calm_run multi s (l1 ++ o :: l2) -> run asis s (l1 ++ o :: l2) = Some (outs1 ++ true :: outs2, s') ->
  length outs1 = length l1 -> (forall o, In (o, true) (combine l2 outs2) -> ~ names (KL desc) o) ->
  reads_as (PropertiesNumeric.read_loose s' desc disc) z.
Proof.
  intros Lv D M SN A C R Len N. destruct (stores_tv _ _ _ SN) as (v & Ev & _ & Fx & Ze & Rd).
  unfold by_plan in A. rewrite Ev in A. injection A as <-.
  unfold PropertiesNumeric.read_loose. rewrite (stored_last multi s l1 desc disc v l2 outs1 outs2 s' Lv D M C R Len N).
  unfold stores. rewrite Fx. destruct (negb disc && v_empty v) eqn:Ng; cbn [negb]; [|apply Rd].
  apply andb_prop in Ng. destruct Ng as [N1 N2]. apply reads_absent; [eapply plan_genus; exact SN|destruct disc; [discriminate|reflexivity]|auto].
Qed.
(** An integer that was taken is what the field reads as, after any later calls that do not name the field. *)
Theorem C95_integers_partial : forall multi s l1 o l2 outs1 outs2 s' desc disc x z, lived multi s -> real_desc desc -> multi desc = false ->
  integer_ok x -> integer x = Some z -> assigned desc disc x = Does o ->
  calm_run multi s (l1 ++ o :: l2) -> run asis s (l1 ++ o :: l2) = Some (outs1 ++ true :: outs2, s') ->
  length outs1 = length l1 -> (forall o, In (o, true) (combine l2 outs2) -> ~ names (KL desc) o) ->
  reads_as (PropertiesNumeric.read_loose s' desc disc) z.
Proof.
  intros multi s l1 o l2 outs1 outs2 s' desc disc x z Lv D M Ok I A C R Len N.
  destruct (as_call desc disc x z Ok I) as (c & Co & Ca & _ & E). rewrite E in A. clear E.
  pose proof (call_stores (descriptor2genus desc) c Co) as SN. rewrite Ca in SN.
  eapply number_last; try eassumption. unfold by_plan in A. destruct (call_plan (descriptor2genus desc) c); try exact SN; discriminate A.
Qed.
(** Floating point in an integer field: never undefined; taken, the field reads as the number without its fraction. *)
Definition floating (x : source) : option (fmt * Z) := match x with SF32 b => Some (binary32, b) | SF64 b => Some (binary64, b) | _ => None end.
Theorem C95_cut_partial : forall multi s desc disc x f b, lived multi s -> real_desc desc -> multi desc = false -> floating x = Some (f, b) -> int_genus (descriptor2genus desc) = true ->
  assigned desc disc x = Refuses \/
  exists o t, assigned desc disc x = Does o /\ ftrunc (dec f b) = Some t /\ fits (descriptor2genus desc) t /\
    forall l1 l2 outs1 outs2 s', calm_run multi s (l1 ++ o :: l2) -> run asis s (l1 ++ o :: l2) = Some (outs1 ++ true :: outs2, s') ->
    length outs1 = length l1 -> (forall o, In (o, true) (combine l2 outs2) -> ~ names (KL desc) o) ->
    PropertiesNumeric.read_loose s' desc disc = Got t.
Proof.
  intros multi s desc disc x f b Lv D M X G.
  assert (F : fmt2 f) by (destruct x; cbn in X; try discriminate; injection X as <- <-; unfold fmt2; auto).
  assert (E : assigned desc disc x = match set_number_float f (descriptor2genus desc) b with Some p => by_plan desc disc p | None => Undefined end) by (destruct x; cbn in X; try discriminate; injection X as <- <-; reflexivity).
  rewrite E. destruct (set_number_float_ok f _ b F G) as [P|(t & P & T & FT)]; rewrite P; [left; reflexivity|right].
  eexists _, t. split; [reflexivity|]. split; [exact T|]. split; [exact FT|]. intros l1 l2 outs1 outs2 s' C R Len N.
  pose proof (number_last multi s l1 _ l2 outs1 outs2 s' desc disc (PInt t) t Lv D M (sn_int _ t G FT) eq_refl C R Len N) as Q.
  unfold PropertiesNumeric.read_loose, read_units in *. rewrite int_not_float in * by exact G. unfold loose_int in *. destruct (get_loose s' desc); [f_equal; exact Q|]. destruct disc; [contradiction|]. cbn in Q. congruence.
Qed.
(** Floating point in a field of its own type: all of them are taken, and given back, NaNs and infinities included; only the sign
    of a zero is lost by the tokens that do not tell an empty field from an absent one. *)
Theorem C95_floats_partial : forall multi s desc disc x f b, lived multi s -> real_desc desc -> multi desc = false -> floating x = Some (f, b) -> 0 <= b < 2 ^ f_w f ->
  is_float_genus (descriptor2genus desc) = true -> fmt_of (descriptor2genus desc) = f ->
  exists o, assigned desc disc x = Does o /\
    forall l1 l2 outs1 outs2 s', calm_run multi s (l1 ++ o :: l2) -> run asis s (l1 ++ o :: l2) = Some (outs1 ++ true :: outs2, s') ->
    length outs1 = length l1 -> (forall o, In (o, true) (combine l2 outs2) -> ~ names (KL desc) o) ->
    PropertiesNumeric.read_loose s' desc disc = GotF (dec f b) \/ disc = false /\ denotes (dec f b) 0 /\ reads_as (PropertiesNumeric.read_loose s' desc disc) 0.
Proof.
  intros multi s desc disc x f b Lv D M X B G Fm.
  assert (E : assigned desc disc x = by_plan desc disc (PFlt b)).
  { assert (Q : descriptor2genus desc = g_f32 \/ descriptor2genus desc = g_f64) by (unfold is_float_genus in G; lia).
    destruct x; cbn in X; try discriminate; injection X as <- <-; cbn [assigned]; unfold set_number_float; destruct Q as [Q|Q]; rewrite Q in *; try discriminate Fm;
      rewrite Bool.andb_false_r; reflexivity. }
  rewrite E. eexists. split; [reflexivity|]. intros l1 l2 outs1 outs2 s' C R Len N.
  set (v := mkV (fzero (nbits (descriptor2genus desc)) b) (int_units (descriptor2genus desc) b)) in *.
  unfold PropertiesNumeric.read_loose. rewrite (stored_last multi s l1 desc disc v l2 outs1 outs2 s' Lv D M C R Len N).
  assert (Fx : fixed_genus (descriptor2genus desc) = true) by (unfold is_float_genus in G; assert (Q : descriptor2genus desc = g_f32 \/ descriptor2genus desc = g_f64) by lia; destruct Q as [-> | ->]; reflexivity).
  unfold stores. rewrite Fx. destruct (negb disc && v_empty v) eqn:Ng; cbn [negb].
  - right. apply andb_prop in Ng. destruct Ng as [N1 N2]. destruct disc; [discriminate|]. split; [reflexivity|]. split; [|apply reads_absent; auto].
    rewrite <- Fm. destruct (fzero_dec _ b G N2) as (ng & e & ->). cbn [denotes]. unfold smant. destruct ng, (0 <=? e); lia.
  - left. unfold read_units. rewrite G. unfold loose_bits. cbn [pay v]. change (if descriptor2genus desc =? g_f32 then binary32 else binary64) with (fmt_of (descriptor2genus desc)). rewrite Fm. f_equal. f_equal. rewrite <- Fm in B.
    unfold is_float_genus in G; assert (Q : descriptor2genus desc = g_f32 \/ descriptor2genus desc = g_f64) by lia; destruct Q as [Q|Q]; rewrite Q in *; cbn in B |- *; unfold u32.
    + change (2 ^ 32) with 4294967296. apply Z.mod_small. exact B.
    + change (2 ^ 32) with 4294967296. rewrite (Z.mod_small (b / 4294967296)) by (clear - B; pose proof (Z.div_lt_upper_bound b 4294967296 4294967296); pose proof (Z.div_pos b 4294967296); lia).
      change (b mod 4294967296 + 4294967296 * (b / 4294967296) = b). rewrite Z.add_comm. symmetry. apply Z.div_mod. discriminate.
Qed.
(** Text, truth values and the rest read back through the getter of the same kind. *)
Definition kind (x : source) : option (name * arg) :=
  match x with
  | SText b => Some (NString, AVal (TText b))
  | SChars b => match c_string b with Some t => Some (NString, AVal (TText t)) | None => None end
  | SNull => Some (NString, AVal (TText []))
  | SBool b => Some (NBool, ABool b)
  | SOther n a => Some (n, a)
  | _ => None
  end.
Theorem C95_others_partial : forall multi s l1 o l2 outs1 outs2 s' desc disc x n a v, lived multi s -> real_desc desc -> multi desc = false ->
  kind x = Some (n, a) -> takes n a -> narrow n (descriptor2genus desc) a -> pass n (descriptor2genus desc) a = Some v -> solid (descriptor2genus desc) disc v ->
  assigned desc disc x = Does o ->
  calm_run multi s (l1 ++ o :: l2) -> run asis s (l1 ++ o :: l2) = Some (outs1 ++ true :: outs2, s') ->
  length outs1 = length l1 -> (forall o, In (o, true) (combine l2 outs2) -> ~ names (KL desc) o) ->
  named_get s' desc disc n = Gave (worth n (descriptor2genus desc) a).
Proof.
  intros multi s l1 o l2 outs1 outs2 s' desc disc x n a v Lv D M K T Nw P So A C R Len N.
  apply (C81_round_trip_partial multi s l1 o l2 outs1 outs2 s' desc disc n a v); auto.
  assert (B : by_name desc disc n a = Does o).
  { destruct x; cbn [kind assigned] in *; try discriminate; try (destruct (c_string b); [|discriminate]); try (injection K as <- <-; exact A).
    injection K as -> ->. destruct (other n); [exact A|discriminate]. }
  unfold by_name in B. destruct (set_op desc disc n a) as [o'|]; [|discriminate]. congruence.
Qed.
Lemma Forall2_in_r {A B} (R : A -> B -> Prop) l1 l2 y : Forall2 R l1 l2 -> In y l2 -> exists x, In x l1 /\ R x y.
Proof. induction 1 as [|a b l1 l2 H F IH]; cbn [In]; [tauto|]. intros [<-|I]; [eauto|]. destruct (IH I) as (x & I' & R'). eauto. Qed.

(** ** Chains *)
Lemma run_app q l1 : forall s l2, run q s (l1 ++ l2) = match run q s l1 with Some (o1, s1) => option_map (fun p => (o1 ++ fst p, snd p)) (run q s1 l2) | None => None end.
Proof.
  induction l1 as [|o l1 IH]; intros s l2; cbn [app run]; [destruct (run q s l2) as [[o2 s2]|]; reflexivity|].
  destruct (run1 q s o) as [u s1|s1|]; [| |reflexivity]; rewrite IH; destruct (run q s1 l1) as [[o1 s2]|]; cbn [option_map fst snd app]; try reflexivity; destruct (run q s2 l2) as [[o2 s3]|]; reflexivity.
Qed.
(** A chain of assignments is the sequence of the calls, from the right; it stops at the first exception. *)
Theorem C95_chain : forall l x ops s s', Forall2 (fun p o => assigned (fst p) (snd p) x = Does o) l ops ->
  (chain s l x = Ok tt s' <-> run asis s (rev ops) = Some (map (fun _ => true) ops, s')).
Proof.
  intros l x ops s s' F. revert s'. induction F as [|[desc disc] o l ops A F IH]; intros s'; cbn [chain rev map run].
  - split; congruence.
  - rewrite run_app. cbn [fst snd] in A. unfold put. rewrite A. clear A. split.
    + intros H. destruct (chain s l x) as [[] s1|s1|] eqn:E; cbn [bind] in H; try discriminate. rewrite (proj1 (IH s1) eq_refl). cbn [run]. rewrite H. cbn [option_map fst snd].
      f_equal. f_equal. clear. induction ops as [|o' ops IH]; [reflexivity|]. cbn [map app]. f_equal. exact IH.
    + intros H. destruct (run asis s (rev ops)) as [[o1 s1]|] eqn:E; [|discriminate]. cbn [run] in H.
      assert (L : forall l s outs t, run asis s l = Some (outs, t) -> length outs = length l).
      { clear. induction l as [|o l IH]; intros s outs t H; cbn [run] in H; [injection H as <- _; reflexivity|]. destruct (run1 asis s o) as [u s1|s1|]; [| |discriminate];
        destruct (run asis s1 l) as [[o1 s2]|] eqn:E; try discriminate; cbn [option_map fst snd] in H; injection H as <- _; cbn [length]; f_equal; eapply IH; exact E. }
      pose proof (L _ _ _ _ E) as L1. rewrite rev_length in L1. clear L.
      assert (Tr : forall (a : list bool) (b : list op) x, length a = length b -> a ++ [x] = true :: map (fun _ => true) b -> x = true /\ a = map (fun _ => true) b).
      { clear. induction a as [|y a IH]; intros [|z b] x Ln H; cbn [length app map] in *; try discriminate; [split; [congruence|reflexivity]|]. injection H as -> H. injection Ln as Ln.
        destruct (IH b x Ln H) as [-> ->]. split; reflexivity. }
      destruct (run1 asis s1 o) as [[] s2|s2|] eqn:R; [| |discriminate]; cbn [option_map fst snd] in H.
      * assert (Q : s2 = s' /\ o1 ++ [true] = true :: map (fun _ => true) ops) by (split; congruence). destruct Q as [-> Q]. destruct (Tr _ _ _ L1 Q) as [_ ->].
        rewrite (proj2 (IH s1) eq_refl). cbn [bind]. exact R.
      * exfalso. assert (Q : o1 ++ [false] = true :: map (fun _ => true) ops) by congruence. destruct (Tr _ _ _ L1 Q) as [Q1 _]. discriminate.
Qed.
(** So an integer assigned along a chain of distinct fields of any numeric types is read from each of them. *)
Theorem C95_chain_partial : forall multi s l ops x z s', lived multi s -> Forall2 (fun p o => assigned (fst p) (snd p) x = Does o) l ops -> NoDup (map fst l) ->
  Forall (fun p => real_desc (fst p) /\ multi (fst p) = false) l -> integer_ok x -> integer x = Some z -> calm_run multi s (rev ops) -> chain s l x = Ok tt s' ->
  forall desc disc, In (desc, disc) l -> reads_as (PropertiesNumeric.read_loose s' desc disc) z.
Proof.
  intros multi s l ops x z s' Lv F ND V Ok I C H desc disc In1. apply (C95_chain l x ops s s' F) in H.
  destruct (in_split _ _ In1) as (la & lb & ->). apply Forall2_app_inv_l in F. destruct F as (oa & ob0 & Fa & Fb & ->). inversion Fb as [|p o lb' ob A Fb' E1 E2]. subst. cbn [fst snd] in A.
  rewrite rev_app_distr in *. cbn [rev] in *. rewrite <- app_assoc in *. cbn [app] in *.
  rewrite Forall_forall in V. destruct (V _ In1) as [D M]. cbn [fst] in D, M.
  apply (C95_integers_partial multi s (rev ob) o (rev oa) (map (fun _ => true) (rev ob)) (map (fun _ => true) (rev oa)) s' desc disc x z); auto.
  - rewrite H. do 2 f_equal. rewrite map_app. cbn [map].
    assert (P : forall n m, repeat true n ++ true :: repeat true m = repeat true m ++ true :: repeat true n) by (intros n m; change (true :: repeat true m) with (repeat true (1 + m)); change (true :: repeat true n) with (repeat true (1 + n)); rewrite <- !repeat_app; f_equal; lia).
    assert (Q : forall k : list op, map (fun _ : op => true) k = repeat true (length k)) by (induction k as [|y k IH]; cbn; congruence).
    rewrite !Q, !rev_length. apply P.
  - apply map_length.
  - intros o' I'. apply in_combine_l in I'. apply in_rev in I'.
    destruct (Forall2_in_r _ _ _ _ Fa I') as (p & Ip & Ap). destruct p as [d' b']. cbn [fst snd] in Ap.
    assert (No : d' <> desc). { intros ->. rewrite map_app in ND. cbn [map fst] in ND. apply NoDup_remove_2 in ND. apply ND, in_or_app. left. exact (in_map fst _ _ Ip). }
    destruct (as_call d' b' x z Ok I) as (c & _ & _ & _ & E). rewrite E in Ap. unfold by_plan in Ap. destruct (plan_tv _ _); [|discriminate]. injection Ap as <-. cbn [names]. exact No.
Qed.

(** ** Refuted *)
(** Assigning one field to another, [t\[a\] = t\[b\]], changes nothing, whatever the fields hold, and throws nothing. *)
Theorem C95_field_refuted : forall s desc disc from, put s desc disc (SField from) = Ok tt s /\
  (forall s', put s desc disc (SField from) = Ok tt s' -> get_loose s from <> get_loose s desc -> get_loose s' from <> get_loose s' desc).
Proof. intros s desc disc from. split; [reflexivity|]. intros s' H N. cbn in H. congruence. Qed.
(** Characters are taken up to the first zero, also from an array of a known size that holds more of them; without a
    zero they are read beyond their end. *)
Theorem C95_characters_refuted : forall b,
  (forall b1 b2, ~ In 0 b1 -> b = b1 ++ 0 :: b2 -> forall desc disc, assigned desc disc (SChars b) = assigned desc disc (SText b1)) /\
  (~ In 0 b -> forall desc disc, assigned desc disc (SChars b) = Undefined).
Proof.
  intros b. split.
  - intros b1 b2 N -> desc disc. cbn [assigned].
    assert (E : c_string (b1 ++ 0 :: b2) = Some b1); [|rewrite E; reflexivity].
    induction b1 as [|x b1 IH]; cbn [app c_string]; [reflexivity|]. cbn [In] in N. destruct (Z.eqb_spec x 0) as [E|_]; [tauto|]. rewrite IH by tauto. reflexivity.
  - intros N desc disc. cbn [assigned]. assert (E : c_string b = None); [|rewrite E; reflexivity].
    induction b as [|x b IH]; cbn [c_string]; [reflexivity|]. cbn [In] in N. destruct (Z.eqb_spec x 0) as [E|_]; [tauto|]. rewrite IH by tauto. reflexivity.
Qed.
(** A truth value is refused by every other integer type, which takes 0 and 1. *)
Theorem C95_truth_refuted : forall desc disc b, int_genus (descriptor2genus desc) = true -> descriptor2genus desc <> g_i8 ->
  assigned desc disc (SBool b) = Refuses /\ exists o, assigned desc disc (SI32 (if b then 1 else 0)) = Does o.
Proof.
  intros desc disc b G N. split.
  - cbn [assigned]. unfold by_name, set_op. cbn [set_type]. destruct (Z.eqb_spec (descriptor2genus desc) g_i8); [contradiction|reflexivity].
  - apply (C95_integers_taken desc disc _ (if b then 1 else 0)); [cbn [integer_ok]; destruct b; split; discriminate|reflexivity|]. unfold room_for.
    destruct (descriptor2genus desc =? g_f32); [destruct b; discriminate|]. destruct (descriptor2genus desc =? g_f64); [destruct b; discriminate|]. split; [exact G|].
    set (g := descriptor2genus desc) in *. clearbody g. destruct b; int_cases G; vm_compute; split; discriminate.
Qed.
(** A chain is not all or nothing: when a field on the left refuses, those on its right have their new values. *)
Theorem C95_chain_refuted : forall s l1 l2 desc disc x s1, chain s l2 x = Ok tt s1 -> assigned desc disc x = Refuses ->
  chain s (l1 ++ (desc, disc) :: l2) x = Throw s1.
Proof.
  intros s l1 l2 desc disc x s1 H A. induction l1 as [|[d b] l1 IH]; cbn [app chain].
  - rewrite H. cbn [bind]. unfold put. rewrite A. reflexivity.
  - rewrite IH. reflexivity.
Qed.

(** The operators are those of the tuple inside (tuples.h:926-930): on an auto-growing tuple they throw where the setter of
    the same value makes room and succeeds. *)
Theorem C95_growth_refuted : forall multi srt borrow l d s desc disc x o, lived multi s -> assigned desc disc x = Does o -> can_grow multi borrow l s o ->
  put s desc disc x = Throw s /\
  exists s', retry 1 (manage srt borrow true l d) s o = Some (true, s') /\ u32_value (get s' (KL desc)) = u32_value (last_write (KL desc) (get s (KL desc)) [(o, true)]).
Proof.
  intros multi srt borrow l d s desc disc x o Lv A G. destruct (lived_inv multi s Lv) as [T U]. split.
  - unfold put. rewrite A. destruct (cg_refused _ _ _ _ _ G) as [s0 R]. rewrite R. f_equal.
    pose proof (step multi s o T U (cg_valid _ _ _ _ _ G) (cg_calm _ _ _ _ _ G)) as St. rewrite R in St. symmetry. symmetry in St. symmetry. exact (eq_sym St).
  - destruct (C29_grow_partial multi srt borrow l d s o Lv G) as (s' & R & _ & _ & K & _). exists s'. split; [exact R|]. apply K.
    assert (O : exists v, o = OSet desc disc v).
    { assert (Bn : forall n a, by_name desc disc n a = Does o -> exists v, o = OSet desc disc v).
      { intros n a B. unfold by_name in B. destruct (set_op desc disc n a) as [o'|] eqn:E; [|discriminate]. destruct (set_op_is _ _ _ _ _ E) as (_ & v & t & _ & _ & Q). exists t. congruence. }
      assert (Bp : forall p, by_plan desc disc p = Does o -> exists v, o = OSet desc disc v).
      { intros p B. unfold by_plan in B. destruct (plan_tv _ p) as [v|]; [|discriminate]. exists v. congruence. }
      destruct x; cbn [assigned] in A; try (eapply Bn; eassumption); try (eapply Bp; eassumption); try discriminate.
      - destruct (c_string b); [eapply Bn; eassumption|discriminate].
      - destruct (set_number_float _ _ _); [eapply Bp; eassumption|discriminate].
      - destruct (set_number_float _ _ _); [eapply Bp; eassumption|discriminate].
      - destruct (other n); [eapply Bn; eassumption|discriminate]. }
    destruct O as [v ->]. pose proof (cg_valid _ _ _ _ _ G) as V. cbn [valid] in V. cbn [single_key]. tauto.
Qed.

(** ** Cases *)
Definition three : list (Z * bool) := [(fd g_u8 1, true); (fd g_f64 2, true); (fd g_i32 3, false)].
Definition three_ops : list op :=
  map (fun p => match assigned (fst p) (snd p) (SI64 200) with Does o => o | _ => OSet 0 true (mkV false []) end) three.
Definition three_end : st := final (new_tuple1 40 6) (rev three_ops).
Example C95_chain_case : lived (fun _ => false) (new_tuple1 40 6) /\ Forall2 (fun p o => assigned (fst p) (snd p) (SI64 200) = Does o) three three_ops /\ NoDup (map fst three) /\
  Forall (fun p => real_desc (fst p) /\ (fun _ : Z => false) (fst p) = false) three /\ integer_ok (SI64 200) /\ calm_run (fun _ => false) (new_tuple1 40 6) (rev three_ops) /\
  chain (new_tuple1 40 6) three (SI64 200) = Ok tt three_end /\ PropertiesNumeric.read_loose three_end (fd g_u8 1) true = Got 200.
Proof.
  assert (F : Forall2 (fun p o => assigned (fst p) (snd p) (SI64 200) = Does o) three three_ops) by (unfold three_ops, three; cbn [map]; repeat constructor).
  split. { apply l_reached. change (new_tuple1 40 6) with (final (new_tuple1 40 6) []). apply reached_final; [|vm_compute; reflexivity]. constructor; unfold no_slots, g_varbin; intros; lia. }
  split; [exact F|]. split; [repeat constructor; cbn; intuition discriminate|]. split; [repeat constructor; apply real_descb_ok; vm_compute; reflexivity|]. split; [split; discriminate|].
  split; [apply calm_runb_ok; vm_compute; reflexivity|]. split; [|vm_compute; reflexivity].
  apply (C95_chain _ _ _ _ _ F). unfold three_end. apply run_final. vm_compute. reflexivity.
Qed.
Example C95_room_case : room_for g_u16 65535 /\ ~ room_for g_u16 65536 /\ room_for g_f32 (-2097151) /\ ~ room_for g_f32 16777216 /\ ~ room_for g_text 0.
Proof. repeat split; vm_compute; try congruence; intros H; try (destruct H as [H1 [H2 H3]]); try congruence; destruct H; congruence. Qed.
Example C95_torn_case : chain (new_tuple1 40 6) [(fd g_i32 3, false)] (SI32 300) = Ok tt (final (new_tuple1 40 6) [OSet (fd g_i32 3) false (mkV false [300])]) /\
  assigned (fd g_u8 1) false (SI32 300) = Refuses /\
  PropertiesNumeric.read_loose (final (new_tuple1 40 6) [OSet (fd g_i32 3) false (mkV false [300])]) (fd g_i32 3) false = Got 300.
Proof. split; [|split; vm_compute; reflexivity]. apply (run1_final (new_tuple1 40 6)). vm_compute. reflexivity. Qed.
Example C95_text_case : kind (SChars [104; 105; 0; 33; 0]) = Some (NString, AVal (TText [104; 105])) /\
  assigned (fd g_text 4) true (SChars [104; 105; 0; 33; 0]) = assigned (fd g_text 4) true (SText [104; 105]) /\
  assigned (fd g_text 4) true (SChars [104; 105]) = Undefined /\
  (forall x o, assigned (fd g_varbin 5) true x <> Does o) /\ assigned (fd g_u8 1) true (SBool true) = Refuses.
Proof.
  split; [reflexivity|]. split; [apply (proj1 (C95_characters_refuted _) [104; 105] [33; 0]); [cbn; intuition discriminate|reflexivity]|]. split; [reflexivity|].
  split; [intros x o; apply C95_untaken_refuted; left; reflexivity|reflexivity].
Qed.
Definition greet_op : op := match assigned (fd g_text 4) true (SChars [104; 105; 0]) with Does o => o | _ => OSet 0 true (mkV false []) end.
Definition after_op : op := OSet (fd g_i32 3) true (mkV false [7]).
Definition greeted : st := final (new_tuple1 40 6) [greet_op; after_op].
Example C95_others_case : takes NString (AVal (TText [104; 105])) /\ narrow NString g_text (AVal (TText [104; 105])) /\
  pass NString g_text (AVal (TText [104; 105])) = Some (TText [104; 105]) /\ solid g_text true (TText [104; 105]) /\ assigned (fd g_text 4) true (SChars [104; 105; 0]) = Does greet_op /\
  calm_run (fun _ => false) (new_tuple1 40 6) ([] ++ greet_op :: [after_op]) /\ run asis (new_tuple1 40 6) ([] ++ greet_op :: [after_op]) = Some ([] ++ true :: [true], greeted) /\
  (forall o, In (o, true) (combine [after_op] [true]) -> ~ names (KL (fd g_text 4)) o) /\ named_get greeted (fd g_text 4) true NString = Gave (AVal (TText [104; 105])).
Proof.
  split; [cbn; repeat constructor; lia|]. split; [cbn; exact I|]. split; [reflexivity|]. split; [cbn; try exact I; try discriminate|]. split; [reflexivity|]. split; [apply calm_runb_ok; vm_compute; reflexivity|].
  split; [apply run_final; vm_compute; reflexivity|]. split; [intros o [E|[]] H; injection E as <-; revert H; vm_compute; discriminate|]. vm_compute. reflexivity.
Qed.
(** [t\[3\] = t\[4\]] with 7 in one field and 9 in the other *)
Definition seven_nine : st := final (new_tuple1 40 6) [OSet (fd g_i32 3) true (mkV false [7]); OSet (fd g_i32 4) true (mkV false [9])].
Example C95_field_case : lived (fun _ => false) seven_nine /\ put seven_nine (fd g_i32 3) true (SField (fd g_i32 4)) = Ok tt seven_nine /\
  PropertiesNumeric.read_loose seven_nine (fd g_i32 3) true = Got 7 /\ PropertiesNumeric.read_loose seven_nine (fd g_i32 4) true = Got 9.
Proof.
  split. { apply l_reached. unfold seven_nine. apply reached_final; [|vm_compute; reflexivity]. constructor; unfold no_slots, g_varbin; intros; lia. }
  split; [reflexivity|]. split; vm_compute; reflexivity.
Qed.

(** minus infinity is kept by a field of doubles and refused by one of integers; 3.75 is cut there *)
Example C95_float_case : floating (SF64 (2 ^ 63 + f_inf binary64)) = Some (binary64, 2 ^ 63 + f_inf binary64) /\ fmt_of (descriptor2genus (fd g_f64 2)) = binary64 /\
  assigned (fd g_u8 1) true (SF64 (2 ^ 63 + f_inf binary64)) = Refuses /\ assigned (fd g_u8 1) true (SF64 (enc binary64 (FFin false 15 (-2)))) = Does (OSet (fd g_u8 1) true (mkV false [3])) /\
  (exists o, assigned (fd g_f64 2) true (SF64 (2 ^ 63 + f_inf binary64)) = Does o /\ calm_run (fun _ => false) (new_tuple1 40 6) [o] /\
    PropertiesNumeric.read_loose (final (new_tuple1 40 6) [o]) (fd g_f64 2) true = GotF (dec binary64 (2 ^ 63 + f_inf binary64))).
Proof.
  split; [reflexivity|]. split; [reflexivity|]. split; [vm_compute; reflexivity|]. split; [vm_compute; reflexivity|].
  exists (OSet (fd g_f64 2) true (mkV false [0; 4293918720])). split; [vm_compute; reflexivity|]. split; [apply calm_runb_ok; vm_compute; reflexivity|]. vm_compute. reflexivity.
Qed.

Definition six_units : source := SText (repeat 97 20).
Definition six_op : op := match assigned (fd g_text 8) true six_units with Does o => o | _ => OSet 0 true (mkV false []) end.
Example C95_growth_case : lived odd_multi full9 /\ assigned (fd g_text 8) true six_units = Does six_op /\ can_grow odd_multi none_lent lay9 full9 six_op /\
  match retry 1 (manage srt_chunks none_lent true lay9 zeros) full9 six_op with Some (true, s') => map (fun w => w mod 256) (match get s' (KL (fd g_text 8)) with Some (_ :: w) => w | _ => [] end) = repeat 97 5 | _ => False end.
Proof.
  split; [apply l_reached; unfold full9; now_reach|]. split; [vm_compute; reflexivity|]. split; [constructor|vm_compute; reflexivity].
  - apply validb_ok; vm_compute; reflexivity.
  - vm_compute; reflexivity.
  - vm_compute; reflexivity.
  - vm_compute; exact I.
  - split; [discriminate|split; [reflexivity|split; [reflexivity|intros [|j] Hj; [split; reflexivity|cbn in Hj; lia]]]].
  - intros n Hn; unfold none_lent; lia.
  - reflexivity.
  - reflexivity.
  - rewrite run1_failed by (vm_compute; reflexivity). eauto.
  - vm_compute; reflexivity.
  - vm_compute; reflexivity.
  - vm_compute; discriminate.
  - vm_compute; discriminate.
  - vm_compute; discriminate.
Qed.

Print Assumptions C95_integers_taken. Print Assumptions C95_text_taken. Print Assumptions C95_truth_taken. Print Assumptions C95_others_taken.
Print Assumptions C95_integers_partial. Print Assumptions C95_cut_partial. Print Assumptions C95_floats_partial. Print Assumptions C95_others_partial. Print Assumptions C95_chain. Print Assumptions C95_chain_partial.
Print Assumptions C95_untaken_refuted. Print Assumptions C95_field_refuted. Print Assumptions C95_characters_refuted. Print Assumptions C95_truth_refuted. Print Assumptions C95_chain_refuted. Print Assumptions C95_growth_refuted.
