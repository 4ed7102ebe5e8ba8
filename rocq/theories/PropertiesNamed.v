(** * PropertiesNamed: C81, the setters, getters and insertions named after types. *)
From Verif Require Import Base Tag TagProofs Codec CodecProofs Gear GearBase GearSearch GearProofs GearAlloc GearRealloc Tuple TupleProofs TupleSteps TupleView TupleOps TupleMore
  TupleHist TupleFacts PropertiesTuple GearOpt GearOptProofs GearSortProofs PropertiesOpt Growth GrowthProofs PropertiesGrowth Traits Values Numeric NumericProofs PropertiesNumeric Typed TypedProofs
  PropertiesTyped Named.
From Coq Require Import ZifyBool ZifyNat Permutation.
Ltac Zify.zify_post_hook ::= Z.div_mod_to_equations.

(** ** The tables *)
(** a setter and the getter of the same name go for the same type of field, whatever the field *)
Theorem C81_setters_and_getters : forall n g, set_type n g = get_type n g.
Proof. intros [] g; reflexivity. Qed.
(** so do the insertions, but for dates kept as seconds *)
Theorem C81_insertions_partial : forall n g, insert_type n g = set_type n g \/ (n = NDatetime /\ g = g_t32).
Proof. intros [] g; auto. cbn. destruct (Z.eqb_spec g g_t32); auto. Qed.
(** the groups of names that go for the same type; any two names that do are in one group *)
Definition synonyms : list (list name) := [[NBool; NI8; NInt128]; [NEnum; NI16; NInt128]; [NUuid; NBin128; NInt128; NUint128]; [NI32; NInt128]; [NI64; NInt128];
  [NU8; NUint128]; [NU16; NUint128]; [NU32; NUint128]; [NU64; NUint128]].
Scheme Equality for name.
Definition member (n : name) (l : list name) : bool := existsb (name_beq n) l.
Lemma member_in n l : member n l = true <-> In n l.
Proof.
  unfold member. rewrite existsb_exists. split; [intros (x & I & E); apply internal_name_dec_bl in E; subst x; exact I|].
  intros I. exists n. split; [exact I|]. apply internal_name_dec_lb. reflexivity.
Qed.
Lemma every_name n : In n all_names.
Proof. destruct n; cbn; tauto. Qed.
Theorem C81_no_confusion : forall m n g, 0 <= g < 31 -> set_type m g = g -> set_type n g = g -> m = n \/ exists l, In l synonyms /\ In m l /\ In n l.
Proof.
  intros m n g G M N.
  assert (A : forallb (fun k => forallb (fun m => forallb (fun n => negb (set_type m (Z.of_nat k) =? Z.of_nat k) || negb (set_type n (Z.of_nat k) =? Z.of_nat k) ||
    name_beq m n || existsb (fun l => member m l && member n l) synonyms) all_names) all_names) (seq 0 31) = true) by (vm_compute; reflexivity).
  rewrite forallb_forall in A. specialize (A (Z.to_nat g) ltac:(apply in_seq; lia)). rewrite Z2Nat.id in A by lia.
  rewrite forallb_forall in A. specialize (A m (every_name m)). rewrite forallb_forall in A. specialize (A n (every_name n)).
  rewrite M, N, Z.eqb_refl in A. cbn [negb orb] in A. apply Bool.orb_prop in A. destruct A as [A|A]; [left; apply internal_name_dec_bl; exact A|right].
  apply existsb_exists in A. destruct A as (l & I & A). apply andb_prop in A. exists l. rewrite <- !member_in. tauto.
Qed.
(** every type of field has a setter, except the two types left to applications *)
Theorem C81_which_types : forall g, 0 <= g < 31 ->
  ((exists n, set_type n g = g) <-> g <> g_app64 /\ g <> g_app128) /\
  ((exists n, insert_type n g = g) <-> g <> g_app64 /\ g <> g_app128 /\ g <> g_t32).
Proof.
  intros g G.
  assert (A : forallb (fun k => let g := Z.of_nat k in
    Bool.eqb (existsb (fun n => set_type n g =? g) all_names) (negb ((g =? g_app64) || (g =? g_app128))) &&
    Bool.eqb (existsb (fun n => insert_type n g =? g) all_names) (negb ((g =? g_app64) || (g =? g_app128) || (g =? g_t32)))) (seq 0 31) = true) by (vm_compute; reflexivity).
  rewrite forallb_forall in A. specialize (A (Z.to_nat g) ltac:(apply in_seq; lia)). cbv zeta in A. rewrite Z2Nat.id in A by lia.
  apply andb_prop in A. destruct A as [A B]. apply Bool.eqb_prop in A, B.
  assert (H : forall f : name -> Z -> Z, existsb (fun n => f n g =? g) all_names = true <-> exists n, f n g = g).
  { intros f. rewrite existsb_exists. split; [intros (n & _ & E); exists n; lia|]. intros (n & E). exists n. split; [apply every_name|lia]. }
  rewrite <- (H set_type), <- (H insert_type), A, B. split; lia.
Qed.
Example C81_types_case : set_type NDatetime g_t32 = g_t32 /\ insert_type NDatetime g_t32 = g_t64 /\ set_type NBool g_i8 = g_i8 /\ set_type NString g_varbin = g_text.
Proof. repeat split. Qed.

(** ** Arguments *)
(** an argument of the type of the parameter *)
Definition takes (n : name) (a : arg) : Prop :=
  match n, a with
  | NBool, ABool _ => True
  | (NEnum | NI16), ANum z => - 2 ^ 15 <= z <= 2 ^ 15 - 1
  | NI8, ANum z => - 2 ^ 7 <= z <= 2 ^ 7 - 1
  | NU8, ANum z => 0 <= z < 2 ^ 8
  | NU16, ANum z => 0 <= z < 2 ^ 16
  | NI32, ANum z => - 2 ^ 31 <= z <= 2 ^ 31 - 1
  | (NU32 | NF32), ANum z => 0 <= z < 2 ^ 32
  | NI64, ANum z => - 2 ^ 63 <= z <= 2 ^ 63 - 1
  | (NU64 | NF64 | NDecimal | NDatetime | NMac), ANum z => 0 <= z < 2 ^ 64
  | NInt128, ANum z => - 2 ^ 127 <= z <= 2 ^ 127 - 1
  | NUint128, ANum z => 0 <= z < 2 ^ 128
  | (NString | NVarbinary | NNested | NProperty | NUuid | NBin96 | NBin128 | NBin160 | NBin192 | NBin224 | NBin256 | NBin320 | NBin384 | NBin512 | NIp | NIpNet), AVal v => good v
  | _, _ => False
  end.
(** 128-bit integers are narrowed to 64 bits before anything else (C20_128_refuted) *)
Definition narrow (n : name) (g : Z) (a : arg) : Prop :=
  match n, a with
  | NInt128, ANum z => g <> g_bin128 -> - 2 ^ 63 <= z <= 2 ^ 63 - 1
  | NUint128, ANum z => g <> g_bin128 -> 0 <= z < 2 ^ 64
  | _, _ => True
  end.
(** the values that a field cannot tell from an empty one: minus zero, a nested tuple that is a bare header, a null nested
    tuple (C77) *)
Definition solid (g : Z) (disc : bool) (v : tval) : Prop :=
  match v with
  | TNested None => disc = false
  | TNested (Some h) => u16_at h 0 <> 1
  | TFixed b => (g = g_f32 \/ g = g_f64) -> v <> minus_zero g
  | _ => True
  end.
(** what the getter of the same name is to give: a date kept as seconds loses its fraction, all else is
    given back as it was *)
Definition worth (n : name) (g : Z) (a : arg) : arg :=
  match n, a with
  | NDatetime, ANum t => if g =? g_t32 then ANum (t - t mod 2 ^ 32) else a
  | _, _ => a
  end.
Lemma fixed_good g z : good (fixed g z).
Proof. cbn [good fixed]. apply le_bytes_range. Qed.
Lemma pass_good n g a v : takes n a -> pass n g a = Some v -> good v.
Proof.
  intros T P. destruct n, a as [b|z|w]; cbn [takes] in T; try contradiction; cbn [pass] in P; try (injection P as <-); try apply fixed_good; try exact T;
  destruct (g =? g_bin128); try (injection P as <-; apply fixed_good).
  - destruct (set_int128 g z); try discriminate. injection P as <-. apply fixed_good.
  - destruct (set_uint128 g z); try discriminate. injection P as <-. apply fixed_good.
Qed.
Lemma pow256 n : 256 ^ Z.of_nat n = 2 ^ (8 * Z.of_nat n).
Proof. rewrite Z.pow_mul_r by lia. reflexivity. Qed.
Lemma fixed_value g z : 0 <= value_size g -> le_value (le_bytes (Z.to_nat (value_size g)) z) = z mod 2 ^ (8 * value_size g).
Proof. intros H. rewrite le_value_bytes, pow256, Z2Nat.id by exact H. reflexivity. Qed.
Lemma sgn_of_mod n z : 0 <= n -> sgn n (z mod 2 ^ n) = sgn n z.
Proof. intros H. apply sgn_mod, Z.mod_mod. pose proof (Z.pow_pos_nonneg 2 n ltac:(lia) H). lia. Qed.
Lemma take_fixed n g z : 0 < value_size g ->
  (match n with NEnum | NI8 | NI16 | NI32 | NI64 => - 2 ^ (8 * value_size g - 1) <= z <= 2 ^ (8 * value_size g - 1) - 1
   | NU8 | NU16 | NU32 | NU64 | NF32 | NF64 | NDecimal | NMac | NUint128 => 0 <= z < 2 ^ (8 * value_size g)
   | NInt128 => ((g =? g_bin128) || signed_genus g = true) /\ - 2 ^ (8 * value_size g - 1) <= z <= 2 ^ (8 * value_size g - 1) - 1
   | _ => False end) -> take n g (fixed g z) = ANum z.
Proof.
  intros P R. destruct n; try contradiction; cbn [take fixed number]; rewrite fixed_value by lia; f_equal; try (apply Z.mod_small; exact R).
  all: try (rewrite sgn_of_mod by lia; apply sgn_fits; [lia|exact R]).
  destruct R as [-> R]. rewrite sgn_of_mod by lia. apply sgn_fits; [lia|exact R].
Qed.
Lemma of_seconds t : 0 <= t < 2 ^ 64 -> from_seconds (utc_seconds t) = t - t mod 2 ^ 32 /\ 0 <= utc_seconds t < 2 ^ 32.
Proof. intros H. unfold from_seconds, utc_seconds, u32, u64. rewrite Z.shiftr_div_pow2, Z.shiftl_mul_pow2 by lia. change (2 ^ 32) with 4294967296 in *. change (2 ^ 64) with 18446744073709551616 in *. lia. Qed.
Lemma take_pass n g a v : 0 <= g < 31 -> takes n a -> set_type n g = g -> narrow n g a -> pass n g a = Some v -> take n g v = worth n g a.
Proof.
  intros R T S N P. destruct n, a as [b|z|w]; cbn [takes] in T; try contradiction; cbn [pass] in P; cbn [worth]; cbn [set_type] in S; cbn [narrow] in N.
  all: try (injection P as <-).
  all: try (destruct w; reflexivity).
  all: try (subst g; apply take_fixed; [reflexivity|exact T]).
  - subst g. destruct b; reflexivity.
  - destruct (Z.eqb_spec g g_t32) as [->|].
    + destruct (of_seconds z T) as [E U]. cbn [take fixed]. rewrite fixed_value by discriminate. change (8 * value_size g_t32) with 32.
      rewrite Z.mod_small by exact U. cbn. f_equal. exact E.
    + subst g. cbn [take fixed]. rewrite fixed_value by discriminate. change (8 * value_size g_t64) with 64. rewrite Z.mod_small by exact T. reflexivity.
  - destruct (Z.eqb_spec g g_bin128) as [->|NB].
    + injection P as <-. apply take_fixed; [reflexivity|]. split; [reflexivity|exact T].
    + cbn [orb] in S. destruct (signed_genus g) eqn:SG; [|lia]. unfold set_int128 in P. rewrite sgn_fits in P by (auto; lia).
      assert (F : forall y, PInt z = PInt y \/ False -> y = z) by (intros y [Q|[]]; congruence).
      unfold set_integer_i64 in P. rewrite SG in P.
      assert (X : v = fixed g z /\ fits g z).
      { destruct (Z.eqb_spec g g_i64) as [->|]; [injection P as <-; split; [reflexivity|exact (N NB)]|].
        destruct (Z.eqb_spec z (icast g z)) as [E|]; [|discriminate]. injection P as <-. rewrite <- E. split; [reflexivity|apply icast_iff; exact E]. }
      destruct X as [-> X]. pose proof (signed_int g SG) as G.
      assert (VS : 8 * value_size g = nbits g) by (int_cases G; reflexivity).
      apply take_fixed; [int_cases G; reflexivity|]. rewrite SG, Bool.orb_true_r, VS. split; [reflexivity|]. unfold fits, int_min, int_max in X. rewrite SG in X. exact X.
  - destruct (Z.eqb_spec g g_bin128) as [->|NB].
    + injection P as <-. apply take_fixed; [reflexivity|exact T].
    + cbn [orb] in S. destruct (unsigned_genus g) eqn:SG; [|lia]. unfold set_uint128, u64 in P. rewrite Z.mod_small in P by (auto; lia).
      unfold set_unsigned_u64 in P. rewrite SG in P. pose proof (unsigned_int g SG) as G.
      assert (NS : signed_genus g = false) by (int_cases G; try reflexivity; discriminate SG).
      assert (X : v = fixed g z /\ fits g z).
      { destruct (Z.eqb_spec g g_u64) as [->|]; [injection P as <-; split; [reflexivity|]; specialize (N NB); unfold fits; cbn; lia|].
        destruct (Z.eqb_spec z (icast g z)) as [E|]; [|discriminate]. injection P as <-. rewrite <- E. split; [reflexivity|apply icast_iff; exact E]. }
      destruct X as [-> X].
      assert (VS : 8 * value_size g = nbits g) by (int_cases G; reflexivity).
      apply take_fixed; [int_cases G; reflexivity|]. rewrite VS. unfold fits, int_min, int_max in X. rewrite NS in X. lia.
Qed.

(** ** Histories *)
Lemma set_op_is desc disc n a o : set_op desc disc n a = Some o ->
  let g := descriptor2genus desc in set_type n g = g /\ exists v t, pass n g a = Some v /\ to_tv g v = Some t /\ o = OSet desc disc t.
Proof.
  unfold set_op. intros H. cbv zeta. destruct (Z.eqb_spec (descriptor2genus desc) (set_type n (descriptor2genus desc))) as [E|]; [|discriminate].
  destruct (pass n _ a) as [v|]; [|discriminate]. destruct (to_tv _ v) as [t|] eqn:Et; [|discriminate]. split; [congruence|]. exists v, t. split; [reflexivity|]. split; [exact Et|congruence].
Qed.
(** the value a named setter has given to a field stays there *)
Lemma stays multi s l1 o l2 outs1 outs2 s' desc disc v t : lived multi s -> real_desc desc -> multi desc = false ->
  good v -> to_tv (descriptor2genus desc) v = Some t -> solid (descriptor2genus desc) disc v -> o = OSet desc disc t ->
  calm_run multi s (l1 ++ o :: l2) -> run asis s (l1 ++ o :: l2) = Some (outs1 ++ true :: outs2, s') ->
  length outs1 = length l1 -> (forall o, In (o, true) (combine l2 outs2) -> ~ names (KL desc) o) -> see s' desc disc = Seen (Some v).
Proof.
  intros Lv D M G E So -> C R Len N. pose proof (real_genus desc D) as RG. set (g := descriptor2genus desc) in *.
  destruct (is_empty g v) eqn:EM.
  - destruct disc.
    + apply (rb_see s' desc v). apply (C77_loose_partial multi s l1 l2 outs1 outs2 s' desc true v t); auto. intros ->. discriminate So.
    + destruct (C77_empty_reads_empty multi s l1 l2 outs1 outs2 s' desc v t) as [H _]; auto. fold g in H. rewrite H. do 2 f_equal.
      destruct (proj1 (C77_what_is_empty g v t RG G E) EM) as [Q|[[Q1 Q2]|(h & Q1 & Q2)]]; [congruence| |].
      * exfalso. rewrite Q2 in So at 1. cbn [solid minus_zero] in So. exact (So Q1 eq_refl).
      * exfalso. subst v. exact (So Q2).
  - apply (rb_see s' desc v). apply (C77_loose_partial multi s l1 l2 outs1 outs2 s' desc disc v t); auto. intros ->. discriminate EM.
Qed.
(** A getter after any history: whatever name the setter went by, the getter makes of the value what it
    makes of values. *)
Theorem C81_any_getter_partial : forall multi s l1 o l2 outs1 outs2 s' desc disc m n a v, lived multi s -> real_desc desc -> multi desc = false ->
  takes m a -> set_op desc disc m a = Some o -> pass m (descriptor2genus desc) a = Some v -> solid (descriptor2genus desc) disc v ->
  get_type n (descriptor2genus desc) = descriptor2genus desc ->
  calm_run multi s (l1 ++ o :: l2) -> run asis s (l1 ++ o :: l2) = Some (outs1 ++ true :: outs2, s') ->
  length outs1 = length l1 -> (forall o, In (o, true) (combine l2 outs2) -> ~ names (KL desc) o) ->
  named_get s' desc disc n = Gave (take n (descriptor2genus desc) v).
Proof.
  intros multi s l1 o l2 outs1 outs2 s' desc disc m n a v Lv D M T O P So Gt C R Len N.
  destruct (set_op_is _ _ _ _ _ O) as (_ & v' & t & P' & E & Eo). rewrite P in P'. injection P' as <-.
  unfold named_get. rewrite Gt, Z.eqb_refl. rewrite (stays multi s l1 o l2 outs1 outs2 s' desc disc v t); auto. apply (pass_good m (descriptor2genus desc) a); assumption.
Qed.
(** The getter of the same name gives back what was set; a date kept as seconds loses its fraction. *)
Theorem C81_round_trip_partial : forall multi s l1 o l2 outs1 outs2 s' desc disc n a v, lived multi s -> real_desc desc -> multi desc = false ->
  takes n a -> narrow n (descriptor2genus desc) a -> set_op desc disc n a = Some o -> pass n (descriptor2genus desc) a = Some v -> solid (descriptor2genus desc) disc v ->
  calm_run multi s (l1 ++ o :: l2) -> run asis s (l1 ++ o :: l2) = Some (outs1 ++ true :: outs2, s') ->
  length outs1 = length l1 -> (forall o, In (o, true) (combine l2 outs2) -> ~ names (KL desc) o) ->
  named_get s' desc disc n = Gave (worth n (descriptor2genus desc) a).
Proof.
  intros multi s l1 o l2 outs1 outs2 s' desc disc n a v Lv D M T Nw O P So C R Len N.
  destruct (set_op_is _ _ _ _ _ O) as (St & _). pose proof St as Gt. rewrite C81_setters_and_getters in Gt.
  rewrite (C81_any_getter_partial multi s l1 o l2 outs1 outs2 s' desc disc n n a v); auto.
  f_equal. apply take_pass; auto. apply real_genus. exact D.
Qed.
(** dates kept as seconds keep their order, and two dates become one exactly when they are of one second *)
Theorem C81_dates : forall t u, 0 <= t < 2 ^ 64 -> 0 <= u < 2 ^ 64 ->
  match worth NDatetime g_t32 (ANum t), worth NDatetime g_t32 (ANum u) with
  | ANum t', ANum u' => t - 2 ^ 32 < t' <= t /\ (t <= u -> t' <= u') /\ (t' = u' <-> t / 2 ^ 32 = u / 2 ^ 32) /\ (worth NDatetime g_t32 (ANum t') = ANum t')
  | _, _ => False
  end.
Proof.
  intros t u T U. cbn [worth]. rewrite Z.eqb_refl. change (2 ^ 32) with 4294967296. change (2 ^ 64) with 18446744073709551616 in *.
  split; [lia|]. split; [lia|]. split; [lia|]. f_equal. lia.
Qed.
(** what the other names of a type make of it *)
Theorem C81_across_names : forall z,
  (- 2 ^ 7 <= z <= 2 ^ 7 - 1 -> take NBool g_i8 (fixed g_i8 z) = ABool (negb (z =? 0)) /\ take NInt128 g_i8 (fixed g_i8 z) = ANum z) /\
  (forall b, match pass NBool g_i8 (ABool b) with Some v => take NI8 g_i8 v = ANum (if b then 1 else 0) /\ take NInt128 g_i8 v = ANum (if b then 1 else 0) | None => False end) /\
  (- 2 ^ 15 <= z <= 2 ^ 15 - 1 -> take NEnum g_i16 (fixed g_i16 z) = ANum z /\ take NI16 g_i16 (fixed g_i16 z) = ANum z) /\
  (- 2 ^ 127 <= z <= 2 ^ 127 - 1 -> take NUint128 g_bin128 (fixed g_bin128 z) = ANum (z mod 2 ^ 128)) /\
  (0 <= z < 2 ^ 127 -> take NInt128 g_bin128 (fixed g_bin128 z) = ANum z) /\
  (forall v, take NUuid g_bin128 v = take NBin128 g_bin128 v).
Proof.
  intros z. split; [|split; [|split; [|split; [|split]]]].
  - intros H. split; [|apply take_fixed; [reflexivity|split; [reflexivity|exact H]]]. cbn [take fixed]. rewrite fixed_value by discriminate.
    change (8 * value_size g_i8) with 8. rewrite sgn_of_mod, sgn_fits by (auto; lia). reflexivity.
  - intros []; split; reflexivity.
  - intros H. split; (apply take_fixed; [reflexivity|exact H]).
  - intros H. cbn [take fixed number]. rewrite fixed_value by discriminate. reflexivity.
  - intros H. apply take_fixed; [reflexivity|]. split; [reflexivity|]. change (8 * value_size g_bin128 - 1) with 127. change (2 ^ 127) with 170141183460469231731687303715884105728 in *. lia.
  - intros []; reflexivity.
Qed.

(** ** Insertions *)
(** An insertion puts one more element into the collection, which the getter of the same name reads as what was
    given; it changes nothing else.  A value that counts as empty is not put in unless empty values are to be told from absent ones. *)
Theorem C81_insert_partial : forall multi s desc coll disc n a o v, worked multi s -> real_desc desc -> multi desc = true -> takes n a -> narrow n (descriptor2genus desc) a ->
  insert_op desc coll disc n a = Some o -> pass n (descriptor2genus desc) a = Some v -> v <> TNested None -> calm s o = true ->
  match named_call s (Some o) with
  | Ok _ s' => (forall k, single_key multi s k -> get s' k = get s k) /\
     ((exists ws, Permutation (view s' desc) (ws :: view s desc) /\ answer n (descriptor2genus desc) (Seen (from_units (descriptor2genus desc) ws)) = Gave (worth n (descriptor2genus desc) a)) \/
      (disc = false /\ is_empty (descriptor2genus desc) v = true /\ Permutation (view s' desc) (view s desc)))
  | Throw s' => s' = s
  | Bad => False
  end.
Proof.
  intros multi s desc coll disc n a o v W D M T Nw O P V C. destruct (worked_inv multi s W) as [I U]. pose proof (real_genus desc D) as RG.
  unfold insert_op in O. set (g := descriptor2genus desc) in *. destruct (Z.eqb_spec g (insert_type n g)) as [E|]; [|discriminate]. destruct coll; [|discriminate]. cbn [andb] in O.
  rewrite P in O. destruct (to_tv g v) as [t|] eqn:Et; [|discriminate]. assert (o = OAppend desc disc t) by congruence. subst o. clear O.
  pose proof (to_tv_kept g v t RG (pass_good _ _ _ _ T P) Et) as K.
  assert (X : take n g v = worth n g a).
  { destruct (C81_insertions_partial n g) as [Q|[Q1 Q2]]; [apply take_pass; congruence|]. rewrite Q1, Q2 in E. discriminate E. }
  pose proof (step multi s (OAppend desc disc t) I U (conj D (conj M (kp_wf _ _ _ K))) C) as St. cbn [named_call].
  destruct (run1 asis s (OAppend desc disc t)) as [[] s'|s'|]; auto. split.
  - intros k Hk. exact (p_get _ _ _ _ St k Hk).
  - pose proof (p_bag _ _ _ _ St desc (view s desc) D M (Permutation_refl _)) as Pm. cbn [bag_step] in Pm.
    rewrite Z.eqb_refl in Pm. cbn [andb] in Pm. destruct (negb disc && v_empty t) eqn:N; cbn [negb] in Pm.
    + right. apply Bool.andb_true_iff in N. destruct N as [N1 N2]. rewrite (kp_empty _ _ _ K) in N2. split; [destruct disc; [discriminate|reflexivity]|]. auto.
    + left. exists (pay t). split; [exact Pm|]. rewrite (kp_read _ _ _ K V). cbn [answer]. rewrite X. reflexivity.
Qed.
(** Nothing can be put into a collection of dates kept as seconds, under any name and with any value - nor by the
    insertions of numbers; a single field of the type takes any date. *)
Theorem C81_second_dates_refuted : forall desc disc coll s, descriptor2genus desc = g_t32 ->
  (forall n a, named_call s (insert_op desc coll disc n a) = Throw s) /\
  (forall c, call_plan g_t32 c = PMismatch \/ call_plan g_t32 c = PRange) /\
  (forall t, 0 <= t < 2 ^ 64 -> exists o, set_op desc disc NDatetime (ANum t) = Some o).
Proof.
  intros desc disc coll s E. split; [|split].
  - intros n a. unfold insert_op. rewrite E. destruct n; reflexivity.
  - intros []; cbn [call_plan]; auto.
    all: unfold set_integer_i64, set_integer_u64, set_unsigned_u64, set_unsigned_i64, set_integer_u64, set_number_i32, set_number_u32, set_number_i64, set_number_u64, set_number_int, set_integer_i64; cbn; repeat match goal with |- context [if ?c then _ else _] => destruct c end; auto.
  - intros t T. unfold set_op. rewrite E. cbn. eexists. reflexivity.
Qed.
(** ** Wrong types *)
(** A setter or an insertion called for a field of another type than the table says leaves the tuple alone, and a getter says so. *)
Theorem C81_wrong_type : forall s desc coll disc n a,
  (set_type n (descriptor2genus desc) <> descriptor2genus desc -> named_call s (set_op desc disc n a) = Throw s /\ named_get s desc disc n = WrongType) /\
  (insert_type n (descriptor2genus desc) <> descriptor2genus desc \/ coll = false -> named_call s (insert_op desc coll disc n a) = Throw s) /\
  (get_type n (descriptor2genus desc) = descriptor2genus desc -> named_get s desc disc n <> WrongType).
Proof.
  intros s desc coll disc n a. split; [|split].
  - intros H. unfold set_op, named_get. pose proof (C81_setters_and_getters n (descriptor2genus desc)) as Q. destruct (Z.eqb_spec (descriptor2genus desc) (get_type n (descriptor2genus desc))); [congruence|]. destruct (Z.eqb_spec (descriptor2genus desc) (set_type n (descriptor2genus desc))); [congruence|]. split; reflexivity.
  - intros H. unfold insert_op. destruct (Z.eqb_spec (descriptor2genus desc) (insert_type n (descriptor2genus desc))); [|reflexivity]. destruct H as [H| ->]; [congruence|reflexivity].
  - intros H. unfold named_get. rewrite H, Z.eqb_refl. unfold answer. destruct (see s desc disc) as [[v|]|]; discriminate.
Qed.

(** ** Wrappers *)
(** The wrappers of the public classes give what the accessors give, for every name but the two 128-bit integers ... *)
Theorem C81_wrappers_partial : forall s desc disc n, n <> NInt128 -> n <> NUint128 -> wrapped_get s desc disc n = Some (named_get s desc disc n).
Proof. intros s desc disc n A B. unfold wrapped_get. destruct n; try congruence; cbn [wrapper_hands accessor_hands]; destruct (named_get s desc disc _); reflexivity. Qed.
(** ... which return a reference to an object that no longer exists whenever there is a value to give. *)
Theorem C81_wrappers_refuted : forall s desc disc n x, n = NInt128 \/ n = NUint128 -> named_get s desc disc n = Gave x -> wrapped_get s desc disc n = None.
Proof. intros s desc disc n x [-> | ->] H; unfold wrapped_get; cbn [wrapper_hands accessor_hands]; rewrite H; reflexivity. Qed.

(** ** Examples *)
Definition op_of (o : option op) : op := match o with Some o => o | None => ORemove 0 end.
Definition named_calls : list op := [op_of (set_op (fd g_t32 1) false NDatetime (ANum (1600000000 * 2 ^ 32 + 12345))); op_of (set_op (fd g_i8 2) true NBool (ABool true));
  op_of (set_op (fd g_bin128 3) false NInt128 (ANum (- 2 ^ 100))); op_of (set_op (fd g_i16 4) false NEnum (ANum (- 7)))].
Definition named_end : st := final (new_tuple1 40 6) named_calls.
Definition reads (x : got) (z : Z) : bool := match x with Gave (ANum y) => y =? z | _ => false end.
Definition tells (x : got) (b : bool) : bool := match x with Gave (ABool y) => Bool.eqb y b | _ => false end.
Example C81_case : lived (fun _ => false) (new_tuple1 40 6) /\ calm_run (fun _ => false) (new_tuple1 40 6) named_calls /\
  run asis (new_tuple1 40 6) named_calls = Some ([true; true; true; true], named_end) /\
  reads (named_get named_end (fd g_t32 1) false NDatetime) (1600000000 * 2 ^ 32) = true /\ tells (named_get named_end (fd g_i8 2) true NBool) true = true /\
  reads (named_get named_end (fd g_bin128 3) false NInt128) (- 2 ^ 100) = true /\ reads (named_get named_end (fd g_i16 4) false NI16) (-7) = true /\
  named_get named_end (fd g_i16 4) false NU16 = WrongType /\ wrapped_get named_end (fd g_bin128 3) false NInt128 = None.
Proof.
  assert (C : calm_runb (fun _ => false) (new_tuple1 40 6) named_calls = true) by (vm_compute; reflexivity).
  split; [|split; [apply calm_runb_ok; exact C|]].
  - apply l_reached. change (new_tuple1 40 6) with (final (new_tuple1 40 6) []). apply reached_final; [|vm_compute; reflexivity]. constructor; unfold no_slots, g_varbin; intros; lia.
  - split; [apply run_final; vm_compute; reflexivity|]. repeat split; vm_compute; reflexivity.
Qed.
Example C81_insert_case : worked (fun _ => true) (new_tuple1 40 6) /\ insert_op (fd g_u16 5) true false NU16 (ANum 40000) = Some (op_of (insert_op (fd g_u16 5) true false NU16 (ANum 40000))) /\
  calm (new_tuple1 40 6) (op_of (insert_op (fd g_u16 5) true false NU16 (ANum 40000))) = true /\ takes NU16 (ANum 40000).
Proof.
  split. { apply w_reached. change (new_tuple1 40 6) with (final (new_tuple1 40 6) []). apply reached_final; [|vm_compute; reflexivity]. constructor; unfold no_slots, g_varbin; intros; lia. }
  split; [vm_compute; reflexivity|]. split; [vm_compute; reflexivity|]. cbn. lia.
Qed.

Print Assumptions C81_no_confusion. Print Assumptions C81_which_types. Print Assumptions C81_any_getter_partial. Print Assumptions C81_round_trip_partial.
Print Assumptions C81_insert_partial. Print Assumptions C81_second_dates_refuted. Print Assumptions C81_wrong_type. Print Assumptions C81_across_names.
