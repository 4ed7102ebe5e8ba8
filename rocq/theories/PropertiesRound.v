(** * PropertiesRound: C21 and C95, numbers stored in fields of the other floating-point type. *)
From Coq Require Import List.
From Verif Require Import Base Tag TagProofs Codec Gear GearBase Tuple TupleProofs TupleView TupleOps TupleMore TupleHist TupleFacts PropertiesTuple GearOpt GearSortProofs PropertiesOpt Growth GrowthProofs PropertiesGrowth
  Traits Values Numeric NumericProofs PropertiesNumeric Typed TypedProofs PropertiesTyped Named PropertiesNamed Assign PropertiesAssign RoundProofs.
From Coq Require Import ZifyBool ZifyNat.

Lemma enc_sign f n a e : fmt2 f -> 0 <= a -> finite (dec f (enc f (FFin n a e))) = true -> exists a' e', dec f (enc f (FFin n a e)) = FFin n a' e'.
Proof.
  intros F Ha Fi. pose proof (fmt2_good f F) as G. unfold enc in *. cbv zeta in *. set (B := if a =? 0 then 0 else _) in *.
  assert (B0 : 0 <= B).
  { unfold B. destruct (Z.eqb_spec a 0); [lia|]. set (q := Z.max _ _). assert (0 <= f_inf f) by (destruct F as [-> | ->]; vm_compute; discriminate).
    destruct (rne_bounds a (q - e) (f_p f - 1) ltac:(lia) ltac:(destruct G; lia) ltac:(unfold q; lia)) as [[R _] _].
    assert (0 <= (q - f_emin f) * 2 ^ (f_p f - 1)) by (apply Z.mul_nonneg_nonneg; [unfold q; lia|apply Z.pow_nonneg; lia]). lia. }
  assert (B1 : B <= f_inf f) by (unfold B; destruct (a =? 0); [destruct F as [-> | ->]; vm_compute; discriminate|apply Z.le_min_l]).
  clearbody B. destruct (Z.eq_dec B (f_inf f)) as [->|N]; [rewrite dec_infinite in Fi by exact F; discriminate|].
  rewrite dec_low by (exact G || lia). cbv zeta. destruct (_ =? 0); eauto.
Qed.

(** ** C21.  A double in a field of floats: the nearest float, of two equally near ones the even one; the sign, infinities and NaN are kept *)
Theorem C21_nearest : forall b bits, set_float g_f32 b = PFlt bits \/ set_number_float binary64 g_f32 b = Some (PFlt bits) ->
  match dec binary64 b with
  | FNan => dec binary32 bits = FNan
  | FInf n => dec binary32 bits = FInf n
  | FFin n a e => (exists a' e', dec binary32 bits = FFin n a' e') /\
    forall c, 0 <= c < 2 ^ 32 -> finite (dec binary32 c) = true ->
      nearer (FFin n a e) (dec binary32 bits) (dec binary32 c) /\
      (nearer (FFin n a e) (dec binary32 c) (dec binary32 bits) -> fcmp (dec binary32 c) (dec binary32 bits) = Some Eq \/ Z.even bits = true)
  end.
Proof.
  intros b bits H. assert (Q : bits = enc binary32 (dec binary64 b)).
  { destruct H as [H|H].
    - unfold set_float in H. rewrite Z.eqb_refl in H. cbv zeta in H. destruct (_ && _); [discriminate|]. congruence.
    - unfold set_number_float in H. cbv zeta in H. change (is_float_genus g_f32) with true in H. rewrite Bool.andb_false_r in H. rewrite Z.eqb_refl in H. cbn [f_w binary64] in H.
      rewrite Z.eqb_refl in H. destruct (_ && _); [discriminate|]. congruence. }
  pose proof (fun Fi => C21_narrowing b bits Fi H) as Fi. pose proof (fun n a e => dec_nonneg binary64 b n a e good64) as NN. subst bits. clear H.
  destruct (dec binary64 b) as [|[]|n a e]; [reflexivity|reflexivity|reflexivity|]. specialize (Fi eq_refl). specialize (NN n a e eq_refl).
  split; [apply enc_sign; [left; reflexivity|exact NN|exact Fi]|]. intros c Hc Fc. apply enc_nearest; [left; reflexivity|exact NN|exact Fi|exact Hc|exact Fc].
Qed.
(** 2^24 + 1 lies between two floats, the even one is 2^24; 2^24 + 3 goes up *)
Example C21_nearest_case : set_float g_f32 (int_bits binary64 (2 ^ 24 + 1)) = PFlt (int_bits binary32 (2 ^ 24)) /\
  set_number_float binary64 g_f32 (int_bits binary64 (- 2 ^ 24 - 3)) = Some (PFlt (int_bits binary32 (- 2 ^ 24 - 4))) /\
  denotes (dec binary32 (int_bits binary32 (2 ^ 24))) (2 ^ 24) /\ denotes (dec binary32 (int_bits binary32 (- 2 ^ 24 - 4))) (- 2 ^ 24 - 4).
Proof. repeat split; vm_compute; reflexivity. Qed.

(** ** C95.  Assignment between the two types *)
Lemma float_last multi s l1 o l2 outs1 outs2 s' desc disc bits : lived multi s -> real_desc desc -> multi desc = false -> is_float_genus (descriptor2genus desc) = true -> 0 <= bits < 2 ^ nbits (descriptor2genus desc) ->
  by_plan desc disc (PFlt bits) = Does o ->
  calm_run multi s (l1 ++ o :: l2) -> run asis s (l1 ++ o :: l2) = Some (outs1 ++ true :: outs2, s') ->
  length outs1 = length l1 -> (forall o, In (o, true) (combine l2 outs2) -> ~ names (KL desc) o) ->
  PropertiesNumeric.read_loose s' desc disc = GotF (dec (fmt_of (descriptor2genus desc)) bits) \/
  disc = false /\ fzero (nbits (descriptor2genus desc)) bits = true /\ PropertiesNumeric.read_loose s' desc disc = GotF (FFin false 0 0).
Proof.
  intros Lv D M G B A C R Len N. unfold by_plan, plan_tv in A. injection A as <-.
  set (v := mkV (fzero (nbits (descriptor2genus desc)) bits) (int_units (descriptor2genus desc) bits)) in *.
  unfold PropertiesNumeric.read_loose. rewrite (stored_last multi s l1 desc disc v l2 outs1 outs2 s' Lv D M C R Len N).
  unfold stores. rewrite int_fixed by auto. destruct (negb disc && v_empty v) eqn:Ng; cbn [negb].
  - right. apply andb_prop in Ng. destruct Ng as [N1 N2]. destruct disc; [discriminate|]. split; [reflexivity|]. split; [exact N2|]. unfold read_units. rewrite G. reflexivity.
  - left. unfold read_units. rewrite G. unfold loose_bits. cbn [pay v]. rewrite raw_float by (exact G || exact B). reflexivity.
Qed.
(** the same number *)
Definition equal_value (v w : fval) : Prop := v = FNan /\ w = FNan \/ fcmp v w = Some Eq.
Lemma same_equal v w : same_value v w -> equal_value v w.
Proof.
  destruct v as [|n|n a e], w as [|n'|n' a' e']; cbn; try contradiction; intros H.
  - left. auto.
  - subst. right. cbn. rewrite Bool.eqb_reflx. reflexivity.
  - destruct H as [-> H]. right. cbn [fcmp]. f_equal. exact H.
Qed.
Lemma widen_range b : 0 <= b < 2 ^ 32 -> 0 <= enc binary64 (dec binary32 b) < 2 ^ 64.
Proof.
  intros B. destruct (dec binary32 b) as [|[]|n a e] eqn:E; [vm_compute; split; [discriminate|reflexivity]|vm_compute; split; [discriminate|reflexivity]|vm_compute; split; [discriminate|reflexivity]|].
  destruct (dec_shape binary32 b good32 B) as (n' & a' & e' & E' & A & L1 & L2); [rewrite E; reflexivity|].
  rewrite E in E'. injection E' as <- <- <-. cbn [f_p binary32] in A. change (f_emin binary32) with (-149) in L1. change (f_bias binary32 - (f_p binary32 - 1)) with 104 in L2.
  destruct (Z.eq_dec a 0) as [->|N]; [destruct n; vm_compute; split; (discriminate || reflexivity)|].
  assert (LG : 0 <= Z.log2 a <= 23) by (split; [apply Z.log2_nonneg|]; destruct A as [A1 A2]; apply Z.log2_lt_pow2 in A2; lia).
  apply (enc_range binary64); [apply good64|cbn [f_p binary64]; lia|cbn [f_p binary64]; change (f_emin binary64) with (-1074); lia|change (f_bias binary64) with 1023; lia].
Qed.
(** A float in a field of doubles is taken, and the number is read back as it was. *)
Theorem C95_widened_partial : forall multi s desc disc b, lived multi s -> real_desc desc -> multi desc = false -> 0 <= b < 2 ^ 32 -> descriptor2genus desc = g_f64 ->
  exists o, assigned desc disc (SF32 b) = Does o /\
    forall l1 l2 outs1 outs2 s', calm_run multi s (l1 ++ o :: l2) -> run asis s (l1 ++ o :: l2) = Some (outs1 ++ true :: outs2, s') ->
    length outs1 = length l1 -> (forall o, In (o, true) (combine l2 outs2) -> ~ names (KL desc) o) ->
    exists w, PropertiesNumeric.read_loose s' desc disc = GotF w /\ equal_value (dec binary32 b) w.
Proof.
  intros multi s desc disc b Lv D M B G.
  assert (E : assigned desc disc (SF32 b) = by_plan desc disc (PFlt (enc binary64 (dec binary32 b)))) by (cbn [assigned]; unfold set_number_float; rewrite G; rewrite Bool.andb_false_r; reflexivity).
  rewrite E. assert (O : exists o, by_plan desc disc (PFlt (enc binary64 (dec binary32 b))) = Does o) by (eexists; reflexivity). destruct O as [o O]. exists o. split; [exact O|]. intros l1 l2 outs1 outs2 s' C R Len N.
  pose proof (widen_exact b B) as W. apply same_equal in W.
  assert (RG : 0 <= enc binary64 (dec binary32 b) < 2 ^ nbits (descriptor2genus desc)) by (rewrite G; apply widen_range; exact B).
  destruct (float_last multi s l1 o l2 outs1 outs2 s' desc disc (enc binary64 (dec binary32 b)) Lv D M ltac:(rewrite G; reflexivity) RG O C R Len N) as [Q|(_ & Zr & Q)].
  - rewrite G in Q. eexists. split; [exact Q|exact W].
  - eexists. split; [exact Q|]. destruct (fzero_dec (descriptor2genus desc) _ ltac:(rewrite G; reflexivity) Zr) as (ng & e & Dz). rewrite G in Dz. change (fmt_of g_f64) with binary64 in Dz. rewrite Dz in W.
    destruct W as [[_ H]|H]; [discriminate|]. right. destruct (dec binary32 b) as [|[]|n a e']; cbn [fcmp] in *; try discriminate. assert (H' : cmp_fin n a e' ng 0 e = Eq) by congruence. clear H. rename H' into H. apply (f_equal Some).
    rewrite (cmp_scale _ _ _ _ _ _ (Z.min e' (Z.min e 0))) in H by lia. rewrite (cmp_scale _ _ _ _ _ _ (Z.min e' (Z.min e 0))) by lia. apply Z.compare_eq in H. apply Z.compare_eq_iff. rewrite H. unfold smant. destruct ng; reflexivity.
Qed.
(** A double in a field of floats is refused exactly if it is a number beyond the floats; else what is read is the float nearest to it. *)
Definition beyond (v : fval) : bool := match v with FFin _ _ _ => flt flt_max v || flt v flt_lowest | _ => false end.
Definition nearest32 (v w : fval) : Prop :=
  match v with
  | FFin _ _ _ => finite w = true /\ forall c, 0 <= c < 2 ^ 32 -> finite (dec binary32 c) = true -> nearer v w (dec binary32 c)
  | _ => w = v
  end.
Lemma narrow_range b : 0 <= enc binary32 (dec binary64 b) < 2 ^ 32.
Proof.
  pose proof (fun n a e => dec_nonneg binary64 b n a e good64) as NN. destruct (dec binary64 b) as [|[]|n a e]; [vm_compute; split; [discriminate|reflexivity]|vm_compute; split; [discriminate|reflexivity]|vm_compute; split; [discriminate|reflexivity]|]. specialize (NN n a e eq_refl).
  unfold enc. set (B := if a =? 0 then 0 else _). assert (0 <= B <= f_inf binary32).
  { unfold B. destruct (Z.eqb_spec a 0); [vm_compute; split; discriminate|]. cbv zeta. set (q := Z.max _ _). split; [|apply Z.le_min_l].
    destruct (rne_bounds a (q - e) 23 ltac:(lia) ltac:(lia) ltac:(unfold q; cbn [f_p binary32]; lia)) as [[R _] _].
    assert (0 <= (q - f_emin binary32) * 2 ^ (f_p binary32 - 1)) by (apply Z.mul_nonneg_nonneg; [unfold q; lia|vm_compute; discriminate]). assert (0 <= f_inf binary32) by (vm_compute; discriminate). lia. }
  clearbody B. change (f_inf binary32) with 2139095040 in H. cbn [f_w binary32]. change (2 ^ (32 - 1)) with 2147483648. change (2 ^ 32) with 4294967296. destruct n; lia.
Qed.
Theorem C95_narrowed_partial : forall multi s desc disc b, lived multi s -> real_desc desc -> multi desc = false -> descriptor2genus desc = g_f32 ->
  if beyond (dec binary64 b) then assigned desc disc (SF64 b) = Refuses
  else exists o, assigned desc disc (SF64 b) = Does o /\
    forall l1 l2 outs1 outs2 s', calm_run multi s (l1 ++ o :: l2) -> run asis s (l1 ++ o :: l2) = Some (outs1 ++ true :: outs2, s') ->
    length outs1 = length l1 -> (forall o, In (o, true) (combine l2 outs2) -> ~ names (KL desc) o) ->
    exists w, PropertiesNumeric.read_loose s' desc disc = GotF w /\ nearest32 (dec binary64 b) w.
Proof.
  intros multi s desc disc b Lv D M G.
  assert (E : set_number_float binary64 g_f32 b = Some (if beyond (dec binary64 b) then PRange else PFlt (enc binary32 (dec binary64 b)))).
  { unfold set_number_float. cbv zeta. change (is_float_genus g_f32) with true. rewrite Bool.andb_false_r. rewrite Z.eqb_refl. cbn [f_w binary64]. rewrite Z.eqb_refl. destruct (dec binary64 b) as [|n|n a e]; [reflexivity|destruct n; reflexivity|].
    cbn [finf negb andb beyond]. destruct (_ || _); reflexivity. }
  pose proof (C21_nearest b) as Near. cbn [assigned]. rewrite G, E in *. destruct (beyond (dec binary64 b)) eqn:Be; [reflexivity|].
  specialize (Near _ (or_intror eq_refl)). assert (O : exists o, by_plan desc disc (PFlt (enc binary32 (dec binary64 b))) = Does o) by (eexists; reflexivity). destruct O as [o O]. exists o. split; [exact O|]. intros l1 l2 outs1 outs2 s' C R Len N.
  assert (RG : 0 <= enc binary32 (dec binary64 b) < 2 ^ nbits (descriptor2genus desc)) by (rewrite G; apply narrow_range).
  destruct (float_last multi s l1 o l2 outs1 outs2 s' desc disc (enc binary32 (dec binary64 b)) Lv D M ltac:(rewrite G; reflexivity) RG O C R Len N) as [Q|(_ & Zr & Q)].
  - rewrite G in Q. eexists. split; [exact Q|]. change (fmt_of g_f32) with binary32. unfold nearest32. destruct (dec binary64 b) as [|n|n a e]; try exact Near. destruct Near as [(a' & e' & X) Near]. split; [rewrite X; reflexivity|]. intros c Hc Fc. apply Near; assumption.
  - eexists. split; [exact Q|]. destruct (fzero_dec (descriptor2genus desc) _ ltac:(rewrite G; reflexivity) Zr) as (ng & e & Dz). rewrite G in Dz. change (fmt_of g_f32) with binary32 in Dz. rewrite Dz in Near.
    unfold nearest32. destruct (dec binary64 b) as [|n|n a e']; [discriminate|destruct n; discriminate|]. destruct Near as [_ Near]. split; [reflexivity|]. intros c Hc Fc. destruct (Near c Hc Fc) as [Nr _].
    destruct (dec binary32 c) as [|?|n2 a2 e2]; try discriminate. apply (nearer_down _ _ _ _ _ _ _ _ _ (Z.min (Z.min e' e) (Z.min e2 0))); [lia|lia|lia|].
    intros K HK. specialize (Nr K ltac:(lia) ltac:(lia) ltac:(lia)). unfold smant at 2. unfold smant at 2 in Nr. destruct ng; exact Nr.
Qed.
(** Refuted: a number other than zero stays in the field.  Every double not further from zero than 2^-150 is taken without complaint, and a field
    whose token does not tell empty from absent is removed by it. *)
Theorem C95_vanishing_refuted : forall multi s desc b n a e, lived multi s -> real_desc desc -> multi desc = false -> descriptor2genus desc = g_f32 ->
  dec binary64 b = FFin n a e -> 0 < a -> e <= -150 -> a <= 2 ^ (-150 - e) ->
  exists o, assigned desc false (SF64 b) = Does o /\
    forall l1 l2 outs1 outs2 s', calm_run multi s (l1 ++ o :: l2) -> run asis s (l1 ++ o :: l2) = Some (outs1 ++ true :: outs2, s') ->
    length outs1 = length l1 -> (forall o, In (o, true) (combine l2 outs2) -> ~ names (KL desc) o) ->
    get_loose s' desc = None.
Proof.
  intros multi s desc b n a e Lv D M G E A He Ha.
  assert (Lg : Z.log2 a + e - 23 <= -149) by (apply Z.log2_le_mono in Ha; rewrite Z.log2_pow2 in Ha; lia).
  assert (Bits : enc binary32 (dec binary64 b) = if n then 2 ^ 31 else 0).
  { rewrite E. unfold enc. destruct (Z.eqb_spec a 0); [lia|]. cbv zeta. cbn [f_w f_p binary32]. change (f_emin binary32) with (-149). change (24 - 1) with 23. rewrite Z.max_r by lia. rewrite Z.sub_diag, Z.mul_0_l, Z.add_0_l.
    assert (R : rne a (-149 - e) = 0).
    { unfold rne. destruct (Z.leb_spec (-149 - e) 0); [lia|]. cbv zeta. replace (-149 - e - 1) with (-150 - e) by lia.
      assert (X : 2 ^ (-149 - e) = 2 * 2 ^ (-150 - e)) by (replace (-149 - e) with (1 + (-150 - e)) by lia; rewrite Z.pow_add_r by lia; reflexivity).
      rewrite Z.div_small, Z.mod_small by lia. destruct (a <? _); [reflexivity|]. destruct (Z.ltb_spec (2 ^ (-150 - e)) a); [lia|reflexivity]. }
    rewrite R. change (f_inf binary32) with 2139095040. destruct n; reflexivity. }
  assert (Be : flt flt_max (dec binary64 b) || flt (dec binary64 b) flt_lowest = false).
  { rewrite E. unfold flt, fcmp, flt_max, flt_lowest. rewrite !(cmp_scale _ _ _ _ _ _ e) by lia. replace (e - e) with 0 by lia. rewrite Z.mul_1_r.
    assert (X : a <= (2 ^ 24 - 1) * 2 ^ (104 - e)).
    { assert (2 ^ (-150 - e) <= 2 ^ (104 - e)) by (apply Z.pow_le_mono_r; lia). change (2 ^ 24 - 1) with 16777215. lia. }
    unfold smant. change (2 ^ 24 - 1) with 16777215 in *. rewrite Z.mul_opp_l. set (Y := 16777215 * 2 ^ (104 - e)) in *. clearbody Y. destruct n.
    - destruct (Z.compare_spec Y (- a)), (Z.compare_spec (- a) (- Y)); try reflexivity; lia.
    - destruct (Z.compare_spec Y a), (Z.compare_spec a (- Y)); try reflexivity; lia. }
  assert (P : assigned desc false (SF64 b) = Does (OSet desc false (mkV true (int_units g_f32 (if n then 2 ^ 31 else 0))))).
  { cbn [assigned]. rewrite G. unfold set_number_float. cbv zeta. change (is_float_genus g_f32) with true. rewrite Bool.andb_false_r. rewrite Z.eqb_refl. cbn [f_w binary64]. rewrite Z.eqb_refl. rewrite Be, Bool.andb_false_r, Bits.
    unfold by_plan. rewrite G. destruct n; reflexivity. }
  rewrite P. eexists. split; [reflexivity|]. intros l1 l2 outs1 outs2 s' C R Len N. rewrite (stored_last multi s l1 desc false _ l2 outs1 outs2 s' Lv D M C R Len N).
  unfold stores. rewrite G. reflexivity.
Qed.

(** ** Cases: -7, 2^24 + 1 and 2^-150, written after two other fields *)
Definition put_op (desc : Z) (disc : bool) (x : source) : op := match assigned desc disc x with Does o => o | _ => OSet 0 true (mkV false []) end.
Example C95_widened_case : lived (fun _ => false) seven_nine /\ real_desc (fd g_f64 2) /\ 0 <= int_bits binary32 (-7) < 2 ^ 32 /\ descriptor2genus (fd g_f64 2) = g_f64 /\
  calm_run (fun _ => false) seven_nine [put_op (fd g_f64 2) false (SF32 (int_bits binary32 (-7)))] /\
  PropertiesNumeric.read_loose (final seven_nine [put_op (fd g_f64 2) false (SF32 (int_bits binary32 (-7)))]) (fd g_f64 2) false = GotF (dec binary64 (int_bits binary64 (-7))).
Proof.
  split; [apply C95_field_case|]. split; [vm_compute; intuition discriminate|]. split; [vm_compute; split; [discriminate|reflexivity]|]. split; [reflexivity|].
  split; [apply calm_runb_ok; vm_compute; reflexivity|vm_compute; reflexivity].
Qed.
Example C95_narrowed_case : beyond (dec binary64 (int_bits binary64 (2 ^ 128))) = true /\ beyond (dec binary64 (int_bits binary64 (2 ^ 24 + 1))) = false /\ real_desc (fd g_f32 2) /\ descriptor2genus (fd g_f32 2) = g_f32 /\
  calm_run (fun _ => false) seven_nine [put_op (fd g_f32 2) false (SF64 (int_bits binary64 (2 ^ 24 + 1)))] /\
  PropertiesNumeric.read_loose (final seven_nine [put_op (fd g_f32 2) false (SF64 (int_bits binary64 (2 ^ 24 + 1)))]) (fd g_f32 2) false = GotF (dec binary32 (int_bits binary32 (2 ^ 24))).
Proof.
  split; [vm_compute; reflexivity|]. split; [vm_compute; reflexivity|]. split; [vm_compute; intuition discriminate|]. split; [reflexivity|].
  split; [apply calm_runb_ok; vm_compute; reflexivity|vm_compute; reflexivity].
Qed.
Example C95_vanishing_case : dec binary64 (enc binary64 (FFin true 1 (-150))) = FFin true (2 ^ 52) (-202) /\ 2 ^ 52 <= 2 ^ (-150 - -202) /\
  calm_run (fun _ => false) seven_nine [OSet (fd g_f32 2) false (mkV false [5]); put_op (fd g_f32 2) false (SF64 (enc binary64 (FFin true 1 (-150))))] /\
  get_loose (final seven_nine [OSet (fd g_f32 2) false (mkV false [5])]) (fd g_f32 2) = Some [5] /\
  get_loose (final seven_nine [OSet (fd g_f32 2) false (mkV false [5]); put_op (fd g_f32 2) false (SF64 (enc binary64 (FFin true 1 (-150))))]) (fd g_f32 2) = None.
Proof.
  split; [vm_compute; reflexivity|]. split; [vm_compute; discriminate|]. split; [apply calm_runb_ok; vm_compute; reflexivity|]. split; vm_compute; reflexivity.
Qed.

Print Assumptions C21_nearest. Print Assumptions C95_widened_partial. Print Assumptions C95_narrowed_partial. Print Assumptions C95_vanishing_refuted.
