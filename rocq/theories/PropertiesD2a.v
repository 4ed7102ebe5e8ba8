(** * Properties of printing doubles: C60, C61 *)
From Verif Require Import Base Numeric NumericProofs Erthink ErthinkProofs D2a D2aProofs D2aRound.
From Coq Require Import ZifyBool ZifyNat.
Ltac Zify.zify_post_hook ::= Z.div_mod_to_equations.

(** ** Reading a number back *)
(** The value of a double in units of 2^-1074, of which every finite double is a multiple. *)
Definition units (b : Z) : option Z :=
  match dec binary64 b with FFin neg a e => Some (smant neg a * 2 ^ (e + 1074)) | _ => None end.
(** Text of the form [sign] digits [. digits] [e [sign] digits], as read by strtod: the sign, the
    digits as one number and the power of ten it is multiplied with. *)
Fixpoint read_digits (acc n : Z) (t : list Z) : Z * Z * list Z :=
  match t with
  | c :: u => if (48 <=? c) && (c <=? 57) then read_digits (10 * acc + (c - 48)) (n + 1) u else (acc, n, t)
  | [] => (acc, n, [])
  end.
Definition read_sign (t : list Z) : bool * list Z :=
  match t with c :: u => if c =? 45 then (true, u) else if c =? 43 then (false, u) else (false, t) | [] => (false, []) end.
Definition read_exponent (t : list Z) : option Z :=
  match t with
  | [] => Some 0
  | c :: u => if c =? 101 then
      let '(neg, u) := read_sign u in
      let '(x, n, rest) := read_digits 0 0 u in
      match rest with [] => if n =? 0 then None else Some (if neg then - x else x) | _ => None end
      else None
  end.
Definition read_number (t : list Z) : option (bool * Z * Z) :=
  let '(neg, t) := read_sign t in
  let '(m, n, t) := read_digits 0 0 t in
  let '(m, frac, t) := match t with c :: u => if c =? 46 then read_digits m 0 u else (m, 0, t) | [] => (m, 0, t) end in
  if n + frac =? 0 then None
  else match read_exponent t with Some x => Some (neg, m, x - frac) | None => None end.
(** distance between m * 10^x (negated if [neg]) and [v] units, multiplied by a power of ten that
    makes it an integer *)
Definition distance (neg : bool) (m x v : Z) : Z :=
  Z.abs (smant neg (m * 10 ^ Z.max x 0) * 2 ^ 1074 - v * 10 ^ Z.max (- x) 0).
(** The text is a number which rounds to the double [b], whatever the rule for ties: it has the
    sign of [b], no double of another value is as near, and it is below the middle between the
    greatest double and the next power of two, where rounding would overflow. *)
Definition reads_back (t : list Z) (b : Z) : Prop :=
  exists v neg m x, units b = Some v /\ read_number t = Some (neg, m, x) /\ neg = (2 ^ 63 <=? b) /\
    (forall c w, 0 <= c < 2 ^ 64 -> units c = Some w -> w <> v -> distance neg m x v < distance neg m x w) /\
    m * 10 ^ Z.max x 0 * 2 < (2 ^ 54 - 1) * 2 ^ 971 * 10 ^ Z.max (- x) 0.

(** ** Lemmas about the reader *)
Lemma read_digits_app l t : Forall isdig l -> forall acc n,
  read_digits acc n (l ++ t) = read_digits (fold_left (fun a c => 10 * a + (c - 48)) l acc) (n + Z.of_nat (length l)) t.
Proof.
  induction 1 as [|c l Hc _ IH]; intros acc n.
  - cbn [app fold_left length]. f_equal. lia.
  - cbn [app read_digits fold_left length]. unfold isdig in Hc. replace ((48 <=? c) && (c <=? 57)) with true by lia.
    rewrite IH. f_equal. lia.
Qed.
Lemma read_digits_stop acc n t : (forall c u, t = c :: u -> ~ isdig c) -> read_digits acc n t = (acc, n, t).
Proof.
  intros H. destruct t as [|c u]; [reflexivity|]. cbn [read_digits].
  specialize (H c u eq_refl). unfold isdig in H. replace ((48 <=? c) && (c <=? 57)) with false by lia. reflexivity.
Qed.
Lemma dval_rev ds : fold_left (fun a c => 10 * a + (c - 48)) (rev ds) 0 = dval ds.
Proof. rewrite <- fold_left_rev_right, rev_involutive. induction ds as [|c ds IH]; [reflexivity|]. cbn [fold_right dval]. lia. Qed.
Lemma fold_acc l : forall a, fold_left (fun a c => 10 * a + (c - 48)) l a =
  a * 10 ^ Z.of_nat (length l) + fold_left (fun a c => 10 * a + (c - 48)) l 0.
Proof.
  induction l as [|c l IH]; intros a; cbn [fold_left length].
  - change (10 ^ Z.of_nat 0) with 1. lia.
  - rewrite IH, (IH (10 * 0 + (c - 48))). rewrite Nat2Z.inj_succ, <- Z.add_1_r, pow10_succ by lia. ring.
Qed.
Lemma fold_zeros n : fold_left (fun a c => 10 * a + (c - 48)) (repeat 48 n) 0 = 0.
Proof. induction n as [|n IH]; [reflexivity|]. cbn [repeat fold_left]. change (10 * 0 + (48 - 48)) with 0. exact IH. Qed.
Lemma isdig_repeat n : Forall isdig (repeat 48 n).
Proof. induction n; cbn [repeat]; constructor; auto. unfold isdig. lia. Qed.

(** an exponent is written with a sign and up to three digits, and read back *)
Definition exp_ok (x : Z) : bool :=
  match exponenta x with
  | [] => x =? 0
  | t => (Z.of_nat (length t) <=? 5) && (hd 0 t =? 101) && match read_exponent t with Some y => y =? x | None => false end
  end.
Lemma exp_all : all_below 801 (fun i => exp_ok (i - 400)) = true.
Proof. vm_compute. reflexivity. Qed.
Lemma exponenta_reads x : -400 <= x <= 400 -> read_exponent (exponenta x) = Some x /\ (length (exponenta x) <= 5)%nat /\
  (forall c u, exponenta x = c :: u -> c = 101).
Proof.
  intros H. pose proof (all_below_spec _ _ exp_all (x + 400) ltac:(lia)) as A. cbv beta in A.
  replace (x + 400 - 400) with x in A by lia. unfold exp_ok in A. destruct (exponenta x) as [|c u] eqn:E.
  - split; [cbn [read_exponent]; f_equal; lia|]. split; [cbn; lia|]. intros; discriminate.
  - apply andb_prop in A as [A A3]. apply andb_prop in A as [A1 A2]. cbn [hd] in A2.
    destruct (read_exponent (c :: u)) as [y|] eqn:R; [|discriminate].
    split; [f_equal; lia|]. split; [lia|]. intros c' u' Q. assert (c' = c) by congruence. lia.
Qed.

Lemma read_sign_digits l t : Forall isdig l -> l <> [] -> read_sign (l ++ t) = (false, l ++ t).
Proof.
  intros F N. destruct F as [|c l Hc F]; [congruence|]. cbn [app read_sign]. unfold isdig in Hc.
  replace (c =? 45) with false by lia. replace (c =? 43) with false by lia. reflexivity.
Qed.
Lemma read_signed (neg : bool) l t : Forall isdig l -> l <> [] ->
  read_sign ((if neg then [45] else []) ++ l ++ t) = (neg, l ++ t).
Proof. intros F N. destruct neg; [reflexivity|]. cbn [app]. apply read_sign_digits; assumption. Qed.

(** digits and exponent *)
Lemma read_plain (neg : bool) l x : Forall isdig l -> l <> [] -> -400 <= x <= 400 ->
  read_number ((if neg then [45] else []) ++ l ++ exponenta x) = Some (neg, fold_left (fun a c => 10 * a + (c - 48)) l 0, x).
Proof.
  intros F N Hx. destruct (exponenta_reads x Hx) as (R & L & H).
  unfold read_number. rewrite read_signed by assumption. rewrite read_digits_app by assumption.
  rewrite read_digits_stop by (intros c u E; rewrite (H c u E); unfold isdig; lia).
  assert (Ln : 0 < Z.of_nat (length l)) by (destruct l; [congruence|cbn [length]; lia]).
  destruct (exponenta x) as [|c u] eqn:E.
  - replace (_ =? 0) with false by lia. rewrite R. rewrite Z.sub_0_r. reflexivity.
  - rewrite (H c u eq_refl) in *. change (101 =? 46) with false. cbv iota. replace (_ =? 0) with false by lia.
    rewrite R. rewrite Z.sub_0_r. reflexivity.
Qed.
(** digits, a dot, digits and exponent *)
Lemma read_dotted (neg : bool) l1 l2 x : Forall isdig l1 -> l1 <> [] -> Forall isdig l2 -> -400 <= x <= 400 ->
  read_number ((if neg then [45] else []) ++ l1 ++ 46 :: l2 ++ exponenta x) =
  Some (neg, fold_left (fun a c => 10 * a + (c - 48)) (l1 ++ l2) 0, x - Z.of_nat (length l2)).
Proof.
  intros F1 N F2 Hx. destruct (exponenta_reads x Hx) as (R & L & H).
  unfold read_number. rewrite read_signed by assumption. rewrite read_digits_app by assumption.
  rewrite read_digits_stop by (intros c u E; injection E as <- _; unfold isdig; lia).
  change (46 =? 46) with true. cbv iota. rewrite read_digits_app by assumption.
  rewrite read_digits_stop by (intros c u E; rewrite (H c u E); unfold isdig; lia).
  assert (Ln : 0 < Z.of_nat (length l1)) by (destruct l1; [congruence|cbn [length]; lia]).
  replace (_ =? 0) with false by lia. rewrite R. rewrite fold_left_app. reflexivity.
Qed.

(** ** Doubles *)
Lemma land_field b k n : 0 <= k -> 0 <= n -> Z.land b ((2 ^ n - 1) * 2 ^ k) = b / 2 ^ k mod 2 ^ n * 2 ^ k.
Proof.
  intros Hk Hn. rewrite <- (land_mask (b / 2 ^ k) n Hn). rewrite <- !Z.shiftl_mul_pow2, <- Z.shiftr_div_pow2 by lia.
  apply Z.bits_inj'. intros i Hi. rewrite Z.land_spec, !Z.shiftl_spec by lia. rewrite Z.land_spec.
  destruct (Z_lt_ge_dec i k) as [L|G].
  - rewrite (Z.testbit_neg_r (2 ^ n - 1)), (Z.testbit_neg_r (Z.shiftr b k)) by lia. apply andb_false_r.
  - rewrite Z.shiftr_spec by lia. f_equal. f_equal. lia.
Qed.
Lemma diy_parts b : 0 <= b < 2 ^ 64 -> let ex := b / 2 ^ 52 mod 2 ^ 11 in let fr := b mod 2 ^ 52 in
  diy_fp b = if ex =? 0 then (fr, -1074) else (2 ^ 52 + fr, ex - 1075).
Proof.
  intros Hb. cbv zeta. unfold diy_fp, exponent_mask, mantissa_mask.
  change 0x7FF0000000000000 with ((2 ^ 11 - 1) * 2 ^ 52). rewrite land_field by lia.
  change 0x000FFFFFFFFFFFFF with (2 ^ 52 - 1). rewrite land_mask by lia.
  rewrite Z.shiftr_div_pow2, Z.div_mul by lia.
  pose proof (Z.mod_pos_bound (b / 2 ^ 52) (2 ^ 11) ltac:(lia)) as M. set (ex := b / 2 ^ 52 mod 2 ^ 11) in *. clearbody ex.
  unfold implicit_lead, exponent_bias. change 0x0010000000000000 with (2 ^ 52).
  destruct (Z.eqb_spec ex 0) as [-> | E].
  - cbn [Z.mul Z.eqb negb]. f_equal; lia.
  - replace (ex * 2 ^ 52 =? 0) with false by lia. cbn [negb]. f_equal; lia.
Qed.
(** the mantissa and exponent the printer starts from are those of the double *)
Lemma dec_diy b : 0 <= b < 2 ^ 64 ->
  match dec binary64 b with
  | FFin neg f e => diy_fp b = (f, e) /\ neg = (2 ^ 63 <=? b) /\ 0 <= f < 2 ^ 53 /\ -1074 <= e <= 971 /\ (e = -1074 \/ 2 ^ 52 <= f)
  | FInf neg => exists f, diy_fp b = (f, 972) /\ neg = (2 ^ 63 <=? b) /\ f = 2 ^ 52
  | FNan => exists f, diy_fp b = (f, 972) /\ f <> 2 ^ 52
  end.
Proof.
  intros Hb. pose proof (diy_parts b Hb) as D. cbv zeta in D. unfold dec, f_expmax, f_emin, f_bias. cbn [f_w f_p binary64].
  change (53 - 1) with 52. change (64 - 53) with 11. change (64 - 1) with 63. change (2 ^ 11 - 1) with 2047.
  change (1 - (2 ^ (11 - 1) - 1) - 52) with (-1074).
  pose proof (Z.mod_pos_bound (b / 2 ^ 52) (2 ^ 11) ltac:(lia)) as M1. pose proof (Z.mod_pos_bound b (2 ^ 52) ltac:(lia)) as M2.
  assert (Ng : negb (b / 2 ^ 63 =? 0) = (2 ^ 63 <=? b)) by lia. rewrite Ng. clear Ng.
  set (ex := b / 2 ^ 52 mod 2 ^ 11) in *. set (fr := b mod 2 ^ 52) in *. clearbody ex fr.
  destruct (Z.eqb_spec ex 2047) as [E|E].
  - replace (ex =? 0) with false in D by lia. subst ex.
    destruct (Z.eqb_spec fr 0) as [E|E]; exists (2 ^ 52 + fr); (split; [exact D|]); [split; [reflexivity|lia]|lia].
  - destruct (Z.eqb_spec ex 0) as [E0|E0].
    + split; [exact D|]. repeat split; lia.
    + split; [rewrite D; f_equal; lia|]. repeat split; lia.
Qed.

(** ** Nearest *)
(** Neighbours of f * 2^e among all doubles, in units of 2^-1074. *)
Lemma neighbours f e f' e' : 0 <= f < 2 ^ 53 -> -1074 <= e -> (e = -1074 \/ 2 ^ 52 <= f) ->
  0 <= f' < 2 ^ 53 -> -1074 <= e' -> (e' = -1074 \/ 2 ^ 52 <= f') ->
  let u := 2 ^ (e + 1074) in let v := f * u in let w := f' * 2 ^ (e' + 1074) in
  w = v \/ v + u <= w \/ w <= v - u \/ f = 2 ^ 52 /\ 2 * w <= 2 * v - u.
Proof.
  intros Hf He Hn Hf' He' Hn'. cbv zeta. destruct (Z_le_gt_dec e e') as [L|G].
  - replace (2 ^ (e' + 1074)) with (2 ^ (e' - e) * 2 ^ (e + 1074)) by (rewrite <- Z.pow_add_r by lia; f_equal; lia).
    assert (0 < 2 ^ (e + 1074)) by (apply pow2_pos; lia). rewrite Z.mul_assoc.
    set (g := f' * 2 ^ (e' - e)). set (u := 2 ^ (e + 1074)) in *. clearbody g u.
    destruct (Z.lt_trichotomy g f) as [T|[T|T]].
    + right. right. left. nia.
    + left. congruence.
    + right. left. nia.
  - assert (2 ^ 52 <= f) by lia.
    replace (2 ^ (e + 1074)) with (2 * 2 ^ (e - 1 - e') * 2 ^ (e' + 1074)).
    2:{ rewrite <- Z.mul_assoc, <- Z.pow_add_r by lia. change 2 with (2 ^ 1) at 1. rewrite <- Z.pow_add_r by lia. f_equal. lia. }
    assert (0 < 2 ^ (e' + 1074)) by (apply pow2_pos; lia). assert (0 < 2 ^ (e - 1 - e')) by (apply pow2_pos; lia).
    set (y := 2 ^ (e' + 1074)) in *. set (z := 2 ^ (e - 1 - e')) in *. clearbody y z.
    assert (f' * y <= (2 ^ 53 - 1) * (z * y)) by nia.
    replace (2 * z * y) with (2 * (z * y)) by ring. assert (0 < z * y) by nia. set (q := z * y) in *. clearbody q.
    right. right. destruct (Z.eq_dec f (2 ^ 52)) as [E|E]; [right|left]; nia.
Qed.

Lemma distance_same neg1 n v d neg2 w : 0 <= w -> 0 < n -> 0 < d -> 0 <= v ->
  (neg1 = neg2 -> Z.abs (n - v * d) < Z.abs (n - w * d)) -> (neg1 <> neg2 -> Z.abs (n - v * d) < n) ->
  Z.abs (smant neg1 n - smant neg1 v * d) < Z.abs (smant neg1 n - smant neg2 w * d).
Proof. intros Hw Hn Hd Hv H1 H2. assert (0 <= w * d) by nia. destruct neg1, neg2; cbn [smant]; try (specialize (H1 eq_refl); lia); specialize (H2 ltac:(discriminate)); lia. Qed.

Lemma smant_mul neg a b : smant neg a * b = smant neg (a * b).
Proof. destruct neg; cbn [smant]; ring. Qed.

Lemma between_nearest f e m x neg : 0 < f < 2 ^ 53 -> -1074 <= e -> (e = -1074 \/ 2 ^ 52 <= f) -> between f e m x ->
  forall c w, 0 <= c < 2 ^ 64 -> units c = Some w -> w <> smant neg f * 2 ^ (e + 1074) ->
  distance neg m x (smant neg f * 2 ^ (e + 1074)) < distance neg m x w.
Proof.
  intros Hf He Hn [[B1 B2] B3] c w Hc Uc Nw. unfold distance. unfold units in Uc. pose proof (dec_diy c Hc) as Dc.
  destruct (dec binary64 c) as [|neg'|neg' f' e']; try discriminate. assert (W : w = smant neg' f' * 2 ^ (e' + 1074)) by congruence. clear Uc.
  destruct Dc as (_ & _ & Hf' & He' & Hn'). subst w. rewrite !(smant_mul _ _ (2 ^ (_ + 1074))) in *. rewrite (smant_mul neg (m * _)).
  fold (num m x) (den x). pose proof (den_pos x) as Pd.
  pose proof (neighbours f e f' e' ltac:(lia) He Hn Hf' ltac:(lia) Hn') as Q. cbv zeta in Q.
  assert (Pu : 0 < 2 ^ (e + 1074)) by (apply pow2_pos; lia). assert (Pw : 0 <= f' * 2 ^ (e' + 1074)) by (apply Z.mul_nonneg_nonneg; [lia|apply Z.lt_le_incl, pow2_pos; lia]).
  change (2 ^ 1076) with (4 * 2 ^ 1074) in B3. change (2 ^ 1075) with (2 * 2 ^ 1074) in *.
  set (n := num m x * 2 ^ 1074) in *.
  assert (B1' : (2 * f - 1) * 2 ^ (e + 1074) * den x < 2 * n) by (unfold n; lia).
  assert (B2' : 2 * n < (2 * f + 1) * 2 ^ (e + 1074) * den x) by (unfold n; lia).
  assert (B3' : f = 2 ^ 52 -> (4 * f - 1) * 2 ^ (e + 1074) * den x < 4 * n) by (intros E; specialize (B3 E); unfold n; lia).
  clear B1 B2 B3. clearbody n. set (d := den x) in *. set (u := 2 ^ (e + 1074)) in *. set (w := f' * 2 ^ (e' + 1074)) in *. clearbody d u w.
  assert (0 < u * d) by nia.
  replace ((2 * f - 1) * u * d) with (2 * (f * u * d) - u * d) in B1' by ring.
  replace ((2 * f + 1) * u * d) with (2 * (f * u * d) + u * d) in B2' by ring.
  replace ((4 * f - 1) * u * d) with (4 * (f * u * d) - u * d) in B3' by ring.
  assert (Fu : 1 * (u * d) <= f * (u * d)) by (apply Z.mul_le_mono_nonneg_r; lia).
  apply distance_same; try lia; try nia.
  - intros <-.
    assert (Q' : w <> f * u) by (intros E; apply Nw; rewrite E; reflexivity).
    destruct Q as [Q|[Q|[Q|[Q1 Q]]]]; [congruence| | |specialize (B3' Q1)].
    + assert ((f * u + u) * d <= w * d) by (apply Z.mul_le_mono_nonneg_r; lia). lia.
    + assert (w * d <= (f * u - u) * d) by (apply Z.mul_le_mono_nonneg_r; lia). lia.
    + assert (2 * w * d <= (2 * (f * u) - u) * d) by (apply Z.mul_le_mono_nonneg_r; lia). lia.
Qed.

Lemma exact_nearest f e n neg : 0 <= f < 2 ^ 53 -> exactly n f e ->
  forall w, w <> smant neg f * 2 ^ (e + 1074) -> distance neg n 0 (smant neg f * 2 ^ (e + 1074)) < distance neg n 0 w.
Proof.
  intros Hf E w Nw. unfold distance. change (10 ^ Z.max 0 0) with 1. change (10 ^ Z.max (- 0) 0) with 1. rewrite !Z.mul_1_r.
  rewrite !smant_mul in *. unfold exactly in E. rewrite E. rewrite Z.sub_diag.
  set (v := smant neg (f * 2 ^ (e + 1074))) in *. clearbody v. lia.
Qed.

Lemma no_overflow f e m x : 0 < f < 2 ^ 53 -> -1074 <= e <= 971 -> between f e m x ->
  m * 10 ^ Z.max x 0 * 2 < (2 ^ 54 - 1) * 2 ^ 971 * 10 ^ Z.max (- x) 0.
Proof.
  intros Hf He [[_ B] _]. fold (num m x) (den x). pose proof (den_pos x) as Pd.
  assert (P : 2 ^ (e + 1074) <= 2 ^ 971 * 2 ^ 1074) by (rewrite <- Z.pow_add_r by lia; apply Z.pow_le_mono_r; lia).
  assert (Pu : 0 < 2 ^ (e + 1074)) by (apply pow2_pos; lia).
  assert ((2 * f + 1) * 2 ^ (e + 1074) <= (2 ^ 54 - 1) * (2 ^ 971 * 2 ^ 1074)) by (apply Z.mul_le_mono_nonneg; lia).
  assert ((2 * f + 1) * 2 ^ (e + 1074) * den x <= (2 ^ 54 - 1) * (2 ^ 971 * 2 ^ 1074) * den x) by (apply Z.mul_le_mono_nonneg_r; lia).
  change (2 ^ 1075) with (2 * 2 ^ 1074) in B.
  assert (P4 : 0 < 2 ^ 1074) by (apply pow2_pos; lia).
  apply (Z.mul_lt_mono_pos_r (2 ^ 1074)); [exact P4|].
  set (k := 2 ^ 1074) in *. set (j := 2 ^ 971) in *. clearbody k j. lia.
Qed.

(** ** Texts *)
Lemma sign_eq b : (if b >=? 2 ^ 63 then [45] else []) = (if 2 ^ 63 <=? b then [45] else []).
Proof. destruct (Z.geb_spec b (2 ^ 63)), (Z.leb_spec (2 ^ 63) b); (reflexivity || lia). Qed.
Lemma written_emits r l : emits r 0 (fun _ => 0) l -> written r = l.
Proof.
  intros [E M]. unfold written. rewrite E. replace (Z.to_nat (0 + Z.of_nat (length l))) with (length l) by lia.
  apply nth_ext with (d := 0) (d' := 0); [rewrite map_length, seq_length; reflexivity|].
  intros i Hi. rewrite map_length, seq_length in Hi.
  rewrite (nth_indep _ 0 (snd r (Z.of_nat O))) by (rewrite map_length, seq_length; exact Hi).
  rewrite (map_nth (fun i => snd r (Z.of_nat i))). rewrite seq_nth by exact Hi. rewrite M. unfold put_all.
  replace (_ && _) with true by lia. f_equal. lia.
Qed.
Lemma decimal_fold l : forall a, decimal a l = fold_left (fun a c => 10 * a + (c - 48)) l a.
Proof. induction l as [|c l IH]; intros a; [reflexivity|]. cbn [decimal fold_left]. apply IH. Qed.

Lemma reads_between b t neg f e m x : 0 <= b < 2 ^ 64 -> dec binary64 b = FFin neg f e -> 0 < f ->
  read_number t = Some (neg, m, x) -> between f e m x -> reads_back t b.
Proof.
  intros Hb D Hf R B. pose proof (dec_diy b Hb) as Q. rewrite D in Q. destruct Q as (_ & Ng & Hf2 & He & Hn).
  exists (smant neg f * 2 ^ (e + 1074)), neg, m, x. split; [unfold units; rewrite D; reflexivity|].
  split; [exact R|]. split; [exact Ng|]. split.
  - apply between_nearest; (assumption || lia).
  - apply (no_overflow f e); (assumption || lia).
Qed.
Lemma reads_exact b t neg f e n : 0 <= b < 2 ^ 64 -> dec binary64 b = FFin neg f e -> 0 <= n < 2 ^ 64 ->
  read_number t = Some (neg, n, 0) -> exactly n f e -> reads_back t b.
Proof.
  intros Hb D Hn64 R B. pose proof (dec_diy b Hb) as Q. rewrite D in Q. destruct Q as (_ & Ng & Hf2 & He & Hn).
  exists (smant neg f * 2 ^ (e + 1074)), neg, n, 0. split; [unfold units; rewrite D; reflexivity|].
  split; [exact R|]. split; [exact Ng|]. split.
  - intros c w _ _ Nw. apply exact_nearest; assumption.
  - change (10 ^ Z.max 0 0) with 1. change (10 ^ Z.max (- 0) 0) with 1. rewrite !Z.mul_1_r.
    apply Z.lt_trans with (2 ^ 64 * 2); [lia|vm_compute; reflexivity].
Qed.

Definition is_finite (b : Z) : Prop := Z.land (b / 2 ^ 52) 2047 <> 2047.
Lemma finite_dec b : 0 <= b < 2 ^ 64 -> is_finite b -> exists neg f e, dec binary64 b = FFin neg f e.
Proof.
  intros Hb F. unfold is_finite in F. change 2047 with (2 ^ 11 - 1) in F at 1. rewrite land_mask in F by lia.
  unfold dec, f_expmax. cbn [f_w f_p binary64]. change (53 - 1) with 52. change (64 - 53) with 11.
  change (2 ^ 11 - 1) with 2047. set (ex := b / 2 ^ 52 mod 2 ^ 11) in *. clearbody ex.
  replace (ex =? 2047) with false by lia. destruct (ex =? 0); eauto.
Qed.

(** Whatever the finite double, and in both modes, the text written reads back as that double,
    and fits the buffer of d2a_max_chars bytes. *)
Theorem C60_d2a_reads_back accurate b : 0 <= b < 2 ^ 64 -> is_finite b ->
  exists t, d2a accurate b = Some t /\ (length t <= 23)%nat /\ reads_back t b.
Proof.
  intros Hb F. destruct (finite_dec b Hb F) as (neg & f & e & D). pose proof (dec_diy b Hb) as Q. rewrite D in Q.
  destruct Q as (Dy & Ng & Hf & He & Hn). unfold d2a. rewrite Dy, sign_eq, <- Ng.
  destruct (Z.eq_dec f 0) as [E|E].
  - subst f. unfold convert. change (0x7ff - exponent_bias) with 972. replace (e =? 972) with false by lia. cbn [Z.eqb].
    exists ((if neg then [45] else []) ++ [48]). split; [reflexivity|]. split; [destruct neg; cbn; lia|].
    apply (reads_exact b _ neg 0 e 0 Hb D); [lia|destruct neg; reflexivity|unfold exactly; lia].
  - destruct (convert_ok accurate true f e ltac:(lia) He Hn) as [n Hn64 X|ds x Fd Ld Hx B].
    + destruct (u2a64_ok n 0 (fun _ => 0) Hn64) as (l & Em & (Nl & Fl & Vl & _) & Ll). rewrite (written_emits _ l Em).
      exists ((if neg then [45] else []) ++ l). split; [reflexivity|]. split; [destruct neg; cbn [app length]; lia|].
      apply (reads_exact b _ neg f e n Hb D Hn64); [|exact X].
      pose proof (read_plain neg l 0 Fl Nl ltac:(lia)) as R. rewrite app_nil_r in R. rewrite R.
      rewrite <- decimal_fold, Vl. reflexivity.
    + exists ((if neg then [45] else []) ++ rev ds ++ exponenta x). split; [reflexivity|].
      destruct (exponenta_reads x ltac:(lia)) as (_ & Lx & _).
      split; [rewrite !app_length, rev_length; destruct neg; cbn [length]; lia|].
      apply (reads_between b _ neg f e (dval ds) x Hb D); [lia| |exact B].
      rewrite read_plain; [rewrite dval_rev; reflexivity|apply Forall_rev; exact Fd| |lia].
      intros N. apply (f_equal (@length Z)) in N. rewrite rev_length in N. cbn [length] in N. lia.
Qed.
(** Zeros, infinities and not-a-number. *)
Theorem C60_special accurate b : 0 <= b < 2 ^ 64 -> let sign := if 2 ^ 63 <=? b then [45] else [] in
  match dec binary64 b with
  | FNan => d2a accurate b = Some (sign ++ [110; 97; 110])
  | FInf _ => d2a accurate b = Some (sign ++ [105; 110; 102])
  | FFin _ a _ => a = 0 <-> d2a accurate b = Some (sign ++ [48])
  end.
Proof.
  intros Hb. cbv zeta. pose proof (dec_diy b Hb) as Q. destruct (dec binary64 b) as [|neg|neg f e] eqn:D.
  - destruct Q as (f & Dy & N). unfold d2a. rewrite Dy, sign_eq. unfold convert, implicit_lead.
    change (972 =? _) with true. cbv iota. change 0x0010000000000000 with (2 ^ 52). replace (f - 2 ^ 52 =? 0) with false by lia. reflexivity.
  - destruct Q as (f & Dy & _ & N). unfold d2a. rewrite Dy, sign_eq. unfold convert, implicit_lead.
    change (972 =? _) with true. cbv iota. change 0x0010000000000000 with (2 ^ 52). replace (f - 2 ^ 52 =? 0) with true by lia. reflexivity.
  - destruct Q as (Dy & Ng & Hf & He & Hn). split.
    + intros ->. unfold d2a. rewrite Dy, sign_eq. unfold convert. change (0x7ff - exponent_bias) with 972.
      replace (e =? 972) with false by lia. reflexivity.
    + intros T. assert (F : is_finite b).
      { intros Fi. unfold is_finite in Fi. change 2047 with (2 ^ 11 - 1) in Fi at 1. rewrite land_mask in Fi by lia.
        unfold dec, f_expmax in D. cbn [f_w f_p binary64] in D. change (53 - 1) with 52 in D. change (64 - 53) with 11 in D.
        rewrite Fi in D. change (2047 =? 2 ^ 11 - 1) with true in D. cbv iota in D. destruct (_ =? 0) in D; discriminate. }
      destruct (C60_d2a_reads_back accurate b Hb F) as (t & T' & _ & v & neg' & m & x & Ub & R & _ & Near & _).
      assert (t = (if 2 ^ 63 <=? b then [45] else []) ++ [48]) by congruence. subst t.
      assert (m = 0 /\ x = 0) as [-> ->].
      { destruct (2 ^ 63 <=? b); vm_compute in R; injection R as _ <- <-; auto. }
      destruct (Z.eq_dec v 0) as [V|V].
      * unfold units in Ub. rewrite D in Ub. assert (smant neg f * 2 ^ (e + 1074) = 0) by congruence.
        assert (0 < 2 ^ (e + 1074)) by (apply pow2_pos; lia). destruct neg; cbn [smant] in *; nia.
      * specialize (Near 0 0 ltac:(lia) eq_refl ltac:(lia)). unfold distance in Near. change (10 ^ Z.max (- 0) 0) with 1 in Near.
        destruct neg'; cbn [smant] in Near; lia.
Qed.

(** ** The printer with two forms *)
Lemma between_shift f e m x : 0 <= x -> between f e m x -> between f e (m * 10 ^ (x + 1)) (-1).
Proof.
  intros Hx [[B1 B2] B3]. unfold between, num, den in *. rewrite pow10_succ by lia.
  replace (Z.max x 0) with x in * by lia. replace (Z.max (- x) 0) with 0 in * by lia.
  change (10 ^ 0) with 1 in *. change (10 ^ Z.max (-1) 0) with 1. change (10 ^ Z.max (- -1) 0) with 10.
  set (k := 2 ^ 1075) in *. set (k' := 2 ^ 1076) in *. set (u := 2 ^ (e + 1074)) in *. set (q := 10 ^ x) in *. clearbody k k' u q.
  split; [split; lia|]. intros E. specialize (B3 E). lia.
Qed.
Lemma no_ordinal accurate f e n : convert accurate false f e <> Some (Ordinal n).
Proof.
  unfold convert. destruct (e =? _); [destruct (negb _); discriminate|]. destruct (f =? 0); [discriminate|].
  rewrite andb_false_r. cbv iota zeta. destruct (cached_power _) as [[[ff fe] x]|]; [|discriminate].
  destruct (scale _ _ _ _) as [[f' e'] lsb]. destruct (make_digits _ _ _ _ _ _) as [[ds x']|]; discriminate.
Qed.
Lemma zeros_copied x : 0 <= x <= 14 -> forall stale,
  firstn (Z.to_nat (x + 2)) (firstn (Z.to_nat gap) (skipn (Z.to_nat (gap - x)) zeros_with_dot) ++ [stale]) = repeat 48 (Z.to_nat x) ++ [46; 48].
Proof.
  intros Hx stale. assert (C : x = 0 \/ x = 1 \/ x = 2 \/ x = 3 \/ x = 4 \/ x = 5 \/ x = 6 \/ x = 7 \/ x = 8 \/ x = 9 \/ x = 10 \/ x = 11 \/
    x = 12 \/ x = 13 \/ x = 14) by lia.
  repeat (destruct C as [C|C]; [subst x; reflexivity|]). subst x; reflexivity.
Qed.

(** Both forms read back as the double, and the sign is stored inside the caller's buffer. *)
Theorem C62_shodan_reads_back accurate min_exp max_exp stale b : -14 <= min_exp -> max_exp <= 14 ->
  0 <= b < 2 ^ 64 -> is_finite b ->
  exists t low, shodan accurate min_exp max_exp stale b = Some (t, low) /\ 0 <= low /\ reads_back t b.
Proof.
  intros Hmin Hmax Hb F. destruct (finite_dec b Hb F) as (neg & f & e & D). pose proof (dec_diy b Hb) as Q. rewrite D in Q.
  destruct Q as (Dy & Ng & Hf & He & Hn). unfold shodan. rewrite Dy, sign_eq, <- Ng.
  destruct (Z.eq_dec f 0) as [E|E].
  - subst f. unfold convert. change (0x7ff - exponent_bias) with 972. replace (e =? 972) with false by lia. cbn [Z.eqb].
    eexists _, _. split; [reflexivity|]. split; [unfold gap; lia|].
    exists 0, neg, 0, (-1). split; [unfold units; rewrite D; destruct neg; reflexivity|]. split; [destruct neg; reflexivity|].
    split; [exact Ng|]. split; [|vm_compute; reflexivity].
    intros c w _ _ Nw. unfold distance. change (10 ^ Z.max (- -1) 0) with 10. destruct neg; cbn [smant]; lia.
  - pose proof (no_ordinal accurate f e) as NO.
    destruct (convert_ok accurate false f e ltac:(lia) He Hn) as [n Hn64 X|ds x Fd Ld Hx B]; [destruct (NO n eq_refl)|]. clear NO.
    assert (Lr : length (rev ds) = length ds) by apply rev_length. assert (Fr : Forall isdig (rev ds)) by (apply Forall_rev; exact Fd).
    pose proof (dval_rev ds) as V. unfold shodan_exponenta. rewrite Lr. set (r := rev ds) in *. clearbody r.
    set (canon := Z.of_nat (length ds) + x - 1).
    assert (Nr : r <> []) by (intros ->; cbn [length] in Lr; lia).
    pose proof (read_dotted neg) as RD.
    assert (X0 : exponenta 0 = []) by reflexivity.
    destruct ((canon >=? min_exp) && (canon <=? max_exp)) eqn:C.
    + apply andb_prop in C as [C1 C2]. destruct (Z.ltb_spec x 0) as [N|N].
      * destruct (Z.geb_spec canon 0) as [G|L].
        -- set (ptr := Z.to_nat (Z.of_nat (length ds) + x)).
           assert (Hp : (1 <= ptr <= length ds)%nat) by (unfold ptr; lia).
           rewrite (firstn_all2 (skipn ptr r)) by (rewrite skipn_length; unfold gap; lia).
           eexists _, _. split; [reflexivity|]. split; [unfold gap; lia|].
           apply (reads_between b _ neg f e (dval ds) x Hb D); [lia| |exact B].
           specialize (RD (firstn ptr r) (skipn ptr r) 0). rewrite X0, app_nil_r in RD. cbn [app]. rewrite RD; [| | | |lia].
           ++ rewrite firstn_skipn, V, skipn_length. do 2 f_equal. lia.
           ++ rewrite <- (firstn_skipn ptr r) in Fr. apply Forall_app in Fr. tauto.
           ++ intros N'. apply (f_equal (@length Z)) in N'. rewrite firstn_length in N'. cbn [length] in N'. lia.
           ++ rewrite <- (firstn_skipn ptr r) in Fr. apply Forall_app in Fr. tauto.
        -- eexists _, _. split; [reflexivity|]. split; [unfold gap; lia|].
           apply (reads_between b _ neg f e (dval ds) x Hb D); [lia| |exact B].
           set (z := repeat 48 (Z.to_nat (- canon - 1))). specialize (RD [48] (z ++ r) 0). rewrite X0, app_nil_r in RD. cbn [app] in *. rewrite RD; [| | | |lia].
           ++ rewrite app_length, Lr. cbn [fold_left]. change (10 * 0 + (48 - 48)) with 0. rewrite fold_left_app. unfold z.
              rewrite fold_zeros, V, repeat_length. do 2 f_equal. lia.
           ++ constructor; [unfold isdig; lia|constructor].
           ++ discriminate.
           ++ apply Forall_app. split; [apply isdig_repeat|exact Fr].
      * rewrite zeros_copied by lia. eexists _, _. split; [reflexivity|]. split; [unfold gap; lia|].
        apply (reads_between b _ neg f e (dval ds * 10 ^ (x + 1)) (-1) Hb D); [lia| |apply between_shift; assumption].
        specialize (RD (r ++ repeat 48 (Z.to_nat x)) [48] 0). rewrite X0, app_nil_r in RD. rewrite <- !app_assoc in RD. rewrite RD; [| | | |lia].
        -- change (repeat 48 (Z.to_nat x) ++ [48]) with (repeat 48 (Z.to_nat x) ++ repeat 48 1). rewrite <- repeat_app, fold_left_app.
           rewrite fold_acc, fold_zeros, V, repeat_length. replace (Z.of_nat (Z.to_nat x + 1)) with (x + 1) by lia.
           rewrite Z.add_0_r. reflexivity.
        -- apply Forall_app. split; [exact Fr|apply isdig_repeat].
        -- destruct r; [congruence|discriminate].
        -- constructor; [unfold isdig; lia|constructor].
    + clear C. destruct r as [|d r]; [congruence|]. eexists _, _. split; [reflexivity|]. split; [unfold gap; lia|].
      apply (reads_between b _ neg f e (dval ds) x Hb D); [lia| |exact B].
      specialize (RD [d] r canon). cbn [app] in *. inversion Fr as [|? ? F1 F2]. cbn [length] in Lr. rewrite RD; [| | | |lia].
      * rewrite V. do 2 f_equal. lia.
      * constructor; [exact F1|constructor].
      * discriminate.
      * exact F2.
Qed.

(** ** Examples and refutations *)
(** 0.1 in both modes, the least denormal and -1/3 *)
Example C60_tenth : d2a false 0x3fb999999999999a = Some [49; 101; 45; 49] /\ d2a true 0x3fb999999999999a = Some [49; 101; 45; 49] /\
  is_finite 0x3fb999999999999a /\ read_number [49; 101; 45; 49] = Some (false, 1, -1).
Proof. vm_compute. repeat split; discriminate. Qed.
Example C60_third : match d2a true 0xbfd5555555555555 with Some t => read_number t | None => None end = Some (true, 3333333333333333, -16).
Proof. vm_compute. reflexivity. Qed.
(** a wrong text does not read back: 0.1 as 10000000000000002e-17 is a neighbour *)
Example C60_wrong_text : ~ reads_back [49; 48; 48; 48; 48; 48; 48; 48; 48; 48; 48; 48; 48; 48; 48; 48; 50; 101; 45; 49; 55] 0x3fb999999999999a.
Proof.
  intros (v & neg & m & x & Ub & R & _ & Near & _).
  assert (V : exists k, units 0x3fb999999999999b = Some k) by (vm_compute; eauto). destruct V as [k V].
  assert (V' := V). assert (Ub' := Ub).
  vm_compute in V', Ub', R. injection R as <- <- <-.
  specialize (Near 0x3fb999999999999b k ltac:(lia) V).
  injection V' as <-. injection Ub' as <-. specialize (Near ltac:(discriminate)). vm_compute in Near. discriminate.
Qed.

(** "Impeccable representation nearest to the actual value": the digits of the accurate mode are
    not always the nearest of their length ... *)
Theorem C61_accurate_not_nearest_refuted : exists b t m x v,
  is_finite b /\ d2a true b = Some t /\ read_number t = Some (false, m, x) /\ units b = Some v /\
  distance false (m + 1) x v < distance false m x v.
Proof.
  exists 0x57b9962ba6d71acb, [51; 57; 51; 56; 49; 51; 56; 55; 50; 48; 55; 49; 55; 55; 55; 54; 51; 101; 43; 57; 56], 39381387207177763, 98.
  eexists. split; [vm_compute; discriminate|]. split; [vm_compute; reflexivity|]. split; [vm_compute; reflexivity|].
  split; [unfold units; change (dec binary64 0x57b9962ba6d71acb) with (FFin false 7201988644641483 328); reflexivity|].
  vm_compute. reflexivity.
Qed.
(** ... nor the shortest that read back as the double. *)
Theorem C61_not_shortest_refuted : exists b t t', is_finite b /\ d2a true b = Some t /\ d2a false b = Some t /\
  reads_back t' b /\ (length t' < length t)%nat.
Proof.
  exists 4, [50; 48; 101; 45; 51; 50; 52], [50; 101; 45; 51; 50; 51].
  split; [vm_compute; discriminate|]. split; [vm_compute; reflexivity|]. split; [vm_compute; reflexivity|]. split; [|cbn; lia].
  apply (reads_between 4 _ false 4 (-1074) 2 (-323)); [lia|reflexivity|lia|reflexivity|].
  vm_compute. split; [auto|discriminate].
Qed.
(** What does hold: at most 17 digits, or the exact integer value. *)
Theorem C61_digits_partial accurate b : 0 <= b < 2 ^ 64 -> is_finite b ->
  exists t neg m x v, d2a accurate b = Some t /\ read_number t = Some (neg, m, x) /\ units b = Some v /\
    (0 <= m < 10 ^ 17 \/ accurate = false /\ x = 0 /\ distance neg m x v = 0).
Proof.
  intros Hb F. destruct (finite_dec b Hb F) as (neg & f & e & D). pose proof (dec_diy b Hb) as Q. rewrite D in Q.
  destruct Q as (Dy & Ng & Hf & He & Hn). unfold d2a. rewrite Dy, sign_eq, <- Ng.
  destruct (Z.eq_dec f 0) as [E|E].
  - subst f. unfold convert. change (0x7ff - exponent_bias) with 972. replace (e =? 972) with false by lia. cbn [Z.eqb].
    exists ((if neg then [45] else []) ++ [48]), neg, 0, 0, 0. split; [reflexivity|]. split; [destruct neg; reflexivity|].
    split; [unfold units; rewrite D; destruct neg; reflexivity|]. left; lia.
  - assert (NO : accurate = true -> forall n, convert accurate true f e <> Some (Ordinal n)).
    { intros -> n. unfold convert. destruct (e =? _); [destruct (negb _); discriminate|]. destruct (f =? 0); [discriminate|].
      cbn [negb andb]. cbv iota zeta. destruct (cached_power _) as [[[ff fe] x]|]; [|discriminate].
      destruct (scale _ _ _ _) as [[f' e'] lsb]. destruct (make_digits _ _ _ _ _ _) as [[ds x']|]; discriminate. }
    destruct (convert_ok accurate true f e ltac:(lia) He Hn) as [n Hn64 X|ds x Fd Ld Hx B].
    + destruct (u2a64_ok n 0 (fun _ => 0) Hn64) as (l & Em & (Nl & Fl & Vl & _) & Ll). rewrite (written_emits _ l Em).
      exists ((if neg then [45] else []) ++ l), neg, n, 0, (smant neg f * 2 ^ (e + 1074)). split; [reflexivity|].
      split. { pose proof (read_plain neg l 0 Fl Nl ltac:(lia)) as R. rewrite app_nil_r in R. rewrite R. rewrite <- decimal_fold, Vl. reflexivity. }
      split; [unfold units; rewrite D; reflexivity|]. right. split; [destruct accurate; [destruct (NO eq_refl n eq_refl)|reflexivity]|].
      split; [reflexivity|]. unfold distance. change (10 ^ Z.max 0 0) with 1. change (10 ^ Z.max (- 0) 0) with 1. rewrite !Z.mul_1_r, !smant_mul.
      unfold exactly in X. rewrite X, Z.sub_diag. reflexivity.
    + exists ((if neg then [45] else []) ++ rev ds ++ exponenta x), neg, (dval ds), x, (smant neg f * 2 ^ (e + 1074)). split; [reflexivity|].
      split. { rewrite read_plain; [rewrite dval_rev; reflexivity|apply Forall_rev; exact Fd| |lia].
        intros N. apply (f_equal (@length Z)) in N. rewrite rev_length in N. cbn [length] in N. lia. }
      split; [unfold units; rewrite D; reflexivity|]. left. clear - Fd Ld.
      assert (G : 0 <= dval ds < 10 ^ Z.of_nat (length ds)).
      { clear Ld. induction Fd as [|c ds Hc _ IH]; [cbn; lia|]. cbn [dval length]. unfold isdig in Hc.
        rewrite Nat2Z.inj_succ, <- Z.add_1_r, pow10_succ by lia. lia. }
      assert (10 ^ Z.of_nat (length ds) <= 10 ^ 17) by (apply Z.pow_le_mono_r; lia). lia.
Qed.

(** The template arguments that shodan_printer asserts to be fine reach further than its buffer
    arithmetic: with [min_exp4dec] = -15 the sign of 1e-15 is stored before the buffer ... *)
Theorem C62_before_buffer_refuted : exists b t low stale, is_finite b /\ 15 < gap /\
  shodan true (-15) 10 stale b = Some (t, low) /\ low < 0.
Proof.
  exists 0x3cd203af9ee75616, ([48; 46] ++ repeat 48 14 ++ [49]), (-1), 0.
  split; [vm_compute; discriminate|]. split; [vm_compute; reflexivity|]. split; [vm_compute; reflexivity|lia].
Qed.
(** ... and with [max_exp4dec] = 15 the text of 1e15 ends with whatever the buffer held. *)
Theorem C62_stale_byte_refuted : exists b, is_finite b /\ 15 < gap /\
  forall stale, exists t low, shodan true (-4) 15 stale b = Some (t ++ [stale], low).
Proof.
  exists 0x430c6bf526340000. split; [vm_compute; discriminate|]. split; [vm_compute; reflexivity|].
  intros stale. exists ([49] ++ repeat 48 15 ++ [46]), 15. reflexivity.
Qed.
(** What is not a number and what is infinite are named as by [d2a], zero is shown with its fraction;
    the sign is put before each of them, and nothing is written before the buffer. *)
Theorem C62_special accurate min_exp max_exp stale b : 0 <= b < 2 ^ 64 ->
  let sign := if 2 ^ 63 <=? b then [45] else [] in
  match dec binary64 b with
  | FNan => shodan accurate min_exp max_exp stale b = Some (sign ++ [110; 97; 110], 15)
  | FInf _ => shodan accurate min_exp max_exp stale b = Some (sign ++ [105; 110; 102], 15)
  | FFin _ a _ => a = 0 -> shodan accurate min_exp max_exp stale b = Some (sign ++ [48; 46; 48], 15)
  end.
Proof.
  intros Hb. cbv zeta. pose proof (dec_diy b Hb) as Q. destruct (dec binary64 b) as [|neg|neg f e] eqn:D.
  - destruct Q as (f & Dy & N). unfold shodan. rewrite Dy, sign_eq. unfold convert, implicit_lead.
    change (972 =? _) with true. cbv iota. change 0x0010000000000000 with (2 ^ 52). replace (f - 2 ^ 52 =? 0) with false by lia. reflexivity.
  - destruct Q as (f & Dy & _ & N). unfold shodan. rewrite Dy, sign_eq. unfold convert, implicit_lead.
    change (972 =? _) with true. cbv iota. change 0x0010000000000000 with (2 ^ 52). replace (f - 2 ^ 52 =? 0) with true by lia. reflexivity.
  - destruct Q as (Dy & Ng & Hf & He & Hn). intros ->. unfold shodan. rewrite Dy, sign_eq. unfold convert.
    change (0x7ff - exponent_bias) with 972. replace (e =? 972) with false by lia. reflexivity.
Qed.
Example C62_special_case : dec binary64 0xfff0000000000000 = FInf true /\
  shodan true (-4) 10 0 0xfff0000000000000 = Some ([45; 105; 110; 102], 15) /\
  shodan true (-4) 10 0 0x7ff8000000000000 = Some ([110; 97; 110], 15) /\
  shodan true (-4) 10 0 (2 ^ 63) = Some ([45; 48; 46; 48], 15).
Proof. vm_compute. repeat split. Qed.
Example C62_forms :
  shodan true (-4) 10 0 0x3f1a36e2eb1c432d = Some ([48; 46; 48; 48; 48; 49], 10) /\
  shodan true (-4) 10 0 0xc0934a0000000000 = Some ([45; 49; 50; 51; 52; 46; 53], 15) /\
  shodan true (-4) 10 0 0x40c3880000000000 = Some ([49; 48; 48; 48; 48; 46; 48], 15) /\
  shodan true (-4) 10 0 0x4415af1d78b58c40 = Some ([49; 46; 101; 43; 50; 48], 14).
Proof. vm_compute. repeat split. Qed.

Print Assumptions C60_d2a_reads_back.
Print Assumptions C60_special.
Print Assumptions C61_accurate_not_nearest_refuted.
Print Assumptions C61_not_shortest_refuted.
Print Assumptions C61_digits_partial.
Print Assumptions C62_shodan_reads_back.
Print Assumptions C62_special.
Print Assumptions C62_before_buffer_refuted.
Print Assumptions C62_stale_byte_refuted.
