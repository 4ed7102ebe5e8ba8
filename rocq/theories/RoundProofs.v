(** * RoundProofs: what a number rounded to a format is (facts about [enc] and [dec] of Numeric.v). *)
From Verif Require Import Base Numeric NumericProofs.
From Coq Require Import ZifyBool ZifyNat.

(** ** The bits made from a mantissa [r] and an exponent [q] stand for r * 2^q *)
Lemma dec_low f neg B : good_fmt f -> 0 <= B < f_inf f ->
  dec f ((if neg : bool then 2 ^ (f_w f - 1) else 0) + B) =
  (let ex := B / 2 ^ (f_p f - 1) in let fr := B mod 2 ^ (f_p f - 1) in
   if ex =? 0 then FFin neg fr (f_emin f) else FFin neg (2 ^ (f_p f - 1) + fr) (ex - 1 + f_emin f)).
Proof.
  intros [Gp Gw]. unfold f_inf, dec. set (P := 2 ^ (f_p f - 1)) in *. unfold f_expmax. set (W := 2 ^ (f_w f - f_p f)) in *.
  assert (PP : 0 < P) by (apply Z.pow_pos_nonneg; lia).
  assert (PW : 0 < W) by (apply Z.pow_pos_nonneg; lia).
  assert (E : 2 ^ (f_w f - 1) = W * P) by (unfold P, W; rewrite <- Z.pow_add_r by lia; f_equal; lia).
  rewrite E. clearbody P W. intros HB. cbv zeta.
  assert (B / P < W - 1) by (apply Z.div_lt_upper_bound; lia). assert (0 <= B / P) by (apply Z.div_pos; lia).
  assert (EX : (((if neg then W * P else 0) + B) / P) mod W = B / P).
  { destruct neg.
    - rewrite Z.div_add_l by lia. rewrite Z.add_comm. replace W with (1 * W) at 1 by lia. rewrite Z.mod_add by lia. apply Z.mod_small. lia.
    - rewrite Z.add_0_l. apply Z.mod_small. lia. }
  assert (FR : ((if neg then W * P else 0) + B) mod P = B mod P).
  { destruct neg; [|reflexivity]. rewrite Z.add_comm, Z.mod_add by lia. reflexivity. }
  assert (SG : negb (((if neg then W * P else 0) + B) / (W * P) =? 0) = neg).
  { assert (B < W * P) by nia. destruct neg.
    - replace (W * P + B) with (1 * (W * P) + B) by ring. rewrite Z.div_add_l by nia. rewrite (Z.div_small B) by lia. reflexivity.
    - rewrite Z.add_0_l, Z.div_small by lia. reflexivity. }
  rewrite EX, FR, SG. destruct (Z.eqb_spec (B / P) (W - 1)); [lia|reflexivity].
Qed.
Lemma dec_made f neg q r : good_fmt f -> f_emin f <= q -> 0 <= r <= 2 * 2 ^ (f_p f - 1) -> (q = f_emin f \/ 2 ^ (f_p f - 1) <= r) ->
  (q - f_emin f) * 2 ^ (f_p f - 1) + r < f_inf f ->
  exists a e, dec f ((if neg : bool then 2 ^ (f_w f - 1) else 0) + ((q - f_emin f) * 2 ^ (f_p f - 1) + r)) = FFin neg a e /\
    (a = r /\ e = q \/ r = 2 * a /\ e = q + 1).
Proof.
  intros G Q R N L. rewrite dec_low; [|exact G|split; [|exact L]]; cycle 1.
  { assert (0 <= (q - f_emin f) * 2 ^ (f_p f - 1)) by (apply Z.mul_nonneg_nonneg; [lia|apply Z.pow_nonneg; lia]). lia. }
  assert (PP : 0 < 2 ^ (f_p f - 1)) by (destruct G; apply Z.pow_pos_nonneg; lia). clear L. set (P := 2 ^ (f_p f - 1)) in *. clearbody P. cbv zeta.
  assert (D : ((q - f_emin f) * P + r) / P = q - f_emin f + r / P) by (rewrite Z.div_add_l by lia; reflexivity).
  assert (M : ((q - f_emin f) * P + r) mod P = r mod P) by (rewrite Z.add_comm, Z.mod_add by lia; reflexivity).
  rewrite D, M. destruct (Z.lt_ge_cases r P) as [C|C]; [|destruct (Z.lt_ge_cases r (2 * P)) as [C2|C2]].
  - rewrite Z.div_small, Z.mod_small by lia. assert (q = f_emin f) as -> by lia. replace (f_emin f - f_emin f + 0) with 0 by lia. cbn [Z.eqb].
    exists r, (f_emin f). auto.
  - assert (r / P = 1) as -> by (symmetry; apply (Z.div_unique r P 1 (r - P)); lia). assert (r mod P = r - P) as -> by (symmetry; apply (Z.mod_unique r P 1 (r - P)); lia).
    destruct (Z.eqb_spec (q - f_emin f + 1) 0); [lia|]. eexists _, _. split; [reflexivity|]. left. lia.
  - assert (r = 2 * P) as -> by lia. rewrite Z.div_mul, Z.mod_mul by lia. destruct (Z.eqb_spec (q - f_emin f + 2) 0); [lia|].
    eexists _, _. split; [reflexivity|]. right. lia.
Qed.

(** ** Rounding to whole numbers: none is nearer *)
Lemma rne_nearest n k m : 0 < k -> 2 * Z.abs (n - rne n k * 2 ^ k) <= 2 ^ k /\ Z.abs (n - rne n k * 2 ^ k) <= Z.abs (n - m * 2 ^ k).
Proof.
  intros Hk. unfold rne. destruct (Z.leb_spec k 0); [lia|]. cbv zeta.
  assert (P : 0 < 2 ^ k) by (apply Z.pow_pos_nonneg; lia).
  assert (E : 2 ^ k = 2 * 2 ^ (k - 1)) by (replace k with (1 + (k - 1)) at 1 by lia; rewrite Z.pow_add_r; lia).
  pose proof (Z.div_mod n (2 ^ k) ltac:(lia)) as DM. pose proof (Z.mod_pos_bound n (2 ^ k) P) as MB.
  set (K := 2 ^ k) in *. set (h := 2 ^ (k - 1)) in *. set (q := n / K) in *. set (r := n mod K) in *. clearbody K h q r.
  assert (X : forall c, 2 * Z.abs (n - c * K) <= K -> 2 * Z.abs (n - c * K) <= K /\ Z.abs (n - c * K) <= Z.abs (n - m * K)).
  { intros c Hc. split; [exact Hc|]. destruct (Z.eq_dec c m) as [->|Ne]; [lia|]. assert (K <= Z.abs (c * K - m * K)) by (rewrite <- Z.mul_sub_distr_r, Z.abs_mul, (Z.abs_eq K) by lia; nia). lia. }
  destruct (Z.ltb_spec r h); [apply X; nia|]. destruct (Z.ltb_spec h r); [apply X; nia|]. destruct (Z.even q); apply X; nia.
Qed.
Lemma rne_tie n k m : 0 < k -> Z.abs (n - m * 2 ^ k) <= Z.abs (n - rne n k * 2 ^ k) -> m = rne n k \/ Z.even (rne n k) = true.
Proof.
  intros Hk. destruct (rne_nearest n k m Hk) as [N _]. revert N. unfold rne. destruct (Z.leb_spec k 0); [lia|]. cbv zeta.
  assert (P : 0 < 2 ^ k) by (apply Z.pow_pos_nonneg; lia).
  assert (E : 2 ^ k = 2 * 2 ^ (k - 1)) by (replace k with (1 + (k - 1)) at 1 by lia; rewrite Z.pow_add_r; lia).
  pose proof (Z.div_mod n (2 ^ k) ltac:(lia)) as DM. pose proof (Z.mod_pos_bound n (2 ^ k) P) as MB.
  set (K := 2 ^ k) in *. set (h := 2 ^ (k - 1)) in *. set (q := n / K) in *. set (r := n mod K) in *. clearbody K h q r.
  assert (X : forall c, 2 * Z.abs (n - c * K) < K -> Z.abs (n - m * K) <= Z.abs (n - c * K) -> m = c).
  { intros c Hc Hm. destruct (Z.eq_dec m c) as [|Ne]; [assumption|]. assert (K <= Z.abs (c * K - m * K)) by (rewrite <- Z.mul_sub_distr_r, Z.abs_mul, (Z.abs_eq K) by lia; nia). lia. }
  destruct (Z.ltb_spec r h); [intros _ HH; left; apply X; [nia|exact HH]|]. destruct (Z.ltb_spec h r); [intros _ HH; left; apply X; [nia|exact HH]|].
  intros _ _. right. destruct (Z.even q) eqn:Ev; [exact Ev|]. rewrite Z.even_add, Ev. reflexivity.
Qed.
(** the mantissa that rounding makes *)
Lemma rne_bounds n k p : 0 < n -> 0 <= p -> Z.log2 n - p <= k -> 0 <= rne n k <= 2 * 2 ^ p /\ (k = Z.log2 n - p -> 2 ^ p <= rne n k).
Proof.
  intros Hn Hp Hk. destruct (Z.log2_spec n Hn) as [L1 L2]. pose proof (Z.log2_nonneg n) as L0. set (l := Z.log2 n) in *. clearbody l.
  assert (P2 : 0 < 2 ^ p) by (apply Z.pow_pos_nonneg; lia).
  destruct (Z.le_gt_cases k 0) as [C|C].
  - unfold rne. destruct (Z.leb_spec k 0); [|lia]. assert (0 < 2 ^ (- k)) by (apply Z.pow_pos_nonneg; lia). split.
    + split; [nia|]. replace (2 * 2 ^ p) with (2 ^ (1 + p)) by (rewrite Z.pow_add_r by lia; reflexivity).
      assert (n * 2 ^ (- k) <= 2 ^ Z.succ l * 2 ^ (- k)) by (apply Z.mul_le_mono_nonneg_r; lia). rewrite <- Z.pow_add_r in * by lia.
      assert (2 ^ (Z.succ l + - k) <= 2 ^ (1 + p)) by (apply Z.pow_le_mono_r; lia). lia.
    + intros ->. assert (2 ^ l * 2 ^ (- (l - p)) <= n * 2 ^ (- (l - p))) by (apply Z.mul_le_mono_nonneg_r; lia). rewrite <- Z.pow_add_r in * by lia.
      replace (l + - (l - p)) with p in * by lia. assumption.
  - assert (K : 0 < 2 ^ k) by (apply Z.pow_pos_nonneg; lia). split; [split|].
    + destruct (rne_nearest n k 0 C) as [_ H]. rewrite Z.mul_0_l, Z.sub_0_r in H. destruct (Z.lt_ge_cases (rne n k) 0); [nia|assumption].
    + destruct (rne_nearest n k (2 * 2 ^ p) C) as [_ H]. assert (n <= 2 * 2 ^ p * 2 ^ k).
      { replace (2 * 2 ^ p) with (2 ^ (1 + p)) by (rewrite Z.pow_add_r by lia; reflexivity). rewrite <- Z.pow_add_r by lia.
        assert (2 ^ Z.succ l <= 2 ^ (1 + p + k)) by (apply Z.pow_le_mono_r; lia). lia. }
      destruct (Z.lt_ge_cases (2 * 2 ^ p) (rne n k)); [nia|assumption].
    + intros ->. destruct (rne_nearest n (l - p) (2 ^ p) C) as [_ H]. assert (2 ^ p * 2 ^ (l - p) <= n) by (rewrite <- Z.pow_add_r by lia; replace (p + (l - p)) with l by lia; exact L1).
      destruct (Z.lt_ge_cases (rne n (l - p)) (2 ^ p)); [nia|assumption].
Qed.

(** ** A number of the format nearest to [v]: as an exact difference of scaled integers *)
Definition nearer (v x y : fval) : Prop :=
  match v, x, y with
  | FFin n a e, FFin n1 a1 e1, FFin n2 a2 e2 => forall K, K <= e -> K <= e1 -> K <= e2 ->
    Z.abs (smant n a * 2 ^ (e - K) - smant n1 a1 * 2 ^ (e1 - K)) <= Z.abs (smant n a * 2 ^ (e - K) - smant n2 a2 * 2 ^ (e2 - K))
  | _, _, _ => False
  end.
Lemma abs_scale x y s : 0 < s -> Z.abs (x * s) <= Z.abs (y * s) -> Z.abs x <= Z.abs y.
Proof. intros Hs H. rewrite !Z.abs_mul, (Z.abs_eq s) in H by lia. nia. Qed.
Lemma nearer_down n a e n1 a1 e1 n2 a2 e2 m : m <= e -> m <= e1 -> m <= e2 ->
  (forall K, K <= m -> Z.abs (smant n a * 2 ^ (e - K) - smant n1 a1 * 2 ^ (e1 - K)) <= Z.abs (smant n a * 2 ^ (e - K) - smant n2 a2 * 2 ^ (e2 - K))) ->
  nearer (FFin n a e) (FFin n1 a1 e1) (FFin n2 a2 e2).
Proof.
  intros M0 M1 M2 H K H0 H1 H2. assert (X : exists k, k <= K /\ k <= m) by (exists (Z.min K m); lia). destruct X as (k & Hk & Hm). specialize (H k Hm).
  assert (E : forall x, K <= x -> 2 ^ (x - k) = 2 ^ (x - K) * 2 ^ (K - k)) by (clear - Hk; intros x Hx; rewrite <- Z.pow_add_r by lia; f_equal; lia).
  rewrite (E e H0), (E e1 H1), (E e2 H2) in H. clear E. apply (abs_scale _ _ (2 ^ (K - k))); [apply Z.pow_pos_nonneg; lia|]. rewrite !Z.mul_sub_distr_r. rewrite !Z.mul_assoc in H. exact H.
Qed.
Lemma dec_infinite f neg : fmt2 f -> dec f ((if neg : bool then 2 ^ (f_w f - 1) else 0) + f_inf f) = FInf neg.
Proof. intros [-> | ->]; destruct neg; vm_compute; reflexivity. Qed.
(** none of the format is nearer, and of two equally near ones the one with even bits is taken *)
Lemma enc_nearest f n a e b : fmt2 f -> 0 <= a -> finite (dec f (enc f (FFin n a e))) = true -> 0 <= b < 2 ^ f_w f -> finite (dec f b) = true ->
  nearer (FFin n a e) (dec f (enc f (FFin n a e))) (dec f b) /\
  (nearer (FFin n a e) (dec f b) (dec f (enc f (FFin n a e))) -> fcmp (dec f b) (dec f (enc f (FFin n a e))) = Some Eq \/ Z.even (enc f (FFin n a e)) = true).
Proof.
  intros F Ha Fi Hb Fb. pose proof (fmt2_good f F) as G. destruct (dec_shape f b G Hb Fb) as (n2 & a2 & e2 & -> & A2 & E2 & _).
  unfold enc in *. destruct (Z.eqb_spec a 0) as [->|Na].
  { rewrite Z.add_0_r in *. assert (Q : exists e1, dec f (if n then 2 ^ (f_w f - 1) else 0) = FFin n 0 e1) by (destruct F as [-> | ->], n; eexists; vm_compute; reflexivity).
    destruct Q as [e1 ->]. split; [|intros _; right; destruct F as [-> | ->], n; reflexivity]. intros K _ _ _. unfold smant. destruct n; rewrite ?Z.mul_0_l; cbn; apply Z.abs_nonneg. }
  cbv zeta in *. set (p := f_p f - 1) in *. assert (Hp : 1 <= p) by (unfold p; destruct G; lia).
  set (q := Z.max (Z.log2 a + e - p) (f_emin f)) in *.
  destruct (rne_bounds a (q - e) p ltac:(lia) ltac:(lia) ltac:(unfold q; lia)) as [R0 R1].
  set (B := (q - f_emin f) * 2 ^ p + rne a (q - e)) in *.
  destruct (Z.lt_ge_cases B (f_inf f)) as [C|C]; [|rewrite Z.min_l, dec_infinite in Fi by (lia || exact F); discriminate].
  rewrite Z.min_r by lia. clear Fi.
  assert (EB : Z.even ((if n then 2 ^ (f_w f - 1) else 0) + B) = Z.even (rne a (q - e))).
  { assert (Z.even (if n then 2 ^ (f_w f - 1) else 0) = true) by (destruct F as [-> | ->], n; reflexivity).
    assert (Z.even (2 ^ p) = true) by (replace p with (1 + (p - 1)) by lia; rewrite Z.pow_add_r, Z.even_mul by lia; reflexivity).
    unfold B. rewrite !Z.even_add, Z.even_mul, H0, H, Bool.orb_true_r. destruct (Z.even (rne a (q - e))); reflexivity. }
  rewrite EB. clear EB. unfold B in *. clear B.
  pose proof (dec_made f n q (rne a (q - e)) G ltac:(unfold q; lia) R0) as DM. fold p in DM. destruct DM as (a1 & e1 & -> & V); [|exact C|].
  { destruct (Z.le_gt_cases (Z.log2 a + e - p) (f_emin f)); [left; unfold q; lia|right; apply R1; unfold q; lia]. }
  clear C R0 R1.
  assert (M1 : q <= e1) by lia.
  assert (Main : forall K, K <= Z.min (Z.min e q) e2 -> let X := smant n a * 2 ^ (e - K) in let R := smant n a1 * 2 ^ (e1 - K) in let Y := smant n2 a2 * 2 ^ (e2 - K) in
    Z.abs (X - R) <= Z.abs (X - Y) /\ (Z.abs (X - Y) <= Z.abs (X - R) -> Y = R \/ Z.even (rne a (q - e)) = true)).
  { intros K HK X R Y.
    assert (EV : a1 * 2 ^ (e1 - K) = rne a (q - e) * 2 ^ (q - K)).
    { destruct V as [[-> ->]|[-> ->]]; [reflexivity|]. replace (q + 1 - K) with (1 + (q - K)) by lia. rewrite Z.pow_add_r by lia. change (2 ^ 1) with 2. ring. }
    clear V. set (y := if Bool.eqb n n2 then a2 else - a2).
    assert (S1 : Z.abs (X - R) = Z.abs (a * 2 ^ (e - K) - rne a (q - e) * 2 ^ (q - K))) by (rewrite <- EV; unfold X, R, smant; destruct n; lia).
    assert (S2 : Z.abs (X - Y) = Z.abs (a * 2 ^ (e - K) - y * 2 ^ (e2 - K))) by (unfold X, Y, smant, y; destruct n, n2; cbn [Bool.eqb]; lia).
    assert (S3 : y * 2 ^ (e2 - K) = rne a (q - e) * 2 ^ (q - K) -> Y = R) by (rewrite <- EV; unfold Y, R, smant, y; destruct n, n2; cbn [Bool.eqb]; lia).
    rewrite S1, S2. clear S1 S2 EV. assert (Hy : Z.abs y < 2 ^ (1 + p)) by (unfold y; replace (1 + p) with (f_p f) by (unfold p; lia); destruct (Bool.eqb n n2); lia). clearbody y X R Y. clear A2.
    destruct (Z.le_gt_cases (q - e) 0) as [D|D].
    { assert (Z0 : a * 2 ^ (e - K) = rne a (q - e) * 2 ^ (q - K)).
      { unfold rne. destruct (Z.leb_spec (q - e) 0); [|lia]. rewrite <- Z.mul_assoc, <- Z.pow_add_r by lia. f_equal. f_equal. lia. }
      rewrite Z0, Z.sub_diag. split; [apply Z.abs_nonneg|]. intros H. left. apply S3. lia. }
    assert (T : 0 < 2 ^ (e - K)) by (apply Z.pow_pos_nonneg; lia).
    assert (EQ : 2 ^ (q - K) = 2 ^ (q - e) * 2 ^ (e - K)) by (rewrite <- Z.pow_add_r by lia; f_equal; lia).
    rewrite EQ in *. destruct (Z.le_gt_cases q e2) as [C|C].
    - replace (y * 2 ^ (e2 - K)) with (y * 2 ^ (e2 - q) * 2 ^ (q - e) * 2 ^ (e - K)) in * by (rewrite <- !Z.mul_assoc, <- !Z.pow_add_r by lia; do 2 f_equal; lia).
      rewrite Z.mul_assoc in *. rewrite <- !Z.mul_sub_distr_r, !Z.abs_mul, (Z.abs_eq (2 ^ (e - K))) by lia.
      destruct (rne_nearest a (q - e) (y * 2 ^ (e2 - q)) D) as [_ H]. split; [apply Z.mul_le_mono_nonneg_r; [lia|exact H]|]. intros H2. apply Z.mul_le_mono_pos_r in H2; [|exact T].
      destruct (rne_tie a (q - e) _ D H2) as [Q|Q]; [left; apply S3; rewrite Q; reflexivity|right; exact Q].
    - destruct (rne_nearest a (q - e) (2 ^ p) D) as [_ H].
      assert (Eq : q - e = Z.log2 a - p) by (unfold q in *; lia). destruct (Z.log2_spec a ltac:(lia)) as [L _].
      assert (Z0 : 2 ^ p * 2 ^ (q - e) <= a) by (rewrite <- Z.pow_add_r by lia; replace (p + (q - e)) with (Z.log2 a) by lia; exact L).
      assert (Z1 : y * 2 ^ (e2 - K) < 2 ^ p * 2 ^ (q - e) * 2 ^ (e - K)).
      { assert (P0 : 0 < 2 ^ (e2 - K)) by (apply Z.pow_pos_nonneg; lia).
        assert (Z.abs y * 2 ^ (e2 - K) < 2 ^ (1 + p) * 2 ^ (e2 - K)) by (apply Z.mul_lt_mono_pos_r; lia).
        assert (2 ^ (1 + p) * 2 ^ (e2 - K) <= 2 ^ p * 2 ^ (q - e) * 2 ^ (e - K)) by (rewrite <- !Z.pow_add_r by lia; apply Z.pow_le_mono_r; lia).
        assert (y * 2 ^ (e2 - K) <= Z.abs y * 2 ^ (e2 - K)) by (apply Z.mul_le_mono_nonneg_r; lia). lia. }
      rewrite Z.mul_assoc in *. rewrite <- Z.mul_sub_distr_r, Z.abs_mul, (Z.abs_eq (2 ^ (e - K))) by lia.
      rewrite (Z.abs_eq (a - 2 ^ p * 2 ^ (q - e))) in H by lia.
      assert (Z2 : Z.abs (a - rne a (q - e) * 2 ^ (q - e)) * 2 ^ (e - K) <= (a - 2 ^ p * 2 ^ (q - e)) * 2 ^ (e - K)) by (apply Z.mul_le_mono_nonneg_r; lia).
      rewrite (Z.mul_sub_distr_r a) in Z2. clear - Z2 Z1. split; [lia|intros Z3; lia]. }
  split.
  - apply (nearer_down _ _ _ _ _ _ _ _ _ (Z.min (Z.min e q) e2)); [lia|lia|lia|]. intros K HK. apply (Main K HK).
  - intros H. set (K := Z.min (Z.min e q) e2) in *. specialize (H K ltac:(lia) ltac:(lia) ltac:(lia)). destruct (proj2 (Main K ltac:(lia)) H) as [Q|Q]; [left|right; exact Q].
    unfold fcmp. rewrite (cmp_scale _ _ _ _ _ _ K) by lia. rewrite Q, Z.compare_refl. reflexivity.
Qed.
