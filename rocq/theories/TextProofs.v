(** * TextProofs: reading the printed texts back. *)
From Coq Require Import Ascii String Lia ZifyBool ZifyNat.
From Verif Require Import Base Tag Values ValuesProofs Text.
Ltac Zify.zify_post_hook ::= Z.div_mod_to_equations.
Open Scope Z_scope.

(** ** Decimal numbers *)
Definition isdigit (c : Z) : Prop := 48 <= c <= 57.
(** the number a row of digits denotes *)
Definition number (l : list Z) : Z := fold_left (fun a c => 10 * a + (c - 48)) l 0.
Lemma number_snoc l c : number (l ++ [c]) = 10 * number l + (c - 48).
Proof. unfold number. rewrite fold_left_app. reflexivity. Qed.

Lemma digits_read fuel : forall n, 0 <= n < 10 ^ Z.of_nat fuel -> (0 < fuel)%nat ->
  number (digits fuel n) = n /\ Forall isdigit (digits fuel n) /\ (0 < List.length (digits fuel n) <= fuel)%nat.
Proof.
  induction fuel as [|fuel IH]; intros n H F; [lia|]. cbn [digits]. destruct (n <? 10) eqn:E.
  - split; [unfold number; cbn [fold_left]; lia|]. split; [constructor; [unfold isdigit; lia|constructor]|cbn [List.length]; lia].
  - rewrite Nat2Z.inj_succ, Z.pow_succ_r in H by lia.
    assert (F' : (0 < fuel)%nat) by (destruct fuel; [cbn in H; lia|lia]).
    destruct (IH (n / 10) ltac:(lia) F') as (R & D & L). rewrite number_snoc, R. split; [lia|].
    split; [apply Forall_app; split; [exact D|constructor; [unfold isdigit; lia|constructor]]|].
    rewrite app_length; cbn [List.length]; lia.
Qed.
Lemma fixed_length k : forall n, List.length (digits_fixed k n) = k.
Proof. induction k as [|k IH]; intros n; [reflexivity|]. cbn [digits_fixed]. rewrite app_length, IH. cbn; lia. Qed.
Lemma fixed_read k : forall n, 0 <= n < 10 ^ Z.of_nat k ->
  number (digits_fixed k n) = n /\ Forall isdigit (digits_fixed k n).
Proof.
  induction k as [|k IH]; intros n H; [cbn in *; split; [lia|constructor]|]. cbn [digits_fixed].
  rewrite Nat2Z.inj_succ, Z.pow_succ_r in H by lia.
  destruct (IH (n / 10) ltac:(lia)) as [R D]. rewrite number_snoc, R. split; [lia|].
  apply Forall_app; split; [exact D|constructor; [unfold isdigit; lia|constructor]].
Qed.
Lemma fixed_zero k : digits_fixed k 0 = repeat 48 k.
Proof.
  induction k as [|k IH]; [reflexivity|]. cbn [digits_fixed]. change (0 / 10) with 0. change (48 + 0 mod 10) with 48. rewrite IH.
  symmetry. apply (repeat_cons k 48).
Qed.
Lemma padded_fixed k : forall fuel n, (0 < k <= fuel)%nat -> 0 <= n < 10 ^ Z.of_nat k ->
  repeat 48 (k - List.length (digits fuel n)) ++ digits fuel n = digits_fixed k n.
Proof.
  induction k as [|k IH]; intros fuel n F H; [lia|].
  destruct fuel as [|fuel]; [lia|]. cbn [digits digits_fixed]. destruct (n <? 10) eqn:E.
  - replace (n / 10) with 0 by lia. rewrite fixed_zero. cbn [List.length]. replace (S k - 1)%nat with k by lia.
    replace (n mod 10) with n by lia. reflexivity.
  - rewrite Nat2Z.inj_succ, Z.pow_succ_r in H by lia.
    assert (F' : (0 < k <= fuel)%nat) by (destruct k; [cbn in H; lia|lia]).
    rewrite <- (IH fuel (n / 10) F' ltac:(lia)). rewrite app_length. cbn [List.length].
    rewrite Nat.add_1_r, Nat.sub_succ, app_assoc. reflexivity.
Qed.
Lemma print_0d_fixed k n : (0 < k <= 10)%nat -> 0 <= n < 10 ^ Z.of_nat k -> print_0d k n = digits_fixed k n.
Proof. intros. unfold print_0d. apply padded_fixed; assumption. Qed.

Lemma fixed_snoc_lt k a b : 0 <= a < 10 ^ Z.of_nat k -> 0 <= b < 10 ^ Z.of_nat k -> a < b ->
  lexlt (digits_fixed k a) (digits_fixed k b).
Proof.
  revert a b. induction k as [|k IH]; intros a b Ha Hb L; [cbn in *; lia|].
  cbn [digits_fixed]. rewrite Nat2Z.inj_succ, Z.pow_succ_r in Ha, Hb by lia.
  destruct (Z.eq_dec (a / 10) (b / 10)) as [E|N].
  - rewrite E. apply lexlt_app_eq. apply lx_head. lia.
  - apply lexlt_app_lt; [rewrite !fixed_length; reflexivity|]. apply IH; lia.
Qed.

(** ** The signed %i *)
Lemma print_i_inj a b : - 2 ^ 31 <= a < 2 ^ 31 -> - 2 ^ 31 <= b < 2 ^ 31 -> print_i a = print_i b -> a = b.
Proof.
  intros Ha Hb. unfold print_i.
  destruct (digits_read 10 (Z.abs a) ltac:(change (10 ^ Z.of_nat 10) with 10000000000; lia) ltac:(lia)) as (Ra & Da & La).
  destruct (digits_read 10 (Z.abs b) ltac:(change (10 ^ Z.of_nat 10) with 10000000000; lia) ltac:(lia)) as (Rb & Db & Lb).
  destruct (a <? 0) eqn:Ea, (b <? 0) eqn:Eb; intros E.
  - replace (- a) with (Z.abs a) in E by lia. replace (- b) with (Z.abs b) in E by lia. assert (E2 : digits 10 (Z.abs a) = digits 10 (Z.abs b)) by congruence. rewrite E2 in Ra. lia.
  - replace (- a) with (Z.abs a) in E by lia. replace b with (Z.abs b) in E at 1 by lia. rewrite <- E in Db. inversion Db as [|x l Hx]. unfold isdigit in Hx. lia.
  - replace (- b) with (Z.abs b) in E by lia. replace a with (Z.abs a) in E at 1 by lia. rewrite E in Da. inversion Da as [|x l Hx]. unfold isdigit in Hx. lia.
  - replace a with (Z.abs a) in E by lia. replace b with (Z.abs b) in E by lia. rewrite E in Ra. lia.
Qed.
Lemma print_i_length a : - 2 ^ 31 <= a < 2 ^ 31 -> (0 < List.length (print_i a) <= 11)%nat.
Proof.
  intros Ha. unfold print_i. destruct (a <? 0) eqn:E.
  - destruct (digits_read 10 (- a) ltac:(change (10 ^ Z.of_nat 10) with 10000000000; lia) ltac:(lia)) as (_ & _ & L). cbn [List.length]. lia.
  - destruct (digits_read 10 a ltac:(change (10 ^ Z.of_nat 10) with 10000000000; lia) ltac:(lia)) as (_ & _ & L). lia.
Qed.

(** ** Switches *)
Lemma switch_cases l x d : (exists s, In (x, s) l /\ switch l x d = codes s) \/ ((forall s, ~ In (x, s) l) /\ switch l x d = d).
Proof.
  induction l as [|[y s] l IH]; [right; split; [intros s []|reflexivity]|]. cbn [switch]. destruct (Z.eqb_spec x y) as [->|N].
  - left. exists s. split; [left; reflexivity|reflexivity].
  - destruct IH as [(s' & I & E)|[N' E]].
    + left. exists s'. split; [right; exact I|exact E].
    + right. split; [|exact E]. intros s' [Q|Q]; [congruence|exact (N' s' Q)].
Qed.

(** ** The calendar *)
(** days from 1970-01-01 to the first of January of the year [y]: 365 for each year and one for each
    year divisible by 4 but not by 100, unless by 400 *)
Definition days_before (y : Z) : Z := 365 * (y - 1970) + (y - 1969) / 4 - (y - 1901) / 100 + (y - 1601) / 400.
Lemma year_step y : days_before (y + 1) = days_before y + year_days y.
Proof. unfold days_before, year_days, leap. destruct (y mod 4 =? 0) eqn:A, (y mod 100 =? 0) eqn:B, (y mod 400 =? 0) eqn:C; cbn [andb orb negb]; lia. Qed.
Lemma days_before_mono y z : y <= z -> days_before y <= days_before z.
Proof. intros. unfold days_before. lia. Qed.
Lemma year_days_bounds y : 365 <= year_days y <= 366.
Proof. unfold year_days. destruct (leap y); lia. Qed.
Lemma count_years_spec fuel : forall y d, 0 <= d < 365 * Z.of_nat fuel ->
  let '(y', d') := count_years fuel y d in
  days_before y' + d' = days_before y + d /\ 0 <= d' < year_days y' /\ y <= y'.
Proof.
  induction fuel as [|fuel IH]; intros y d H; [lia|]. cbn [count_years]. destruct (d <? year_days y) eqn:E; [split; [reflexivity|]; split; lia|].
  pose proof (year_days_bounds y) as B. pose proof (year_step y) as Y.
  specialize (IH (y + 1) (d - year_days y) ltac:(lia)). destruct (count_years fuel (y + 1) (d - year_days y)) as [y' d'].
  destruct IH as (A & R & L). split; [lia|]. split; [exact R|lia].
Qed.
(** days of the year before the month [m] = 0 (January) .. 11 *)
Definition before_month (lp : bool) (m : Z) : Z :=
  nth (Z.to_nat m) [0; 31; 59; 90; 120; 151; 181; 212; 243; 273; 304; 334; 365] 0 + (if lp && (2 <=? m) then 1 else 0).
Lemma month_step y m : 0 <= m <= 11 -> before_month (leap y) (m + 1) = before_month (leap y) m + month_days y m.
Proof.
  intros H. assert (C : m = 0 \/ m = 1 \/ m = 2 \/ m = 3 \/ m = 4 \/ m = 5 \/ m = 6 \/ m = 7 \/ m = 8 \/ m = 9 \/ m = 10 \/ m = 11) by lia.
  unfold month_days. destruct (leap y); repeat destruct C as [->|C]; try subst m; reflexivity.
Qed.
Lemma month_days_bounds y m : 28 <= month_days y m <= 31.
Proof. unfold month_days. destruct m as [|p|p]; try lia. repeat (destruct p as [p|p|]; try lia); destruct (leap y); lia. Qed.
Lemma before_month_mono lp m n : 0 <= m -> m <= n -> n <= 12 -> before_month lp m <= before_month lp n.
Proof.
  intros H0 H1 H2.
  assert (A : all_below 13 (fun a => all_below 13 (fun b => (b <? a) || ((before_month true a <=? before_month true b) && (before_month false a <=? before_month false b)))) = true) by (vm_compute; reflexivity).
  pose proof (all_below_spec _ _ A m ltac:(lia)) as B. cbv beta in B. pose proof (all_below_spec _ _ B n ltac:(lia)) as C. cbv beta in C. destruct lp; lia.
Qed.
Lemma before_year_end y : before_month (leap y) 12 = year_days y.
Proof. unfold year_days. destruct (leap y); reflexivity. Qed.
Lemma count_months_spec fuel : forall y m d, 0 <= d -> 0 <= m -> m + Z.of_nat fuel = 11 ->
  before_month (leap y) m + d < year_days y ->
  let '(m', d') := count_months fuel y m d in
  before_month (leap y) m' + d' = before_month (leap y) m + d /\ 0 <= d' < month_days y m' /\ m <= m' <= 11.
Proof.
  induction fuel as [|fuel IH]; intros y m d H Hm Hf L; cbn [count_months].
  - replace m with 11 in * by lia. pose proof (month_step y 11 ltac:(lia)) as S1. change (11 + 1) with 12 in S1. rewrite before_year_end in S1.
    split; [reflexivity|]. split; lia.
  - destruct (d <? month_days y m) eqn:E; [split; [reflexivity|]; split; lia|].
    pose proof (month_step y m ltac:(lia)) as S1.
    specialize (IH y (m + 1) (d - month_days y m) ltac:(lia) ltac:(lia) ltac:(lia) ltac:(lia)).
    destruct (count_months fuel y (m + 1) (d - month_days y m)) as [m' d']. destruct IH as (A & R & B). split; [lia|]. split; [exact R|lia].
Qed.

(** a date and time of day that exists *)
Definition real_tm (u : tm) : Prop :=
  0 <= tm_mon u <= 11 /\ 1 <= tm_mday u <= month_days (tm_year u + 1900) (tm_mon u) /\
  0 <= tm_hour u < 24 /\ 0 <= tm_min u < 60 /\ 0 <= tm_sec u < 60.
Definition seconds_of (y m d h mi s : Z) : Z :=
  (days_before y + before_month (leap y) (m - 1) + d - 1) * 86400 + h * 3600 + mi * 60 + s.
Lemma gmtime_spec sec : 0 <= sec <= 2 ^ 32 -> let u := gmtime sec in
  real_tm u /\ seconds_of (tm_year u + 1900) (tm_mon u + 1) (tm_mday u) (tm_hour u) (tm_min u) (tm_sec u) = sec /\
  1970 <= tm_year u + 1900 <= 2106.
Proof.
  intros H u. subst u. unfold gmtime, real_tm, seconds_of.
  pose proof (count_years_spec 400 1970 (sec / 86400) ltac:(lia)) as Y. destruct (count_years 400 1970 (sec / 86400)) as [y d].
  destruct Y as (Y1 & Y2 & Y3).
  pose proof (count_months_spec 11 y 0 d ltac:(lia) ltac:(lia) ltac:(lia)) as M. change (before_month (leap y) 0) with (0 + (if leap y && false then 1 else 0)) in M.
  rewrite Bool.andb_false_r in M. specialize (M ltac:(lia)). destruct (count_months 11 y 0 d) as [m d']. destruct M as (M1 & M2 & M3).
  change (days_before 1970) with 0 in Y1. assert (D19 : days_before 2107 = 50038) by reflexivity.
  assert (Y4 : y <= 2106).
  { destruct (Z.le_gt_cases y 2106) as [Q|Q]; [exact Q|]. pose proof (days_before_mono 2107 y ltac:(lia)). lia. }
  cbn [tm_year tm_mon tm_mday tm_hour tm_min tm_sec]. replace (y - 1900 + 1900) with y by lia. replace (m + 1 - 1) with m by lia.
  split; [|split; [|lia]].
  - split; [lia|]. split; [lia|]. split; [lia|]. split; lia.
  - replace (days_before y + before_month (leap y) m + (d' + 1) - 1) with (sec / 86400) by lia. lia.
Qed.
(** the calendar order is the order of seconds *)
Lemma seconds_lt y m d h mi s y' m' d' h' mi' s' :
  1 <= m <= 12 -> 1 <= d <= month_days y (m - 1) -> 0 <= h < 24 -> 0 <= mi < 60 -> 0 <= s < 60 ->
  1 <= m' <= 12 -> 1 <= d' <= month_days y' (m' - 1) -> 0 <= h' < 24 -> 0 <= mi' < 60 -> 0 <= s' < 60 ->
  lexlt [y; m; d; h; mi; s] [y'; m'; d'; h'; mi'; s'] -> seconds_of y m d h mi s < seconds_of y' m' d' h' mi' s'.
Proof.
  intros Hm Hd Hh Hi Hs Hm' Hd' Hh' Hi' Hs' L. unfold seconds_of.
  assert (B : before_month (leap y) (m - 1) + d <= before_month (leap y) m).
  { pose proof (month_step y (m - 1) ltac:(lia)) as Q. replace (m - 1 + 1) with m in Q by lia. lia. }
  assert (Hz : before_month (leap y) 0 = 0) by (destruct (leap y); reflexivity).
  assert (Hz' : before_month (leap y') 0 = 0) by (destruct (leap y'); reflexivity).
  pose proof (before_month_mono (leap y) m 12 ltac:(lia) ltac:(lia) ltac:(lia)) as B12. rewrite before_year_end in B12.
  pose proof (before_month_mono (leap y') 0 (m' - 1) ltac:(lia) ltac:(lia) ltac:(lia)) as B0.
  inversion L as [|? ? ? ? P1|? ? ? L1]; subst.
  { pose proof (year_step y). pose proof (days_before_mono (y + 1) y' ltac:(lia)). lia. }
  clear L. inversion L1 as [|? ? ? ? P2|? ? ? L2]; subst.
  { pose proof (before_month_mono (leap y') m (m' - 1) ltac:(lia) ltac:(lia) ltac:(lia)). lia. }
  clear L1. inversion L2 as [|? ? ? ? P3|? ? ? L3]; subst; [lia|].
  clear L2. inversion L3 as [|? ? ? ? P4|? ? ? L4]; subst; [lia|].
  clear L3. inversion L4 as [|? ? ? ? P5|? ? ? L5]; subst; [lia|].
  clear L4. inversion L5 as [|? ? ? ? P6|? ? ? L6]; subst; [lia|]. inversion L6.
Qed.

(** ** Fractions *)
Lemma nano_spec f : 0 <= f < 2 ^ 32 -> 0 <= nano f <= 10 ^ 9 /\ 2 * Z.abs (nano f * 2 ^ 32 - f * 10 ^ 9) <= 2 ^ 32.
Proof.
  intros H. unfold nano. cbv zeta. set (p := f * 10 ^ 9). assert (Hp : 0 <= p < 2 ^ 32 * 10 ^ 9) by (subst p; lia).
  clearbody p. destruct (p mod 2 ^ 32 <? 2 ^ 31) eqn:A; [lia|]. destruct (p mod 2 ^ 32 =? 2 ^ 31) eqn:B; [|lia].
  destruct (Z.even (p / 2 ^ 32)); lia.
Qed.
Lemma nano_mono f g : 0 <= f -> f <= g -> nano f <= nano g.
Proof.
  intros H L. unfold nano. cbv zeta. set (p := f * 10 ^ 9). set (q := g * 10 ^ 9). assert (Hp : 0 <= p <= q) by (subst p q; lia).
  clearbody p q.
  destruct (p mod 2 ^ 32 <? 2 ^ 31) eqn:A, (q mod 2 ^ 32 <? 2 ^ 31) eqn:B;
  destruct (p mod 2 ^ 32 =? 2 ^ 31) eqn:C, (q mod 2 ^ 32 =? 2 ^ 31) eqn:D;
  destruct (Z.eq_dec (p / 2 ^ 32) (q / 2 ^ 32)) as [E|E]; try rewrite E;
  destruct (Z.even (q / 2 ^ 32)); try destruct (Z.even (p / 2 ^ 32)); lia.
Qed.

(** ** Rows of fields of fixed width: each field has a width, a value and a character after it *)
Fixpoint row (l : list (nat * Z * list Z)) : list Z :=
  match l with [] => [] | (w, v, sep) :: l => digits_fixed w v ++ sep ++ row l end.
Definition shape (l : list (nat * Z * list Z)) : list (nat * list Z) := map (fun x => (fst (fst x), snd x)) l.
Definition vals (l : list (nat * Z * list Z)) : list Z := map (fun x => snd (fst x)) l.
Definition fits (l : list (nat * Z * list Z)) : Prop := Forall (fun x => 0 <= snd (fst x) < 10 ^ Z.of_nat (fst (fst x))) l.
Lemma row_lt l : forall r, shape l = shape r -> fits l -> fits r -> lexlt (vals l) (vals r) -> lexlt (row l) (row r).
Proof.
  induction l as [|[[w v] sep] l IH]; intros [|[[w' v'] sep'] r] Sh Fl Fr L; try discriminate; [inversion L|].
  cbn in Sh. injection Sh as -> -> Sh. inversion Fl as [|? ? F1 F2]; inversion Fr as [|? ? G1 G2]; subst. cbn [fst snd] in *.
  cbn [row]. cbn in L. inversion L as [|? ? ? ? P|? ? ? L']; subst.
  - apply lexlt_app_lt; [rewrite !fixed_length; reflexivity|]. apply fixed_snoc_lt; assumption.
  - apply lexlt_app_eq. apply lexlt_app_eq. apply IH; assumption.
Qed.
Lemma row_chars (P : Z -> Prop) l : (forall c, isdigit c -> P c) -> fits l -> Forall (fun x => Forall P (snd x)) l -> Forall P (row l).
Proof.
  intros D. induction l as [|[[w v] sep] l IH]; intros F Q; [constructor|]. inversion F as [|? ? F1 F2]; inversion Q as [|? ? Q1 Q2]; subst. cbn [fst snd] in *.
  cbn [row]. apply Forall_app. split; [eapply Forall_impl; [exact D|apply fixed_read; exact F1]|]. apply Forall_app. split; [exact Q1|apply IH; assumption].
Qed.
