(** * Properties of the validator on arbitrary bytes *)
From Verif Require Import Base Tag TagProofs Hippeus HippeusProofs Scan ScanProofs Gear GearBase Audit AuditProofs.
From Coq Require Import ZifyBool ZifyNat.
Ltac Zify.zify_post_hook ::= Z.div_mod_to_equations.

(** ** C11. An accepted image is memory-safe to read *)
(** Everything that owns bytes of the payload: a position of the index (field or hole) or a
    preplaced reference of the schema. *)
Inductive owner := Loose (k : nat) | Slot (j : nat).
Definition exists_owner (m : bmem) (ptr : Z) (schema : option sch) (o : owner) : Prop :=
  match o with
  | Loose k => Z.of_nat k < ro_index m ptr
  | Slot j => pbytes_of schema <> 0 /\ (j < length (toks_of schema))%nat
  end.
(** address of its first byte and number of bytes *)
Definition extent (m : bmem) (ptr : Z) (schema : option sch) (o : owner) : Z * Z :=
  let pivot := ro_pivot m ptr in
  match o with
  | Loose k => (e_payload m pivot k, 4 * e_units m pivot k)
  | Slot j => let t := nth j (toks_of schema) (31, 0) in (t_payload m pivot t, 4 * t_units m pivot t)
  end.
(** references of the schema are aligned, and inside the preplaced area *)
Definition sound_schema (schema : option sch) : Prop :=
  0 <= pbytes_of schema /\
  forall t, In t (toks_of schema) -> fst t <= g_property -> snd t mod 4 = 0 /\ 0 <= snd t /\ snd t + 2 <= pbytes_of schema.

Lemma cover_toks_nonneg : forall m pivot toks x, 0 <= cover_toks m pivot toks x.
Proof. induction toks as [|t toks IH]; intros x; cbn [cover_toks]; [lia|]. pose proof (ind_range (t_start m pivot t) (t_units m pivot t) x). specialize (IH x). lia. Qed.
Lemma cover_toks_nth : forall m pivot toks j x, (j < length toks)%nat ->
  ind (t_start m pivot (nth j toks (31, 0))) (t_units m pivot (nth j toks (31, 0))) x <= cover_toks m pivot toks x.
Proof.
  induction toks as [|t toks IH]; intros j x H; cbn [length] in H; [lia|]. cbn [cover_toks]. destruct j as [|j]; cbn [nth].
  - pose proof (cover_toks_nonneg m pivot toks x). lia.
  - specialize (IH j x ltac:(lia)). pose proof (ind_range (t_start m pivot t) (t_units m pivot t) x). lia.
Qed.
Lemma cover_toks_two : forall m pivot toks i j x, (i < j < length toks)%nat ->
  ind (t_start m pivot (nth i toks (31, 0))) (t_units m pivot (nth i toks (31, 0))) x +
  ind (t_start m pivot (nth j toks (31, 0))) (t_units m pivot (nth j toks (31, 0))) x <= cover_toks m pivot toks x.
Proof.
  induction toks as [|t toks IH]; intros i j x H; cbn [length] in H; [lia|]. cbn [cover_toks]. destruct j as [|j]; [lia|]. cbn [nth]. destruct i as [|i].
  - pose proof (cover_toks_nth m pivot toks j x ltac:(lia)). lia.
  - specialize (IH i j x ltac:(lia)). pose proof (ind_range (t_start m pivot t) (t_units m pivot t) x). lia.
Qed.
Lemma sumn_two : forall n f i j, (forall k, (k < n)%nat -> 0 <= f k) -> (i < j < n)%nat -> f i + f j <= sumn n f.
Proof.
  induction n as [|n IH]; intros f i j H Hij; [lia|]. cbn [sumn]. destruct (Nat.eq_dec j n) as [->|N].
  - assert (G : forall q k, (k < q <= n)%nat -> f k <= sumn q f).
    { induction q as [|q IHq]; intros k Hk; [lia|]. cbn [sumn]. assert (N0 : 0 <= sumn q f). { clear - H Hk. assert (q <= n)%nat by lia. clear Hk. induction q as [|q IH]; cbn [sumn]; [lia|]. pose proof (H q ltac:(lia)). specialize (IH ltac:(lia)). lia. }
      destruct (Nat.eq_dec k q) as [->|M]; [lia|]. pose proof (H q ltac:(lia)). specialize (IHq k ltac:(lia)). lia. }
    pose proof (G n i ltac:(lia)). lia.
  - pose proof (H n ltac:(lia)). specialize (IH f i j (fun k Hk => H k ltac:(lia)) ltac:(lia)). lia.
Qed.
Lemma sumn_one : forall n f i, (forall k, (k < n)%nat -> 0 <= f k) -> (i < n)%nat -> f i <= sumn n f.
Proof.
  intros n f i H Hi. assert (N0 : forall q, (q <= n)%nat -> 0 <= sumn q f).
  { induction q as [|q IH]; intros Hq; cbn [sumn]; [lia|]. pose proof (H q ltac:(lia)). specialize (IH ltac:(lia)). lia. }
  assert (G : forall q, (i < q <= n)%nat -> f i <= sumn q f).
  { induction q as [|q IH]; intros Hq; [lia|]. cbn [sumn]. destruct (Nat.eq_dec i q) as [->|M]; [pose proof (N0 q ltac:(lia)); lia|]. pose proof (H q ltac:(lia)). specialize (IH ltac:(lia)). lia. }
  apply G. lia.
Qed.

(** the unit interval of an owner, relative to the pivot *)
Definition span (m : bmem) (ptr : Z) (schema : option sch) (o : owner) : Z * Z :=
  let pivot := ro_pivot m ptr in
  match o with
  | Loose k => (e_start m pivot k, e_units m pivot k)
  | Slot j => let t := nth j (toks_of schema) (31, 0) in (t_start m pivot t, t_units m pivot t)
  end.
Lemma extent_span : forall m ptr schema o, sound_schema schema -> exists_owner m ptr schema o -> 0 < snd (extent m ptr schema o) ->
  fst (extent m ptr schema o) = ro_pivot m ptr + 4 * fst (span m ptr schema o) /\ snd (extent m ptr schema o) = 4 * snd (span m ptr schema o).
Proof.
  intros m ptr schema [k|j] S E P; cbn [extent span fst snd] in *.
  - split; [|reflexivity]. unfold e_payload, e_start, entry_addr. lia.
  - split; [|reflexivity]. destruct E as [_ E]. pose proof (nth_In _ (31, 0) E) as I. set (t := nth j (toks_of schema) (31, 0)) in *.
    destruct (proj2 S t I) as (A & _). { unfold t_units in P. destruct (fst t >? g_property) eqn:G; lia. }
    unfold t_start, t_payload. generalize (t_rel m (ro_pivot m ptr) t). intros r. lia.
Qed.

Theorem C11_extents_inside_and_disjoint : forall m ptr bytes schema info, bytes_mem m -> sound_schema schema ->
  snd (ro_audit m ptr bytes schema) = Good info ->
  let pivot := ro_pivot m ptr in
  (* the header, the index and the preplaced area are inside the image *)
  (ptr <> 0 /\ 4 <= bytes /\ ptr + 4 + 4 * ro_index m ptr = pivot /\ pivot + pbytes_of schema <= ptr + bytes) /\
  (* so is every payload and hole, after the preplaced area *)
  (forall o, exists_owner m ptr schema o -> 0 < snd (extent m ptr schema o) ->
     pivot + pbytes_of schema <= fst (extent m ptr schema o) /\ fst (extent m ptr schema o) + snd (extent m ptr schema o) <= ptr + bytes) /\
  (* no byte belongs to two of them *)
  (forall o1 o2 x, exists_owner m ptr schema o1 -> exists_owner m ptr schema o2 -> o1 <> o2 ->
     ~ (fst (extent m ptr schema o1) <= x < fst (extent m ptr schema o1) + snd (extent m ptr schema o1) /\
        fst (extent m ptr schema o2) <= x < fst (extent m ptr schema o2) + snd (extent m ptr schema o2))) /\
  (* the reported holes are the holes of the index *)
  info = (holes_upto m pivot (Z.to_nat (ro_index m ptr)), volume_upto m pivot (Z.to_nat (ro_index m ptr))).
Proof.
  intros m ptr bytes schema info Hm S H pivot. unfold ro_audit in H. apply bindc_good in H as (u & L & H). destruct u.
  destruct (lite_checkup_good _ _ _ L) as (L1 & L2 & L3 & L4 & L5 & L6). pose proof (ro_index_range m ptr Hm) as IR.
  assert (PE : ro_end m ptr = ptr + bytes) by (unfold ro_end; lia). rewrite PE in H.
  assert (PV : ptr + 4 + 4 * ro_index m ptr = pivot) by reflexivity. fold pivot in H, L6.
  assert (max_tuple_bytes_netto = 262136) by reflexivity.
  assert (A1 : 0 <= ptr + bytes - pivot <= 4 * 65535) by lia. assert (A2 : (ptr + bytes - pivot) mod 4 = 0) by lia.
  destruct (audit_tuple_sound m schema pivot _ _ _ _ Hm A1 A2 (proj1 S) H) as (I & F & G & T). cbv zeta in T.
  set (n := Z.to_nat (ro_index m ptr)) in *. set (P := (ptr + bytes - pivot) / 4) in *. set (pre := bytes2units (pbytes_of schema)) in *.
  set (total := fun x => cover_upto m pivot n x + (if pbytes_of schema =? 0 then 0 else cover_toks m pivot (toks_of schema) x)) in *.
  assert (HP : pbytes_of schema <= ptr + bytes - pivot).
  { destruct (Z.eq_dec (pbytes_of schema) 0) as [->|N]; [lia|apply (proj1 (G N))]. }
  assert (T' : forall x, total x <= 1 /\ (0 < total x -> pre <= x < P)).
  { destruct T as [T|[T0 T]]; intros x; specialize (T x); fold (total x) in T; rewrite T; [lia|].
    pose proof (ind_range pre (P - pre) x). split; [lia|]. intros Q. pose proof (ind_1_inv pre (P - pre) x ltac:(lia)). lia. }
  assert (NN : forall x k, (k < n)%nat -> 0 <= (fun k => ind (e_start m pivot k) (e_units m pivot k) x) k).
  { intros x k _. pose proof (ind_range (e_start m pivot k) (e_units m pivot k) x). cbv beta. lia. }
  assert (CN : forall x, 0 <= cover_toks m pivot (toks_of schema) x) by (intros; apply cover_toks_nonneg).
  assert (CU : forall x, 0 <= cover_upto m pivot n x).
  { intros x. unfold cover_upto. clear. induction n as [|n IH]; cbn [sumn]; [lia|]. pose proof (ind_range (e_start m pivot n) (e_units m pivot n) x). lia. }
  assert (SP1 : forall o x, exists_owner m ptr schema o -> ind (fst (span m ptr schema o)) (snd (span m ptr schema o)) x <= total x).
  { intros [k|j] x E; cbn [span fst snd exists_owner] in *; fold pivot; unfold total.
    - pose proof (sumn_one n _ k (NN x) ltac:(lia)) as Q. cbv beta in Q. fold (cover_upto m pivot n x) in Q. specialize (CN x).
      destruct (pbytes_of schema =? 0); lia.
    - destruct E as [E0 E1]. replace (pbytes_of schema =? 0) with false by lia.
      pose proof (cover_toks_nth m pivot _ j x E1). specialize (CU x). lia. }
  assert (SP2 : forall o1 o2 x, exists_owner m ptr schema o1 -> exists_owner m ptr schema o2 -> o1 <> o2 ->
    ind (fst (span m ptr schema o1)) (snd (span m ptr schema o1)) x + ind (fst (span m ptr schema o2)) (snd (span m ptr schema o2)) x <= total x).
  { intros [k1|j1] [k2|j2] x E1 E2 N; cbn [span fst snd exists_owner] in *; fold pivot; unfold total.
    - assert (k1 <> k2) by congruence. specialize (CN x).
      assert (Q : ind (e_start m pivot k1) (e_units m pivot k1) x + ind (e_start m pivot k2) (e_units m pivot k2) x <= cover_upto m pivot n x).
      { destruct (Nat.lt_total k1 k2) as [L0|[L0|L0]]; [|lia|].
        - apply (sumn_two n (fun k => ind (e_start m pivot k) (e_units m pivot k) x) k1 k2 (NN x)); lia.
        - rewrite Z.add_comm. apply (sumn_two n (fun k => ind (e_start m pivot k) (e_units m pivot k) x) k2 k1 (NN x)); lia. }
      destruct (pbytes_of schema =? 0); lia.
    - destruct E2 as [E0 E2]. replace (pbytes_of schema =? 0) with false by lia. pose proof (cover_toks_nth m pivot _ j2 x E2).
      pose proof (sumn_one n _ k1 (NN x) ltac:(lia)) as Q. cbv beta in Q. fold (cover_upto m pivot n x) in Q. lia.
    - destruct E1 as [E0 E1]. replace (pbytes_of schema =? 0) with false by lia. pose proof (cover_toks_nth m pivot _ j1 x E1).
      pose proof (sumn_one n _ k2 (NN x) ltac:(lia)) as Q. cbv beta in Q. fold (cover_upto m pivot n x) in Q. lia.
    - destruct E1 as [E0 E1], E2 as [_ E2]. replace (pbytes_of schema =? 0) with false by lia. assert (j1 <> j2) by congruence. specialize (CU x).
      destruct (Nat.lt_total j1 j2) as [L0|[L0|L0]]; [|lia|].
      + pose proof (cover_toks_two m pivot (toks_of schema) j1 j2 x ltac:(lia)). lia.
      + pose proof (cover_toks_two m pivot (toks_of schema) j2 j1 x ltac:(lia)). lia. }
  split; [lia|]. split; [|split; [|exact I]].
  - intros o E L0. destruct (extent_span _ _ _ _ S E L0) as [X1 X2]. rewrite X1, X2. fold pivot.
    set (a := fst (span m ptr schema o)) in *. set (u := snd (span m ptr schema o)) in *.
    pose proof (SP1 o a E) as Q1. pose proof (SP1 o (a + u - 1) E) as Q2. fold a u in Q1, Q2. rewrite ind_1 in Q1 by lia. rewrite ind_1 in Q2 by lia.
    pose proof (proj2 (T' a) ltac:(lia)) as R1. pose proof (proj2 (T' (a + u - 1)) ltac:(lia)) as R2.
    unfold pre in R1. rewrite bytes2units_div in R1. unfold P in R2. pose proof (proj1 S). lia.
  - intros o1 o2 x E1 E2 N [X1 X2].
    destruct (extent_span _ _ _ _ S E1 ltac:(lia)) as [A11 A12]. destruct (extent_span _ _ _ _ S E2 ltac:(lia)) as [B1 B2].
    rewrite A11, A12 in X1. rewrite B1, B2 in X2. pose proof (SP2 o1 o2 ((x - pivot) / 4) E1 E2 N) as Q. fold pivot in X1, X2.
    rewrite !ind_1 in Q by lia. pose proof (proj1 (T' ((x - pivot) / 4))). lia.
Qed.

(** every byte of a value, as the readers take it, for the types whose length is kept correctly.
    src: field.h:69-95 (string), 255-262 (property), meta.h:569-576; nested: field.h:171-173 *)
Definition value_bytes (m : bmem) (g p : Z) : Z * Z :=
  if g =? 0 then (if m p <? 254 then (p + 1, m p) else (p + 3, m p + half m (p + 1) * 2))
  else if g =? 1 then (p + 4, u64 (4 * half m p - 4 + Z.land (half m (p + 2)) 3))
  else if g =? 2 then (p, 4 * half m p)
  else (p + 2, m p).
Theorem C11_values_inside : forall m ptr bytes schema info k, bytes_mem m -> sound_schema schema ->
  snd (ro_audit m ptr bytes schema) = Good info -> Z.of_nat k < ro_index m ptr ->
  let pivot := ro_pivot m ptr in
  let g := e_genus m pivot k in
  g <= 3 -> g <> 1 -> e_rel m pivot k <> 0 ->
  let v := value_bytes m g (e_payload m pivot k) in
  pivot <= fst v /\ fst v + snd v <= ptr + bytes.
Proof.
  intros m ptr bytes schema info k Hm S H Hk pivot g Hg N1 R v.
  unfold ro_audit in H. apply bindc_good in H as (u & L & H). destruct u.
  destruct (lite_checkup_good _ _ _ L) as (L1 & L2 & L3 & L4 & L5 & L6). pose proof (ro_index_range m ptr Hm) as IR.
  assert (PE : ro_end m ptr = ptr + bytes) by (unfold ro_end; lia). rewrite PE in H. fold pivot in H, L6.
  assert (PV : ptr + 4 + 4 * ro_index m ptr = pivot) by reflexivity.
  assert (max_tuple_bytes_netto = 262136) by reflexivity.
  assert (A1 : 0 <= ptr + bytes - pivot <= 4 * 65535) by lia. assert (A2 : (ptr + bytes - pivot) mod 4 = 0) by lia.
  destruct (audit_tuple_sound m schema pivot _ _ _ _ Hm A1 A2 (proj1 S) H) as (_ & F & _ & _).
  destruct (F k ltac:(lia)) as [_ F2]. assert (GR : 0 <= g) by (apply genus_range; assumption).
  assert (NI : is_inplaced_genus g = false) by (unfold is_inplaced_genus; change g_i8 with 4; change g_u8 with 5; change g_i16 with 6; change g_u16 with 7; lia).
  destruct (F2 R NI) as [B1 B2]. clear F F2. unfold e_units in B2. fold g in B2. rewrite NI in B2.
  replace (g =? g_hole) with false in B2 by (change g_hole with 31; lia). replace (g >? g_property) with false in B2 by (change g_property with 3; lia).
  replace (e_rel m pivot k =? 0) with false in B2 by lia. set (p := e_payload m pivot k) in *. unfold v, value_bytes. unfold brutto_at in B2.
  pose proof (Hm p). pose proof (half_range m (p + 1) Hm). pose proof (half_range m p Hm).
  destruct (g =? 0) eqn:G0.
  - destruct (m p <? 254); cbn [fst snd]; rewrite bytes2units_div in B2; lia.
  - replace (g =? 1) with false in * by lia. cbn [orb] in B2. destruct (g =? 2) eqn:G2; cbn [fst snd].
    + lia.
    + rewrite bytes2units_div in B2. lia.
Qed.
(** binary data is not covered: its length adds the odd bytes instead of subtracting the unused
    ones, so a value accepted by the validator ends up to three bytes after its payload *)
Definition img (bs : list Z) (base : Z) : bmem := fun a => if (base <=? a) && (a <? base + Z.of_nat (length bs)) then nth (Z.to_nat (a - base)) bs 0 else 0.
Lemma img_bytes : forall bs base, Forall (fun b => 0 <= b < 256) bs -> bytes_mem (img bs base).
Proof.
  intros bs base H a. unfold img. destruct (_ && _) eqn:E; [|lia]. rewrite Forall_forall in H. apply H. apply nth_In. lia.
Qed.
Lemma no_schema_sound : sound_schema None.
Proof. split; [cbn; lia|]. intros t []. Qed.
Definition bad_varbin : list Z := [3; 0; 8; 0;  1; 0; 0; 8;  1; 0; 3; 0].
Theorem C11_refuted_varbin : exists m ptr bytes info, bytes_mem m /\ snd (ro_audit m ptr bytes None) = Good info /\
  Z.of_nat 0 < ro_index m ptr /\ e_genus m (ro_pivot m ptr) 0 = 1 /\
  ptr + bytes < fst (value_bytes m 1 (e_payload m (ro_pivot m ptr) 0)) + snd (value_bytes m 1 (e_payload m (ro_pivot m ptr) 0)).
Proof.
  exists (img bad_varbin 4096), 4096, 12, (0, 0). split; [apply img_bytes; repeat constructor; lia|]. vm_compute. repeat split; reflexivity.
Qed.
(** a binary value or nested tuple of no units at all is accepted too, even right after the end
    of the image; its length is then taken as 2^64 - 4 *)
Definition hollow_varbin : list Z := [2; 0; 8; 0;  1; 0; 0; 8].
Theorem C11_refuted_hollow_varbin : exists m ptr bytes info, bytes_mem m /\ snd (ro_audit m ptr bytes None) = Good info /\
  e_genus m (ro_pivot m ptr) 0 = 1 /\ e_payload m (ro_pivot m ptr) 0 = ptr + bytes /\
  snd (value_bytes m 1 (e_payload m (ro_pivot m ptr) 0)) = 2 ^ 64 - 4.
Proof.
  exists (img hollow_varbin 4096), 4096, 8, (0, 0). split; [apply img_bytes; repeat constructor; lia|]. vm_compute. repeat split; reflexivity.
Qed.
(** the hypotheses of C11 hold of a tuple with a preplaced text, a loose text, a loose u64 and a hole *)
Definition good_image : list Z :=
  [10; 0; 26; 0] ++     (* 10 units, 3 entries, preplaced *)
  [6; 0; 1; 0xf8] ++    (* hole of 1 unit *)
  [6; 0; 7; 0x68] ++    (* u64, id 7 *)
  [2; 0; 9; 0] ++       (* text, id 9 *)
  [2; 0; 0; 0] ++       (* preplaced text reference *)
  [2; 104; 105; 0] ++   (* "hi" *)
  [1; 33; 0; 0] ++      (* "!" *)
  [0; 0; 0; 0] ++       (* hole *)
  [1; 2; 3; 4; 5; 6; 7; 8].
Definition good_schema : sch := mkSch 4 [(0, 0)].
Example C11_applies : bytes_mem (img good_image 4096) /\ sound_schema (Some good_schema) /\ snd (ro_audit (img good_image 4096) 4096 40 (Some good_schema)) = Good (1, 1) /\ map (extent (img good_image 4096) 4096 (Some good_schema)) [Loose 0; Loose 1; Loose 2; Slot 0] = [(4116, 4); (4128, 8); (4124, 4); (4120, 4)] /\ value_bytes (img good_image 4096) 0 4116 = (4117, 2).
Proof.
  split; [apply img_bytes; repeat constructor; lia|]. split; [|vm_compute; repeat split; reflexivity].
  split; [cbn; lia|]. intros t [<-|[]] _. cbn. lia.
Qed.

(** ** C12. Validation itself stays inside the image *)
(** References of variable-length fields that lead outside: the validator reads the length there
    before it checks where the reference leads. *)
Definition far_text : list Z := [2; 0; 8; 0;  255; 255; 0; 0].
Theorem C12_refuted : exists m ptr bytes a n, bytes_mem m /\ In (a, n) (fst (ro_audit m ptr bytes None)) /\ ptr + bytes <= a.
Proof.
  exists (img far_text 4096), 4096, 8, (4100 + 4 * 65535), 1. split; [apply img_bytes; repeat constructor; lia|]. vm_compute. split; [tauto|discriminate].
Qed.
(** so two images with the same bytes can get different verdicts *)
Theorem C12_refuted_verdict : exists m1 m2 ptr bytes, bytes_mem m1 /\ bytes_mem m2 /\ (forall a, ptr <= a < ptr + bytes -> m1 a = m2 a) /\
  snd (ro_audit m1 ptr bytes None) <> snd (ro_audit m2 ptr bytes None).
Proof.
  exists (img hollow_varbin 4096), (img (hollow_varbin ++ [1]) 4096), 4096, 8. split; [apply img_bytes; repeat constructor; lia|].
  split; [apply img_bytes; repeat constructor; lia|]. split; [|vm_compute; discriminate].
  intros a Ha. assert (C : a = 4096 \/ a = 4097 \/ a = 4098 \/ a = 4099 \/ a = 4100 \/ a = 4101 \/ a = 4102 \/ a = 4103) by lia.
  decompose [or] C; subst a; reflexivity.
Qed.
(** Every other read is inside. *)
Definition inside (ptr bytes : Z) (r : Z * Z) : Prop := ptr <= fst r /\ fst r + snd r <= ptr + bytes.
Definition length_read (m : bmem) (ptr : Z) (schema : option sch) (r : Z * Z) : Prop :=
  let pivot := ro_pivot m ptr in
  (exists k, Z.of_nat k < ro_index m ptr /\ e_genus m pivot k <= g_property /\ e_rel m pivot k <> 0 /\
     In r (brutto_reads m (e_genus m pivot k) (e_payload m pivot k))) \/
  (exists t, In t (toks_of schema) /\ fst t <= g_property /\ t_rel m pivot t <> 0 /\ In r (brutto_reads m (fst t) (t_payload m pivot t))).
Theorem C12_other_reads_inside_partial : forall m ptr bytes schema, bytes_mem m -> sound_schema schema ->
  forall r, In r (fst (ro_audit m ptr bytes schema)) -> inside ptr bytes r \/ length_read m ptr schema r.
Proof.
  intros m ptr bytes schema Hm S. apply Forall_forall. unfold ro_audit. apply bindc_reads.
  - unfold lite_checkup. destruct (ptr =? 0); [constructor|]. destruct (bytes <? 4) eqn:B; [constructor|]. apply ite_reads; [constructor|]. apply ite_reads; [constructor|].
    apply after_reads; [repeat constructor; cbn [fst snd]; lia|]. apply ite_reads; [constructor|].
    apply after_reads; [repeat constructor; cbn [fst snd]; lia|]. repeat (apply ite_reads; [constructor|]). constructor.
  - intros [] L. destruct (lite_checkup_good _ _ _ L) as (L1 & L2 & L3 & L4 & L5 & L6). pose proof (ro_index_range m ptr Hm) as IR.
    assert (PE : ro_end m ptr = ptr + bytes) by (unfold ro_end; lia). rewrite PE. set (pivot := ro_pivot m ptr) in *.
    assert (PV : ptr + 4 + 4 * ro_index m ptr = pivot) by reflexivity.
    apply audit_tuple_reads; [reflexivity| |].
    + intros k Hk. unfold entry_addr. split; [left; unfold inside; cbn [fst snd]; lia|]. split; [left; unfold inside; cbn [fst snd]; lia|].
      intros G R. apply Forall_forall. intros r I. right. left. exists k. fold pivot. repeat split; try assumption. lia.
    + intros HP t I G. destruct (proj2 S t I G) as (_ & S1 & S2). split; [left; unfold inside; cbn [fst snd]; lia|].
      intros R. apply Forall_forall. intros r J. right. right. exists t. fold pivot. repeat split; assumption.
Qed.
(** and if the references of variable-length fields lead into the image, everything read is *)
Theorem C12_inside_partial : forall m ptr bytes schema, bytes_mem m -> sound_schema schema -> bytes mod 4 = 0 ->
  (forall k, Z.of_nat k < ro_index m ptr -> e_genus m (ro_pivot m ptr) k <= g_property -> e_payload m (ro_pivot m ptr) k < ptr + bytes) ->
  (forall t, In t (toks_of schema) -> fst t <= g_property -> t_payload m (ro_pivot m ptr) t < ptr + bytes) ->
  forall r, In r (fst (ro_audit m ptr bytes schema)) -> inside ptr bytes r.
Proof.
  intros m ptr bytes schema Hm S M HK HT r I. destruct (C12_other_reads_inside_partial m ptr bytes schema Hm S r I) as [G|[(k & K1 & K2 & K3 & K4)|(t & T1 & T2 & T3 & T4)]]; [assumption| |].
  all: pose proof (ro_index_range m ptr Hm) as IR; assert (PV : ro_pivot m ptr = ptr + 4 + 4 * ro_index m ptr) by reflexivity.
  - specialize (HK k K1 K2). set (p := e_payload m (ro_pivot m ptr) k) in *.
    assert (p mod 4 = ptr mod 4 /\ ptr <= p).
    { unfold p, e_payload, entry_addr. pose proof (half_range m (entry_addr (ro_pivot m ptr) k) Hm) as Q. fold (e_rel m (ro_pivot m ptr) k) in Q. rewrite PV in *.
      generalize dependent (e_rel m (ptr + 4 + 4 * ro_index m ptr) k). intros e _ Q. lia. }
    assert (p + 4 <= ptr + bytes) by lia.
    unfold brutto_reads in K4. destruct (_ =? 0). { destruct (_ <? _); cbn in K4; unfold inside; decompose [or] K4; subst; cbn [fst snd]; lia || tauto. }
    destruct (_ || _); cbn in K4; unfold inside; decompose [or] K4; subst; cbn [fst snd]; lia || tauto.
  - specialize (HT t T1 T2). destruct (proj2 S t T1 T2) as (A0 & A1 & _). set (p := t_payload m (ro_pivot m ptr) t) in *.
    assert (p mod 4 = ptr mod 4 /\ ptr <= p).
    { unfold p, t_payload. pose proof (half_range m (ro_pivot m ptr + snd t) Hm) as Q. fold (t_rel m (ro_pivot m ptr) t) in Q. rewrite PV in *.
      generalize dependent (t_rel m (ptr + 4 + 4 * ro_index m ptr) t). intros e _ Q. lia. }
    assert (p + 4 <= ptr + bytes) by lia.
    unfold brutto_reads in T4. destruct (_ =? 0). { destruct (_ <? _); cbn in T4; unfold inside; decompose [or] T4; subst; cbn [fst snd]; lia || tauto. }
    destruct (_ || _); cbn in T4; unfold inside; decompose [or] T4; subst; cbn [fst snd]; lia || tauto.
Qed.
Example C12_applies : fst (ro_audit (img good_image 4096) 4096 40 (Some good_schema)) <> [] /\
  forallb (fun r => (4096 <=? fst r) && (fst r + snd r <=? 4136)) (fst (ro_audit (img good_image 4096) 4096 40 (Some good_schema))) = true /\
  e_payload (img good_image 4096) (ro_pivot (img good_image 4096) 4096) 0 < 4096 + 40.
Proof. vm_compute. repeat split; discriminate || reflexivity. Qed.
(** The reads told are all there are: a memory that has the same bytes there gets the same verdict,
    by the same reads. *)
Definition same_on (t : trace) (m m' : bmem) : Prop := Forall (fun r => forall x, fst r <= x < fst r + snd r -> m x = m' x) t.
Lemma same_app t u m m' : same_on (t ++ u) m m' <-> same_on t m m' /\ same_on u m m'.
Proof. apply Forall_app. Qed.
Lemma same_half a m m' : (forall x, a <= x < a + 2 -> m x = m' x) -> half m' a = half m a.
Proof. intros H. unfold half. rewrite <- !H by lia. reflexivity. Qed.
Lemma same_bind {A B} (c c' : chk A) (f f' : A -> chk B) m m' :
  (same_on (fst c) m m' -> c' = c) -> (forall a, snd c = Good a -> same_on (fst c) m m' -> same_on (fst (f a)) m m' -> f' a = f a) ->
  same_on (fst (bindc c f)) m m' -> bindc c' f' = bindc c f.
Proof.
  intros H1 H2 H. destruct c as [t [a| |]]; cbn in H |- *.
  - apply same_app in H. destruct H as [Ha Hb]. rewrite H1 by exact Ha. cbn. rewrite H2; auto.
  - rewrite H1 by exact H. reflexivity.
  - rewrite H1 by exact H. reflexivity.
Qed.
Lemma same_after {A} t t' (c c' : chk A) m m' : (same_on t m m' -> t' = t) -> (same_on t m m' -> same_on (fst c) m m' -> c' = c) ->
  same_on (fst (after t c)) m m' -> after t' c' = after t c.
Proof. intros H1 H2 H. cbn in H. apply same_app in H. destruct H as [Ha Hb]. rewrite H1, H2 by assumption. reflexivity. Qed.
Lemma same_brutto m m' g p : same_on (brutto_reads m g p) m m' -> brutto_reads m' g p = brutto_reads m g p /\ brutto_at m' g p = brutto_at m g p.
Proof.
  unfold brutto_reads, brutto_at. destruct (g =? 0).
  - destruct (m p <? 254) eqn:E; intros H; inversion H as [|? ? H1 H2]; subst; cbn [fst snd] in H1; rewrite <- (H1 p) by lia; rewrite E; [auto|].
    inversion H2 as [|? ? H3 H4]; subst. cbn [fst snd] in H3. rewrite (same_half (p + 1) m m') by (intros; apply H3; lia). auto.
  - destruct ((g =? 1) || (g =? 2)); intros H; inversion H as [|? ? H1 H2]; subst; cbn [fst snd] in H1.
    + rewrite (same_half p m m') by (intros; apply H1; lia). auto.
    + rewrite <- (H1 p) by lia. auto.
Qed.
Lemma same_loose m m' au a pb pe : same_on (fst (check_loose m au a pb pe)) m m' -> check_loose m' au a pb pe = check_loose m au a pb pe.
Proof.
  unfold check_loose. cbv zeta. apply same_after; [reflexivity|]. intros H. inversion H as [|? ? H1 H2]; subst. cbn [fst snd] in H1. clear H H2.
  rewrite (same_half (a + 2) m m') by (intros; apply H1; lia). destruct (is_inplaced_genus _); [reflexivity|].
  apply same_after; [reflexivity|]. intros H. inversion H as [|? ? H2 H3]; subst. cbn [fst snd] in H2. clear H H3.
  rewrite (same_half a m m') by (intros; apply H2; lia).
  destruct (_ =? g_hole); [reflexivity|]. destruct (_ >? g_property); [reflexivity|]. destruct (_ >? 0); [|reflexivity].
  apply same_after.
  - intros H. apply same_brutto in H. apply H.
  - intros H _. apply same_brutto in H. destruct H as [_ ->]. reflexivity.
Qed.
Lemma same_index m m' pivot pe n : same_on (fst (check_index m pivot pe n)) m m' -> check_index m' pivot pe n = check_index m pivot pe n.
Proof.
  induction n as [|n IH]; [reflexivity|]. cbn [check_index]. apply same_bind; [exact IH|]. intros au _ _. apply same_loose.
Qed.
Lemma same_preplaced m m' pivot pe : forall toks l, same_on (fst (check_preplaced m l pivot pe toks)) m m' -> check_preplaced m' l pivot pe toks = check_preplaced m l pivot pe toks.
Proof.
  induction toks as [|[g off] toks IH]; intros l; [reflexivity|]. cbn [check_preplaced]. cbv zeta.
  destruct (g >? g_property); [apply IH|]. apply same_after; [reflexivity|]. intros H. inversion H as [|? ? H1 H2]; subst. cbn [fst snd] in H1. clear H H2.
  rewrite (same_half _ m m') by (intros; apply H1; lia). destruct (negb _); [apply IH|]. apply same_after.
  - intros H. apply same_brutto in H. apply H.
  - intros H. apply same_brutto in H. destruct H as [_ ->]. apply same_bind; [reflexivity|]. intros l' _ _. apply IH.
Qed.
Lemma same_adjacent m m' pivot n : same_on (fst (check_adjacent m pivot n)) m m' -> check_adjacent m' pivot n = check_adjacent m pivot n.
Proof.
  induction n as [|n IH]; [reflexivity|]. cbn [check_adjacent]. apply same_bind; [exact IH|]. intros [l c] _ _.
  cbv zeta. apply same_after; [reflexivity|]. intros H. inversion H as [|? ? H1 H2]; subst. cbn [fst snd] in H1. clear H H2.
  rewrite (same_half (entry_addr pivot n + 2) m m') by (intros; apply H1; lia). destruct (_ || _); [reflexivity|].
  apply same_after; [reflexivity|]. intros H. inversion H as [|? ? H2 H3]; subst. cbn [fst snd] in H2.
  rewrite (same_half (entry_addr pivot n) m m') by (intros; apply H2; lia). reflexivity.
Qed.
Lemma same_sorted m m' n : forall a, same_on (sorted_reads a n) m m' -> is_sorted_from m' a n = is_sorted_from m a n.
Proof.
  induction n as [|[|n] IH]; intros a H; [reflexivity|reflexivity|].
  assert (D : forall k, (k < S (S n))%nat -> half m' (a + 4 * Z.of_nat k + 2) = half m (a + 4 * Z.of_nat k + 2)).
  { intros k Hk. apply same_half. intros x Hx. unfold same_on, sorted_reads in H. rewrite Forall_forall in H.
    apply (H (a + 4 * Z.of_nat k + 2, 2)); [|cbn [fst snd]; lia]. apply in_map_iff. exists k. split; [reflexivity|]. apply in_seq. lia. }
  change (is_sorted_from m' a (S (S n))) with (negb (half m' (a + 4 + 2) <? half m' (a + 2)) && is_sorted_from m' (a + 4) (S n)).
  change (is_sorted_from m a (S (S n))) with (negb (half m (a + 4 + 2) <? half m (a + 2)) && is_sorted_from m (a + 4) (S n)).
  pose proof (D 0%nat ltac:(lia)) as D0. pose proof (D 1%nat ltac:(lia)) as D1.
  replace (a + 4 * Z.of_nat 0 + 2) with (a + 2) in D0 by lia. replace (a + 4 * Z.of_nat 1 + 2) with (a + 4 + 2) in D1 by lia. rewrite D0, D1. f_equal.
  apply IH. unfold same_on, sorted_reads in *. rewrite Forall_forall in *. intros r I. apply H. apply in_map_iff in I. destruct I as (k & <- & I).
  apply in_map_iff. exists (S k). split; [f_equal; lia|]. apply in_seq in I. apply in_seq. lia.
Qed.
Lemma same_audit m m' schema pivot n pe fl : same_on (fst (audit_tuple m schema pivot n pe fl)) m m' ->
  audit_tuple m' schema pivot n pe fl = audit_tuple m schema pivot n pe fl.
Proof.
  unfold audit_tuple. cbv zeta. destruct (_ >? max_fields); [reflexivity|]. apply same_bind; [apply same_index|]. intros au _ _.
  destruct (_ >? 32767); [reflexivity|]. destruct (_ >? 65535); [reflexivity|].
  match goal with |- context [if ?b && ?c then trouble else _] => destruct (b && c); [reflexivity|] end.
  match goal with |- context [if negb (Bool.eqb ?b ?c) then trouble else _] => destruct (negb (Bool.eqb b c)); [reflexivity|] end.
  apply same_bind.
  - destruct (_ =? 0); [reflexivity|]. destruct (_ && _); [reflexivity|]. destruct (_ >? _); [reflexivity|]. apply same_preplaced.
  - intros l _ _. apply same_bind.
    + destruct l as [|h l]; [reflexivity|]. destruct (negb _); [reflexivity|]. destruct (negb _); [reflexivity|]. destruct (negb _); [reflexivity|].
      destruct (_ >? 1); [reflexivity|]. destruct (_ && _); [|reflexivity]. apply same_bind; [apply same_adjacent|reflexivity].
    + intros _ _ _. destruct (f_sorted fl); [|reflexivity]. apply same_after; [reflexivity|]. intros H _. rewrite (same_sorted m m' n _ H). reflexivity.
Qed.
Theorem C12_reads_are_all : forall m m' ptr bytes schema, same_on (fst (ro_audit m ptr bytes schema)) m m' ->
  ro_audit m' ptr bytes schema = ro_audit m ptr bytes schema.
Proof.
  intros m m' ptr bytes schema. unfold ro_audit. intros H.
  assert (L : same_on (fst (lite_checkup m ptr bytes)) m m' -> lite_checkup m' ptr bytes = lite_checkup m ptr bytes).
  { unfold lite_checkup. destruct (_ =? 0); [reflexivity|]. destruct (_ <? 4); [reflexivity|]. destruct (_ >? _); [reflexivity|]. destruct (negb _); [reflexivity|].
    apply same_after; [reflexivity|]. intros G. inversion G as [|? ? H1 H2]; subst. cbn [fst snd] in H1. clear G H2.
    unfold ro_units at 1 2. rewrite (same_half ptr m m') by (intros; apply H1; lia). destruct (negb _); [reflexivity|].
    apply same_after; [reflexivity|]. intros G. inversion G as [|? ? H2 H3]; subst. cbn [fst snd] in H2. clear G H3.
    unfold ro_pivot, ro_end, ro_index, ro_units. rewrite (same_half ptr m m') by (intros; apply H1; lia).
    rewrite (same_half (ptr + 2) m m') by (intros; apply H2; lia). reflexivity. }
  revert H. apply same_bind; [exact L|]. intros [] G T.
  assert (E : fst (lite_checkup m ptr bytes) = [(ptr, 2); (ptr + 2, 2)]).
  { revert G. unfold lite_checkup. destruct (_ =? 0); [discriminate|]. destruct (_ <? 4); [discriminate|]. destruct (_ >? _); [discriminate|]. destruct (negb _); [discriminate|].
    destruct (negb _); [discriminate|]. destruct (_ >? _); [discriminate|]. destruct (_ >? _); [discriminate|]. reflexivity. }
  rewrite E in T. inversion T as [|? ? H1 H2]; subst. inversion H2 as [|? ? H3 H4]; subst. cbn [fst snd] in H1, H3.
  unfold ro_pivot, ro_end, ro_index, ro_units, ro_sorted, ro_preplaced. rewrite (same_half ptr m m') by (intros; apply H1; lia).
  rewrite (same_half (ptr + 2) m m') by (intros; apply H3; lia). apply same_audit.
Qed.
Theorem C12_rw_reads_are_all : forall m m' area head pivot tail end_ jc jv schema,
  same_on (fst (rw_audit m area head pivot tail end_ jc jv schema)) m m' ->
  rw_audit m' area head pivot tail end_ jc jv schema = rw_audit m area head pivot tail end_ jc jv schema.
Proof.
  intros m m' area head pivot tail end_ jc jv schema. unfold rw_audit. repeat (destruct (_ >? _); [reflexivity|]).
  apply same_bind; [apply same_audit|reflexivity].
Qed.
Lemma sum_none n f : (forall k, (k < n)%nat -> 0 <= f k) -> sumn n f = 0 -> forall k, (k < n)%nat -> f k = 0.
Proof.
  induction n as [|n IH]; intros NN E k Hk; [lia|]. cbn [sumn] in E.
  assert (P : 0 <= sumn n f). { clear IH E Hk. induction n as [|n IH]; [cbn; lia|]. cbn [sumn]. pose proof (NN n ltac:(lia)). assert (0 <= sumn n f) by (apply IH; intros; apply NN; lia). lia. }
  pose proof (NN n ltac:(lia)). destruct (Nat.eq_dec k n) as [->|]; [lia|]. apply IH; [intros; apply NN; lia|lia|lia].
Qed.
(** The flag "no holes" adds exactly that; the flag "sorted" of the header adds exactly that the
    descriptors do not fall from one entry to the next. *)
Theorem C11_no_holes : forall m ptr bytes schema no_holes, bytes_mem m -> sound_schema schema ->
  (snd (ro_audit_ex m ptr bytes schema no_holes) = Good tt <->
   (exists info, snd (ro_audit m ptr bytes schema) = Good info) /\
   (no_holes = true -> forall k, Z.of_nat k < ro_index m ptr -> e_genus m (ro_pivot m ptr) k <> g_hole)).
Proof.
  intros m ptr bytes schema no_holes Hm S. unfold ro_audit_ex.
  assert (Q : forall info, snd (ro_audit m ptr bytes schema) = Good info ->
    (fst info = 0 <-> forall k, Z.of_nat k < ro_index m ptr -> e_genus m (ro_pivot m ptr) k <> g_hole)).
  { intros info H. destruct (C11_extents_inside_and_disjoint m ptr bytes schema info Hm S H) as (_ & _ & _ & ->). cbn [fst].
    unfold holes_upto. split.
    - intros E k Hk. assert (G : Z.b2z (e_hole m (ro_pivot m ptr) k) = 0).
      { apply (sum_none (Z.to_nat (ro_index m ptr)) (fun k => Z.b2z (e_hole m (ro_pivot m ptr) k))); [|exact E|lia]. intros j _. cbv beta. destruct (e_hole _ _ _); cbn; lia. }
      unfold e_hole in G. destruct (Z.eqb_spec (e_genus m (ro_pivot m ptr) k) g_hole); [discriminate|assumption].
    - intros E. assert (Z0 : forall n, (n <= Z.to_nat (ro_index m ptr))%nat -> sumn n (fun k => Z.b2z (e_hole m (ro_pivot m ptr) k)) = 0).
      { induction n as [|n IH]; intros Hn; [reflexivity|]. cbn [sumn]. rewrite IH by lia. unfold e_hole.
        destruct (Z.eqb_spec (e_genus m (ro_pivot m ptr) n) g_hole) as [G|G]; [exfalso; apply (E n); [lia|exact G]|reflexivity]. }
      apply Z0. lia. }
  destruct (ro_audit m ptr bytes schema) as [t [info| |]]; cbn [bindc after snd fst] in *.
  - specialize (Q info eq_refl). destruct no_holes; cbn [andb].
    + destruct (Z.eqb_spec (fst info) 0) as [E|E]; cbn [negb]; (split; [intros X|intros [_ X]]).
      * split; [exists info; reflexivity|]. intros _. apply Q. exact E.
      * reflexivity.
      * discriminate X.
      * exfalso. apply E. apply Q. apply X. reflexivity.
    + split; [|reflexivity]. intros _. split; [exists info; reflexivity|discriminate].
  - split; [discriminate|intros [[i X] _]; discriminate].
  - split; [discriminate|intros [[i X] _]; discriminate].
Qed.
Lemma is_sorted_spec m n : forall a, is_sorted_from m a n = true <-> forall i, (S i < n)%nat -> half m (a + 4 * Z.of_nat i + 2) <= half m (a + 4 * Z.of_nat (S i) + 2).
Proof.
  induction n as [|[|n] IH]; intros a.
  - cbn. split; [lia|reflexivity].
  - cbn. split; [lia|reflexivity].
  - change (is_sorted_from m a (S (S n))) with (negb (half m (a + 4 + 2) <? half m (a + 2)) && is_sorted_from m (a + 4) (S n)).
    rewrite Bool.andb_true_iff, (IH (a + 4)). split.
    + intros [H1 H2] [|i] Hi.
      * replace (a + 4 * Z.of_nat 0 + 2) with (a + 2) by lia. replace (a + 4 * Z.of_nat 1 + 2) with (a + 4 + 2) by lia. lia.
      * specialize (H2 i ltac:(lia)). replace (a + 4 * Z.of_nat (S i) + 2) with (a + 4 + 4 * Z.of_nat i + 2) by lia.
        replace (a + 4 * Z.of_nat (S (S i)) + 2) with (a + 4 + 4 * Z.of_nat (S i) + 2) by lia. exact H2.
    + intros H. split.
      * specialize (H 0%nat ltac:(lia)). replace (a + 4 * Z.of_nat 0 + 2) with (a + 2) in H by lia. replace (a + 4 * Z.of_nat 1 + 2) with (a + 4 + 2) in H by lia. lia.
      * intros i Hi. specialize (H (S i) ltac:(lia)). replace (a + 4 * Z.of_nat (S i) + 2) with (a + 4 + 4 * Z.of_nat i + 2) in H by lia.
        replace (a + 4 * Z.of_nat (S (S i)) + 2) with (a + 4 + 4 * Z.of_nat (S i) + 2) in H by lia. exact H.
Qed.
Lemma good_bind {A B} (c : chk A) (f : A -> chk B) b : snd (bindc c f) = Good b <-> exists a, snd c = Good a /\ snd (f a) = Good b.
Proof. split; [apply bindc_good|]. intros (a & H1 & H2). destruct c as [t v]. cbn in H1. subst v. exact H2. Qed.
Theorem C11_sorted_flag : forall m schema pivot n pe preplaced adjacent info,
  snd (audit_tuple m schema pivot n pe (mkF true preplaced adjacent)) = Good info <->
  snd (audit_tuple m schema pivot n pe (mkF false preplaced adjacent)) = Good info /\
  forall k, (S k < n)%nat -> half m (entry_addr pivot (S k) + 2) <= half m (entry_addr pivot k + 2).
Proof.
  intros m schema pivot n pe preplaced adjacent info. unfold audit_tuple. cbv zeta. cbn [f_sorted f_preplaced f_adjacent].
  destruct (_ >? max_fields); [cbn; split; [discriminate|intros [X _]; discriminate]|].
  assert (E : is_sorted_from m (pivot - 4 * Z.of_nat n) n = true <-> forall k, (S k < n)%nat -> half m (entry_addr pivot (S k) + 2) <= half m (entry_addr pivot k + 2)).
  { rewrite is_sorted_spec. unfold entry_addr. split; intros H i Hi.
    - specialize (H (n - S (S i))%nat ltac:(lia)).
      replace (pivot - 4 * Z.of_nat n + 4 * Z.of_nat (n - S (S i)) + 2) with (pivot - 4 * (Z.of_nat (S i) + 1) + 2) in H by lia.
      replace (pivot - 4 * Z.of_nat n + 4 * Z.of_nat (S (n - S (S i))) + 2) with (pivot - 4 * (Z.of_nat i + 1) + 2) in H by lia. exact H.
    - specialize (H (n - S (S i))%nat ltac:(lia)).
      replace (pivot - 4 * (Z.of_nat (S (n - S (S i))) + 1) + 2) with (pivot - 4 * Z.of_nat n + 4 * Z.of_nat i + 2) in H by lia.
      replace (pivot - 4 * (Z.of_nat (n - S (S i)) + 1) + 2) with (pivot - 4 * Z.of_nat n + 4 * Z.of_nat (S i) + 2) in H by lia. exact H. }
  rewrite <- E. clear E. rewrite !good_bind.
  assert (X : forall (P : auditor -> Prop) (Q R : auditor -> Prop) s, (forall au, Q au <-> R au /\ s) -> ((exists au, P au /\ Q au) <-> (exists au, P au /\ R au) /\ s)).
  { intros P Q R s H. split; [intros (au & A & B); apply H in B; destruct B; eauto|]. intros [(au & A & B) C]. exists au. split; [exact A|]. apply H. auto. }
  apply X. clear X. intros au.
  destruct (acount au >? 32767); [cbn; split; [discriminate|intros [X _]; discriminate]|]. destruct (avol au >? 65535); [cbn; split; [discriminate|intros [X _]; discriminate]|].
  match goal with |- context [if ?b && ?c then trouble else _] => destruct (b && c); [cbn; split; [discriminate|intros [X _]; discriminate]|] end.
  match goal with |- context [if negb (Bool.eqb ?b ?c) then trouble else _] => destruct (negb (Bool.eqb b c)); [cbn; split; [discriminate|intros [X _]; discriminate]|] end.
  rewrite !good_bind.
  assert (X : forall (P : imap -> Prop) (Q R : imap -> Prop) s, (forall au, Q au <-> R au /\ s) -> ((exists au, P au /\ Q au) <-> (exists au, P au /\ R au) /\ s)).
  { intros P Q R s H. split; [intros (l & A & B); apply H in B; destruct B; eauto|]. intros [(l & A & B) C]. exists l. split; [exact A|]. apply H. auto. }
  apply X. clear X. intros l. rewrite !good_bind.
  assert (X : forall (P : unit -> Prop) (Q R : unit -> Prop) s, (forall au, Q au <-> R au /\ s) -> ((exists au, P au /\ Q au) <-> (exists au, P au /\ R au) /\ s)).
  { intros P Q R s H. split; [intros (u & A & B); apply H in B; destruct B; eauto|]. intros [(u & A & B) C]. exists u. split; [exact A|]. apply H. auto. }
  apply X. clear X. intros []. rewrite after_snd. destruct (is_sorted_from _ _ _); cbn; split; try discriminate; intuition congruence.
Qed.
Definition sorted_image (a b : Z) : list Z := [3; 0; 17; 0;  7; 0; a; 0x28;  8; 0; b; 0x28].
Example C11_flags_apply :
  snd (ro_audit_ex (img good_image 4096) 4096 40 (Some good_schema) false) = Good tt /\
  snd (ro_audit_ex (img good_image 4096) 4096 40 (Some good_schema) true) = Trouble /\
  snd (ro_audit (img (sorted_image 1 2) 4096) 4096 12 None) = Good (0, 0) /\
  snd (ro_audit (img (sorted_image 2 2) 4096) 4096 12 None) = Good (0, 0) /\
  snd (ro_audit (img (sorted_image 3 2) 4096) 4096 12 None) = Trouble.
Proof. vm_compute. repeat split; reflexivity. Qed.
(** when the references of variable-length fields lead into the image, the verdict is a function
    of the image alone *)
Corollary C12_verdict_is_local_partial : forall m m' ptr bytes schema, bytes_mem m -> sound_schema schema -> bytes mod 4 = 0 ->
  (forall k, Z.of_nat k < ro_index m ptr -> e_genus m (ro_pivot m ptr) k <= g_property -> e_payload m (ro_pivot m ptr) k < ptr + bytes) ->
  (forall t, In t (toks_of schema) -> fst t <= g_property -> t_payload m (ro_pivot m ptr) t < ptr + bytes) ->
  (forall x, ptr <= x < ptr + bytes -> m x = m' x) -> snd (ro_audit m' ptr bytes schema) = snd (ro_audit m ptr bytes schema).
Proof.
  intros m m' ptr bytes schema Hm S M HK HT E. rewrite (C12_reads_are_all m m' ptr bytes schema); [reflexivity|].
  apply Forall_forall. intros r I. pose proof (C12_inside_partial m ptr bytes schema Hm S M HK HT r I) as [P1 P2]. intros x Hx. apply E. lia.
Qed.
Example C12_local_applies : let m := img good_image 4096 in let m' := img (good_image ++ [77; 78; 79]) 4096 in
  ro_audit m' 4096 40 (Some good_schema) = ro_audit m 4096 40 (Some good_schema) /\ m 4137 <> m' 4137.
Proof. vm_compute. split; [reflexivity|discriminate]. Qed.
Print Assumptions C11_extents_inside_and_disjoint.
Print Assumptions C11_values_inside.
Print Assumptions C11_refuted_varbin.
Print Assumptions C11_refuted_hollow_varbin.
Print Assumptions C12_refuted.
Print Assumptions C12_refuted_verdict.
Print Assumptions C12_other_reads_inside_partial.
Print Assumptions C12_inside_partial.
Print Assumptions C12_reads_are_all.
Print Assumptions C12_rw_reads_are_all.
Print Assumptions C12_verdict_is_local_partial.
Print Assumptions C11_no_holes.
Print Assumptions C11_sorted_flag.
