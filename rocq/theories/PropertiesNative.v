(** * PropertiesNative: C93, structures laid over the preplaced part agree with the tokens of their members. *)
From Coq Require Import List.
Import ListNotations.
From Verif Require Import Base Tag TagProofs Codec CodecProofs Gear GearBase GearProofs Tuple TupleProofs TupleMore PropertiesTuple NumericProofs
  Hippeus Scan Audit AuditProofs Image ImageProofs PropertiesImage Schema SchemaProofs Native.
From Coq Require Import ZifyBool ZifyNat.
Ltac Zify.zify_post_hook ::= Z.div_mod_to_equations.

(** types whose members are as wide as the field: all of them but references and enumerations that do not
    have two bytes *)
Definition plain (t : ctype) : bool :=
  match t with CString | CVarbin | CNested | CProperty => false | CEnum n => n =? 2 | _ => true end.
Lemma plain_wf t : plain t = true -> wf_ctype t = true.
Proof. destruct t; cbn; intros H; try reflexivity. lia. Qed.
Lemma plain_size t : wf_ctype t = true -> (csize t = preplaced_bytes (type2genus t) <-> plain t = true).
Proof. destruct t; cbn; intros H; try (split; intros; congruence). lia. Qed.
Lemma csize_range t : wf_ctype t = true -> 1 <= csize t <= 64.
Proof. destruct t; cbn; lia. Qed.
Lemma genus_range t : 0 <= type2genus t < 31.
Proof. assert (A : (0 <=? type2genus t) && (type2genus t <? 31) = true) by (destruct t; reflexivity). lia. Qed.

(** ** Tokens *)
Lemma native_val o t : 0 <= o <= 16383 -> wf_ctype t = true -> token_native o t = o * 262144 + type2genus t * 2048 + csize t.
Proof.
  intros Ho W. pose proof (csize_range t W) as C. pose proof (genus_range t) as G.
  unfold token_native, tag_from_offset, u32, genus_shift, offset_shift. cbn [flag].
  rewrite !Z.shiftl_mul_pow2 by lia. change (2 ^ 11) with 2048. change (2 ^ 18) with 262144. change (2 ^ 32) with 4294967296.
  set (c := csize t) in *. set (g := type2genus t) in *. clearbody c g. lia.
Qed.
Lemma native_fields o t : 0 <= o <= 16381 -> wf_ctype t = true ->
  is_preplaced (token_native o t) = true /\ tag2genus (token_native o t) = type2genus t /\ tag2offset (token_native o t) = o /\
  tag2indysize (token_native o t) = csize t /\ is_discernible_null (token_native o t) = false /\ tagrange (token_native o t).
Proof.
  intros Ho W. pose proof (csize_range t W) as C. pose proof (genus_range t) as G.
  rewrite (native_val o t ltac:(lia) W).
  unfold is_preplaced, tagrange. rewrite tag2genus_arith, tag2offset_arith, tag2indysize_arith, is_discernible_null_arith, loose_threshold_val.
  change (2 ^ 16) with 65536. change (2 ^ 11) with 2048. change (2 ^ 18) with 262144. change (2 ^ 32) with 4294967296.
  set (c := csize t) in *. set (g := type2genus t) in *. clearbody c g. repeat split; lia.
Qed.
(** The token of a member is the one a schema makes for a field of that type at that offset exactly for the types that are
    as wide as their fields: never for references, and of the enumerations only for those of two bytes. *)
Theorem C93_tokens_partial : forall o t, 0 <= o <= 16381 -> wf_ctype t = true ->
  (token_preplaced o (type2genus t) false false = Some (token_native o t) <-> plain t = true).
Proof.
  intros o t Ho W. rewrite <- (plain_size t W). pose proof (genus_range t) as G.
  assert (E : token_preplaced o (type2genus t) false false = Some (tag_from_offset o (type2genus t) (preplaced_bytes (type2genus t)) false false)).
  { unfold token_preplaced. change max_preplaced_offset with 16381. change g_hole with 31. unfold u64. change (2 ^ 64) with 18446744073709551616.
    rewrite Z.mod_small by lia. replace (o >? 16381) with false by lia. replace (type2genus t >? 31) with false by lia. reflexivity. }
  split.
  - intros H. pose proof (token_preplaced_fields _ _ _ _ _ H ltac:(lia) ltac:(lia)) as (_ & _ & _ & _ & _ & I & _).
    destruct (native_fields o t Ho W) as (_ & _ & _ & I2 & _). congruence.
  - intros H. rewrite E. unfold token_native. rewrite H. reflexivity.
Qed.
(** No check of the offset is made: a member 16 kilobytes further has the very same token, and the two offsets below
    that give tokens of loose fields. *)
Theorem C93_far_refuted :
  (forall o t, 0 <= o -> token_native (o + 16384) t = token_native o t) /\
  (forall o t, 16382 <= o <= 16383 -> wf_ctype t = true -> is_preplaced (token_native o t) = false).
Proof.
  split.
  - intros o t Ho. unfold token_native, tag_from_offset, u32. cbn [flag]. unfold genus_shift, offset_shift. rewrite !Z.shiftl_mul_pow2 by lia.
    change (2 ^ 18) with 262144. change (2 ^ 32) with 4294967296. generalize (type2genus t * 2 ^ 11) (csize t). intros x y.
    replace (x + (o + 16384) * 262144 + y + 0 + 0) with (x + o * 262144 + y + 0 + 0 + 1 * 4294967296) by lia.
    apply Z.mod_add. lia.
  - intros o t Ho W. pose proof (csize_range t W) as C. pose proof (genus_range t) as G. rewrite (native_val o t ltac:(lia) W). unfold is_preplaced. rewrite loose_threshold_val.
    lia.
Qed.
Example C93_tokens_example :
  map (fun t => token_preplaced 8 (type2genus t) false false) [CI32; CMac; CBin512; CEnum 2] = map (fun t => Some (token_native 8 t)) [CI32; CMac; CBin512; CEnum 2] /\
  tag2indysize (token_native 8 CString) = 2 /\ preplaced_bytes (type2genus CString) = 4 /\ token_native (8 + 16384) CI32 = token_native 8 CI32.
Proof. repeat split; vm_compute; reflexivity. Qed.

(** ** Places of members *)
Lemma calign_cases t : wf_ctype t = true -> calign t = 1 \/ calign t = 2 \/ calign t = 4 \/ calign t = 8.
Proof. destruct t; cbn; lia. Qed.
Lemma align_up_le x t : wf_ctype t = true -> x <= align_up x (calign t) /\ align_up x (calign t) mod calign t = 0 /\ align_up x (calign t) < x + calign t.
Proof. intros W. unfold align_up. destruct (calign_cases t W) as [E|[E|[E|E]]]; rewrite E; lia. Qed.
Definition start (packed : bool) (at_ : Z) (t : ctype) : Z := if packed then at_ else align_up at_ (calign t).
Lemma start_le packed a t : wf_ctype t = true -> a <= start packed a t.
Proof. intros W. unfold start. destruct packed; [lia|]. apply align_up_le, W. Qed.
Lemma arrange_cons packed a t r : arrange packed a (t :: r) = (start packed a t, t) :: arrange packed (start packed a t + csize t) r.
Proof. reflexivity. Qed.
Lemma end_cons packed a t r : members_end packed a (t :: r) = members_end packed (start packed a t + csize t) r.
Proof. reflexivity. Qed.
Lemma arrange_length packed l : forall a, length (arrange packed a l) = length l.
Proof. induction l as [|t r IH]; intros a; [reflexivity|]. rewrite arrange_cons. cbn [length]. now rewrite IH. Qed.
Definition nowhere : Z * ctype := (0, CI8).
Lemma arrange_type packed l : forall a i, snd (nth i (arrange packed a l) nowhere) = nth i l CI8.
Proof. induction l as [|t r IH]; intros a [|i]; try reflexivity. rewrite arrange_cons. cbn [nth]. apply IH. Qed.
Lemma end_le packed l : forall a, Forall (fun t => wf_ctype t = true) l -> a <= members_end packed a l.
Proof.
  induction l as [|t r IH]; intros a W; [cbn; lia|]. rewrite end_cons. inversion W as [|? ? W1 W2]; subst.
  specialize (IH (start packed a t + csize t) W2). pose proof (start_le packed a t W1). pose proof (csize_range t W1). lia.
Qed.
Lemma arrange_within packed l : forall a i, Forall (fun t => wf_ctype t = true) l -> (i < length l)%nat ->
  a <= fst (nth i (arrange packed a l) nowhere) /\ fst (nth i (arrange packed a l) nowhere) + csize (nth i l CI8) <= members_end packed a l.
Proof.
  induction l as [|t r IH]; intros a i W Hi; [cbn in Hi; lia|]. inversion W as [|? ? W1 W2]; subst. rewrite arrange_cons, end_cons.
  pose proof (start_le packed a t W1) as P. pose proof (csize_range t W1) as C. pose proof (end_le packed r (start packed a t + csize t) W2) as Q.
  destruct i as [|i]; cbn [nth fst].
  - lia.
  - cbn [length] in Hi. destruct (IH (start packed a t + csize t) i W2 ltac:(lia)) as (A & B). lia.
Qed.
Lemma arrange_apart packed l : forall a i j, Forall (fun t => wf_ctype t = true) l -> (i < j < length l)%nat ->
  fst (nth i (arrange packed a l) nowhere) + csize (nth i l CI8) <= fst (nth j (arrange packed a l) nowhere).
Proof.
  induction l as [|t r IH]; intros a i j W Hi; [cbn in Hi; lia|]. inversion W as [|? ? W1 W2]; subst. rewrite arrange_cons.
  destruct j as [|j]; [lia|]. destruct i as [|i]; cbn [nth fst]; cbn [length] in Hi.
  - apply (arrange_within packed r _ j W2). lia.
  - apply IH; [exact W2|lia].
Qed.
Lemma arrange_aligned l : forall a i, Forall (fun t => wf_ctype t = true) l -> (i < length l)%nat ->
  fst (nth i (arrange false a l) nowhere) mod calign (nth i l CI8) = 0.
Proof.
  induction l as [|t r IH]; intros a i W Hi; [cbn in Hi; lia|]. inversion W as [|? ? W1 W2]; subst. rewrite arrange_cons.
  destruct i as [|i]; cbn [nth fst]; cbn [length] in Hi; [|apply IH; [exact W2|lia]]. apply align_up_le, W1.
Qed.
(** the offset of a member *)
Definition offset_of (packed : bool) (l : list ctype) (i : nat) : Z := fst (nth i (arrange packed 0 l) nowhere).
Definition token_of (packed : bool) (l : list ctype) (i : nat) : Z := token_native (offset_of packed l i) (nth i l CI8).
Definition tokens (packed : bool) (l : list ctype) : list Z := map (fun m => token_native (fst m) (snd m)) (arrange packed 0 l).
Lemma tokens_nth packed l i : (i < length l)%nat -> nth i (tokens packed l) 0 = token_of packed l i.
Proof.
  intros Hi. unfold tokens, token_of, offset_of. rewrite (nth_indep _ 0 (token_native (fst nowhere) (snd nowhere))) by (rewrite map_length, arrange_length; exact Hi).
  rewrite (map_nth (fun m => token_native (fst m) (snd m))). rewrite arrange_type. reflexivity.
Qed.

(** ** Members and tokens show the same values *)
Definition wf_mop (l : list ctype) (o : mop) : Prop :=
  match o with MSet i v => (i < length l)%nat /\ Z.of_nat (length v) = csize (nth i l CI8) | MErase i => (i < length l)%nat end.
(** the value last given to a member, [None] if none was *)
Fixpoint last_of (i : nat) (ops : list mop) (before : option (list Z)) : option (list Z) :=
  match ops with
  | [] => before
  | MSet k v :: r => last_of i r (if Nat.eqb k i then Some v else before)
  | MErase _ :: r => last_of i r before
  end.
Lemma last_some i ops : forall v, last_of i ops (Some v) <> None.
Proof. induction ops as [|[k w|k] r IH]; intros v; cbn [last_of]; [discriminate|destruct (Nat.eqb k i); apply IH|apply IH]. Qed.
Lemma pread_same m m' o n : (forall x, o <= x < o + n -> m x = m' x) -> pread m o n = pread m' o n.
Proof. intros H. unfold pread. apply map_ext_in. intros i Hi. apply in_seq in Hi. apply H. lia. Qed.
Lemma plain_all l : Forall (fun t => plain t = true) l -> Forall (fun t => wf_ctype t = true) l.
Proof. intros H. eapply Forall_impl; [|exact H]. intros t. apply plain_wf. Qed.
Lemma nth_Forall {A} (P : A -> Prop) l i d : Forall P l -> (i < length l)%nat -> P (nth i l d).
Proof. intros F H. rewrite Forall_forall in F. apply F, nth_In, H. Qed.
Lemma offset_range packed l i : Forall (fun t => wf_ctype t = true) l -> (i < length l)%nat -> members_end packed 0 l <= 16382 ->
  0 <= offset_of packed l i <= 16381.
Proof.
  intros W Hi E. unfold offset_of. pose proof (arrange_within packed l 0 i W Hi) as (A & B). pose proof (csize_range _ (nth_Forall _ l i CI8 W Hi)). lia.
Qed.
(** In every structure of plain members that lies in the addressable part, after any sequence of sets and erasures by
    tokens each member holds what was last set, or what it held before, and the getter by its token gives the same.
    The members do not overlap, and without packing each is at a multiple of its alignment. *)
Theorem C93_members : forall packed l ops m, Forall (fun t => plain t = true) l -> members_end packed 0 l <= 16382 -> Forall (wf_mop l) ops ->
  forall i, (i < length l)%nat ->
    member (mrun (tokens packed l) m ops) (offset_of packed l i) (nth i l CI8) =
      match last_of i ops None with Some v => v | None => member m (offset_of packed l i) (nth i l CI8) end /\
    get_by (mrun (tokens packed l) m ops) (token_of packed l i) = RVal (member (mrun (tokens packed l) m ops) (offset_of packed l i) (nth i l CI8)).
Proof.
  intros packed l ops m P E W i Hi. pose proof (plain_all l P) as WF. split.
  - assert (G : forall ops b m, Forall (wf_mop l) ops -> match b with Some v => member m (offset_of packed l i) (nth i l CI8) = v | None => True end ->
      member (mrun (tokens packed l) m ops) (offset_of packed l i) (nth i l CI8) =
      match last_of i ops b with Some v => v | None => member m (offset_of packed l i) (nth i l CI8) end).
    { clear ops m W. induction ops as [|o r IH]; intros b m W B; cbn [last_of].
      - unfold mrun. cbn [fold_left]. destruct b; [exact B|reflexivity].
      - inversion W as [|? ? W1 W2]; subst. change (mrun (tokens packed l) m (o :: r)) with (mrun (tokens packed l) (mapply (tokens packed l) m o) r).
        destruct o as [k v|k]; cbn [wf_mop] in W1; cbn [mapply].
        + destruct W1 as (Hk & Lv). rewrite tokens_nth by exact Hk.
          destruct (native_fields (offset_of packed l k) (nth k l CI8) (offset_range packed l k WF Hk E) (nth_Forall _ l k CI8 WF Hk)) as (_ & _ & O & _).
          unfold set_by. unfold token_of at 1. rewrite O. destruct (Nat.eqb_spec k i) as [->|N].
          * rewrite (IH (Some v) _ W2).
            -- destruct (last_of i r (Some v)) eqn:L; [reflexivity|]. destruct (last_some i r v L).
            -- unfold member. rewrite <- Lv. apply pread_pwrite.
          * assert (X : member (pwrite m (offset_of packed l k) v) (offset_of packed l i) (nth i l CI8) = member m (offset_of packed l i) (nth i l CI8)).
            { apply pread_same. intros x Hx. apply pwrite_far. rewrite Lv. unfold offset_of in *.
              destruct (Nat.lt_ge_cases k i) as [L|L].
              - pose proof (arrange_apart packed l 0 k i WF ltac:(lia)). lia.
              - pose proof (arrange_apart packed l 0 i k WF ltac:(lia)). lia. }
            rewrite (IH b _ W2); rewrite X; [reflexivity|exact B].
        + unfold erase_by. rewrite tokens_nth by exact W1.
          destruct (native_fields (offset_of packed l k) (nth k l CI8) (offset_range packed l k WF W1 E) (nth_Forall _ l k CI8 WF W1)) as (_ & _ & _ & _ & D & _).
          unfold token_of. rewrite D. unfold erase_token_fixed, exist_fixed, fixed_is_null. cbn [andb snd]. apply IH; assumption. }
    apply G; [exact W|exact I].
  - destruct (native_fields (offset_of packed l i) (nth i l CI8) (offset_range packed l i WF Hi E) (nth_Forall _ l i CI8 WF Hi)) as (_ & Gn & O & _ & D & _).
    unfold get_by, token_of. rewrite Gn, O, D. unfold fixed_get. cbn [andb]. unfold member.
    rewrite (proj2 (plain_size _ (nth_Forall _ l i CI8 WF Hi)) (nth_Forall _ l i CI8 P Hi)). reflexivity.
Qed.
Theorem C93_apart : forall packed l i j, Forall (fun t => wf_ctype t = true) l -> (i < j < length l)%nat ->
  offset_of packed l i + csize (nth i l CI8) <= offset_of packed l j /\
  (packed = false -> offset_of packed l j mod calign (nth j l CI8) = 0).
Proof.
  intros packed l i j W H. split; [apply arrange_apart; assumption|]. intros ->. apply arrange_aligned; [exact W|lia].
Qed.
(** Erasing a member by its token never does anything: the tokens do not tell absence. *)
Theorem C93_erase_refuted : forall m o t, 0 <= o <= 16381 -> wf_ctype t = true -> erase_by m (token_native o t) = (false, m).
Proof. intros m o t Ho W. destruct (native_fields o t Ho W) as (_ & _ & _ & _ & D & _). unfold erase_by. rewrite D. reflexivity. Qed.
Definition order : list ctype := [CI64; CBool; CU16; CUuid; CEnum 2; CI32; CMac].
Example C93_members_example :
  map (offset_of false order) (seq 0 7) = [0; 8; 10; 12; 28; 32; 40] /\ map (offset_of true order) (seq 0 7) = [0; 8; 9; 11; 27; 29; 33] /\
  Forall (fun t => plain t = true) order /\ members_end false 0 order = 48 /\ struct_size false order = 48 /\
  let ops := [MSet 2 [7; 8]; MSet 5 [1; 2; 3; 4]; MErase 2; MSet 2 [9; 9]] in
  Forall (wf_mop order) ops /\
  map (fun i => get_by (mrun (tokens false order) (fun x => x) ops) (token_of false order i)) [1; 2; 4; 5]%nat = [RVal [8]; RVal [9; 9]; RVal [28; 29]; RVal [1; 2; 3; 4]].
Proof.
  split; [reflexivity|]. split; [reflexivity|]. split; [repeat constructor|]. split; [reflexivity|]. split; [reflexivity|]. cbv zeta. split; [|vm_compute; reflexivity].
  repeat constructor; cbn; lia.
Qed.

(** ** Enumerations and truth values *)
Lemma set_enum_bytes m o n v x : 0 <= o <= 16381 -> wf_ctype (CEnum n) = true ->
  set_enum m (token_native o (CEnum n)) v x = (if x =? o then v mod 256 else if x =? o + 1 then v / 256 mod 256 else m x).
Proof.
  intros Ho W. destruct (native_fields o (CEnum n) Ho W) as (_ & _ & O & _). unfold set_enum, set_by. rewrite O. cbn [le_bytes]. unfold pwrite. cbn [length].
  destruct (x =? o) eqn:E1; [|destruct (x =? o + 1) eqn:E2].
  - replace ((o <=? x) && (x <? o + Z.of_nat 2)) with true by lia. replace (Z.to_nat (x - o)) with 0%nat by lia. reflexivity.
  - replace ((o <=? x) && (x <? o + Z.of_nat 2)) with true by lia. replace (Z.to_nat (x - o)) with 1%nat by lia. reflexivity.
  - replace ((o <=? x) && (x <? o + Z.of_nat 2)) with false by lia. reflexivity.
Qed.
(** An enumeration of one byte is written with two: whatever the next member held, setting the enumeration to a value
    from 0 to 255 clears its first byte, and setting a negative one fills it. *)
Theorem C93_small_enum_refuted : forall m o v, 0 <= o <= 16381 ->
  (0 <= v < 256 -> set_enum m (token_native o (CEnum 1)) v (o + 1) = 0) /\
  (-256 <= v < 0 -> set_enum m (token_native o (CEnum 1)) v (o + 1) = 255).
Proof.
  intros m o v Ho. rewrite !set_enum_bytes by (try exact Ho; reflexivity). replace (o + 1 =? o) with false by lia. replace (o + 1 =? o + 1) with true by lia. lia.
Qed.
Lemma pread_two m o : pread m o 2 = [m o; m (o + 1)].
Proof. change (pread m o 2) with [m (o + 0); m (o + 1)]. now rewrite Z.add_0_r. Qed.
Lemma get_enum_bytes m o n : 0 <= o <= 16381 -> wf_ctype (CEnum n) = true ->
  get_enum m (token_native o (CEnum n)) = Some (le_signed [m o; m (o + 1)]).
Proof.
  intros Ho W. destruct (native_fields o (CEnum n) Ho W) as (_ & G & O & _ & D & _). unfold get_enum, get_by. rewrite G, O, D.
  unfold fixed_get. cbn [andb]. change (preplaced_bytes (type2genus (CEnum n))) with 2. rewrite pread_two. reflexivity.
Qed.
(** What set_enum stores, get_enum gives, for every enumeration *)
Theorem C93_enum_getter : forall m o n v, 0 <= o <= 16381 -> wf_ctype (CEnum n) = true -> -32768 <= v < 32768 ->
  get_enum (set_enum m (token_native o (CEnum n)) v) (token_native o (CEnum n)) = Some v.
Proof.
  intros m o n v Ho W V. rewrite get_enum_bytes by assumption. rewrite !set_enum_bytes by assumption.
  replace (o =? o) with true by lia. replace (o + 1 =? o) with false by lia. replace (o + 1 =? o + 1) with true by lia.
  unfold le_signed. cbn [length le_value]. change (256 ^ Z.of_nat 2) with 65536. cbv zeta. f_equal. destruct (_ <? _) eqn:E; lia.
Qed.
Lemma le_four a b : 0 <= a < 256 -> 0 <= b < 256 -> le_signed [a; b; 0; 0] = a + 256 * b.
Proof. intros A B. unfold le_signed. cbn [length le_value]. change (256 ^ Z.of_nat 4) with 4294967296. cbv zeta. destruct (_ <? _) eqn:E; lia. Qed.
Lemma pread_four m o : pread m o 4 = [m o; m (o + 1); m (o + 2); m (o + 3)].
Proof. change (pread m o 4) with [m (o + 0); m (o + 1); m (o + 2); m (o + 3)]. now rewrite Z.add_0_r. Qed.
(** but in a plain enumeration, which has four bytes, the structure shows it only from 0 on: every negative value appears
    as a large positive one *)
Theorem C93_plain_enum_partial : forall m o v, 0 <= o <= 16381 -> m (o + 2) = 0 -> m (o + 3) = 0 -> -32768 <= v < 32768 ->
  le_signed (member (set_enum m (token_native o (CEnum 4)) v) o (CEnum 4)) = (if v <? 0 then v + 65536 else v).
Proof.
  intros m o v Ho Z2 Z3 V. unfold member. cbn [csize]. rewrite pread_four. rewrite !set_enum_bytes by (try exact Ho; reflexivity).
  replace (o =? o) with true by lia. replace (o + 1 =? o) with false by lia. replace (o + 1 =? o + 1) with true by lia.
  replace (o + 2 =? o) with false by lia. replace (o + 2 =? o + 1) with false by lia.
  replace (o + 3 =? o) with false by lia. replace (o + 3 =? o + 1) with false by lia. rewrite Z2, Z3, le_four by lia.
  destruct (v <? 0) eqn:E; lia.
Qed.
(** A value given to such a member through the structure comes out of the getter only if it has 16 bits *)
Theorem C93_wide_enum_refuted : forall m o v, 0 <= o <= 16381 -> - 2 ^ 31 <= v < 2 ^ 31 ->
  (get_enum (pwrite m o (le_bytes 4 v)) (token_native o (CEnum 4)) = Some v <-> -32768 <= v < 32768).
Proof.
  intros m o v Ho V. rewrite get_enum_bytes by (try exact Ho; reflexivity).
  assert (A : pwrite m o (le_bytes 4 v) o = v mod 256).
  { unfold pwrite. cbn [le_bytes length]. replace ((o <=? o) && (o <? o + Z.of_nat 4)) with true by lia. replace (Z.to_nat (o - o)) with 0%nat by lia. reflexivity. }
  assert (B : pwrite m o (le_bytes 4 v) (o + 1) = v / 256 mod 256).
  { unfold pwrite. cbn [le_bytes length]. replace ((o <=? o + 1) && (o + 1 <? o + Z.of_nat 4)) with true by lia. replace (Z.to_nat (o + 1 - o)) with 1%nat by lia. reflexivity. }
  rewrite A, B. unfold le_signed. cbn [length le_value]. change (256 ^ Z.of_nat 2) with 65536. cbv zeta.
  assert (R : forall x y : Z, Some x = Some y <-> x = y) by (intros; split; congruence). rewrite R. clear R A B.
  destruct (_ <? _) eqn:E; lia.
Qed.
(** A member of type bool is set to 0 or 1 by set_bool; but its field is one of eight bits with sign, and set_i8 leaves any other
    byte in it although get_bool gives true *)
Lemma bool_byte m o v : 0 <= o <= 16381 -> pwrite m o [v] o = v.
Proof. intros Ho. unfold pwrite. cbn [length]. replace ((o <=? o) && (o <? o + Z.of_nat 1)) with true by lia. replace (Z.to_nat (o - o)) with 0%nat by lia. reflexivity. Qed.
Lemma get_bool_byte m o : 0 <= o <= 16381 -> 0 <= m o < 256 -> get_bool m (token_native o CBool) = Some (negb (m o =? 0)).
Proof.
  intros Ho B. destruct (native_fields o CBool Ho eq_refl) as (_ & G & O & _ & D & _). unfold get_bool, get_by. rewrite G, O, D.
  unfold fixed_get. cbn [andb]. change (preplaced_bytes (type2genus CBool)) with 1. change (pread m o 1) with [m (o + 0)]. rewrite Z.add_0_r.
  unfold le_signed. cbn [length le_value]. change (256 ^ Z.of_nat 1) with 256. cbv zeta. f_equal. destruct (_ <? _) eqn:E; lia.
Qed.
Theorem C93_bool : forall m o b, 0 <= o <= 16381 ->
  bool_ok (set_bool m (token_native o CBool) b) o = true /\ get_bool (set_bool m (token_native o CBool) b) (token_native o CBool) = Some b.
Proof.
  intros m o b Ho. destruct (native_fields o CBool Ho eq_refl) as (_ & _ & O & _). unfold set_bool, set_by. rewrite O.
  pose proof (bool_byte m o (if b then 1 else 0) Ho) as E. split.
  - unfold bool_ok. rewrite E. destruct b; reflexivity.
  - rewrite get_bool_byte by (try exact Ho; rewrite E; destruct b; lia). rewrite E. destruct b; reflexivity.
Qed.
Theorem C93_bool_refuted : forall m o v, 0 <= o <= 16381 -> -128 <= v < 128 -> v <> 0 -> v <> 1 ->
  bool_ok (set_i8 m (token_native o CBool) v) o = false /\ get_bool (set_i8 m (token_native o CBool) v) (token_native o CBool) = Some true.
Proof.
  intros m o v Ho V N0 N1. destruct (native_fields o CBool Ho eq_refl) as (_ & _ & O & _). unfold set_i8, set_by. rewrite O. cbn [le_bytes].
  pose proof (bool_byte m o (v mod 256) Ho) as E. split.
  - unfold bool_ok. rewrite E. lia.
  - rewrite get_bool_byte by (try exact Ho; rewrite E; lia). rewrite E. f_equal. lia.
Qed.
Example C93_enum_example :
  let m := set_enum (fun _ => 0) (token_native 4 (CEnum 4)) (-2) in
  get_enum m (token_native 4 (CEnum 4)) = Some (-2) /\ le_signed (member m 4 (CEnum 4)) = 65534 /\
  let m1 := set_enum (fun _ => 77) (token_native 4 (CEnum 1)) 3 in member m1 5 CU8 = [0] /\ member m1 6 CU8 = [77].
Proof. cbv zeta. repeat split; vm_compute; reflexivity. Qed.

(** ** Entering a structure into a schema *)
Lemma add_native s log n o t : SInv s log -> bytes_of s <= o <= 16381 -> wf_ctype t = true -> zlen n <= 42 -> ~ In n (map fst log) ->
  add_definition s n (token_native o t) None =
    match new_image (image s) (token_native o t) None with
    | None => Undefined
    | Some im => Defined (token_native o t) (mkSch ((n, token_native o t) :: n2t s) ((token_native o t, n) :: t2n s)
         (sort_tokens (toks s ++ [token_native o t])) im (npre s + 1) (nstr s + Z.b2z (negb (is_fixed_size (token_native o t)))))
    end.
Proof.
  intros I Ho W Ln Nn. pose proof (zlen_nonneg (image s)) as Zi. fold (bytes_of s) in Zi.
  destruct (native_fields o t ltac:(lia) W) as (P & Gn & O & Sz & Di & R). pose proof (csize_range t W) as C.
  unfold add_definition. replace (zlen n >? 42) with false by lia. rewrite (fresh_name s log n I Nn).
  assert (Ends : forall u, In u (toks s) -> is_preplaced u = true -> ending u <= tag2offset (token_native o t)).
  { intros u Hu Pu. pose proof (si_image _ _ I u Hu Pu). lia. }
  rewrite (fresh_key s log (token_native o t) I).
  2:{ intros u Hu Q. pose proof (tb_range _ _ (si_table _ _ I) u Hu) as Ru.
      rewrite (key_split u Ru), (key_split _ R), P in Q.
      pose proof (tag_parts u Ru). pose proof (tag_parts _ R) as TP.
      destruct (is_preplaced u) eqn:Pu; [|specialize (proj2 (proj2 (proj2 (proj2 TP))) P); lia].
      pose proof (Ends u Hu Pu). unfold ending in *. lia. }
  rewrite P. rewrite no_collision_free by (try exact Ends; lia).
  replace (reserve_ok (image s) (token_native o t)) with true by (unfold reserve_ok, bytes_of in *; lia). cbn [negb]. reflexivity.
Qed.
(** the members of a structure with their names *)
Definition named (packed : bool) (a : Z) (l : list ctype) (names : list name) : list (name * (Z * ctype)) := combine names (arrange packed a l).
Lemma zeros_grow n k c : repeat 0 n ++ repeat 0 k ++ repeat 0 c = repeat (0 : Z) (n + k + c).
Proof. rewrite !repeat_app, app_assoc. reflexivity. Qed.
Lemma import_run packed l : forall s log names a, SInv s log -> image s = repeat 0 (Z.to_nat a) -> 0 <= a -> Forall (fun t => plain t = true) l ->
  members_end packed a l <= 16382 -> length names = length l -> NoDup (map fst log ++ names) -> Forall (fun n => zlen n <= 42) names ->
  exists s', definitions s (map import_member (named packed a l names)) =
      Some (s', combine names (map (fun m => token_native (fst m) (snd m)) (arrange packed a l))) /\
    image s' = repeat 0 (Z.to_nat (members_end packed a l)) /\
    SInv s' (log ++ combine names (map (fun m => token_native (fst m) (snd m)) (arrange packed a l))).
Proof.
  induction l as [|t r IH]; intros s log names a I Im Ha P E L ND NL.
  - destruct names; [|discriminate]. exists s. cbn. rewrite app_nil_r. auto.
  - destruct names as [|n names]; [discriminate|]. unfold named. rewrite arrange_cons. cbn [combine map]. rewrite end_cons in *.
    inversion P as [|? ? P1 P2]; subst. inversion NL as [|? ? NL1 NL2]; subst. pose proof (plain_wf t P1) as W. pose proof (csize_range t W) as C.
    pose proof (start_le packed a t W) as SL. set (o := start packed a t) in *.
    pose proof (end_le packed r (o + csize t) (plain_all r P2)) as EL.
    assert (Ho : 0 <= o <= 16381) by lia. destruct (native_fields o t Ho W) as (Pp & Gn & O & Sz & Di & R).
    assert (Nn : ~ In n (map fst log)).
    { intros K. apply (NoDup_remove_2 (map fst log) names n ND). apply in_or_app. left. exact K. }
    assert (Zb : zlen (image s) = a) by (rewrite Im; unfold zlen; rewrite repeat_length; lia).
    cbn [definitions]. unfold import_member at 1. cbn [fst snd define import_definition negb].
    pose proof (add_native s log n o t I ltac:(unfold bytes_of; lia) W NL1 Nn) as A.
    rewrite (new_image_end (image s) (token_native o t) None R ltac:(lia) ltac:(rewrite Gn; apply genus_range) ltac:(rewrite Sz, Gn; apply plain_size; assumption)) in A.
    rewrite Gn, Di, O, Zb in A. cbn [starts_with] in A. unfold erased in A. cbn [andb] in A. rewrite Im, zeros_grow in A.
    rewrite <- (proj2 (plain_size t W) P1) in A.
    replace (Z.to_nat a + Z.to_nat (o - a) + Z.to_nat (csize t))%nat with (Z.to_nat (o + csize t)) in A by lia.
    rewrite A. match goal with |- context [definitions ?x _] => set (s1 := x) in * end.
    assert (I1 : SInv s1 (log ++ [(n, token_native o t)])).
    { eapply inv_step; [exact I|exact R|exact A]. }
    destruct (IH s1 (log ++ [(n, token_native o t)]) names (o + csize t) I1 eq_refl ltac:(lia) P2 E) as (s' & D & Im' & I').
    { cbn in L. lia. }
    { rewrite map_app. cbn [map fst]. rewrite <- app_assoc. exact ND. }
    { exact NL2. }
    exists s'. unfold named in D. rewrite D. cbn [def_name]. split; [reflexivity|]. split; [exact Im'|].
    rewrite <- app_assoc in I'. exact I'.
Qed.
(** Every structure of plain members, packed or not, can be entered member by member into a new schema: the schema knows each name
    under the token of its member, and its initial image consists of zeros up to the end of the last member. *)
Theorem C93_import : forall packed l names, Forall (fun t => plain t = true) l -> members_end packed 0 l <= 16382 ->
  length names = length l -> NoDup names -> Forall (fun n => zlen n <= 42) names ->
  exists s, definitions empty_schema (map import_member (named packed 0 l names)) = Some (s, combine names (tokens packed l)) /\
    image s = repeat 0 (Z.to_nat (members_end packed 0 l)) /\
    (forall i, (i < length l)%nat -> get_token s (nth i names []) None None = token_of packed l i).
Proof.
  intros packed l names P E L ND NL.
  destruct (import_run packed l empty_schema [] names 0 inv_empty eq_refl ltac:(lia) P E L ND NL) as (s & D & Im & I). cbn [app] in I.
  exists s. split; [exact D|]. split; [exact Im|]. intros i Hi. rewrite <- tokens_nth by exact Hi.
  apply (proj1 (get_token_spec s _ (nth i names []) None None I) (nth i (tokens packed l) 0)).
  fold (tokens packed l). rewrite <- combine_nth by (unfold tokens; rewrite map_length, arrange_length; exact L). apply nth_In.
  rewrite combine_length. unfold tokens. rewrite map_length, arrange_length. unfold name in *. lia.
Qed.
Lemma nodup_front {A} (l r : list A) : NoDup (l ++ r) -> NoDup l.
Proof. induction l as [|x l IH]; intros H; [constructor|]. inversion H as [|? ? H1 H2]; subst. constructor; [intros K; apply H1, in_or_app; tauto|auto]. Qed.
Lemma definitions_app s log ds1 : forall s1 ds2, definitions s ds1 = Some (s1, log) -> definitions s1 ds2 = None -> definitions s (ds1 ++ ds2) = None.
Proof.
  revert s log. induction ds1 as [|d r IH]; intros s log s1 ds2 D1 D2.
  - cbn in D1. injection D1 as <- _. exact D2.
  - cbn [definitions app] in *. destruct (define s d) as [t s'| |]; [|eapply IH; eassumption|discriminate].
    destruct (definitions s' r) as [[s2 log2]|] eqn:X; [|discriminate]. injection D1 as <- _. rewrite (IH s' log2 s2 ds2 X D2). reflexivity.
Qed.
Lemma arrange_app packed l1 l2 : forall a, arrange packed a (l1 ++ l2) = arrange packed a l1 ++ arrange packed (members_end packed a l1) l2.
Proof. induction l1 as [|t r IH]; intros a; [reflexivity|]. rewrite <- app_comm_cons, !arrange_cons, end_cons, IH. reflexivity. Qed.
(** A member narrower than its field, that is a reference or an enumeration of one byte, cannot be entered: the initial value is
    written behind the end of the image.  Whatever plain members come before it and whatever comes behind. *)
Definition narrow (t : ctype) : bool := is_reference t || match t with CEnum n => n =? 1 | _ => false end.
Lemma narrow_size t : wf_ctype t = true -> (narrow t = true <-> csize t < preplaced_bytes (type2genus t)).
Proof. unfold narrow. destruct t; cbn [is_reference orb]; intros W; try (cbn; split; [discriminate|intros; lia]); try (cbn; lia). unfold wf_ctype in W. cbn. lia. Qed.
Theorem C93_import_refuted : forall packed l t r names, Forall (fun t => plain t = true) l -> wf_ctype t = true -> narrow t = true ->
  members_end packed 0 (l ++ [t]) <= 16382 -> length names = length (l ++ t :: r) -> NoDup names -> Forall (fun n => zlen n <= 42) names ->
  definitions empty_schema (map import_member (named packed 0 (l ++ t :: r) names)) = None.
Proof.
  intros packed l t r names P W Nt E L ND NL.
  assert (SP : exists n1 n n2, names = n1 ++ n :: n2 /\ length n1 = length l).
  { exists (firstn (length l) names). rewrite app_length in L. cbn [length] in L.
    destruct (skipn (length l) names) as [|n n2] eqn:S1.
    - apply (f_equal (@length name)) in S1. rewrite skipn_length in S1. cbn in S1. lia.
    - exists n, n2. split; [rewrite <- S1; symmetry; apply firstn_skipn|]. rewrite firstn_length. lia. }
  destruct SP as (n1 & n & n2 & -> & L1).
  assert (ME : forall a, members_end packed a (l ++ [t]) = start packed (members_end packed a l) t + csize t).
  { clear. induction l as [|u q IH]; intros a; [reflexivity|]. rewrite <- app_comm_cons, !end_cons, IH. reflexivity. }
  rewrite ME in E. pose proof (start_le packed (members_end packed 0 l) t W) as SL. pose proof (csize_range t W) as C.
  pose proof (end_le packed l 0 (plain_all l P)) as E0.
  unfold named. rewrite arrange_app, arrange_cons.
  assert (CA : forall A B (x1 : list A) (y1 : list B) x2 y2, length x1 = length y1 -> combine (x1 ++ x2) (y1 ++ y2) = combine x1 y1 ++ combine x2 y2).
  { clear. induction x1 as [|a x IH]; intros [|b y] x2 y2 H; try discriminate; [reflexivity|]. cbn. now rewrite IH by (cbn in H; lia). }
  rewrite CA by (rewrite arrange_length; exact L1). rewrite map_app.
  apply Forall_app in NL as (NL1 & NL2). inversion NL2 as [|? ? NL3 NL4]; subst.
  destruct (import_run packed l empty_schema [] n1 0 inv_empty eq_refl ltac:(lia) P ltac:(lia) L1) as (s & D & Im & I).
  { cbn [map app]. exact (nodup_front _ _ ND). }
  { exact NL1. }
  cbn [app] in I. eapply definitions_app; [exact D|]. cbn [combine map definitions].
  set (o := start packed (members_end packed 0 l) t) in *.
  unfold import_member at 1. cbn [fst snd define import_definition negb].
  assert (Zb : zlen (image s) = members_end packed 0 l) by (rewrite Im; unfold zlen; rewrite repeat_length; lia).
  rewrite (add_native s _ n o t I); [|unfold bytes_of; lia|exact W|exact NL3|].
  2:{ intros K. apply in_map_iff in K as ([n' u] & <- & K). apply in_combine_l in K. cbn [fst] in *.
      apply (NoDup_remove_2 n1 n2 n' ND). apply in_or_app. left. exact K. }
  destruct (native_fields o t ltac:(lia) W) as (_ & Gn & O & Sz & Di & _).
  replace (new_image (image s) (token_native o t) None) with (@None (list Z)); [reflexivity|].
  unfold new_image. cbv zeta. rewrite Gn, O, Sz, Di. pose proof (genus_range t) as G. replace (type2genus t =? g_hole) with false by (change g_hole with 31; lia).
  pose proof (erased_length (type2genus t) false G) as EL. apply (narrow_size t W) in Nt.
  replace (_ <=? _) with false; [reflexivity|]. rewrite EL. unfold zlen in *. rewrite !app_length, !repeat_length. lia.
Qed.
Example C93_import_example :
  exists s, definitions empty_schema (map import_member (named false 0 order [[1]; [2]; [3]; [4]; [5]; [6]; [7]])) = Some (s, combine [[1]; [2]; [3]; [4]; [5]; [6]; [7]] (tokens false order)) /\
  definitions empty_schema (map import_member (named false 0 [CI32; CString] [[1]; [2]])) = None.
Proof.
  destruct (C93_import false order [[1]; [2]; [3]; [4]; [5]; [6]; [7]]) as (s & D & _).
  - repeat constructor.
  - vm_compute. discriminate.
  - reflexivity.
  - repeat constructor; cbn; intuition discriminate.
  - repeat constructor; vm_compute; discriminate.
  - exists s. split; [exact D|]. vm_compute. reflexivity.
Qed.

(** ** The end of the structure.
    The preplaced part that a schema of the members gives takes whole units of four bytes; it holds the whole structure, with the
    padding at its end, except when the structure needs multiples of eight and its last member ends in the first half of eight bytes. *)
Lemma struct_align_cases packed l : Forall (fun t => wf_ctype t = true) l ->
  struct_align packed l = 1 \/ struct_align packed l = 2 \/ struct_align packed l = 4 \/ struct_align packed l = 8.
Proof.
  intros W. unfold struct_align. destruct packed; [tauto|]. induction W as [|t r W1 W2 IH]; [cbn; tauto|]. cbn [fold_right].
  pose proof (calign_cases t W1). lia.
Qed.
(** The structure is no larger than needed: packed it ends with its last member, otherwise it is the next multiple of the strictest
    alignment among its members. *)
Theorem C93_struct_size : forall packed l, Forall (fun t => wf_ctype t = true) l ->
  let size := struct_size packed l in let e := members_end packed 0 l in
  (packed = true -> size = e) /\
  (packed = false -> forall t, In t l -> size mod calign t = 0) /\
  (packed = false -> size = e \/ exists t, In t l /\ e <= size < e + calign t).
Proof.
  intros packed l W. cbv zeta. split; [intros ->; unfold struct_size, struct_align, align_up; lia|].
  assert (M : forall t, In t l -> calign t <= struct_align false l).
  { unfold struct_align. clear W. induction l as [|u r IH]; intros t I; [contradiction|]. cbn [fold_right]. destruct I as [->|I]; [lia|]. specialize (IH t I). lia. }
  pose proof (struct_align_cases false l W) as C.
  split; intros ->.
  - intros t I. specialize (M t I). rewrite Forall_forall in W. specialize (W t I). unfold struct_size, align_up.
    destruct (calign_cases t W) as [E|[E|[E|E]]]; rewrite E in *; destruct C as [A|[A|[A|A]]]; rewrite A in *; lia.
  - assert (X : struct_align false l = 1 \/ exists t, In t l /\ struct_align false l = calign t).
    { unfold struct_align. clear. induction l as [|u r IH]; [left; reflexivity|]. cbn [fold_right].
      destruct IH as [E|(t & I & E)].
      - rewrite E. destruct (Z.max_spec (calign u) 1) as [[_ ->]|[_ ->]]; [left; reflexivity|right; exists u; cbn; tauto].
      - destruct (Z.max_spec (calign u) (fold_right (fun t a => Z.max (calign t) a) 1 r)) as [[_ ->]|[_ ->]]; right; [exists t|exists u]; cbn; tauto. }
    unfold struct_size, align_up. destruct X as [E|(t & I & E)].
    + left. rewrite E. lia.
    + right. exists t. split; [exact I|]. rewrite <- E. destruct C as [A|[A|[A|A]]]; rewrite A; lia.
Qed.
Theorem C93_padding_partial : forall packed l, Forall (fun t => wf_ctype t = true) l ->
  (struct_size packed l <= 4 * bytes2units (members_end packed 0 l) <->
   ~ (struct_align packed l = 8 /\ 1 <= members_end packed 0 l mod 8 <= 4)).
Proof.
  intros packed l W. unfold struct_size, align_up, bytes2units. pose proof (end_le packed l 0 W) as E. rewrite ?Z.shiftr_div_pow2 by lia. change (2 ^ 2) with 4.
  destruct (struct_align_cases packed l W) as [A|[A|[A|A]]]; rewrite A; lia.
Qed.
Theorem C93_padding_refuted : exists l, Forall (fun t => plain t = true) l /\ struct_size false l = 16 /\ 4 * bytes2units (members_end false 0 l) = 12.
Proof. exists [CI64; CBool]. repeat split; try reflexivity. repeat constructor. Qed.

(** ** References *)
(** In a tuple, payloads and the pivot are at multiples of four.  A reference at an offset that is not never stands for the address
    it was given; one at a multiple of four does, up to 65535 units ahead. *)
Theorem C93_reference_odd_refuted : forall pivot o payload, pivot mod 4 = 0 -> payload mod 4 = 0 -> o mod 4 <> 0 ->
  payload_at (pivot + o) (set_payload (pivot + o) payload) <> payload.
Proof. intros pivot o payload H1 H2 H3. unfold payload_at. generalize (set_payload (pivot + o) payload). intros x. lia. Qed.
Theorem C93_reference_partial : forall pivot o payload, pivot mod 4 = 0 -> payload mod 4 = 0 -> o mod 4 = 0 -> pivot + o <= payload < pivot + o + 262144 ->
  payload_at (pivot + o) (set_payload (pivot + o) payload) = payload.
Proof. intros pivot o payload H1 H2 H3 H4. unfold payload_at, set_payload, u16. change (2 ^ 16) with 65536. lia. Qed.
(** so that of two references one behind the other, in any structure, one never works *)
Theorem C93_neighbours_refuted : forall packed l i pivot payload, Forall (fun t => wf_ctype t = true) l -> (S i < length l)%nat ->
  is_reference (nth i l CI8) = true -> is_reference (nth (S i) l CI8) = true -> pivot mod 4 = 0 -> payload mod 4 = 0 ->
  exists k, (k = i \/ k = S i) /\
    payload_at (pivot + offset_of packed l k) (set_payload (pivot + offset_of packed l k) payload) <> payload.
Proof.
  intros packed l i pivot payload W Hi R1 R2 P1 P2.
  assert (N : forall l a i, (S i < length l)%nat -> is_reference (nth i l CI8) = true -> is_reference (nth (S i) l CI8) = true ->
     fst (nth (S i) (arrange packed a l) nowhere) = fst (nth i (arrange packed a l) nowhere) + 2).
  { clear. induction l as [|t r IH]; intros a i Hi R1 R2; [cbn in Hi; lia|]. rewrite arrange_cons. destruct i as [|i].
    - destruct r as [|u q]; [cbn in Hi; lia|]. rewrite arrange_cons. cbn [nth fst] in *. unfold start at 1.
      destruct t; try discriminate; destruct u; try discriminate; cbn [calign csize]; destruct packed; unfold align_up; lia.
    - cbn [nth]. cbn [length] in Hi. apply IH; [lia|exact R1|exact R2]. }
  specialize (N l 0 i Hi R1 R2). fold (offset_of packed l i) in N. fold (offset_of packed l (S i)) in N.
  destruct (Z.eq_dec (offset_of packed l i mod 4) 0) as [Z|Z].
  - exists (S i). split; [tauto|]. apply C93_reference_odd_refuted; [exact P1|exact P2|]. rewrite N. lia.
  - exists i. split; [tauto|]. apply C93_reference_odd_refuted; assumption.
Qed.
(** the structure of the example in token.h: all four references are at odd offsets *)
Definition example_struct : list ctype := [CBool; CString; CVarbin; CNested; CProperty].
Theorem C93_documented_example_refuted : forall packed k pivot payload, (1 <= k <= 4)%nat -> pivot mod 4 = 0 -> payload mod 4 = 0 ->
  payload_at (pivot + offset_of packed example_struct k) (set_payload (pivot + offset_of packed example_struct k) payload) <> payload.
Proof.
  intros packed k pivot payload Hk P1 P2. apply C93_reference_odd_refuted; [exact P1|exact P2|].
  assert (K : k = 1%nat \/ k = 2%nat \/ k = 3%nat \/ k = 4%nat) by lia. destruct K as [->|[->|[->| ->]]]; destruct packed; vm_compute; discriminate.
Qed.
(** Through the structure an absent value is given as empty by value_nothrow, as the getter by token does; value throws
    exactly there. *)
Theorem C93_value : forall s j,
  match value_nothrow s j with Gave p => read_slot s j false = RVal p | GaveEmpty => read_slot s j false = REmpty | ThrewAbsent => False end /\
  (value_or_throw s j = ThrewAbsent <-> read_slot s j false = REmpty) /\ (forall p, value_or_throw s j = Gave p <-> read_slot s j false = RVal p).
Proof.
  intros s j. unfold value_nothrow, value_or_throw, read_slot. destruct (get_slot s j) as [q|]; repeat split; intros; congruence.
Qed.
(** Laid over the preplaced part of the serialised form, the reference at the place of each variable-length field is the one of the
    field: absent when the field is, otherwise standing for the bytes of its value. *)
Theorem C93_laid : forall s A j, TInv s -> distinct_slots s -> (j < nslots s)%nat ->
  let m := asis_mem A s in let over := A + 4 * pivot s in
  (laid_reference m over (4 * soff s j) = 0 <-> get_slot s j = None) /\
  (forall v, get_slot s j = Some v ->
     map (fun i => word_at m (laid_payload m over (4 * soff s j) + 4 * Z.of_nat i)) (seq 0 (length v)) = map u32 v).
Proof.
  intros s A j T DS Hj. cbv zeta. pose proof (v_acc _ _ (t_inv _ T)) as acc.
  pose proof (seen_slot A s (asis_word s) T DS (asis_agrees A s) j Hj) as E1. unfold t_rel in E1. cbn [snd] in E1. fold (asis_mem A s) in E1.
  unfold laid_payload, payload_at, laid_reference, get_slot. rewrite E1. split; [destruct (pre s j =? 0) eqn:E; split; intros; (congruence || lia)|].
  intros v Hv. destruct (pre s j =? 0) eqn:E; [discriminate|]. injection Hv as <-. unfold value.
  assert (Pos : 0 < plen s (RP j)).
  { apply (t_pos _ T (RP j)); [exact Hj|reflexivity|cbn [rrel]; lia]. }
  destruct (live_bounds s (plen s) acc (RP j) Hj Pos).
  replace (A + 4 * pivot s + 4 * soff s j + 4 * pre s j) with (A + 4 * raddr s (RP j)) by (unfold raddr; cbn [rown rrel]; lia).
  rewrite (read_units_length s (raddr s (RP j)) (plen s (RP j))). apply (words_of A s); assumption.
Qed.
(** A structure laid over data() instead: in every tuple a reference at its beginning shows the length of the tuple in units, so it is
    never absent and stands for the first byte behind the tuple. *)
Theorem C93_data_refuted : forall s A, TInv s -> Z.of_nat (cnt s) <= max_fields -> tail s - head s + 1 <= 65535 ->
  laid_reference (asis_mem A s) (asis_ptr A s) 0 <> 0 /\
  laid_payload (asis_mem A s) (asis_ptr A s) 0 = asis_ptr A s + asis_bytes s.
Proof.
  intros s A T F B. destruct (asis_header A s T F B) as (H & _). unfold laid_payload, laid_reference, payload_at. rewrite Z.add_0_r, H.
  rewrite (asis_size A s T B). split; [|lia]. pose proof (seen_cfg s T) as C. unfold head, base in *. lia.
Qed.
Example C93_data_example : laid_reference (asis_mem 4096 before9) (asis_ptr 4096 before9) 0 = 19 /\
  laid_payload (asis_mem 4096 before9) (asis_ptr 4096 before9) 0 = asis_ptr 4096 before9 + asis_bytes before9.
Proof. split; vm_compute; reflexivity. Qed.
Example C93_laid_example : nslots before9 <> 0%nat /\
  (let over := 4096 + 4 * pivot before9 in let m := asis_mem 4096 before9 in
   laid_reference m over (4 * soff before9 0%nat) <> 0 /\
   Some (map (fun i => word_at m (laid_payload m over (4 * soff before9 0%nat) + 4 * Z.of_nat i)) (seq 0 2)) = option_map (firstn 2) (get_slot before9 0%nat)) /\
  struct_size true [CI64; CBool] = 9 /\ struct_size false [CI64; CBool] = 16 /\ struct_size false [CBool; CBool; CBool] = 3.
Proof. split; [vm_compute; discriminate|]. split; [split; [vm_compute; discriminate|vm_compute; reflexivity]|]. vm_compute. tauto. Qed.
Example C93_reference_cases :
  map (offset_of false example_struct) (seq 1 4) = [1; 3; 5; 7] /\ map (offset_of false [CString; CEnum 2; CVarbin; CEnum 2]) [0; 2]%nat = [0; 4] /\
  payload_at (4096 + 4) (set_payload (4096 + 4) 4160) = 4160 /\ payload_at (4096 + 3) (set_payload (4096 + 3) 4160) = 4159 /\
  value_or_throw (new_tuple 60 6) 0 = ThrewAbsent /\ value_nothrow (new_tuple 60 6) 0 = GaveEmpty /\
  match value_or_throw before9 0 with Gave p => p <> [] | _ => False end.
Proof. do 6 (split; [vm_compute; reflexivity|]). vm_compute. discriminate. Qed.

Print Assumptions C93_tokens_partial.
Print Assumptions C93_far_refuted.
Print Assumptions C93_members.
Print Assumptions C93_apart.
Print Assumptions C93_erase_refuted.
Print Assumptions C93_small_enum_refuted.
Print Assumptions C93_enum_getter.
Print Assumptions C93_plain_enum_partial.
Print Assumptions C93_wide_enum_refuted.
Print Assumptions C93_bool.
Print Assumptions C93_bool_refuted.
Print Assumptions C93_import.
Print Assumptions C93_import_refuted.
Print Assumptions C93_struct_size.
Print Assumptions C93_padding_partial.
Print Assumptions C93_padding_refuted.
Print Assumptions C93_reference_odd_refuted.
Print Assumptions C93_reference_partial.
Print Assumptions C93_neighbours_refuted.
Print Assumptions C93_documented_example_refuted.
Print Assumptions C93_value.
Print Assumptions C93_laid.
Print Assumptions C93_data_refuted.
