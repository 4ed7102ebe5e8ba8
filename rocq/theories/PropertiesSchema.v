(** * Property theorems: the schema (C22, C23, C47, C54). *)
From Verif Require Import Base Tag TagProofs Gear GearBase Tuple TupleProofs TupleHist TupleMore TupleFacts PropertiesTuple
  Schema SchemaProofs.
From Coq Require Import ZifyBool ZifyNat Permutation.
Ltac Zify.zify_post_hook ::= Z.div_mod_to_equations.

(** ** A sample history of definitions *)
Definition nm (c : Z) : name := [c].
Definition some_defs : list def :=
  [DPreplaced (nm 97) g_u8 false false None; DPreplaced (nm 98) g_text true false None;
   DLoose (nm 99) g_u32 false false false; DLoose (nm 100) g_u32 true true true;
   DPreplaced (nm 97) g_u16 false false None;                     (* refused: the name is taken *)
   DPreplaced (nm 101) g_i64 true true (Some [1; 2; 3; 4; 5; 6; 7; 8]);
   DImport (nm 102) 0xFFF84C05 None true;                         (* a loose u32 with id 5, renamed *)
   DPreplaced (nm 103) g_varbin false false None; DLoose (nm 104) g_text false false false].
Definition after (ds : list def) : schema :=
  match definitions empty_schema ds with Some (s, _) => s | None => empty_schema end.
Definition log_of (ds : list def) : list (name * Z) :=
  match definitions empty_schema ds with Some (_, l) => l | None => [] end.
Definition wf_defb (d : def) : bool :=
  match d with
  | DPreplaced _ type _ _ _ => (0 <=? type) && (type <=? 31)
  | DOpacity _ size align _ => (0 <=? size) && (size <? 2 ^ 63) && (0 <=? align) && (align <? 2 ^ 63)
  | DLoose _ type _ _ _ => (0 <=? type) && (type <=? 31)
  | DImport _ ident _ _ => (0 <=? ident) && (ident <? 2 ^ 32)
  end.
Lemma wf_defsb_ok ds : forallb wf_defb ds = true -> Forall wf_def ds.
Proof.
  rewrite forallb_forall, Forall_forall. intros H d Hd. specialize (H d Hd).
  destruct d; cbn [wf_defb wf_def] in *; unfold tagrange; lia.
Qed.

(** ** C22: names and tokens are defined at most once, and name lookup returns the token given at
    the definition, after every history of calls (accepted or refused) that stays defined. *)
Theorem C22_names_and_tokens : forall ds s log,
  Forall wf_def ds -> definitions empty_schema ds = Some (s, log) ->
  NoDup (map fst log) /\
  (forall n1 t1 n2 t2, In (n1, t1) log -> In (n2, t2) log -> tag_same t1 t2 = true -> n1 = n2 /\ t1 = t2) /\
  (forall n t, In (n, t) log -> get_token s n None None = t /\ get_name s t = Some n) /\
  (forall n, ~ In n (map fst log) -> get_token s n None None = 0) /\
  Permutation (toks s) (map snd log).
Proof.
  intros ds s log W H. pose proof (reached_schema _ _ _ W H) as I.
  split; [apply (si_names _ _ I)|]. split.
  { intros n1 t1 n2 t2 H1 H2 E. unfold tag_same in E.
    assert (Q : (n1, t1) = (n2, t2)).
    { apply (nodup_map _ _ _ _ (si_keys _ _ I) H1 H2). cbn. lia. }
    injection Q as -> ->. auto. }
  split.
  { intros n t Ht. split.
    - apply (proj1 (get_token_spec s log n None None I)). exact Ht.
    - apply (proj1 (get_name_spec s log t I) n t Ht eq_refl). }
  split; [|apply (si_perm _ _ I)].
  intros n Hn. apply (proj2 (get_token_spec s log n None None I)), Hn.
Qed.
(** The attributes asked for at lookup replace those of the definition and nothing else: the token
    still denotes the same field. *)
Theorem C22_lookup_attributes : forall ds s log n t di sa,
  Forall wf_def ds -> definitions empty_schema ds = Some (s, log) -> In (n, t) log ->
  get_token s n di sa = enforce sa enforce_saturation (enforce di enforce_discernible_null t) /\
  get_name s (get_token s n di sa) = Some n.
Proof.
  intros ds s log n t di sa W H Ht. pose proof (reached_schema _ _ _ W H) as I.
  pose proof (proj1 (get_token_spec s log n di sa I) t Ht) as E. split; [exact E|].
  rewrite E. apply (proj1 (get_name_spec s log _ I) n t Ht).
  assert (R : tagrange t).
  { apply (tb_range _ _ (si_table _ _ I)). apply (Permutation_in _ (Permutation_sym (si_perm _ _ I))).
    apply in_map_iff. exists (n, t). split; [reflexivity|exact Ht]. }
  assert (KD : forall u b, tagrange u -> tagrange (enforce_discernible_null u b) /\
            normalize_tag (enforce_discernible_null u b) = normalize_tag u).
  { apply enforce_null_keeps. }
  assert (KS : forall u b, tagrange u -> tagrange (enforce_saturation u b) /\
            normalize_tag (enforce_saturation u b) = normalize_tag u).
  { apply enforce_sat_keeps. }
  destruct di as [b1|], sa as [b2|]; cbn [enforce].
  - destruct (KD t b1 R) as (R1 & E1). destruct (KS _ b2 R1) as (_ & E2). congruence.
  - destruct (KD t b1 R) as (_ & E1). congruence.
  - destruct (KS t b2 R) as (_ & E2). congruence.
  - reflexivity.
Qed.
Example C22_case :
  forallb wf_defb some_defs = true /\
  map fst (log_of some_defs) = [nm 97; nm 98; nm 99; nm 100; nm 101; nm 102; nm 103; nm 104] /\
  map (fun p => (tag2offset (snd p), tag2genus (snd p))) (firstn 2 (log_of some_defs)) = [(0, g_u8); (4, g_text)] /\
  get_token (after some_defs) (nm 102) None None = make_tag g_u32 2 false false false /\
  get_token (after some_defs) (nm 120) None None = 0 /\
  bytes_of (after some_defs) = 20 /\ npre (after some_defs) = 4 /\ nstr (after some_defs) = 2.
Proof. vm_compute. repeat split. Qed.
Lemma some_defs_run : definitions empty_schema some_defs = Some (after some_defs, log_of some_defs).
Proof.
  assert (H : match definitions empty_schema some_defs with Some _ => true | None => false end = true)
    by (vm_compute; reflexivity).
  unfold after, log_of. destruct (definitions empty_schema some_defs) as [(s, l)|]; [reflexivity|discriminate].
Qed.
Example C22_case_reached : Forall wf_def some_defs /\
  definitions empty_schema some_defs = Some (after some_defs, log_of some_defs).
Proof. split; [apply wf_defsb_ok; vm_compute; reflexivity|exact some_defs_run]. Qed.

(** The storage of the preplaced fields: no byte belongs to two fields of a value type, and no two
    of them (holes included) overlap in part only; all of them lie inside the image. *)
Theorem C22_storage : forall ds s log t1 t2 x,
  Forall wf_def ds -> definitions empty_schema ds = Some (s, log) ->
  In t1 (map snd log) -> In t2 (map snd log) -> t1 <> t2 ->
  is_preplaced t1 = true -> is_preplaced t2 = true ->
  0 <= x - tag2offset t1 < tag2indysize t1 ->
  0 <= x < bytes_of s /\
  (tag2genus t1 <> g_hole -> tag2genus t2 <> g_hole -> ~ 0 <= x - tag2offset t2 < tag2indysize t2) /\
  (0 <= x - tag2offset t2 < tag2indysize t2 ->
     (forall y, 0 <= y - tag2offset t1 < tag2indysize t1 -> 0 <= y - tag2offset t2 < tag2indysize t2) \/
     (forall y, 0 <= y - tag2offset t2 < tag2indysize t2 -> 0 <= y - tag2offset t1 < tag2indysize t1)).
Proof.
  intros ds s log t1 t2 x W H I1 I2 N P1 P2 Hx. pose proof (reached_schema _ _ _ W H) as I.
  apply (Permutation_in _ (Permutation_sym (si_perm _ _ I))) in I1.
  apply (Permutation_in _ (Permutation_sym (si_perm _ _ I))) in I2.
  pose proof (si_image _ _ I t1 I1 P1) as L. unfold ending in L.
  destruct (tag_parts t1 (tb_range _ _ (si_table _ _ I) _ I1)) as (_ & _ & _ & O1 & _).
  split; [lia|]. split.
  - intros G1 G2 Hx2. apply (si_share _ _ I t1 t2 I1 I2 N P1 P2 G1 G2). exists x. unfold ending. lia.
  - intros Hx2. pose proof (si_cross _ _ I t1 t2 I1 I2 P1 P2) as C. unfold crosses, ending in C.
    destruct (Z_le_dec (tag2offset t2) (tag2offset t1)) as [A|A];
      destruct (Z_le_dec (tag2offset t1 + tag2indysize t1) (tag2offset t2 + tag2indysize t2)) as [B|B].
    + left. intros y. lia.
    + destruct (Z.eq_dec (tag2offset t2) (tag2offset t1)); [right; intros y; lia|]. exfalso. apply C. lia.
    + destruct (Z.eq_dec (tag2offset t1 + tag2indysize t1) (tag2offset t2 + tag2indysize t2));
        [right; intros y; lia|]. exfalso. apply C. lia.
    + right. intros y. lia.
Qed.
Example C22_storage_case :
  exists t1 t2, In t1 (map snd (log_of some_defs)) /\ In t2 (map snd (log_of some_defs)) /\ t1 <> t2 /\
    is_preplaced t1 = true /\ is_preplaced t2 = true /\ tag2genus t1 <> g_hole /\ tag2genus t2 <> g_hole /\
    0 <= 10 - tag2offset t1 < tag2indysize t1.
Proof.
  exists (snd (nth 4 (log_of some_defs) (nm 0, 0))), (snd (nth 1 (log_of some_defs) (nm 0, 0))).
  vm_compute. repeat split; try discriminate; tauto.
Qed.

(** New definitions are accepted as long as there is room: a fresh name of up to 42 bytes, an
    offset below the limit, fewer than 1024 loose fields of the type. *)
Theorem C22_accepted : forall ds s log n g disc sat,
  Forall wf_def ds -> definitions empty_schema ds = Some (s, log) ->
  0 <= g < 31 -> zlen n <= 42 -> ~ In n (map fst log) ->
  (forall init, bytes_of s + 3 <= 16381 -> exists t s', define_preplaced s n g disc sat init = Defined t s' /\
     tag2genus t = g /\ is_preplaced t = true /\ bytes_of s <= tag2offset t <= bytes_of s + 3 /\
     bytes_of s' = tag2offset t + preplaced_bytes g) /\
  (forall c, (forall t, In t (map snd log) -> is_preplaced t = false -> tag2genus t = g -> tag2id t < 1023) ->
     exists t s', define_loose s n g c disc sat = Defined t s' /\ tag2genus t = g /\
       (forall t', In t' (map snd log) -> is_preplaced t' = false -> tag2genus t' = g -> tag2id t' < tag2id t)).
Proof.
  intros ds s log n g disc sat W H G Ln Hn. pose proof (reached_schema _ _ _ W H) as I.
  pose proof (zlen_nonneg (image s)) as Z0. split.
  - intros init Hb.
    destruct (aligned_width (bytes_of s) g Z0 G) as (A1 & A2).
    destruct (define_preplaced_accepted s log n g disc sat init I G Ln Hn ltac:(lia)) as (t & s' & E).
    exists t, s'. split; [exact E|].
    destruct (define_preplaced_image s n g disc sat init t s' ltac:(lia) E) as (O & _ & P & Gt & _ & _ & _ & Im).
    split; [exact Gt|]. split; [exact P|]. split; [lia|].
    unfold bytes_of. rewrite Im. pose proof (starts_length g disc init G) as SL. unfold zlen in *.
    rewrite !app_length, repeat_length. unfold bytes_of, zlen in *. lia.
  - intros c Hc. destruct (next_id_fresh s log g I ltac:(lia)) as (F1 & F2).
    assert (B : get_next_loose_id s g < 1024).
    { destruct F2 as [->|(e & E1 & E2 & E3 & ->)]; [lia|].
      specialize (Hc e (Permutation_in _ (si_perm _ _ I) E1) E2 E3). lia. }
    destruct (define_loose_accepted s log n g c disc sat I G Ln Hn B) as (t & s' & E & E1 & E2).
    exists t, s'. split; [exact E|]. split; [exact E2|]. intros t' Ht' P' G'. rewrite E1.
    apply F1; [|exact P'|exact G']. exact (Permutation_in _ (Permutation_sym (si_perm _ _ I)) Ht').
Qed.
Example C22_accepted_case :
  zlen (nm 110) <= 42 /\ ~ In (nm 110) (map fst (log_of some_defs)) /\ bytes_of (after some_defs) + 3 <= 16381 /\
  forall t, In t (map snd (log_of some_defs)) -> is_preplaced t = false -> tag2genus t = g_u32 -> tag2id t < 1023.
Proof.
  assert (A : existsb (name_eqb (nm 110)) (map fst (log_of some_defs)) = false) by (vm_compute; reflexivity).
  assert (B : forallb (fun t => tag2id t <? 1023) (map snd (log_of some_defs)) = true) by (vm_compute; reflexivity).
  split; [vm_compute; discriminate|]. split.
  - intros H. rewrite existsb_false in A. specialize (A _ H). assert (name_eqb (nm 110) (nm 110) = true) by (apply name_eqb_eq; reflexivity). congruence.
  - split; [vm_compute; discriminate|]. intros t Ht _ _. rewrite forallb_forall in B. specialize (B t Ht). lia.
Qed.

(** A loose field gets an identifier below 1024, larger than those of all others of its type; once
    the type has the identifier 1023 or a larger one, nothing more is accepted. *)
Theorem C22_loose_limit : forall ds s log n g c disc sat,
  Forall wf_def ds -> definitions empty_schema ds = Some (s, log) -> 0 <= g < 31 ->
  (forall t s', define_loose s n g c disc sat = Defined t s' -> 0 <= tag2id t <= 1023 /\ tag2genus t = g /\
     forall t', In t' (map snd log) -> is_preplaced t' = false -> tag2genus t' = g -> tag2id t' < tag2id t) /\
  (forall t', In t' (map snd log) -> is_preplaced t' = false -> tag2genus t' = g -> 1023 <= tag2id t' -> define_loose s n g c disc sat = Refused).
Proof.
  intros ds s log n g c disc sat W H G. pose proof (reached_schema _ _ _ W H) as I.
  destruct (next_id_fresh s log g I ltac:(lia)) as (F1 & F2).
  assert (N0 : 0 <= get_next_loose_id s g).
  { destruct F2 as [->|(e & He & _ & _ & ->)]; [lia|]. pose proof (tag_parts e (tb_range _ _ (si_table _ _ I) e He)). lia. }
  assert (F : forall t', In t' (map snd log) -> is_preplaced t' = false -> tag2genus t' = g -> tag2id t' < get_next_loose_id s g).
  { intros t' Ht P' G'. apply F1; [|exact P'|exact G']. exact (Permutation_in _ (Permutation_sym (si_perm _ _ I)) Ht). }
  unfold define_loose. replace (g >=? g_hole) with false by (change g_hole with 31; lia). cbv zeta.
  destruct (get_next_loose_id s g >=? loose_end) eqn:E.
  - split; [discriminate|]. intros; reflexivity.
  - unfold loose_end in E. split.
    + intros t s' D. destruct (token_loose g (get_next_loose_id s g) c disc sat) as [ident|] eqn:Et; [|discriminate].
      pose proof (add_defined _ _ _ _ _ _ D) as (-> & _).
      pose proof (token_loose_fields _ _ _ _ _ _ Et ltac:(lia) N0) as (_ & P & Gn & Id & _). rewrite Id, Gn. split; [lia|]. split; [reflexivity|exact F].
    + intros t' Ht P' G' L. specialize (F t' Ht P' G'). lia.
Qed.
(** So the import of one token with a large identifier closes its type, whatever identifiers are free. *)
Theorem C22_import_closes_type_refuted : exists ds, Forall wf_def ds /\ zlen (toks (after ds)) = 1 /\ forall n c disc sat, define_loose (after ds) n g_u32 c disc sat = Refused.
Proof.
  exists [DImport (nm 97) (make_tag g_u32 1023 true true false) None false]. split; [apply wf_defsb_ok; vm_compute; reflexivity|].
  split; [vm_compute; reflexivity|]. intros n c disc sat. unfold define_loose. change (g_u32 >=? g_hole) with false. cbv iota zeta.
  replace (get_next_loose_id _ _ >=? loose_end) with true by (vm_compute; reflexivity). reflexivity.
Qed.

(** The opaque regions do not get the bytes asked for: the token keeps neither the size nor the
    alignment.  A region of 16 bytes at offset 0 and the 8-byte field defined after it share
    their first byte, so that the write to one changes the other. *)
Theorem C22_opacity_refuted : exists ds t1 t2,
  Forall wf_def ds /\ log_of ds = [(nm 97, t1); (nm 98, t2)] /\
  ds = [DOpacity (nm 97) 16 0 (Some (repeat 7 16)); DPreplaced (nm 98) g_i64 false false None] /\
  tag2offset t1 = 0 /\ tag2indysize t1 = 0 /\ tag2offset t2 = 0 /\
  image (after ds) = repeat 0 8.
Proof.
  exists [DOpacity (nm 97) 16 0 (Some (repeat 7 16)); DPreplaced (nm 98) g_i64 false false None].
  eexists _, _. split; [apply wf_defsb_ok; vm_compute; reflexivity|].
  split; [vm_compute; reflexivity|]. vm_compute. repeat split.
Qed.
(** without an initial value the call is undefined (it erases a field of no type) *)
Theorem C22_opacity_undefined_refuted : forall size align n, 1 <= size < 2047 -> align = 0 -> zlen n <= 42 ->
  define_opacity empty_schema n size align None = Undefined.
Proof.
  intros size align n Hs -> Hn. unfold define_opacity.
  replace (size >=? 2047) with false by lia. replace (size <? 1) with false by lia. cbv zeta.
  change (0 >=? 16) with false. change (0 =? 0) with true. cbv iota.
  change (negb true && negb (Z.land 0 (0 - 1) =? 0)) with false. cbv iota.
  assert (A : aligned (bytes_of empty_schema) (if size >? 4 then 4 else size) = 0 \/
              exists k, 1 <= k <= 4 /\ aligned (bytes_of empty_schema) (if size >? 4 then 4 else size) = aligned 0 k).
  { right. destruct (size >? 4) eqn:E; [exists 4|exists size]; split; try lia; reflexivity. }
  assert (B : aligned (bytes_of empty_schema) (if size >? 4 then 4 else size) <= 3 /\
              0 <= aligned (bytes_of empty_schema) (if size >? 4 then 4 else size)).
  { destruct A as [->|(k & K & ->)]; [lia|].
    assert (k = 1 \/ k = 2 \/ k = 3 \/ k = 4) as [->|[->|[->| ->]]] by lia; vm_compute; split; discriminate. }
  set (o := aligned _ _) in *. clearbody o. clear A.
  assert (U : forall t, is_preplaced t = true -> tag2genus t = g_hole -> tagrange t ->
                add_definition empty_schema n t None = Undefined).
  { intros t P Ht R. unfold add_definition. replace (zlen n >? 42) with false by lia. cbn [n2t t2n empty_schema existsb].
    rewrite P. cbn [toks empty_schema no_collision negb]. unfold reserve_ok. cbn [image empty_schema].
    destruct (tag_parts t R) as (_ & _ & I1 & I2 & _). change (zlen (@nil Z)) with 0.
    replace (0 <=? tag2offset t + tag2indysize t) with true by lia. cbn [negb].
    unfold new_image. rewrite Ht. change (g_hole =? g_hole) with true. cbv zeta iota. reflexivity. }
  assert (o = 0 \/ o = 1 \/ o = 2 \/ o = 3) as [->|[->|[->| ->]]] by lia;
    cbn [Z.gtb Z.compare]; (match goal with |- context [token_preplaced ?o ?g ?d ?s] =>
      let r := eval vm_compute in (token_preplaced o g d s) in change (token_preplaced o g d s) with r end);
    apply U; try reflexivity; vm_compute; split; congruence.
Qed.
Example C22_opacity_undefined_case : define_opacity empty_schema (nm 97) 16 0 None = Undefined.
Proof. vm_compute. reflexivity. Qed.
(** and right behind a field an opaque region is refused, whatever room there is *)
Theorem C22_opacity_refused_refuted : exists ds,
  Forall wf_def ds /\ bytes_of (after ds) = 8 /\
  forall init, define_opacity (after ds) (nm 98) 16 0 init = Refused.
Proof.
  exists [DPreplaced (nm 97) g_i64 false false None]. split; [apply wf_defsb_ok; vm_compute; reflexivity|].
  split; [vm_compute; reflexivity|]. intros [v|]; vm_compute; reflexivity.
Qed.
(** An imported token that lies in a free place before the end of the image is refused: the place
    to reserve comes out negative. *)
Theorem C22_import_order_refuted : exists ds t,
  Forall wf_def ds /\ tagrange t /\ is_preplaced t = true /\ tag2genus t = g_u32 /\ tag2offset t = 0 /\
  (forall u, In u (toks (after ds)) -> ending t <= tag2offset u) /\
  forall init, import_definition (after ds) (nm 98) t init false = Refused.
Proof.
  exists [DImport (nm 97) (tag_from_offset 8 g_u32 4 false false) None false], (tag_from_offset 0 g_u32 4 false false).
  split; [apply wf_defsb_ok; vm_compute; reflexivity|]. split; [vm_compute; split; congruence|].
  split; [vm_compute; reflexivity|]. split; [vm_compute; reflexivity|]. split; [vm_compute; reflexivity|]. split.
  - assert (A : forallb (fun u => ending (tag_from_offset 0 g_u32 4 false false) <=? tag2offset u)
        (toks (after [DImport (nm 97) (tag_from_offset 8 g_u32 4 false false) None false])) = true) by (vm_compute; reflexivity).
    intros u Hu. rewrite forallb_forall in A. specialize (A u Hu). lia.
  - intros [v|]; vm_compute; reflexivity.
Qed.

(** ** C23: searches.  The table of every reached schema is sorted, preplaced tokens first, and on
    such a table each search gives what a linear search gives. *)
Definition linear_offset (l : list Z) (off : Z) : Z :=
  orz (find (fun t => is_preplaced t && (tag2offset t =? off)) l).
Definition linear_loose (l : list Z) (desc : Z) : Z :=
  orz (find (fun t => is_loose t && (tag2genus_and_id t =? desc)) l).
Definition linear_next (l : list Z) (off : Z) : Z :=
  orz (find (fun t => is_preplaced t && (off <? tag2offset t)) l).
Definition linear_prev (l : list Z) (off : Z) : option Z :=
  find (fun t => is_preplaced t && (tag2offset t <? off)) (rev l).

Theorem C23_tables_sorted : forall ds s log, Forall wf_def ds -> definitions empty_schema ds = Some (s, log) ->
  table (toks s) (npre s).
Proof. intros ds s log W H. apply (si_table _ _ (reached_schema _ _ _ W H)). Qed.
Theorem C23_by_offset : forall s off, table (toks s) (npre s) -> 0 <= off < bytes_of s ->
  by_offset s off = linear_offset (toks s) off.
Proof. intros s off T H. apply (by_offset_find s T off H). Qed.
Theorem C23_by_loose : forall s desc, table (toks s) (npre s) -> 0 <= desc < 2 ^ 16 ->
  by_loose s desc = linear_loose (toks s) desc.
Proof. intros s desc T H. apply (by_loose_find s T desc H). Qed.
(** the next one, when no two preplaced tokens start at the same place *)
Theorem C23_next_partial : forall s off, table (toks s) (npre s) -> distinct_offsets s ->
  0 <= off < bytes_of s -> off <= 16383 ->
  next_by_offset s off = linear_next (toks s) off.
Proof. intros s off T D H L. apply (next_find s T off D H L). Qed.
(** outside of the preplaced bytes nothing is found *)
Theorem C23_outside : forall s off, off < 0 \/ bytes_of s <= off -> by_offset s off = 0 /\ next_by_offset s off = 0.
Proof. intros s off H. unfold by_offset, next_by_offset. replace ((off >=? 0) && (off <? bytes_of s)) with false by lia. auto. Qed.
(** the one before; when there is none the code steps before the beginning of the table *)
Theorem C23_prev_partial : forall s off, table (toks s) (npre s) -> 0 < off <= bytes_of s -> off <= 16383 ->
  prev_by_offset s off = linear_prev (toks s) off.
Proof.
  intros s off T H L. pose proof (prev_find s T off H L) as E. unfold linear_prev.
  destruct (find _ (rev (toks s))); exact E.
Qed.
Example C23_case :
  let s := after some_defs in
  npre s = 4 /\ zlen (toks s) = 8 /\
  by_offset s 4 = tok (toks s) 1 /\ by_offset s 5 = 0 /\ by_loose s (fd g_u32 1) = tok (toks s) 6 /\
  by_loose s (fd g_u32 9) = 0 /\ next_by_offset s 4 = tok (toks s) 2 /\ prev_by_offset s 4 = Some (tok (toks s) 0) /\
  next_by_offset s 17 = 0.
Proof. vm_compute. repeat split. Qed.

(** A preplaced token at the very end of the image is not found (a region of no bytes). *)
Theorem C23_by_offset_end_refuted : exists ds off,
  Forall wf_def ds /\ by_offset (after ds) off = 0 /\ linear_offset (toks (after ds)) off <> 0.
Proof.
  exists [DOpacity (nm 97) 16 0 (Some (repeat 7 16))], 0. split; [apply wf_defsb_ok; vm_compute; reflexivity|].
  split; vm_compute; [reflexivity|discriminate].
Qed.
(** With a region and a field at one place, "next after this offset" gives a field at the same
    offset: walking the schema by that call does not end. *)
Theorem C23_next_refuted : exists ds off,
  Forall wf_def ds /\ 0 <= off < bytes_of (after ds) /\
  tag2offset (next_by_offset (after ds) off) = off /\ next_by_offset (after ds) off <> 0 /\
  linear_next (toks (after ds)) off <> 0 /\
  forall n, tag2offset (Nat.iter n (fun t => next_by_offset (after ds) (tag2offset t)) (tok (toks (after ds)) 0)) = off.
Proof.
  set (ds := [DOpacity (nm 97) 16 0 (Some (repeat 7 16)); DPreplaced (nm 98) g_i64 false false None;
              DPreplaced (nm 99) g_u32 false false None]).
  exists ds, 0. split; [apply wf_defsb_ok; vm_compute; reflexivity|].
  split; [vm_compute; split; congruence|]. split; [vm_compute; reflexivity|]. split; [vm_compute; discriminate|].
  split; [vm_compute; discriminate|].
  induction n as [|n IH]; [vm_compute; reflexivity|].
  cbn [Nat.iter nat_rect]. change (nat_rect _ _ _ n) with (Nat.iter n (fun t => next_by_offset (after ds) (tag2offset t)) (tok (toks (after ds)) 0)).
  rewrite IH. vm_compute. reflexivity.
Qed.
(** "previous" steps before the beginning of the table when the first field is not at offset 0 *)
Theorem C23_prev_undefined_refuted : exists ds off,
  Forall wf_def ds /\ 0 < off <= bytes_of (after ds) /\ prev_by_offset (after ds) off = None.
Proof.
  exists [DImport (nm 97) (tag_from_offset 4 g_u32 4 false false) None false], 2.
  split; [apply wf_defsb_ok; vm_compute; reflexivity|]. split; vm_compute; [split; congruence|reflexivity].
Qed.
(** The offset is shifted into a 32-bit tag: from 16384 on it wraps.  An image may be that long (the
    limit is on the beginning of a field, not on its end); the last field is then not found from
    the end of the image. *)
Definition long_schema : schema :=
  mkSch [] [] [tag_from_offset 0 g_u32 4 false false; tag_from_offset 16380 g_bin512 64 false false]
        (repeat 0 (Z.to_nat 16444)) 2 0.
Lemma long_table : table (toks long_schema) (npre long_schema).
Proof.
  cbn [toks long_schema]. constructor.
  - intros t [<-|[<-|[]]]; vm_compute; split; congruence.
  - repeat constructor; vm_compute; reflexivity.
  - vm_compute. reflexivity.
Qed.
Lemma long_bytes : bytes_of long_schema = 16444.
Proof. unfold bytes_of, zlen, long_schema. cbn [image]. rewrite repeat_length. lia. Qed.
Theorem C23_prev_wraps_refuted :
  table (toks long_schema) (npre long_schema) /\
  linear_prev (toks long_schema) 16444 = Some (tag_from_offset 16380 g_bin512 64 false false) /\
  prev_by_offset long_schema 16444 = Some (tag_from_offset 0 g_u32 4 false false).
Proof.
  split; [apply long_table|]. split; [vm_compute; reflexivity|].
  unfold prev_by_offset. rewrite long_bytes.
  change ((16444 >? 0) && (16444 <=? 16444)) with true. cbv iota zeta.
  change (search_preplaced long_schema 16444) with (lower (fun t => t <? u32 (Z.shiftl 16444 offset_shift)) (toks long_schema) 0 2).
  cbn [toks long_schema]. vm_compute. reflexivity.
Qed.
(** the schema is one that definitions give *)
Lemma long_reached :
  define (after [DPreplaced (nm 97) g_u32 false false None])
         (DImport (nm 98) (tag_from_offset 16380 g_bin512 64 false false) (Some (repeat 0 64)) false) =
  Defined (tag_from_offset 16380 g_bin512 64 false false)
    (mkSch [(nm 98, tag_from_offset 16380 g_bin512 64 false false); (nm 97, tag_from_offset 0 g_u32 4 false false)]
           [(tag_from_offset 16380 g_bin512 64 false false, nm 98); (tag_from_offset 0 g_u32 4 false false, nm 97)]
           (toks long_schema) (image long_schema) 2 0).
Proof. vm_compute. reflexivity. Qed.

(** ** C47: variable-length fields made by the schema lie on a multiple of four bytes, so that the
    reference kept there leads back to the payload. *)
Theorem C47_reference_resolves : forall ds s log t base payload,
  Forall wf_def ds -> Forall tame ds -> definitions empty_schema ds = Some (s, log) ->
  In t (map snd log) -> is_preplaced t = true -> tag2genus t < 4 ->
  base mod 4 = 0 -> payload mod 4 = 0 -> 0 <= payload - (base + tag2offset t) < 4 * 65536 ->
  payload_at (base + tag2offset t) (set_payload (base + tag2offset t) payload) = payload.
Proof.
  intros ds s log t base payload W TM H Ht P G B1 B2 R.
  apply in_map_iff in Ht. destruct Ht as (p & <- & Hp).
  pose proof (tame_log ds _ _ _ _ inv_empty W TM H p Hp P) as Rg.
  destruct Rg as [Rg|(G1 & _ & Rg)].
  { unfold g_hole in Rg. lia. }
  assert (E : width_align (tag2genus (snd p)) = 4) by (apply (width_cases _ G1); lia).
  rewrite E in Rg. unfold payload_at, set_payload, u16. lia.
Qed.
Example C47_case :
  let t := get_token (after some_defs) (nm 98) None None in
  Forall tame some_defs /\ is_preplaced t = true /\ tag2genus t = g_text /\ tag2offset t = 4 /\
  set_payload (1000 + tag2offset t) 1020 = 4 /\ payload_at (1000 + tag2offset t) 4 = 1020.
Proof. split; [repeat constructor|vm_compute; repeat split]. Qed.
(** Tokens made by hand and imported are taken at any offset; there the reference is off. *)
Theorem C47_reference_refuted : exists ds t base payload,
  Forall wf_def ds /\ log_of ds = [(nm 97, t)] /\ is_preplaced t = true /\ tag2genus t = g_text /\
  base mod 4 = 0 /\ payload mod 4 = 0 /\ 0 <= payload - (base + tag2offset t) < 4 * 65536 /\
  payload_at (base + tag2offset t) (set_payload (base + tag2offset t) payload) <> payload.
Proof.
  exists [DImport (nm 97) (tag_from_offset 1 g_text 4 false false) None false], (tag_from_offset 1 g_text 4 false false), 1000, 1020.
  split; [apply wf_defsb_ok; vm_compute; reflexivity|]. vm_compute. repeat split; congruence.
Qed.
(** The link to the tuple: what the tuple model asks of the layout holds for every such schema
    (the slots are whole units inside the preplaced part, pairwise different, and of a variable-length
    type), so that the theorems on histories of tuples hold for the tuples of every such schema. *)
Theorem C47_layout : forall ds s log units pvt,
  Forall wf_def ds -> Forall tame ds -> definitions empty_schema ds = Some (s, log) ->
  0 <= pvt -> pvt + preplaced_units s <= units <= 65534 ->
  fresh_ok units pvt (preplaced_units s) (length (slots s)) (slot_off s) (slot_type s) /\
  (forall i j, (i < length (slots s))%nat -> (j < length (slots s))%nat -> slot_off s i = slot_off s j -> i = j).
Proof.
  intros ds s log units pvt W TM H Hp Hf. pose proof (reached_schema _ _ _ W H) as I.
  assert (SL : forall j, (j < length (slots s))%nat -> let t := nth j (slots s) 0 in
            In t (toks s) /\ is_preplaced t = true /\ 0 <= tag2genus t < 4 /\
            tag2offset t mod 4 = 0 /\ 0 <= tag2offset t /\ tag2indysize t = 4 /\ tag2offset t + 4 <= bytes_of s).
  { intros j Hj t. assert (Ht : In t (slots s)) by (apply nth_In, Hj).
    unfold slots in Ht. apply filter_In in Ht. destruct Ht as (Ht & C). apply andb_prop in C. destruct C as (P & F).
    assert (R : tagrange t) by (apply (tb_range _ _ (si_table _ _ I) _ Ht)).
    destruct (tag_parts t R) as (G0 & _ & _ & O0 & _).
    assert (G : tag2genus t < 4).
    { unfold is_fixed_size in F. rewrite tag2genus_arith in *. apply Bool.negb_true_iff, Bool.negb_false_iff in F.
      assert (E : Z.land t 0xE000 = ((t / 2 ^ 13) mod 2 ^ 3) * 2 ^ 13).
      { replace t with ((t / 2 ^ 13) * 2 ^ 13 + t mod 2 ^ 13) at 1 by lia.
        change 0xE000 with ((2 ^ 3 - 1) * 2 ^ 13 + 0). rewrite land_split by lia. rewrite Z.land_0_r.
        rewrite (land_mask (t / 2 ^ 13) 3) by lia. lia. }
      rewrite E in F. unfold tagrange in R. lia. }
    assert (Hl : In t (map snd log)) by (apply (Permutation_in _ (si_perm _ _ I)), Ht).
    apply in_map_iff in Hl. destruct Hl as (p & E & Hl).
    pose proof (tame_log ds _ _ _ _ inv_empty W TM H p Hl) as Rg. rewrite E in Rg. specialize (Rg P).
    destruct Rg as [Rg|(G1 & Sz & Al)]; [unfold g_hole in Rg; lia|].
    assert (Ew : width_align (tag2genus t) = 4) by (apply (width_cases _ G1); lia). rewrite Ew in Al.
    assert (Sz4 : tag2indysize t = 4).
    { rewrite Sz. assert (tag2genus t = 0 \/ tag2genus t = 1 \/ tag2genus t = 2 \/ tag2genus t = 3)
        as [->|[->|[->| ->]]] by lia; reflexivity. }
    pose proof (si_image _ _ I t Ht P) as L. unfold ending in L.
    repeat split; try assumption; lia. }
  split.
  - constructor; try assumption.
    + unfold preplaced_units. pose proof (zlen_nonneg (image s)). unfold bytes2units, bytes_of.
      rewrite Z.shiftr_div_pow2 by lia. lia.
    + intros j Hj. destruct (SL j Hj) as (_ & _ & _ & A & O & _ & L). unfold slot_off, preplaced_units, bytes2units.
      rewrite Z.shiftr_div_pow2 by lia. lia.
    + intros j Hj. destruct (SL j Hj) as (_ & _ & G & _). exact G.
  - intros i j Hi Hj E. destruct (SL i Hi) as (I1 & P1 & G1 & A1 & O1 & S1 & _).
    destruct (SL j Hj) as (I2 & P2 & G2 & A2 & O2 & S2 & _). cbv zeta in *. unfold slot_off in E.
    assert (Eo : tag2offset (nth i (slots s) 0) = tag2offset (nth j (slots s) 0)) by lia.
    assert (Et : nth i (slots s) 0 = nth j (slots s) 0).
    { destruct (Z.eq_dec (nth i (slots s) 0) (nth j (slots s) 0)) as [|N]; [assumption|exfalso].
      apply (si_share _ _ I _ _ I1 I2 N P1 P2); unfold g_hole; try lia.
      exists (tag2offset (nth i (slots s) 0)). unfold ending. lia. }
    assert (ND : NoDup (slots s)).
    { apply NoDup_filter. pose proof (si_keys _ _ I) as K.
      assert (NoDup (map snd log)).
      { rewrite <- (map_map snd normalize_tag) in K. apply NoDup_map_inv in K. exact K. }
      apply (Permutation_NoDup (Permutation_sym (si_perm _ _ I))). assumption. }
    apply (proj1 (NoDup_nth (slots s) 0) ND); assumption.
Qed.
Theorem C47_read_your_writes_partial : forall ds s log multi units pvt d l,
  Forall wf_def ds -> Forall tame ds -> definitions empty_schema ds = Some (s, log) ->
  0 <= pvt -> pvt + preplaced_units s <= units <= 65534 ->
  let t0 := fresh units pvt (preplaced_units s) (length (slots s)) (slot_off s) (slot_type s) d in
  calm_run multi t0 l ->
  exists outs t1, run asis t0 l = Some (outs, t1) /\
    (forall j, (j < length (slots s))%nat -> get_slot t1 j = last_write (KP j) None (combine l outs)).
Proof.
  intros ds s log multi units pvt d l W TM H Hp Hf t0 C.
  destruct (C47_layout ds s log units pvt W TM H Hp Hf) as (F & _).
  destruct (C01_read_your_writes_partial multi _ _ _ _ _ _ d l F C) as (outs & t1 & R & _ & _ & G).
  exists outs, t1. split; assumption.
Qed.
Example C47_layout_case :
  Forall tame some_defs /\ length (slots (after some_defs)) = 2%nat /\ preplaced_units (after some_defs) = 5 /\
  map (slot_off (after some_defs)) [0; 1]%nat = [1; 4] /\ map (slot_type (after some_defs)) [0; 1]%nat = [g_text; g_varbin].
Proof. split; [repeat constructor|vm_compute; repeat split]. Qed.

(** ** C54: the initial values.  The image of the preplaced part keeps at each field the bytes given
    at its definition, or those of an absent value. *)
Lemma image_kept im e o n : 0 <= o -> o + n <= zlen im -> 0 <= n ->
  pread (fun x => tok (im ++ e) x) o n = pread (fun x => tok im x) o n.
Proof.
  intros H1 H2 H3. unfold pread. apply map_ext_in. intros i Hi. apply in_seq in Hi. unfold tok, zlen in *.
  apply app_nth1. lia.
Qed.
Lemma image_tail a b n : n = zlen b -> pread (fun x => tok (a ++ b) x) (zlen a) n = b.
Proof.
  intros ->. unfold pread, zlen. apply nth_ext with (d := 0) (d' := 0).
  - rewrite map_length, seq_length. lia.
  - intros i Hi. rewrite map_length, seq_length in Hi.
    rewrite (nth_table (fun i => tok (a ++ b) (Z.of_nat (length a) + Z.of_nat i))) by lia.
    unfold tok. rewrite app_nth2 by lia. f_equal. lia.
Qed.
Lemma initial_bytes ds1 ds2 s1 log1 n g disc sat init t s2 s3 log3 :
  Forall wf_def ds1 -> definitions empty_schema ds1 = Some (s1, log1) -> 0 <= g < 31 ->
  define_preplaced s1 n g disc sat init = Defined t s2 ->
  Forall wf_def ds2 -> Forall tame ds2 -> definitions s2 ds2 = Some (s3, log3) ->
  pread (image_bytes s3) (tag2offset t) (preplaced_bytes g) = starts_with g disc init.
Proof.
  intros W1 H1 G D W2 T2 H2. pose proof (reached_schema _ _ _ W1 H1) as I1.
  destruct (define_preplaced_inv s1 n g disc sat init t s2 ltac:(lia) D) as (A & _ & _ & O & R).
  pose proof (inv_step _ _ _ _ _ _ _ I1 R A) as I2.
  destruct (tame_history ds2 s2 _ s3 log3 I2 W2 T2 H2) as (e & E).
  destruct (define_preplaced_image s1 n g disc sat init t s2 ltac:(lia) D) as (Ot & _ & _ & _ & _ & _ & _ & Im).
  pose proof (zlen_nonneg (image s1)) as Z0.
  destruct (aligned_width (bytes_of s1) g Z0 G) as (_ & A2). rewrite <- Ot in A2.
  pose proof (starts_length g disc init G) as SL.
  unfold image_bytes. rewrite E, Im.
  set (a := image s1 ++ repeat 0 (Z.to_nat (tag2offset t - bytes_of s1))).
  assert (La : zlen a = tag2offset t).
  { unfold a, zlen. rewrite app_length, repeat_length. unfold bytes_of, zlen in *. lia. }
  rewrite (app_assoc (image s1)). fold a. pose proof (preplaced_bytes_pos g G).
  rewrite image_kept; try lia.
  - rewrite <- La. apply image_tail. lia.
  - unfold zlen in *. rewrite app_length. lia.
Qed.
Theorem C54_initial_values : forall ds1 ds2 s1 log1 n g disc sat init t s2 s3 log3,
  Forall wf_def ds1 -> definitions empty_schema ds1 = Some (s1, log1) -> 4 <= g <= 30 ->
  define_preplaced s1 n g disc sat init = Defined t s2 ->
  Forall wf_def ds2 -> Forall tame ds2 -> definitions s2 ds2 = Some (s3, log3) ->
  match init with
  | None => fixed_get g disc (image_bytes s3) (tag2offset t) =
              if disc then RAbsent else RVal (repeat 0 (Z.to_nat (preplaced_bytes g)))
  | Some v => zlen v = preplaced_bytes g -> fixed_get g false (image_bytes s3) (tag2offset t) = RVal v
  end.
Proof.
  intros ds1 ds2 s1 log1 n g disc sat init t s2 s3 log3 W1 H1 G D W2 T2 H2.
  assert (G31 : 0 <= g < 31) by lia.
  assert (E := initial_bytes _ _ _ _ _ _ _ _ _ _ _ _ _ W1 H1 G31 D W2 T2 H2).
  destruct init as [v|]; cbn [starts_with] in E.
  - intros L. unfold fixed_get. cbn [andb]. rewrite E. f_equal.
    apply nth_ext with (d := 0) (d' := 0).
    + unfold given. rewrite map_length, seq_length. unfold zlen in L. lia.
    + intros i Hi. unfold given in *. rewrite map_length, seq_length in Hi.
      rewrite (nth_table (fun i => nth i v 0)) by exact Hi. reflexivity.
  - destruct (fixed_preplaced_table g (image_bytes s3) (tag2offset t) (repeat 0 (Z.to_nat (preplaced_bytes g)))
      (image_bytes s3) G ltac:(apply repeat_length)) as (_ & F1 & F2).
    assert (Same : fixed_get g disc (image_bytes s3) (tag2offset t) =
      fixed_get g disc (fixed_erase g disc (image_bytes s3) (tag2offset t)) (tag2offset t)).
    { assert (Lf : length (erased g disc) = Z.to_nat (preplaced_bytes g)).
      { pose proof (erased_length g disc ltac:(lia)). unfold zlen in *. lia. }
      assert (Q : pread (fixed_erase g disc (image_bytes s3) (tag2offset t)) (tag2offset t) (preplaced_bytes g) = erased g disc).
      { apply pread_pwrite_all. exact Lf. }
      assert (Pre : forall m m', pread m (tag2offset t) (preplaced_bytes g) = pread m' (tag2offset t) (preplaced_bytes g) ->
                fixed_get g disc m (tag2offset t) = fixed_get g disc m' (tag2offset t)).
      { intros m m' Em. unfold fixed_get. rewrite Em. replace (is_denil g m (tag2offset t)) with (is_denil g m' (tag2offset t)); [reflexivity|].
        unfold is_denil. replace (pread m (tag2offset t) (denil_len g)) with (pread m' (tag2offset t) (denil_len g)); [reflexivity|].
        pose proof (denil_len_le g G) as Dl. apply nth_ext with (d := 0) (d' := 0); [rewrite !pread_length; reflexivity|].
        intros i Hi. rewrite pread_length in Hi. rewrite !pread_nth by exact Hi.
        rewrite <- (pread_nth m' (tag2offset t) (preplaced_bytes g) i 0) by lia. rewrite <- Em. apply pread_nth. lia. }
      apply Pre. rewrite E, Q. reflexivity. }
    rewrite Same. destruct disc; assumption.
Qed.
Example C54_case :
  let s := after some_defs in
  let t := get_token s (nm 101) None None in
  Forall tame some_defs /\ tag2offset t = 8 /\ fixed_get g_i64 true (image_bytes s) 8 = RVal [1; 2; 3; 4; 5; 6; 7; 8] /\
  fixed_get g_u8 false (image_bytes s) 0 = RVal [0].
Proof. split; [repeat constructor|vm_compute; repeat split]. Qed.
(** References start absent *)
Theorem C54_references_absent : forall ds1 ds2 s1 log1 n g disc sat t s2 s3 log3,
  Forall wf_def ds1 -> definitions empty_schema ds1 = Some (s1, log1) -> 0 <= g < 4 ->
  define_preplaced s1 n g disc sat None = Defined t s2 ->
  Forall wf_def ds2 -> Forall tame ds2 -> definitions s2 ds2 = Some (s3, log3) ->
  pread (image_bytes s3) (tag2offset t) 4 = [0; 0; 0; 0].
Proof.
  intros ds1 ds2 s1 log1 n g disc sat t s2 s3 log3 W1 H1 G D W2 T2 H2.
  assert (G31 : 0 <= g < 31) by lia.
  assert (E := initial_bytes ds1 ds2 s1 log1 n g disc sat None t s2 s3 log3 W1 H1 G31 D W2 T2 H2).
  cbn [starts_with] in E.
  assert (g = 0 \/ g = 1 \/ g = 2 \/ g = 3) as [->|[->|[->| ->]]] by lia; destruct disc; exact E.
Qed.
(** An imported token inside a region made earlier: its initial value is put at the end of the
    image, not at its offset. *)
Theorem C54_import_refuted : exists ds t v,
  Forall wf_def ds /\ In (nm 98, t) (log_of ds) /\ In (DImport (nm 98) t (Some v) false) ds /\
  tag2genus t = g_u32 /\ zlen v = 4 /\ v <> [0; 0; 0; 0] /\
  fixed_get g_u32 false (image_bytes (after ds)) (tag2offset t) = RVal [0; 0; 0; 0].
Proof.
  exists [DImport (nm 97) (tag_from_offset 0 g_hole 8 false false) (Some (repeat 0 8)) false;
          DImport (nm 98) (tag_from_offset 4 g_u32 4 false false) (Some [1; 2; 3; 4]) false],
         (tag_from_offset 4 g_u32 4 false false), [1; 2; 3; 4].
  split; [apply wf_defsb_ok; vm_compute; reflexivity|].
  split; [vm_compute; tauto|]. split; [right; left; reflexivity|]. vm_compute. repeat split; discriminate.
Qed.

Print Assumptions C22_names_and_tokens.
Print Assumptions C22_lookup_attributes.
Print Assumptions C22_storage.
Print Assumptions C22_accepted.
Print Assumptions C22_loose_limit.
Print Assumptions C22_import_closes_type_refuted.
Print Assumptions C22_opacity_refuted.
Print Assumptions C22_opacity_undefined_refuted.
Print Assumptions C22_opacity_refused_refuted.
Print Assumptions C22_import_order_refuted.
Print Assumptions C23_tables_sorted.
Print Assumptions C23_by_offset.
Print Assumptions C23_by_loose.
Print Assumptions C23_next_partial.
Print Assumptions C23_outside.
Print Assumptions C23_prev_partial.
Print Assumptions C23_by_offset_end_refuted.
Print Assumptions C23_next_refuted.
Print Assumptions C23_prev_undefined_refuted.
Print Assumptions C23_prev_wraps_refuted.
Print Assumptions C47_reference_resolves.
Print Assumptions C47_reference_refuted.
Print Assumptions C47_layout.
Print Assumptions C47_read_your_writes_partial.
Print Assumptions C54_initial_values.
Print Assumptions C54_references_absent.
Print Assumptions C54_import_refuted.
