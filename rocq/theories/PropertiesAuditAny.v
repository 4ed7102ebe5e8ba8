(** * The validator with references anywhere in the preplaced part (C11) *)
From Coq Require Import List ZArith Lia ZifyBool ZifyNat Permutation.
From Verif Require Import Base Tag TagProofs Hippeus HippeusProofs Scan ScanProofs Gear GearBase Audit AuditProofs PropertiesAudit.
From Verif Require Schema SchemaProofs PropertiesSchema.
Ltac Zify.zify_post_hook ::= Z.div_mod_to_equations.

(** ** Any schema at all *)
(** how many bytes the payload of an owner begins after a boundary of units *)
Definition slack (schema : option sch) (o : owner) : Z :=
  match o with Loose _ => 0 | Slot j => snd (nth j (toks_of schema) (31, 0)) mod 4 end.

Lemma extent_floor : forall m ptr schema o,
  fst (extent m ptr schema o) = ro_pivot m ptr + 4 * fst (span m ptr schema o) + slack schema o /\
  snd (extent m ptr schema o) = 4 * snd (span m ptr schema o) /\ 0 <= slack schema o < 4.
Proof.
  intros m ptr schema [k|j]; cbn [extent span slack fst snd].
  - unfold e_payload, e_start, entry_addr. lia.
  - set (t := nth j (toks_of schema) (31, 0)). unfold t_start, t_payload. generalize (t_rel m (ro_pivot m ptr) t). intros r. lia.
Qed.

(** Of any image of bytes and any schema, wherever it keeps its references: what is accepted has
    every payload and hole inside, after the preplaced part; and no byte is shared when every
    payload is moved back to the boundary of units before it. *)
Theorem C11_inside_for_any_schema : forall m ptr bytes schema info, bytes_mem m -> 0 <= pbytes_of schema ->
  snd (ro_audit m ptr bytes schema) = Good info ->
  let pivot := ro_pivot m ptr in
  (ptr <> 0 /\ 4 <= bytes /\ ptr + 4 + 4 * ro_index m ptr = pivot /\ pivot + pbytes_of schema <= ptr + bytes) /\
  (forall o, exists_owner m ptr schema o -> 0 < snd (extent m ptr schema o) ->
     pivot + pbytes_of schema <= fst (extent m ptr schema o) /\ fst (extent m ptr schema o) + snd (extent m ptr schema o) <= ptr + bytes) /\
  (forall o1 o2 x1 x2, exists_owner m ptr schema o1 -> exists_owner m ptr schema o2 -> o1 <> o2 ->
     fst (extent m ptr schema o1) <= x1 < fst (extent m ptr schema o1) + snd (extent m ptr schema o1) ->
     fst (extent m ptr schema o2) <= x2 < fst (extent m ptr schema o2) + snd (extent m ptr schema o2) ->
     x1 - slack schema o1 <> x2 - slack schema o2).
Proof.
  intros m ptr bytes schema info Hm S H pivot. unfold ro_audit in H. apply bindc_good in H as (u & L & H). destruct u.
  destruct (lite_checkup_good _ _ _ L) as (L1 & L2 & L3 & L4 & L5 & L6). pose proof (ro_index_range m ptr Hm) as IR.
  assert (PE : ro_end m ptr = ptr + bytes) by (unfold ro_end; lia). rewrite PE in H.
  assert (PV : ptr + 4 + 4 * ro_index m ptr = pivot) by reflexivity. fold pivot in H, L6.
  assert (max_tuple_bytes_netto = 262136) by reflexivity.
  assert (A1 : 0 <= ptr + bytes - pivot <= 4 * 65535) by lia. assert (A2 : (ptr + bytes - pivot) mod 4 = 0) by lia.
  destruct (audit_tuple_sound m schema pivot _ _ _ _ Hm A1 A2 S H) as (I & F & G & T). cbv zeta in T.
  set (n := Z.to_nat (ro_index m ptr)) in *. set (P := (ptr + bytes - pivot) / 4) in *. set (pre := bytes2units (pbytes_of schema)) in *.
  set (total := fun x => cover_upto m pivot n x + (if pbytes_of schema =? 0 then 0 else cover_toks m pivot (toks_of schema) x)) in *.
  assert (HP : pbytes_of schema <= ptr + bytes - pivot).
  { destruct (Z.eq_dec (pbytes_of schema) 0) as [->|N]; [lia|apply (proj1 (G N))]. }
  assert (T' : forall x, total x <= 1 /\ (0 < total x -> pre <= x < P)).
  { destruct T as [T|[T0 T]]; intros x; specialize (T x); fold (total x) in T; rewrite T; [lia|].
    pose proof (ind_range pre (P - pre) x). split; [lia|]. intros Q. pose proof (ind_1_inv pre (P - pre) x ltac:(lia)). lia. }
  assert (NN : forall x k, (k < n)%nat -> 0 <= (fun k => ind (e_start m pivot k) (e_units m pivot k) x) k).
  { intros x k _. pose proof (ind_range (e_start m pivot k) (e_units m pivot k) x). cbv beta. lia. }
  assert (CN : forall x, 0 <= cover_toks m pivot (toks_of schema) x) by (intros; apply cover_toks_nonneg).
  assert (CU : forall x, 0 <= cover_upto m pivot n x).
  { intros x. unfold cover_upto. clear. induction n as [|n IH]; cbn [sumn]; [lia|]. pose proof (ind_range (e_start m pivot n) (e_units m pivot n) x). lia. }
  assert (SP1 : forall o x, exists_owner m ptr schema o -> ind (fst (span m ptr schema o)) (snd (span m ptr schema o)) x <= total x).
  { intros [k|j] x E; cbn [span fst snd exists_owner] in *; fold pivot; unfold total.
    - pose proof (sumn_one n _ k (NN x) ltac:(lia)) as Q. cbv beta in Q. fold (cover_upto m pivot n x) in Q. specialize (CN x).
      destruct (pbytes_of schema =? 0); lia.
    - destruct E as [E0 E1]. replace (pbytes_of schema =? 0) with false by lia.
      pose proof (cover_toks_nth m pivot _ j x E1). specialize (CU x). lia. }
  assert (SP2 : forall o1 o2 x, exists_owner m ptr schema o1 -> exists_owner m ptr schema o2 -> o1 <> o2 ->
    ind (fst (span m ptr schema o1)) (snd (span m ptr schema o1)) x + ind (fst (span m ptr schema o2)) (snd (span m ptr schema o2)) x <= total x).
  { intros [k1|j1] [k2|j2] x E1 E2 N; cbn [span fst snd exists_owner] in *; fold pivot; unfold total.
    - assert (k1 <> k2) by congruence. specialize (CN x).
      assert (Q : ind (e_start m pivot k1) (e_units m pivot k1) x + ind (e_start m pivot k2) (e_units m pivot k2) x <= cover_upto m pivot n x).
      { destruct (Nat.lt_total k1 k2) as [L0|[L0|L0]]; [|lia|].
        - apply (sumn_two n (fun k => ind (e_start m pivot k) (e_units m pivot k) x) k1 k2 (NN x)); lia.
        - rewrite Z.add_comm. apply (sumn_two n (fun k => ind (e_start m pivot k) (e_units m pivot k) x) k2 k1 (NN x)); lia. }
      destruct (pbytes_of schema =? 0); lia.
    - destruct E2 as [E0 E2]. replace (pbytes_of schema =? 0) with false by lia. pose proof (cover_toks_nth m pivot _ j2 x E2).
      pose proof (sumn_one n _ k1 (NN x) ltac:(lia)) as Q. cbv beta in Q. fold (cover_upto m pivot n x) in Q. lia.
    - destruct E1 as [E0 E1]. replace (pbytes_of schema =? 0) with false by lia. pose proof (cover_toks_nth m pivot _ j1 x E1).
      pose proof (sumn_one n _ k2 (NN x) ltac:(lia)) as Q. cbv beta in Q. fold (cover_upto m pivot n x) in Q. lia.
    - destruct E1 as [E0 E1], E2 as [_ E2]. replace (pbytes_of schema =? 0) with false by lia. assert (j1 <> j2) by congruence. specialize (CU x).
      destruct (Nat.lt_total j1 j2) as [L0|[L0|L0]]; [|lia|].
      + pose proof (cover_toks_two m pivot (toks_of schema) j1 j2 x ltac:(lia)). lia.
      + pose proof (cover_toks_two m pivot (toks_of schema) j2 j1 x ltac:(lia)). lia. }
  split; [lia|]. split.
  - intros o E L0. destruct (extent_floor m ptr schema o) as (X1 & X2 & X3). split.
    + set (a := fst (span m ptr schema o)) in *. pose proof (SP1 o a E) as Q1. fold a in Q1. rewrite ind_1 in Q1 by lia.
      pose proof (proj2 (T' a) ltac:(lia)) as R1. unfold pre in R1. rewrite bytes2units_div in R1. fold pivot in X1. lia.
    + destruct o as [k|j].
      * cbn [exists_owner extent snd fst] in *. fold pivot in L0 |- *. destruct (F k ltac:(lia)) as [F1 F2].
        pose proof (F1 ltac:(lia)) as R. apply (F2 R). unfold e_units in L0. destruct (is_inplaced_genus (e_genus m pivot k)); [lia|reflexivity].
      * cbn [exists_owner extent snd fst] in *. fold pivot in L0 |- *. destruct E as [E0 E1].
        pose proof (nth_In _ (31, 0) E1) as In1. set (t := nth j (toks_of schema) (31, 0)) in *.
        apply (proj2 (G E0) t In1); unfold t_units in L0; destruct (fst t >? g_property) eqn:EG; try lia.
        destruct (t_rel m pivot t =? 0) eqn:ER; lia.
  - intros o1 o2 x1 x2 E1 E2 N X1 X2 X.
    destruct (extent_floor m ptr schema o1) as (A11 & A12 & A13). destruct (extent_floor m ptr schema o2) as (B1 & B2 & B3).
    rewrite A11, A12 in X1. rewrite B1, B2 in X2. pose proof (SP2 o1 o2 ((x1 - slack schema o1 - pivot) / 4) E1 E2 N) as Q. fold pivot in X1, X2.
    rewrite !ind_1 in Q by lia. pose proof (proj1 (T' ((x1 - slack schema o1 - pivot) / 4))). lia.
Qed.

(** ** Schemas made by definitions *)
(** what the validator sees of a schema.  src: audit.cxx:240, 274-280; schema.h: tokens(),
    preplaced_bytes(); the loop ends at the first token that is not preplaced *)
Definition seen (s : Schema.schema) : sch :=
  mkSch (Schema.bytes_of s) (map (fun t => (tag2genus t, tag2offset t)) (Schema.take_while is_preplaced (Schema.toks s))).

Lemma take_while_in : forall p l x, In x (Schema.take_while p l) -> In x l /\ p x = true.
Proof.
  induction l as [|y l IH]; intros x H; cbn [Schema.take_while] in H; [destruct H|]. destruct (p y) eqn:E; [|destruct H].
  destruct H as [<-|H]; [split; [left; reflexivity|exact E]|]. destruct (IH x H) as [A B]. split; [right; exact A|exact B].
Qed.
Lemma seen_sound : forall ds s log,
  Forall SchemaProofs.wf_def ds -> Forall SchemaProofs.tame ds -> Schema.definitions Schema.empty_schema ds = Some (s, log) ->
  sound_schema (Some (seen s)).
Proof.
  intros ds s log W TM H. pose proof (SchemaProofs.reached_schema _ _ _ W H) as I. split.
  - cbn [pbytes_of seen sbytes]. unfold Schema.bytes_of, Schema.zlen. lia.
  - cbn [pbytes_of toks_of seen sbytes stoks]. intros p Hp G. apply in_map_iff in Hp as (t & <- & Ht). apply take_while_in in Ht as [Ht P].
    cbn [fst snd] in *. change g_property with 3 in G.
    assert (R : SchemaProofs.tagrange t) by (apply (SchemaProofs.tb_range _ _ (SchemaProofs.si_table _ _ I) _ Ht)).
    destruct (SchemaProofs.tag_parts t R) as (G0 & _ & _ & O0 & _).
    assert (Hl : In t (map snd log)) by (apply (Permutation_in _ (SchemaProofs.si_perm _ _ I)), Ht).
    apply in_map_iff in Hl as (q & E & Hl).
    pose proof (SchemaProofs.tame_log ds _ _ _ _ SchemaProofs.inv_empty W TM H q Hl) as Rg. rewrite E in Rg. specialize (Rg P).
    destruct Rg as [Rg|(G1 & Sz & Al)]; [unfold g_hole in Rg; lia|].
    assert (Ew : SchemaProofs.width_align (tag2genus t) = 4) by (apply (SchemaProofs.width_cases _ G1); lia). rewrite Ew in Al.
    assert (Sz4 : tag2indysize t = 4).
    { rewrite Sz. assert (tag2genus t = 0 \/ tag2genus t = 1 \/ tag2genus t = 2 \/ tag2genus t = 3)
        as [->|[->|[->| ->]]] by lia; reflexivity. }
    pose proof (SchemaProofs.si_image _ _ I t Ht P) as L. unfold SchemaProofs.ending in L. repeat split; try assumption; lia.
Qed.

(** The fields that the schema itself places: what is accepted has no byte shared. *)
Theorem C11_disjoint_for_defined_fields : forall ds s log m ptr bytes info,
  Forall SchemaProofs.wf_def ds -> Forall SchemaProofs.tame ds -> Schema.definitions Schema.empty_schema ds = Some (s, log) ->
  bytes_mem m -> snd (ro_audit m ptr bytes (Some (seen s))) = Good info ->
  forall o1 o2 x, exists_owner m ptr (Some (seen s)) o1 -> exists_owner m ptr (Some (seen s)) o2 -> o1 <> o2 ->
    ~ (fst (extent m ptr (Some (seen s)) o1) <= x < fst (extent m ptr (Some (seen s)) o1) + snd (extent m ptr (Some (seen s)) o1) /\
       fst (extent m ptr (Some (seen s)) o2) <= x < fst (extent m ptr (Some (seen s)) o2) + snd (extent m ptr (Some (seen s)) o2)).
Proof.
  intros ds s log m ptr bytes info W TM H Hm A.
  destruct (C11_extents_inside_and_disjoint m ptr bytes (Some (seen s)) info Hm (seen_sound _ _ _ W TM H) A) as (_ & _ & D & _). exact D.
Qed.

(** ** Imported tokens *)
(** A field imported at offset 2 and another made after it, at offset 8: the first text is at bytes
    14-17 of the payload, the second at bytes 16-19, and the validator counts the first from
    byte 12.  (The subtraction of misaligned pointers is undefined; it is modelled as the
    arithmetical shift that compilers make of it.) *)
Definition odd_defs : list Schema.def :=
  [Schema.DImport (PropertiesSchema.nm 97) (tag_from_offset 2 g_text 4 false false) None false;
   Schema.DPreplaced (PropertiesSchema.nm 98) g_text false false None].
Definition odd_schema : sch := seen (PropertiesSchema.after odd_defs).
Definition odd_image : list Z :=
  [6; 0; 2; 0;  0; 0; 3; 0;  0; 0; 0; 0;  2; 0; 0; 0;  0; 0; 3; 97;  3; 98; 99; 100].
Theorem C11_imported_reference_refuted : exists ds s log m ptr bytes info o1 o2 x,
  Forall SchemaProofs.wf_def ds /\ Schema.definitions Schema.empty_schema ds = Some (s, log) /\ bytes_mem m /\
  snd (ro_audit m ptr bytes (Some (seen s))) = Good info /\
  exists_owner m ptr (Some (seen s)) o1 /\ exists_owner m ptr (Some (seen s)) o2 /\ o1 <> o2 /\
  fst (extent m ptr (Some (seen s)) o1) <= x < fst (extent m ptr (Some (seen s)) o1) + snd (extent m ptr (Some (seen s)) o1) /\
  fst (extent m ptr (Some (seen s)) o2) <= x < fst (extent m ptr (Some (seen s)) o2) + snd (extent m ptr (Some (seen s)) o2).
Proof.
  destruct (Schema.definitions Schema.empty_schema odd_defs) as [[s log]|] eqn:E; [|vm_compute in E; discriminate].
  assert (Q : seen s = mkSch 12 [(0, 2); (0, 8)]) by (vm_compute in E; injection E as <- <-; vm_compute; reflexivity).
  exists odd_defs, s, log, (img odd_image 4096), 4096, 24, (0, 0), (Slot 0), (Slot 1), 4116. rewrite Q.
  split; [apply PropertiesSchema.wf_defsb_ok; vm_compute; reflexivity|]. split; [exact E|].
  split; [apply img_bytes; repeat constructor; lia|]. split; [vm_compute; reflexivity|].
  split; [vm_compute; split; [discriminate|lia]|]. split; [vm_compute; split; [discriminate|lia]|]. split; [discriminate|].
  vm_compute. repeat split; congruence.
Qed.

(** such an image meets the theorem of inside *)
Example C11_any_schema_case :
  bytes_mem (img odd_image 4096) /\ snd (ro_audit (img odd_image 4096) 4096 24 (Some odd_schema)) = Good (0, 0) /\
  map (extent (img odd_image 4096) 4096 (Some odd_schema)) [Slot 0; Slot 1] = [(4114, 4); (4116, 4)] /\
  map (slack (Some odd_schema)) [Slot 0; Slot 1] = [2; 0].
Proof. split; [apply img_bytes; repeat constructor; lia|]. vm_compute. repeat split. Qed.
Definition even_defs : list Schema.def :=
  [Schema.DPreplaced (PropertiesSchema.nm 97) g_u16 false false None; Schema.DPreplaced (PropertiesSchema.nm 98) g_text false false None;
   Schema.DLoose (PropertiesSchema.nm 99) g_u32 false false false].
Definition even_image : list Z := [6; 0; 10; 0;  3; 0; 0; 8 * g_u32;  7; 0; 0; 0;  2; 0; 0; 0;  1; 2; 3; 4;  3; 98; 99; 100].
Example C11_defined_case : exists s log, Schema.definitions Schema.empty_schema even_defs = Some (s, log) /\
  Forall SchemaProofs.wf_def even_defs /\ Forall SchemaProofs.tame even_defs /\
  seen s = mkSch 8 [(7, 0); (0, 4)] /\ bytes_mem (img even_image 4096) /\
  snd (ro_audit (img even_image 4096) 4096 24 (Some (mkSch 8 [(7, 0); (0, 4)]))) = Good (0, 0) /\
  map (extent (img even_image 4096) 4096 (Some (mkSch 8 [(7, 0); (0, 4)]))) [Loose 0; Slot 1] = [(4112, 4); (4116, 4)].
Proof.
  destruct (Schema.definitions Schema.empty_schema even_defs) as [[s log]|] eqn:E; [|vm_compute in E; discriminate].
  exists s, log. split; [reflexivity|]. split; [apply PropertiesSchema.wf_defsb_ok; vm_compute; reflexivity|]. split; [repeat constructor|].
  split; [vm_compute in E; injection E as <- <-; vm_compute; reflexivity|]. split; [apply img_bytes; repeat constructor; unfold g_u32; lia|].
  vm_compute. split; reflexivity.
Qed.

Print Assumptions C11_inside_for_any_schema.
Print Assumptions C11_disjoint_for_defined_fields.
Print Assumptions C11_imported_reference_refuted.
