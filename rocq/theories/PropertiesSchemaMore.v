(** * Property theorems: the throwing lookups and the shorthands of definitions (C22, continued). *)
From Coq Require Import List.
From Verif Require Import Base Tag TagProofs Gear GearBase Tuple Schema SchemaProofs PropertiesSchema SchemaMore.
From Coq Require Import ZifyBool ZifyNat Permutation.
Ltac Zify.zify_post_hook ::= Z.div_mod_to_equations.

(** a token that denotes the same field as the invalid one *)
Definition blank (t : Z) : bool := tag_same t 0.
(** a call that does not bring in such a token from outside *)
Definition proper (d : def) : Prop :=
  match d with DImport _ ident _ false => blank ident = false | _ => True end.

Lemma bytes_positive g : 0 <= g < 31 -> 0 < preplaced_bytes g.
Proof.
  intros H. unfold preplaced_bytes.
  destruct g as [|p|p]; try lia.
  do 5 (destruct p as [p|p|]; try lia).
Qed.
Lemma blank_val t : blank t = (normalize_tag t =? 3 * 2 ^ 16).
Proof. reflexivity. Qed.
Lemma preplaced_not_blank off g d s t : - 2 ^ 63 <= off < 2 ^ 63 -> 0 <= g ->
  token_preplaced off g d s = Some t -> blank t = false.
Proof.
  intros Ho Hg E. rewrite blank_val, (token_preplaced_normal off g d s t E Ho Hg).
  destruct (token_preplaced_val off g d s t E Ho Hg) as (A & B & _).
  pose proof (preplaced_bytes_bound g) as PB.
  destruct (Z.eq_dec g 0) as [->|N].
  - pose proof (bytes_positive 0 ltac:(lia)). lia.
  - lia.
Qed.
Lemma loose_not_blank t : tagrange t -> is_preplaced t = false -> blank t = false.
Proof.
  intros R P. rewrite blank_val.
  destruct (normalize_tag t =? 3 * 2 ^ 16) eqn:E; [|reflexivity]. exfalso.
  assert (N : normalize_tag t = normalize_tag 0) by (change (normalize_tag 0) with (3 * 2 ^ 16); lia).
  unfold tagrange in R. unfold is_preplaced in P.
  rewrite normalize_loose in N by lia. change (normalize_tag 0) with (3 * 2 ^ 16) in N. lia.
Qed.
Lemma genus_not_blank t : tagrange t -> tag2genus t <> 0 -> blank t = false.
Proof.
  intros R G. destruct (is_preplaced t) eqn:P; [|apply loose_not_blank; assumption].
  rewrite blank_val. destruct (normalize_tag t =? 3 * 2 ^ 16) eqn:E; [|reflexivity]. exfalso. apply G.
  unfold is_preplaced in P. unfold tagrange in R. rewrite normalize_preplaced in E by lia.
  assert (M : t mod 2 ^ 16 = 0) by lia. clear - M R.
  rewrite tag2genus_arith, M. reflexivity.
Qed.

Lemma define_not_blank s d t s' : (forall e, In e (toks s) -> tagrange e) -> wf_def d -> proper d ->
  define s d = Defined t s' -> blank t = false.
Proof.
  intros R W P H. destruct d as [n g di sa init|n size al init|n g c di sa|n ident init ren]; cbn [define wf_def proper] in *.
  - apply define_preplaced_inv in H as (_ & _ & A & B & _); [|exact W]. apply preplaced_not_blank in A; lia || exact A.
  - apply define_opacity_inv in H as (_ & A & _ & B & _); [|apply W|apply W].
    apply genus_not_blank; [exact A|]. rewrite B. discriminate.
  - apply define_loose_inv in H as (_ & A & B); [|exact W|exact R]. apply loose_not_blank; assumption.
  - unfold import_definition in H. pose proof (tag_parts _ W) as TP. destruct ren; cbn [negb] in H.
    + destruct (is_preplaced ident).
      * destruct (tag2genus ident =? g_hole); [discriminate|].
        apply define_preplaced_inv in H as (_ & _ & A & B & _); [|lia]. apply preplaced_not_blank in A; lia || exact A.
      * apply define_loose_inv in H as (_ & A & B); [|lia|exact R]. apply loose_not_blank; assumption.
    + pose proof (add_defined _ _ _ _ _ _ H) as (-> & _). exact P.
Qed.

Lemma definitions_not_blank ds : forall s log0 s' log, SInv s log0 -> Forall wf_def ds -> Forall proper ds ->
  definitions s ds = Some (s', log) -> forall n t, In (n, t) log -> blank t = false.
Proof.
  induction ds as [|d r IH]; intros s log0 s' log I W P H n t Ht; cbn in H.
  - injection H as <- <-. destruct Ht.
  - pose proof (Forall_inv W) as W1. pose proof (Forall_inv_tail W) as W2.
    pose proof (Forall_inv P) as P1. pose proof (Forall_inv_tail P) as P2.
    destruct (define s d) as [u s1| |] eqn:E; [|eapply IH; eassumption|discriminate].
    destruct (definitions s1 r) as [(s2, l2)|] eqn:E2; [|discriminate]. injection H as <- <-.
    assert (TR : forall e, In e (toks s) -> tagrange e) by (apply (tb_range _ _ (si_table _ _ I))).
    destruct Ht as [Q|Ht].
    + injection Q as _ ->. apply (define_not_blank _ _ _ _ TR W1 P1 E).
    + assert (I1 : SInv s1 (log0 ++ [(def_name d, u)])).
      { apply (definitions_inv [d] s log0 s1 [(def_name d, u)] I).
        - constructor; [exact W1|constructor].
        - cbn. rewrite E. reflexivity. }
      exact (IH _ _ _ _ I1 W2 P2 E2 n t Ht).
Qed.

(** ** C22, the throwing lookups: every defined name is found with the attributes asked for, and its
    token leads back to it; every other name and every token of no defined field throws. *)
Theorem C22_throwing_lookup : forall ds s log di sa,
  Forall wf_def ds -> Forall proper ds -> definitions empty_schema ds = Some (s, log) ->
  (forall n t, In (n, t) log -> exists u, token_or_throw s n di sa = Some u /\
     u = enforce sa enforce_saturation (enforce di enforce_discernible_null t) /\
     tag_same u t = true /\ name_or_throw s u = Some n) /\
  (forall n, ~ In n (map fst log) -> token_or_throw s n di sa = None) /\
  (forall t, (forall n u, In (n, u) log -> tag_same u t = false) -> name_or_throw s t = None).
Proof.
  intros ds s log di sa W P H. pose proof (reached_schema _ _ _ W H) as I.
  split; [|split].
  - intros n t Ht. destruct (C22_lookup_attributes ds s log n t di sa W H Ht) as (E & N).
    exists (get_token s n di sa).
    assert (S : tag_same (get_token s n di sa) t = true).
    { rewrite E.
      assert (R : tagrange t).
      { apply (tb_range _ _ (si_table _ _ I)). apply (Permutation_in _ (Permutation_sym (si_perm _ _ I))).
        apply in_map_iff. exists (n, t). split; [reflexivity|exact Ht]. }
      unfold tag_same. destruct di as [b1|], sa as [b2|]; cbn [enforce].
      - destruct (enforce_null_keeps t b1 R) as (R1 & E1). destruct (enforce_sat_keeps _ b2 R1) as (_ & E2). lia.
      - destruct (enforce_null_keeps t b1 R) as (_ & E1). lia.
      - destruct (enforce_sat_keeps t b2 R) as (_ & E2). lia.
      - lia. }
    split; [|split; [exact E|split; [exact S|unfold name_or_throw; rewrite N; reflexivity]]].
    unfold token_or_throw, token_valid.
    destruct (get_token s n di sa =? 0) eqn:Z0; [exfalso|reflexivity].
    apply Z.eqb_eq in Z0. rewrite Z0 in S.
    pose proof (definitions_not_blank ds _ [] s log inv_empty W P H n t Ht) as B.
    unfold blank, tag_same in *. lia.
  - intros n Hn. unfold token_or_throw. rewrite (proj2 (get_token_spec s log n di sa I) Hn). reflexivity.
  - intros t Ht. unfold name_or_throw.
    rewrite (proj2 (get_name_spec s log t I)); [reflexivity|].
    intros n u Hu. specialize (Ht n u Hu). unfold tag_same in Ht. lia.
Qed.
Lemma proper_some : Forall proper some_defs.
Proof. unfold some_defs. repeat constructor. Qed.
Example C22_throwing_case :
  Forall wf_def some_defs /\ Forall proper some_defs /\
  definitions empty_schema some_defs = Some (after some_defs, log_of some_defs) /\
  (exists u, token_or_throw (after some_defs) (nm 101) (Some false) None = Some u /\
     is_discernible_null u = false /\ is_saturated u = true /\ tag2genus u = g_i64) /\
  token_or_throw (after some_defs) (nm 120) None None = None /\
  name_or_throw (after some_defs) 0 = None.
Proof.
  split; [apply wf_defsb_ok; vm_compute; reflexivity|]. split; [exact proper_some|].
  split; [exact some_defs_run|].
  split; [eexists; vm_compute; repeat split; reflexivity|]. vm_compute. repeat split.
Qed.

(** Without that condition on imports it fails: the invalid token can be imported under a name
    into an empty schema (with an initial value of no bytes); the name is then taken, the token
    leads to it, and the lookup of the name throws. *)
Theorem C22_throwing_lookup_refuted : exists ds s log n t,
  Forall wf_def ds /\ definitions empty_schema ds = Some (s, log) /\ In (n, t) log /\
  name_or_throw s t = Some n /\ token_or_throw s n None None = None /\
  (forall di sa init, define_preplaced s n g_u32 di sa init = Refused).
Proof.
  exists [DImport (nm 97) 0 (Some []) false], (after [DImport (nm 97) 0 (Some []) false]), [(nm 97, 0)], (nm 97), 0.
  split; [repeat constructor; cbn; unfold tagrange; lia|].
  split; [vm_compute; reflexivity|]. split; [left; reflexivity|].
  split; [vm_compute; reflexivity|]. split; [vm_compute; reflexivity|].
  intros [|] [|] init; vm_compute; reflexivity.
Qed.

(** The shorthands: [define_field] gives a field of the kind, type and attributes asked for that is
    no collection, [define_collection] a loose collection. *)
Theorem C22_shorthands : forall ds s log n g di sa t s',
  Forall wf_def ds -> definitions empty_schema ds = Some (s, log) -> 0 <= g <= 31 ->
  (forall pre, define_field s pre n g di sa = Defined t s' ->
     is_preplaced t = pre /\ is_loose_collection t = false /\ tag2genus t = g /\ g <> g_hole /\
     is_discernible_null t = di /\ is_saturated t = sa /\
     token_or_throw s' n None None = Some t /\ name_or_throw s' t = Some n) /\
  (define_collection s n g di sa = Defined t s' ->
     is_preplaced t = false /\ is_loose_collection t = true /\ tag2genus t = g /\ g <> g_hole /\
     is_discernible_null t = di /\ is_saturated t = sa /\
     token_or_throw s' n None None = Some t /\ name_or_throw s' t = Some n).
Proof.
  intros ds s log n g di sa t s' W H G. pose proof (reached_schema _ _ _ W H) as I.
  assert (TR : forall e, In e (toks s) -> tagrange e) by (apply (tb_range _ _ (si_table _ _ I))).
  assert (K : forall d, wf_def d -> proper d -> def_name d = n -> define s d = Defined t s' ->
            token_or_throw s' n None None = Some t /\ name_or_throw s' t = Some n).
  { intros d Wd Pd Nd D.
    pose proof (define_not_blank _ _ _ _ TR Wd Pd D) as B.
    assert (I1 : SInv s' (log ++ [(n, t)])).
    { apply (definitions_inv [d] s log s' [(n, t)] I).
      - constructor; [exact Wd|constructor].
      - cbn. rewrite D, Nd. reflexivity. }
    assert (M : In (n, t) (log ++ [(n, t)])) by (apply in_or_app; right; left; reflexivity).
    split.
    - unfold token_or_throw, token_valid.
      rewrite (proj1 (get_token_spec s' _ n None None I1) t M). cbn [enforce].
      destruct (t =? 0) eqn:Z0; [exfalso|reflexivity]. apply Z.eqb_eq in Z0. subst t. discriminate B.
    - unfold name_or_throw. rewrite (proj1 (get_name_spec s' _ t I1) n t M eq_refl). reflexivity. }
  assert (L : forall c, define_loose s n g c di sa = Defined t s' ->
     is_preplaced t = false /\ is_loose_collection t = c /\ tag2genus t = g /\ g <> g_hole /\
     is_discernible_null t = di /\ is_saturated t = sa /\
     token_or_throw s' n None None = Some t /\ name_or_throw s' t = Some n).
  { intros c D. pose proof (K (DLoose n g c di sa) G Logic.I eq_refl D) as (K1 & K2).
    unfold define_loose in D. destruct (g >=? g_hole) eqn:E1; [discriminate|]. cbv zeta in D.
    destruct (get_next_loose_id s g >=? loose_end); [discriminate|].
    destruct (token_loose g (get_next_loose_id s g) c di sa) as [ident|] eqn:E3; [|discriminate].
    pose proof (add_defined _ _ _ _ _ _ D) as (Q & _). subst ident.
    assert (N0 : 0 <= get_next_loose_id s g).
    { destruct (next_id_fresh s log g I ltac:(change g_hole with 31 in E1; lia)) as (_ & [->|(e & E4 & _ & _ & ->)]); [lia|].
      pose proof (tag_parts e (TR e E4)). lia. }
    destruct (token_loose_fields _ _ _ _ _ _ E3 ltac:(lia) N0) as (_ & A2 & A3 & _ & A5 & A6 & A7).
    repeat (split; [assumption || lia|]). exact K2. }
  split.
  - intros [|] D; unfold define_field in D.
    + pose proof (K (DPreplaced n g di sa None) G Logic.I eq_refl D) as (K1 & K2).
      apply define_preplaced_inv in D as (_ & B & E3 & O & _); [|exact G].
      destruct (token_preplaced_fields _ _ _ _ _ E3 ltac:(lia) ltac:(lia)) as (A1 & _ & _ & A3 & _ & _ & A5 & A6 & A7).
      change g_hole with 31. repeat (split; [assumption || lia|]). exact K2.
    + apply L, D.
  - intros D. apply L, D.
Qed.
Example C22_shorthands_case :
  (exists t s', define_field (after some_defs) true (nm 110) g_u32 true false = Defined t s' /\ tag2offset t = 20) /\
  (exists t s', define_field (after some_defs) false (nm 110) g_u32 true false = Defined t s' /\ tag2id t = 3) /\
  (exists t s', define_collection (after some_defs) (nm 110) g_u32 true false = Defined t s' /\ tag2id t = 3) /\
  define_collection (after some_defs) (nm 97) g_u32 true false = Refused.
Proof.
  split; [eexists; eexists; split; [vm_compute; reflexivity|reflexivity]|].
  split; [eexists; eexists; split; [vm_compute; reflexivity|reflexivity]|].
  split; [eexists; eexists; split; [vm_compute; reflexivity|reflexivity]|].
  vm_compute. reflexivity.
Qed.

Print Assumptions C22_throwing_lookup.
Print Assumptions C22_throwing_lookup_refuted.
Print Assumptions C22_shorthands.
