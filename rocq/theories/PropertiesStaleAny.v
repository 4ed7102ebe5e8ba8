(** * Views taken of a modifiable tuple, after calls of any kind: C90 *)
From Coq Require Import List ZArith Lia ZifyBool ZifyNat.
From Verif Require Import Base Tag TagProofs Codec Gear GearBase GearSearch GearProofs GearOpt GearOptProofs Tuple TupleProofs TupleSteps TupleView TupleOps TupleHist TupleQuiet
  Hippeus HippeusProofs Scan PropertiesTuple PropertiesOpt Audit AuditProofs Image ImageProofs PropertiesImage Stale StaleProofs StaleTwin PropertiesStale.
From Verif Require WanderProofs.
Ltac Zify.zify_post_hook ::= Z.div_mod_to_equations.

Lemma run_shaped multi l : forall s outs s', TInv s -> uniq multi s -> calm_run multi s l -> run asis s l = Some (outs, s') -> shaped s s'.
Proof.
  induction l as [|o l IH]; intros s outs s' T U C R; cbn [run calm_run] in *; [injection R as <- <-; apply shaped_refl|].
  destruct C as (V & Cm & C). pose proof (step multi s o T U V Cm) as St. destruct (run1 asis s o) as [[] s1|s1|] eqn:E; [| |contradiction].
  - destruct (run asis s1 l) as [[o1 s2]|] eqn:R1; [|discriminate]. cbn [option_map fst snd] in R. injection R as <- <-.
    eapply shaped_trans; [exact (step_shaped multi s o s1 T V Cm E)|]. exact (IH s1 o1 s2 (p_inv _ _ _ _ St) (p_uniq _ _ _ _ St) C R1).
  - subst s1. destruct (run asis s l) as [[o1 s2]|] eqn:R1; [|discriminate]. cbn [option_map fst snd] in R. injection R as <- <-. exact (IH s o1 s2 T U C R1).
Qed.

(** the unit of the buffer in which the header of the view was put is as it was *)
Definition header_kept (s s' : st) : Prop := memory s' (head s - 1) = memory (take s) (head s - 1).

Lemma left_calls multi s l outs s' : TInv s -> uniq multi s -> calm_run multi (take s) l -> run asis (take s) l = Some (outs, s') ->
  header_kept s s' -> (cnt s' <= cnt s)%nat -> left_of (cnt s) (take s) s'.
Proof.
  intros T U C R K Hc. destruct (WanderProofs.run_keeps multi l (take s) (take_inv s T) (take_uniq multi s U) C) as (outs1 & s1 & R1 & _ & _ & Ks).
  rewrite R in R1. assert (s1 = s') by congruence. subst s1.
  destruct (run_shaped multi l (take s) outs s' (take_inv s T) (take_uniq multi s U) C R) as (_ & c1 & c2 & c3 & c4 & c5).
  constructor; try assumption.
  - unfold header_kept in K. replace (head s - 1) with (pivot s' - 1 - Z.of_nat (cnt s)) in K at 1 by (rewrite c1; unfold head; change (pivot (take s)) with (pivot s); lia).
    replace (head s - 1) with (pivot (take s) - 1 - Z.of_nat (cnt s)) in K by (unfold head; change (pivot (take s)) with (pivot s); lia).
    rewrite !memory_entry in K. unfold u16 in *. change (2 ^ 16) with 65536 in *. lia.
  - intros k Hk. destruct (Ks k) as [X|X]; [left; change (cnt (take s)) with (cnt s); lia|lia|exact X].
Qed.

(** ** As long as the header is not written over, the view shows the tuple as it has become *)
(** Whatever was called: values of other lengths, fields added in the place of removed ones, also
    an index that grew and shrank again. *)
Theorem C90_survives_any_calls : forall multi s A l, viewed multi s -> distinct_slots s -> Z.of_nat (cnt s) <= max_fields ->
  calm_run multi (take s) l ->
  exists outs s', run asis (take s) l = Some (outs, s') /\ viewed multi s' /\
    (header_kept s s' -> (cnt s' <= cnt s)%nat ->
      (forall k, ro_loose (held_mem A s') (taken A s) k = as_u32 (field s' (RL k))) /\
      (forall j, (j < nslots s)%nat -> ro_slot (held_mem A s') (taken A s) (stype s j) (4 * soff s j) = map u32 (value s' (RP j))) /\
      ro_units (held_mem A s') (taken A s) = tail s - head s + 1 /\
      same_as A s' (taken A s) = Nat.eqb (cnt s') (cnt s)).
Proof.
  intros multi s A l V DS Few C. destruct (viewed_inv multi s V) as [T U].
  destruct (history multi l (take s) (take_inv s T) (take_uniq multi s U) C) as (outs & s' & R & _ & T' & _).
  exists outs, s'. split; [exact R|]. split; [exact (v_calls multi (take s) l outs s' (v_take multi s V) C R)|]. intros K Hc.
  pose proof (left_calls multi s l outs s' T U C R K Hc) as J.
  destruct (held_readers A s s' T Few J T' DS) as [R1 R2]. split; [exact R1|]. split; [exact R2|].
  split; [exact (held_units A s s' T Few J)|apply same_as_cnt; exact J].
Qed.

(** ** and it is accepted if the index and the data end where they did *)
Theorem C90_valid_any_calls : forall multi s A l outs s' schema, viewed multi s -> distinct_slots s ->
  Z.of_nat (cnt s) + Z.of_nat (nslots s) <= max_fields -> tail s - head s + 1 <= 65534 -> taken A s <> 0 ->
  calm_run multi (take s) l -> run asis (take s) l = Some (outs, s') -> header_kept s s' ->
  schema_of s' schema -> cnt s' = cnt s -> tail s' = tail s ->
  snd (ro_audit (held_mem A s') (taken A s) (4 * ro_units (held_mem A s') (taken A s)) schema) = Good (jc s', jv s').
Proof.
  intros multi s A l outs s' schema V DS Few Big NN C E K SO Ec Et. destruct (viewed_inv multi s V) as [T U].
  destruct (history multi l (take s) (take_inv s T) (take_uniq multi s U) C) as (outs1 & s1 & R & _ & T' & _).
  assert (s1 = s') by congruence. subst s1.
  exact (held_accepted A s s' T ltac:(lia) (left_calls multi s l outs s' T U C E K ltac:(lia)) schema T' DS SO Ec Et Few Big NN).
Qed.

(** a field is removed, the preplaced value grows into its place and a field is added in the rest *)
Definition mixed : list op :=
  [ORemove (fd g_i64 6); OSlot 0 true (mkV false [6; 8; 8; 8; 8; 8]); OSet (fd g_u64 8) true (mkV false [7; 8])].
Example C90_any_calls_case : viewed odd_multi before9 /\ calm_run odd_multi (take before9) mixed /\ tame_run (take before9) mixed = false /\
  match run asis (take before9) mixed with
  | Some (outs, s') => outs = [true; true; true] /\ header_kept before9 s' /\ (cnt s' <= cnt before9)%nat /\
      ro_slot (held_mem 4096 s') (taken 4096 before9) 1 0 = [6; 8; 8; 8; 8; 8] /\
      schema_of s' schema9 /\ cnt s' = cnt before9 /\ tail s' = tail before9
  | None => False
  end.
Proof.
  split; [apply v_worked, w_reached; now_reach|]. split; [apply calm_runb_ok; vm_compute; reflexivity|]. split; [vm_compute; reflexivity|].
  vm_compute. repeat split; try lia; try discriminate.
Qed.

(** ** A value that has grown reaches past the end of a view that still equals the tuple *)
Theorem C90_longer_value_refuted : exists s l s', viewed odd_multi s /\ calm_run odd_multi (take s) l /\
  run asis (take s) l = Some (map (fun _ => true) l, s') /\ header_kept s s' /\ same_as 4096 s' (taken 4096 s) = true /\
  ro_end (held_mem 4096 s') (taken 4096 s) < e_payload (held_mem 4096 s') (ro_pivot (held_mem 4096 s') (taken 4096 s)) 0 +
    4 * e_units (held_mem 4096 s') (ro_pivot (held_mem 4096 s') (taken 4096 s)) 0 /\
  schema_of s' schema9 /\
  snd (ro_audit (held_mem 4096 s') (taken 4096 s) (4 * ro_units (held_mem 4096 s') (taken 4096 s)) schema9) = Trouble.
Proof.
  set (l := [OSet 2050 true (mkV false [7; 8; 8; 8; 8; 8; 8])]).
  exists before9, l, (final (take before9) l).
  split; [apply v_worked, w_reached; now_reach|]. split; [apply calm_runb_ok; vm_compute; reflexivity|].
  split; [apply run_final; vm_compute; reflexivity|]. vm_compute. repeat split; discriminate.
Qed.

Print Assumptions C90_survives_any_calls.
Print Assumptions C90_valid_any_calls.
Print Assumptions C90_longer_value_refuted.
