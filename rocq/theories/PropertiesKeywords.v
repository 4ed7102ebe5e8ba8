(** * PropertiesKeywords: C80, the perfect hash of keywords. *)
From Verif Require Import Base Keywords.
From Coq Require Import String ZifyBool ZifyNat.
From Coq Require Import List.
Import ListNotations.
Ltac Zify.zify_post_hook ::= Z.div_mod_to_equations.
Open Scope Z_scope.

(** the reserved words, in the order of the alphabet *)
Definition reserved : list (list Z) := map codes
  ["break"; "case"; "catch"; "class"; "const"; "continue"; "debugger"; "default"; "delete"; "do"; "else"; "enum"; "export"; "extends"; "finally";
   "for"; "function"; "if"; "implements"; "import"; "in"; "instanceof"; "interface"; "let"; "new"; "package"; "private"; "protected"; "public";
   "return"; "static"; "super"; "switch"; "this"; "throw"; "try"; "typeof"; "var"; "void"; "while"; "with"; "yield"]%string.
(** the bytes of a string in C: no byte is zero *)
Definition plain (w : list Z) : Prop := Forall (fun x => 0 < x < 256) w.
(** the string that stands at an offset of the pool *)
Fixpoint until_nul (l : list Z) : list Z := match l with [] => [] | x :: l => if x =? 0 then [] else x :: until_nul l end.
Definition pool_string (o : Z) : list Z := until_nul (skipn (Z.to_nat o) stringpool).
Definition low2 (w : list Z) : Prop := forall i x, (i < 2)%nat -> nth_error w i = Some x -> x < 128.

Lemma until_plain w r : plain w -> until_nul (w ++ 0 :: r) = w.
Proof. induction 1 as [|x w H _ IH]; [reflexivity|]. cbn [until_nul app]. replace (x =? 0) with false by lia. rewrite IH. reflexivity. Qed.
Lemma same_true a b : same_string a b = Some true -> until_nul a = until_nul b.
Proof.
  revert b. induction a as [|x a IH]; intros [|y b] H; cbn [same_string until_nul] in *; try discriminate. destruct (x =? y) eqn:E; [|discriminate].
  assert (x = y) by lia. subst y. destruct (x =? 0); [reflexivity|]. f_equal. auto.
Qed.
Lemma same_total w r b : plain w -> In 0 b -> same_string (w ++ 0 :: r) b <> None.
Proof.
  intros P. revert b. induction P as [|x w H P IH]; intros [|y b] I; cbn [same_string app]; try (destruct I; fail).
  - destruct (0 =? y); cbn; discriminate.
  - destruct (x =? y) eqn:E; [|discriminate]. replace (x =? 0) with false by lia. apply IH. destruct I; [lia|assumption].
Qed.

Definition slot_ok (key : Z) : bool :=
  match wordlist key with
  | Some o => (o <? 0) || existsb (fun w => forallb (fun p => fst p =? snd p) (combine w (pool_string o)) && Nat.eqb (length w) (length (pool_string o))) reserved
  | None => false
  end.
Lemma listeq (a b : list Z) : forallb (fun p => fst p =? snd p) (combine a b) = true -> length a = length b -> a = b.
Proof.
  revert b. induction a as [|x a IH]; intros [|y b] H L; try discriminate; [reflexivity|]. cbn [combine forallb fst snd length] in *. apply andb_prop in H. destruct H as [H1 H2].
  f_equal; [lia|]. apply IH; auto.
Qed.
Lemma slots_reserved : forall key o, 0 <= key <= 55 -> wordlist key = Some o -> 0 <= o -> In (pool_string o) reserved.
Proof.
  assert (E : forallb (fun k => slot_ok (Z.of_nat k)) (seq 0 56) = true) by (vm_compute; reflexivity).
  intros key o K W O. rewrite forallb_forall in E. specialize (E (Z.to_nat key) ltac:(apply in_seq; lia)). cbv beta in E. rewrite Z2Nat.id in E by lia.
  unfold slot_ok in E. rewrite W in E. replace (o <? 0) with false in E by lia. cbn [orb] in E. apply existsb_exists in E. destruct E as (w & I & E).
  apply andb_prop in E. destruct E as [E1 E2]. apply Nat.eqb_eq in E2. rewrite <- (listeq w _ E1 E2). exact I.
Qed.
(** each slot is the hash of its word under its own length only *)
Definition own_length (key : Z) : bool :=
  match wordlist key with
  | Some o => (o <? 0) || match nth_error (pool_string o) 0, nth_error (pool_string o) 1 with
              | Some c0, Some c1 => match nth_error asso_values (Z.to_nat c1), nth_error asso_values (Z.to_nat c0) with
                                    | Some a1, Some a0 => key - a1 - a0 =? Z.of_nat (length (pool_string o)) | _, _ => false end
              | _, _ => false end
  | None => false
  end.
Lemma slots_own : forall key, 0 <= key <= 55 -> own_length key = true.
Proof.
  assert (E : forallb (fun k => own_length (Z.of_nat k)) (seq 0 56) = true) by (vm_compute; reflexivity).
  intros key K. rewrite forallb_forall in E. specialize (E (Z.to_nat key) ltac:(apply in_seq; lia)). cbv beta in E. rewrite Z2Nat.id in E by lia. exact E.
Qed.
Lemma asso_range c a : nth_error asso_values c = Some a -> 0 <= a <= 56.
Proof.
  intros H. assert (E : forallb (fun x => (0 <=? x) && (x <=? 56)) asso_values = true) by (vm_compute; reflexivity).
  rewrite forallb_forall in E. specialize (E a (nth_error_In _ _ H)). lia.
Qed.

(** *** Whatever length is given, only a reserved word is accepted, and only under its own length *)
Theorem C80_sound : forall w rest len o, plain w -> in_word_set (w ++ 0 :: rest) len = Some (Some o) ->
  In w reserved /\ len = Z.of_nat (length w) /\ pool_string o = w.
Proof.
  intros w rest len o P H. unfold in_word_set in H. destruct ((len <=? 10) && (2 <=? len)) eqn:E; [|discriminate]. apply andb_prop in E. destruct E as [E1 E2].
  destruct (hash (w ++ 0 :: rest) len) as [key|] eqn:Eh; [|discriminate]. destruct (key <=? 55) eqn:Ek; [|discriminate].
  destruct (wordlist key) as [o'|] eqn:Ew; [|discriminate]. destruct (0 <=? o') eqn:Eo; [|discriminate]. cbv zeta in H.
  destruct (w ++ 0 :: rest) as [|x str'] eqn:Em; [discriminate|]. destruct (skipn (Z.to_nat o') stringpool) as [|y s'] eqn:Es; [discriminate|].
  destruct (x =? y) eqn:Ex; [|discriminate]. assert (x = y) by lia. subst y. destruct (same_string str' s') as [[|]|] eqn:Ec; try discriminate. injection H as <-.
  assert (Q : pool_string o' = w). { unfold pool_string. rewrite Es. rewrite <- (until_plain w rest P), Em. cbn [until_nul]. rewrite (same_true _ _ Ec). reflexivity. }
  unfold hash in Eh. destruct (nth_error (x :: str') 0) as [c0|] eqn:N0; [|discriminate]. destruct (nth_error (x :: str') 1) as [c1|] eqn:N1; [|discriminate].
  destruct (nth_error asso_values (Z.to_nat c1)) as [a1|] eqn:A1; [|discriminate]. destruct (nth_error asso_values (Z.to_nat c0)) as [a0|] eqn:A0; [|discriminate].
  assert (K : key = len + a1 + a0). { pose proof (asso_range _ _ A1). pose proof (asso_range _ _ A0). injection Eh as <-. apply Z.mod_small. lia. }
  pose proof (asso_range _ _ A1) as R1. pose proof (asso_range _ _ A0) as R0.
  split; [rewrite <- Q; apply (slots_reserved key); auto; lia|]. split; [|exact Q].
  pose proof (slots_own key ltac:(lia)) as OL. unfold own_length in OL. rewrite Ew in OL. replace (o' <? 0) with false in OL by lia. cbn [orb] in OL. rewrite Q in OL.
  destruct (nth_error w 0) as [b0|] eqn:B0; [|discriminate]. destruct (nth_error w 1) as [b1|] eqn:B1; [|discriminate].
  assert (c0 = b0). { rewrite <- Em, nth_error_app1 in N0 by (apply nth_error_Some; congruence). congruence. }
  assert (c1 = b1). { rewrite <- Em, nth_error_app1 in N1 by (apply nth_error_Some; congruence). congruence. }
  subst b0 b1. rewrite A1, A0 in OL. lia.
Qed.
(** *** Every reserved word is found *)
Theorem C80_complete : forall w rest, In w reserved -> exists o, in_word_set (w ++ 0 :: rest) (Z.of_nat (length w)) = Some (Some o) /\ pool_string o = w.
Proof.
  intros w rest H. unfold reserved in H. cbn [map In] in H.
  repeat (destruct H as [<-|H]; [match goal with |- context [in_word_set ?m ?l] => let v := eval vm_compute in (in_word_set m l) in
     match v with Some (Some ?o) => exists o; split; vm_compute; reflexivity end end|]). destruct H.
Qed.
(** *** No read outside the tables or the string *)
Theorem C80_safe : forall w rest len, plain w -> low2 w -> w <> [] \/ len < 2 -> in_word_set (w ++ 0 :: rest) len <> None.
Proof.
  intros w rest len P L N. unfold in_word_set. destruct ((len <=? 10) && (2 <=? len)) eqn:E; [|discriminate]. destruct N as [N|N]; [|lia].
  destruct w as [|x w]; [congruence|]. pose proof P as PP. inversion P as [|x' w' Px Pw]; subst x' w'. clear N.
  assert (B : exists c1, nth_error ((x :: w) ++ 0 :: rest) 1 = Some c1 /\ 0 <= c1 < 128).
  { destruct w as [|y w]; [exists 0; split; [reflexivity|lia]|]. exists y. split; [reflexivity|]. inversion Pw. subst. pose proof (L 1%nat y ltac:(lia) eq_refl). lia. }
  destruct B as (c1 & B & Bc). pose proof (L 0%nat x ltac:(lia) eq_refl) as Bx.
  assert (Tb : forall c, 0 <= c < 128 -> exists a, nth_error asso_values (Z.to_nat c) = Some a /\ 0 <= a <= 56).
  { intros c Hc. destruct (nth_error asso_values (Z.to_nat c)) as [a|] eqn:A; [exists a; split; [reflexivity|eapply asso_range; exact A]|].
    apply nth_error_None in A. replace (length asso_values) with 128%nat in A by reflexivity. lia. }
  destruct (Tb c1 Bc) as (a1 & A1 & R1). destruct (Tb x ltac:(lia)) as (a0 & A0 & R0). unfold hash. rewrite B. cbn [app nth_error]. rewrite A1, A0.
  set (key := (len + a1 + a0) mod 4294967296). assert (K : key = len + a1 + a0) by (apply Z.mod_small; lia). destruct (key <=? 55) eqn:Ek; [|discriminate].
  unfold wordlist. replace (key <? 56) with true by lia. destruct (0 <=? offset_of members 0 key) eqn:Eo; [|discriminate]. cbv zeta.
  assert (Z0 : exists y s', skipn (Z.to_nat (offset_of members 0 key)) stringpool = y :: s' /\ (y = 0 \/ In 0 s')).
  { assert (V : forallb (fun k => let o := offset_of members 0 (Z.of_nat k) in (o <? 0) || match skipn (Z.to_nat o) stringpool with _ :: s' => existsb (fun z => z =? 0) s' | [] => false end) (seq 0 56) = true) by (vm_compute; reflexivity).
    rewrite forallb_forall in V. specialize (V (Z.to_nat key) ltac:(apply in_seq; lia)). cbv beta zeta in V. rewrite Z2Nat.id in V by lia.
    replace (offset_of members 0 key <? 0) with false in V by lia. cbn [orb] in V. destruct (skipn (Z.to_nat (offset_of members 0 key)) stringpool) as [|y s']; [discriminate|].
    exists y, s'. split; [reflexivity|]. right. apply existsb_exists in V. destruct V as (z & I & Ez). replace 0 with z by lia. exact I. }
  destruct Z0 as (y & s' & -> & Z0). destruct (x =? y) eqn:Ex; [|discriminate]. destruct Z0 as [->|Z0]; [lia|].
  pose proof (same_total w rest s' Pw Z0) as T. destruct (same_string (w ++ 0 :: rest) s') as [[|]|]; [discriminate|discriminate|congruence].
Qed.
(** *** So a string of C is recognised exactly when it is a reserved word *)
Theorem C80_keywords : forall w rest, plain w -> low2 w ->
  exists r, in_word_set (w ++ 0 :: rest) (Z.of_nat (length w)) = Some r /\ (r <> None <-> In w reserved) /\ forall o, r = Some o -> pool_string o = w.
Proof.
  intros w rest P L. assert (N : w <> [] \/ Z.of_nat (length w) < 2) by (destruct w; [right; cbn; lia|left; discriminate]).
  pose proof (C80_safe w rest (Z.of_nat (length w)) P L N) as S0. destruct (in_word_set (w ++ 0 :: rest) (Z.of_nat (length w))) as [r|] eqn:E; [|congruence]. exists r. split; [reflexivity|].
  destruct r as [o|].
  - destruct (C80_sound _ _ _ _ P E) as (I & _ & Q). split; [split; [auto|discriminate]|]. intros o' [= <-]. exact Q.
  - split; [split; [congruence|]|discriminate]. intros I. destruct (C80_complete w rest I) as (o & E' & _). congruence.
Qed.
Example C80_cases : plain (codes "instanceof") /\ low2 (codes "instanceof") /\ In (codes "instanceof") reserved /\ length reserved = 42%nat /\ NoDup reserved /\
  in_word_set (codes "instanceof" ++ [0]) 10 <> Some None /\ in_word_set (codes "instancea" ++ [0]) 9 = Some None /\ in_word_set (codes "instanceof" ++ [0]) 9 = Some None.
Proof.
  split; [repeat constructor; vm_compute; reflexivity|]. split; [intros [|[|i]] x Hi Hx; [injection Hx as <-; reflexivity|injection Hx as <-; reflexivity|lia]|].
  split; [vm_compute; tauto|]. split; [reflexivity|]. split.
  - unfold reserved. repeat (apply NoDup_cons; [vm_compute; intuition discriminate|]). apply NoDup_nil.
  - split; [vm_compute; discriminate|]. split; vm_compute; reflexivity.
Qed.
(** distinct words have distinct hashes, none above the declared greatest and all the declared lengths are met *)
Theorem C80_perfect : forall v w, In v reserved -> In w reserved -> hash v (Z.of_nat (length v)) = hash w (Z.of_nat (length w)) -> v = w.
Proof.
  assert (E : forallb (fun v => forallb (fun w => match hash v (Z.of_nat (length v)), hash w (Z.of_nat (length w)) with
     | Some a, Some b => negb (a =? b) || (forallb (fun p => fst p =? snd p) (combine v w) && Nat.eqb (length v) (length w)) && (2 <=? a) && (a <=? 55) | _, _ => false end) reserved) reserved = true) by (vm_compute; reflexivity).
  intros v w Iv Iw H. rewrite forallb_forall in E. specialize (E v Iv). rewrite forallb_forall in E. specialize (E w Iw). cbv beta in E. rewrite H in E.
  destruct (hash w (Z.of_nat (length w))) as [b|]; [|discriminate]. rewrite Z.eqb_refl in E. cbn [negb orb] in E. rewrite !Bool.andb_true_iff in E. destruct E as [[[E1 E2] _] _].
  apply listeq; [exact E1|]. apply Nat.eqb_eq. exact E2.
Qed.

(** *** What does not hold *)
(** The table has 128 entries but any byte indexes it (the generator was told that the input is
    7-bit): a word that starts with a byte above 127 reads past the table. *)
Theorem C80_eight_bits_refuted : exists w, plain w /\ length w = 2%nat /\ forall rest, in_word_set (w ++ 0 :: rest) 2 = None.
Proof. exists [208; 176]. split; [repeat constructor; lia|]. split; [reflexivity|]. intros rest. vm_compute. reflexivity. Qed.
(** The given length does not bound the comparison: a keyword inside a longer text is not found,
    and one that ends a buffer without a NUL is read past its end. *)
Theorem C80_slice_refuted : exists w, In w reserved /\ in_word_set (w ++ codes "dex" ++ [0]) (Z.of_nat (length w)) = Some None /\
  in_word_set w (Z.of_nat (length w)) = None.
Proof. exists (codes "in"). split; [vm_compute; tauto|]. split; vm_compute; reflexivity. Qed.

Print Assumptions C80_sound.
Print Assumptions C80_complete.
Print Assumptions C80_safe.
Print Assumptions C80_keywords.
Print Assumptions C80_perfect.
Print Assumptions C80_eight_bits_refuted.
Print Assumptions C80_slice_refuted.
