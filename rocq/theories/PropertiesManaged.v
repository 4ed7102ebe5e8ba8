(** * PropertiesManaged: handles of tuples over counted buffers (C63-C66). *)
From Verif Require Import Base Managed ManagedProofs.

(** ** Vocabulary *)
Section Words.
Variable V : Type.
Variable sane : V -> bool.
Variable fits : Z -> V -> bool.
Variable holes : V -> Z * Z.
Variable blank : option Z -> V.
Variable nested : V -> option V.
Notation call := (apply V sane fits holes blank nested).

(** how many variables of the program refer to buffer [b] *)
Definition refers (b : nat) (x : slot) : bool :=
  match x with RO _ (Some c) | RW (Some c) => (c =? b)%nat | _ => false end.
Definition handles (s : st V) (b : nat) : Z := Z.of_nat (length (filter (refers b) (slots V s))).
Definition few (s : st V) : Prop := forall b, handles s b < 2 ^ 31 - 1.
Definition nested_of_rw (o : op V) : bool := match o with RwNested _ _ => true | _ => false end.
(** States of programs; with [sole] the program takes no readable handle of a nested tuple out of
    a tuple it may still modify.  A call that throws leaves a state too. *)
Inductive reach (sole : bool) : st V -> Prop :=
| r_start : reach sole (nothing V)
| r_call s o t : reach sole s -> few s -> (sole = true -> nested_of_rw o = false) ->
    call o s = Fine V t \/ call o s = Thrown V t -> reach sole t.
(** Calls through a hollow handle, and an R/O-tuple that is to be made in memory of malloc when
    malloc gives none: the null pointer is followed. *)
Definition through_null (o : op V) (s : st V) : Prop :=
  match o with
  | RoFromRw _ j | RwRegrow _ j _ | RwWrite _ j _ => nth_error (slots V s) j = Some (RW None)
  | RoNested _ j => exists h, nth_error (slots V s) j = Some (RO None h)
  | RoCloneRw _ j host mem => nth_error (slots V s) j = Some (RW None) \/ (host = 0 /\ mem = false)
  | RoFromBuffer _ _ host _ mem | RoCloneWeak _ _ _ host _ mem | RoClone _ _ _ host mem => host = 0 /\ mem = false
  | _ => False
  end.
(** what a handle shows: the tuple its pointer leads to, in a buffer that was not given back *)
Definition tuple_at (s : st V) (b depth : nat) : option V :=
  match nth_error (bufs V s) b with
  | Some u => if b_freed V u =? 0 then Nat.iter depth (fun o => match o with Some v => nested v | None => None end) (Some (b_val V u)) else None
  | None => None
  end.
Definition seen (s : st V) (x : slot) : option V :=
  match x with RO (Some (b, d)) _ => tuple_at s b d | RW (Some b) => tuple_at s b 0 | _ => None end.
(** the variables a call is meant to change *)
Definition changed (o : op V) : list nat :=
  match o with
  | RoFromRw _ j | RoMove _ j | RwMove _ j | RwFromRo _ j _ => [j]
  | RoAssign _ i _ | RoPurge _ i | RwPurge _ i | RwRegrow _ i _ | RwWrite _ i _ => [i]
  | RoMoveAssign _ i j | RoSwap _ i j | RwMoveAssign _ i j | RwSwap _ i j => [i; j]
  | _ => []
  end.

Lemma handles_cnt (s : st V) b : handles s b = tot V [] s b.
Proof.
  unfold handles, tot. cbn [cnt]. induction (slots V s) as [|x l IH]; [reflexivity|]. cbn [filter map cnt].
  destruct x as [p [c|]|[c|]]; cbn [refers held one]; try destruct (c =? b)%nat; cbn [length]; lia.
Qed.
Lemma few_small s : few s -> small V s. Proof. intros H b. rewrite <- handles_cnt. apply H. Qed.
Lemma reach_G sole s : reach sole s -> G V nested sole [] [] s.
Proof.
  induction 1 as [|s o t _ IH Hf Hn Hc]; [apply G_start|].
  eapply step_G; eauto using few_small.
Qed.
Lemma iter_swap (A : Type) (f : A -> A) n x : Nat.iter (S n) f x = Nat.iter n f (f x).
Proof. induction n as [|n IH]; [reflexivity|]. change (f (Nat.iter (S n) f x) = f (Nat.iter n f (f x))). rewrite IH. reflexivity. Qed.
Lemma iter_inside v d : Nat.iter d (fun o => match o with Some v => nested v | None => None end) (Some v) = inside V nested v d.
Proof.
  revert v; induction d as [|d IH]; intros v; [reflexivity|]. cbn [inside]. rewrite iter_swap. destruct (nested v) as [w|]; [apply IH|].
  clear. induction d as [|d IH]; [reflexivity|]. cbn [Nat.iter nat_rect]. unfold Nat.iter in IH. rewrite IH. reflexivity.
Qed.
Lemma tuple_at_contents s b d : tuple_at s b d = contents V nested (b, d) s.
Proof.
  unfold tuple_at, contents, look. cbn [fst snd]. destruct (nth_error (bufs V s) b) as [u|]; [|reflexivity].
  destruct (b_freed V u =? 0); [|reflexivity]. apply iter_inside.
Qed.
Lemma seen_shows s x : seen s x = shows V nested s x.
Proof. unfold seen, shows. destruct x as [[[b d]|] h|[b|]]; cbn [placeof]; auto; apply tuple_at_contents. Qed.
Lemma changed_targets o : changed o = targets V o. Proof. destruct o; reflexivity. Qed.
Lemma through_improper o s : through_null o s <-> improper V o s. Proof. destruct o; cbn; apply iff_refl. Qed.

(** a program and the check that it is one (for the examples) *)
Fixpoint play (l : list (op V)) (s : st V) : option (st V) :=
  match l with
  | [] => Some s
  | o :: l => if Nat.leb (length (slots V s)) 1000 then
                match call o s with Fine _ t | Thrown _ t => play l t | _ => None end
              else None
  end.
Lemma play_reach sole l s t : reach sole s -> (sole = true -> forallb (fun o => negb (nested_of_rw o)) l = true) -> play l s = Some t -> reach sole t.
Proof.
  revert s; induction l as [|o l IH]; intros s R N H; cbn [play] in H; [congruence|].
  destruct (Nat.leb_spec (length (slots V s)) 1000) as [L|]; [|discriminate].
  assert (F : few s).
  { intros b. unfold handles. assert (X : (length (filter (refers b) (slots V s)) <= length (slots V s))%nat).
    { clear. induction (slots V s) as [|x l IH]; cbn; [lia|]. destruct (refers b x); cbn; lia. }
    apply Z.le_lt_trans with (Z.of_nat 1000); [lia|]. change (Z.of_nat 1000) with 1000. lia. }
  assert (N1 : sole = true -> nested_of_rw o = false) by (intros E; specialize (N E); cbn in N; destruct (nested_of_rw o); auto; discriminate).
  assert (N2 : sole = true -> forallb (fun o => negb (nested_of_rw o)) l = true) by (intros E; specialize (N E); cbn in N; destruct (negb (nested_of_rw o)); auto; discriminate).
  destruct (call o s) as [w|w| |] eqn:E; try discriminate; apply (IH w); auto; eapply r_call; eauto.
Qed.
End Words.

(** ** C63: counters match the variables of the program, nothing is used after it was given back *)
Theorem C63_counters : forall V sane fits holes blank nested sole s b u, reach V sane fits holes blank nested sole s ->
  nth_error (bufs V s) b = Some u ->
  (handles V s b = 0 -> b_freed V u = 1) /\
  (0 < handles V s b -> b_freed V u = 0 /\ (b_plain V u = false -> b_ref V u = handles V s b) /\ (b_plain V u = true -> handles V s b = 1)).
Proof.
  intros V sane fits holes blank nested sole s b u R H. pose proof (reach_G _ _ _ _ _ _ _ _ R) as g.
  destruct (g_cnt _ _ _ _ _ _ g b u H) as (_ & B1 & B2). rewrite handles_cnt. split; [exact B1|]. intros L. destruct (B2 L) as (F & P).
  split; [exact F|]. destruct (b_plain V u); split; auto; discriminate.
Qed.
(** when every variable is hollow every buffer was given back, exactly once *)
Theorem C63_all_given_back : forall V sane fits holes blank nested sole s, reach V sane fits holes blank nested sole s ->
  Forall (fun x => x = RO None None \/ x = RW None) (slots V s) -> Forall (fun u => b_freed V u = 1) (bufs V s).
Proof.
  intros V sane fits holes blank nested sole s R H. apply Forall_forall. intros u Hu. apply In_nth_error in Hu. destruct Hu as (b & Hb).
  apply (C63_counters _ _ _ _ _ _ _ _ _ _ R Hb). unfold handles. replace (filter (refers b) (slots V s)) with (@nil slot); [reflexivity|].
  induction H as [|x l [Hx|Hx] _ IH]; cbn; [reflexivity|subst x; exact IH|subst x; exact IH].
Qed.
(** the only way to something undefined is a hollow handle *)
Theorem C63_no_use_after_free : forall V sane fits holes blank nested s o, reach V sane fits holes blank nested true s -> few V s -> nested_of_rw V o = false ->
  ~ through_null V o s -> apply V sane fits holes blank nested o s <> Undef V /\ apply V sane fits holes blank nested o s <> Terminate V.
Proof.
  intros V sane fits holes blank nested s o R F N T. rewrite through_improper in T. pose proof (reach_G _ _ _ _ _ _ _ _ R) as g.
  destruct (is_write V o) eqn:W.
  - destruct o; try discriminate. cbn [apply]. pose proof (rw_write_ok V sane fits holes nested true s i v g) as H. cbn [improper] in T.
    destruct (rw_write V holes i v s); split; try discriminate; tauto.
  - pose proof (step_ok V sane fits holes blank nested true o s g (few_small _ _ F) W (fun _ => N)) as P.
    destruct (apply V sane fits holes blank nested o s); cbn in P; (split; [|try discriminate; tauto]); try discriminate. destruct P as [P|P]; [discriminate P|tauto].
Qed.
(** a call that throws leaves every variable as it was, and what it shows *)
Theorem C63_throwing_changes_nothing : forall V sane fits holes blank nested s t o, reach V sane fits holes blank nested true s -> few V s -> nested_of_rw V o = false ->
  apply V sane fits holes blank nested o s = Thrown V t ->
  slots V t = slots V s /\ forall k x, nth_error (slots V s) k = Some x -> seen V nested t x = seen V nested s x.
Proof.
  intros V sane fits holes blank nested s t o R F N H. pose proof (reach_G _ _ _ _ _ _ _ _ R) as g.
  assert (E : slots V t = slots V s /\ keeps V s t).
  { destruct (is_write V o) eqn:W.
    - destruct o; try discriminate. cbn [apply] in H. pose proof (rw_write_ok V sane fits holes nested true s i v g) as X. rewrite H in X. tauto.
    - pose proof (step_ok V sane fits holes blank nested true o s g (few_small _ _ F) W (fun _ => N)) as P. rewrite H in P. cbn in P. tauto. }
  destruct E as (E & K). split; [exact E|]. intros k x Hx. rewrite !seen_shows.
  assert (gt : G V nested true [] [] t) by (eapply step_G; eauto using few_small).
  eapply shows_keeps; eauto. rewrite E. exact Hx.
Qed.

(** ** C64: a call changes what only the variables it names show *)
Theorem C64_isolated_partial : forall V sane fits holes blank nested s t o k x, reach V sane fits holes blank nested true s -> few V s -> nested_of_rw V o = false ->
  apply V sane fits holes blank nested o s = Fine V t -> ~ In k (changed V o) -> nth_error (slots V s) k = Some x ->
  nth_error (slots V t) k = Some x /\ seen V nested t x = seen V nested s x /\
  (x <> RO None None -> x <> RW None -> exists v, seen V nested s x = Some v).
Proof.
  intros V sane fits holes blank nested s t o k x R F N H Hk Hx. rewrite changed_targets in Hk. rewrite !seen_shows.
  pose proof (reach_G _ _ _ _ _ _ _ _ R) as g.
  destruct (isolated _ _ _ _ _ _ _ _ _ _ _ g (few_small _ _ F) N (or_introl H) Hk Hx) as (A & B). split; [exact A|]. split; [exact B|].
  intros N1 N2. destruct (placeof x) as [p|] eqn:P.
  - pose proof (shows_some _ _ _ _ _ _ g Hx P) as S1. destruct (shows V nested s x) as [v|]; [eauto|congruence].
  - exfalso. destruct x as [[q|] h|[b|]]; cbn in P; try discriminate; [|congruence].
    pose proof (slot_wf _ _ _ _ _ _ _ _ g Hx) as W. cbn in W. destruct h; [tauto|congruence].
Qed.
(** a tuple that can be modified is alone in its buffer *)
Theorem C64_sole_writer_partial : forall V sane fits holes blank nested s k b, reach V sane fits holes blank nested true s ->
  nth_error (slots V s) k = Some (RW (Some b)) -> handles V s b = 1.
Proof.
  intros V sane fits holes blank nested s k b R H. pose proof (reach_G _ _ _ _ _ _ _ _ R) as g.
  destruct (writer_facts _ _ _ _ _ _ g H) as (u & _ & _ & _ & D & _). rewrite handles_cnt. apply D. reflexivity.
Qed.

(** tuples for the examples: a kind that the schema may ask for, holes, a nested tuple *)
Inductive toy := Toy (kind count volume : Z) (inner : option toy).
Definition t_kind (t : toy) := match t with Toy k _ _ _ => k end.
Definition t_holes (t : toy) := match t with Toy _ c v _ => (c, v) end.
Definition t_inner (t : toy) := match t with Toy _ _ _ i => i end.
Definition t_blank (c : option Z) : toy := Toy (match c with Some c => c | None => 0 end) 0 0 None.
Notation toy_reach := (reach toy (fun _ => true) (fun c t => t_kind t =? c) t_holes t_blank t_inner).
Notation toy_call := (apply toy (fun _ => true) (fun c t => t_kind t =? c) t_holes t_blank t_inner).
Notation toy_play := (play toy (fun _ => true) (fun c t => t_kind t =? c) t_holes t_blank t_inner).
Definition leaf (k : Z) : toy := Toy k 0 0 None.
Definition box (k : Z) (t : toy) : toy := Toy k 0 0 (Some t).

Ltac played sole l := apply (play_reach _ _ _ _ _ _ sole l (nothing toy)); [constructor|vm_compute; auto|vm_compute; reflexivity].

Definition sharing : list (op toy) :=
  [RwNew toy 2 None true; RwWrite toy 0 (box 3 (leaf 4)); RoFromRw toy 0; RoCopy toy 1; RoNested toy 1; RoPurge toy 1].
Definition shared_state : st toy := mkSt toy [mkBuf toy 2 0 false false 2 None (box 3 (leaf 4)) (0, 0)]
  [RW None; RO None None; RO (Some (0%nat, 0%nat)) (Some 0%nat); RO (Some (0%nat, 1%nat)) (Some 0%nat)].
Example C63_case : toy_reach true shared_state /\ few toy shared_state /\ handles toy shared_state 0 = 2 /\
  ~ through_null toy (RoNested toy 2) shared_state /\
  seen toy t_inner shared_state (RO (Some (0%nat, 1%nat)) (Some 0%nat)) = Some (leaf 4).
Proof.
  split; [played true sharing|]. split.
  - intros b. unfold handles. apply Z.le_lt_trans with 4; [|lia]. cbn [filter slots shared_state refers]. destruct (0 =? b)%nat; cbn [length]; lia.
  - split; [vm_compute; reflexivity|]. split; [cbn; intros (h & E); discriminate|]. vm_compute. reflexivity.
Qed.
(** the last variables go: the buffer is given back once *)
Example C63_given_back_case : exists s, toy_reach true s /\ Forall (fun x => x = RO None None \/ x = RW None) (slots toy s) /\ map (b_freed toy) (bufs toy s) = [1].
Proof.
  exists (mkSt toy [mkBuf toy 1 1 false false 2 None (box 3 (leaf 4)) (0, 0)] [RW None; RO None None; RO None None; RO None None]).
  split; [played true (sharing ++ [RoPurge toy 3; RoPurge toy 2])|]. split; [repeat (apply Forall_cons; [auto|]); apply Forall_nil|reflexivity].
Qed.
(** a readable handle of a nested tuple, taken from a tuple that can be modified, stays in the
    buffer of that tuple: what it shows changes with the next modification *)
Theorem C64_nested_of_writer_refuted : exists s t x, toy_reach false s /\ few toy s /\
  toy_call (RwWrite toy 0 (box 3 (leaf 5))) s = Fine toy t /\ nth_error (slots toy s) 1 = Some x /\ nth_error (slots toy t) 1 = Some x /\
  seen toy t_inner s x = Some (leaf 4) /\ seen toy t_inner t x = Some (leaf 5).
Proof.
  set (s := mkSt toy [mkBuf toy 2 0 false false 2 None (box 3 (leaf 4)) (0, 0)] [RW (Some 0%nat); RO (Some (0%nat, 1%nat)) (Some 0%nat)]).
  set (t := mkSt toy [mkBuf toy 2 0 false false 2 None (box 3 (leaf 5)) (0, 0)] [RW (Some 0%nat); RO (Some (0%nat, 1%nat)) (Some 0%nat)]).
  exists s, t, (RO (Some (0%nat, 1%nat)) (Some 0%nat)).
  split; [played false [RwNew toy 2 None true; RwWrite toy 0 (box 3 (leaf 4)); RwNested toy 0]|].
  split; [intros b; unfold handles; apply Z.le_lt_trans with 4; [|lia]; cbn [filter slots s refers]; destruct (0 =? b)%nat; cbn [length]; lia|].
  vm_compute. repeat split.
Qed.
(** and it leads nowhere once the nested tuple is removed *)
Theorem C64_dangling_refuted : exists s, toy_reach false s /\ nth_error (slots toy s) 1 = Some (RO (Some (0%nat, 1%nat)) (Some 0%nat)) /\
  seen toy t_inner s (RO (Some (0%nat, 1%nat)) (Some 0%nat)) = None /\ toy_call (RoNested toy 1) s = Undef toy.
Proof.
  exists (mkSt toy [mkBuf toy 2 0 false false 2 None (leaf 3) (0, 0)] [RW (Some 0%nat); RO (Some (0%nat, 1%nat)) (Some 0%nat)]).
  split; [played false [RwNew toy 2 None true; RwWrite toy 0 (box 3 (leaf 4)); RwNested toy 0; RwWrite toy 0 (leaf 3)]|].
  vm_compute. repeat split.
Qed.
Example C64_case : toy_reach true shared_state /\ nth_error (slots toy shared_state) 3 = Some (RO (Some (0%nat, 1%nat)) (Some 0%nat)) /\
  exists t, toy_call (RoPurge toy 2) shared_state = Fine toy t /\ seen toy t_inner t (RO (Some (0%nat, 1%nat)) (Some 0%nat)) = Some (leaf 4).
Proof.
  split; [apply C63_case|]. split; [reflexivity|].
  exists (mkSt toy [mkBuf toy 1 0 false false 2 None (box 3 (leaf 4)) (0, 0)] [RW None; RO None None; RO None None; RO (Some (0%nat, 1%nat)) (Some 0%nat)]).
  vm_compute. auto.
Qed.

(** ** C65: copies, moves and clones show what their source showed *)
(** calls that declare a new variable from variable [j] (of the right kind) *)
Definition copies_from {V} (o : op V) (j : nat) (x : slot) : Prop :=
  match o, x with
  | RoCopy _ j', RO _ _ | RoMove _ j', RO _ _ | RoCloneWeak _ j' _ _ _ _, RO _ _ | RoClone _ j' _ _ _, RO _ _
  | RoFromRw _ j', RW _ | RwMove _ j', RW _ | RoCloneRw _ j' _ _, RW _ => j' = j
  | RwFromRo _ j' mem, RO _ _ => j' = j /\ mem = true
  | RwCloneRo _ j' _ host mem, RO _ _ | RwCloneRw _ j' host mem, RW _ => j' = j /\ ~ (host = 0 /\ mem = false)
  | _, _ => False
  end.
Theorem C65_new_variable : forall V sane fits holes blank nested sole s t o j x v, reach V sane fits holes blank nested sole s -> few V s ->
  (sole = true -> nested_of_rw V o = false) -> copies_from o j x -> nth_error (slots V s) j = Some x -> seen V nested s x = Some v ->
  apply V sane fits holes blank nested o s = Fine V t ->
  exists y, nth_error (slots V t) (length (slots V s)) = Some y /\ seen V nested t y = Some v.
Proof.
  intros V sane fits holes blank nested sole s t o j x v R F N C Hx Sv H. rewrite seen_shows in Sv. pose proof (reach_G _ _ _ _ _ _ _ _ R) as g.
  assert (gt : G V nested sole [] [] t) by (eapply step_G; eauto using few_small).
  destruct (newest_shows _ _ _ _ _ _ gt (new_handle _ _ _ _ _ _ _ _ _ _ _ _ _ g (few_small _ _ F) C Hx Sv H)) as (y & A & B).
  exists y. rewrite seen_shows. auto.
Qed.
(** A clone of a readable tuple is another handle of the same buffer exactly when the allocator is
    the same and no other schema is asked for; otherwise it is a buffer of its own, from the allocator
    and with the schema that were asked for. *)
Theorem C65_clone_shared : forall V sane fits holes blank nested s t j b d u schema host mem,
  nth_error (slots V s) j = Some (RO (Some (b, d)) (Some b)) -> nth_error (bufs V s) b = Some u -> b_freed V u = 0 ->
  apply V sane fits holes blank nested (RoClone V j schema host mem) s = Fine V t ->
  (length (bufs V t) = length (bufs V s) <-> b_host V u = host /\ (schema = None \/ (d = O /\ schema = b_schema V u))) /\
  (b_host V u = host /\ (schema = None \/ (d = O /\ schema = b_schema V u)) -> nth_error (slots V t) (length (slots V s)) = Some (RO (Some (b, d)) (Some b))) /\
  (length (bufs V t) <> length (bufs V s) -> exists w, bufs V t = bufs V s ++ [w] /\ b_host V w = host /\ b_schema V w = schema /\ inside V nested (b_val V u) d = Some (b_val V w)).
Proof.
  intros V sane fits holes blank nested s t j b d u schema host mem Hj Hb Fr H. cbn [apply] in H. unfold ro_clone in H. rewrite Hj in H.
  assert (L : look V b s = Some u) by (unfold look; rewrite Hb, Fr; reflexivity). rewrite L in H. unfold peek_basis in H. rewrite L in H.
  set (cond := (b_host V u =? host) && _) in H.
  assert (C : cond = true <-> b_host V u = host /\ (schema = None \/ (d = O /\ schema = b_schema V u))).
  { unfold cond. rewrite andb_true_iff, Z.eqb_eq. split; intros [A B]; (split; [exact A|]).
    - destruct schema as [c|]; [right|left; reflexivity]. destruct d; [|discriminate]. split; [reflexivity|]. destruct (b_schema V u) as [e|]; [|discriminate]. apply Z.eqb_eq in B. congruence.
    - destruct schema as [c|]; [|reflexivity]. destruct B as [B|[-> B]]; [discriminate|]. rewrite <- B. apply Z.eqb_refl. }
  rewrite <- C. destruct cond.
  - unfold ro_new, check_buffer in H. rewrite L in H. cbn [fst] in H. rewrite Nat.eqb_refl in H. unfold add_reference in H. rewrite L in H. injection H as <-.
    cbn [push set_buf bufs slots]. rewrite upd_length. split; [tauto|]. split; [|intros N; congruence]. intros _. rewrite nth_error_app2, Nat.sub_diag by lia. reflexivity.
  - assert (X : forall r, (forall s' q, r = Some (s', q) -> exists junk, create V host schema (match inside V nested (b_val V u) d with Some v => v | None => b_val V u end) junk mem s = Some (s', q)) ->
                ro_from_temporary V r s = Fine V t -> exists junk pl ro, bufs V t = bufs V s ++ [mkBuf V 1 0 pl ro host schema (match inside V nested (b_val V u) d with Some v => v | None => b_val V u end) junk]).
    { intros r Hr Ht. unfold ro_from_temporary in Ht. destruct r as [[s' q]|]; [|discriminate]. destruct (Hr s' q eq_refl) as (junk & Hc). unfold create in Hc.
      destruct (host =? 0) eqn:E0; cbn [negb] in Hc.
      - destruct mem; injection Hc as <- <-; [|discriminate]. unfold take_over, get_buffer, look in Ht. cbn [bufs] in Ht. rewrite nth_error_app2, Nat.sub_diag in Ht by lia. cbn in Ht.
        unfold check_buffer in Ht. unfold delete, look in Ht. cbn [bufs] in Ht. rewrite nth_error_app2, Nat.sub_diag in Ht by lia. cbn in Ht. discriminate.
      - destruct mem; [|discriminate]. injection Hc as <- <-. unfold take_over, get_buffer, look in Ht. cbn [bufs] in Ht. rewrite nth_error_app2, Nat.sub_diag in Ht by lia. cbn in Ht.
        unfold check_buffer, look in Ht. cbn [bufs] in Ht. rewrite nth_error_app2, Nat.sub_diag in Ht by lia. cbn in Ht. rewrite Nat.eqb_refl in Ht. injection Ht as <-. cbn [push bufs]. eauto. }
    unfold ro_clone_weak, contents in H. cbn [fst snd] in H. rewrite L in H. destruct (inside V nested (b_val V u) d) as [v|] eqn:Ei; [|discriminate].
    assert (Y : exists junk pl ro, bufs V t = bufs V s ++ [mkBuf V 1 0 pl ro host schema v junk]).
    { destruct (apply_validation_mode _ _); eapply X; try exact H.
      - intros s' q E. unfold create_from_buffer in E. destruct (audit V sane fits schema v); [|discriminate]. eauto.
      - intros s' q E. eauto. }
    destruct Y as (junk & pl & ro & Y). rewrite Y, app_length. cbn [length]. split; [split; intros; [lia|discriminate]|]. split; [discriminate|]. intros _.
    exists (mkBuf V 1 0 pl ro host schema v junk). auto.
Qed.
(** A modifiable clone of a readable tuple: a buffer of its own.  It takes over the schema and the
    counters of the source unless another schema is asked for, in which case all is checked and counted. *)
Theorem C65_clone_modifiable : forall V sane fits holes blank nested s t j b d u h schema host,
  nth_error (slots V s) j = Some (RO (Some (b, d)) h) -> nth_error (bufs V s) b = Some u -> b_freed V u = 0 ->
  apply V sane fits holes blank nested (RwCloneRo V j schema host true) s = Fine V t ->
  exists w, bufs V t = bufs V s ++ [w] /\ slots V t = slots V s ++ [RW (Some (length (bufs V s)))] /\ b_host V w = host /\ inside V nested (b_val V u) d = Some (b_val V w) /\
    ((d = O /\ (schema = None \/ schema = b_schema V u) /\ b_schema V w = b_schema V u /\ b_junk V w = b_junk V u) \/
     (~ (d = O /\ (schema = None \/ schema = b_schema V u)) /\ b_schema V w = schema /\ b_junk V w = holes (b_val V w) /\ audit V sane fits schema (b_val V w) = true)).
Proof.
  intros V sane fits holes blank nested s t j b d u h schema host Hj Hb Fr H. cbn [apply] in H. unfold rw_clone_ro in H. rewrite Hj in H.
  assert (L : look V b s = Some u) by (unfold look; rewrite Hb, Fr; reflexivity). unfold peek_basis, contents in H. cbn [fst snd] in H. rewrite L in H.
  destruct (inside V nested (b_val V u) d) as [v|] eqn:Ei; [|discriminate].
  assert (X : forall c junk r, create V host c v junk true s = Some r -> Fine V (push V (RW (snd r)) (fst r)) = Fine V t ->
     exists w, bufs V t = bufs V s ++ [w] /\ slots V t = slots V s ++ [RW (Some (length (bufs V s)))] /\ b_host V w = host /\ b_val V w = v /\ b_schema V w = c /\ b_junk V w = junk).
  { intros c junk r Hc Ht. unfold create in Hc. destruct (host =? 0) eqn:E0; cbn [negb] in Hc; injection Hc as <-; injection Ht as <-; cbn [push bufs slots fst snd]; eexists; repeat split.
    cbn [b_host]. lia. }
  assert (Y : rw_from_buffer V sane fits holes v host schema true s = Fine V t -> exists w, bufs V t = bufs V s ++ [w] /\ slots V t = slots V s ++ [RW (Some (length (bufs V s)))] /\ b_host V w = host /\ b_val V w = v /\
     b_schema V w = schema /\ b_junk V w = holes v /\ audit V sane fits schema v = true).
  { intros Ht. unfold rw_from_buffer, create_from_buffer in Ht. destruct (audit V sane fits schema v) eqn:Ea; [|discriminate].
    destruct (create V host schema v (holes v) true s) as [[s' q]|] eqn:Ec; [|discriminate]. destruct (X _ _ _ Ec Ht) as (w & A & B & C & D & E & F). exists w. repeat split; assumption. }
  destruct d as [|d].
  - set (cond := match schema with None => true | Some c => match b_schema V u with Some e => c =? e | None => false end end) in H.
    assert (C : cond = true <-> schema = None \/ schema = b_schema V u).
    { unfold cond. destruct schema as [c|]; [|split; auto]. destruct (b_schema V u) as [e|].
      - rewrite Z.eqb_eq. split; [intros ->; auto|intros [K|K]; congruence].
      - split; [discriminate|]. intros [K|K]; discriminate. }
    destruct cond.
    + destruct (create V host (b_schema V u) v (b_junk V u) true s) as [[s' q]|] eqn:Ec; [|discriminate]. destruct (X _ _ _ Ec H) as (w & A & B & D & E & F & K).
      exists w. split; [exact A|]. split; [exact B|]. split; [exact D|]. split; [congruence|]. left. split; [reflexivity|]. split; [tauto|]. auto.
    + destruct (Y H) as (w & A & B & D & E & F & K & M). exists w. split; [exact A|]. split; [exact B|]. split; [exact D|]. split; [congruence|]. right.
      split; [intros [_ N]; apply C in N; discriminate|]. rewrite E. auto.
  - destruct (Y H) as (w & A & B & D & E & F & K & M). exists w. split; [exact A|]. split; [exact B|]. split; [exact D|]. split; [congruence|]. right.
    split; [intros [N _]; discriminate|]. rewrite E. auto.
Qed.
Example C65_clones_case : exists t1 t2,
  toy_call (RoClone toy 2 None 2 true) shared_state = Fine toy t1 /\ length (bufs toy t1) = 1%nat /\
  toy_call (RwCloneRo toy 2 (Some 3) 2 true) shared_state = Fine toy t2 /\ option_map (b_schema toy) (nth_error (bufs toy t2) 1) = Some (Some 3).
Proof. do 2 eexists. split; [vm_compute; reflexivity|]. split; [reflexivity|]. split; [vm_compute; reflexivity|]. reflexivity. Qed.
(** Assignments.  [i] and [j] are different for the two that move. *)
Theorem C65_assigned : forall V sane fits holes blank nested sole s t o i j x y, reach V sane fits holes blank nested sole s -> few V s ->
  match o with RoAssign _ i' j' => i' = i /\ j' = j | RoMoveAssign _ i' j' | RwMoveAssign _ i' j' => i' = i /\ j' = j /\ i <> j | _ => False end ->
  match o, y, x with RwMoveAssign _ _ _, RW _, RW _ => True | RwMoveAssign _ _ _, _, _ => False | _, RO _ _, RO _ _ => True | _, _, _ => False end ->
  nth_error (slots V s) i = Some y -> nth_error (slots V s) j = Some x -> apply V sane fits holes blank nested o s = Fine V t ->
  exists z, nth_error (slots V t) i = Some z /\ seen V nested t z = seen V nested s x.
Proof.
  intros V sane fits holes blank nested sole s t o i j x y R F C Ty Hi Hj H. pose proof (reach_G _ _ _ _ _ _ _ _ R) as g. rewrite seen_shows.
  destruct (assigned V sane fits holes blank nested sole o s t i j x (shows V nested s x) g (few_small _ _ F)) as (z & A & B); auto.
  - destruct o; try tauto; destruct x, y; tauto.
  - exists y. split; [exact Hi|]. destruct o; try tauto; destruct x, y; tauto.
  - exists z. rewrite seen_shows. auto.
Qed.
(** growing keeps the contents and the schema *)
Theorem C65_grown : forall V sane fits holes blank nested sole s t i mem b u, reach V sane fits holes blank nested sole s -> few V s ->
  nth_error (slots V s) i = Some (RW (Some b)) -> nth_error (bufs V s) b = Some u -> apply V sane fits holes blank nested (RwRegrow V i mem) s = Fine V t ->
  exists c w, nth_error (slots V t) i = Some (RW (Some c)) /\ nth_error (bufs V t) c = Some w /\ b_val V w = b_val V u /\ b_schema V w = b_schema V u.
Proof.
  intros V sane fits holes blank nested sole s t i mem b u R F Hi Hb H. pose proof (reach_G _ _ _ _ _ _ _ _ R) as g.
  eapply regrown; eauto using few_small.
Qed.
Example C65_case : exists t, toy_call (RwFromRo toy 2 true) shared_state = Fine toy t /\
  copies_from (RwFromRo toy 2 true) 2 (RO (Some (0%nat, 0%nat)) (Some 0%nat)) /\
  nth_error (slots toy t) 4 = Some (RW (Some 1%nat)) /\ seen toy t_inner t (RW (Some 1%nat)) = Some (box 3 (leaf 4)).
Proof.
  exists (mkSt toy [mkBuf toy 1 0 false false 2 None (box 3 (leaf 4)) (0, 0); mkBuf toy 1 0 false false 2 None (box 3 (leaf 4)) (0, 0)]
    [RW None; RO None None; RO None None; RO (Some (0%nat, 1%nat)) (Some 0%nat); RW (Some 1%nat)]).
  vm_compute. repeat split.
Qed.
(** a readable tuple that is moved to itself is lost; an R/W-tuple is not *)
Theorem C65_self_move_refuted : exists s t, toy_reach true s /\ few toy s /\
  seen toy t_inner s (RO (Some (0%nat, 0%nat)) (Some 0%nat)) = Some (leaf 4) /\ nth_error (slots toy s) 1 = Some (RO (Some (0%nat, 0%nat)) (Some 0%nat)) /\
  toy_call (RoMoveAssign toy 1 1) s = Fine toy t /\ nth_error (slots toy t) 1 = Some (RO None None) /\ map (b_freed toy) (bufs toy t) = [1].
Proof.
  exists (mkSt toy [mkBuf toy 1 0 false false 2 None (leaf 4) (0, 0)] [RW None; RO (Some (0%nat, 0%nat)) (Some 0%nat)]),
    (mkSt toy [mkBuf toy 1 1 false false 2 None (leaf 4) (0, 0)] [RW None; RO None None]).
  split; [played true [RwNew toy 2 None true; RwWrite toy 0 (leaf 4); RoFromRw toy 0]|].
  split; [intros b; unfold handles; apply Z.le_lt_trans with 4; [|lia]; cbn [filter slots refers]; destruct (0 =? b)%nat; cbn [length]; lia|].
  vm_compute. repeat split.
Qed.
Theorem C65_self_move_rw : forall V sane fits holes blank nested s i, apply V sane fits holes blank nested (RwMoveAssign V i i) s = Fine V s.
Proof.
  intros. cbn [apply]. unfold rw_move_assign. destruct (nth_error (slots V s) i) as [[p h|[b|]]|]; auto. rewrite Nat.eqb_refl. reflexivity.
Qed.
(** The tuple made from a hollow readable one throws; tuple_rw_managed declares that constructor
    noexcept, so the program ends.  The same happens when the copy cannot be made. *)
Theorem C65_terminate_refuted : (exists s, toy_reach true s /\
    rw_managed_from_ro toy (fun _ => true) (fun c t => t_kind t =? c) t_holes t_inner 1 true s = Terminate toy) /\
  rw_managed_from_ro toy (fun _ => true) (fun c t => t_kind t =? c) t_holes t_inner 2 false shared_state = Terminate toy.
Proof.
  split; [|vm_compute; reflexivity].
  exists (mkSt toy [mkBuf toy 1 0 false false 2 None (t_blank None) (0, 0)] [RW None; RO None None; RO (Some (0%nat, 0%nat)) (Some 0%nat)]).
  split; [played true [RwNew toy 2 None true; RoFromRw toy 0; RoMove toy 1]|]. vm_compute. reflexivity.
Qed.
(** asking for a nested tuple that is not there throws instead of giving a hollow handle *)
Theorem C65_absent_nested : forall V sane fits holes blank nested sole s j p b v, reach V sane fits holes blank nested sole s -> few V s ->
  nth_error (slots V s) j = Some (RO (Some p) (Some b)) -> seen V nested s (RO (Some p) (Some b)) = Some v -> nested v = None ->
  apply V sane fits holes blank nested (RoNested V j) s = Thrown V s.
Proof.
  intros V sane fits holes blank nested sole s j p b v R F Hj Sv Nv. cbn [apply]. unfold ro_nested. rewrite Hj. unfold nested_place.
  rewrite seen_shows in Sv. unfold shows in Sv. cbn [placeof] in Sv. rewrite Sv, Nv. reflexivity.
Qed.

(** A clone that is to live in memory of malloc ([host] = 0) is never made: such memory has no
    header for the counter, and the constructor throws.  The memory is given back. *)
Lemma last_nth {A} (l : list A) x : nth_error (l ++ [x]) (length l) = Some x. Proof. induction l; cbn; auto. Qed.
Lemma plain_temporary V (s : st V) c v junk : exists t, ro_from_temporary V (create V 0 c v junk true s) s = Thrown V t /\ slots V t = slots V s /\
  exists u, bufs V t = bufs V s ++ [u] /\ b_freed V u = 1.
Proof.
  unfold create. cbn [negb Z.eqb]. unfold ro_from_temporary, take_over, get_buffer, look. cbn [bufs slots].
  rewrite last_nth. cbn [b_freed b_plain check_buffer Z.eqb]. unfold delete, look. cbn [bufs slots]. rewrite last_nth. cbn [b_freed b_plain Z.eqb].
  eexists. split; [reflexivity|]. split; [reflexivity|]. unfold set_buf. cbn [bufs].
  assert (U : forall (l : list (buf V)) a b, upd (length l) b (l ++ [a]) = l ++ [b]) by (clear; intros l a b; induction l as [|x l IH]; cbn; [|rewrite IH]; reflexivity).
  rewrite U. eexists. split; reflexivity.
Qed.
Theorem C65_clone_in_plain_throws : forall V sane fits holes blank nested s j p h v c m,
  nth_error (slots V s) j = Some (RO (Some p) h) -> seen V nested s (RO (Some p) h) = Some v ->
  exists t, apply V sane fits holes blank nested (RoCloneWeak V j c 0 m true) s = Thrown V t /\ slots V t = slots V s /\
    (bufs V t = bufs V s \/ exists u, bufs V t = bufs V s ++ [u] /\ b_freed V u = 1).
Proof.
  intros V sane fits holes blank nested s j p h v c m Hj Sv. cbn [apply]. rewrite Hj. unfold ro_clone_weak.
  rewrite seen_shows in Sv. unfold shows in Sv. cbn [placeof] in Sv. rewrite Sv.
  assert (X : forall junk, exists t, ro_from_temporary V (create V 0 c v junk true s) s = Thrown V t /\ slots V t = slots V s /\
    (bufs V t = bufs V s \/ exists u, bufs V t = bufs V s ++ [u] /\ b_freed V u = 1)).
  { intros junk. destruct (plain_temporary V s c v junk) as (t & A & B & C). eauto. }
  destruct (apply_validation_mode m _); [|apply X]. unfold create_from_buffer. destruct (audit V sane fits c v); [apply X|].
  exists s. cbn [ro_from_temporary]. auto.
Qed.

(** ** C66: the counters of junk and the schema of a copy describe its data *)
Definition sound {V} (sane : V -> bool) (fits : Z -> V -> bool) (holes : V -> Z * Z) (u : buf V) : Prop :=
  b_junk V u = holes (b_val V u) /\ sane (b_val V u) = true /\ (forall c, b_schema V u = Some c -> fits c (b_val V u) = true).
(** Calls for which it holds: growing without holes, modifications that leave the tuple sound, clones
    that are validated. *)
Definition with_care {V} (sane : V -> bool) (fits : Z -> V -> bool) (holes : V -> Z * Z) (o : op V) (s : st V) : Prop :=
  match o with
  | RwRegrow _ i _ => forall b u, nth_error (slots V s) i = Some (RW (Some b)) -> nth_error (bufs V s) b = Some u -> holes (b_val V u) = (0, 0)
  | RwWrite _ i v => forall b u, nth_error (slots V s) i = Some (RW (Some b)) -> nth_error (bufs V s) b = Some u ->
      sane v = true /\ (forall c, b_schema V u = Some c -> fits c v = true)
  | RoCloneWeak _ j schema host m mem => m = enforce_validation \/ (m = default_validation /\ schema = None)
  | RoClone _ j schema host mem => schema = None
  | RoCloneRw _ j host mem => forall b u, nth_error (slots V s) j = Some (RW (Some b)) -> nth_error (bufs V s) b = Some u -> b_schema V u = None
  | _ => True
  end.
Lemma good_sound V sane fits holes u : good V sane fits holes u <-> @sound V sane fits holes u.
Proof.
  unfold good, sound, audit. destruct (b_schema V u) as [c|].
  - rewrite andb_true_iff. split.
    + intros (A & B & C). split; [exact A|]. split; [exact B|]. intros d [= <-]. exact C.
    + intros (A & B & C). split; [exact A|]. split; [exact B|]. apply C. reflexivity.
  - rewrite andb_true_r. split; [intros (A & B)|intros (A & B & _)]; repeat split; auto. discriminate.
Qed.
Theorem C66_kept_partial : forall V sane fits holes blank nested s t o,
  (forall c, @sound V sane fits holes (mkBuf V 1 0 false false 2 c (blank c) (0, 0))) ->
  Forall (sound sane fits holes) (bufs V s) -> with_care sane fits holes o s ->
  apply V sane fits holes blank nested o s = Fine V t \/ apply V sane fits holes blank nested o s = Thrown V t ->
  Forall (sound sane fits holes) (bufs V t).
Proof.
  intros V sane fits holes blank nested s t o Hb H C A.
  assert (X : forall l, Forall (sound sane fits holes) l <-> Forall (good V sane fits holes) l).
  { intros l. split; apply Forall_impl; intros u; apply good_sound. }
  apply X. apply X in H. eapply Q_step; [|exact H| |exact A].
  - intros c. specialize (Hb c). apply good_sound in Hb. destruct Hb as (A1 & A2). cbn in *. auto.
  - destruct o; cbn [careful with_care] in *; auto.
    + intros b u Hs Hu. destruct (C b u Hs Hu) as (A1 & A2). unfold audit. rewrite A1. destruct (b_schema V u) as [c|]; [|reflexivity]. rewrite (A2 c); reflexivity.
    + destruct C as [-> |(-> & ->)]; reflexivity.
Qed.
Example C66_case : (forall c, sound (fun _ => true) (fun c t => t_kind t =? c) t_holes (mkBuf toy 1 0 false false 2 c (t_blank c) (0, 0))) /\
  sound (fun _ => true) (fun c t => t_kind t =? c) t_holes (mkBuf toy 1 0 false false 2 (Some 7) (Toy 7 2 5 None) (2, 5)).
Proof.
  split; [intros [c|]|]; (split; [reflexivity|]; split; [reflexivity|]); intros d E; try discriminate; injection E as <-; cbn; lia.
Qed.
(** A clone with a schema is not validated, against the comment: data that does not conform gets the
    schema, and holes are counted as zero. *)
Definition misfit : op toy := RoCloneWeak toy 1 (Some 9) 2 default_validation true.
Theorem C66_schema_not_checked_refuted : exists s t u, toy_reach true s /\
  Forall (sound (fun _ => true) (fun c t => t_kind t =? c) t_holes) (bufs toy s) /\ toy_call misfit s = Fine toy t /\
  nth_error (bufs toy t) 1 = Some u /\ b_schema toy u = Some 9 /\ t_kind (b_val toy u) = 4 /\ t_holes (b_val toy u) = (2, 5) /\ b_junk toy u = (0, 0).
Proof.
  exists (mkSt toy [mkBuf toy 1 0 false false 2 None (Toy 4 2 5 None) (2, 5)] [RW None; RO (Some (0%nat, 0%nat)) (Some 0%nat)]),
    (mkSt toy [mkBuf toy 1 0 false false 2 None (Toy 4 2 5 None) (2, 5); mkBuf toy 1 0 false false 2 (Some 9) (Toy 4 2 5 None) (0, 0)]
       [RW None; RO (Some (0%nat, 0%nat)) (Some 0%nat); RO (Some (1%nat, 0%nat)) (Some 1%nat)]), (mkBuf toy 1 0 false false 2 (Some 9) (Toy 4 2 5 None) (0, 0)).
  split; [played true [RwNew toy 2 None true; RwWrite toy 0 (Toy 4 2 5 None); RoFromRw toy 0]|].
  split; [constructor; [|constructor]; split; [reflexivity|]; split; [reflexivity|intros d E; discriminate]|]. vm_compute. repeat split.
Qed.
(** without a schema, where the comment promises none, every check is made: a tuple that cannot be
    read is refused *)
Theorem C66_validated_without_schema : forall V sane fits holes blank nested s j p h host mem v,
  nth_error (slots V s) j = Some (RO (Some p) h) -> seen V nested s (RO (Some p) h) = Some v -> sane v = false ->
  apply V sane fits holes blank nested (RoCloneWeak V j None host default_validation mem) s = Thrown V s.
Proof.
  intros V sane fits holes blank nested s j p h host mem v Hj Sv Nv. cbn [apply]. rewrite Hj. unfold ro_clone_weak.
  rewrite seen_shows in Sv. unfold shows in Sv. cbn [placeof] in Sv. rewrite Sv. cbn [apply_validation_mode].
  unfold create_from_buffer, audit. rewrite Nv. reflexivity.
Qed.
(** enforced validation refuses exactly the data that fails the audit; skipped validation refuses
    nothing that can be read *)
Theorem C66_modes : forall V sane fits holes blank nested s j p h c host v, host <> 0 ->
  nth_error (slots V s) j = Some (RO (Some p) h) -> seen V nested s (RO (Some p) h) = Some v ->
  (forall t, apply V sane fits holes blank nested (RoCloneWeak V j c host enforce_validation true) s = Thrown V t <->
             t = s /\ (sane v = false \/ exists k, c = Some k /\ fits k v = false)) /\
  (exists t, apply V sane fits holes blank nested (RoCloneWeak V j c host enforce_skip_validation true) s = Fine V t).
Proof.
  intros V sane fits holes blank nested s j p h c host v Hh Hj Sv. cbn [apply]. rewrite Hj. unfold ro_clone_weak.
  rewrite seen_shows in Sv. unfold shows in Sv. cbn [placeof] in Sv. rewrite Sv. cbn [apply_validation_mode].
  assert (X : forall junk, exists t, ro_from_temporary V (create V host c v junk true s) s = Fine V t).
  { intros junk. unfold create. replace (host =? 0) with false by lia. cbn [negb]. unfold ro_from_temporary, take_over, get_buffer, look. cbn [bufs].
    rewrite nth_error_app2, Nat.sub_diag by lia. cbn. unfold check_buffer, look. cbn [bufs]. rewrite nth_error_app2, Nat.sub_diag by lia. cbn. rewrite Nat.eqb_refl. eauto. }
  split; [|apply X]. intros t. unfold create_from_buffer, audit. destruct (sane v); cbn [andb].
  - destruct c as [k|].
    + destruct (fits k v) eqn:Ef.
      * destruct (X (holes v)) as (t' & ->). split; [discriminate|]. intros (_ & [?|(k' & [= <-] & ?)]); congruence.
      * cbn [ro_from_temporary]. split; [intros [= <-]; split; [reflexivity|right; eauto]|]. intros (-> & _). reflexivity.
    + destruct (X (holes v)) as (t' & ->). split; [discriminate|]. intros (_ & [?|(k' & ? & ?)]); congruence.
  - cbn [ro_from_temporary]. split; [intros [= <-]; auto|]. intros (-> & _). reflexivity.
Qed.
(** growing forgets the holes *)
Theorem C66_growth_forgets_holes_refuted : exists s t u, toy_reach true s /\
  Forall (sound (fun _ => true) (fun c t => t_kind t =? c) t_holes) (bufs toy s) /\ toy_call (RwRegrow toy 0 true) s = Fine toy t /\
  nth_error (slots toy t) 0 = Some (RW (Some 1%nat)) /\ nth_error (bufs toy t) 1 = Some u /\ t_holes (b_val toy u) = (2, 5) /\ b_junk toy u = (0, 0).
Proof.
  exists (mkSt toy [mkBuf toy 1 0 false false 2 None (Toy 4 2 5 None) (2, 5)] [RW (Some 0%nat)]),
    (mkSt toy [mkBuf toy 1 1 false false 2 None (Toy 4 2 5 None) (2, 5); mkBuf toy 1 0 false false 2 None (Toy 4 2 5 None) (0, 0)]
       [RW (Some 1%nat)]), (mkBuf toy 1 0 false false 2 None (Toy 4 2 5 None) (0, 0)).
  split; [played true [RwNew toy 2 None true; RwWrite toy 0 (Toy 4 2 5 None)]|].
  split; [constructor; [|constructor]; split; [reflexivity|]; split; [reflexivity|intros d E; discriminate]|]. vm_compute. repeat split.
Qed.

Print Assumptions C63_counters.
Print Assumptions C63_all_given_back.
Print Assumptions C63_no_use_after_free.
Print Assumptions C63_throwing_changes_nothing.
Print Assumptions C64_isolated_partial.
Print Assumptions C64_sole_writer_partial.
Print Assumptions C64_nested_of_writer_refuted.
Print Assumptions C64_dangling_refuted.
Print Assumptions C65_new_variable.
Print Assumptions C65_clone_shared.
Print Assumptions C65_clone_modifiable.
Print Assumptions C66_modes.
Print Assumptions C65_assigned.
Print Assumptions C65_grown.
Print Assumptions C65_self_move_refuted.
Print Assumptions C65_self_move_rw.
Print Assumptions C65_terminate_refuted.
Print Assumptions C65_absent_nested.
Print Assumptions C65_clone_in_plain_throws.
Print Assumptions C66_kept_partial.
Print Assumptions C66_schema_not_checked_refuted.
Print Assumptions C66_validated_without_schema.
Print Assumptions C66_growth_forgets_holes_refuted.
