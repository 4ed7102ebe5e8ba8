(** * Proofs about the validator *)
From Verif Require Import Base Tag TagProofs Hippeus HippeusProofs Scan ScanProofs Gear GearBase Audit.
From Coq Require Import ZifyBool ZifyNat.
Ltac Zify.zify_post_hook ::= Z.div_mod_to_equations.

(** ** The interval map *)
(** ascending, with a gap between neighbours, all above [lo] *)
Fixpoint wf (lo : Z) (l : imap) : Prop :=
  match l with [] => True | (b, e) :: t => lo < b /\ b <= e /\ wf e t end.
Fixpoint hi (lo : Z) (l : imap) : Z := match l with [] => lo | (b, e) :: t => hi e t end.
(** how many intervals hold [x] *)
Fixpoint cov (l : imap) (x : Z) : Z := match l with [] => 0 | (b, e) :: t => ind b (e - b) x + cov t x end.
Definition nonempty (l : imap) : Prop := Forall (fun p => fst p < snd p) l.

Lemma wf_app : forall a b lo, wf lo (a ++ b) <-> wf lo a /\ wf (hi lo a) b.
Proof.
  induction a as [|[f t] a IH]; intros b lo; cbn [app wf hi]; [tauto|]. rewrite IH. tauto.
Qed.
Lemma hi_app : forall a b lo, hi lo (a ++ b) = hi (hi lo a) b.
Proof. induction a as [|[f t] a IH]; intros b lo; cbn [app hi]; [reflexivity|]. apply IH. Qed.
Lemma cov_app : forall a b x, cov (a ++ b) x = cov a x + cov b x.
Proof. induction a as [|[f t] a IH]; intros b x; cbn [app cov]; [lia|]. rewrite IH. lia. Qed.
Lemma wf_hi : forall l lo, wf lo l -> lo <= hi lo l.
Proof. induction l as [|[f t] l IH]; intros lo H; cbn [hi wf] in *; [lia|]. destruct H as (A & B & C). specialize (IH _ C). lia. Qed.
Lemma cov_range : forall l lo x, wf lo l -> 0 <= cov l x <= 1 /\ (0 < cov l x -> lo < x < hi lo l).
Proof.
  induction l as [|[f t] l IH]; intros lo x H; cbn [cov wf hi] in *; [lia|]. destruct H as (A & B & C).
  specialize (IH t x C). pose proof (ind_range f (t - f) x). pose proof (wf_hi _ _ C).
  destruct (Z.eq_dec (ind f (t - f) x) 0) as [E|E].
  - rewrite E. split; [lia|]. intros P. lia.
  - assert (Q := ind_1_inv f (t - f) x ltac:(lia)). assert (cov l x = 0) by lia. rewrite H1. lia.
Qed.

(** the split of [upper_bound] *)
Lemma ub_spec : forall e l before lo, wf lo (rev before ++ l) -> (forall p, In p before -> fst p <= e) ->
  let (bf, af) := ub e before l in
  rev bf ++ af = rev before ++ l /\ (forall p, In p bf -> fst p <= e) /\
  match af with [] => True | (f, _) :: _ => e < f end.
Proof.
  intros e l. induction l as [|[f t] l IH]; intros before lo W B; cbn [ub].
  - split; [reflexivity|]. split; [assumption|exact I].
  - destruct (e <? f) eqn:E.
    + split; [reflexivity|]. split; [assumption|lia].
    + specialize (IH ((f, t) :: before) lo). cbn [rev] in IH. rewrite <- app_assoc in IH. cbn [app] in IH.
      apply IH; [assumption|]. intros p [<-|P]; [cbn [fst]; lia|auto].
Qed.

(** an accepted interval is disjoint from the map, and the result is its union with the map *)
Theorem map_insert_sound : forall l b e lo l', wf lo l -> lo < b -> b <= e -> map_insert l b e = Some l' ->
  wf lo l' /\ forall x, cov l' x = cov l x + ind b (e - b) x.
Proof.
  intros l b e lo l' W Lb Lbe H. unfold map_insert in H. pose proof (ub_spec e l [] lo W ltac:(intros p [])) as U.
  cbn [rev app] in U. destruct (ub e [] l) as [bf af]. destruct U as (EQ & Bf & Af).
  rewrite <- EQ in *. clear EQ l. apply wf_app in W as [W1 W2].
  assert (A2 : forall z, z <= e -> wf e af).
  { intros _ _. destruct af as [|[f t] r]; [exact I|]. cbn [wf] in *. tauto. }
  specialize (A2 e ltac:(lia)).
  destruct bf as [|[hb he] prevs].
  - injection H as <-. cbn [rev app] in *. split; [cbn [wf]; tauto|]. intros x. cbn [cov]. lia.
  - cbn [rev] in *. assert (H1 : hb <= e) by (apply (Bf (hb, he)); left; reflexivity).
    apply wf_app in W1 as [W0 W1]. cbn [wf] in W1. destruct W1 as (P1 & P2 & _).
    destruct (he <? b) eqn:C1.
    + injection H as <-. rewrite <- !app_assoc. cbn [app]. split.
      * apply wf_app. cbn [wf]. repeat split; try assumption; lia.
      * intros x. rewrite !cov_app. cbn [cov]. lia.
    + rewrite hi_app in W2. cbn [hi] in W2. destruct (hb =? e) eqn:C2.
      * destruct prevs as [|[pb pe] pps].
        -- injection H as <-. cbn [rev app hi wf] in *. split; [repeat split; try assumption; lia|].
           intros x. cbn [cov]. replace hb with e in * by lia.
           replace (he - b) with ((e - b) + (he - e)) by lia. rewrite ind_split by lia. replace (b + (e - b)) with e by lia. lia.
        -- cbn [rev] in *. apply wf_app in W0 as [W00 W0]. cbn [wf] in W0. destruct W0 as (Q1 & Q2 & _).
           rewrite hi_app in P1. cbn [hi] in P1.
           destruct (pe >? b) eqn:C3; [discriminate|]. destruct (pe =? b) eqn:C4; injection H as <-.
           ++ split.
              ** apply wf_app. cbn [wf]. repeat split; try assumption; lia.
              ** intros x. rewrite !cov_app. cbn [cov]. replace pe with b in * by lia. replace hb with e in * by lia.
                 replace (he - pb) with ((b - pb) + ((e - b) + (he - e))) by lia. rewrite !ind_split by lia.
                 replace (pb + (b - pb)) with b by lia. replace (b + (e - b)) with e by lia. lia.
           ++ rewrite <- !app_assoc. cbn [app]. split.
              ** apply wf_app. cbn [wf]. repeat split; try assumption; lia.
              ** intros x. rewrite !cov_app. cbn [cov]. replace hb with e in * by lia.
                 replace (he - b) with ((e - b) + (he - e)) by lia. rewrite ind_split by lia. replace (b + (e - b)) with e by lia. lia.
      * destruct (b =? he) eqn:C5; [|discriminate]. injection H as <-. split.
        -- apply wf_app. cbn [wf]. repeat split; try assumption; lia.
        -- intros x. rewrite !cov_app. cbn [cov]. replace he with b in * by lia.
           replace (e - hb) with ((b - hb) + (e - b)) by lia. rewrite ind_split by lia. replace (hb + (b - hb)) with b by lia. lia.
Qed.
Lemma nonempty_app : forall a b, nonempty (a ++ b) <-> nonempty a /\ nonempty b.
Proof. intros. apply Forall_app. Qed.
Lemma map_insert_nonempty : forall l b e lo l', wf lo l -> nonempty l -> lo < b -> b < e -> map_insert l b e = Some l' -> nonempty l'.
Proof.
  intros l b e lo l' W N Lb Lbe H. unfold map_insert in H. pose proof (ub_spec e l [] lo W ltac:(intros p [])) as U.
  cbn [rev app] in U. destruct (ub e [] l) as [bf af]. destruct U as (EQ & Bf & Af).
  rewrite <- EQ in *. clear EQ l. apply nonempty_app in N as [N1 N2].
  assert (One : forall f t, f < t -> nonempty [(f, t)]) by (intros; repeat constructor; assumption).
  destruct bf as [|[hb he] prevs].
  - injection H as <-. constructor; assumption.
  - cbn [rev] in *. apply nonempty_app in N1 as [N0 N1]. inversion N1 as [|? ? K1 _]; subst. cbn [fst snd] in K1.
    destruct (he <? b) eqn:C1.
    + injection H as <-. apply nonempty_app. split; [apply nonempty_app; split; auto|]. constructor; [exact Lbe|assumption].
    + destruct (hb =? e) eqn:C2.
      * destruct prevs as [|[pb pe] pps].
        -- injection H as <-. constructor; [cbn; lia|assumption].
        -- cbn [rev] in N0. pose proof N0 as N0'. apply nonempty_app in N0' as [N00 N01]. inversion N01 as [|? ? K2 _]; subst. cbn [fst snd] in K2.
           destruct (pe >? b) eqn:C3; [discriminate|]. destruct (pe =? b) eqn:C4; injection H as <-.
           ++ apply nonempty_app. split; [assumption|]. constructor; [cbn; lia|assumption].
           ++ apply nonempty_app. split; [assumption|]. constructor; [cbn; lia|assumption].
      * destruct (b =? he) eqn:C5; [|discriminate]. injection H as <-. apply nonempty_app. split; [assumption|].
        constructor; [cbn; lia|assumption].
Qed.
(** a refused interval does overlap *)
Theorem map_insert_complete : forall l b e lo, wf lo l -> nonempty l -> b < e ->
  map_insert l b e = None -> exists x, b <= x < e /\ 0 < cov l x.
Proof.
  intros l b e lo W N Lbe H. unfold map_insert in H. pose proof (ub_spec e l [] lo W ltac:(intros p [])) as U.
  cbn [rev app] in U. destruct (ub e [] l) as [bf af]. destruct U as (EQ & Bf & Af).
  rewrite <- EQ in *. clear EQ l. apply nonempty_app in N as [N1 N2].
  assert (G : forall a r f t x, f <= x < t -> 0 < cov (a ++ [(f, t)]) x + cov r x).
  { intros a r f t x Hx. rewrite cov_app. cbn [cov]. rewrite (ind_1 f (t - f)) by lia.
    assert (forall l, 0 <= cov l x). { clear. induction l as [|[f t] l IH]; cbn [cov]; [lia|]. pose proof (ind_range f (t - f) x). lia. }
    pose proof (H0 a). pose proof (H0 r). lia. }
  destruct bf as [|[hb he] prevs]; [discriminate|]. cbn [rev] in *.
  assert (H1 : hb <= e) by (apply (Bf (hb, he)); left; reflexivity).
  apply nonempty_app in N1 as [N0 N1]. inversion N1 as [|? ? K1 _]; subst. cbn [fst snd] in K1.
  apply wf_app in W as [W1 W2]. apply wf_app in W1 as [W0 W1]. cbn [wf] in W1. destruct W1 as (P1 & P2 & _).
  destruct (he <? b) eqn:C1; [discriminate|]. destruct (hb =? e) eqn:C2.
  - destruct prevs as [|[pb pe] pps]; [discriminate|]. cbn [rev] in *. rewrite hi_app in P1. cbn [hi] in P1.
    apply nonempty_app in N0 as [N00 N01]. inversion N01 as [|? ? K2 _]; subst. cbn [fst snd] in K2.
    destruct (pe >? b) eqn:C3; [|destruct (pe =? b); discriminate].
    exists (pe - 1). split; [lia|]. rewrite <- app_assoc, !cov_app. pose proof (G (rev pps) ([(hb, he)] ++ af) pb pe (pe - 1) ltac:(lia)) as Q.
    rewrite !cov_app in Q. lia.
  - destruct (b =? he) eqn:C5; [discriminate|]. exists (Z.max b hb). split; [lia|]. rewrite cov_app. apply G. lia.
Qed.

(** a map that is one interval *)
Lemma single_map : forall l lo b e, wf lo l -> nonempty l -> lo < b -> b < e -> (forall x, cov l x = ind b (e - b) x) -> l = [(b, e)].
Proof.
  intros l lo b e W N Lb Lbe H.
  destruct l as [|[f t] r]. { specialize (H b). cbn [cov] in H. rewrite ind_1 in H by lia. lia. }
  cbn [wf] in W. destruct W as (W1 & W2 & W3). inversion N as [|? ? K1 K2]; subst. cbn [fst snd] in K1. cbn [cov] in H.
  assert (Z0 : forall x, x <= t -> cov r x = 0).
  { intros x Hx. destruct (cov_range r t x W3) as [A B]. lia. }
  assert (F : f = b).
  { destruct (Z.lt_trichotomy f b) as [L|[?|L]]; [|assumption|].
    - specialize (H f). rewrite (ind_1 f) in H by lia. rewrite Z0 in H by lia. unfold ind in H. lia.
    - specialize (H b). rewrite (ind_1 b) in H by lia. rewrite Z0 in H by lia. unfold ind in H. lia. }
  subst f. assert (T : t = e).
  { destruct (Z.lt_trichotomy t e) as [L|[?|L]]; [|assumption|].
    - specialize (H t). rewrite (ind_1 b (e - b)) in H by lia. rewrite Z0 in H by lia. unfold ind in H. lia.
    - specialize (H e). rewrite (ind_1 b (t - b)) in H by lia. rewrite Z0 in H by lia. unfold ind in H. lia. }
  subst t. destruct r as [|[f2 t2] r]; [reflexivity|]. exfalso.
  cbn [wf] in W3. destruct W3 as (V1 & V2 & V3). inversion K2 as [|? ? K3 _]; subst. cbn [fst snd] in K3.
  specialize (H f2). cbn [cov] in H. rewrite (ind_1 f2) in H by lia. destruct (cov_range r t2 f2 V3) as [A _].
  unfold ind in H. lia.
Qed.

(** ** Chunks *)
Lemma check_chunk_trace : forall l c u pb pe, fst (check_chunk l c u pb pe) = [].
Proof.
  intros. unfold check_chunk. destruct (_ <? _); [reflexivity|]. destruct (_ >? _); [reflexivity|]. destruct (_ >? _); [reflexivity|].
  destruct (map_insert _ _ _); reflexivity.
Qed.
Lemma check_chunk_sound : forall l c u pb pe l', wf (-1) l -> 0 <= u -> pe - pb <= 4 * 65535 ->
  snd (check_chunk l c u pb pe) = Good l' ->
  pb <= c /\ c + 4 * u <= pe /\ wf (-1) l' /\ forall x, cov l' x = cov l x + ind ((c - pb) / 4) u x.
Proof.
  intros l c u pb pe l' W Hu Hp H. unfold check_chunk in H. destruct (c <? pb) eqn:C1; [discriminate|].
  destruct (u >? max_field_bytes) eqn:C2; [discriminate|]. destruct (c + 4 * u >? pe) eqn:C3; [discriminate|].
  split; [lia|]. split; [lia|]. unfold u16 in H. change (2 ^ 16) with 65536 in H.
  rewrite !Z.mod_small in H by lia. destruct (map_insert l ((c - pb) / 4) ((c - pb) / 4 + u)) as [l2|] eqn:E; [|discriminate].
  injection H as <-. assert (L1 : -1 < (c - pb) / 4) by lia. assert (L2 : (c - pb) / 4 <= (c - pb) / 4 + u) by lia.
  destruct (map_insert_sound _ _ _ (-1) _ W L1 L2 E) as [A B].
  split; [exact A|]. intros x. rewrite B. f_equal. f_equal. lia.
Qed.
Lemma check_chunk_nonempty : forall l c u pb pe l', wf (-1) l -> nonempty l -> 0 < u -> pe - pb <= 4 * 65535 ->
  snd (check_chunk l c u pb pe) = Good l' -> nonempty l'.
Proof.
  intros l c u pb pe l' W N Hu Hp H. unfold check_chunk in H. destruct (c <? pb) eqn:C1; [discriminate|].
  destruct (u >? max_field_bytes) eqn:C2; [discriminate|]. destruct (c + 4 * u >? pe) eqn:C3; [discriminate|].
  unfold u16 in H. change (2 ^ 16) with 65536 in H.
  rewrite !Z.mod_small in H by lia. destruct (map_insert l ((c - pb) / 4) ((c - pb) / 4 + u)) as [l2|] eqn:E; [|discriminate].
  injection H as <-. assert (L1 : -1 < (c - pb) / 4) by lia. assert (L2 : (c - pb) / 4 < (c - pb) / 4 + u) by lia.
  apply (map_insert_nonempty _ _ _ (-1) _ W N L1 L2 E).
Qed.
Lemma check_chunk_complete : forall l c u pb pe, wf (-1) l -> nonempty l -> 0 < u -> pe - pb <= 4 * 65535 ->
  pb <= c -> c + 4 * u <= pe -> (forall x, 0 < ind ((c - pb) / 4) u x -> cov l x = 0) ->
  exists l', check_chunk l c u pb pe = ([], Good l') /\ nonempty l'.
Proof.
  intros l c u pb pe W N Hu Hp H1 H2 D.
  assert (E : exists l', check_chunk l c u pb pe = ([], Good l')).
  { unfold check_chunk. replace (c <? pb) with false by lia.
    replace (u >? max_field_bytes) with false by (change max_field_bytes with 262132; lia).
    replace (c + 4 * u >? pe) with false by lia. unfold u16. change (2 ^ 16) with 65536. rewrite !Z.mod_small by lia.
    destruct (map_insert l ((c - pb) / 4) ((c - pb) / 4 + u)) as [l2|] eqn:E; [exists l2; reflexivity|]. exfalso.
    assert (L2 : (c - pb) / 4 < (c - pb) / 4 + u) by lia. destruct (map_insert_complete l _ _ (-1) W N L2 E) as (x & Hx & Cx). rewrite D in Cx; [lia|]. rewrite ind_1 by lia. lia. }
  destruct E as (l' & E). exists l'. split; [exact E|]. apply (check_chunk_nonempty l c u pb pe l'); try assumption. rewrite E. reflexivity.
Qed.

(** ** The payload of an entry, read off the image *)
Definition e_desc (m : bmem) (pivot : Z) (k : nat) : Z := half m (entry_addr pivot k + 2).
Definition e_rel (m : bmem) (pivot : Z) (k : nat) : Z := half m (entry_addr pivot k).
Definition e_genus (m : bmem) (pivot : Z) (k : nat) : Z := descriptor2genus (e_desc m pivot k).
Definition e_payload (m : bmem) (pivot : Z) (k : nat) : Z := entry_addr pivot k + 4 * e_rel m pivot k.
Definition e_hole (m : bmem) (pivot : Z) (k : nat) : bool := e_genus m pivot k =? g_hole.
(** units of payload, 0 if it has none *)
Definition e_units (m : bmem) (pivot : Z) (k : nat) : Z :=
  let g := e_genus m pivot k in
  if is_inplaced_genus g then 0
  else if g =? g_hole then descriptor2id (e_desc m pivot k)
  else if g >? g_property then loose_units g
  else if e_rel m pivot k =? 0 then 0 else brutto_at m g (e_payload m pivot k).
Definition e_start (m : bmem) (pivot : Z) (k : nat) : Z := e_rel m pivot k - (Z.of_nat k + 1).

Lemma e_start_addr : forall m pivot k, (e_payload m pivot k - pivot) / 4 = e_start m pivot k.
Proof.
  intros. unfold e_payload, e_start, entry_addr. set (r := e_rel m pivot k).
  replace (pivot - 4 * (Z.of_nat k + 1) + 4 * r - pivot) with ((r - (Z.of_nat k + 1)) * 4) by lia. apply Z.div_mul. lia.
Qed.
Lemma half_range : forall m a, bytes_mem m -> 0 <= half m a < 65536.
Proof. intros m a H. unfold half. pose proof (H a). pose proof (H (a + 1)). lia. Qed.
Lemma brutto_at_range : forall m g p, bytes_mem m -> 0 <= brutto_at m g p.
Proof.
  intros m g p H. unfold brutto_at. pose proof (H p). pose proof (half_range m (p + 1) H). pose proof (half_range m p H).
  destruct (g =? 0). { destruct (m p <? 254); rewrite bytes2units_div; lia. }
  destruct ((g =? 1) || (g =? 2)); [lia|]. rewrite bytes2units_div. lia.
Qed.
(** only binary data and nested tuples may claim to have no units at all *)
Lemma brutto_at_pos : forall m g p, bytes_mem m -> g <> 1 -> g <> 2 -> 0 < brutto_at m g p.
Proof.
  intros m g p H N1 N2. unfold brutto_at. pose proof (H p). pose proof (half_range m (p + 1) H).
  destruct (g =? 0). { destruct (m p <? 254); rewrite bytes2units_div; lia. }
  replace ((g =? 1) || (g =? 2)) with false by lia. rewrite bytes2units_div. lia.
Qed.
Lemma loose_units_pos : forall g, 3 < g < 31 -> is_inplaced_genus g = false -> 0 < loose_units g <= 16.
Proof.
  intros g Hg. assert (A : all_below 31 (fun g => (g <=? 3) || is_inplaced_genus g || ((0 <? loose_units g) && (loose_units g <=? 16))) = true) by (vm_compute; reflexivity).
  pose proof (all_below_spec _ _ A g ltac:(lia)) as Q. cbv beta in Q. intros E. rewrite E in Q. lia.
Qed.
Lemma genus_range : forall m a, bytes_mem m -> 0 <= descriptor2genus (half m a) < 32.
Proof. intros m a H. rewrite descriptor2genus_arith. pose proof (half_range m a H). lia. Qed.
Lemma e_units_range : forall m pivot k, bytes_mem m -> 0 <= e_units m pivot k.
Proof.
  intros m pivot k H. unfold e_units. destruct (is_inplaced_genus _) eqn:E; [lia|].
  destruct (_ =? g_hole) eqn:E1. { rewrite descriptor2id_arith. lia. }
  pose proof (genus_range m (entry_addr pivot k + 2) H). fold (e_desc m pivot k) (e_genus m pivot k) in *.
  unfold e_genus, e_desc in *.
  destruct (_ >? g_property) eqn:E2. { change g_hole with 31 in E1. change g_property with 3 in E2.
    pose proof (loose_units_pos (descriptor2genus (half m (entry_addr pivot k + 2))) ltac:(lia) E). lia. }
  destruct (_ =? 0); [lia|]. apply brutto_at_range. assumption.
Qed.

Definition holes_upto (m : bmem) (pivot : Z) (n : nat) : Z := sumn n (fun k => Z.b2z (e_hole m pivot k)).
Definition volume_upto (m : bmem) (pivot : Z) (n : nat) : Z := sumn n (fun k => if e_hole m pivot k then e_units m pivot k else 0).
Definition cover_upto (m : bmem) (pivot : Z) (n : nat) (x : Z) : Z := sumn n (fun k => ind (e_start m pivot k) (e_units m pivot k) x).

Lemma bindc_good : forall {A B} (c : chk A) (f : A -> chk B) b, snd (bindc c f) = Good b ->
  exists a, snd c = Good a /\ snd (f a) = Good b.
Proof. intros A B [t [a| |]] f b H; cbn in *; try discriminate. exists a. split; [reflexivity|exact H]. Qed.
Lemma after_snd : forall {A} t (c : chk A), snd (after t c) = snd c.
Proof. reflexivity. Qed.

(** one entry accepted *)
Lemma check_loose_sound : forall m au pivot pe k au', bytes_mem m -> wf (-1) (amap au) -> pe - pivot <= 4 * 65535 ->
  snd (check_loose m au (entry_addr pivot k) pivot pe) = Good au' ->
  wf (-1) (amap au') /\
  (forall x, cov (amap au') x = cov (amap au) x + ind (e_start m pivot k) (e_units m pivot k) x) /\
  acount au' = acount au + Z.b2z (e_hole m pivot k) /\
  avol au' = avol au + (if e_hole m pivot k then e_units m pivot k else 0) /\
  (0 < e_units m pivot k -> e_rel m pivot k <> 0) /\
  (e_rel m pivot k <> 0 -> is_inplaced_genus (e_genus m pivot k) = false ->
     pivot <= e_payload m pivot k /\ e_payload m pivot k + 4 * e_units m pivot k <= pe).
Proof.
  intros m au pivot pe k au' Hm W Hp H.
  pose proof (e_units_range m pivot k Hm) as UR. pose proof (half_range m (entry_addr pivot k) Hm) as RR.
  assert (E0 : forall u, u = 0 -> forall x, ind (e_start m pivot k) u x = 0) by (intros u -> x; apply ind_0; lia).
  pose proof (genus_range m (entry_addr pivot k + 2) Hm) as GR.
  unfold check_loose in H. rewrite after_snd in H.
  fold (e_desc m pivot k) (e_rel m pivot k) in H, RR, GR.
  change (entry_addr pivot k + 4 * e_rel m pivot k) with (e_payload m pivot k) in H.
  unfold e_hole. unfold e_units in *. unfold e_genus in *.
  set (g := descriptor2genus (e_desc m pivot k)) in *.
  destruct (is_inplaced_genus g) eqn:EI.
  { injection H as <-. assert (NH : (g =? g_hole) = false) by (unfold is_inplaced_genus in EI; change g_hole with 31; change g_i8 with 4 in EI; change g_u8 with 5 in EI; change g_i16 with 6 in EI; change g_u16 with 7 in EI; lia).
    rewrite NH. split; [assumption|]. split; [intros x; rewrite E0 by reflexivity; lia|]. split; [cbn [Z.b2z]; lia|]. split; [lia|]. split; [lia|]. intros _ F. discriminate. }
  rewrite after_snd in H. destruct (g =? g_hole) eqn:EH.
  { destruct (descriptor2id (e_desc m pivot k) =? 0) eqn:EU.
    - destruct (e_rel m pivot k >? 0) eqn:ER; [discriminate|]. injection H as <-. cbn [amap acount avol Z.b2z].
      split; [assumption|]. split; [intros x; rewrite E0 by lia; lia|]. split; [lia|]. split; [lia|]. split; [lia|]. lia.
    - destruct (e_rel m pivot k >? 0) eqn:ER; [|discriminate]. cbn [negb] in H.
      apply bindc_good in H as (l & H1 & H2). injection H2 as <-. cbn [amap acount avol Z.b2z] in *.
      destruct (check_chunk_sound _ _ _ _ _ _ W UR Hp H1) as (A & B & C & D). rewrite e_start_addr in D.
      split; [assumption|]. split; [assumption|]. split; [lia|]. split; [lia|]. split; [lia|]. intros _ _. split; assumption. }
  cbn [Z.b2z]. destruct (g >? g_property) eqn:EF.
  { destruct (e_rel m pivot k >? 0) eqn:ER; [|discriminate]. cbn [negb] in H.
    apply bindc_good in H as (l & H1 & H2). injection H2 as <-. unfold with_map. cbn [amap acount avol] in *.
    destruct (check_chunk_sound _ _ _ _ _ _ W UR Hp H1) as (A & B & C & D). rewrite e_start_addr in D.
    split; [assumption|]. split; [assumption|]. split; [lia|]. split; [lia|]. split; [lia|]. intros _ _. split; assumption. }
  destruct (e_rel m pivot k >? 0) eqn:ER.
  - rewrite after_snd in H. replace (e_rel m pivot k =? 0) with false in * by lia.
    apply bindc_good in H as (l & H1 & H2). injection H2 as <-. unfold with_map. cbn [amap acount avol] in *.
    destruct (check_chunk_sound _ _ _ _ _ _ W UR Hp H1) as (A & B & C & D). rewrite e_start_addr in D.
    split; [assumption|]. split; [assumption|]. split; [lia|]. split; [lia|]. split; [lia|]. intros _ _. split; assumption.
  - injection H as <-. replace (e_rel m pivot k =? 0) with true in * by lia.
    split; [assumption|]. split; [intros x; rewrite E0 by reflexivity; lia|]. split; [lia|]. split; [lia|]. split; [lia|]. lia.
Qed.
Lemma check_index_sound : forall m pivot pe n au, bytes_mem m -> pe - pivot <= 4 * 65535 ->
  snd (check_index m pivot pe n) = Good au ->
  wf (-1) (amap au) /\ (forall x, cov (amap au) x = cover_upto m pivot n x) /\
  acount au = holes_upto m pivot n /\ avol au = volume_upto m pivot n /\
  forall k, (k < n)%nat -> (0 < e_units m pivot k -> e_rel m pivot k <> 0) /\
     (e_rel m pivot k <> 0 -> is_inplaced_genus (e_genus m pivot k) = false ->
        pivot <= e_payload m pivot k /\ e_payload m pivot k + 4 * e_units m pivot k <= pe).
Proof.
  intros m pivot pe n. induction n as [|n IH]; intros au Hm Hp H.
  - injection H as <-. cbn. repeat split; lia.
  - cbn [check_index] in H. apply bindc_good in H as (au0 & H1 & H2).
    destruct (IH au0 Hm Hp H1) as (A & B & C & D & F).
    destruct (check_loose_sound m au0 pivot pe n au Hm A Hp H2) as (A' & B' & C' & D' & F1 & F2).
    unfold cover_upto, holes_upto, volume_upto in *. cbn [sumn]. split; [assumption|]. split; [intros x; rewrite B', B; reflexivity|].
    split; [lia|]. split; [lia|]. intros k Hk. destruct (Nat.eq_dec k n) as [->|N]; [split; assumption|apply F; lia].
Qed.

(** ** Preplaced references *)
(** byte address of the payload, units, offset of the start, for the token (type, offset) *)
Definition t_rel (m : bmem) (pivot : Z) (t : Z * Z) : Z := half m (pivot + snd t).
Definition t_payload (m : bmem) (pivot : Z) (t : Z * Z) : Z := pivot + snd t + 4 * t_rel m pivot t.
Definition t_units (m : bmem) (pivot : Z) (t : Z * Z) : Z :=
  if fst t >? g_property then 0 else if t_rel m pivot t =? 0 then 0 else brutto_at m (fst t) (t_payload m pivot t).
Definition t_start (m : bmem) (pivot : Z) (t : Z * Z) : Z := (t_payload m pivot t - pivot) / 4.
Fixpoint cover_toks (m : bmem) (pivot : Z) (toks : list (Z * Z)) (x : Z) : Z :=
  match toks with [] => 0 | t :: r => ind (t_start m pivot t) (t_units m pivot t) x + cover_toks m pivot r x end.
Lemma t_units_range : forall m pivot t, bytes_mem m -> 0 <= t_units m pivot t.
Proof.
  intros m pivot t H. unfold t_units. destruct (_ >? _); [lia|]. destruct (_ =? _); [lia|]. apply brutto_at_range. assumption.
Qed.
Lemma check_preplaced_sound : forall m pivot pe toks l l', bytes_mem m -> wf (-1) l -> pe - pivot <= 4 * 65535 ->
  snd (check_preplaced m l pivot pe toks) = Good l' ->
  wf (-1) l' /\ (forall x, cov l' x = cov l x + cover_toks m pivot toks x) /\
  forall t, In t toks -> fst t <= g_property -> t_rel m pivot t <> 0 ->
     pivot <= t_payload m pivot t /\ t_payload m pivot t + 4 * t_units m pivot t <= pe.
Proof.
  intros m pivot pe toks. induction toks as [|[g off] toks IH]; intros l l' Hm W Hp H.
  - injection H as <-. split; [assumption|]. split; [intros x; cbn; lia|]. intros t [].
  - pose proof (t_units_range m pivot (g, off) Hm) as UR. pose proof (half_range m (pivot + off) Hm) as RR.
    cbn [check_preplaced] in H. cbn [cover_toks]. unfold t_units at 1. cbn [fst]. destruct (g >? g_property) eqn:EG.
    + destruct (IH _ _ Hm W Hp H) as (A & B & C). split; [assumption|]. split; [intros x; rewrite B, ind_0 by lia; lia|].
      intros t [<-|I] Ht; [cbn [fst] in Ht; lia|]. apply C; assumption.
    + rewrite after_snd in H. unfold t_units in UR. cbn [fst] in UR. rewrite EG in UR.
      change (half m (pivot + off)) with (t_rel m pivot (g, off)) in *.
      change (pivot + off + 4 * t_rel m pivot (g, off)) with (t_payload m pivot (g, off)) in H.
      destruct (t_rel m pivot (g, off) >? 0) eqn:ER; cbn [negb] in H.
      * rewrite after_snd in H. replace (t_rel m pivot (g, off) =? 0) with false in * by lia.
        apply bindc_good in H as (l2 & H1 & H2). destruct (check_chunk_sound _ _ _ _ _ _ W UR Hp H1) as (A & B & C & D).
        destruct (IH _ _ Hm C Hp H2) as (A' & B' & C'). split; [assumption|]. split.
        -- intros x. rewrite B', D. unfold t_start. lia.
        -- intros t [<-|I] Ht Rt; [|apply C'; assumption]. unfold t_units. cbn [fst]. rewrite EG.
           replace (t_rel m pivot (g, off) =? 0) with false by lia. split; assumption.
      * destruct (IH _ _ Hm W Hp H) as (A & B & C). replace (t_rel m pivot (g, off) =? 0) with true by lia.
        split; [assumption|]. split; [intros x; rewrite B, ind_0 by lia; lia|]. intros t [<-|I] Ht Rt; [lia|]. apply C; assumption.
Qed.

(** ** Acceptance *)
Definition pbytes_of (schema : option sch) : Z := match schema with Some s => sbytes s | None => 0 end.
Definition toks_of (schema : option sch) : list (Z * Z) := match schema with Some s => stoks s | None => [] end.
Lemma single_length : forall (l : imap), Z.of_nat (length l) >? 1 = false -> l <> [] -> exists b e, l = [(b, e)].
Proof. intros [|[b e] [|q r]] H N; [congruence| |cbn [length] in H; lia]. exists b, e. reflexivity. Qed.

Theorem audit_tuple_sound : forall m schema pivot n pe fl info, bytes_mem m -> 0 <= pe - pivot <= 4 * 65535 -> (pe - pivot) mod 4 = 0 ->
  0 <= pbytes_of schema ->
  snd (audit_tuple m schema pivot n pe fl) = Good info ->
  info = (holes_upto m pivot n, volume_upto m pivot n) /\
  (forall k, (k < n)%nat -> (0 < e_units m pivot k -> e_rel m pivot k <> 0) /\
     (e_rel m pivot k <> 0 -> is_inplaced_genus (e_genus m pivot k) = false ->
        pivot <= e_payload m pivot k /\ e_payload m pivot k + 4 * e_units m pivot k <= pe)) /\
  (pbytes_of schema <> 0 -> pbytes_of schema <= pe - pivot /\
   forall t, In t (toks_of schema) -> fst t <= g_property -> t_rel m pivot t <> 0 ->
     pivot <= t_payload m pivot t /\ t_payload m pivot t + 4 * t_units m pivot t <= pe) /\
  let total x := cover_upto m pivot n x + (if pbytes_of schema =? 0 then 0 else cover_toks m pivot (toks_of schema) x) in
  let pre := bytes2units (pbytes_of schema) in
  (forall x, total x = 0) \/ (pre <= (pe - pivot) / 4 /\ forall x, total x = ind pre ((pe - pivot) / 4 - pre) x).
Proof.
  intros m schema pivot n pe fl info Hm Hp Hq Hs H. unfold audit_tuple in H. fold (pbytes_of schema) in H. fold (toks_of schema) in H.
  destruct (_ >? max_fields); [discriminate|]. apply bindc_good in H as (au & H1 & H).
  destruct (check_index_sound m pivot pe n au Hm ltac:(lia) H1) as (A & B & C & D & F).
  destruct (acount au >? 32767); [discriminate|]. destruct (avol au >? 65535); [discriminate|].
  destruct (f_preplaced fl && _); [discriminate|]. destruct (negb (Bool.eqb _ _)); [discriminate|].
  apply bindc_good in H as (l & H2 & H).
  set (total := fun x => cover_upto m pivot n x + (if pbytes_of schema =? 0 then 0 else cover_toks m pivot (toks_of schema) x)).
  assert (G : wf (-1) l /\ (forall x, cov l x = total x) /\
    (pbytes_of schema <> 0 -> pbytes_of schema <= pe - pivot /\
     forall t, In t (toks_of schema) -> fst t <= g_property -> t_rel m pivot t <> 0 ->
       pivot <= t_payload m pivot t /\ t_payload m pivot t + 4 * t_units m pivot t <= pe)).
  { unfold total. destruct (pbytes_of schema =? 0) eqn:E0.
    - injection H2 as <-. split; [assumption|]. split; [intros x; rewrite B; lia|]. lia.
    - destruct (_ && _); [discriminate|]. destruct (pbytes_of schema >? pe - pivot) eqn:E2; [discriminate|].
      destruct (check_preplaced_sound m pivot pe _ _ _ Hm A ltac:(lia) H2) as (A' & B' & C').
      split; [assumption|]. split; [intros x; rewrite B', B; reflexivity|]. intros _. split; [lia|exact C']. }
  destruct G as (Wl & Cl & Tl). apply bindc_good in H as (u & H3 & H4).
  assert (I : info = (acount au, avol au)).
  { destruct (f_sorted fl); [|injection H4 as <-; reflexivity]. rewrite after_snd in H4. destruct (is_sorted_from _ _ _); [|discriminate].
    injection H4 as <-. reflexivity. }
  split; [rewrite I, C, D; reflexivity|]. split; [exact F|]. split; [exact Tl|].
  destruct l as [|p l].
  - left. intros x. change (total x = 0). rewrite <- Cl. reflexivity.
  - right. remember (p :: l) as q eqn:Eq.
    assert (N : q <> []) by (rewrite Eq; discriminate).
    destruct q as [|p2 l2]; [congruence|]. rewrite Eq in *. clear Eq p2 l2 N.
    destruct (negb (Bool.eqb (f_preplaced fl) (map_begin (p :: l) >? 0))); [discriminate|].
    destruct (negb (map_begin (p :: l) =? bytes2units (pbytes_of schema))) eqn:E1; [discriminate|].
    destruct (negb (pivot + 4 * map_end (p :: l) =? pe)) eqn:E2; [discriminate|].
    destruct (Z.of_nat (length (p :: l)) >? 1) eqn:E3; [discriminate|].
    destruct (single_length _ E3 ltac:(discriminate)) as (b & e & E). rewrite E in *.
    cbn [map_begin map_end last snd] in E1, E2. cbn [wf] in Wl.
    assert (b = bytes2units (pbytes_of schema)) by lia. assert (Ee : e = (pe - pivot) / 4) by lia. subst b.
    split; [lia|]. intros x. change (total x = ind (bytes2units (pbytes_of schema)) ((pe - pivot) / 4 - bytes2units (pbytes_of schema)) x).
    rewrite <- Cl. cbn [cov]. rewrite Ee. lia.
Qed.

(** ** What is read *)
Lemma bindc_reads : forall {A B} (P : Z * Z -> Prop) (c : chk A) (f : A -> chk B), Forall P (fst c) ->
  (forall a, snd c = Good a -> Forall P (fst (f a))) -> Forall P (fst (bindc c f)).
Proof.
  intros A B P [t [a| |]] f H1 H2; cbn in *; try assumption. apply Forall_app. split; [assumption|]. apply H2. reflexivity.
Qed.
Lemma after_reads : forall {A} (P : Z * Z -> Prop) t (c : chk A), Forall P t -> Forall P (fst c) -> Forall P (fst (after t c)).
Proof. intros. cbn. apply Forall_app. split; assumption. Qed.
Lemma check_loose_reads : forall (P : Z * Z -> Prop) m au pivot pe k,
  P (entry_addr pivot k + 2, 2) -> P (entry_addr pivot k, 2) ->
  (e_genus m pivot k <= g_property -> is_inplaced_genus (e_genus m pivot k) = false -> e_rel m pivot k <> 0 -> Forall P (brutto_reads m (e_genus m pivot k) (e_payload m pivot k))) ->
  Forall P (fst (check_loose m au (entry_addr pivot k) pivot pe)).
Proof.
  intros P m au pivot pe k H1 H2 H3. unfold check_loose.
  change (descriptor2genus (half m (entry_addr pivot k + 2))) with (e_genus m pivot k).
  change (half m (entry_addr pivot k)) with (e_rel m pivot k).
  change (entry_addr pivot k + 4 * e_rel m pivot k) with (e_payload m pivot k).
  assert (CC : forall {B} l u (f : imap -> chk B), (forall a, Forall P (fst (f a))) -> Forall P (fst (bindc (check_chunk l (e_payload m pivot k) u pivot pe) f))).
  { intros B l u f Hf. apply bindc_reads; [rewrite check_chunk_trace; constructor|]. intros a _. apply Hf. }
  apply after_reads; [repeat constructor; assumption|]. destruct (is_inplaced_genus _) eqn:EI; [constructor|].
  apply after_reads; [repeat constructor; assumption|]. destruct (_ =? g_hole).
  - destruct (_ =? 0). { destruct (_ >? 0); constructor. } destruct (negb _); [constructor|]. apply CC. intros; constructor.
  - destruct (_ >? g_property) eqn:EP. { destruct (negb _); [constructor|]. apply CC. intros; constructor. }
    destruct (_ >? 0) eqn:ER; [|constructor]. apply after_reads; [apply H3; [lia|reflexivity|lia]|]. apply CC. intros; constructor.
Qed.
Lemma check_index_reads : forall (P : Z * Z -> Prop) m pivot pe n,
  (forall k, (k < n)%nat -> P (entry_addr pivot k + 2, 2) /\ P (entry_addr pivot k, 2) /\
     (e_genus m pivot k <= g_property -> e_rel m pivot k <> 0 -> Forall P (brutto_reads m (e_genus m pivot k) (e_payload m pivot k)))) ->
  Forall P (fst (check_index m pivot pe n)).
Proof.
  intros P m pivot pe n. induction n as [|n IH]; intros H; [constructor|]. cbn [check_index]. apply bindc_reads.
  - apply IH. intros k Hk. apply H. lia.
  - intros au _. destruct (H n ltac:(lia)) as (A & B & C). apply check_loose_reads; [assumption..|]. intros; apply C; assumption.
Qed.
Lemma check_preplaced_reads : forall (P : Z * Z -> Prop) m pivot pe toks l,
  (forall t, In t toks -> fst t <= g_property -> P (pivot + snd t, 2) /\
     (t_rel m pivot t <> 0 -> Forall P (brutto_reads m (fst t) (t_payload m pivot t)))) ->
  Forall P (fst (check_preplaced m l pivot pe toks)).
Proof.
  intros P m pivot pe toks. induction toks as [|[g off] toks IH]; intros l H; [constructor|]. cbn [check_preplaced].
  assert (IH' : forall l, Forall P (fst (check_preplaced m l pivot pe toks))) by (intros l'; apply IH; intros t I; apply H; right; assumption).
  destruct (g >? g_property) eqn:E; [apply IH'|]. destruct (H (g, off) ltac:(left; reflexivity) ltac:(cbn [fst]; lia)) as [A B].
  cbn [fst snd] in A, B. change (half m (pivot + off)) with (t_rel m pivot (g, off)).
  change (pivot + off + 4 * t_rel m pivot (g, off)) with (t_payload m pivot (g, off)).
  apply after_reads; [repeat constructor; assumption|]. destruct (negb _) eqn:ER; [apply IH'|].
  apply after_reads; [apply B; lia|]. apply bindc_reads; [rewrite check_chunk_trace; constructor|]. intros; apply IH'.
Qed.
Lemma sorted_reads_in : forall (P : Z * Z -> Prop) a n, (forall k, (k < n)%nat -> P (a + 4 * Z.of_nat k + 2, 2)) -> Forall P (sorted_reads a n).
Proof.
  intros P a n H. unfold sorted_reads. apply Forall_map. apply Forall_forall. intros k Hk. apply in_seq in Hk. apply H. lia.
Qed.
Lemma ite_reads : forall {A} (P : Z * Z -> Prop) (b : bool) (x y : chk A), Forall P (fst x) -> Forall P (fst y) -> Forall P (fst (if b then x else y)).
Proof. intros A P [] x y; trivial. Qed.
Lemma audit_tuple_reads : forall (P : Z * Z -> Prop) m schema pivot n pe fl, f_adjacent fl = false ->
  (forall k, (k < n)%nat -> P (entry_addr pivot k + 2, 2) /\ P (entry_addr pivot k, 2) /\
     (e_genus m pivot k <= g_property -> e_rel m pivot k <> 0 -> Forall P (brutto_reads m (e_genus m pivot k) (e_payload m pivot k)))) ->
  (pbytes_of schema <= pe - pivot -> forall t, In t (toks_of schema) -> fst t <= g_property -> P (pivot + snd t, 2) /\
     (t_rel m pivot t <> 0 -> Forall P (brutto_reads m (fst t) (t_payload m pivot t)))) ->
  Forall P (fst (audit_tuple m schema pivot n pe fl)).
Proof.
  intros P m schema pivot n pe fl HF HI HT. unfold audit_tuple. fold (pbytes_of schema). fold (toks_of schema).
  assert (N : forall A, Forall P (fst (trouble (A := A)))) by constructor.
  destruct (_ >? max_fields); [constructor|]. apply bindc_reads; [apply check_index_reads; assumption|]. intros au _.
  repeat (apply ite_reads; [constructor|]). apply bindc_reads.
  - apply ite_reads; [constructor|]. apply ite_reads; [constructor|]. destruct (pbytes_of schema >? pe - pivot) eqn:E; [constructor|].
    apply check_preplaced_reads. apply HT. lia.
  - intros l _. apply bindc_reads.
    + destruct l; [constructor|]. repeat (apply ite_reads; [constructor|]). rewrite HF. cbn [andb]. constructor.
    + intros _ _. apply ite_reads; [|constructor]. apply after_reads; [|apply ite_reads; constructor].
      apply sorted_reads_in. intros k Hk. destruct (HI (n - 1 - k)%nat ltac:(lia)) as (A & _).
      replace (pivot - 4 * Z.of_nat n + 4 * Z.of_nat k + 2) with (entry_addr pivot (n - 1 - k) + 2) by (unfold entry_addr; lia). assumption.
Qed.
Lemma lite_checkup_good : forall m ptr bytes, snd (lite_checkup m ptr bytes) = Good tt ->
  ptr <> 0 /\ 4 <= bytes <= max_tuple_bytes_netto /\ bytes mod 4 = 0 /\ bytes = 4 * ro_units m ptr /\
  ro_index m ptr <= max_fields /\ ro_pivot m ptr <= ptr + bytes.
Proof.
  intros m ptr bytes H. unfold lite_checkup in H. destruct (ptr =? 0) eqn:E1; [discriminate|]. destruct (bytes <? 4) eqn:E2; [discriminate|].
  destruct (bytes >? max_tuple_bytes_netto) eqn:E3; [discriminate|]. destruct (negb (bytes mod 4 =? 0)) eqn:E4; [discriminate|].
  rewrite after_snd in H. destruct (negb (bytes =? 4 * ro_units m ptr)) eqn:E5; [discriminate|]. rewrite after_snd in H.
  destruct (ro_index m ptr >? max_fields) eqn:E6; [discriminate|]. destruct (ro_pivot m ptr >? ro_end m ptr) eqn:E7; [discriminate|].
  unfold ro_end in E7. clear H. generalize dependent (ro_units m ptr). intros u E5 E7. lia.
Qed.
Lemma ro_index_range : forall m ptr, bytes_mem m -> 0 <= ro_index m ptr < 8192.
Proof.
  intros m ptr H. unfold ro_index. rewrite Z.shiftr_div_pow2 by lia. change (2 ^ 3) with 8. pose proof (half_range m (ptr + 2) H). lia.
Qed.
