(** Corollaries of the storage facts in the form used by the property theorems. *)
From Coq Require Import Sorting.Sorted Sorting.Permutation Znumtheory.
From Verif Require Import Base BaseFacts Value BTree BTreeFacts Float53 Utils UtilsFacts Collection SpecMap
  CollectionFacts Group RoutingFacts GroupFacts GroupCapFacts GroupIterFacts GroupValFacts GroupNewFacts.
Open Scope Z_scope.
Set Implicit Arguments.

(** ** Specification vocabulary *)
(** a collection reached from an empty one by a history of calls *)
Definition c_reachable (c : collection) : Prop :=
  exists u m s ops, Forall wf_op ops /\ c = c_run ops (new_collection u m s).
(** a group reached from one whose (one or more) collections were all empty *)
Definition g_reachable (g : group) : Prop :=
  exists g0 ops, g_fresh g0 /\ (0 < length g0)%nat /\ Forall wf_op ops /\ g = g_run ops g0.
(** history that never calls [setdefault], the one call without a capacity check *)
Definition checked (ops : list mop) : Prop := Forall wf_op ops /\ Forall checked_op ops.

Lemma c_reachable_wf c : c_reachable c -> c_wf c.
Proof. intros (u & m & s & ops & _ & ->). apply c_run_wf, new_collection_wf. Qed.
Lemma g_reachable_wf g : g_reachable g -> g_wf g /\ (0 < length g)%nat.
Proof.
  intros (g0 & ops & F & L & W & ->). destruct (@g_run_wf ops g0) as [A B]; auto using g_fresh_wf. split; auto. lia.
Qed.
Lemma c_reachable_step c o : c_reachable c -> wf_op o -> c_reachable (fst (c_step c o)).
Proof.
  intros (u & m & s & ops & W & ->) Wo. exists u, m, s, (ops ++ [o]). split.
  - apply Forall_app; auto.
  - unfold c_run. rewrite fold_left_app. reflexivity.
Qed.

(** ** C01-C03 *)
Lemma C01_lemma cap mcs :
  1 <= cap < 2 ^ 53 -> 1 <= mcs <= 2 ^ 53 -> cap <= mcs * (2 ^ 52 - 47) ->
  exists n, number_of_collections cap mcs = Ok n
    /\ 1 <= n /\ cap <= n * mcs /\ (forall d, 1 < d < n -> ~ (d | n)) /\ (2 <= n -> prime n)
    /\ forall w, 0 <= w < n -> cap <= w * mcs -> exists d, 1 < d < w /\ (d | w).
Proof.
  intros H1 H2 H3. destruct (number_of_collections_spec _ _ H1 H2 H3) as (n & E & A & B & C & D & M).
  exists n. split; auto. split; auto. split; [nia|]. split; auto. split; [intros; now apply no_divisor_prime|].
  intros w Hw Hc. assert (ND : ~ no_divisor w) by (apply M; auto; nia).
  assert (W1 : 1 < w). { assert (w <> 0) by nia. assert (w <> 1); [|lia]. intros ->. apply ND. intros d Hd. lia. }
  destruct (prime_dec w) as [P|P]; [exfalso; apply ND, no_divisor_prime; auto; lia|].
  apply not_prime_divide in P; auto.
Qed.
Lemma C02_lemma n : 0 <= n < 2 ^ 52 ->
  exists b, is_prime n = Ok b /\ (b = true <-> forall d, 1 < d < n -> ~ (d | n)) /\ (2 <= n -> (b = true <-> prime n)).
Proof.
  intros H. destruct (is_prime_spec _ H) as (b & E & S). exists b. split; auto. split; auto.
  intros H2. rewrite S. now apply no_divisor_prime.
Qed.
Lemma C03_lemma cur mcs :
  1 <= cur <= 2 ^ 51 -> 1 <= mcs <= 2 ^ 53 -> 2 * cur <= mcs * (2 ^ 52 - 47) ->
  exists n, next_number_of_collections cur mcs = Ok n
    /\ 3 * cur <= 2 * (n * mcs) /\ (forall d, 1 < d < n -> ~ (d | n))
    /\ forall w, 0 <= w < n -> 3 * cur <= 2 * (w * mcs) -> exists d, 1 < d < w /\ (d | w).
Proof.
  intros H1 H2 H3. destruct (next_number_of_collections_spec _ _ H1 H2 H3) as (n & E & A & D & M).
  exists n. split; auto. split; [nia|]. split; auto.
  intros w Hw Hc. assert (ND : ~ no_divisor w) by (apply M; auto; nia).
  assert (W1 : 1 < w). { assert (w <> 0) by nia. assert (w <> 1); [|lia]. intros ->. apply ND. intros d Hd. lia. }
  destruct (prime_dec w) as [P|P]; [exfalso; apply ND, no_divisor_prime; auto; lia|].
  apply not_prime_divide in P; auto.
Qed.

(** ** C04 *)
Lemma route_value k n : (0 < n)%nat -> encodable k ->
  exists bs, encode k = Ok bs /\ utf8_decode bs = Some k /\
    get_group_index k n = Ok (N.to_nat (N.modulo (big_endian bs) (N.of_nat n))) /\
    (N.to_nat (N.modulo (big_endian bs) (N.of_nat n)) < n)%nat.
Proof.
  intros Hn E. destruct (encode_spec k) as [HS _]. destruct (HS E) as [bs Hb]. exists bs. split; auto.
  split; [now apply encode_decode|]. unfold get_group_index. rewrite Hb, from_bytes_big_endian. destruct n; [lia|]. split; auto.
  assert (N.modulo (big_endian bs) (N.of_nat (S n)) < N.of_nat (S n))%N by (apply N.mod_lt; lia). lia.
Qed.
Lemma groupfn_local {A} k (f : collection -> collection * res A) (g : group) i j : get_group_index k (length g) = Ok i -> j <> i ->
  nth_error (fst (groupfn k f g)) j = nth_error g j.
Proof.
  intros E N. unfold groupfn. rewrite E. destruct (nth_error g i); auto. destruct (f c) as [c' r]. simpl. apply set_nth_other; auto.
Qed.
Lemma keyed_local (g : group) o k i : keyed o k -> get_group_index k (length g) = Ok i ->
  forall j, j <> i -> nth_error (fst (g_step g o)) j = nth_error g j.
Proof.
  intros K E j N. destruct o; simpl in K; try contradiction; subst; simpl.
  - destruct (g_insert k v g) as [g' r] eqn:H. simpl. unfold g_insert in H. rewrite E in H.
    destruct (_ && _ && _); [injection H as <- <-; auto|]. replace g' with (fst (groupfn k (c_insert k v) g)) by now rewrite H.
    eapply groupfn_local; eauto.
  - unfold g_pop. pose proof (groupfn_local k (c_pop k dflt) g E N) as L. destruct (groupfn k (c_pop k dflt) g). exact L.
  - unfold g_setdefault. pose proof (groupfn_local k (c_setdefault k v) g E N) as L. destruct (groupfn k (c_setdefault k v) g). exact L.
Qed.
Lemma update_local d (g : group) j : (forall kv, In kv d -> get_group_index (fst kv) (length g) <> Ok j) ->
  nth_error (fst (g_step g (Update d))) j = nth_error g j.
Proof.
  intros H. simpl. unfold g_update. destruct (_ && _); auto. destruct (mapM _ d); auto.
  destruct (update_from d (length g) 0 g) as [g' r] eqn:U. simpl.
  assert (SE : share d (length g) j = []).
  { destruct (share d (length g) j) as [|kv l] eqn:E; auto. exfalso. assert (I : In kv (share d (length g) j)) by (rewrite E; simpl; auto).
    apply share_in in I as [I1 I2]. apply (H kv I1 I2). }
  assert (AE : forall c, applied (share d (length g) j) c = c) by (intros []; rewrite SE; reflexivity).
  apply update_from_spec in U as [(-> & L & U)|(-> & L & j0 & c0 & _ & _ & U1 & U2)].
  - destruct (nth_error g j) as [c|] eqn:E.
    + destruct (U j c E) as [U' _]. simpl in U'. now rewrite U', AE.
    + apply nth_error_None. rewrite L. now apply nth_error_None.
  - destruct (Nat.ltb_spec j j0) as [Lt|Ge]; [|now apply U2].
    destruct (nth_error g j) as [c|] eqn:E.
    + destruct (U1 j c E Lt) as [U' _]. simpl in U'. now rewrite U', AE.
    + apply nth_error_None. rewrite L. now apply nth_error_None.
Qed.
Lemma reads_local (g : group) k d i c : get_group_index k (length g) = Ok i -> nth_error g i = Some c ->
  g_get k d g = Ok (c_get k d c) /\ g_has_key k g = Ok (c_has_key k c).
Proof. intros E H. unfold g_get, g_has_key, groupfn. rewrite E, H. auto. Qed.

(** ** C07 *)
Lemma C07_lemma u m ops : 1 <= m -> checked ops ->
  c_size (c_run ops (new_collection u (Some m) true)) <= m.
Proof.
  intros Hm [W C]. pose proof (@c_run_capacity ops (new_collection u (Some m) true)) as H.
  destruct (c_run_meta ops (new_collection u (Some m) true)) as [M _]. rewrite M in H.
  assert (E : c_max (new_collection u (Some m) true) = m) by (simpl; destruct (m =? 0) eqn:E; auto; lia).
  rewrite E in *. apply H; auto using new_collection_wf; try reflexivity; [unfold c_size; simpl; lia|lia].
Qed.
Lemma c_raise_unchanged c o e : c_reachable c -> wf_op o -> snd (c_step c o) = ORaise e -> fst (c_step c o) = c.
Proof.
  intros R W H. destruct (c_step_refines _ o (c_reachable_wf R) W) as [(e' & _ & _ & E)|[_ OK]]; auto.
  rewrite H in OK. inversion OK.
Qed.
(** ** C08 *)
Lemma C08_lemma c k v : 
  (c_strict c = true /\ c_max c <= c_size c -> c_step c (Insert k v) = (c, ORaise CollectionCapacityError)) /\
  (~ (c_strict c = true /\ c_max c <= c_size c) -> forall e, snd (c_step c (Insert k v)) <> ORaise e).
Proof.
  simpl. unfold c_insert. destruct (c_strict c); [|rewrite andb_false_r].
  - rewrite andb_true_r. destruct (c_max c <=? c_size c) eqn:E; split; intros H; simpl.
    + reflexivity.
    + exfalso. apply H. split; auto. lia.
    + lia.
    + intros e. destruct (bt_insert k v (c_tree c)). discriminate.
  - split; intros H; [destruct H; discriminate|]. intros e. destruct (bt_insert k v (c_tree c)). discriminate.
Qed.
(** ** C09 *)
Lemma C09_lemma c lo hi : c_reachable c ->
  (forall k v, In (k, v) (c_iteritems lo hi c) <-> c_abs c k = Some v /\ above lo k /\ below hi k) /\
  StronglySorted slt (map fst (c_iteritems lo hi c)) /\
  c_iterkeys lo hi c = map fst (c_iteritems lo hi c) /\ c_itervalues lo hi c = map snd (c_iteritems lo hi c).
Proof.
  intros R. pose proof (c_reachable_wf R) as W. split; [|split; [|split; reflexivity]].
  - intros k v. unfold c_iteritems, bt_range. rewrite filter_In, andb_true_iff, in_lo_above, in_hi_below. simpl.
    destruct (c_observers _ W) as (_ & _ & _ & I & _). unfold c_items in I. rewrite I. tauto.
  - unfold c_iteritems, bt_range. unfold c_wf, bt_wf in W. clear R. unfold sorted_keys in W. revert W. generalize (c_tree c). intros t W.
    induction t as [|[k v] t IH]; simpl in *; [constructor|]. inversion W as [|? ? W' F]; subst.
    destruct (in_lo lo k && in_hi hi k); simpl; auto. constructor; auto. apply Forall_forall. intros x I.
    rewrite Forall_forall in F. apply F. apply in_map_iff in I as (p & <- & I). apply filter_In in I as [I _]. apply in_map. exact I.
Qed.
(** ** C10 *)
Lemma C10_lemma c lo hi : c_reachable c ->
  match c_minkey lo c with
  | Ok k => c_abs c k <> None /\ above lo k /\ forall j, c_abs c j <> None -> above lo j -> sle k j
  | Err e => e = ValueError /\ forall j, c_abs c j <> None -> ~ above lo j
  end /\
  match c_maxkey hi c with
  | Ok k => c_abs c k <> None /\ below hi k /\ forall j, c_abs c j <> None -> below hi j -> sle j k
  | Err e => e = ValueError /\ forall j, c_abs c j <> None -> ~ below hi j
  end.
Proof.
  intros R. pose proof (c_reachable_wf R) as W. destruct (c_minkey_spec lo _ W) as [A B]. destruct (c_maxkey_spec hi _ W) as [C D].
  split; [destruct (c_minkey lo c); auto|destruct (c_maxkey hi c); auto].
Qed.
(** ** C11 *)
Lemma C11_lemma c k dflt : c_reachable c ->
  (forall v, c_abs c k = Some v -> snd (c_step c (Pop k dflt)) = OVal v /\ removed (c_abs c) k (c_abs (fst (c_step c (Pop k dflt))))) /\
  (c_abs c k = None -> dflt <> VNone -> c_step c (Pop k dflt) = (c, OVal dflt)) /\
  (c_abs c k = None -> dflt = VNone -> c_step c (Pop k dflt) = (c, ORaise KeyError)) /\
  ((forall j, c_abs c j = None) -> c_step c Popitem = (c, ORaise KeyError)) /\
  ((exists j, c_abs c j <> None) -> exists m v, snd (c_step c Popitem) = OPair m v /\ c_abs c m = Some v /\ least_key (c_abs c) m /\
     removed (c_abs c) m (c_abs (fst (c_step c Popitem)))).
Proof.
  intros R. pose proof (c_reachable_wf R) as W.
  pose proof (c_step_refines c (Pop k dflt) W I) as P. pose proof (c_step_refines c Popitem W I) as Q.
  assert (ML : c_abs c k = None -> mem_str k (bt_keys (c_tree c)) = false).
  { intros H. destruct (mem_str k (bt_keys (c_tree c))) eqn:E; auto. unfold mem_str in E. apply existsb_exists in E as (x & I1 & I2).
    apply str_eqb_eq in I2. subst x. apply c_abs_keys in I1. congruence. }
  split; [|split; [|split; [|split]]].
  - intros v H. destruct P as [(e & _ & Rz & _)|[_ P]]; [inversion Rz; congruence|].
    revert P. generalize (snd (c_step c (Pop k dflt))) (c_abs (fst (c_step c (Pop k dflt)))). intros r m' P.
    inversion P; subst; try congruence. split; [congruence|assumption].
  - intros H Hd. simpl. unfold c_pop. rewrite (ML H). unfold c_abs in H. rewrite H. destruct dflt; try reflexivity. congruence.
  - intros H ->. simpl. unfold c_pop. rewrite (ML H). reflexivity.
  - intros H. destruct Q as [(e & E1 & Rz & E2)|[_ Q]].
    + inversion Rz; subst. rewrite (surjective_pairing (c_step c Popitem)). congruence.
    + inversion Q; subst. rewrite H in *. congruence.
  - intros [j H]. destruct Q as [(e & E1 & Rz & E2)|[_ Q]]; [inversion Rz as [| | |HN]; subst; rewrite HN in H; congruence|].
    revert Q. generalize (snd (c_step c Popitem)) (c_abs (fst (c_step c Popitem))). intros r m' Q. inversion Q; subst. exists k0, v. split; [reflexivity|]. split; [assumption|]. split; assumption.
Qed.
(** ** C12 *)
Lemma status_mono s1 s2 mx a b : 0 <= s1 <= s2 -> s2 <= size_bound -> 1 <= mx <= size_bound ->
  status_of s1 mx = Ok a -> status_of s2 mx = Ok b -> a <= b.
Proof.
  intros H1 H2 H3 E1 E2. destruct (@status_spec s1 mx) as (a' & A1 & A2 & A3); [lia|lia|].
  destruct (@status_spec s2 mx) as (b' & B1 & B2 & B3); [lia|lia|].
  assert (a' = a) by congruence. assert (b' = b) by congruence. subst a' b'.
  unfold LEVELS in A2. simpl in A2. destruct A2 as [<-|A2].
  - unfold LEVELS in B2. simpl in B2. intuition lia.
  - assert (IL : In a [60; 70; 80; 90]) by (simpl; tauto). apply (B3 a IL). apply (A3 a) in IL. destruct IL as [IL _]. specialize (IL (Z.le_refl a)).
    nia.
Qed.

(** ** C13 *)
Lemma C13_observers g k dflt : g_reachable g -> encodable k ->
  g_get k dflt g = Ok (match g_abs g k with Some v => v | None => dflt end) /\
  g_has_key k g = Ok (match g_abs g k with Some _ => true | None => false end).
Proof.
  intros R E. destruct (g_reachable_wf R) as [W L]. split; [now apply g_get_spec|].
  destruct (g_has_key_spec _ _ W L E) as (b & -> & H). f_equal. destruct (g_abs g k), b; auto; destruct H; intuition congruence.
Qed.
Lemma C13_listing g : g_reachable g ->
  NoDup (g_keys g) /\ (forall k, In k (g_keys g) <-> g_abs g k <> None) /\
  (forall k v, In (k, v) (g_items g) <-> g_abs g k = Some v) /\
  g_keys g = map fst (g_items g) /\ g_values g = map snd (g_items g) /\ has_size (g_abs g) (g_size g).
Proof.
  intros R. destruct (g_reachable_wf R) as [W L]. split; [now apply g_keys_nodup|]. split; [apply g_keys_in|]. split; [intros; now apply g_items_in|].
  split; [apply g_keys_items|]. split; [apply g_values_items|]. now apply g_has_size.
Qed.
Lemma C13_step g o : g_reachable g -> wf_op o -> g_reachable (fst (g_step g o)) /\ g_outcome g o (fst (g_step g o)) (snd (g_step g o)).
Proof.
  intros R Wo. destruct (g_reachable_wf R) as [W L]. split; [|now apply g_step_spec].
  destruct R as (g0 & ops & F & L0 & Wf & ->). exists g0, (ops ++ [o]). split; auto. split; auto. split; [apply Forall_app; auto|].
  unfold g_run. now rewrite fold_left_app.
Qed.
(** ** C14 *)
Definition fresh_strict (g0 : group) : Prop :=
  g_fresh g0 /\ (0 < length g0)%nat /\ Forall (fun c => c_strict c = true /\ 0 <= c_max c) g0.
Lemma fresh_strict_within g0 : fresh_strict g0 -> Forall within g0.
Proof.
  intros (F & _ & S). unfold g_fresh in F. rewrite Forall_forall in *. intros c I. destruct (S c I) as [A B].
  unfold within. rewrite c_size_tree, (F c I). simpl. auto.
Qed.
Lemma run_within g0 ops : fresh_strict g0 -> checked ops ->
  Forall within (g_run ops g0) /\ g_wf (g_run ops g0) /\ (0 < length (g_run ops g0))%nat.
Proof.
  intros H [W C]. pose proof (fresh_strict_within H) as WI. destruct H as (F & L & S).
  destruct (@g_run_wf ops g0) as [A B]; auto using g_fresh_wf. split; [apply g_run_within; auto using g_fresh_wf|]. split; auto. lia.
Qed.
Lemma C14_lemma g0 ops : fresh_strict g0 -> checked ops -> let g := g_run ops g0 in
  g_size g <= g_max g /\ g_max g = g_max g0 /\ Forall (fun c => c_strict c = true /\ c_size c <= c_max c) g.
Proof.
  intros H C g. destruct (run_within H C) as (WI & W & L). split; [now apply within_total|]. split.
  - unfold g_max, g. destruct (g_run_meta ops g0) as [E _]. now rewrite E.
  - eapply Forall_impl; [|exact WI]. unfold within. intros c. tauto.
Qed.
Lemma C14_full g k v : g_reachable g -> g_strict g = true -> g_max g <= g_size g -> encodable k -> g_abs g k = None ->
  g_step g (Insert k v) = (g, ORaise GroupCapacityError).
Proof.
  intros R S F E N. destruct (g_reachable_wf R) as [W L]. simpl. unfold g_insert.
  destruct (index_total _ _ E L) as (i & -> & _). rewrite S.
  assert (mem_str k (g_keys g) = false) as ->.
  { destruct (mem_str k (g_keys g)) eqn:M; auto. unfold mem_str in M. apply existsb_exists in M as (x & I1 & I2).
    apply str_eqb_eq in I2. subst x. apply g_keys_in in I1. congruence. }
  assert (g_max g <=? g_size g = true) as -> by lia. reflexivity.
Qed.
(** ** C15 *)
Lemma C15_lemma g0 ops k v : fresh_strict g0 -> checked ops -> encodable k -> let g := g_run ops g0 in
  exists i c, get_group_index k (length g) = Ok i /\ nth_error g i = Some c /\
    ((exists z, snd (g_step g (Insert k v)) = OInt z) <-> c_size c < c_max c) /\
    ((exists e, snd (g_step g (Insert k v)) = ORaise e) -> fst (g_step g (Insert k v)) = g).
Proof.
  intros H C E g. destruct (run_within H C) as (WI & W & L). fold g in WI, W, L.
  destruct (index_total _ _ E L) as (i & Ei & Li). destruct (nth_error g i) as [c|] eqn:Ec; [|apply nth_error_None in Ec; lia].
  exists i, c. split; auto. split; auto. split.
  - rewrite <- (strict_insert_iff _ k v _ _ WI Ei Ec). simpl. destruct (g_insert k v g) as [g' [z|e]]; simpl; split; intros [x Hx]; try discriminate; eauto.
  - intros [e He]. destruct (g_step_spec _ (Insert k v) W L I) as (_ & _ & [(e' & _ & _ & E3)|[(d & i0 & E3 & _)|(_ & _ & OK)]]); auto; [discriminate|].
    rewrite He in OK. inversion OK.
Qed.
(** ** C16 *)
Definition room_for (d : list (pystr * pyval)) (g : group) : Prop :=
  forall i c, nth_error g i = Some c -> c_strict c = true ->
    exists f, fresh_keys (c_abs c) (share d (length g) i) f /\ c_size c + f <= c_max c.
Lemma not_overflow d g i : room_for d g -> ~ breaks_off g (g_abs g) d i.
Proof.
  intros R (c0 & H & (NE & S & O) & _). destruct (R i c0 H S) as (f & F & L).
  pose proof (c_new_keys_fresh (share d (length g) i) c0) as F2. unfold fresh_keys in *. rewrite <- F2 in F. subst f. lia.
Qed.
Lemma C16_ok g d : g_reachable g -> NoDup (map fst d) -> Forall (fun kv => encodable (fst kv)) d ->
  (forall n f, g_strict g = true -> has_size (g_abs g) n -> fresh_keys (g_abs g) d f -> n + f <= g_max g) -> room_for d g ->
  snd (g_step g (Update d)) = ONone /\ overridden (g_abs g) d (g_abs (fst (g_step g (Update d)))).
Proof.
  intros R ND EN CAP ROOM. destruct (g_reachable_wf R) as [W L].
  destruct (g_step_spec _ (Update d) W L ND) as (_ & _ & [(e & _ & RZ & _)|[(d' & i0 & E & _ & _ & B & _)|(_ & _ & OK)]]).
  - exfalso. inversion RZ; subst; simpl in *; auto.
    + specialize (CAP n f H0 H1 H2). lia.
    + match goal with X : Exists _ d |- _ => apply Exists_exists in X as (kv & I & NE) end. rewrite Forall_forall in EN. apply NE, (EN kv I).
  - injection E as <-. exfalso. apply (not_overflow ROOM B).
  - inversion OK; subst. split; auto.
Qed.
Lemma C16_group_full g d : g_reachable g -> NoDup (map fst d) -> snd (g_step g (Update d)) = ORaise GroupCapacityError ->
  fst (g_step g (Update d)) = g.
Proof.
  intros R ND H. destruct (g_reachable_wf R) as [W L].
  destruct (g_step_spec _ (Update d) W L ND) as (_ & _ & [(e & _ & _ & E)|[(d' & i0 & _ & E & _)|(_ & _ & OK)]]); auto; [congruence|].
  rewrite H in OK. inversion OK.
Qed.
Lemma C16_partial_application g d : g_reachable g -> NoDup (map fst d) -> snd (g_step g (Update d)) = ORaise CollectionCapacityError ->
  exists i0 c0, nth_error g i0 = Some c0 /\ c_strict c0 = true /\
    (exists f, fresh_keys (c_abs c0) (share d (length g) i0) f /\ c_max c0 < c_size c0 + f) /\
    overridden_upto (length g) i0 (g_abs g) d (g_abs (fst (g_step g (Update d)))).
Proof.
  intros R ND H. destruct (g_reachable_wf R) as [W L].
  destruct (g_step_spec _ (Update d) W L ND) as (_ & _ & [(e & E1 & RZ & E)|[(d' & i0 & E0 & E & _ & B & O)|(_ & _ & OK)]]).
  - rewrite H in E1. injection E1 as <-. inversion RZ.
  - injection E0 as <-. destruct B as (c0 & B1 & (B2 & B3 & B4) & _). exists i0, c0. split; auto. split; auto. split; auto.
    eexists. split; [apply c_new_keys_fresh|]. exact B4.
  - rewrite H in OK. inversion OK.
Qed.
(** ** C18 *)
Lemma C18_lemma g lo hi : g_reachable g ->
  (forall k j v w, g_abs g k = Some v -> g_abs g j = Some w -> above lo k -> below hi k -> above lo j -> below hi j -> comparable v w) ->
  (forall k v, g_abs g k = Some v -> above lo k -> below hi k -> truthy v = true) ->
  exists l items, g_itervalues lo hi g = (l, None) /\ Permutation (map snd items) l /\ NoDup (map fst items) /\
    forall k v, In (k, v) items <-> g_abs g k = Some v /\ above lo k /\ below hi k.
Proof.
  intros R C T. destruct (g_reachable_wf R) as [W L].
  assert (IN : forall k v, In (k, v) (filter (fun kv => inb lo hi (fst kv)) (g_items g)) <-> g_abs g k = Some v /\ above lo k /\ below hi k).
  { intros k v. rewrite filter_In. simpl. rewrite inb_spec, (g_items_in _ k v W). tauto. }
  destruct (@g_itervalues_spec lo hi g) as (l & E & P).
  - intros v w I1 I2. unfold values_within in *. apply in_map_iff in I1 as ([k v'] & <- & I1). apply in_map_iff in I2 as ([j w'] & <- & I2).
    apply IN in I1 as (J1 & J2 & J3). apply IN in I2 as (K1 & K2 & K3). simpl. eapply (C k j); eauto.
  - apply Forall_forall. intros v I. unfold values_within in I. apply in_map_iff in I as ([k v'] & <- & I1). apply IN in I1 as (J1 & J2 & J3). simpl. eapply (T k); eauto.
  - exists l, (filter (fun kv => inb lo hi (fst kv)) (g_items g)). split; auto. split; auto. split; auto.
    rewrite map_fst_filter. apply NoDup_filter. rewrite <- g_keys_items. now apply g_keys_nodup.
Qed.
(** ** C19 *)
Lemma C19_popitem g : g_reachable g ->
  (Forall (fun c => c_size c <> 0) g -> exists k v, snd (g_step g Popitem) = OPair k v /\ g_abs g k = Some v /\
     least_key (g_abs g) k /\ removed (g_abs g) k (g_abs (fst (g_step g Popitem)))) /\
  (Exists (fun c => c_size c = 0) g -> g_step g Popitem = (g, ORaise ValueError)).
Proof.
  intros R. destruct (g_reachable_wf R) as [W L].
  destruct (g_step_spec _ Popitem W L I) as (_ & _ & [(e & E1 & RZ & E2)|[(d & i0 & E0 & _)|(NR & _ & OK)]]); [| discriminate |].
  - inversion RZ as [? ? K| | | | | |X]; subst; [simpl in K; contradiction|]. split.
    + intros F. exfalso. apply Exists_exists in X as (c & I1 & I2). rewrite Forall_forall in F. apply (F c I1 I2).
    + intros _. rewrite (surjective_pairing (g_step g Popitem)). congruence.
  - split.
    + intros _. revert OK. generalize (snd (g_step g Popitem)) (g_abs (fst (g_step g Popitem))). intros r m' OK. inversion OK; subst. exists k, v. split; [reflexivity|]. split; [assumption|]. split; assumption.
    + intros X. exfalso. apply (NR ValueError). now constructor.
Qed.
Lemma C19_keys g lo hi : g_reachable g ->
  (Forall (fun c => exists j, c_abs c j <> None /\ above lo j) g ->
     exists k, g_minkey lo g = Ok k /\ g_abs g k <> None /\ above lo k /\ forall j, g_abs g j <> None -> above lo j -> sle k j) /\
  (Exists (fun c => forall j, c_abs c j <> None -> ~ above lo j) g -> g_minkey lo g = Err ValueError) /\
  (Forall (fun c => exists j, c_abs c j <> None /\ below hi j) g ->
     exists k, g_maxkey hi g = Ok k /\ g_abs g k <> None /\ below hi k /\ forall j, g_abs g j <> None -> below hi j -> sle j k) /\
  (Exists (fun c => forall j, c_abs c j <> None -> ~ below hi j) g -> g_maxkey hi g = Err ValueError).
Proof.
  intros R. destruct (g_reachable_wf R) as [W L].
  destruct (g_minkey_spec lo _ W L) as [(k & E & F & A)|[E X]]; destruct (g_maxkey_spec hi _ W L) as [(k2 & E2 & F2 & A2)|[E2 X2]];
  (split; [|split; [|split]]); intros H; eauto; exfalso.
  all: rewrite ?Exists_exists, ?Forall_forall in *.
  all: try solve [destruct H as (c & I1 & I2); apply (F c I1); exact I2].
  all: try solve [destruct H as (c & I1 & I2); apply (F2 c I1); exact I2].
  all: try solve [destruct X as (c & I1 & I2); destruct (H c I1) as (j & J1 & J2); apply (I2 j J1 J2)].
  all: try solve [destruct X2 as (c & I1 & I2); destruct (H c I1) as (j & J1 & J2); apply (I2 j J1 J2)].
Qed.
