(** Group refines a single map; capacity of strict groups. *)
From Coq Require Import Sorting.Sorted.
From Verif Require Import Base BaseFacts Value BTree BTreeFacts Utils Collection SpecMap CollectionFacts Group RoutingFacts.
Open Scope Z_scope.

(** what a group holds: the pairs [items()] lists *)
Definition g_abs (g : group) : amap := fun k => bt_get k (g_items g).

(** every id sits in the collection it routes to *)
Definition g_wf (g : group) : Prop :=
  forall i c, nth_error g i = Some c ->
    c_wf c /\ forall k, c_abs c k <> None -> get_group_index k (length g) = Ok i.

(** a freshly made group: no collection holds anything *)
Definition g_fresh (g : group) : Prop := Forall (fun c => c_tree c = []) g.

Lemma g_fresh_wf g : g_fresh g -> g_wf g.
Proof.
  intros F i c H. unfold g_fresh in F. rewrite Forall_forall in F. apply nth_error_In in H. apply F in H.
  unfold c_wf, c_abs. rewrite H. split; [apply bt_wf_nil|simpl; congruence].
Qed.

(** ** set_nth *)
Lemma set_nth_length {A} i (x : A) l : length (set_nth i x l) = length l.
Proof. revert i; induction l as [|y l IH]; intros [|i]; simpl; auto. Qed.
Lemma set_nth_same {A} i (x : A) l : (i < length l)%nat -> nth_error (set_nth i x l) i = Some x.
Proof. revert i; induction l as [|y l IH]; intros [|i]; simpl; intros H; try lia; auto. apply IH; lia. Qed.
Lemma set_nth_other {A} i j (x : A) l : i <> j -> nth_error (set_nth i x l) j = nth_error l j.
Proof. revert i j; induction l as [|y l IH]; intros [|i] [|j]; simpl; intros H; auto; try lia. Qed.
Lemma set_nth_id {A} i (x : A) l : nth_error l i = Some x -> set_nth i x l = l.
Proof. revert i; induction l as [|y l IH]; intros [|i]; simpl; intros H; auto; try congruence. f_equal; auto. Qed.

(** ** the map and routing *)
Lemma bt_get_app k (a b : tree pyval) :
  bt_get k (a ++ b) = match bt_get k a with Some v => Some v | None => bt_get k b end.
Proof. induction a as [|[k' v] a IH]; simpl; auto. destruct (str_eqb k k'); auto. Qed.
Lemma items_get_none k (g : group) : (forall c, In c g -> c_abs c k = None) -> bt_get k (g_items g) = None.
Proof.
  induction g as [|c g IH]; simpl; intros H; auto. rewrite bt_get_app.
  unfold c_items. fold (c_abs c k). rewrite (H c) by auto. apply IH. intros; apply H; auto.
Qed.
Lemma items_get_at k (g : group) i c : nth_error g i = Some c ->
  (forall j c', nth_error g j = Some c' -> j <> i -> c_abs c' k = None) -> bt_get k (g_items g) = c_abs c k.
Proof.
  revert i; induction g as [|c0 g IH]; intros [|i] H D; simpl in *; try discriminate.
  - injection H as ->. rewrite bt_get_app. unfold c_items. fold (c_abs c k).
    destruct (c_abs c k) eqn:E; auto. apply items_get_none. intros c' Hin.
    apply In_nth_error in Hin as [j Hj]. apply (D (S j)); auto.
  - rewrite bt_get_app. pose proof (D O c0 eq_refl ltac:(lia)) as E. unfold c_abs in E. unfold c_items. rewrite E.
    apply (IH i); auto. intros j c' Hj Hne. apply (D (S j)); auto.
Qed.
Lemma g_abs_route g k i c : g_wf g -> get_group_index k (length g) = Ok i -> nth_error g i = Some c ->
  g_abs g k = c_abs c k.
Proof.
  intros W R N. apply (items_get_at k g i c N). intros j c' Hj Hne.
  destruct (c_abs c' k) eqn:E; auto. exfalso. apply Hne.
  assert (get_group_index k (length g) = Ok j) by (apply (W j c' Hj); congruence). congruence.
Qed.
Lemma g_abs_unroutable g k e : g_wf g -> get_group_index k (length g) = Err e -> g_abs g k = None.
Proof.
  intros W R. apply items_get_none. intros c Hin. apply In_nth_error in Hin as [j Hj].
  destruct (c_abs c k) eqn:E; auto. exfalso.
  assert (get_group_index k (length g) = Ok j) by (apply (W j c Hj); congruence). congruence.
Qed.
Lemma route_nth (g : group) k i : get_group_index k (length g) = Ok i -> exists c, nth_error g i = Some c.
Proof.
  intros H. apply index_ok in H. destruct (nth_error g i) eqn:E; eauto. apply nth_error_None in E. lia.
Qed.

(** ** views *)
Lemma g_keys_items (g : group) : g_keys g = map fst (g_items g).
Proof. induction g as [|c g IH]; simpl; auto. now rewrite IH, map_app. Qed.
Lemma g_values_items (g : group) : g_values g = map snd (g_items g).
Proof. induction g as [|c g IH]; simpl; auto. now rewrite IH, map_app. Qed.
Lemma g_keys_in g k : In k (g_keys g) <-> g_abs g k <> None.
Proof.
  rewrite g_keys_items. unfold g_abs. split.
  - intros H E. apply bt_get_none_notin in E. auto.
  - intros H. destruct (bt_get k (g_items g)) eqn:E; [|congruence]. apply bt_get_in in E.
    apply (in_map fst) in E. exact E.
Qed.
Lemma NoDup_app {A} (a b : list A) : NoDup a -> NoDup b -> (forall x, In x a -> ~ In x b) -> NoDup (a ++ b).
Proof.
  induction a as [|x a IH]; simpl; intros Na Nb D; auto. inversion Na; subst. constructor.
  - rewrite in_app_iff. intros [H|H]; auto. apply (D x); auto.
  - apply IH; auto.
Qed.
Lemma keys_nodup_at (n b : nat) (g : group) :
  (forall j c, nth_error g j = Some c -> c_wf c /\ forall k, c_abs c k <> None -> get_group_index k n = Ok (b + j)%nat) ->
  NoDup (g_keys g).
Proof.
  revert b; induction g as [|c g IH]; simpl; intros b H; [constructor|].
  apply NoDup_app.
  - apply bt_wf_NoDup. apply (H O c eq_refl).
  - apply (IH (S b)). intros j c' Hj. destruct (H (S j) c' Hj) as [W R]. split; auto.
    intros k Hk. rewrite (R k Hk). f_equal. lia.
  - intros k Hin Hin2. apply in_flat_map in Hin2 as (c' & Hc' & Hk').
    apply In_nth_error in Hc' as [j Hj].
    assert (E1 : get_group_index k n = Ok (b + 0)%nat).
    { apply (H O c eq_refl). unfold c_abs. intros E. apply bt_get_none_notin in E. auto. }
    assert (E2 : get_group_index k n = Ok (b + S j)%nat).
    { apply (H (S j) c' Hj). unfold c_abs. intros E. apply bt_get_none_notin in E. auto. }
    rewrite E1 in E2. injection E2. lia.
Qed.
Lemma g_keys_nodup g : g_wf g -> NoDup (g_keys g).
Proof. intros W. apply (keys_nodup_at (length g) 0). intros j c Hj. apply (W j c Hj). Qed.
Lemma g_size_length g : g_size g = Z.of_nat (length (g_keys g)).
Proof.
  induction g as [|c g IH]; auto. unfold g_size in *. simpl. rewrite IH, app_length. unfold c_size, c_keys. lia.
Qed.
Lemma g_has_size g : g_wf g -> has_size (g_abs g) (g_size g).
Proof.
  intros W. exists (g_keys g). repeat split; [now apply g_keys_nodup| | |apply g_size_length]; apply g_keys_in.
Qed.
Lemma bt_get_nodup k v (t : tree pyval) : NoDup (map fst t) -> In (k, v) t -> bt_get k t = Some v.
Proof.
  induction t as [|[k' v'] t IH]; simpl; intros ND Hin; [contradiction|].
  inversion ND as [|? ? NI ND']; subst. destruct Hin as [H|H].
  - inversion H; subst. now rewrite str_eqb_refl.
  - destruct (str_eqb k k') eqn:E; auto. apply str_eqb_eq in E; subst.
    exfalso; apply NI. apply (in_map fst) in H. exact H.
Qed.
Lemma g_items_in g k v : g_wf g -> (In (k, v) (g_items g) <-> g_abs g k = Some v).
Proof.
  intros W. unfold g_abs. split; [|apply bt_get_in].
  apply bt_get_nodup. rewrite <- g_keys_items. now apply g_keys_nodup.
Qed.

(** observers *)
Lemma g_get_spec g k dflt : g_wf g -> (0 < length g)%nat -> encodable k ->
  g_get k dflt g = Ok (match g_abs g k with Some v => v | None => dflt end).
Proof.
  intros W L E. destruct (@index_total k (length g) E L) as (i & R & _).
  destruct (route_nth g k i R) as [c Hc]. rewrite (g_abs_route g k i c) by auto.
  unfold g_get, groupfn. rewrite R, Hc. reflexivity.
Qed.
Lemma g_has_key_spec g k : g_wf g -> (0 < length g)%nat -> encodable k ->
  exists b, g_has_key k g = Ok b /\ (b = true <-> g_abs g k <> None).
Proof.
  intros W L E. destruct (@index_total k (length g) E L) as (i & R & _).
  destruct (route_nth g k i R) as [c Hc]. rewrite (g_abs_route g k i c) by auto.
  unfold g_has_key, groupfn. rewrite R, Hc. eexists; split; [reflexivity|].
  unfold c_has_key, bt_has, c_abs. destruct (bt_get k (c_tree c)); split; congruence.
Qed.
Lemma g_unencodable g k v d : ~ encodable k ->
  g_get k d g = Err UnicodeEncodeError /\ g_has_key k g = Err UnicodeEncodeError /\
  g_insert k v g = (g, Err UnicodeEncodeError) /\ g_pop k d g = (g, Err UnicodeEncodeError) /\
  g_setdefault k v g = (g, Err UnicodeEncodeError).
Proof.
  intros H. pose proof (index_err k (length g) H) as E.
  unfold g_get, g_has_key, g_insert, g_pop, g_setdefault, groupfn. now rewrite E.
Qed.

(** ** one collection changes *)
Lemma set_nth_wf g i c c' : g_wf g -> nth_error g i = Some c -> c_wf c' ->
  (forall k, c_abs c' k <> None -> get_group_index k (length g) = Ok i) -> g_wf (set_nth i c' g).
Proof.
  intros W N Wc R j x Hj. rewrite set_nth_length. destruct (Nat.eq_dec i j) as [<-|Hne].
  - rewrite set_nth_same in Hj by (apply nth_error_Some; congruence). injection Hj as <-. auto.
  - rewrite set_nth_other in Hj by auto. apply (W j x Hj).
Qed.
Lemma set_nth_abs g i c c' k : g_wf g -> nth_error g i = Some c -> g_wf (set_nth i c' g) ->
  (get_group_index k (length g) = Ok i -> g_abs (set_nth i c' g) k = c_abs c' k) /\
  (get_group_index k (length g) <> Ok i -> g_abs (set_nth i c' g) k = g_abs g k).
Proof.
  intros W N W'. assert (Li : (i < length g)%nat) by (apply nth_error_Some; congruence). split; intros R.
  - apply (g_abs_route _ _ i); auto; [now rewrite set_nth_length|now apply set_nth_same].
  - destruct (get_group_index k (length g)) as [j|e] eqn:E.
    + destruct (route_nth g k j E) as [x Hx].
      rewrite (g_abs_route (set_nth i c' g) k j x); auto.
      * now rewrite (g_abs_route g k j x).
      * now rewrite set_nth_length.
      * rewrite set_nth_other by congruence. auto.
    + rewrite (g_abs_unroutable g k e), (g_abs_unroutable (set_nth i c' g) k e); auto. now rewrite set_nth_length.
Qed.

(** an operation on the collection a key routes to, seen on the whole group *)
Lemma step_keys c o k : c_abs (fst (c_step c o)) k <> None -> c_wf c ->
  (match o with Insert j _ | Pop j _ | Setdefault j _ => k = j | _ => False end) \/ c_abs c k <> None \/
  (match o with Update d => In k (map fst d) | _ => False end).
Proof.
  intros H W. destruct o as [j v|d|j dflt| |j v|]; simpl in *.
  - destruct (str_dec k j); auto. right; left. revert H. unfold c_insert, c_abs. destruct (_ && _); auto.
    unfold bt_insert. destruct (bt_has j (c_tree c)); simpl; auto. now rewrite bt_get_set_other.
  - destruct (in_dec str_dec k (map fst d)); auto. right; left. revert H. unfold c_update, c_abs.
    destruct (_ && _); simpl; auto. rewrite bt_get_update. apply (@last_binding_none pyval) in n. now rewrite n.
  - destruct (str_dec k j); auto. right; left. revert H. unfold c_pop, c_abs. destruct (_ && _); auto.
    destruct (bt_get j (c_tree c)); simpl; auto. now rewrite bt_get_del_other.
  - right; left. revert H. unfold c_popitem, c_abs. destruct (c_tree c) as [|[k0 v0] t]; simpl; auto.
    destruct (str_eqb k k0); congruence.
  - destruct (str_dec k j); auto. right; left. revert H. unfold c_setdefault, c_abs.
    destruct (bt_get j (c_tree c)); simpl; auto. now rewrite bt_get_set_other.
  - contradiction.
Qed.

(** keyed operation [o] with key [k] applied to collection [i] *)
Definition keyed (o : mop) (k : pystr) : Prop :=
  match o with Insert j _ | Pop j _ | Setdefault j _ => j = k | _ => False end.
Lemma groupfn_step g o k i c : g_wf g -> keyed o k -> get_group_index k (length g) = Ok i ->
  nth_error g i = Some c ->
  g_wf (set_nth i (fst (c_step c o)) g) /\
  (forall j, j <> k -> g_abs (set_nth i (fst (c_step c o)) g) j = g_abs g j) /\
  g_abs (set_nth i (fst (c_step c o)) g) k = c_abs (fst (c_step c o)) k.
Proof.
  intros W K R N.
  assert (W' : g_wf (set_nth i (fst (c_step c o)) g)).
  { apply (set_nth_wf g i c); auto; [apply c_step_wf, (W i c N)|].
    intros j Hj. destruct (step_keys c o j Hj (proj1 (W i c N))) as [H|[H|H]].
    - destruct o; simpl in *; try contradiction; subst; auto.
    - apply (W i c N); auto.
    - destruct o; simpl in *; contradiction. }
  split; auto. split.
  - intros j Hj. destruct (set_nth_abs g i c (fst (c_step c o)) j W N W') as [A B].
    destruct (get_group_index j (length g)) as [x|e] eqn:E.
    + destruct (Nat.eq_dec x i) as [->|Hne].
      * rewrite A by auto. rewrite (g_abs_route g j i c) by auto.
        pose proof (proj1 (W i c N)) as Wc.
        destruct o as [q v|d|q dflt| |q v|]; simpl in K; try contradiction; subst q; simpl.
        -- unfold c_insert, c_abs. destruct (_ && _); auto. unfold bt_insert.
           destruct (bt_has k (c_tree c)); simpl; auto. now apply bt_get_set_other.
        -- unfold c_pop, c_abs. destruct (_ && _); auto. destruct (bt_get k (c_tree c)); simpl; auto.
           now apply bt_get_del_other.
        -- unfold c_setdefault, c_abs. destruct (bt_get k (c_tree c)); simpl; auto. now apply bt_get_set_other.
      * apply B. congruence.
    + apply B. congruence.
  - apply (set_nth_abs g i c (fst (c_step c o)) k W N W'); auto.
Qed.

(** ** [update] *)
Definition applied (s : list (pystr * pyval)) (c : collection) : collection := c_with_tree c (bt_update s (c_tree c)).
Definition overflows (s : list (pystr * pyval)) (c : collection) : Prop :=
  s <> [] /\ c_strict c = true /\ c_max c < c_size c + Z.of_nat (length (c_new_keys s c)).

Lemma update_from_spec d n i (g g' : group) r : update_from d n i g = (g', r) ->
  (r = Ok tt /\ length g' = length g /\
    forall j c, nth_error g j = Some c ->
      nth_error g' j = Some (applied (share d n (i + j)) c) /\ ~ overflows (share d n (i + j)) c)
  \/ (r = Err CollectionCapacityError /\ length g' = length g /\
      exists j0 c0, nth_error g j0 = Some c0 /\ overflows (share d n (i + j0)) c0 /\
      (forall j c, nth_error g j = Some c -> (j < j0)%nat ->
        nth_error g' j = Some (applied (share d n (i + j)) c) /\ ~ overflows (share d n (i + j)) c) /\
      (forall j, (j0 <= j)%nat -> nth_error g' j = nth_error g j)).
Proof.
  revert i g' r; induction g as [|c g IH]; cbn [update_from]; intros i g' r H.
  - injection H as <- <-. left. repeat split; auto; destruct j; discriminate.
  - assert (ID : applied [] c = c) by (destruct c; reflexivity).
    assert (TAIL : ~ overflows (share d n i) c ->
        (let (g2, r) := update_from d n (S i) g in (applied (share d n i) c :: g2, r)) = (g', r) ->
        (r = Ok tt /\ length g' = length (c :: g) /\
          forall j c1, nth_error (c :: g) j = Some c1 ->
            nth_error g' j = Some (applied (share d n (i + j)) c1) /\ ~ overflows (share d n (i + j)) c1)
        \/ (r = Err CollectionCapacityError /\ length g' = length (c :: g) /\
            exists j0 c0, nth_error (c :: g) j0 = Some c0 /\ overflows (share d n (i + j0)) c0 /\
            (forall j c1, nth_error (c :: g) j = Some c1 -> (j < j0)%nat ->
              nth_error g' j = Some (applied (share d n (i + j)) c1) /\ ~ overflows (share d n (i + j)) c1) /\
            (forall j, (j0 <= j)%nat -> nth_error g' j = nth_error (c :: g) j))).
    { intros NO T. destruct (update_from d n (S i) g) as [g2 r2] eqn:E. injection T as <- <-.
      destruct (IH (S i) g2 r2 E) as [(-> & L & A)|(-> & L & j0 & c0 & N0 & O0 & A & B)].
      - left. split; [reflexivity|]. split; [simpl; lia|]. intros [|j] c1 Hj; simpl in *.
        + injection Hj as <-. rewrite Nat.add_0_r. auto.
        + rewrite Nat.add_succ_r. exact (A j c1 Hj).
      - right. split; [reflexivity|]. split; [simpl; lia|]. exists (S j0), c0.
        rewrite Nat.add_succ_r. split; [exact N0|]. split; [exact O0|]. split.
        + intros [|j] c1 Hj Hlt; cbn [nth_error] in *.
          * injection Hj as <-. rewrite Nat.add_0_r. auto.
          * rewrite Nat.add_succ_r. apply (A j c1 Hj). lia.
        + intros [|j] Hj; [lia|]. cbn [nth_error]. apply B. lia. }
    destruct (share d n i) as [|kv s] eqn:S.
    + apply TAIL; [intros [HX _]; congruence|]. rewrite ID. exact H.
    + unfold c_update in H. destruct (_ && _) eqn:E.
      * injection H as <- <-. right. split; [reflexivity|]. split; [reflexivity|].
        exists O, c. rewrite Nat.add_0_r, S. apply andb_true_iff in E as [E1 E2].
        repeat split; auto; try discriminate; try lia.
      * apply TAIL; [|exact H]. intros (_ & S1 & S2). apply andb_false_iff in E as [E|E]; [lia|congruence].
Qed.

Lemma share_in d n i kv : In kv (share d n i) <-> In kv d /\ get_group_index (fst kv) n = Ok i.
Proof.
  unfold share. rewrite filter_In. destruct (get_group_index (fst kv) n) as [j|e].
  - rewrite Nat.eqb_eq. split; intros [? H]; split; auto; congruence.
  - split; intros [? H]; discriminate.
Qed.
Lemma share_nodup d n i : NoDup (map fst d) -> NoDup (map fst (share d n i)).
Proof.
  unfold share. induction d as [|kv d IH]; simpl; intros ND; [constructor|].
  inversion ND as [|? ? NI ND']; subst. destruct (get_group_index (fst kv) n) as [j|e]; auto.
  destruct (Nat.eqb j i); simpl; auto. constructor; auto.
  intros H. apply NI. apply in_map_iff in H as (x & E & Hx). apply filter_In in Hx as [Hx _].
  rewrite <- E. now apply in_map.
Qed.

(** [m'] is [m] overridden by the part of [d] that routes to collections before [i0] *)
Definition overridden_upto (n i0 : nat) (m : amap) (d : list (pystr * pyval)) (m' : amap) : Prop :=
  forall k, (forall i v, get_group_index k n = Ok i -> (i < i0)%nat -> In (k, v) d -> m' k = Some v)
         /\ (~ In k (map fst d) \/ (forall i, get_group_index k n = Ok i -> (i0 <= i)%nat) -> m' k = m k).

Lemma applied_abs s c k : NoDup (map fst s) -> 
  (forall v, In (k, v) s -> c_abs (applied s c) k = Some v) /\ (~ In k (map fst s) -> c_abs (applied s c) k = c_abs c k).
Proof. intros ND. apply (overridden_update s (c_tree c) ND k). Qed.

Lemma update_state g g' d i0 : g_wf g -> NoDup (map fst d) -> length g' = length g ->
  (forall j c, nth_error g j = Some c -> (j < i0)%nat -> nth_error g' j = Some (applied (share d (length g) j) c)) ->
  (forall j, (i0 <= j)%nat -> nth_error g' j = nth_error g j) ->
  g_wf g' /\ overridden_upto (length g) i0 (g_abs g) d (g_abs g').
Proof.
  intros W ND L A B.
  assert (W' : g_wf g').
  { intros i c' Hi. rewrite L. destruct (Nat.lt_ge_cases i i0) as [H|H].
    - assert (NE : exists c, nth_error g i = Some c).
      { destruct (nth_error g i) eqn:E; eauto. apply nth_error_None in E.
        assert (nth_error g' i <> None) by congruence. apply nth_error_Some in H0. lia. }
      destruct NE as [c Hc]. rewrite (A i c Hc H) in Hi. injection Hi as <-. destruct (W i c Hc) as [Wc R]. split.
      + unfold c_wf, applied. simpl. now apply bt_update_wf.
      + intros k Hk. destruct (in_dec str_dec k (map fst (share d (length g) i))) as [I|I].
        * apply in_map_iff in I as (kv & E & Hin). apply share_in in Hin as [_ Hin]. now rewrite E in Hin.
        * apply R. rewrite (proj2 (applied_abs (share d (length g) i) c k (share_nodup d (length g) i ND)) I) in Hk. exact Hk.
    - rewrite B in Hi by auto. apply (W i c' Hi). }
  split; auto. intros k. split.
  - intros i v R Hi Hin. destruct (route_nth g k i R) as [c Hc].
    rewrite (g_abs_route g' k i (applied (share d (length g) i) c)); auto; [|now rewrite L].
    apply (applied_abs _ c k (share_nodup d (length g) i ND)). now apply share_in.
  - intros H. destruct (get_group_index k (length g)) as [i|e] eqn:R.
    + destruct (route_nth g k i R) as [c Hc]. rewrite (g_abs_route g k i c) by auto.
      destruct (Nat.lt_ge_cases i i0) as [Hi|Hi].
      * destruct H as [H|H]; [|specialize (H i eq_refl); lia].
        rewrite (g_abs_route g' k i (applied (share d (length g) i) c)); auto; [|now rewrite L].
        apply (applied_abs _ c k (share_nodup d (length g) i ND)).
        intros I. apply H. apply in_map_iff in I as (kv & E & Hin). apply share_in in Hin as [Hin _].
        rewrite <- E. now apply in_map.
      * rewrite (g_abs_route g' k i c); auto; [now rewrite L|]. now rewrite B.
    + rewrite (g_abs_unroutable g k e), (g_abs_unroutable g' k e); auto. now rewrite L.
Qed.

(** when a Group call raises and leaves everything as it was *)
Inductive g_raises (g : group) (m : amap) : mop -> exn -> Prop :=
| raise_g_key o k : keyed o k -> ~ encodable k -> g_raises g m o UnicodeEncodeError
| raise_g_full k v n : encodable k -> g_strict g = true -> has_size m n -> g_max g <= n -> m k = None ->
    g_raises g m (Insert k v) GroupCapacityError
| raise_g_coll k v n i c : get_group_index k (length g) = Ok i -> nth_error g i = Some c ->
    has_size m n -> (n < g_max g \/ m k <> None \/ g_strict g = false) ->
    c_strict c = true -> c_max c <= c_size c -> g_raises g m (Insert k v) CollectionCapacityError
| raise_g_upd_full d n f : g_strict g = true -> has_size m n -> fresh_keys m d f -> g_max g < f + n ->
    g_raises g m (Update d) GroupCapacityError
| raise_g_upd_key d n f : (g_strict g = false \/ (has_size m n /\ fresh_keys m d f /\ f + n <= g_max g)) ->
    Exists (fun kv => ~ encodable (fst kv)) d -> g_raises g m (Update d) UnicodeEncodeError
| raise_g_pop k : encodable k -> m k = None -> g_raises g m (Pop k VNone) KeyError
| raise_g_popitem : Exists (fun c => c_size c = 0) g -> g_raises g m Popitem ValueError.

(** [update] breaks off in the middle: some collection's share does not fit *)
Definition breaks_off (g : group) (m : amap) (d : list (pystr * pyval)) (i0 : nat) : Prop :=
  exists c0, nth_error g i0 = Some c0 /\ overflows (share d (length g) i0) c0 /\
  forall j c, nth_error g j = Some c -> (j < i0)%nat -> ~ overflows (share d (length g) j) c.

Lemma set_nth_unchanged (g : group) i c o : nth_error g i = Some c -> fst (c_step c o) = c ->
  set_nth i (fst (c_step c o)) g = g.
Proof. intros N ->. now apply set_nth_id. Qed.

Lemma mapM_err_exists {A B} (f : A -> res B) l e : mapM f l = Err e -> exists x, In x l /\ f x = Err e.
Proof.
  induction l as [|x l IH]; simpl; [discriminate|]. destruct (f x) as [y|e'] eqn:E.
  - destruct (mapM f l); [discriminate|]. intros H. destruct (IH H) as (z & ? & ?). eauto.
  - intros H; injection H as ->. eauto.
Qed.

Lemma g_strict_all g i c : g_strict g = true -> nth_error g i = Some c -> c_strict c = true.
Proof. intros S N. unfold g_strict in S. rewrite forallb_forall in S. apply S. now apply nth_error_In in N. Qed.

(** min over collections *)
Lemma str_min_spec l m : str_min l = Ok m -> In m l /\ forall x, In x l -> sle m x.
Proof.
  destruct l as [|x l]; simpl; [discriminate|]. intros H; injection H as H.
  revert x m H; induction l as [|y l IH]; simpl; intros x m H.
  - subst. split; auto. intros z [->|[]]. apply sle_refl.
  - destruct (IH _ _ H) as [I1 I2]. destruct (str_ltb y x) eqn:E.
    + apply str_ltb_lt in E. split; [destruct I1; auto|].
      intros z [->|[->|Hz]]; auto. apply sle_trans with y; auto using slt_le.
    + assert (NL : ~ slt y x) by (intros L; apply str_ltb_lt in L; congruence). apply not_slt_sle in NL.
      split; [destruct I1; auto|]. intros z [->|[->|Hz]]; auto. apply sle_trans with x; auto.
Qed.
Lemma str_max_spec l m : str_max l = Ok m -> In m l /\ forall x, In x l -> sle x m.
Proof.
  destruct l as [|x l]; simpl; [discriminate|]. intros H; injection H as H.
  revert x m H; induction l as [|y l IH]; simpl; intros x m H.
  - subst. split; auto. intros z [->|[]]. apply sle_refl.
  - destruct (IH _ _ H) as [I1 I2]. destruct (str_ltb x y) eqn:E.
    + apply str_ltb_lt in E. split; [destruct I1; auto|].
      intros z [->|[->|Hz]]; auto. apply sle_trans with y; auto using slt_le.
    + assert (NL : ~ slt x y) by (intros L; apply str_ltb_lt in L; congruence). apply not_slt_sle in NL.
      split; [destruct I1; auto|]. intros z [->|[->|Hz]]; auto. apply sle_trans with x; auto.
Qed.
Lemma mapM_in {A B} (f : A -> res B) l r x : mapM f l = Ok r -> In x l -> exists y, f x = Ok y /\ In y r.
Proof.
  intros H I. apply mapM_ok in H. induction H as [|a b l r Hab _ IH]; [contradiction|].
  destruct I as [->|I]; [exists b; simpl; auto|]. destruct (IH I) as (y & ? & ?). exists y; simpl; auto.
Qed.
Lemma mapM_in_inv {A B} (f : A -> res B) l r y : mapM f l = Ok r -> In y r -> exists x, f x = Ok y /\ In x l.
Proof.
  intros H I. apply mapM_ok in H. induction H as [|a b l r Hab _ IH]; [contradiction|].
  destruct I as [->|I]; [exists a; simpl; auto|]. destruct (IH I) as (x & ? & ?). exists x; simpl; auto.
Qed.

Lemma g_abs_coll g k : g_wf g -> g_abs g k <> None -> exists c, In c g /\ c_abs c k = g_abs g k.
Proof.
  intros W H. destruct (get_group_index k (length g)) as [i|e] eqn:R.
  - destruct (route_nth g k i R) as [c Hc]. exists c. split; [now apply nth_error_In in Hc|].
    symmetry. now apply (g_abs_route g k i).
  - rewrite (g_abs_unroutable g k e) in H; auto. congruence.
Qed.
Lemma g_abs_of_coll g c k : g_wf g -> In c g -> c_abs c k <> None -> g_abs g k = c_abs c k.
Proof.
  intros W I H. apply In_nth_error in I as [i Hi]. apply (g_abs_route g k i); auto. now apply (W i c).
Qed.

(** a bound on keys, as an independent predicate *)
Definition above (lo : option pystr) (k : pystr) : Prop := match lo with None => True | Some m => sle m k end.
Definition below (hi : option pystr) (k : pystr) : Prop := match hi with None => True | Some m => sle k m end.
Lemma in_lo_above lo k : in_lo lo k = true <-> above lo k.
Proof. destruct lo; simpl; [apply str_leb_le|tauto]. Qed.
Lemma in_hi_below hi k : in_hi hi k = true <-> below hi k.
Proof. destruct hi; simpl; [apply str_leb_le|tauto]. Qed.

Lemma c_abs_keys c j : c_abs c j <> None <-> In j (bt_keys (c_tree c)).
Proof.
  unfold c_abs. rewrite <- bt_has_in, bt_has_get. destruct (bt_get j (c_tree c)); split; intros H; eauto; try congruence.
  destruct H; discriminate.
Qed.
Lemma c_minkey_spec lo c : c_wf c ->
  (forall k, c_minkey lo c = Ok k -> c_abs c k <> None /\ above lo k /\ forall j, c_abs c j <> None -> above lo j -> sle k j)
  /\ (forall e, c_minkey lo c = Err e -> e = ValueError /\ forall j, c_abs c j <> None -> ~ above lo j).
Proof.
  intros W. split.
  - intros k H. apply (bt_minkey_ok lo W) in H. destruct H as (H1 & H2 & H3).
    repeat split; [now apply c_abs_keys|now apply in_lo_above|]. intros j Hj Ha. apply H3; [now apply c_abs_keys|now apply in_lo_above].
  - intros e H. apply bt_minkey_err in H as [-> H]. split; auto. intros j Hj Ha.
    apply in_lo_above in Ha. apply c_abs_keys in Hj. rewrite (H j) in Ha; [discriminate|assumption].
Qed.
Lemma c_maxkey_spec hi c : c_wf c ->
  (forall k, c_maxkey hi c = Ok k -> c_abs c k <> None /\ below hi k /\ forall j, c_abs c j <> None -> below hi j -> sle j k)
  /\ (forall e, c_maxkey hi c = Err e -> e = ValueError /\ forall j, c_abs c j <> None -> ~ below hi j).
Proof.
  intros W. split.
  - intros k H. apply (bt_maxkey_ok hi W) in H. destruct H as (H1 & H2 & H3).
    repeat split; [now apply c_abs_keys|now apply in_hi_below|]. intros j Hj Ha. apply H3; [now apply c_abs_keys|now apply in_hi_below].
  - intros e H. apply bt_maxkey_err in H as [-> H]. split; auto. intros j Hj Ha.
    apply in_hi_below in Ha. apply c_abs_keys in Hj. rewrite (H j) in Ha; [discriminate|assumption].
Qed.

(** [minKey] of a group: least key in bounds if every collection has one; else ValueError *)
Definition no_key (P : pystr -> Prop) (c : collection) : Prop := forall j, c_abs c j <> None -> ~ P j.
Lemma g_minkey_spec lo g : g_wf g -> (0 < length g)%nat ->
  (exists k, g_minkey lo g = Ok k /\ Forall (fun c => ~ no_key (above lo) c) g /\
     g_abs g k <> None /\ above lo k /\ forall j, g_abs g j <> None -> above lo j -> sle k j)
  \/ (g_minkey lo g = Err ValueError /\ Exists (no_key (above lo)) g).
Proof.
  intros W L. assert (WF : forall c, In c g -> c_wf c).
  { intros c I. apply In_nth_error in I as [i Hi]. apply (W i c Hi). }
  unfold g_minkey. destruct (mapM (c_minkey lo) g) as [ks|e] eqn:M.
  - left. simpl. destruct (str_min ks) as [k|e] eqn:S.
    + apply str_min_spec in S as [S1 S2]. exists k. split; auto.
      destruct (mapM_in_inv _ _ _ _ M S1) as (c & Hc & I).
      destruct (proj1 (c_minkey_spec lo c (WF c I)) k Hc) as (K1 & K2 & K3).
      split; [|split; [rewrite (g_abs_of_coll g c k W I K1); exact K1|split; [exact K2|]]].
      * apply Forall_forall. intros c' I' N. destruct (mapM_in _ _ _ _ M I') as (k' & Hk' & _).
        destruct (proj1 (c_minkey_spec lo c' (WF c' I')) k' Hk') as (? & ? & ?). apply (N k'); auto.
      * intros j Hj Ha. destruct (g_abs_coll g j W Hj) as (c' & I' & E'). rewrite <- E' in Hj.
        destruct (mapM_in _ _ _ _ M I') as (k' & Hk' & Ik').
        destruct (proj1 (c_minkey_spec lo c' (WF c' I')) k' Hk') as (? & ? & Q).
        apply sle_trans with k'; auto.
    + exfalso. destruct ks; [|discriminate]. apply mapM_ok in M. destruct g; [simpl in L; lia|inversion M].
  - right. destruct (mapM_err_exists _ _ _ M) as (c & I & E). simpl.
    destruct (proj2 (c_minkey_spec lo c (WF c I)) e E) as [-> N]. split; auto. apply Exists_exists. eauto.
Qed.
Lemma g_maxkey_spec hi g : g_wf g -> (0 < length g)%nat ->
  (exists k, g_maxkey hi g = Ok k /\ Forall (fun c => ~ no_key (below hi) c) g /\
     g_abs g k <> None /\ below hi k /\ forall j, g_abs g j <> None -> below hi j -> sle j k)
  \/ (g_maxkey hi g = Err ValueError /\ Exists (no_key (below hi)) g).
Proof.
  intros W L. assert (WF : forall c, In c g -> c_wf c).
  { intros c I. apply In_nth_error in I as [i Hi]. apply (W i c Hi). }
  unfold g_maxkey. destruct (mapM (c_maxkey hi) g) as [ks|e] eqn:M.
  - left. simpl. destruct (str_max ks) as [k|e] eqn:S.
    + apply str_max_spec in S as [S1 S2]. exists k. split; auto.
      destruct (mapM_in_inv _ _ _ _ M S1) as (c & Hc & I).
      destruct (proj1 (c_maxkey_spec hi c (WF c I)) k Hc) as (K1 & K2 & K3).
      split; [|split; [rewrite (g_abs_of_coll g c k W I K1); exact K1|split; [exact K2|]]].
      * apply Forall_forall. intros c' I' N. destruct (mapM_in _ _ _ _ M I') as (k' & Hk' & _).
        destruct (proj1 (c_maxkey_spec hi c' (WF c' I')) k' Hk') as (? & ? & ?). apply (N k'); auto.
      * intros j Hj Ha. destruct (g_abs_coll g j W Hj) as (c' & I' & E'). rewrite <- E' in Hj.
        destruct (mapM_in _ _ _ _ M I') as (k' & Hk' & Ik').
        destruct (proj1 (c_maxkey_spec hi c' (WF c' I')) k' Hk') as (? & ? & Q).
        apply sle_trans with k'; auto.
    + exfalso. destruct ks; [|discriminate]. apply mapM_ok in M. destruct g; [simpl in L; lia|inversion M].
  - right. destruct (mapM_err_exists _ _ _ M) as (c & I & E). simpl.
    destruct (proj2 (c_maxkey_spec hi c (WF c I)) e E) as [-> N]. split; auto. apply Exists_exists. eauto.
Qed.
Lemma no_key_empty c : no_key (above None) c <-> c_size c = 0.
Proof.
  unfold no_key, c_size. split.
  - intros H. destruct (bt_keys (c_tree c)) as [|k l] eqn:E; auto. exfalso. apply (H k); [|exact I].
    apply c_abs_keys. rewrite E. simpl; auto.
  - intros H j Hj _. apply c_abs_keys in Hj. destruct (bt_keys (c_tree c)); simpl in *; [contradiction|lia].
Qed.

(** keyed operations in terms of [c_step] *)
Lemma g_keyed_step g o k i c : keyed o k -> get_group_index k (length g) = Ok i -> nth_error g i = Some c ->
  (match o with Insert k _ => ((g_max g <=? g_size g) && negb (mem_str k (g_keys g)) && g_strict g) = false | _ => True end) ->
  g_step g o = (set_nth i (fst (c_step c o)) g, snd (c_step c o)).
Proof.
  intros K R N F. destruct o as [q v|d|q dflt| |q v|]; simpl in K; try contradiction; subst q; simpl.
  - unfold g_insert. rewrite R, F. unfold groupfn. rewrite R, N. now destruct (c_insert k v c).
  - unfold g_pop, groupfn. rewrite R, N. now destruct (c_pop k dflt c).
  - unfold g_setdefault, groupfn. rewrite R, N. now destruct (c_setdefault k v c).
Qed.

(** a keyed [ok_step] only depends on the value at the key *)
Lemma ok_step_local (m m' mc mc' : amap) o k r : keyed o k -> ok_step mc o mc' r -> m k = mc k -> m' k = mc' k ->
  (forall j, j <> k -> m' j = m j) -> ok_step m o m' r.
Proof.
  intros K S E1 E2 E3.
  assert (SAME : same mc mc' -> same m m').
  { intros H j. destruct (str_dec j k) as [->|]; auto. now rewrite E1, E2. }
  assert (BOUND : forall v, bound mc k v mc' -> bound m k v m').
  { intros v [H1 H2]. split; auto. now rewrite E2. }
  inversion S; subst; simpl in K; try contradiction; subst.
  - apply ok_insert_new; auto; congruence.
  - apply ok_insert_old with w; auto; congruence.
  - apply ok_pop_hit; [congruence|]. match goal with H : removed _ _ _ |- _ => destruct H end. split; auto; congruence.
  - apply ok_pop_default; auto; congruence.
  - apply ok_setdefault_old; auto; congruence.
  - apply ok_setdefault_new; auto; congruence.
Qed.

Lemma g_fresh_keys d g : fresh_keys (g_abs g) d
  (Z.of_nat (length (filter (fun k => negb (mem_str k (g_keys g))) (map fst d)))).
Proof.
  unfold fresh_keys. do 2 f_equal. apply filter_ext. intros k. destruct (g_abs g k) eqn:E.
  - apply negb_false_iff, mem_str_In, g_keys_in. congruence.
  - apply negb_true_iff, mem_str_false. rewrite g_keys_in. congruence.
Qed.

Lemma g_clear_wf g : g_wf (g_clear g).
Proof.
  apply g_fresh_wf. unfold g_fresh, g_clear. apply Forall_forall. intros c I.
  apply in_map_iff in I as (x & <- & _). reflexivity.
Qed.
Lemma g_clear_abs g k : g_abs (g_clear g) k = None.
Proof.
  apply items_get_none. intros c I. apply in_map_iff in I as (x & <- & _). reflexivity.
Qed.

(** the three possible outcomes of a call *)
Definition g_outcome (g : group) (o : mop) (g' : group) (r : mout) : Prop :=
  (exists e, r = ORaise e /\ g_raises g (g_abs g) o e /\ g' = g)
  \/ (exists d i0, o = Update d /\ r = ORaise CollectionCapacityError /\ (forall e, ~ g_raises g (g_abs g) o e)
        /\ breaks_off g (g_abs g) d i0 /\ overridden_upto (length g) i0 (g_abs g) d (g_abs g'))
  \/ ((forall e, ~ g_raises g (g_abs g) o e) /\
      (forall d, o = Update d -> forall i, ~ breaks_off g (g_abs g) d i) /\
      ok_step (g_abs g) o (g_abs g') r).

Lemma g_step_spec g o : g_wf g -> (0 < length g)%nat -> wf_op o ->
  g_wf (fst (g_step g o)) /\ length (fst (g_step g o)) = length g /\
  g_outcome g o (fst (g_step g o)) (snd (g_step g o)).
Proof.
  intros W L WO. pose proof (g_has_size g W) as HS.
  assert (ROUTE : forall k, encodable k -> exists i c, get_group_index k (length g) = Ok i /\ nth_error g i = Some c).
  { intros k E. destruct (@index_total k (length g) E L) as (i & R & _). destruct (route_nth g k i R). eauto. }
  assert (RENC : forall k i, get_group_index k (length g) = Ok i -> encodable k).
  { intros k i R. destruct (encodable_dec k) as [Y|N]; auto. rewrite (index_err k _ N) in R. discriminate. }
  assert (KEYED : forall k, keyed o k ->
     (encodable k -> (match o with Insert k _ => ((g_max g <=? g_size g) && negb (mem_str k (g_keys g)) && g_strict g) = false | _ => True end)) ->
     g_wf (fst (g_step g o)) /\ length (fst (g_step g o)) = length g /\
     g_outcome g o (fst (g_step g o)) (snd (g_step g o))).
  { intros k K F. destruct (encodable_dec k) as [EN|NE].
    2: { assert (g_step g o = (g, ORaise UnicodeEncodeError)) as ->.
         { destruct o as [q v|d|q dflt| |q v|]; simpl in K; try contradiction; subst q; simpl.
           - now rewrite (proj1 (proj2 (proj2 (g_unencodable g k v VNone NE)))).
           - now rewrite (proj1 (proj2 (proj2 (proj2 (g_unencodable g k VNone dflt NE))))).
           - now rewrite (proj2 (proj2 (proj2 (proj2 (g_unencodable g k v VNone NE))))). }
         simpl. split; [exact W|split; [reflexivity|]]. left. exists UnicodeEncodeError. repeat split; auto. now apply (raise_g_key g _ o k). }
    destruct (ROUTE k EN) as (i & c & R & N). specialize (F EN).
    rewrite (g_keyed_step g o k i c K R N F). cbn [fst snd].
    destruct (groupfn_step g o k i c W K R N) as (W' & OTH & AT).
    split; auto. split; [apply set_nth_length|].
    destruct (W i c N) as [Wc _].
    destruct (c_step_refines c o Wc WO) as [(e & E1 & E2 & E3)|(NR & OKS)].
    - left. exists e. split; auto. split; [|now apply set_nth_unchanged].
      inversion E2; subst; simpl in K; try contradiction; subst.
      + match goal with H : has_size (c_abs c) ?x, H2 : _ <= ?x |- _ => pose proof (has_size_unique _ _ _ H (c_has_size c Wc)); subst end.
        apply (raise_g_coll g _ k v (g_size g) i c); auto.
        apply andb_false_iff in F as [F|F]; [apply andb_false_iff in F as [F|F]|auto].
        * left; lia.
        * apply negb_false_iff in F. apply mem_str_In, g_keys_in in F. auto.
      + apply raise_g_pop; auto. now rewrite (g_abs_route g k i c).
    - right. right. split; [|split].
      + intros e Q. inversion Q as [o0 k0 K0 NE0|k0 v0 n0 EN0 ST0 HS0 LE0 NONE0|k0 v0 n0 i0 c0 R0 N0 HS0 D0 ST0 LE0
          |d0 n0 f0 ST0 HS0 F0 LT0|d0 n0 f0 D0 EX0|k0 EN0 NONE0|EX0]; subst; simpl in K; try contradiction; subst.
        * assert (k0 = k) by (destruct o; simpl in *; try contradiction; congruence). subst. auto.
        * pose proof (has_size_unique _ _ _ HS0 HS); subst.
          rewrite ST0, andb_true_r in F. apply andb_false_iff in F as [F|F]; [lia|].
          apply negb_false_iff, mem_str_In, g_keys_in in F. auto.
        * assert (i0 = i) by congruence; subst. assert (c0 = c) by congruence; subst.
          apply (NR CollectionCapacityError). apply raise_insert with (c_size c); auto. now apply c_has_size.
        * apply (NR KeyError). apply raise_pop. rewrite <- (g_abs_route g k i c) by auto. assumption.
      + intros d -> . simpl in K. contradiction.
      + eapply ok_step_local; [exact K|exact OKS|now apply (g_abs_route g k i c)|exact AT|exact OTH]. }
  destruct o as [k v|d|k dflt| |k v|].
  - destruct ((g_max g <=? g_size g) && negb (mem_str k (g_keys g)) && g_strict g) eqn:F.
    2: { apply (KEYED k eq_refl). auto. }
    destruct (encodable_dec k) as [EN|NE].
    + destruct (ROUTE k EN) as (i & c & R & N). simpl. unfold g_insert. rewrite R, F. simpl.
      split; [exact W|split; [reflexivity|]]. left. exists GroupCapacityError. repeat split; auto.
      apply andb_true_iff in F as [F1 F2]. apply andb_true_iff in F1 as [F0 F1].
      apply raise_g_full with (g_size g); auto; [lia|]. destruct (g_abs g k) eqn:E; auto.
      apply negb_true_iff, mem_str_false in F1. exfalso. apply F1, g_keys_in. congruence.
    + simpl. rewrite (proj1 (proj2 (proj2 (g_unencodable g k v VNone NE)))). simpl.
      split; [exact W|split; [reflexivity|]]. left. exists UnicodeEncodeError. repeat split; auto. now apply (raise_g_key g _ _ k).
  - (* update *)
    simpl in WO. cbn [g_step]. unfold g_update.
    set (f := Z.of_nat (length (filter (fun k => negb (mem_str k (g_keys g))) (map fst d)))).
    pose proof (g_fresh_keys d g) as FR. fold f in FR.
    destruct ((g_max g <? f + g_size g) && g_strict g) eqn:F.
    { simpl. split; [exact W|split; [reflexivity|]]. left. exists GroupCapacityError. repeat split; auto.
      apply andb_true_iff in F as [F1 F2]. apply raise_g_upd_full with (g_size g) f; auto; lia. }
    assert (NF : g_strict g = false \/ (has_size (g_abs g) (g_size g) /\ fresh_keys (g_abs g) d f /\ f + g_size g <= g_max g)).
    { apply andb_false_iff in F as [F|F]; [right; repeat split; auto; lia|auto]. }
    destruct (mapM _ d) as [ix|e] eqn:M.
    2: { simpl. split; [exact W|split; [reflexivity|]]. left. destruct (mapM_err_exists _ _ _ M) as (kv & I & E).
         exists e. destruct g as [|c0 g0]; [simpl in L; lia|].
         apply index_err_inv in E as [-> NE]. repeat split; auto.
         apply raise_g_upd_key with (g_size (c0 :: g0)) f; auto. apply Exists_exists. eauto. }
    assert (ALL : forall k v, In (k, v) d -> exists i, get_group_index k (length g) = Ok i /\ (i < length g)%nat).
    { intros k v I. destruct (mapM_in _ _ _ _ M I) as (i & E & _). simpl in E. exists i. split; auto. now apply index_ok in E. }
    assert (NR : forall e, ~ g_raises g (g_abs g) (Update d) e).
    { intros e Q. inversion Q as [o0 k0 K0 NE0|k0 v0 n0 EN0 ST0 HS0 LE0 NONE0|k0 v0 n0 i0 c0 R0 N0 HS0 D0 ST0 LE0
          |d0 n0 f0 ST0 HS0 F0 LT0|d0 n0 f0 D0 EX0|k0 EN0 NONE0|EX0]; try subst d0; try subst o0; try subst e; simpl in *; try contradiction.
      - pose proof (has_size_unique _ _ _ HS0 HS) as EN. 
        assert (EF : f0 = f) by (unfold fresh_keys in F0, FR; rewrite F0; symmetry; exact FR).
        rewrite EN, EF in LT0. rewrite ST0, andb_true_r in F. lia.
      - apply Exists_exists in EX0 as ([k v] & I & NE). destruct (ALL k v I) as (i & E & _). simpl in NE.
        apply NE. now apply RENC in E. }
    destruct (update_from d (length g) 0 g) as [g' r] eqn:U. simpl.
    destruct (update_from_spec _ _ _ _ _ _ U) as [(-> & L' & A)|(-> & L' & j0 & c0 & N0 & O0 & A & B)]; simpl in *.
    + destruct (update_state g g' d (length g) W WO L') as [W' OV].
      * intros j c Hj _. apply (A j c Hj).
      * intros j Hj. rewrite (proj2 (nth_error_None g j)) by lia. apply nth_error_None. lia.
      * split; auto. split; auto. right. right. split; auto. split.
        -- intros d0 Ed i (c1 & N1 & O1 & _). injection Ed as <-. apply (A i c1 N1). exact O1.
        -- simpl. apply ok_update. intros k. destruct (OV k) as [OV1 OV2]. split; auto.
           intros v I. destruct (ALL k v I) as (i & R & Hi). now apply (OV1 i).
    + destruct (update_state g g' d j0 W WO L') as [W' OV]; auto.
      * intros j c Hj Hlt. apply (A j c Hj Hlt).
      * split; auto. split; auto. right. left. exists d, j0. repeat split; auto; try apply OV.
        exists c0. split; auto. split; auto. intros j c Hj Hlt. apply (A j c Hj Hlt).
  - apply (KEYED k eq_refl). auto.
  - (* popitem *)
    simpl. unfold g_popitem. destruct (g_minkey_spec None g W L) as [(k & -> & FA & K1 & _ & K3)|(-> & EX)].
    + destruct (get_group_index k (length g)) as [i|e] eqn:R; [|rewrite (g_abs_unroutable g k e) in K1; auto; congruence].
      destruct (route_nth g k i R) as [c N].
      assert (KP : keyed (Pop k VNone) k) by reflexivity.
      pose proof (g_keyed_step g (Pop k VNone) k i c KP R N I) as ST. simpl in ST.
      destruct (groupfn_step g (Pop k VNone) k i c W KP R N) as (W' & OTH & AT).
      rewrite (g_abs_route g k i c) in K1 by auto.
      assert (CP : c_pop k VNone c = (c_with_tree c (bt_del k (c_tree c)), Ok (match c_abs c k with Some v => v | None => VNone end))).
      { unfold c_pop. replace (mem_str k (bt_keys (c_tree c))) with true by (symmetry; apply mem_str_In; now apply c_abs_keys).
        simpl. unfold c_abs in *. destruct (bt_get k (c_tree c)); congruence. }
      unfold g_pop, groupfn in *. rewrite R, N in *. simpl in W', OTH, AT. rewrite CP in *. simpl in *.
      split; auto. split; [apply set_nth_length|]. right. right. split; [|split].
      * intros e Q. inversion Q as [o0 k0 K0 NE0|k0 v0 n0 EN0 ST0 HS0 LE0 NONE0|k0 v0 n0 i0 c0 R0 N0 HS0 D0 ST0 LE0
          |d0 n0 f0 ST0 HS0 F0 LT0|d0 n0 f0 D0 EX0|k0 EN0 NONE0|EX0]; subst; simpl in *; try contradiction.
        apply Exists_exists in EX0 as (c' & I' & Z0). rewrite Forall_forall in FA. apply (FA c' I'). now apply no_key_empty.
      * discriminate.
      * destruct (c_abs c k) as [v|] eqn:Ev; [|congruence]. apply ok_popitem.
        -- now rewrite (g_abs_route g k i c).
        -- split; [rewrite (g_abs_route g k i c); auto; congruence|]. intros j Hj. now apply K3.
        -- split; auto. rewrite AT. unfold c_abs; simpl. apply bt_get_del_same. apply (W i c N).
    + simpl. split; [exact W|split; [reflexivity|]]. left. exists ValueError. repeat split; auto. apply raise_g_popitem.
      apply Exists_exists in EX as (c & I & NK). apply Exists_exists. exists c. split; auto. now apply no_key_empty.
  - apply (KEYED k eq_refl). auto.
  - simpl. split; [apply g_clear_wf|]. split; [apply map_length|]. right. right. split; [|split].
    + intros e Q. inversion Q as [o0 k0 K0 NE0| | | | | |]. contradiction.
    + discriminate.
    + apply ok_clear. intros k. apply g_clear_abs.
Qed.

Lemma g_run_wf ops g : g_wf g -> (0 < length g)%nat -> Forall wf_op ops ->
  g_wf (g_run ops g) /\ length (g_run ops g) = length g.
Proof.
  revert g; induction ops as [|o ops IH]; simpl; intros g W L F; auto.
  inversion F as [|? ? F1 F2]; subst. destruct (g_step_spec g o W L F1) as (W' & L' & _).
  destruct (IH (fst (g_step g o)) W') as [A B]; auto; [lia|]. split; auto. lia.
Qed.
