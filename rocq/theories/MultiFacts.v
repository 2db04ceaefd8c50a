(** Facts about Multi.v: what calls and commits do to a container with one group *)
From Verif Require Import Base BaseFacts Value BTree BTreeFacts Collection CollectionFacts Group GroupFacts Container ContainerFacts Txn Connection Multi.
From Coq Require Import Sorting.Permutation.
Set Implicit Arguments.

Lemma nth_error_eq {A} : forall (a b : list A), length a = length b -> (forall i, nth_error a i = nth_error b i) -> a = b.
Proof.
  induction a as [|x a IH]; destruct b as [|y b]; cbn; intros L H; try discriminate; auto.
  pose proof (H O) as H0. cbn in H0. injection H0 as ->. f_equal. apply IH; [lia|]. intro i. exact (H (S i)).
Qed.

(** ** Merging *)
Lemma merge3_same {A} dec (b t : A) : merge3 dec b b t = Some t.
Proof. unfold merge3. destruct (dec b b); congruence. Qed.
Lemma merge3_alone {A} dec (b m : A) : merge3 dec b m b = Some m.
Proof. unfold merge3. destruct (dec m b); [congruence|]. destruct (dec b b); congruence. Qed.

Lemma merge_keys_skip (b m : tree pyval) l : forall t, (forall key, In key l -> bt_get key m = bt_get key b) ->
  fold_left (merge_key b m) l (Some t) = Some t.
Proof.
  induction l as [|x l IH]; cbn; intros t H; auto.
  destruct (cell_dec (bt_get x m) (bt_get x b)) as [|N]; [apply IH; auto|]. exfalso. apply N, H. now left.
Qed.
Lemma merge_keys_none (b m : tree pyval) l : fold_left (merge_key b m) l None = None.
Proof. induction l; cbn; auto. Qed.
Lemma merge_keys_one (b m : tree pyval) id : forall l t, NoDup l -> (forall key, key <> id -> bt_get key m = bt_get key b) ->
  (In id l \/ bt_get id m = bt_get id b) ->
  fold_left (merge_key b m) l (Some t) = merge_key b m (Some t) id.
Proof.
  intros l t N O I. destruct (cell_dec (bt_get id m) (bt_get id b)) as [E|NE].
  - rewrite merge_keys_skip.
    + cbn. destruct (cell_dec (bt_get id m) (bt_get id b)); congruence.
    + intros key _. destruct (list_eq_dec N.eq_dec key id) as [-> |D]; auto.
  - destruct I as [I|I]; [|contradiction]. apply in_split in I as (l1 & l2 & ->).
    rewrite fold_left_app. rewrite merge_keys_skip.
    2: { intros key J. apply O. intros ->. apply NoDup_remove_2 in N. apply N, in_or_app. now left. }
    cbn [fold_left]. destruct (merge_key b m (Some t) id) as [t'|] eqn:E; [|apply merge_keys_none].
    apply merge_keys_skip. intros key J. apply O. intros ->. apply NoDup_remove_2 in N. apply N, in_or_app. now right.
Qed.
Definition all_keys (b m : tree pyval) : list pystr := bt_keys m ++ filter (fun key => negb (bt_has key m)) (bt_keys b).
Lemma all_keys_nodup b m : bt_wf b -> bt_wf m -> NoDup (all_keys b m).
Proof.
  intros B M. apply NoDup_app; [now apply bt_wf_NoDup|apply NoDup_filter; now apply bt_wf_NoDup|].
  intros x H1 H2. apply filter_In in H2 as [_ H2]. apply bt_has_in in H1. rewrite H1 in H2. discriminate.
Qed.
Lemma all_keys_in b m key : In key (all_keys b m) \/ bt_get key m = bt_get key b.
Proof.
  unfold all_keys. destruct (bt_has key m) eqn:E; [left; apply in_or_app; left; now apply bt_has_in|].
  destruct (bt_has key b) eqn:E2; [left; apply in_or_app; right; apply filter_In; split; [now apply bt_has_in|now rewrite E]|].
  right. apply bt_has_false in E, E2. congruence.
Qed.
Lemma merge_tree_one b m t id : bt_wf b -> bt_wf m -> (forall key, key <> id -> bt_get key m = bt_get key b) ->
  merge_tree b m t = merge_key b m (Some t) id.
Proof. intros B M O. apply merge_keys_one; auto; [now apply all_keys_nodup|apply all_keys_in]. Qed.
Lemma merge_tree_same b t : merge_tree b b t = Some t.
Proof. apply merge_keys_skip. auto. Qed.

Lemma put_cell_wf key o t : bt_wf t -> bt_wf (put_cell key o t).
Proof. destruct o; [apply bt_set_wf|apply bt_del_wf]. Qed.
Lemma put_cell_get key o t key2 : bt_wf t -> bt_get key2 (put_cell key o t) = if str_eqb key2 key then o else bt_get key2 t.
Proof. intro W. destruct o; cbn [put_cell]; [apply bt_get_set|now apply bt_get_del]. Qed.
Lemma put_cell_id key t : bt_wf t -> put_cell key (bt_get key t) t = t.
Proof.
  intro W. apply bt_ext; auto; [now apply put_cell_wf|]. intro key2. rewrite put_cell_get by auto.
  destruct (str_eqb key2 key) eqn:E; auto. apply str_eqb_eq in E. now subst.
Qed.

(** all of a merge: what the transaction changed comes from it, and nobody else changed that *)
Lemma merge_keys_spec b m : forall l t r, bt_wf t -> NoDup l -> fold_left (merge_key b m) l (Some t) = Some r ->
  bt_wf r /\ (forall key, ~ In key l -> bt_get key r = bt_get key t) /\
  (forall key, In key l -> (bt_get key m = bt_get key b -> bt_get key r = bt_get key t) /\
                           (bt_get key m <> bt_get key b -> bt_get key t = bt_get key b /\ bt_get key r = bt_get key m)).
Proof.
  induction l as [|x l IH]; intros t r W N H.
  - cbn in H. injection H as <-. split; [auto|split; [auto|intros key []]].
  - apply NoDup_cons_iff in N as [NX N]. cbn [fold_left merge_key] in H.
    destruct (cell_dec (bt_get x m) (bt_get x b)) as [E|E].
    + destruct (IH _ _ W N H) as (R1 & R2 & R3). split; [auto|]. split.
      * intros key K. apply R2. intro J. apply K. now right.
      * intros key [-> |K]; [|now apply R3]. split; [intros _; now apply R2|congruence].
    + destruct (cell_dec (bt_get x t) (bt_get x b)) as [E2|E2]; [|rewrite merge_keys_none in H; discriminate].
      destruct (IH _ _ (put_cell_wf x (bt_get x m) W) N H) as (R1 & R2 & R3). split; [auto|]. split.
      * intros key K. rewrite R2 by (intro J; apply K; now right). rewrite put_cell_get by auto. rewrite (proj2 (str_eqb_neq _ _)); auto. intros ->. apply K. now left.
      * intros key [-> |K].
        -- split; [congruence|]. intros _. split; auto. rewrite R2 by auto. rewrite put_cell_get by auto. now rewrite str_eqb_refl.
        -- destruct (R3 key K) as [A B]. rewrite put_cell_get in A, B by auto.
           rewrite (proj2 (str_eqb_neq key x)) in A, B by (intros ->; contradiction). auto.
Qed.
Lemma merge_tree_spec b m t r : bt_wf b -> bt_wf m -> bt_wf t -> merge_tree b m t = Some r ->
  bt_wf r /\ forall key, (bt_get key m = bt_get key b -> bt_get key r = bt_get key t) /\
                         (bt_get key m <> bt_get key b -> bt_get key t = bt_get key b /\ bt_get key r = bt_get key m).
Proof.
  intros B M T H. destruct (@merge_keys_spec b m (all_keys b m) t r T (all_keys_nodup B M) H) as (R1 & R2 & R3).
  split; auto. intro key. destruct (all_keys_in b m key) as [I|E]; [now apply R3|].
  split; [|contradiction]. intros _. destruct (in_dec (list_eq_dec N.eq_dec) key (all_keys b m)) as [I|I]; [now apply R3|now apply R2].
Qed.
Lemma merge_keys_total b m : forall l t, bt_wf t -> NoDup l ->
  (forall key, bt_get key m <> bt_get key b -> bt_get key t = bt_get key b) -> exists r, fold_left (merge_key b m) l (Some t) = Some r.
Proof.
  assert (G : forall l t, bt_wf t -> NoDup l -> (forall key, In key l -> bt_get key m <> bt_get key b -> bt_get key t = bt_get key b) ->
    exists r, fold_left (merge_key b m) l (Some t) = Some r).
  { induction l as [|x l IH]; intros t W N H; [now exists t|]. apply NoDup_cons_iff in N as [NX N]. cbn [fold_left merge_key].
    destruct (cell_dec (bt_get x m) (bt_get x b)) as [E|E].
    - apply IH; auto. intros key K. apply H. now right.
    - destruct (cell_dec (bt_get x t) (bt_get x b)) as [E2|E2]; [|exfalso; apply E2, H; auto; now left].
      apply IH; auto; [now apply put_cell_wf|]. intros key K D. rewrite put_cell_get by auto. rewrite (proj2 (str_eqb_neq _ _)) by (intros ->; contradiction).
      apply H; auto. now right. }
  intros l t W N H. apply G; auto.
Qed.
Lemma merge_tree_total b m t : bt_wf b -> bt_wf m -> bt_wf t ->
  (forall key, bt_get key m <> bt_get key b -> bt_get key t = bt_get key b) -> exists r, merge_tree b m t = Some r.
Proof. intros B M T H. apply merge_keys_total; auto. now apply all_keys_nodup. Qed.

(** one place changed *)
Lemma merge_lists_set {A} (f : A -> A -> A -> option A) : forall bs ts i (b m t : A), length bs = length ts ->
  (forall j x y, nth_error bs j = Some x -> nth_error ts j = Some y -> f x x y = Some y) ->
  nth_error bs i = Some b -> nth_error ts i = Some t ->
  merge_lists f bs (set_nth i m bs) ts = option_map (fun x => set_nth i x ts) (f b m t).
Proof.
  assert (Z : forall bs ts, length bs = length ts ->
    (forall j x y, nth_error bs j = Some x -> nth_error ts j = Some y -> f x x y = Some y) -> merge_lists f bs bs ts = Some ts).
  { induction bs as [|x bs IH]; destruct ts as [|y ts]; intros L H; try discriminate; auto.
    cbn. rewrite (H O x y) by reflexivity. fold (merge_lists f). rewrite IH; auto. intros j. exact (H (S j)). }
  induction bs as [|x bs IH]; intros ts i b m t L H B T; [destruct i; discriminate|].
  destruct ts as [|y ts]; [discriminate|]. destruct i as [|i]; cbn in B, T.
  - injection B as ->. injection T as ->. cbn. fold (merge_lists f). rewrite Z; [destruct (f b m t); auto|auto|intros j; exact (H (S j))].
  - cbn. fold (merge_lists f). rewrite (H O x y) by reflexivity.
    rewrite (IH ts i b m t); auto; [destruct (f b m t); auto|intros j; exact (H (S j))].
Qed.
Lemma merge_lists_same {A} (f : A -> A -> A -> option A) : forall bs ts, length bs = length ts ->
  (forall j x y, nth_error bs j = Some x -> nth_error ts j = Some y -> f x x y = Some y) -> merge_lists f bs bs ts = Some ts.
Proof.
  induction bs as [|x bs IH]; destruct ts as [|y ts]; intros L H; try discriminate; auto.
  cbn. rewrite (H O x y) by reflexivity. fold (merge_lists f). rewrite IH; auto. intros j. exact (H (S j)).
Qed.
Lemma merge_collection_same b t : merge_collection b b t = Some t.
Proof. unfold merge_collection. rewrite merge3_same, merge_tree_same. now destruct t. Qed.
Lemma merge_group_same (b t : group) : length b = length t -> merge_group b b t = Some t.
Proof. intro L. apply merge_lists_same; auto. intros. apply merge_collection_same. Qed.
