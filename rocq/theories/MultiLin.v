(** Autocommitted calls of several connections are linearizable (one group, not strict) *)
From Verif Require Import Base BaseFacts Value BTree BTreeFacts Collection CollectionFacts RoutingFacts Group GroupFacts Container ContainerFacts Txn Connection Multi MultiFacts MultiSem.
From Coq Require Import Sorting.Permutation Sorting.Sorted.
Set Implicit Arguments.

(** ** Commits *)
Lemma alike_at b n i c : alike b n -> nth_error (k_prim b) i = Some c -> exists d, nth_error (k_prim n) i = Some d /\ dims d = dims c.
Proof.
  intros (_ & _ & _ & _ & D) N. pose proof (f_equal (fun l => nth_error l i) D) as E. cbn beta in E. rewrite !nth_error_map, N in E.
  destruct (nth_error (k_prim n) i) as [d|]; [|discriminate]. injection E as E. exists d. split; auto. unfold dims. congruence.
Qed.
Lemma nth_grp k j : (j < length (k_heap k))%nat -> nth_error (k_heap k) j = Some (grp k j).
Proof. intro L. unfold grp. now apply nth_error_nth'. Qed.
Lemma merge_heap_same b n j x y : solo b -> solo n -> alike b n -> nth_error (k_heap b) j = Some x -> nth_error (k_heap n) j = Some y ->
  merge_group x x y = Some y.
Proof.
  intros PB PN A X Y. apply merge_group_same. destruct (Nat.eq_dec j (k_primary b)) as [-> |D].
  - pose proof (alike_length A) as L. unfold k_prim in L. pose proof A as (_ & E & _). rewrite E in L.
    rewrite nth_grp in X by (apply solo_prim; auto). rewrite nth_grp in Y by (rewrite <- E; apply solo_prim; auto). congruence.
  - pose proof A as (_ & _ & HL & O & _). assert (J : (j < length (k_heap b))%nat) by (apply nth_error_Some; congruence).
    rewrite nth_grp in X by auto. rewrite nth_grp in Y by (rewrite HL; auto). rewrite O in Y by auto. congruence.
Qed.
Lemma merge_put_tree b n i c d t : solo b -> solo n -> alike b n -> nth_error (k_prim b) i = Some c -> nth_error (k_prim n) i = Some d ->
  merge b (put_tree i t b) n = option_map (fun t' => put_tree i t' n) (merge_tree (c_tree c) t (c_tree d)).
Proof.
  intros PB PN A NB NN. destruct (alike_at _ A NB) as (d' & Y & D). assert (d' = d) by congruence. subst d'.
  pose proof A as (G & P & HL & O & _). unfold put_tree. rewrite NB, NN. unfold merge, set_grp. cbn [k_heap k_groups k_primary].
  rewrite (@merge_lists_set _ merge_group (k_heap b) (k_heap n) (k_primary b) (k_prim b) _ (k_prim n)); auto.
  - unfold merge_group at 1.
    rewrite (@merge_lists_set _ merge_collection (k_prim b) (k_prim n) i c (c_with_tree c t) d); auto.
    + unfold merge_collection. cbn [c_with_tree c_strict c_tree]. rewrite merge3_same.
      rewrite merge3_same. destruct (merge_tree (c_tree c) t (c_tree d)) as [t'|]; cbn; auto. now rewrite P.
    + symmetry. now apply alike_length.
    + intros. apply merge_collection_same.
  - intros j x y X Z. exact (@merge_heap_same b n j x y PB PN A X Z).
  - apply nth_grp. now apply solo_prim.
  - unfold k_prim. rewrite P. apply nth_grp. rewrite <- P. now apply solo_prim.
Qed.
Lemma merge_same b n : solo b -> solo n -> alike b n -> merge b b n = Some n.
Proof.
  intros PB PN A. unfold merge. rewrite merge_lists_same.
  - rewrite merge3_same. now destruct n.
  - symmetry. apply A.
  - intros j x y X Y. exact (@merge_heap_same b n j x y PB PN A X Y).
Qed.

Lemma solo_put b i t c : solo b -> nth_error (k_prim b) i = Some c -> bt_wf t ->
  (forall key, bt_get key t <> None -> get_group_index key (length (k_prim b)) = Ok i) -> solo (put_tree i t b).
Proof.
  intros P N W R. pose proof P as (K & G). pose proof (solo_prim P) as (L & GW & S).
  pose proof (put_tree_alike i t P) as (A1 & A2 & _). split; [|now rewrite A1, A2].
  unfold put_tree. rewrite N. apply set_grp_ok; auto; [rewrite G; now left|]. split; [|rewrite set_nth_length; auto].
  apply set_nth_wf with (c := c); auto.
Qed.
Lemma relaxed_dims (g h : group) : map dims h = map dims g -> relaxed g -> relaxed h.
Proof.
  unfold relaxed. intros D R. assert (F : Forall (fun d => snd d = false) (map dims g)) by (apply Forall_map; exact R).
  rewrite <- D in F. apply Forall_map in F. exact F.
Qed.
Lemma alike_relaxed b n : alike b n -> relaxed (k_prim b) -> relaxed (k_prim n).
Proof. intros (_ & _ & _ & _ & D). now apply relaxed_dims. Qed.

(** the cell a call works on *)
Lemma sem_cases k c id : plain k -> cmd_id c = Some id ->
  (~ encodable id /\ conn_sem c k = (k, Err UnicodeEncodeError)) \/
  (exists i col, get_group_index id (length (k_prim k)) = Ok i /\ nth_error (k_prim k) i = Some col /\ bt_wf (c_tree col) /\
     conn_sem c k = (put_tree i (put_cell id (fst (local c (bt_get id (c_tree col)))) (c_tree col)) k, snd (local c (bt_get id (c_tree col))))).
Proof.
  intros PP C. pose proof (proj1 PP) as P. destruct (encodable_dec id) as [E|E]; [right|left; split; auto; eapply sem_bad_id; eauto].
  destruct (solo_prim P) as (_ & _ & S). destruct (@index_total _ _ E S) as (i & I & _). destruct (@route_nth _ _ _ I) as (col & N).
  exists i, col. repeat split; auto; [eapply tree_wf; eauto|]. now apply sem_plain.
Qed.
Lemma sem_keeps k c id : plain k -> cmd_id c = Some id -> plain (fst (conn_sem c k)) /\ alike k (fst (conn_sem c k)).
Proof.
  intros PP C. pose proof (proj1 PP) as P. destruct (@sem_cases _ _ _ PP C) as [(_ & ->)|(i & col & I & N & W & ->)]; cbn [fst]; [split; [auto|apply alike_refl]|].
  split; [|now apply put_tree_alike]. split; [|apply alike_relaxed with (b := k); [now apply put_tree_alike|apply PP]].
  apply solo_put with (c := col); auto; [now apply put_cell_wf|].
  intros key H. rewrite put_cell_get in H by auto. destruct (str_eqb key id) eqn:E; [apply str_eqb_eq in E; now subst|].
  destruct (solo_prim P) as (_ & GW & _). apply (proj2 (GW _ _ N)). exact H.
Qed.
Lemma local_err c o e : snd (local c o) = Err e -> fst (local c o) = o.
Proof. destruct c; cbn; auto; destruct o; cbn; auto; discriminate. Qed.
Lemma sem_err k c id e : plain k -> cmd_id c = Some id -> snd (conn_sem c k) = Err e -> fst (conn_sem c k) = k /\ e <> ConflictError.
Proof.
  intros PP C. pose proof (proj1 PP) as P. destruct (@sem_cases _ _ _ PP C) as [(_ & ->)|(i & col & I & N & W & ->)]; cbn [fst snd]; intro H; [split; congruence|].
  rewrite (@local_err _ _ _ H), put_cell_id, (@put_tree_id _ _ _ P N) by auto. split; auto. intros ->.
  destruct c; cbn in H; try discriminate; try destruct (bt_get _ _); discriminate.
Qed.
Lemma sem_same_dec k c id : plain k -> cmd_id c = Some id -> fst (conn_sem c k) = k \/ fst (conn_sem c k) <> k.
Proof.
  intros PP C. pose proof (proj1 PP) as P. destruct (@sem_cases _ _ _ PP C) as [(_ & ->)|(i & col & I & N & W & ->)]; cbn [fst]; auto.
  destruct (cell_dec (fst (local c (bt_get id (c_tree col)))) (bt_get id (c_tree col))) as [E|E].
  - left. rewrite E, put_cell_id, (@put_tree_id _ _ _ P N) by auto. reflexivity.
  - right. intro H. apply E. pose proof (@put_tree_prim _ _ _ (put_cell id (fst (local c (bt_get id (c_tree col)))) (c_tree col)) P N) as Q.
    rewrite H in Q. pose proof (f_equal (fun l => nth_error l i) Q) as Q2. cbn beta in Q2.
    rewrite set_nth_same in Q2 by (apply nth_error_Some; congruence). rewrite N in Q2. injection Q2 as Q2.
    apply (f_equal c_tree) in Q2. cbn in Q2. rewrite Q2 at 2. rewrite put_cell_get by auto. now rewrite str_eqb_refl.
Qed.
(** a call that changes something and is committed would have done the same on the state it is merged with *)
Lemma commit_changed b n c id r : plain b -> plain n -> alike b n -> cmd_id c = Some id -> fst (conn_sem c b) <> b ->
  merge b (fst (conn_sem c b)) n = Some r -> conn_sem c n = (r, snd (conn_sem c b)).
Proof.
  intros PPB PPN A C D M. pose proof (proj1 PPB) as PB. pose proof (proj1 PPN) as PN. destruct (@sem_cases _ _ _ PPB C) as [(_ & E)|(i & col & I & N & W & E)]; [rewrite E in D; contradiction|].
  destruct (alike_at _ A N) as (d & ND & _). rewrite E in *. cbn [fst snd] in *. rewrite (@merge_put_tree _ _ _ _ _ _ PB PN A N ND) in M.
  pose proof (@tree_wf _ _ _ PN ND) as WD.
  rewrite (@merge_tree_one _ _ _ id) in M; [|auto|now apply put_cell_wf|intros key K; rewrite put_cell_get by auto; now rewrite (proj2 (str_eqb_neq _ _)) by auto].
  cbn [merge_key] in M. rewrite put_cell_get, str_eqb_refl in M by auto.
  destruct (cell_dec (fst (local c (bt_get id (c_tree col)))) (bt_get id (c_tree col))) as [X|X].
  { exfalso. apply D. rewrite X, put_cell_id, (@put_tree_id _ _ _ PB N) by auto. reflexivity. }
  destruct (cell_dec (bt_get id (c_tree d)) (bt_get id (c_tree col))) as [Y|Y]; [|discriminate]. cbn in M. injection M as <-.
  rewrite (@sem_plain n c id i d); auto; [|rewrite (alike_length A); auto]. now rewrite Y.
Qed.
