(** A strict container with several connections: by how much its capacity can be exceeded *)
From Verif Require Import Base BaseFacts Value BTree BTreeFacts Collection CollectionFacts RoutingFacts Group GroupFacts Container ContainerFacts Txn Connection Multi MultiFacts MultiSem MultiLin MultiHist MultiBlocks MultiLog.
Open Scope Z_scope.
Set Implicit Arguments.

(** sizes *)
Definition tsize (t : tree pyval) : Z := Z.of_nat (length t).
Definition has_cell (o : option pyval) : Z := match o with Some _ => 1 | None => 0 end.
Lemma tsize_put id o t : bt_wf t -> tsize (put_cell id o t) = tsize t + has_cell o - has_cell (bt_get id t).
Proof.
  intro W. unfold tsize. destruct o as [v|]; cbn [put_cell has_cell].
  - destruct (bt_get id t) as [w|] eqn:E; cbn [has_cell].
    + rewrite bt_set_length_old; auto; [lia|]. apply bt_has_get. eauto.
    + rewrite bt_set_length_new by auto. lia.
  - destruct (bt_get id t) as [w|] eqn:E; cbn [has_cell].
    + assert (H : bt_has id t = true) by (apply bt_has_get; eauto). pose proof (bt_del_length id t H). lia.
    + assert (Q : bt_del id t = t).
      { apply bt_ext; auto; [now apply bt_del_wf|]. intro key. rewrite bt_get_del by auto. destruct (str_eqb key id) eqn:K; auto. apply str_eqb_eq in K. now subst. }
      rewrite Q. lia.
Qed.
Lemma c_size_tsize c : c_size c = tsize (c_tree c).
Proof. unfold c_size, tsize, bt_keys. now rewrite map_length. Qed.

(** ** One call on a container with one group, strict or not *)
Lemma insert_any g id v i c : get_group_index id (length g) = Ok i -> nth_error g i = Some c ->
  (exists e, g_insert id v g = (g, Err e)) \/
  (g_insert id v g = (set_nth i (c_with_tree c (fst (bt_insert id v (c_tree c)))) g, Ok (snd (bt_insert id v (c_tree c)))) /\ (c_strict c = true -> c_size c < c_max c)).
Proof.
  intros I N. unfold g_insert. rewrite I. destruct (_ && _ && _); [left; eauto|]. unfold groupfn. rewrite I, N. unfold c_insert.
  destruct ((c_max c <=? c_size c) && c_strict c) eqn:F.
  - left. rewrite set_nth_id by auto. eauto.
  - right. destruct (bt_insert id v (c_tree c)). split; auto. intro S. rewrite S, andb_true_r in F. lia.
Qed.
Lemma update_any g id v i c : get_group_index id (length g) = Ok i -> nth_error g i = Some c ->
  (exists e, g_update [(id, v)] g = (g, Err e)) \/
  g_update [(id, v)] g = (set_nth i (c_with_tree c (bt_set id v (c_tree c))) g, Ok tt).
Proof.
  intros I N. unfold g_update. destruct (_ && _); [left; eauto|]. cbn [mapM fst]. rewrite I.
  destruct (update_from [(id, v)] (length g) 0 g) as [g' r] eqn:U. destruct (@update_from_spec _ _ _ _ _ _ U) as [(-> & LE & H)|(-> & LE & j & c0 & N0 & O & H1 & H2)].
  - right. f_equal. apply nth_error_eq; [now rewrite set_nth_length|]. intro j. destruct (nth_error g j) as [cj|] eqn:NJ.
    + destruct (H _ _ NJ) as [-> _]. rewrite share_one with (i := i) by auto. cbn [Nat.add]. destruct (Nat.eqb_spec i j) as [-> |D].
      * rewrite set_nth_same by (apply nth_error_Some; congruence). unfold applied. cbn. congruence.
      * rewrite set_nth_other by auto. rewrite NJ. unfold applied. cbn. now destruct cj.
    + destruct (Nat.eq_dec i j) as [-> |D]; [congruence|]. rewrite set_nth_other by auto. rewrite NJ. apply nth_error_None. rewrite LE. now apply nth_error_None.
  - left. exists CollectionCapacityError. f_equal. apply nth_error_eq; auto. intro x. destruct (Nat.lt_ge_cases x j) as [L|L]; [|auto].
    destruct (nth_error g x) as [cx|] eqn:NX; [|apply nth_error_None in NX; apply nth_error_None; lia].
    destruct (H1 _ _ NX L) as (-> & _). f_equal. rewrite share_one with (i := i) by auto. cbn [Nat.add].
    destruct O as (O & _). rewrite share_one with (i := i) in O by auto. cbn [Nat.add] in O.
    destruct (Nat.eqb_spec i j); [|contradiction]. destruct (Nat.eqb_spec i x); [lia|]. unfold applied. cbn. now destruct cx.
Qed.
(** what a call leaves: the same container, or one cell of the primary group changed, with room for it *)
Definition touched (k : container) (id : pystr) (k' : container) : Prop :=
  k' = k \/ exists i c o, get_group_index id (length (k_prim k)) = Ok i /\ nth_error (k_prim k) i = Some c /\ k' = put_tree i (put_cell id o (c_tree c)) k /\
    (bt_get id (c_tree c) = None -> o <> None -> c_strict c = true -> c_size c < c_max c).
Lemma write_any k id v : solo k -> encodable id -> touched k id (fst (k_write id v k)).
Proof.
  intros P E. pose proof (solo_prim P) as (L & W & S). destruct (@index_total _ _ E S) as (i & I & _). destruct (@route_nth _ _ _ I) as (c & N).
  assert (ID : set_grp (k_primary k) (k_prim k) k = k) by (apply set_grp_id; exact L).
  unfold k_write. destruct (@insert_any _ id v i c I N) as [(e & ->)|(-> & R)]; cbn [fst]; [left; exact ID|].
  unfold bt_insert. destruct (bt_has id (c_tree c)) eqn:H; cbn [fst snd Z.eqb].
  - assert (X : set_nth i (c_with_tree c (c_tree c)) (k_prim k) = k_prim k) by (apply set_nth_id; rewrite N; now destruct c). rewrite X.
    destruct (@update_any _ id v i c I N) as [(e & ->)| ->]; cbn [fst]; [left; exact ID|]. right. exists i, c, (Some v). repeat split; auto.
    unfold put_tree. now rewrite N.
  - right. exists i, c, (Some v). repeat split; auto. unfold put_tree. now rewrite N.
Qed.
Lemma sem_any k c id : solo k -> cmd_id c = Some id -> touched k id (fst (conn_sem c k)).
Proof.
  intros P C. destruct (encodable_dec id) as [E|E]; [|left; now rewrite (@sem_bad_id k c id P C E)].
  destruct c as [i0 v|i0 v|i0| |]; cbn in C; try discriminate; injection C as ->; cbn [conn_sem].
  - unfold do_create. destruct (k_has id k) as [n|e]; [|now left]. destruct (Z.eqb n 0); [|now left].
    pose proof (@write_any k id v P E) as T. destruct (k_write id v k) as [k1 [[z|]|e]]; exact T.
  - unfold do_update. destruct (k_read id VNone k) as [p|e]; [|now left]. pose proof (@write_any k id v P E) as T. destruct (k_write id v k) as [k1 [z|e]]; exact T.
  - pose proof (solo_prim P) as (L & W & S). destruct (@index_total _ _ E S) as (i & I & _). destruct (@route_nth _ _ _ I) as (c & N).
    unfold do_delete, k_delete. pose proof P as (_ & G). rewrite G. cbn [delete_from]. rewrite (@has_plain _ _ _ _ P I N). unfold bt_has.
    destruct (bt_get id (c_tree c)) as [w|] eqn:Q; cbn [zbool Z.eqb fst]; [|now left].
    fold (k_prim k). unfold g_pop, groupfn. rewrite I, N. unfold c_pop. cbn [is_none].
    assert (M : mem_str id (bt_keys (c_tree c)) = true) by (apply mem_str_In, bt_has_in, bt_has_get; eauto).
    rewrite M. cbn [negb andb]. rewrite Q. cbn [fst snd]. right. exists i, c, None. repeat split; auto; [|congruence]. unfold put_tree. now rewrite N.
Qed.

(** ** Sizes of the collections *)
Definition sz (k : container) (j : nat) : Z := match nth_error (k_prim k) j with Some c => c_size c | None => 0 end.
Lemma sz_put k i c t j : solo k -> nth_error (k_prim k) i = Some c -> sz (put_tree i t k) j = if Nat.eqb i j then tsize t else sz k j.
Proof.
  intros P N. unfold sz. rewrite (@put_tree_prim _ _ _ t P N). destruct (Nat.eqb_spec i j) as [<-|D].
  - rewrite set_nth_same by (apply nth_error_Some; congruence). now rewrite c_size_tsize.
  - now rewrite set_nth_other.
Qed.
Lemma touched_solo k id k' : solo k -> touched k id k' -> solo k' /\ alike k k'.
Proof.
  intros P [-> |(i & c & o & I & N & -> & _)]; [split; auto; apply alike_refl|]. split; [|now apply put_tree_alike].
  pose proof (@tree_wf _ _ _ P N) as W. apply solo_put with (c := c); auto; [now apply put_cell_wf|].
  intros key K. rewrite put_cell_get in K by auto. destruct (str_eqb key id) eqn:E; [apply str_eqb_eq in E; now subst|].
  destruct (solo_prim P) as (_ & GW & _). apply (proj2 (GW _ _ N)). exact K.
Qed.
(** a commit changes the size of every collection as the call did *)
Lemma commit_size b n id m r j : solo b -> solo n -> alike b n -> touched b id m -> merge b m n = Some r ->
  solo r /\ alike n r /\ sz r j = sz n j + (sz m j - sz b j).
Proof.
  intros PB PN A [-> |(i & c & o & I & N & -> & _)] H.
  - rewrite (merge_same PB PN A) in H. injection H as <-. split; auto. split; [apply alike_refl|lia].
  - destruct (alike_at _ A N) as (d & ND & _). rewrite (@merge_put_tree b n i c d _ PB PN A N ND) in H.
    pose proof (@tree_wf _ _ _ PB N) as WB. pose proof (@tree_wf _ _ _ PN ND) as WN.
    rewrite merge_tree_one with (id := id) in H; auto; [|now apply put_cell_wf|intros key K; rewrite put_cell_get by auto; now rewrite (proj2 (str_eqb_neq _ _) K)].
    unfold merge_key in H. rewrite put_cell_get in H by auto. rewrite str_eqb_refl in H.
    rewrite (@sz_put b i c _ j PB N), tsize_put by auto. assert (SB : i = j -> sz b j = tsize (c_tree c)) by (intros <-; unfold sz; now rewrite N, c_size_tsize).
    assert (SN : i = j -> sz n j = tsize (c_tree d)) by (intros <-; unfold sz; now rewrite ND, c_size_tsize).
    destruct (cell_dec o (bt_get id (c_tree c))) as [Q|Q].
    + cbn in H. injection H as <-. rewrite (@put_tree_id _ _ _ PN ND). split; auto. split; [apply alike_refl|].
      destruct (Nat.eqb_spec i j) as [D|D]; [rewrite SB, Q by auto|]; lia.
    + destruct (cell_dec (bt_get id (c_tree d)) (bt_get id (c_tree c))) as [Q2|Q2]; [|discriminate]. cbn in H. injection H as <-.
      assert (T : touched n id (put_tree i (put_cell id o (c_tree d)) n) \/ True) by auto. clear T.
      split; [|split; [now apply put_tree_alike|]].
      * apply solo_put with (c := d); auto; [now apply put_cell_wf|]. intros key K. rewrite put_cell_get in K by auto.
        destruct (str_eqb key id) eqn:E; [apply str_eqb_eq in E; subst; rewrite (alike_length A); auto|].
        destruct (solo_prim PN) as (_ & GW & _). apply (proj2 (GW _ _ ND)). exact K.
      * rewrite (@sz_put n i d _ j PN ND), tsize_put by auto. destruct (Nat.eqb_spec i j) as [D|D]; [rewrite SB, SN, Q2 by auto|]; lia.
Qed.
(** a call that makes a strict collection bigger found room in it, and makes it bigger by one *)
Lemma touched_size k id m j : solo k -> touched k id m -> sz m j <= sz k j + 1 /\
  (sz k j < sz m j -> forall c, nth_error (k_prim k) j = Some c -> c_strict c = true -> sz k j < c_max c).
Proof.
  intros P [-> |(i & c & o & I & N & -> & R)]; [lia|]. pose proof (@tree_wf _ _ _ P N) as W. rewrite (@sz_put k i c _ j P N), tsize_put by auto.
  destruct (Nat.eqb_spec i j) as [<-|D]; [|lia]. assert (E : sz k i = tsize (c_tree c)) by (unfold sz; now rewrite N, c_size_tsize). rewrite E.
  destruct o as [v|]; destruct (bt_get id (c_tree c)) as [w|] eqn:B; cbn [has_cell]; split; try lia.
  intros _ c' N' S. assert (c' = c) by congruence. subst c'. rewrite <- c_size_tsize. apply R; auto. discriminate.
Qed.

(** ** Counting the calls that are about to grow a collection *)
Definition growing (v : view) (j : nat) : bool :=
  match w_call v with Some (_, Ok _, _) => sz (w_base v) j <? sz (w_work v) j | _ => false end.
Definition b2n (b : bool) : nat := if b then 1%nat else 0%nat.
Definition count (n : nat) (f : nat -> bool) : nat := length (filter f (seq 0 n)).
Lemma count_le n f : (count n f <= n)%nat.
Proof. unfold count. rewrite <- (seq_length n 0) at 2. generalize (seq 0 n). induction l as [|x l IH]; cbn; auto. destruct (f x); cbn; lia. Qed.
Lemma filter_same {A} (f g : A -> bool) l : (forall x, In x l -> f x = g x) -> filter f l = filter g l.
Proof. induction l as [|x l IH]; intro H; cbn; auto. rewrite H by (now left). rewrite IH; auto. intros; apply H; now right. Qed.
Lemma count_upd n f g i : (i < n)%nat -> (forall j, j <> i -> g j = f j) -> (count n g + b2n (f i) = count n f + b2n (g i))%nat.
Proof.
  intros L H. unfold count. assert (E : seq 0 n = seq 0 i ++ i :: seq (S i) (n - S i)).
  { replace n with (i + S (n - S i))%nat at 1 by lia. rewrite seq_app. cbn. reflexivity. }
  rewrite E, !filter_app, !app_length. cbn [filter].
  rewrite (@filter_same _ g f (seq 0 i)) by (intros x X; apply in_seq in X; apply H; lia).
  rewrite (@filter_same _ g f (seq (S i) (n - S i))) by (intros x X; apply in_seq in X; apply H; lia).
  destruct (f i), (g i); cbn; lia.
Qed.

Record sinv (k : container) (n : nat) (w : world) : Prop := {
  t_now : solo (o_now w) /\ alike k (o_now w);
  t_call : forall i c r s, w_call (o_conn w i) = Some (c, r, s) -> exists id, solo (w_base (o_conn w i)) /\ alike k (w_base (o_conn w i)) /\ touched (w_base (o_conn w i)) id (w_work (o_conn w i));
  t_size : forall j c, nth_error (k_prim k) j = Some c -> c_strict c = true ->
    sz (o_now w) j + Z.of_nat (count n (fun i => growing (o_conn w i) j)) <= c_max c - 1 + Z.of_nat n
}.
Lemma sinv_same k n w w2 : sinv k n w -> o_now w2 = o_now w -> (forall i, o_conn w2 i = o_conn w i \/ (w_call (o_conn w i) = None /\ w_call (o_conn w2 i) = None)) -> sinv k n w2.
Proof.
  intros I N C. destruct I as [A B S]. constructor; rewrite ?N; auto.
  - intros i c r s H. destruct (C i) as [-> |(_ & X)]; [|congruence]. destruct (C i) as [X|(_ & X)]; [rewrite X in H|congruence]. eauto.
  - intros j c J T. specialize (S j c J T).
    assert (E : count n (fun i => growing (o_conn w2 i) j) = count n (fun i => growing (o_conn w i) j)).
    { unfold count. f_equal. apply filter_same. intros i _. destruct (C i) as [-> |(X & Y)]; auto. unfold growing. now rewrite X, Y. }
    now rewrite E.
Qed.
Lemma upd_other i j v f : j <> i -> upd i v f j = f j.
Proof. intro D. unfold upd. now rewrite (proj2 (Nat.eqb_neq _ _)). Qed.
Lemma sinv_step k n w e : sinv k n w -> single e -> (event_conn e < n)%nat -> sinv k n (fst (step w e)).
Proof.
  intros I E LT. pose proof (t_now I) as (P & A).
  assert (T : sinv k n (tick w)) by (apply sinv_same with (w := w); auto).
  assert (ND : forall i v, w_call (o_conn w i) = None -> w_call v = None -> sinv k n (set_view i v w)).
  { intros i v C V. apply sinv_same with (w := w); auto. cbn. intro j. unfold upd. destruct (Nat.eqb_spec j i) as [-> |]; auto. }
  (* the end of a call that leaves the committed state alone *)
  assert (QUIT : forall i v cl lg, (i < n)%nat -> w_call v = None -> sinv k n (mkWorld (o_now w) (upd i v (o_conn w)) cl lg)).
  { intros i v cl lg L V. constructor; cbn; auto.
    - intros x c r s. unfold upd. destruct (Nat.eqb_spec x i) as [-> |]; [congruence|]. apply (t_call I).
    - intros j c J S. pose proof (t_size I j J S) as B. pose proof (@count_upd n (fun x => growing (o_conn w x) j) (fun x => growing (upd i v (o_conn w) x) j) i L) as Q. cbv beta in Q.
      assert (Q1 : growing (upd i v (o_conn w) i) j = false) by (rewrite upd_same; unfold growing; now rewrite V). rewrite Q1 in Q. cbn [b2n] in Q.
      assert (Q2 : forall x, x <> i -> growing (upd i v (o_conn w) x) j = growing (o_conn w x) j) by (intros x X; now rewrite upd_other). specialize (Q Q2). lia. }
  destruct e as [i c|i ok|i|i rs ok|i o|i|i b]; try contradiction; cbn in LT; cbn [step].
  - destruct (w_call (o_conn w i)) as [x|] eqn:C; auto. destruct (conn_is_read c) eqn:RD; auto. destruct (w_auto (o_conn w i)).
    + destruct (cmd_cases c) as [X|(id & X)]; [congruence|]. pose proof (@sem_any (o_now w) c id P X) as T2. destruct (conn_sem c (o_now w)) as [m r]. cbn [fst] in T2 |- *.
      constructor; cbn; auto.
      * intros y c0 r0 s. unfold upd. destruct (Nat.eqb_spec y i) as [-> |]; [|apply (t_call I)]. intros _. exists id. cbn. auto.
      * intros j cj J S. pose proof (t_size I j J S) as B.
        pose proof (@count_upd n (fun x => growing (o_conn w x) j) (fun x => growing (upd i (mkView (o_now w) m false false (Some (c, r, o_clock w))) (o_conn w) x) j) i LT) as Q. cbv beta in Q.
        assert (Q1 : growing (o_conn w i) j = false) by (unfold growing; now rewrite C). rewrite Q1 in Q. cbn [b2n] in Q.
        assert (Q2 : forall x, x <> i -> growing (upd i (mkView (o_now w) m false false (Some (c, r, o_clock w))) (o_conn w) x) j = growing (o_conn w x) j) by (intros x0 X0; now rewrite upd_other). specialize (Q Q2).
        destruct (growing (upd i (mkView (o_now w) m false false (Some (c, r, o_clock w))) (o_conn w) i) j) eqn:G; cbn [b2n] in Q; [|lia].
        rewrite upd_same in G. unfold growing in G. cbn in G. destruct r as [a|x]; [|discriminate]. apply Z.ltb_lt in G.
        destruct (alike_at _ A J) as (d & ND2 & DD). assert (S2 : c_strict d = true) by (unfold dims in DD; congruence). assert (M2 : c_max d = c_max cj) by (unfold dims in DD; congruence).
        pose proof (proj2 (@touched_size (o_now w) id m j P T2) G d ND2 S2) as ROOM. rewrite M2 in ROOM.
        pose proof (count_le n (fun x => growing (upd i (mkView (o_now w) m false false (Some (c, Ok a, o_clock w))) (o_conn w) x) j)). lia.
    + destruct (w_failed (o_conn w i)); auto. destruct (conn_sem c (w_work (o_conn w i))) as [m r]. cbn [fst]. now apply ND.
  - destruct (w_call (o_conn w i)) as [[[c [a|x]] s]|] eqn:C; auto.
    + unfold try_commit. destruct ok; [|cbn; now apply QUIT]. destruct (merge (w_base (o_conn w i)) (w_work (o_conn w i)) (o_now w)) as [r|] eqn:M; [|cbn; now apply QUIT].
      destruct (t_call I _ C) as (id & PB & AB & T2). assert (AN : alike (w_base (o_conn w i)) (o_now w)) by (apply alike_trans with (b := k); [now apply alike_sym|auto]).
      cbn. constructor; cbn.
      * destruct (@commit_size _ _ id _ _ O PB P AN T2 M) as (R1 & R2 & _). split; auto. now apply alike_trans with (b := o_now w).
      * intros y c0 r0 s0. unfold upd. destruct (Nat.eqb_spec y i) as [-> |]; [discriminate|]. apply (t_call I).
      * intros j cj J S. pose proof (t_size I j J S) as B. destruct (@commit_size _ _ id _ _ j PB P AN T2 M) as (_ & _ & ->).
        pose proof (@count_upd n (fun x => growing (o_conn w x) j) (fun x => growing (upd i (fresh r true) (o_conn w) x) j) i LT) as Q. cbv beta in Q.
        assert (Q1 : growing (upd i (fresh r true) (o_conn w) i) j = false) by (rewrite upd_same; reflexivity). rewrite Q1 in Q. cbn [b2n] in Q.
        assert (Q2 : forall x, x <> i -> growing (upd i (fresh r true) (o_conn w) x) j = growing (o_conn w x) j) by (intros x0 X0; now rewrite upd_other). specialize (Q Q2).
        assert (G : growing (o_conn w i) j = (sz (w_base (o_conn w i)) j <? sz (w_work (o_conn w i)) j)) by (unfold growing; now rewrite C). rewrite G in Q.
        pose proof (proj1 (@touched_size _ id _ j PB T2)) as ONE. destruct (Z.ltb_spec (sz (w_base (o_conn w i)) j) (sz (w_work (o_conn w i)) j)); cbn [b2n] in Q; lia.
    + cbn. now apply QUIT.
  - destruct (w_call (o_conn w i)) eqn:C; auto. cbn. now apply ND.
  - destruct (w_call (o_conn w i)) eqn:C; auto. cbn. now apply ND.
Qed.
Lemma sinv_run k n evs : forall w, sinv k n w -> Forall single evs -> Forall (fun e => (event_conn e < n)%nat) evs -> sinv k n (run_events evs w).
Proof. induction evs as [|e evs IH]; intros w I F G; auto. inversion F; subst. inversion G; subst. apply IH; auto. now apply sinv_step. Qed.
(** [n] connections exceed the capacity of a strict collection by at most [n - 1] *)
Lemma strict_bound k n evs : k_ok k -> k_groups k = [k_primary k] -> (1 <= n)%nat ->
  Forall (fun c => c_strict c = true -> c_size c <= c_max c) (k_prim k) -> Forall single evs -> Forall (fun e => (event_conn e < n)%nat) evs ->
  forall j c, nth_error (k_prim (o_now (run_events evs (start_world k)))) j = Some c -> c_strict c = true -> c_size c <= c_max c + Z.of_nat n - 1.
Proof.
  intros K G L F E B j c J S.
  assert (I : sinv k n (start_world k)).
  { constructor; cbn.
    - split; [now split|apply alike_refl].
    - discriminate.
    - intros x cx X SX. assert (Z : count n (fun _ => false) = 0%nat) by (unfold count; clear; induction (seq 0 n); auto). 
      replace (count n (fun i => growing (fresh k true) x)) with 0%nat by (symmetry; exact Z). rewrite Forall_forall in F.
      assert (sz k x = c_size cx) by (unfold sz; now rewrite X). pose proof (F cx (nth_error_In _ _ X) SX). lia. }
  pose proof (@sinv_run k n evs _ I E B) as I2. pose proof (t_now I2) as (_ & A). destruct (alike_at _ (alike_sym A) J) as (d & ND & DD).
  assert (c_strict d = true) by (unfold dims in DD; congruence). assert (c_max d = c_max c) by (unfold dims in DD; congruence).
  pose proof (t_size I2 j ND H) as T. unfold sz in T. rewrite J in T. lia.
Qed.
