(** What create, update and delete do to a container with one non-strict group, key by key *)
From Verif Require Import Base BaseFacts Value BTree BTreeFacts Collection CollectionFacts RoutingFacts Group GroupFacts Container ContainerFacts Txn Connection Multi MultiFacts.
Set Implicit Arguments.

Definition relaxed (g : group) : Prop := Forall (fun c => c_strict c = false) g.
(** one group; and not strict *)
Definition solo (k : container) : Prop := k_ok k /\ k_groups k = [k_primary k].
Definition plain (k : container) : Prop := solo k /\ relaxed (k_prim k).
Definition put_tree (i : nat) (t : tree pyval) (k : container) : container :=
  match nth_error (k_prim k) i with
  | Some c => set_grp (k_primary k) (set_nth i (c_with_tree c t) (k_prim k)) k
  | None => k
  end.
Definition cmd_id (c : ccmd) : option pystr :=
  match c with CCreate id _ | CUpdate id _ | CDelete id => Some id | _ => None end.
(** new content of the cell and result *)
Definition local (c : ccmd) (o : option pyval) : option pyval * res cres :=
  match c with
  | CCreate _ v => match o with None => (Some v, Ok (RVal (VInt 1))) | Some _ => (o, Err ObjectOverwriteError) end
  | CUpdate _ v => (Some v, Ok (RVal (match o with Some w => if truthy w then w else VNone | None => VNone end)))
  | CDelete _ => match o with Some v => (None, Ok (RTuple [v])) | None => (None, Ok (RTuple [])) end
  | _ => (o, Err OutOfModel)
  end.

Lemma solo_prim k : solo k -> (k_primary k < length (k_heap k))%nat /\ g_wf (k_prim k) /\ (0 < length (k_prim k))%nat.
Proof. intros ((_ & _ & F) & G). destruct (F (k_primary k)) as (L & W & P); [rewrite G; now left|]. auto. Qed.
Lemma relaxed_at g i c : relaxed g -> nth_error g i = Some c -> c_strict c = false.
Proof. intros R N. unfold relaxed in R. rewrite Forall_forall in R. apply R. eapply nth_error_In; eauto. Qed.
Lemma relaxed_strict g : relaxed g -> (0 < length g)%nat -> g_strict g = false.
Proof. intros R L. destruct g as [|c g]; [cbn in L; lia|]. cbn. inversion R; subst. now rewrite H1. Qed.

Lemma insert_relaxed g id v i c : relaxed g -> (0 < length g)%nat -> get_group_index id (length g) = Ok i -> nth_error g i = Some c ->
  g_insert id v g = (set_nth i (c_with_tree c (fst (bt_insert id v (c_tree c)))) g, Ok (snd (bt_insert id v (c_tree c)))).
Proof.
  intros R L I N. unfold g_insert. rewrite I, (relaxed_strict R L), andb_false_r. unfold groupfn. rewrite I, N. unfold c_insert.
  rewrite (relaxed_at _ R N), andb_false_r. destruct (bt_insert id v (c_tree c)); reflexivity.
Qed.
Lemma share_one id v n i j : get_group_index id n = Ok i -> share [(id, v)] n j = if Nat.eqb i j then [(id, v)] else [].
Proof. intro I. unfold share. cbn. rewrite I. destruct (Nat.eqb i j); reflexivity. Qed.
Lemma update_relaxed g id v i c : relaxed g -> (0 < length g)%nat -> get_group_index id (length g) = Ok i -> nth_error g i = Some c ->
  g_update [(id, v)] g = (set_nth i (c_with_tree c (bt_set id v (c_tree c))) g, Ok tt).
Proof.
  intros R L I N. unfold g_update. rewrite (relaxed_strict R L), andb_false_r. cbn [mapM fst]. rewrite I.
  destruct (update_from [(id, v)] (length g) 0 g) as [g' r] eqn:U. destruct (@update_from_spec _ _ _ _ _ _ U) as [(-> & LE & H)|(_ & _ & j & c0 & N0 & O & _)].
  - f_equal. apply nth_error_eq; [now rewrite set_nth_length|]. intro j. destruct (nth_error g j) as [cj|] eqn:NJ.
    + destruct (H _ _ NJ) as [-> _]. rewrite share_one with (i := i) by auto. cbn [Nat.add]. destruct (Nat.eqb_spec i j) as [-> |D].
      * rewrite set_nth_same by (apply nth_error_Some; congruence). unfold applied. cbn. congruence.
      * rewrite set_nth_other by auto. rewrite NJ. unfold applied. cbn. now destruct cj.
    + destruct (Nat.eq_dec i j) as [-> |D]; [congruence|]. rewrite set_nth_other by auto. rewrite NJ. apply nth_error_None. rewrite LE. now apply nth_error_None.
  - destruct O as (_ & O & _). rewrite (relaxed_at _ R N0) in O. discriminate.
Qed.

Lemma put_tree_twice k i c t1 t2 : solo k -> nth_error (k_prim k) i = Some c ->
  set_grp (k_primary k) (set_nth i (c_with_tree (c_with_tree c t1) t2) (set_nth i (c_with_tree c t1) (k_prim k))) k
  = set_grp (k_primary k) (set_nth i (c_with_tree c t2) (k_prim k)) k.
Proof.
  intros P N. f_equal. apply nth_error_eq; [now rewrite !set_nth_length|]. intro j. destruct (Nat.eq_dec i j) as [-> |D].
  - rewrite !set_nth_same; auto; rewrite ?set_nth_length; apply nth_error_Some; congruence.
  - now rewrite !set_nth_other by auto.
Qed.
Lemma has_plain k id i c : solo k -> get_group_index id (length (k_prim k)) = Ok i -> nth_error (k_prim k) i = Some c ->
  k_has id k = Ok (zbool (bt_has id (c_tree c))).
Proof.
  intros (_ & G) I N. unfold k_has. rewrite G. cbn [mapM]. fold (k_prim k). unfold g_has_key, groupfn. rewrite I, N. cbn.
  unfold c_has_key, count_true. destruct (bt_has id (c_tree c)); reflexivity.
Qed.
Lemma read_plain k id i c d : solo k -> get_group_index id (length (k_prim k)) = Ok i -> nth_error (k_prim k) i = Some c ->
  k_read id d k = Ok (match bt_get id (c_tree c) with Some w => if truthy w then w else d | None => d end).
Proof.
  intros (_ & G) I N. unfold k_read. rewrite G. cbn [map read_from]. fold (k_prim k). unfold g_get, groupfn. rewrite I, N. cbn.
  unfold c_get. destruct (bt_get id (c_tree c)) as [w|]; [destruct (truthy w); reflexivity|reflexivity].
Qed.
Lemma write_plain k id v i c : plain k -> get_group_index id (length (k_prim k)) = Ok i -> nth_error (k_prim k) i = Some c ->
  k_write id v k = (put_tree i (bt_set id v (c_tree c)) k, Ok (if bt_has id (c_tree c) then None else Some 1%Z)).
Proof.
  intros (P & R) I N. pose proof (solo_prim P) as (L & W & S). unfold k_write, put_tree. rewrite N.
  rewrite (insert_relaxed _ _ R S I N). unfold bt_insert. destruct (bt_has id (c_tree c)) eqn:H; cbn [fst snd Z.eqb].
  - assert (X : set_nth i (c_with_tree c (c_tree c)) (k_prim k) = k_prim k) by (apply set_nth_id; rewrite N; now destruct c).
    rewrite X. rewrite (update_relaxed _ _ R S I N). reflexivity.
  - reflexivity.
Qed.
Lemma put_tree_id k i c : solo k -> nth_error (k_prim k) i = Some c -> put_tree i (c_tree c) k = k.
Proof.
  intros P N. unfold put_tree. rewrite N. rewrite set_nth_id by (rewrite N; now destruct c). apply set_grp_id. now apply solo_prim.
Qed.
Lemma tree_wf k i c : solo k -> nth_error (k_prim k) i = Some c -> bt_wf (c_tree c).
Proof. intros P N. destruct (solo_prim P) as (_ & W & _). exact (proj1 (W _ _ N)). Qed.

Lemma sem_plain k c id i col : plain k -> cmd_id c = Some id -> get_group_index id (length (k_prim k)) = Ok i ->
  nth_error (k_prim k) i = Some col ->
  conn_sem c k = (put_tree i (put_cell id (fst (local c (bt_get id (c_tree col)))) (c_tree col)) k, snd (local c (bt_get id (c_tree col)))).
Proof.
  intros PP C I N. pose proof (proj1 PP) as P. pose proof (@tree_wf _ _ _ P N) as W. destruct c; cbn in C; try discriminate; injection C as ->; cbn [conn_sem local].
  - unfold do_create. rewrite (@has_plain _ _ _ _ P I N), (@write_plain _ _ v _ _ PP I N). unfold bt_has. destruct (bt_get id (c_tree col)) as [w|] eqn:E; cbn [zbool Z.eqb fst snd].
    + rewrite <- E, put_cell_id, (@put_tree_id _ _ _ P N) by auto. reflexivity.
    + reflexivity.
  - unfold do_update. rewrite (@read_plain _ _ _ _ VNone P I N), (@write_plain _ _ v _ _ PP I N). cbn [fst snd put_cell]. reflexivity.
  - unfold do_delete, k_delete. pose proof P as (_ & G). rewrite G. cbn [delete_from]. rewrite (@has_plain _ _ _ _ P I N). unfold bt_has.
    destruct (bt_get id (c_tree col)) as [w|] eqn:E; cbn [zbool Z.eqb fst snd].
    + fold (k_prim k). unfold g_pop, groupfn. rewrite I, N. unfold c_pop. cbn [is_none].
      assert (M : mem_str id (bt_keys (c_tree col)) = true) by (apply mem_str_In, bt_has_in, bt_has_get; eauto).
      rewrite M. cbn [negb andb]. rewrite E. cbn [fst snd]. unfold put_tree. rewrite N. reflexivity.
    + rewrite <- E, put_cell_id, (@put_tree_id _ _ _ P N) by auto. reflexivity.
Qed.
Lemma sem_bad_id k c id : solo k -> cmd_id c = Some id -> ~ encodable id -> conn_sem c k = (k, Err UnicodeEncodeError).
Proof.
  intros P C B. pose proof (solo_prim P) as (L & _). pose proof P as (_ & G).
  destruct c; cbn in C; try discriminate; injection C as ->; cbn [conn_sem].
  - unfold do_create, k_has. rewrite G. cbn [mapM]. destruct (@g_unencodable (grp k (k_primary k)) id VNone VNone B) as (_ & -> & _). reflexivity.
  - unfold do_update, k_read. rewrite G. cbn [map read_from]. destruct (@g_unencodable (grp k (k_primary k)) id VNone VNone B) as (-> & _). reflexivity.
  - unfold do_delete, k_delete. rewrite G. cbn [delete_from]. unfold k_has. rewrite G. cbn [mapM].
    destruct (@g_unencodable (grp k (k_primary k)) id VNone VNone B) as (_ & -> & _). reflexivity.
Qed.

(** two containers that differ in the contents of the primary group's trees only *)
Definition dims (c : collection) := (c_uuid c, c_max c, c_strict c).
Definition alike (k n : container) : Prop :=
  k_groups n = k_groups k /\ k_primary n = k_primary k /\ length (k_heap n) = length (k_heap k) /\
  (forall j, j <> k_primary k -> grp n j = grp k j) /\ map dims (k_prim n) = map dims (k_prim k).
Lemma alike_refl k : alike k k.
Proof. repeat split. Qed.
Lemma alike_trans a b c : alike a b -> alike b c -> alike a c.
Proof.
  intros (A1 & A2 & A3 & A4 & A5) (B1 & B2 & B3 & B4 & B5). unfold alike. rewrite B1, B2, B3, B5, A1, A2, A3, A5. repeat split; auto.
  intros j J. rewrite B4 by (rewrite A2; auto). auto.
Qed.
Lemma alike_sym a b : alike a b -> alike b a.
Proof.
  intros (A1 & A2 & A3 & A4 & A5). unfold alike. repeat split; auto. intros j J. symmetry. apply A4. congruence.
Qed.
Lemma alike_length k n : alike k n -> length (k_prim n) = length (k_prim k).
Proof. intros (_ & _ & _ & _ & D). apply (f_equal (@length _)) in D. now rewrite !map_length in D. Qed.
Lemma put_tree_prim k i c t : solo k -> nth_error (k_prim k) i = Some c -> k_prim (put_tree i t k) = set_nth i (c_with_tree c t) (k_prim k).
Proof. intros P N. unfold put_tree. rewrite N. unfold k_prim. cbn [set_grp k_primary]. apply grp_set_same. now apply solo_prim. Qed.
Lemma put_tree_alike k i t : solo k -> alike k (put_tree i t k).
Proof.
  intros P. destruct (nth_error (k_prim k) i) as [c|] eqn:N; [|unfold put_tree; rewrite N; apply alike_refl].
  pose proof (@put_tree_prim _ _ _ t P N) as E. unfold alike. rewrite E. unfold put_tree. rewrite N. cbn [set_grp k_groups k_primary k_heap].
  rewrite set_nth_length. repeat split; auto.
  - intros j J. apply grp_set_other. auto.
  - apply nth_error_eq; [now rewrite !map_length, set_nth_length|]. intro j. rewrite !nth_error_map. destruct (Nat.eq_dec i j) as [-> |D].
    + rewrite set_nth_same by (apply nth_error_Some; congruence). rewrite N. reflexivity.
    + now rewrite set_nth_other by auto.
Qed.
