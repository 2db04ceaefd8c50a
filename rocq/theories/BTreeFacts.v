(** The sorted association list implements a finite map. *)
From Coq Require Import Sorting.Sorted Permutation.
From Verif Require Import Base BaseFacts Value BTree.
Set Implicit Arguments.

Section T.
Variable V : Type.
Implicit Types (t : tree V) (k : pystr) (v : V).

(** strictly ascending keys *)
Definition sorted_keys (l : list pystr) : Prop := StronglySorted slt l.
Definition bt_wf t : Prop := sorted_keys (bt_keys t).

Lemma bt_wf_nil : bt_wf ([] : tree V). Proof. constructor. Qed.

Lemma bt_wf_inv k v t : bt_wf ((k, v) :: t) -> bt_wf t /\ Forall (slt k) (bt_keys t).
Proof. unfold bt_wf; simpl; intros H; inversion H; auto. Qed.

Lemma bt_get_none_notin k t : bt_get k t = None <-> ~ In k (bt_keys t).
Proof.
  induction t as [|[k' v'] t IH]; simpl; [tauto|].
  destruct (str_eqb k k') eqn:E.
  - apply str_eqb_eq in E as ->. split; [discriminate|intros H; exfalso; auto].
  - rewrite IH. apply str_eqb_neq in E. split; intros H; [intros [H'|H']; auto; congruence | tauto].
Qed.
Lemma bt_has_in k t : bt_has k t = true <-> In k (bt_keys t).
Proof. unfold bt_has. pose proof (bt_get_none_notin k t) as H. destruct (bt_get k t) eqn:E.
  - split; auto. intros _. destruct (in_dec str_dec k (bt_keys t)); auto. apply H in n; discriminate.
  - split; [discriminate|]. intros H'. exfalso; apply (proj1 H); auto. Qed.
Lemma bt_has_get k t : bt_has k t = true <-> exists v, bt_get k t = Some v.
Proof. unfold bt_has. destruct (bt_get k t); split; intros H; eauto; try discriminate. destruct H; discriminate. Qed.
Lemma bt_has_false k t : bt_has k t = false <-> bt_get k t = None.
Proof. unfold bt_has. destruct (bt_get k t); split; intros; congruence. Qed.

Lemma bt_get_in k v t : bt_get k t = Some v -> In (k, v) t.
Proof.
  induction t as [|[k' v'] t IH]; simpl; [discriminate|].
  destruct (str_eqb k k') eqn:E; intros H.
  - apply str_eqb_eq in E. left; congruence.
  - right; auto.
Qed.
Lemma bt_in_get k v t : bt_wf t -> In (k, v) t -> bt_get k t = Some v.
Proof.
  induction t as [|[k' v'] t IH]; simpl; intros W [].
  - inversion H; subst. now rewrite str_eqb_refl.
  - apply bt_wf_inv in W as [W F]. rewrite Forall_forall in F.
    destruct (str_eqb k k') eqn:E; auto.
    apply str_eqb_eq in E as ->. exfalso.
    apply (@slt_irrefl k'). apply F. change k' with (fst (k', v)). now apply in_map.
Qed.

Lemma bt_get_set_same k v t : bt_get k (bt_set k v t) = Some v.
Proof.
  induction t as [|[k' v'] t IH]; simpl; [now rewrite str_eqb_refl|].
  destruct (str_compareP k k') as [E|E|E]; simpl; rewrite ?str_eqb_refl; auto.
  rewrite (proj2 (str_eqb_neq k k')); auto. intros ->; exact (slt_irrefl E).
Qed.
Lemma bt_get_set_other k k2 v t : k2 <> k -> bt_get k2 (bt_set k v t) = bt_get k2 t.
Proof.
  intros Hne. induction t as [|[k' v'] t IH]; simpl.
  - now rewrite (proj2 (str_eqb_neq k2 k)).
  - destruct (str_compareP k k') as [E|E|E]; simpl.
    + subst. now rewrite (proj2 (str_eqb_neq k2 k')).
    + now rewrite (proj2 (str_eqb_neq k2 k)).
    + rewrite IH. reflexivity.
Qed.
Lemma bt_get_set k k2 v t : bt_get k2 (bt_set k v t) = if str_eqb k2 k then Some v else bt_get k2 t.
Proof. destruct (str_eqb k2 k) eqn:E.
  - apply str_eqb_eq in E as ->. apply bt_get_set_same.
  - apply bt_get_set_other. now apply str_eqb_neq. Qed.

Lemma bt_set_keys_forall (P : pystr -> Prop) k v t :
  P k -> Forall P (bt_keys t) -> Forall P (bt_keys (bt_set k v t)).
Proof.
  intros Hk. induction t as [|[k' v'] t IH]; simpl; intros H; [auto|].
  inversion H; subst. destruct (str_compareP k k'); simpl; auto.
Qed.
Lemma bt_set_wf k v t : bt_wf t -> bt_wf (bt_set k v t).
Proof.
  unfold bt_wf. induction t as [|[k' v'] t IH]; simpl; intros W; [repeat constructor|].
  inversion W as [|? ? W' F]; subst. destruct (str_compareP k k') as [E|E|E]; simpl.
  - subst; constructor; auto.
  - constructor; auto. constructor; auto. eapply Forall_impl; [|exact F]. intros a; apply slt_trans; auto.
  - constructor; [apply IH; exact W'|]. apply bt_set_keys_forall; auto.
Qed.

Lemma bt_del_keys_forall (P : pystr -> Prop) k t :
  Forall P (bt_keys t) -> Forall P (bt_keys (bt_del k t)).
Proof.
  induction t as [|[k' v'] t IH]; simpl; intros H; [auto|].
  inversion H; subst. destruct (str_eqb k k'); simpl; auto.
Qed.
Lemma bt_del_wf k t : bt_wf t -> bt_wf (bt_del k t).
Proof.
  unfold bt_wf. induction t as [|[k' v'] t IH]; simpl; intros W; auto.
  inversion W as [|? ? W' F]; subst. destruct (str_eqb k k'); simpl; auto.
  constructor; [apply IH; exact W'|]. now apply bt_del_keys_forall.
Qed.
Lemma bt_get_del_same k t : bt_wf t -> bt_get k (bt_del k t) = None.
Proof.
  induction t as [|[k' v'] t IH]; simpl; intros W; auto.
  apply bt_wf_inv in W as [W F]. destruct (str_eqb k k') eqn:E; simpl.
  - apply str_eqb_eq in E as ->. apply bt_get_none_notin. rewrite Forall_forall in F.
    intros Hin. exact (slt_irrefl (F _ Hin)).
  - rewrite E. auto.
Qed.
Lemma bt_get_del_other k k2 t : k2 <> k -> bt_get k2 (bt_del k t) = bt_get k2 t.
Proof.
  intros Hne. induction t as [|[k' v'] t IH]; simpl; auto.
  destruct (str_eqb k k') eqn:E; simpl.
  - apply str_eqb_eq in E as ->. now rewrite (proj2 (str_eqb_neq k2 k')).
  - rewrite IH. reflexivity.
Qed.
Lemma bt_get_del k k2 t : bt_wf t ->
  bt_get k2 (bt_del k t) = if str_eqb k2 k then None else bt_get k2 t.
Proof. intros W. destruct (str_eqb k2 k) eqn:E.
  - apply str_eqb_eq in E as ->. now apply bt_get_del_same.
  - apply bt_get_del_other. now apply str_eqb_neq. Qed.
Lemma bt_del_notin k t : bt_get k t = None -> bt_del k t = t.
Proof.
  induction t as [|[k' v'] t IH]; simpl; auto.
  destruct (str_eqb k k') eqn:E; [discriminate|]. intros H; rewrite IH; auto.
Qed.

Lemma bt_update_wf d t : bt_wf t -> bt_wf (bt_update d t).
Proof. revert t; induction d as [|[k v] d IH]; simpl; intros t W; auto. apply IH. now apply bt_set_wf. Qed.

(** last binding of a key in an update dictionary *)
Fixpoint last_binding (k : pystr) (d : list (pystr * V)) : option V :=
  match d with
  | [] => None
  | (k', v) :: d' => match last_binding k d' with
                     | Some w => Some w
                     | None => if str_eqb k k' then Some v else None
                     end
  end.
Lemma bt_get_update k d t :
  bt_get k (bt_update d t) = match last_binding k d with Some v => Some v | None => bt_get k t end.
Proof.
  revert t; induction d as [|[k' v] d IH]; simpl; intros t; auto.
  rewrite IH. destruct (last_binding k d); auto.
  rewrite bt_get_set. destruct (str_eqb k k'); auto.
Qed.
Lemma last_binding_none k d : last_binding k d = None <-> ~ In k (map fst d).
Proof.
  induction d as [|[k' v] d IH]; simpl; [tauto|].
  destruct (last_binding k d) eqn:E.
  - split; [discriminate|]. intros H. exfalso.
    assert (H' : ~ In k (map fst d)) by tauto. apply IH in H'. discriminate.
  - destruct (str_eqb k k') eqn:E'.
    + apply str_eqb_eq in E' as ->. split; [discriminate|tauto].
    + apply str_eqb_neq in E'. split; auto. intros _ [H|H]; [congruence|]. apply IH in H; auto.
Qed.
Lemma last_binding_get k d : NoDup (map fst d) -> last_binding k d = bt_get k d.
Proof.
  induction d as [|[k' v] d IH]; simpl; intros H; auto. inversion H; subst.
  rewrite <- IH by auto. destruct (str_eqb k k') eqn:E'; [|destruct (last_binding k d); auto].
  apply str_eqb_eq in E' as ->. apply last_binding_none in H2. now rewrite H2.
Qed.

(** extensionality *)
Lemma bt_ext t1 t2 : bt_wf t1 -> bt_wf t2 -> (forall k, bt_get k t1 = bt_get k t2) -> t1 = t2.
Proof.
  revert t2; induction t1 as [|[k1 v1] t1 IH]; intros [|[k2 v2] t2] W1 W2 H; auto.
  - specialize (H k2). simpl in H. rewrite str_eqb_refl in H. discriminate.
  - specialize (H k1). simpl in H. rewrite str_eqb_refl in H. discriminate.
  - apply bt_wf_inv in W1 as [W1 F1]. apply bt_wf_inv in W2 as [W2 F2].
    rewrite Forall_forall in F1, F2.
    assert (k1 = k2) as ->.
    { destruct (slt_total k1 k2) as [L|[L|L]]; auto; exfalso.
      - specialize (H k1). simpl in H. rewrite str_eqb_refl in H.
        rewrite (proj2 (str_eqb_neq k1 k2)) in H by (now apply slt_not_eq).
        symmetry in H. apply bt_get_in in H. apply (in_map fst) in H. simpl in H.
        apply F2 in H. exact (slt_asym L H).
      - specialize (H k2). simpl in H. rewrite str_eqb_refl in H.
        rewrite (proj2 (str_eqb_neq k2 k1)) in H by (now apply slt_not_eq).
        apply bt_get_in in H. apply (in_map fst) in H. simpl in H.
        apply F1 in H. exact (slt_asym L H). }
    f_equal.
    + specialize (H k2). simpl in H. rewrite str_eqb_refl in H. congruence.
    + apply IH; auto. intros k. specialize (H k). simpl in H.
      destruct (str_eqb k k2) eqn:E; auto. apply str_eqb_eq in E as ->.
      transitivity (@None V).
      * apply bt_get_none_notin. intros Hin. exact (slt_irrefl (F1 _ Hin)).
      * symmetry. apply bt_get_none_notin. intros Hin. exact (slt_irrefl (F2 _ Hin)).
Qed.

Lemma sorted_keys_NoDup l : sorted_keys l -> NoDup l.
Proof.
  induction l as [|k l IH]; intros H; constructor; inversion H; subst.
  - rewrite Forall_forall in H3. intros Hin. exact (slt_irrefl (H3 _ Hin)).
  - auto.
Qed.
Lemma bt_wf_NoDup t : bt_wf t -> NoDup (bt_keys t).
Proof. apply sorted_keys_NoDup. Qed.

Lemma bt_set_length_new k v t : bt_get k t = None -> length (bt_set k v t) = S (length t).
Proof.
  induction t as [|[k' v'] t IH]; simpl; intros H; auto.
  destruct (str_eqb k k') eqn:E; [discriminate|].
  destruct (str_compareP k k') as [E'|E'|E']; simpl; auto.
  subst. rewrite str_eqb_refl in E; discriminate.
Qed.
Lemma bt_set_length_old k v t : bt_wf t -> bt_has k t = true -> length (bt_set k v t) = length t.
Proof.
  induction t as [|[k' v'] t IH]; simpl; intros W H; [discriminate|].
  apply bt_wf_inv in W as [W F].
  destruct (str_compareP k k') as [E'|E'|E']; simpl; auto.
  - exfalso. apply bt_has_in in H. simpl in H. destruct H as [H|H].
    + subst; exact (slt_irrefl E').
    + rewrite Forall_forall in F. apply F in H. exact (slt_asym E' H).
  - f_equal. apply IH; auto. apply bt_has_in in H. simpl in H. destruct H as [H|H].
    + subst; exfalso; exact (slt_irrefl E').
    + now apply bt_has_in.
Qed.
Lemma bt_set_length_le k v t : length (bt_set k v t) <= S (length t).
Proof. induction t as [|[k' v'] t IH]; simpl; auto. destruct (str_compare k k'); simpl; lia. Qed.
Lemma bt_del_length k t : bt_has k t = true -> S (length (bt_del k t)) = length t.
Proof.
  induction t as [|[k' v'] t IH]; simpl; intros H; [discriminate|].
  destruct (str_eqb k k') eqn:E; simpl; auto. f_equal. apply IH.
  unfold bt_has in *. simpl in H. now rewrite E in H.
Qed.
Lemma bt_del_length_le k t : length (bt_del k t) <= length t.
Proof. induction t as [|[k' v'] t IH]; simpl; auto. destruct (str_eqb k k'); simpl; lia. Qed.

(** ranges *)
Lemma filter_sorted (R : pystr -> pystr -> Prop) (f : pystr * V -> bool) t :
  StronglySorted R (map fst t) -> StronglySorted R (map fst (filter f t)).
Proof.
  induction t as [|kv t IH]; simpl; intros H; auto. inversion H; subst.
  destruct (f kv); simpl; auto. constructor; auto.
  rewrite Forall_forall in *. intros x Hx. apply in_map_iff in Hx as (y & <- & Hy).
  apply filter_In in Hy as [Hy _]. apply H3. now apply in_map.
Qed.
Lemma bt_range_wf lo hi t : bt_wf t -> bt_wf (bt_range lo hi t).
Proof. apply filter_sorted. Qed.
Lemma bt_range_in lo hi t k v :
  In (k, v) (bt_range lo hi t) <-> In (k, v) t /\ in_lo lo k = true /\ in_hi hi k = true.
Proof. unfold bt_range. rewrite filter_In. simpl. rewrite andb_true_iff. tauto. Qed.
Lemma bt_range_all t : bt_range None None t = t.
Proof. unfold bt_range. induction t as [|kv t IH]; [reflexivity|]. simpl. f_equal. exact IH. Qed.

Lemma bt_minkey_ok lo t k : bt_wf t -> bt_minkey lo t = Ok k ->
  In k (bt_keys t) /\ in_lo lo k = true /\
  (forall k', In k' (bt_keys t) -> in_lo lo k' = true -> sle k k').
Proof.
  intros W. unfold bt_minkey. pose proof (bt_range_wf lo None W) as WR.
  destruct (bt_range lo None t) as [|[k0 v0] r] eqn:E; [discriminate|]. intros H; inversion H; subst.
  assert (I : In (k, v0) (bt_range lo None t)) by (rewrite E; simpl; auto).
  apply bt_range_in in I as (I1 & I2 & _). repeat split; auto.
  - change k with (fst (k, v0)). now apply in_map.
  - intros k' Hk' Hlo. apply in_map_iff in Hk' as ([k1 v1] & E1 & Hin). simpl in E1; subst.
    assert (I : In (k', v1) (bt_range lo None t)) by (apply bt_range_in; auto).
    rewrite E in I. destruct I as [I|I].
    + inversion I; apply sle_refl.
    + apply bt_wf_inv in WR as [_ F]. rewrite Forall_forall in F. apply slt_le, F.
      change k' with (fst (k', v1)). now apply in_map.
Qed.
Lemma bt_minkey_err lo t e : bt_minkey lo t = Err e ->
  e = ValueError /\ forall k, In k (bt_keys t) -> in_lo lo k = false.
Proof.
  unfold bt_minkey. destruct (bt_range lo None t) as [|[k0 v0] r] eqn:E; [|discriminate].
  intros H; inversion H; split; auto. intros k Hk. destruct (in_lo lo k) eqn:L; auto.
  apply in_map_iff in Hk as ([k1 v1] & E1 & Hin). simpl in E1; subst.
  assert (I : In (k, v1) (bt_range lo None t)) by (apply bt_range_in; auto). rewrite E in I. destruct I.
Qed.
Lemma sorted_rev_head k l x : sorted_keys (l ++ [k]) -> In x l -> slt x k.
Proof.
  induction l as [|y l IH]; simpl; intros H Hx; [destruct Hx|].
  inversion H as [|? ? S F]; subst. destruct Hx as [Hx|Hx]; subst.
  - rewrite Forall_forall in F. apply F. apply in_or_app; simpl; auto.
  - auto.
Qed.
Lemma bt_maxkey_ok hi t k : bt_wf t -> bt_maxkey hi t = Ok k ->
  In k (bt_keys t) /\ in_hi hi k = true /\
  (forall k', In k' (bt_keys t) -> in_hi hi k' = true -> sle k' k).
Proof.
  intros W. unfold bt_maxkey. pose proof (bt_range_wf None hi W) as WR.
  destruct (rev (bt_range None hi t)) as [|[k0 v0] r] eqn:E; [discriminate|].
  intros H; inversion H; subst. apply (f_equal (@rev _)) in E. rewrite rev_involutive in E. simpl in E.
  assert (I : In (k, v0) (bt_range None hi t)) by (rewrite E; apply in_or_app; simpl; auto).
  apply bt_range_in in I as (I1 & _ & I2). repeat split; auto.
  - change k with (fst (k, v0)). now apply in_map.
  - intros k' Hk' Hhi. apply in_map_iff in Hk' as ([k1 v1] & E1 & Hin). simpl in E1; subst.
    assert (I : In (k', v1) (bt_range None hi t)) by (apply bt_range_in; auto).
    rewrite E in I. apply in_app_or in I. destruct I as [I|[I|[]]].
    + apply slt_le. unfold bt_wf in WR. rewrite E in WR. unfold bt_keys in WR. rewrite map_app in WR. simpl in WR.
      eapply sorted_rev_head; eauto. change k' with (fst (k', v1)). now apply in_map.
    + inversion I; apply sle_refl.
Qed.
Lemma bt_maxkey_err hi t e : bt_maxkey hi t = Err e ->
  e = ValueError /\ forall k, In k (bt_keys t) -> in_hi hi k = false.
Proof.
  unfold bt_maxkey. destruct (rev (bt_range None hi t)) as [|[k0 v0] r] eqn:E; [|discriminate].
  intros H; inversion H; split; auto. intros k Hk. destruct (in_hi hi k) eqn:L; auto.
  apply in_map_iff in Hk as ([k1 v1] & E1 & Hin). simpl in E1; subst.
  assert (I : In (k, v1) (bt_range None hi t)) by (apply bt_range_in; auto).
  apply in_rev in I. rewrite E in I. destruct I.
Qed.
End T.
