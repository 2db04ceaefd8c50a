From Verif Require Import Base BaseFacts Dict.
Set Implicit Arguments.

Lemma d_get_set_same {A} k (v : A) d : d_get k (d_set k v d) = Some v.
Proof. induction d as [|[j w] d IH]; simpl; [now rewrite str_eqb_refl|]. destruct (str_eqb k j) eqn:E; simpl; rewrite E; auto. Qed.
Lemma d_get_set_other {A} k j (v : A) d : j <> k -> d_get j (d_set k v d) = d_get j d.
Proof.
  intros N. induction d as [|[i w] d IH]; simpl.
  - destruct (str_eqb j k) eqn:E; auto. apply str_eqb_eq in E. congruence.
  - destruct (str_eqb k i) eqn:E; simpl; [|now rewrite IH]. apply str_eqb_eq in E. subst i. destruct (str_eqb j k) eqn:E; auto. apply str_eqb_eq in E. congruence.
Qed.
Lemma d_get_in {A} k (d : dict A) : d_get k d <> None <-> In k (d_keys d).
Proof.
  unfold d_keys. induction d as [|[j v] d IH]; simpl; [tauto|]. destruct (str_eqb k j) eqn:E.
  - apply str_eqb_eq in E. subst. split; auto. discriminate.
  - rewrite IH. split; auto. intros [<-|H]; auto. rewrite str_eqb_refl in E. discriminate.
Qed.
Lemma d_get_none {A} k (d : dict A) : d_get k d = None <-> ~ In k (d_keys d).
Proof. rewrite <- d_get_in. destruct (d_get k d); split; intros H; try congruence; auto. exfalso. apply H. discriminate. Qed.
Lemma d_get_some_in {A} k v (d : dict A) : d_get k d = Some v -> In (k, v) d.
Proof. induction d as [|[j w] d IH]; simpl; [discriminate|]. destruct (str_eqb k j) eqn:E; auto. apply str_eqb_eq in E. intros [= ->]. left. congruence. Qed.
Lemma d_get_nodup {A} k v (d : dict A) : NoDup (d_keys d) -> In (k, v) d -> d_get k d = Some v.
Proof.
  unfold d_keys. induction d as [|[j w] d IH]; simpl; [tauto|]. intros ND [E|H].
  - injection E as -> ->. now rewrite str_eqb_refl.
  - apply NoDup_cons_iff in ND. destruct ND as [NI ND]. destruct (str_eqb k j) eqn:E; auto. apply str_eqb_eq in E. subst. exfalso. apply NI. apply (in_map fst) in H. exact H.
Qed.
Lemma d_get_del_other {A} k j (d : dict A) : j <> k -> d_get j (d_del k d) = d_get j d.
Proof.
  intros N. induction d as [|[i w] d IH]; simpl; auto. destruct (str_eqb k i) eqn:E; simpl.
  - apply str_eqb_eq in E. subst i. destruct (str_eqb j k) eqn:E; auto. apply str_eqb_eq in E. congruence.
  - destruct (str_eqb j i); auto.
Qed.
Lemma d_keys_set {A} k (v : A) d : d_keys (d_set k v d) = if d_mem k d then d_keys d else d_keys d ++ [k].
Proof.
  unfold d_mem, d_keys. induction d as [|[j w] d IH]; simpl; auto. destruct (str_eqb k j) eqn:E; simpl; auto. rewrite IH. destruct (d_get k d); auto.
Qed.
Lemma d_set_nodup {A} k (v : A) d : NoDup (d_keys d) -> NoDup (d_keys (d_set k v d)).
Proof.
  intros H. rewrite d_keys_set. unfold d_mem. destruct (d_get k d) eqn:E; auto. apply d_get_none in E.
  apply NoDup_rev in H. rewrite <- (rev_involutive (d_keys d ++ [k])), rev_app_distr. apply NoDup_rev. simpl. constructor; auto. rewrite <- in_rev. exact E.
Qed.
Lemma d_del_incl {A} k j (d : dict A) : In j (d_keys (d_del k d)) -> In j (d_keys d).
Proof. unfold d_keys. induction d as [|[i w] d IH]; simpl; auto. destruct (str_eqb k i); simpl; intuition. Qed.
Lemma d_del_nodup {A} k (d : dict A) : NoDup (d_keys d) -> NoDup (d_keys (d_del k d)).
Proof.
  unfold d_keys. induction d as [|[j w] d IH]; simpl; auto. intros ND. apply NoDup_cons_iff in ND. destruct ND as [NI ND].
  destruct (str_eqb k j); auto. simpl. constructor; auto. intros H. apply NI. eapply d_del_incl; eauto.
Qed.
Lemma d_get_del_same {A} k (d : dict A) : NoDup (d_keys d) -> d_get k (d_del k d) = None.
Proof.
  unfold d_keys. induction d as [|[j w] d IH]; simpl; auto. intros ND. apply NoDup_cons_iff in ND. destruct ND as [NI ND].
  destruct (str_eqb k j) eqn:E; simpl; [|rewrite E; auto]. apply str_eqb_eq in E. subst. now apply d_get_none.
Qed.
Lemma d_del_absent {A} k (d : dict A) : d_get k d = None -> d_del k d = d.
Proof. induction d as [|[j w] d IH]; simpl; auto. destruct (str_eqb k j); [discriminate|]. intros H. now rewrite IH. Qed.
Lemma d_len_set {A} k (v : A) d : length (d_set k v d) = if d_mem k d then length d else S (length d).
Proof. unfold d_mem. induction d as [|[j w] d IH]; simpl; auto. destruct (str_eqb k j) eqn:E; simpl; auto. rewrite IH. destruct (d_get k d); auto. Qed.
Lemma d_len_del {A} k (d : dict A) : d_get k d <> None -> S (length (d_del k d)) = length d.
Proof. induction d as [|[j w] d IH]; simpl; [congruence|]. destruct (str_eqb k j) eqn:E; simpl; auto. Qed.
(** the last binding wins *)
Fixpoint last_of {A} (k : pystr) (l : list (pystr * A)) : option A :=
  match l with [] => None | (j, v) :: l' => match last_of k l' with Some w => Some w | None => if str_eqb k j then Some v else None end end.
Lemma d_get_merge {A} k (d2 : list (pystr * A)) : forall d1, d_get k (d_merge d1 d2) = match last_of k d2 with Some v => Some v | None => d_get k d1 end.
Proof.
  induction d2 as [|[j v] d2 IH]; intros d1; simpl; auto. unfold d_merge in *. simpl. rewrite IH. destruct (last_of k d2); auto.
  destruct (str_eqb k j) eqn:E.
  - apply str_eqb_eq in E. subst. apply d_get_set_same.
  - apply d_get_set_other. intros ->. rewrite str_eqb_refl in E. discriminate.
Qed.
Lemma last_of_in {A} k (l : list (pystr * A)) : last_of k l <> None <-> In k (map fst l).
Proof.
  induction l as [|[j v] l IH]; simpl; [tauto|]. destruct (last_of k l) as [w|] eqn:E.
  - split; [|discriminate]. intros _. right. apply IH. discriminate.
  - destruct (str_eqb k j) eqn:E2.
    + apply str_eqb_eq in E2. split; auto. discriminate.
    + split; [congruence|]. intros [<-|H]; [rewrite str_eqb_refl in E2; discriminate|]. apply IH in H. congruence.
Qed.
Lemma last_of_some {A} k v (l : list (pystr * A)) : last_of k l = Some v -> In (k, v) l.
Proof.
  induction l as [|[j w] l IH]; simpl; [discriminate|]. destruct (last_of k l) as [x|]; [intros [= ->]; auto|].
  destruct (str_eqb k j) eqn:E2; [|discriminate]. apply str_eqb_eq in E2. intros [= ->]. left. congruence.
Qed.
Lemma last_of_nodup {A} k (l : list (pystr * A)) : NoDup (map fst l) -> last_of k l = d_get k l.
Proof.
  induction l as [|[j w] l IH]; simpl; auto. intros ND. apply NoDup_cons_iff in ND. destruct ND as [NI ND]. rewrite IH by auto.
  destruct (str_eqb k j) eqn:E; [|destruct (d_get k l); auto]. apply str_eqb_eq in E. subst. destruct (d_get j l) eqn:G; auto.
  exfalso. apply NI. change (map fst l) with (d_keys l). apply d_get_in. congruence.
Qed.
Lemma d_merge_nodup {A} (d2 : list (pystr * A)) : forall d1, NoDup (d_keys d1) -> NoDup (d_keys (d_merge d1 d2)).
Proof. induction d2 as [|[j v] d2 IH]; intros d1 H; simpl; auto. unfold d_merge. simpl. apply IH. now apply d_set_nodup. Qed.
