From Coq Require Import Sorting.Sorted.
From Verif Require Import Base BaseFacts Value BTree BTreeFacts Float53 Float53Facts Utils Collection SpecMap.
Open Scope Z_scope.

Definition c_wf (c : collection) : Prop := bt_wf (c_tree c).
Definition c_abs (c : collection) : amap := fun k => bt_get k (c_tree c).

Lemma c_step_wf c o : c_wf c -> c_wf (fst (c_step c o)).
Proof.
  unfold c_wf. intros W. destruct o as [k v|d|k dflt| |k v|]; simpl.
  - unfold c_insert. destruct (_ && _); auto. unfold bt_insert. destruct (bt_has k (c_tree c)); simpl; auto.
    now apply bt_set_wf.
  - unfold c_update. destruct (_ && _); auto. simpl. now apply bt_update_wf.
  - unfold c_pop. destruct (_ && _); auto. destruct (bt_get k (c_tree c)); auto. simpl. now apply bt_del_wf.
  - unfold c_popitem. destruct (c_tree c) as [|[k v] t] eqn:E; simpl; rewrite ?E; auto.
    now apply bt_wf_inv in W.
  - unfold c_setdefault. destruct (bt_get k (c_tree c)); auto. simpl. now apply bt_set_wf.
  - apply bt_wf_nil.
Qed.
Lemma c_step_meta c o : c_max (fst (c_step c o)) = c_max c /\ c_strict (fst (c_step c o)) = c_strict c
  /\ c_uuid (fst (c_step c o)) = c_uuid c.
Proof.
  destruct o as [k v|d|k dflt| |k v|]; simpl.
  - unfold c_insert. destruct (_ && _); auto. unfold bt_insert. destruct (bt_has k (c_tree c)); simpl; auto.
  - unfold c_update. destruct (_ && _); auto.
  - unfold c_pop. destruct (_ && _); auto. destruct (bt_get k (c_tree c)); auto.
  - unfold c_popitem. destruct (bt_popitem (c_tree c)); auto.
  - unfold c_setdefault. destruct (bt_get k (c_tree c)); auto.
  - auto.
Qed.
Lemma c_run_wf ops c : c_wf c -> c_wf (c_run ops c).
Proof. revert c; induction ops as [|o ops IH]; simpl; intros c W; auto. apply IH, c_step_wf, W. Qed.
Lemma c_run_meta ops c : c_max (c_run ops c) = c_max c /\ c_strict (c_run ops c) = c_strict c.
Proof.
  revert c; induction ops as [|o ops IH]; simpl; intros c; auto.
  destruct (IH (fst (c_step c o))) as [-> ->]. destruct (c_step_meta c o) as (-> & -> & _). auto.
Qed.
Lemma new_collection_wf u m s : c_wf (new_collection u m s). Proof. apply bt_wf_nil. Qed.

Lemma c_has_size c : c_wf c -> has_size (c_abs c) (c_size c).
Proof.
  intros W. exists (bt_keys (c_tree c)). repeat split.
  - now apply bt_wf_NoDup.
  - unfold c_abs. intros Hin E. apply bt_get_none_notin in E. auto.
  - unfold c_abs. intros H. destruct (bt_get k (c_tree c)) eqn:E; [|congruence].
    apply bt_get_in in E. apply (in_map fst) in E. exact E.
Qed.
Lemma has_size_unique m n1 n2 : has_size m n1 -> has_size m n2 -> n1 = n2.
Proof.
  intros (l1 & N1 & H1 & ->) (l2 & N2 & H2 & ->).
  assert (length l1 <= length l2)%nat by (apply NoDup_incl_length; auto; intros k; rewrite H1, H2; auto).
  assert (length l2 <= length l1)%nat by (apply NoDup_incl_length; auto; intros k; rewrite H1, H2; auto).
  lia.
Qed.

Lemma overridden_update d (t : tree pyval) : NoDup (map fst d) ->
  overridden (fun k => bt_get k t) d (fun k => bt_get k (bt_update d t)).
Proof.
  intros ND k. rewrite bt_get_update. split.
  - intros v Hin. rewrite last_binding_get by auto.
    assert (E : bt_get k d = Some v).
    { clear - ND Hin. induction d as [|[k' v'] d IH]; simpl in *; [contradiction|].
      inversion ND as [|? ? NI ND']; subst. destruct Hin as [H|H].
      - inversion H; subst. now rewrite str_eqb_refl.
      - destruct (str_eqb k k') eqn:E; auto. apply str_eqb_eq in E; subst.
        exfalso; apply NI. change k' with (fst (k', v)). now apply in_map. }
    now rewrite E.
  - intros NI. apply (@last_binding_none pyval) in NI. now rewrite NI.
Qed.

(** number of keys of a dict that a map does not hold *)
Definition fresh_keys (m : amap) (d : list (pystr * pyval)) (n : Z) : Prop :=
  n = Z.of_nat (length (filter (fun k => match m k with None => true | _ => false end) (map fst d))).
Lemma c_new_keys_fresh d c : fresh_keys (c_abs c) d (Z.of_nat (length (c_new_keys d c))).
Proof.
  unfold fresh_keys, c_new_keys. do 2 f_equal. apply filter_ext. intros k.
  unfold c_abs. destruct (bt_get k (c_tree c)) eqn:E.
  - apply negb_false_iff, mem_str_In. apply bt_get_in in E. apply (in_map fst) in E. exact E.
  - apply negb_true_iff, mem_str_false. now apply bt_get_none_notin.
Qed.

(** exactly when a Collection call raises, and with what *)
Inductive c_raises (c : collection) (m : amap) : mop -> exn -> Prop :=
| raise_insert k v n : c_strict c = true -> has_size m n -> c_max c <= n ->
    c_raises c m (Insert k v) CollectionCapacityError
| raise_update d n f : c_strict c = true -> has_size m n -> fresh_keys m d f -> c_max c < n + f ->
    c_raises c m (Update d) CollectionCapacityError
| raise_pop k : m k = None -> c_raises c m (Pop k VNone) KeyError
| raise_popitem : (forall k, m k = None) -> c_raises c m Popitem KeyError.

(** every step is either a normal step of the map, or raises under the stated condition, unchanged;
    and it raises whenever that condition holds *)
Lemma c_step_refines c o : c_wf c -> wf_op o ->
  (exists e, snd (c_step c o) = ORaise e /\ c_raises c (c_abs c) o e /\ fst (c_step c o) = c)
  \/ ((forall e, ~ c_raises c (c_abs c) o e) /\
      ok_step (c_abs c) o (c_abs (fst (c_step c o))) (snd (c_step c o))).
Proof.
  intros W WO. unfold c_wf in W. pose proof (c_has_size c W) as HS.
  destruct o as [k v|d|k dflt| |k v|]; simpl.
  - unfold c_insert. destruct ((c_max c <=? c_size c) && c_strict c) eqn:E.
    + left. exists CollectionCapacityError. repeat split; auto.
      apply andb_true_iff in E as [E1 E2]. econstructor; eauto. lia.
    + right. split.
      { intros e H. inversion H as [k0 v0 n0 ST HS0 LE| | |]; subst. pose proof (has_size_unique _ _ _ HS HS0).
        apply andb_false_iff in E as [E|E]; [lia|congruence]. }
      unfold bt_insert. destruct (bt_has k (c_tree c)) eqn:Hk; simpl.
      * apply bt_has_get in Hk as [w Hw]. eapply ok_insert_old; [exact Hw|]. intros j; reflexivity.
      * apply bt_has_false in Hk. apply ok_insert_new; [exact Hk|]. split; unfold c_abs; simpl.
        -- apply bt_get_set_same.
        -- intros j Hj. now apply bt_get_set_other.
  - unfold c_update. pose proof (c_new_keys_fresh d c) as FR.
    destruct ((c_max c <? c_size c + Z.of_nat (length (c_new_keys d c))) && c_strict c) eqn:E.
    + left. exists CollectionCapacityError. repeat split; auto.
      apply andb_true_iff in E as [E1 E2]. econstructor; eauto. lia.
    + right. split.
      { intros e H. inversion H as [|d0 n0 f0 ST HS0 FR0 LT| |]; subst. pose proof (has_size_unique _ _ _ HS HS0). unfold fresh_keys in *. subst.
        apply andb_false_iff in E as [E|E]; [lia|congruence]. }
      simpl. apply ok_update. now apply overridden_update.
  - unfold c_pop. destruct (bt_get k (c_tree c)) as [v|] eqn:G.
    + right. split; [intros e H; inversion H; subst; unfold c_abs in *; congruence|].
      replace (mem_str k (bt_keys (c_tree c))) with true
        by (symmetry; apply mem_str_In; apply bt_get_in in G; apply (in_map fst) in G; exact G).
      simpl. apply ok_pop_hit; [exact G|]. split; unfold c_abs; simpl.
      * now apply bt_get_del_same.
      * intros j Hj. now apply bt_get_del_other.
    + replace (mem_str k (bt_keys (c_tree c))) with false
        by (symmetry; apply mem_str_false; now apply bt_get_none_notin).
      simpl. destruct dflt; simpl.
      1: { left. exists KeyError. repeat split; auto. now constructor. }
      all: right; (split; [intros e H; inversion H|]); apply ok_pop_default;
        [exact G|discriminate|intros j; reflexivity].
  - unfold c_popitem. destruct (c_tree c) as [|[k v] t] eqn:E; simpl.
    + left. exists KeyError. destruct c; simpl in *; subst. repeat split; auto. constructor. intros k; reflexivity.
    + right. split.
      { intros e H. inversion H as [| | |H0]; subst. specialize (H0 k). unfold c_abs in H0. rewrite E in H0. simpl in H0.
        rewrite str_eqb_refl in H0. discriminate. }
      assert (G : bt_get k (c_tree c) = Some v) by (rewrite E; simpl; now rewrite str_eqb_refl).
      rewrite <- E in W. apply ok_popitem; [exact G| |].
      * split; [unfold c_abs; congruence|]. intros j Hj. unfold c_abs in Hj.
        destruct (bt_get j (c_tree c)) eqn:Gj; [|congruence]. apply bt_get_in in Gj.
        rewrite E in Gj, W. destruct Gj as [Gj|Gj]; [inversion Gj; apply sle_refl|].
        apply bt_wf_inv in W as [_ F]. rewrite Forall_forall in F. apply slt_le, F.
        apply (in_map fst) in Gj. exact Gj.
      * unfold c_abs; simpl. rewrite E in *. apply bt_wf_inv in W as [W F]. split.
        -- apply bt_get_none_notin. rewrite Forall_forall in F. intros H. exact (slt_irrefl (F _ H)).
        -- intros j Hj. simpl. now rewrite (proj2 (str_eqb_neq j k)).
  - right. split; [intros e H; inversion H|].
    unfold c_setdefault. destruct (bt_get k (c_tree c)) as [w|] eqn:G; simpl.
    + eapply ok_setdefault_old; [exact G|intros j; reflexivity].
    + apply ok_setdefault_new; [exact G|]. split; unfold c_abs; simpl.
      * apply bt_get_set_same. * intros j Hj. now apply bt_get_set_other.
  - right. split; [intros e H; inversion H|]. apply ok_clear. intros j; reflexivity.
Qed.

(** the observers read the same map *)
Lemma c_observers c : c_wf c ->
  (forall k d, c_get k d c = match c_abs c k with Some v => v | None => d end)
  /\ (forall k, c_has_key k c = true <-> c_abs c k <> None)
  /\ (forall k, In k (c_keys c) <-> c_abs c k <> None)
  /\ (forall k v, In (k, v) (c_items c) <-> c_abs c k = Some v)
  /\ NoDup (c_keys c) /\ c_keys c = map fst (c_items c) /\ c_values c = map snd (c_items c)
  /\ has_size (c_abs c) (c_size c).
Proof.
  intros W. repeat split; try reflexivity.
  - unfold c_has_key, c_abs, bt_has. destruct (bt_get k (c_tree c)); congruence.
  - unfold c_has_key, c_abs, bt_has. destruct (bt_get k (c_tree c)); congruence.
  - intros Hin E. apply bt_get_none_notin in E. auto.
  - intros H. unfold c_abs in H. destruct (bt_get k (c_tree c)) eqn:E; [|congruence].
    apply bt_get_in in E. apply (in_map fst) in E. exact E.
  - intros H. now apply bt_in_get.
  - intros H. now apply bt_get_in.
  - now apply bt_wf_NoDup.
  - now apply c_has_size.
Qed.

(** ** capacity *)
Definition checked_op (o : mop) : Prop := match o with Setdefault _ _ => False | _ => True end.

Lemma c_size_tree c : c_size c = Z.of_nat (length (c_tree c)).
Proof. unfold c_size, bt_keys. now rewrite map_length. Qed.

Lemma bt_update_length d (t : tree pyval) : bt_wf t -> NoDup (map fst d) ->
  Z.of_nat (length (bt_update d t)) =
  Z.of_nat (length t) + Z.of_nat (length (filter (fun k => negb (mem_str k (bt_keys t))) (map fst d))).
Proof.
  revert t; induction d as [|[k v] d IH]; simpl; intros t W ND; [lia|].
  inversion ND as [|? ? NI ND']; subst. rewrite IH; auto using bt_set_wf.
  assert (FE : filter (fun k0 => negb (mem_str k0 (bt_keys (bt_set k v t)))) (map fst d)
             = filter (fun k0 => negb (mem_str k0 (bt_keys t))) (map fst d)).
  { apply filter_ext_in. intros j Hj. f_equal.
    assert (Hne : j <> k) by (intros ->; auto).
    destruct (mem_str j (bt_keys t)) eqn:E.
    - apply mem_str_In. apply mem_str_In in E. apply bt_has_in in E. apply bt_has_in.
      unfold bt_has in *. now rewrite bt_get_set_other.
    - apply mem_str_false. apply mem_str_false in E. apply bt_get_none_notin in E.
      apply bt_get_none_notin. now rewrite bt_get_set_other. }
  rewrite FE. destruct (mem_str k (bt_keys t)) eqn:E; simpl.
  - apply mem_str_In, bt_has_in in E. rewrite bt_set_length_old by auto. lia.
  - apply mem_str_false, bt_get_none_notin in E. rewrite bt_set_length_new by auto. lia.
Qed.

Lemma c_step_capacity c o : c_wf c -> wf_op o -> checked_op o -> c_strict c = true ->
  c_size c <= c_max c -> 0 <= c_max c -> c_size (fst (c_step c o)) <= c_max c.
Proof.
  intros W WO CO S LE NN. rewrite c_size_tree in *. destruct o as [k v|d|k dflt| |k v|]; simpl in *; try contradiction.
  - unfold c_insert. rewrite c_size_tree, S, andb_true_r.
    destruct (c_max c <=? Z.of_nat (length (c_tree c))) eqn:E; auto.
    unfold bt_insert. destruct (bt_has k (c_tree c)); simpl; auto.
    pose proof (bt_set_length_le k v (c_tree c)). lia.
  - unfold c_update. rewrite S, andb_true_r, c_size_tree.
    destruct (c_max c <? _) eqn:E; auto. simpl.
    rewrite bt_update_length by auto. unfold c_new_keys in E. lia.
  - unfold c_pop. destruct (_ && _); auto. destruct (bt_get k (c_tree c)); auto. simpl.
    pose proof (bt_del_length_le k (c_tree c)). lia.
  - unfold c_popitem. destruct (c_tree c) eqn:E; simpl; rewrite ?E in *; simpl in *; lia.
  - lia.
Qed.
Lemma c_run_capacity ops c : c_wf c -> Forall wf_op ops -> Forall checked_op ops -> c_strict c = true ->
  c_size c <= c_max c -> 0 <= c_max c -> c_size (c_run ops c) <= c_max (c_run ops c).
Proof.
  intros W FO FC S LE NN. rewrite (proj1 (c_run_meta ops c)).
  revert c W S LE NN. induction ops as [|o ops IH]; simpl; intros c W S LE NN; auto.
  inversion FO; inversion FC; subst. destruct (c_step_meta c o) as (M & ST & _).
  rewrite <- M. apply IH; auto using c_step_wf; rewrite ?M, ?ST; auto.
  apply c_step_capacity; auto.
Qed.

(** ** status *)
Lemma f_usage_mono s1 m1 s2 m2 : 0 <= s1 -> 0 <= s2 -> 0 < m1 -> 0 < m2 -> s1 * m2 <= s2 * m1 ->
  f_mul_const (f_div s1 m1) 100 1 <= f_mul_const (f_div s2 m2) 100 1.
Proof.
  intros. pose proof scale_pos. unfold f_mul_const, f_div.
  assert (P : forall n d, 0 <= n -> 0 < d -> 0 <= rnd53 n d).
  { intros n d Hn Hd. rewrite rnd53_unfold. pose proof (pow2_pos _ (ex_nonneg (n / d))).
    apply Z.mul_nonneg_nonneg; [|lia]. apply rne_ge; nia. }
  apply rnd53_mono; try lia.
  - pose proof (P (s1 * scale) m1). nia.
  - pose proof (P (s2 * scale) m2). nia.
  - assert (rnd53 (s1 * scale) m1 <= rnd53 (s2 * scale) m2) by (apply rnd53_mono; nia). lia.
Qed.

Definition size_bound : Z := 2 ^ 40.

(** ceil(usage*100) > c exactly when size/max > c/100, for the thresholds the code uses *)
Lemma ceil_percent_threshold c size mx :
  In c [0; 59; 69; 79; 89] -> 0 <= size <= size_bound -> 1 <= mx <= size_bound ->
  (c < ceil_percent size mx <-> c * mx < 100 * size).
Proof.
  intros Hc Hs Hm. unfold ceil_percent. destruct (0 <? mx) eqn:E; [|lia].
  pose proof scale_pos as SP.
  set (u := f_mul_const (f_div size mx) 100 1).
  assert (CE : c < f_ceil u <-> c * scale < u).
  { unfold f_ceil. change (- (- u / scale)) with (zceil u scale). pose proof (zceil_spec u scale SP). nia. }
  rewrite CE. split.
  - intros H. apply Z.nle_gt. intros L. 
    assert (U : u <= f_mul_const (f_div c 100) 100 1).
    { apply f_usage_mono; simpl in Hc; lia. }
    assert (K : f_mul_const (f_div c 100) 100 1 <= c * scale).
    { simpl in Hc. repeat (destruct Hc as [<-|Hc]; [vm_compute; discriminate|]). contradiction. }
    lia.
  - intros H.
    assert (U : f_mul_const (f_div (c * size_bound + 1) (100 * size_bound)) 100 1 <= u).
    { unfold size_bound in *. apply f_usage_mono; simpl in Hc; first [lia | nia]. }
    assert (K : c * scale < f_mul_const (f_div (c * size_bound + 1) (100 * size_bound)) 100 1).
    { simpl in Hc. repeat (destruct Hc as [<-|Hc]; [vm_compute; reflexivity|]). contradiction. }
    lia.
Qed.

Lemma status_spec size mx : 0 <= size <= size_bound -> 1 <= mx <= size_bound ->
  exists s, status_of size mx = Ok s /\ In s LEVELS /\
    (forall L, In L [60; 70; 80; 90] -> (L <= s <-> (L - 1) * mx < 100 * size)).
Proof.
  intros Hs Hm.
  assert (T : forall c, In c [0; 59; 69; 79; 89] -> (c < ceil_percent size mx <-> c * mx < 100 * size))
    by (intros; apply ceil_percent_threshold; auto).
  assert (NN : 0 <= ceil_percent size mx).
  { unfold ceil_percent. destruct (0 <? mx) eqn:E; [|lia]. pose proof scale_pos.
    unfold f_ceil. change (- (- ?u / scale)) with (zceil u scale). apply zceil_nonneg; [lia|].
    unfold f_mul_const, f_div.
    assert (P : forall n d, 0 <= n -> 0 < d -> 0 <= rnd53 n d).
    { intros n d Hn Hd. rewrite rnd53_unfold. pose proof (pow2_pos _ (ex_nonneg (n / d))).
      apply Z.mul_nonneg_nonneg; [|lia]. apply rne_ge; nia. }
    apply P; [|lia]. pose proof (P (size * scale) mx). nia. }
  pose proof (T 59 ltac:(simpl; auto)) as T1. pose proof (T 69 ltac:(simpl; auto)) as T2.
  pose proof (T 79 ltac:(simpl; auto)) as T3. pose proof (T 89 ltac:(simpl; auto 6)) as T4.
  unfold status_of. set (p := ceil_percent size mx) in *. clearbody p. clear T.
  unfold LEVELS, filter.
  destruct (0 <=? p) eqn:E0; [|lia].
  destruct (60 <=? p) eqn:E1; destruct (70 <=? p) eqn:E2; destruct (80 <=? p) eqn:E3; destruct (90 <=? p) eqn:E4;
    try lia;
    match goal with |- exists s, Ok ?z = Ok s /\ _ => let z' := eval vm_compute in z in exists z' end;
    (split; [reflexivity|split; [simpl; auto 7|]]); intros L HL; simpl in HL;
    destruct HL as [<-|[<-|[<-|[<-|[]]]]]; lia.
Qed.
