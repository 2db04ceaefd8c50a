(** [itervalues] and [byValue]: facts about Python value comparison. *)
From Coq Require Import Sorting.Sorted Sorting.Permutation.
From Verif Require Import Base BaseFacts Value BTree BTreeFacts Utils Collection SpecMap CollectionFacts Group RoutingFacts GroupFacts GroupIterFacts.
Open Scope Z_scope.

Definition num_of (v : pyval) : Z := match v with VInt z => z | VBool b => zbool b | _ => 0 end.
Definition str_of (v : pyval) : pystr := match v with VStr s => s | _ => [] end.
Definition is_num (v : pyval) : Prop := match v with VInt _ | VBool _ => True | _ => False end.
Definition is_strv (v : pyval) : Prop := match v with VStr _ => True | _ => False end.
(** two values Python can order *)
Definition comparable (v w : pyval) : Prop := val_compare v w <> None.

Lemma comparable_class v w : comparable v w <-> (is_num v /\ is_num w) \/ (is_strv v /\ is_strv w).
Proof. unfold comparable. destruct v, w; simpl; split; intros H; try tauto; try discriminate; try congruence; try (left; split; exact I); try (right; split; exact I); exfalso; apply H; reflexivity. Qed.
Lemma num_compare v w : is_num v -> is_num w -> val_compare v w = Some (Z.compare (num_of v) (num_of w)).
Proof. destruct v, w; simpl; try tauto. Qed.
Lemma str_vcompare v w : is_strv v -> is_strv w -> val_compare v w = Some (str_compare (str_of v) (str_of w)).
Proof. destruct v, w; simpl; try tauto. Qed.
Lemma num_eqb v w : is_num v -> is_num w -> (val_eqb v w = true <-> num_of v = num_of w).
Proof.
  intros H1 H2. assert (val_eqb v w = match Z.compare (num_of v) (num_of w) with Eq => true | _ => false end) as ->.
  { destruct v, w; simpl in *; try tauto. }
  destruct (Z.compare_spec (num_of v) (num_of w)); split; intros; try congruence; lia.
Qed.
Lemma str_veqb v w : is_strv v -> is_strv w -> (val_eqb v w = true <-> str_of v = str_of w).
Proof.
  intros H1 H2. destruct v, w; simpl in *; try tauto. unfold val_eqb, val_compare. rewrite <- str_compare_eq.
  destruct (str_compare s s0); split; congruence.
Qed.
Lemma Zcmp_opp a b : (a ?= b) = CompOpp (b ?= a). Proof. apply Z.compare_antisym. Qed.
Lemma Zcmp_trans a b c : (a ?= b) = Lt -> (b ?= c) = Lt -> (a ?= c) = Lt.
Proof. rewrite !Z.compare_lt_iff. lia. Qed.

Definition all_comp (l : list pyval) : Prop := forall v w, In v l -> In w l -> comparable v w.
Lemma all_comp_class l : all_comp l -> Forall is_num l \/ Forall is_strv l.
Proof.
  intros H. destruct l as [|v l]; [left; constructor|].
  destruct (proj1 (comparable_class v v) (H v v (or_introl eq_refl) (or_introl eq_refl))) as [[C _]|[C _]]; [left|right];
    apply Forall_forall; intros w I; destruct (proj1 (comparable_class v w) (H v w (or_introl eq_refl) I)) as [[? ?]|[? ?]]; auto;
    destruct v; simpl in *; tauto.
Qed.

Definition vmerge := merge_all (fun v : pyval => if is_none v then None else Some v) truthy val_compare val_eqb.
Lemma vmerge_perm ls : all_comp (concat ls) -> Forall (fun v => truthy v = true) (concat ls) ->
  exists l, vmerge ls = (l, None) /\ Permutation (concat ls) l.
Proof.
  intros C T. rewrite Forall_forall in T. unfold vmerge, merge_all.
  assert (FF : forall (Q : pyval -> Prop), Forall Q (concat ls) -> Forall (Forall Q) ls).
  { intros Q F. apply Forall_forall. intros l I. apply Forall_forall. intros x Ix. rewrite Forall_forall in F. apply F.
    apply in_concat. eauto. }
  destruct (all_comp_class _ C) as [F|F].
  - destruct (slots_ok pyval (fun v => if is_none v then None else Some v) is_num) with (ls := ls) as [OK PE]; auto.
    { intros x. destruct x; simpl; tauto. }
    destruct (merge_spec pyval Z (fun v => if is_none v then None else Some v) truthy val_compare val_eqb Z.compare num_of is_num)
      with (fuel := S (length (concat ls))) (s := map (refill (fun v => if is_none v then None else Some v)) ls)
      as (l & E1 & E2 & _); auto.
    + apply Z.compare_eq_iff. + apply Zcmp_opp. + apply Zcmp_trans.
    + intros x. destruct x; simpl; tauto.
    + apply num_compare. + apply num_eqb.
    + rewrite PE. auto.
    + rewrite PE. lia.
    + exists l. rewrite PE in E2. auto.
  - destruct (slots_ok pyval (fun v => if is_none v then None else Some v) is_strv) with (ls := ls) as [OK PE]; auto.
    { intros x. destruct x; simpl; tauto. }
    destruct (merge_spec pyval pystr (fun v => if is_none v then None else Some v) truthy val_compare val_eqb str_compare str_of is_strv)
      with (fuel := S (length (concat ls))) (s := map (refill (fun v => if is_none v then None else Some v)) ls)
      as (l & E1 & E2 & _); auto.
    + apply str_compare_eq. + apply str_compare_antisym. + apply str_kcmp_trans.
    + intros x. destruct x; simpl; tauto.
    + apply str_vcompare. + apply str_veqb.
    + rewrite PE. auto.
    + rewrite PE. lia.
    + exists l. rewrite PE in E2. auto.
Qed.

(** the values stored under in-bounds ids *)
Definition values_within (lo hi : option pystr) (g : group) : list pyval :=
  map snd (filter (fun kv => inb lo hi (fst kv)) (g_items g)).
Lemma g_itervalues_spec lo hi g : all_comp (values_within lo hi g) ->
  Forall (fun v => truthy v = true) (values_within lo hi g) ->
  exists l, g_itervalues lo hi g = (l, None) /\ Permutation (values_within lo hi g) l.
Proof.
  unfold values_within. rewrite <- concat_itervalues. apply vmerge_perm.
Qed.

(** ** sorting (value, key) pairs *)
Section Sort.
  Variable P : pyval * pystr -> Prop.
  Hypothesis total : forall p q, P p -> P q -> exists c, pair_compare p q = Some c.
  Hypothesis opp : forall p q c, P p -> P q -> pair_compare p q = Some c -> pair_compare q p = Some (CompOpp c).
  Hypothesis trans : forall p q r, P p -> P q -> P r -> pair_compare p q = Some Gt -> pair_compare q r = Some Gt -> pair_compare p r = Some Gt.
  Definition pgt (p q : pyval * pystr) : Prop := pair_compare p q = Some Gt.

  Lemma insert_desc_perm p l : Permutation (p :: l) (insert_desc p l).
  Proof.
    induction l as [|q l IH]; simpl; auto. destruct (pair_compare p q) as [[]|]; auto.
    rewrite perm_swap. now apply perm_skip.
  Qed.
  Lemma sort_perm l : Permutation l (fold_right insert_desc [] l).
  Proof. induction l as [|p l IH]; simpl; auto. rewrite <- insert_desc_perm. now apply perm_skip. Qed.
  Lemma insert_desc_sorted p l : P p -> Forall P l -> Forall (fun q => pair_compare p q <> Some Eq) l ->
    StronglySorted pgt l -> StronglySorted pgt (insert_desc p l).
  Proof.
    intros Pp Fl NE S. induction S as [|q l S IH F]; simpl; [constructor; constructor|].
    inversion Fl as [|? ? Pq Fl']; inversion NE as [|? ? NEq NE']; subst.
    destruct (total p q Pp Pq) as [c E]. rewrite E. destruct c.
    - congruence.
    - constructor; [now apply IH|]. apply Forall_forall. intros r I.
      apply (Permutation_in r (Permutation_sym (insert_desc_perm p l))) in I. destruct I as [<-|I].
      + unfold pgt. apply (opp p q Lt Pp Pq E).
      + rewrite Forall_forall in F. auto.
    - constructor; [constructor; auto|]. constructor; auto. apply Forall_forall. intros r I.
      rewrite Forall_forall in F, Fl'. unfold pgt. apply (trans p q r); auto. now apply F.
  Qed.
  Lemma sort_sorted l : Forall P l -> (forall p q, In p l -> In q l -> pair_compare p q = Some Eq -> snd p = snd q) ->
    NoDup (map snd l) -> StronglySorted pgt (fold_right insert_desc [] l).
  Proof.
    induction l as [|p l IH]; simpl; intros F EQ ND; [constructor|].
    inversion F as [|? ? Pp F']; inversion ND as [|? ? NI ND']; subst.
    assert (I' : forall r, In r (fold_right insert_desc [] l) -> In r l).
    { intros r. apply Permutation_in. symmetry. apply sort_perm. }
    apply insert_desc_sorted; auto.
    - apply Forall_forall. intros r I. rewrite Forall_forall in F'. auto.
    - apply Forall_forall. intros r I E. apply NI. rewrite (EQ p r); auto. apply in_map. auto.
  Qed.
End Sort.

Definition pair_P (Q : pyval -> Prop) (p : pyval * pystr) : Prop := Q (fst p).
Lemma pair_num p q : is_num (fst p) -> is_num (fst q) ->
  pair_compare p q = Some (match Z.compare (num_of (fst p)) (num_of (fst q)) with Eq => str_compare (snd p) (snd q) | c => c end).
Proof.
  intros H1 H2. unfold pair_compare. pose proof (num_eqb _ _ H1 H2) as NE. rewrite (num_compare _ _ H1 H2).
  destruct (val_eqb (fst p) (fst q)) eqn:E.
  - rewrite (proj1 NE eq_refl), Z.compare_refl. reflexivity.
  - destruct (Z.compare_spec (num_of (fst p)) (num_of (fst q))) as [H|H|H]; auto. apply NE in H. discriminate.
Qed.
Lemma pair_strv p q : is_strv (fst p) -> is_strv (fst q) ->
  pair_compare p q = Some (match str_compare (str_of (fst p)) (str_of (fst q)) with Eq => str_compare (snd p) (snd q) | c => c end).
Proof.
  intros H1 H2. unfold pair_compare. pose proof (str_veqb _ _ H1 H2) as NE. rewrite (str_vcompare _ _ H1 H2).
  destruct (val_eqb (fst p) (fst q)) eqn:E.
  - rewrite (proj1 NE eq_refl), str_compare_refl. reflexivity.
  - destruct (str_compare (str_of (fst p)) (str_of (fst q))) eqn:C; auto. apply str_compare_eq in C. apply NE in C. discriminate.
Qed.
Lemma sgt_trans a b c : str_compare a b = Gt -> str_compare b c = Gt -> str_compare a c = Gt.
Proof. rewrite !slt_gt. intros H1 H2. apply slt_trans with b; auto. Qed.

(** descending lexicographic order on two keys *)
Lemma lex_opp {K} (cmp : K -> K -> comparison) (opp : forall a b, cmp a b = CompOpp (cmp b a)) a b s t :
  (match cmp b a with Eq => str_compare t s | c => c end) = CompOpp (match cmp a b with Eq => str_compare s t | c => c end).
Proof. rewrite (opp a b). destruct (cmp b a); simpl; auto. apply str_compare_antisym. Qed.
Lemma lex_trans {K} (cmp : K -> K -> comparison) (eq : forall a b, cmp a b = Eq -> a = b)
  (tr : forall a b c, cmp a b = Gt -> cmp b c = Gt -> cmp a c = Gt) a b c s t u :
  (match cmp a b with Eq => str_compare s t | x => x end) = Gt ->
  (match cmp b c with Eq => str_compare t u | x => x end) = Gt ->
  (match cmp a c with Eq => str_compare s u | x => x end) = Gt.
Proof.
  destruct (cmp a b) eqn:E1; try discriminate; intros H1; destruct (cmp b c) eqn:E2; try discriminate; intros H2.
  - apply eq in E1. subst. rewrite E2. now apply sgt_trans with t.
  - apply eq in E1. subst. now rewrite E2.
  - apply eq in E2. subst. now rewrite E1.
  - now rewrite (tr a b c).
Qed.
Lemma Zgt_trans a b c : (a ?= b) = Gt -> (b ?= c) = Gt -> (a ?= c) = Gt.
Proof. rewrite !Z.compare_gt_iff. lia. Qed.

Lemma sorted_desc_spec l : all_comp (map fst l) -> NoDup (map snd l) ->
  exists r, sorted_desc l = Ok r /\ Permutation l r /\ StronglySorted pgt r.
Proof.
  intros C ND. exists (fold_right insert_desc [] l). split; [|split; [apply sort_perm|]].
  - unfold sorted_desc. replace (all_comparable l) with true; auto. symmetry. unfold all_comparable.
    apply forallb_forall. intros p Ip. apply forallb_forall. intros q Iq.
    assert (CC : comparable (fst p) (fst q)) by (apply C; now apply in_map).
    apply comparable_class in CC as [[H1 H2]|[H1 H2]]; [now rewrite (pair_num p q)|now rewrite (pair_strv p q)].
  - destruct (all_comp_class _ C) as [F|F].
    + assert (FP : Forall (pair_P is_num) l) by (apply Forall_forall; intros p I; rewrite Forall_forall in F; apply F; now apply in_map).
      apply (sort_sorted (pair_P is_num)); auto.
      * intros p q H1 H2. rewrite (pair_num p q); eauto.
      * intros p q c H1 H2. rewrite !pair_num by auto. intros E. injection E as <-. f_equal. apply lex_opp, Zcmp_opp.
      * intros p q r H1 H2 H3. rewrite !pair_num by auto. intros E1 E2. injection E1 as E1. injection E2 as E2. f_equal.
        eapply lex_trans; [intros; now apply Z.compare_eq|apply Zgt_trans|exact E1|exact E2].
      * intros p q I1 I2. rewrite Forall_forall in FP. rewrite pair_num by (apply FP; auto).
        intros E. injection E as E. destruct (num_of (fst p) ?= num_of (fst q)); try discriminate. now apply str_compare_eq.
    + assert (FP : Forall (pair_P is_strv) l) by (apply Forall_forall; intros p I; rewrite Forall_forall in F; apply F; now apply in_map).
      apply (sort_sorted (pair_P is_strv)); auto.
      * intros p q H1 H2. rewrite (pair_strv p q); eauto.
      * intros p q c H1 H2. rewrite !pair_strv by auto. intros E. injection E as <-. f_equal. apply lex_opp, str_compare_antisym.
      * intros p q r H1 H2 H3. rewrite !pair_strv by auto. intros E1 E2. injection E1 as E1. injection E2 as E2. f_equal.
        eapply lex_trans; [intros; now apply str_compare_eq|apply sgt_trans|exact E1|exact E2].
      * intros p q I1 I2. rewrite Forall_forall in FP. rewrite pair_strv by (apply FP; auto).
        intros E. injection E as E. destruct (str_compare (str_of (fst p)) (str_of (fst q))); try discriminate. now apply str_compare_eq.
Qed.

(** value [v] is at least the bound (no bound when the bound is None) *)
Definition at_least (mn v : pyval) : Prop := mn = VNone \/ val_compare v mn = Some Gt \/ val_compare v mn = Some Eq.
Lemma ge_min_spec mn v : comparable v v -> (mn = VNone \/ comparable v mn) ->
  exists b, ge_min mn v = Ok b /\ (b = true <-> at_least mn v).
Proof.
  intros Cv Cm. apply comparable_class in Cv. unfold ge_min, cmp_none_least, at_least.
  destruct Cm as [->|Cm].
  - exists true. destruct v; simpl in *; try tauto; split; auto; tauto.
  - assert (NN : mn <> VNone) by (intros ->; destruct v; apply Cm; reflexivity).
    apply comparable_class in Cm as [[H1 H2]|[H1 H2]].
    + pose proof (num_eqb v mn H1 H2) as NE. pose proof (num_compare v mn H1 H2) as NC.
      assert (X : (match v, mn with VNone, VNone => Some Eq | VNone, _ => Some Lt | _, VNone => Some Gt | _, _ => if val_eqb v mn then Some Eq else val_compare v mn end)
        = if val_eqb v mn then Some Eq else val_compare v mn) by (destruct v, mn; simpl in *; tauto).
      rewrite X, NC. destruct (val_eqb v mn) eqn:E.
      * exists true. split; auto. rewrite (proj1 NE eq_refl), Z.compare_refl. tauto.
      * destruct (Z.compare_spec (num_of v) (num_of mn)) as [H|H|H].
        -- apply NE in H. discriminate.
        -- exists false. split; auto. split; [discriminate|]. intros [?|[?|?]]; try congruence.
        -- exists true. tauto.
    + pose proof (str_veqb v mn H1 H2) as NE. pose proof (str_vcompare v mn H1 H2) as NC.
      assert (X : (match v, mn with VNone, VNone => Some Eq | VNone, _ => Some Lt | _, VNone => Some Gt | _, _ => if val_eqb v mn then Some Eq else val_compare v mn end)
        = if val_eqb v mn then Some Eq else val_compare v mn) by (destruct v, mn; simpl in *; tauto).
      rewrite X, NC. destruct (val_eqb v mn) eqn:E.
      * exists true. split; auto. rewrite (proj1 NE eq_refl), str_compare_refl. tauto.
      * destruct (str_compare (str_of v) (str_of mn)) eqn:C.
        -- apply str_compare_eq in C. apply NE in C. discriminate.
        -- exists false. split; auto. split; [discriminate|]. intros [?|[?|?]]; congruence.
        -- exists true. tauto.
Qed.

Lemma filterM_spec mn t : (forall kv, In kv t -> comparable (snd kv) (snd kv) /\ (mn = VNone \/ comparable (snd kv) mn)) ->
  exists r, filterM (fun kv => ge_min mn (snd kv)) t = Ok r /\
    (forall kv, In kv r <-> In kv t /\ at_least mn (snd kv)) /\ (NoDup (map fst t) -> NoDup (map fst r)).
Proof.
  induction t as [|kv t IH]; simpl; intros H; [exists []; repeat split; auto; simpl in *; tauto|].
  destruct (H kv (or_introl eq_refl)) as [H1 H2]. destruct (ge_min_spec mn (snd kv) H1 H2) as (b & -> & Hb).
  destruct IH as (r & -> & IN & ND); [intros; apply H; auto|].
  exists (if b then kv :: r else r). split; auto. split.
  - intros q. destruct b; simpl; rewrite IN.
    + split; [intros [->|[? ?]]; auto; split; auto; now apply Hb|intros [[->|?] ?]; auto].
    + split; [tauto|]. intros [[->|?] A]; auto. apply Hb in A. discriminate.
  - intros N. inversion N as [|? ? NI N']; subst. destruct b; simpl; auto. constructor; auto.
    intros I. apply NI. apply in_map_iff in I as (q & E & I). apply IN in I as [I _]. rewrite <- E. now apply in_map.
Qed.

Lemma g_byvalue_spec mn g : g_wf g ->
  (forall k j v w, g_abs g k = Some v -> g_abs g j = Some w -> comparable v w) ->
  (mn = VNone \/ forall k v, g_abs g k = Some v -> comparable v mn) ->
  exists l, g_byvalue mn g = Ok l /\ StronglySorted pgt l /\ NoDup l /\
    forall k v, In (v, k) l <-> g_abs g k = Some v /\ at_least mn v.
Proof.
  intros W C M.
  assert (STORED : forall c kv, In c g -> In kv (c_tree c) -> g_abs g (fst kv) = Some (snd kv)).
  { intros c [k v] Ic Ik. assert (Wc : c_wf c) by (apply In_nth_error in Ic as [i Hi]; apply (W i c Hi)).
    apply bt_in_get in Ik; auto. simpl. rewrite (g_abs_of_coll g c k W Ic); unfold c_abs; congruence. }
  assert (COL : forall c, In c g -> exists l, c_byvalue mn c = Ok l /\
     (forall v k, In (v, k) l <-> In (k, v) (c_tree c) /\ at_least mn v) /\ NoDup (map snd l)).
  { intros c Ic. assert (Wc : c_wf c) by (apply In_nth_error in Ic as [i Hi]; apply (W i c Hi)).
    unfold c_byvalue, bt_byvalue.
    destruct (filterM_spec mn (c_tree c)) as (r & -> & IN & ND).
    { intros kv I. pose proof (STORED c kv Ic I) as S. split; [now apply (C (fst kv) (fst kv))|]. destruct M as [?|M]; auto. right. now apply (M (fst kv)). }
    specialize (ND (bt_wf_NoDup Wc)).
    destruct (sorted_desc_spec (map (fun kv => (snd kv, fst kv)) r)) as (l & -> & PE & _).
    - rewrite map_map. simpl. intros v w Iv Iw. apply in_map_iff in Iv as (a & <- & Ia). apply in_map_iff in Iw as (b & <- & Ib).
      apply IN in Ia as [Ia _]. apply IN in Ib as [Ib _]. apply (C (fst a) (fst b)); now apply (STORED c).
    - rewrite map_map. simpl. exact ND.
    - exists l. split; auto. split.
      + intros v k. split.
        * intros I. apply (Permutation_in _ (Permutation_sym PE)) in I. apply in_map_iff in I as ([k' v'] & E & I). simpl in E.
          injection E as -> ->. apply IN in I. exact I.
        * intros [I A]. apply (Permutation_in _ PE). apply in_map_iff. exists (k, v). split; auto. apply IN. auto.
      + apply (Permutation_NoDup (Permutation_map snd PE)). rewrite map_map. simpl. exact ND. }
  unfold g_byvalue.
  assert (MM : forall g', incl g' g -> NoDup (g_keys g') -> exists ls, mapM (c_byvalue mn) g' = Ok ls /\
     (forall v k, In (v, k) (concat ls) <-> In (k, v) (g_items g') /\ at_least mn v) /\ NoDup (map snd (concat ls))).
  { induction g' as [|c g' IH]; simpl; intros INC ND.
    - exists []. repeat split; simpl in *; try tauto; try constructor.
    - destruct (COL c) as (l & -> & IN & N1); [apply INC; simpl; auto|].
      assert (ND1 : NoDup (g_keys g')) by (clear - ND; induction (c_keys c); simpl in *; auto; inversion ND; auto).
      destruct IH as (ls & -> & IN2 & N2); auto; [intros x Ix; apply INC; simpl; auto|].
      exists (l :: ls). split; auto. split.
      + intros v k. simpl. rewrite !in_app_iff, IN, IN2. unfold c_items. tauto.
      + simpl. rewrite map_app. apply NoDup_app; auto. intros k I1 I2.
        apply in_map_iff in I1 as ([v1 k1] & E1 & I1). apply in_map_iff in I2 as ([v2 k2] & E2 & I2). simpl in *. subst k1 k2.
        apply IN in I1 as [I1 _]. apply IN2 in I2 as [I2 _].
        assert (In k (c_keys c)) by (apply (in_map fst) in I1; exact I1).
        assert (In k (g_keys g')) by (rewrite g_keys_items; apply (in_map fst) in I2; exact I2).
        clear - ND H H0. induction (c_keys c) as [|x l' IHl]; simpl in *; [contradiction|].
        inversion ND as [|? ? NI ND']; subst. destruct H as [->|H]; auto. apply NI. apply in_or_app; auto. }
  destruct (MM g) as (ls & -> & IN & ND); [intros x; auto|now apply g_keys_nodup|]. simpl.
  destruct (sorted_desc_spec (concat ls)) as (l & -> & PE & SO); auto.
  - intros v w Iv Iw. apply in_map_iff in Iv as ([v1 k1] & <- & I1). apply in_map_iff in Iw as ([v2 k2] & <- & I2).
    apply IN in I1 as [I1 _]. apply IN in I2 as [I2 _]. apply g_items_in in I1; auto. apply g_items_in in I2; auto.
    simpl. now apply (C k1 k2).
  - exists l. split; auto. split; auto. split.
    + apply (NoDup_map_inv snd). now apply (Permutation_NoDup (Permutation_map snd PE)).
    + intros k v. rewrite <- (g_items_in g k v W), <- IN. split; intros I; [now apply (Permutation_in _ (Permutation_sym PE))|now apply (Permutation_in _ PE)].
Qed.

(** ** byValue raises only TypeError, and does raise it when values cannot be compared *)
Lemma filterM_error mn t e : filterM (fun kv => ge_min mn (snd kv)) t = Err e -> e = TypeError.
Proof.
  induction t as [|kv t IH]; cbn [filterM]; [discriminate|]. unfold ge_min at 1. destruct (cmp_none_least (snd kv) mn) as [[]|]; try (intros H; injection H as <-; reflexivity);
    destruct (filterM _ t); intros H; try discriminate H; injection H as <-; now apply IH.
Qed.
Lemma byvalue_error mn g e : g_byvalue mn g = Err e -> e = TypeError.
Proof.
  unfold g_byvalue. assert (M : forall e', mapM (c_byvalue mn) g = Err e' -> e' = TypeError).
  { induction g as [|c g IH]; cbn [mapM]; intros e'; [discriminate|]. unfold c_byvalue at 1, bt_byvalue. destruct (filterM _ _) as [l|x] eqn:E.
    - unfold sorted_desc. destruct (all_comparable _); [|intros H; injection H as <-; reflexivity]. destruct (mapM _ g) as [ls|x]; intros H; [discriminate|]. injection H as <-. now apply IH.
    - intros H. injection H as <-. now apply filterM_error in E. }
  destruct (mapM (c_byvalue mn) g) as [ls|x]; cbn [rbind]; [|intros H; injection H as <-; now apply M]. unfold sorted_desc. destruct (all_comparable _); [discriminate|]. intros H. now injection H as <-.
Qed.
Lemma mapM_oks {A B} (f : A -> res B) l r : mapM f l = Ok r -> forall x, In x l -> exists y, f x = Ok y /\ In y r.
Proof.
  revert r. induction l as [|a l IH]; cbn [mapM]; intros r H x I; [destruct I|]. destruct (f a) as [y|] eqn:E; [|discriminate]. destruct (mapM f l) as [ys|]; [|discriminate]. injection H as <-.
  destruct I as [<-|I]; [exists y; split; [exact E|now left]|]. destruct (IH ys eq_refl x I) as (z & Z1 & Z2). exists z. split; [exact Z1|now right].
Qed.
Lemma filterM_all mn t r : filterM (fun kv => ge_min mn (snd kv)) t = Ok r -> forall kv, In kv t -> cmp_none_least (snd kv) mn <> None /\ (mn = VNone -> In kv r).
Proof.
  revert r. induction t as [|a t IH]; cbn [filterM]; intros r H kv I; [destruct I|]. destruct (ge_min mn (snd a)) as [b|] eqn:G; [|discriminate]. destruct (filterM _ t) as [r'|]; [|discriminate]. injection H as <-.
  destruct I as [<-|I].
  - unfold ge_min in G. split; [intro N; rewrite N in G; discriminate|]. intros ->. assert (Hb : b = true) by (destruct (snd a); cbn in G; congruence). rewrite Hb. now left.
  - destruct (IH r' eq_refl kv I) as [I1 I2]. split; [exact I1|]. intro N. destruct b; [right|]; auto.
Qed.
Lemma sorted_desc_ok l r : sorted_desc l = Ok r -> Permutation l r /\ forall p q, In p l -> In q l -> pair_compare p q <> None.
Proof.
  unfold sorted_desc. destruct (all_comparable l) eqn:C; [|discriminate]. intros H. injection H as <-. split; [apply sort_perm|]. intros p q Ip Iq N. unfold all_comparable in C. rewrite forallb_forall in C.
  specialize (C p Ip). rewrite forallb_forall in C. specialize (C q Iq). now rewrite N in C.
Qed.
Lemma byvalue_ok mn g l : g_wf g -> g_byvalue mn g = Ok l ->
  (forall k v, g_abs g k = Some v -> cmp_none_least v mn <> None) /\ (mn = VNone -> forall k j v w, g_abs g k = Some v -> g_abs g j = Some w -> pair_compare (v, k) (w, j) <> None).
Proof.
  intros W H. unfold g_byvalue in H. destruct (mapM (c_byvalue mn) g) as [ls|] eqn:M; [|discriminate]. cbn [rbind] in H.
  assert (IT : forall k v, g_abs g k = Some v -> exists c, In c g /\ In (k, v) (c_tree c)).
  { intros k v E. apply (g_items_in g k v W) in E. unfold g_items, c_items in E. apply in_flat_map in E. exact E. }
  assert (ST : forall k v, g_abs g k = Some v -> cmp_none_least v mn <> None /\ (mn = VNone -> In (v, k) (concat ls))).
  { intros k v E. destruct (IT k v E) as (c & Ic & Ik). destruct (mapM_oks _ _ _ M c Ic) as (y & Y1 & Y2). unfold c_byvalue, bt_byvalue in Y1. destruct (filterM _ _) as [r|] eqn:F; [|discriminate].
    destruct (filterM_all _ _ _ F (k, v) Ik) as [F1 F2]. split; [exact F1|]. intro N. apply in_concat. exists y. split; [exact Y2|]. apply sorted_desc_ok in Y1 as [P _]. apply (Permutation_in _ P). apply in_map_iff. exists (k, v). auto. }
  split; [intros k v E; now apply (ST k v E)|]. intros N k j v w E1 E2. apply sorted_desc_ok in H as [_ H]. apply H; [now apply (ST k v E1)|now apply (ST j w E2)].
Qed.
Lemma byvalue_raises mn g : g_wf g ->
  ((exists k v, g_abs g k = Some v /\ v <> VNone /\ mn <> VNone /\ val_eqb v mn = false /\ ~ comparable v mn) \/
   (mn = VNone /\ exists k j v w, g_abs g k = Some v /\ g_abs g j = Some w /\ val_eqb v w = false /\ ~ comparable v w)) -> g_byvalue mn g = Err TypeError.
Proof.
  intros W H. destruct (g_byvalue mn g) as [l|e] eqn:E; [|now rewrite (byvalue_error mn g e E)]. exfalso. destruct (byvalue_ok mn g l W E) as [A B]. unfold comparable in H. destruct H as [(k & v & H1 & H2 & H3 & H4 & H5)|(N & k & j & v & w & H1 & H2 & H3 & H4)].
  - apply (A k v H1). unfold cmp_none_least. destruct v, mn; try contradiction; rewrite H4; destruct (val_compare _ _) eqn:C; try reflexivity; exfalso; apply H5; discriminate.
  - apply (B N k j v w H1 H2). unfold pair_compare. cbn [fst snd]. rewrite H3. destruct (val_compare v w) eqn:C; [exfalso; apply H4; discriminate|reflexivity].
Qed.
