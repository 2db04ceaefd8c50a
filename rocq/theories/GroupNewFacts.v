(** [Group.new] *)
From Coq Require Import Sorting.Sorted Sorting.Permutation.
From Verif Require Import Base BaseFacts Value BTree BTreeFacts Utils UtilsFacts Collection SpecMap CollectionFacts Group RoutingFacts GroupFacts GroupCapFacts.
Open Scope Z_scope.

Lemma new_collections_max u0 s sizes : Forall (fun z => 0 < z) sizes -> map c_max (new_collections u0 s sizes) = sizes.
Proof.
  intros F. unfold new_collections. rewrite map_map.
  assert (G : forall b, map (fun p => c_max (new_collection (u0 + N.of_nat (fst p)) (Some (snd p)) s)) (combine (seq b (length sizes)) sizes) = sizes).
  { induction F as [|z l Hz F IH]; intros b; simpl; auto. rewrite IH. f_equal. destruct (z =? 0) eqn:E; auto. lia. }
  apply G.
Qed.
Lemma new_collections_uuid u0 s sizes : map c_uuid (new_collections u0 s sizes) = map (fun i => u0 + N.of_nat i)%N (seq 0 (length sizes)).
Proof.
  unfold new_collections. rewrite map_map.
  assert (G : forall b, map (fun p => c_uuid (new_collection (u0 + N.of_nat (fst p)) (Some (snd p)) s)) (combine (seq b (length sizes)) sizes)
     = map (fun i => u0 + N.of_nat i)%N (seq b (length sizes))).
  { induction sizes as [|z l IH]; intros b; simpl; auto. now rewrite IH. }
  apply G.
Qed.
Lemma uuids_nodup_spec l : NoDup l -> uuids_nodup l = true.
Proof.
  induction 1 as [|x l NI ND IH]; simpl; auto. rewrite IH, andb_true_r. apply negb_true_iff.
  destruct (existsb (N.eqb x) l) eqn:E; auto. apply existsb_exists in E as (y & I & E). apply N.eqb_eq in E. subst. contradiction.
Qed.
Lemma uuids_nodup_false l : uuids_nodup l = true -> NoDup l.
Proof.
  induction l as [|x l IH]; simpl; [constructor|]. intros H. apply andb_true_iff in H as [H1 H2]. constructor; auto.
  intros I. apply negb_true_iff in H1. assert (existsb (N.eqb x) l = true); [|congruence].
  apply existsb_exists. exists x. split; auto. apply N.eqb_refl.
Qed.
Lemma new_collections_fresh u0 s sizes : g_fresh (new_collections u0 s sizes).
Proof.
  unfold g_fresh, new_collections. apply Forall_forall. intros c I. apply in_map_iff in I as (p & <- & _). reflexivity.
Qed.
(** a group of the given sizes, empty and not strict *)
Definition plain_group (g : group) (sizes : list Z) : Prop :=
  map c_max g = sizes /\ g_fresh g /\ Forall (fun c => c_strict c = false) g /\ NoDup (map c_uuid g).
Lemma init_new u0 s sizes : Forall (fun z => 0 < z) sizes ->
  exists g, group_init (new_collections u0 s sizes) (VBool false) = Ok g /\ plain_group g sizes.
Proof.
  intros F. unfold group_init. rewrite uuids_nodup_spec.
  - simpl. eexists; split; [reflexivity|]. unfold plain_group. rewrite !map_map. simpl. repeat split.
    + rewrite <- (new_collections_max u0 s sizes F) at 2. apply map_ext. reflexivity.
    + apply Forall_forall. intros c I. apply in_map_iff in I as (x & <- & I).
      pose proof (new_collections_fresh u0 s sizes) as FR. unfold g_fresh in FR. rewrite Forall_forall in FR. apply (FR x I).
    + apply Forall_forall. intros c I. apply in_map_iff in I as (x & <- & I). reflexivity.
    + rewrite new_collections_uuid. apply FinFun.Injective_map_NoDup; [intros a b; lia|apply seq_NoDup].
  - rewrite new_collections_uuid. apply FinFun.Injective_map_NoDup; [intros a b; lia|apply seq_NoDup].
Qed.

Lemma Forall_repeat {A} (P : A -> Prop) x n : P x -> Forall P (repeat x n).
Proof. intros H. induction n; simpl; constructor; auto. Qed.

Lemma group_new_plain u0 n mcs strict : 0 < n -> 0 < mcs ->
  exists g, group_new u0 (Some n) mcs strict [] = (Ok g, []) /\ plain_group g (repeat mcs (Z.to_nat n)).
Proof.
  intros Hn Hm. unfold group_new. destruct (n =? 0) eqn:E; [lia|]. destruct (mcs <=? 0) eqn:E2; [lia|].
  destruct (init_new u0 false (repeat mcs (Z.to_nat n))) as (g & -> & P); [now apply Forall_repeat|]. eauto.
Qed.
Lemma group_new_bad u0 size mcs strict : size = None \/ size = Some 0 \/ mcs <= 0 ->
  group_new u0 size mcs strict [] = (Err ValueError, []).
Proof.
  intros H. unfold group_new. destruct size as [z|]; auto. destruct (z =? 0) eqn:E; auto.
  destruct (mcs <=? 0) eqn:E2; auto. exfalso. destruct H as [?|[H|?]]; try congruence; [injection H as ->; lia|lia].
Qed.

(** ** sorting integer keys *)
Definition kord (p q : Z * Z) : Prop := fst p < fst q.
Lemma ins_key_perm p l : Permutation (p :: l) (ins_key p l).
Proof. induction l as [|q l IH]; simpl; auto. destruct (fst p <=? fst q); auto. rewrite perm_swap. now apply perm_skip. Qed.
Lemma sort_keys_perm l : Permutation l (sort_keys l).
Proof. induction l as [|p l IH]; simpl; auto. rewrite <- ins_key_perm. now apply perm_skip. Qed.
Lemma ins_key_sorted p l : ~ In (fst p) (map fst l) -> StronglySorted kord l -> StronglySorted kord (ins_key p l).
Proof.
  intros NI S. induction S as [|q l S IH F]; simpl in *; [constructor; constructor|].
  destruct (fst p <=? fst q) eqn:E.
  - assert (fst p < fst q) by lia. constructor; [constructor; auto|]. constructor; auto.
    eapply Forall_impl; [|exact F]. unfold kord. intros; lia.
  - constructor; [tauto|]. apply Forall_forall. intros r I. apply (Permutation_in r (Permutation_sym (ins_key_perm p l))) in I.
    destruct I as [<-|I]; [unfold kord; lia|]. rewrite Forall_forall in F. auto.
Qed.
Lemma sort_keys_sorted l : NoDup (map fst l) -> StronglySorted kord (sort_keys l).
Proof.
  induction l as [|p l IH]; simpl; intros ND; [constructor|]. inversion ND as [|? ? NI ND']; subst.
  apply ins_key_sorted; auto. intros I. apply NI. apply in_map_iff in I as (q & E & I). rewrite <- E. apply in_map.
  apply (Permutation_in q (Permutation_sym (sort_keys_perm l))). exact I.
Qed.
Lemma zsorted_eq (a b : list Z) : StronglySorted Z.lt a -> StronglySorted Z.lt b -> (forall x, In x a <-> In x b) -> a = b.
Proof.
  intros Sa. revert b; induction Sa as [|x a Sa IH Fa]; intros b Sb E.
  - destruct b as [|y b]; auto. exfalso. apply (E y). simpl; auto.
  - destruct Sb as [|y b Sb Fb]; [exfalso; apply (E x); simpl; auto|].
    rewrite Forall_forall in Fa, Fb.
    assert (x = y).
    { destruct (proj1 (E x) (or_introl eq_refl)) as [H|H]; auto. destruct (proj2 (E y) (or_introl eq_refl)) as [H'|H']; auto.
      apply Fb in H. apply Fa in H'. lia. }
    subst y. f_equal. apply IH; auto. intros z. split; intros I.
    + destruct (proj1 (E z) (or_intror I)) as [H|H]; auto. subst. apply Fa in I. lia.
    + destruct (proj2 (E z) (or_intror I)) as [H|H]; auto. subst. apply Fb in I. lia.
Qed.
Lemma zrange_sorted a b : StronglySorted Z.lt (zrange a b).
Proof.
  unfold zrange. generalize (Z.to_nat (b - a)) as n. intros n.
  assert (G : forall n s, StronglySorted Z.lt (map (fun i => a + Z.of_nat i) (seq s n))).
  { induction n0 as [|m IH]; intros s; simpl; [constructor|]. constructor; auto. apply Forall_forall. intros x I.
    apply in_map_iff in I as (k & <- & I). apply in_seq in I. lia. }
  apply G.
Qed.
Lemma zrange_length a b : length (zrange a b) = Z.to_nat (b - a).
Proof. unfold zrange. now rewrite map_length, seq_length. Qed.
Lemma zrange_nth n i : (i < Z.to_nat n)%nat -> nth_error (zrange 0 n) i = Some (Z.of_nat i).
Proof.
  intros H. unfold zrange. rewrite Z.sub_0_r.
  assert (G : forall m s j, (j < m)%nat -> nth_error (seq s m) j = Some (s + j)%nat).
  { induction m as [|m IH]; intros s [|j] L; simpl; try lia; [f_equal; lia|]. rewrite IH by lia. f_equal. lia. }
  rewrite (map_nth_error _ i (seq 0 (Z.to_nat n)) (G _ 0%nat i H)). f_equal; lia.
Qed.

Lemma cints_app a b : cints (a ++ b) = cints a ++ cints b.
Proof. unfold cints. induction a; simpl; auto. rewrite IHa. now rewrite app_assoc. Qed.
Lemma cints_map (f : Z -> Z) l : cints (map (fun k => (CInt k, f k)) l) = map (fun k => (k, f k)) l.
Proof. induction l; simpl; auto. now rewrite IHl. Qed.
Lemma cints_in z v c : In (z, v) (cints c) <-> In (CInt z, v) c.
Proof.
  unfold cints. rewrite in_flat_map. split.
  - intros ([[y|] w] & I & H); simpl in H; [|contradiction]. destruct H as [H|[]]. injection H as -> ->. exact I.
  - intros I. exists (CInt z, v). split; auto. simpl; auto.
Qed.
Lemma cints_nodup c : NoDup (map fst c) -> NoDup (map fst (cints c)).
Proof.
  induction c as [|[[z|n] v] c IH]; simpl; intros ND; [constructor| |]; inversion ND as [|? ? NI ND']; subst; auto.
  constructor; auto. intros I. apply NI. apply in_map_iff in I as ([y w] & E & I). simpl in E. subst.
  apply cints_in in I. apply (in_map fst) in I. exact I.
Qed.

(** the effective size and what a custom definition gives for index [i] *)
Definition eff_size (size : option Z) (mx : Z) : Z :=
  match size with None => mx | Some 0 => mx | Some z => z end.
Definition custom_at (custom : list (ckey * Z)) (mcs i v : Z) : Prop :=
  In (CInt i, v) custom \/ (v = mcs /\ forall w, ~ In (CInt i, w) custom).
Definition greatest_key (custom : list (ckey * Z)) (mx : Z) : Prop :=
  (exists v, In (CInt mx, v) custom) /\ forall z v, In (CInt z, v) custom -> z <= mx.

Lemma group_new_unfold u0 size mcs strict custom : custom <> [] -> group_new u0 size mcs strict custom =
      if negb (forallb (fun p => is_cint (fst p)) custom) then (Err KeyError, custom)
      else
        let keys := map fst (cints custom) in
        let mx := zmax_list (hd 0 keys) keys in
        let size' := if match size with None => true | Some z => z =? 0 end then mx else match size with Some z => z | None => mx end in
        if negb (size' =? 0) && (size' <? mx) then (Err KeyError, custom)
        else
          let gaps := filter (fun k => negb (existsb (Z.eqb k) keys)) (zrange 0 size') in
          let custom' := custom ++ map (fun k => (CInt k, mcs)) gaps in
          if existsb (fun p => snd p <=? 0) custom' then (Err ValueError, custom')
          else (group_init (new_collections u0 strict (map snd (sort_keys (cints custom'))))
                           (VBool false), custom').
Proof. destruct custom; [congruence|reflexivity]. Qed.
Lemma group_new_custom u0 size mcs strict custom mx :
  custom <> [] -> NoDup (map fst custom) -> (forall k v, In (k, v) custom -> exists z, k = CInt z /\ 0 <= z) ->
  greatest_key custom mx ->
  let s := eff_size size mx in
  let n := Z.max s (mx + 1) in
  (s < mx -> group_new u0 size mcs strict custom = (Err KeyError, custom)) /\
  (mx <= s -> (exists i v, 0 <= i < n /\ custom_at custom mcs i v /\ v <= 0) ->
      fst (group_new u0 size mcs strict custom) = Err ValueError) /\
  (mx <= s -> (forall i v, 0 <= i < n -> custom_at custom mcs i v -> 0 < v) ->
      exists g sizes, fst (group_new u0 size mcs strict custom) = Ok g /\ plain_group g sizes /\
        Z.of_nat (length sizes) = n /\ forall i v, nth_error sizes i = Some v -> custom_at custom mcs (Z.of_nat i) v).
Proof.
  intros NE ND INT [[vm Hmx] GR] s n.
  set (keys := map fst (cints custom)).
  assert (KIN : forall z, In z keys <-> exists v, In (CInt z, v) custom).
  { intros z. unfold keys. rewrite in_map_iff. split.
    - intros ([y v] & <- & I). apply cints_in in I. eauto.
    - intros [v I]. exists (z, v). split; auto. now apply cints_in. }
  assert (MXE : zmax_list (hd 0 keys) keys = mx).
  { destruct (zmax_list_spec keys (hd 0 keys)) as (A & B & C).
    assert (IM : In mx keys) by (apply KIN; eauto).
    assert (IZ : In (zmax_list (hd 0 keys) keys) keys).
    { destruct A as [A|A]; auto. rewrite A. destruct keys; [contradiction|simpl; auto]. }
    apply KIN in IZ as [w IZ]. apply GR in IZ. specialize (C mx IM). lia. }
  assert (M0 : 0 <= mx) by (destruct (INT _ _ Hmx) as (z & E & Hz); injection E as ->; auto).
  set (gaps := filter (fun k => negb (existsb (Z.eqb k) keys)) (zrange 0 s)).
  assert (GAPS : forall k, In k gaps <-> 0 <= k < s /\ forall w, ~ In (CInt k, w) custom).
  { intros k. unfold gaps. rewrite filter_In, zrange_In. split; intros [H1 H2]; split; auto.
    - intros w I. apply negb_true_iff in H2. assert (existsb (Z.eqb k) keys = true); [|congruence].
      apply existsb_exists. exists k. split; [apply KIN; eauto|apply Z.eqb_refl].
    - apply negb_true_iff. destruct (existsb (Z.eqb k) keys) eqn:E; auto. apply existsb_exists in E as (y & I & E).
      apply Z.eqb_eq in E. subst. apply KIN in I as [w I]. exfalso. apply (H2 w I). }
  set (custom' := custom ++ map (fun k => (CInt k, mcs)) gaps).
  assert (UNF : group_new u0 size mcs strict custom =
    if negb (s =? 0) && (s <? mx) then (Err KeyError, custom)
    else if existsb (fun p => snd p <=? 0) custom' then (Err ValueError, custom')
    else (group_init (new_collections u0 strict (map snd (sort_keys (cints custom')))) (VBool false), custom')).
  { rewrite group_new_unfold by auto.
    assert (forallb (fun p => is_cint (fst p)) custom = true) as ->.
    { apply forallb_forall. intros [k v] I. destruct (INT k v I) as (z & -> & _). reflexivity. }
    cbn [negb]. cbv zeta. fold keys. rewrite MXE.
    assert ((if match size with Some z => z =? 0 | None => true end then mx else match size with Some z => z | None => mx end) = s) as ->.
    { unfold s, eff_size. destruct size as [[|p|p]|]; reflexivity. }
    fold gaps. fold custom'. reflexivity. }
  assert (C' : forall k v, In (k, v) custom' -> exists z, k = CInt z /\ 0 <= z < n /\ custom_at custom mcs z v).
  { intros k v I. apply in_app_or in I as [I|I].
    - destruct (INT k v I) as (z & -> & Hz). exists z. split; auto. split; [apply GR in I; lia|left; auto].
    - apply in_map_iff in I as (z & E & I). injection E as <- <-. apply GAPS in I as [I1 I2]. exists z.
      split; auto. split; [lia|right; auto]. }
  assert (C'' : mx <= s -> forall i v, 0 <= i < n -> custom_at custom mcs i v -> In (CInt i, v) custom').
  { intros Hs i v Hi [I|[-> N]]; apply in_or_app; [auto|]. right. apply in_map_iff. exists i. split; auto.
    apply GAPS. split; auto. destruct (Z.eq_dec i mx); [subst; exfalso; apply (N vm Hmx)|lia]. }
  rewrite UNF. split; [|split].
  - intros H. assert (negb (s =? 0) && (s <? mx) = true) as ->; auto.
    apply andb_true_iff. split; [|lia]. apply negb_true_iff. unfold s, eff_size in *.
    destruct size as [[|p|p]|]; try lia.
  - intros H (i & v & Hi & Hv & Hle). destruct (negb (s =? 0) && (s <? mx)) eqn:E; [lia|].
    assert (existsb (fun p => snd p <=? 0) custom' = true) as ->; auto.
    apply existsb_exists. exists (CInt i, v). split; [now apply C''|simpl; lia].
  - intros H POS. destruct (negb (s =? 0) && (s <? mx)) eqn:E; [lia|].
    assert (existsb (fun p => snd p <=? 0) custom' = false) as ->.
    { destruct (existsb _ custom') eqn:EX; auto. apply existsb_exists in EX as ([k v] & I & L). simpl in L.
      destruct (C' k v I) as (z & -> & Hz & Hc). specialize (POS z v Hz Hc). lia. }
    assert (NDC : NoDup (map fst (cints custom'))).
    { apply cints_nodup. unfold custom'. rewrite map_app. apply NoDup_app; auto.
      - rewrite map_map. simpl. apply FinFun.Injective_map_NoDup; [intros a b; congruence|]. unfold gaps. apply NoDup_filter.
        pose proof (zrange_sorted 0 s) as SZ. clear - SZ. induction SZ; constructor; auto. rewrite Forall_forall in H. intros I. apply H in I. lia.
      - intros k I1 I2. rewrite map_map in I2. simpl in I2. apply in_map_iff in I2 as (z & <- & I2). apply GAPS in I2 as [_ I2].
        apply in_map_iff in I1 as ([y w] & E1 & I1). simpl in E1. subst. apply (I2 w I1). }
    assert (KEYS : map fst (sort_keys (cints custom')) = zrange 0 n).
    { apply zsorted_eq; [|apply zrange_sorted|].
      - pose proof (sort_keys_sorted _ NDC) as SK. clear - SK. induction SK; simpl; constructor; auto.
        apply Forall_forall. intros x I. apply in_map_iff in I as (q & <- & I). rewrite Forall_forall in H. apply (H q I).
      - intros x. rewrite zrange_In. split.
        + intros I. apply in_map_iff in I as ([z v] & <- & I). apply (Permutation_in _ (Permutation_sym (sort_keys_perm _))) in I.
          apply cints_in in I. destruct (C' _ _ I) as (y & E1 & Hy & _). injection E1 as ->. exact Hy.
        + intros Hx. assert (EV : exists v, In (CInt x, v) custom').
          { destruct (in_dec Z.eq_dec x keys) as [I|I].
            - apply KIN in I as [v I]. exists v. apply in_or_app; auto.
            - exists mcs. apply C''; auto. right. split; auto. intros w Iw. apply I, KIN. eauto. }
          destruct EV as [v I]. apply in_map_iff. exists (x, v). split; auto.
          apply (Permutation_in _ (sort_keys_perm _)). now apply cints_in. }
    assert (SORTED_IN : forall z v, In (z, v) (sort_keys (cints custom')) -> 0 <= z < n /\ custom_at custom mcs z v).
    { intros z v I. apply (Permutation_in _ (Permutation_sym (sort_keys_perm _))) in I. apply cints_in in I.
      destruct (C' _ _ I) as (y & E1 & Hy & Hc). injection E1 as ->. auto. }
    destruct (init_new u0 strict (map snd (sort_keys (cints custom')))) as (g & -> & PG).
    + apply Forall_forall. intros v I. apply in_map_iff in I as ([z w] & <- & I). apply SORTED_IN in I as [I1 I2]. simpl. now apply (POS z).
    + exists g, (map snd (sort_keys (cints custom'))). split; auto. split; auto. split.
      * rewrite map_length, <- (map_length fst), KEYS, zrange_length. lia.
      * intros i v NTH.
        assert (exists p, nth_error (sort_keys (cints custom')) i = Some p /\ snd p = v) as (p & Hp & <-).
        { clear - NTH. revert i NTH. induction (sort_keys (cints custom')) as [|q l IH]; intros [|i] H; simpl in *; try discriminate; eauto.
          injection H as <-. eauto. }
        assert (FP : fst p = Z.of_nat i).
        { pose proof (map_nth_error fst i _ Hp) as K. rewrite KEYS in K.
          assert (Li : (i < Z.to_nat n)%nat).
          { assert (nth_error (zrange 0 n) i <> None) by congruence. apply nth_error_Some in H0. rewrite zrange_length in H0. lia. }
          rewrite zrange_nth in K by auto. congruence. }
        rewrite <- FP. apply nth_error_In in Hp. destruct p as [z v]. simpl. now apply SORTED_IN.
Qed.
Lemma group_new_nonint u0 size mcs strict custom :
  (exists n v, In (COther n, v) custom) -> group_new u0 size mcs strict custom = (Err KeyError, custom).
Proof.
  intros (n & v & I). unfold group_new. destruct custom as [|c0 custom0] eqn:EC; [contradiction|]. rewrite <- EC in *.
  assert (forallb (fun p => is_cint (fst p)) custom = false) as ->; auto.
  destruct (forallb _ custom) eqn:E; auto. rewrite forallb_forall in E. specialize (E _ I). discriminate.
Qed.
(** whatever the arguments, the group that results is not strict and holds nothing *)
Lemma group_new_never_strict u0 size mcs strict custom g : fst (group_new u0 size mcs strict custom) = Ok g ->
  Forall (fun c => c_strict c = false) g /\ g_fresh g.
Proof.
  intros H.
  assert (GI : forall s sizes, group_init (new_collections u0 s sizes) (VBool false) = Ok g -> Forall (fun c => c_strict c = false) g /\ g_fresh g).
  { intros s sizes E. unfold group_init in E. destruct (uuids_nodup _); [|discriminate]. simpl in E. injection E as <-.
    pose proof (new_collections_fresh u0 s sizes) as FR. unfold g_fresh in *. rewrite Forall_forall in FR. split; apply Forall_forall; intros c I;
      apply in_map_iff in I as (x & <- & I); simpl; auto. }
  unfold group_new in H. destruct custom as [|c0 custom0] eqn:EC.
  - destruct (match size with Some z => z =? 0 | None => true end); [discriminate|]. destruct (mcs <=? 0); [discriminate|].
    simpl in H. eapply GI. exact H.
  - destruct (negb (forallb _ _)); [discriminate|]. destruct (negb _ && _); [discriminate|]. destruct (existsb _ _); [discriminate|].
    simpl in H. eapply GI. exact H.
Qed.
