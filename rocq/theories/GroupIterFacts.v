(** The k-way merges behind [iterkeys]/[itervalues]/[iteritems], and [byValue]. *)
From Coq Require Import Sorting.Sorted Sorting.Permutation.
From Verif Require Import Base BaseFacts Value BTree BTreeFacts Utils Collection SpecMap CollectionFacts Group RoutingFacts GroupFacts.

(** ** generic merge *)
Section Merge.
  Variable A K : Type.
  Variable norm : A -> option A.
  Variable truth : A -> bool.
  Variable cmp : A -> A -> option comparison.
  Variable eqb : A -> A -> bool.
  Variable kcmp : K -> K -> comparison.
  Variable key : A -> K.
  Variable P : A -> Prop.
  Hypothesis kcmp_eq : forall a b, kcmp a b = Eq <-> a = b.
  Hypothesis kcmp_opp : forall a b, kcmp a b = CompOpp (kcmp b a).
  Hypothesis kcmp_trans : forall a b c, kcmp a b = Lt -> kcmp b c = Lt -> kcmp a c = Lt.
  Hypothesis P_norm : forall x, P x -> norm x = Some x.
  Hypothesis P_cmp : forall x y, P x -> P y -> cmp x y = Some (kcmp (key x) (key y)).
  Hypothesis P_eqb : forall x y, P x -> P y -> (eqb x y = true <-> key x = key y).

  Definition kle (x y : A) : Prop := kcmp (key x) (key y) <> Gt.
  Definition klt (x y : A) : Prop := kcmp (key x) (key y) = Lt.
  Lemma klt_le x y : klt x y -> kle x y. Proof. unfold klt, kle. congruence. Qed.
  Lemma kle_cases x y : kle x y <-> klt x y \/ key x = key y.
  Proof.
    unfold kle, klt. destruct (kcmp (key x) (key y)) eqn:E; split; intros H; auto; try congruence.
    - right. now apply kcmp_eq.
    - destruct H as [H|H]; [discriminate|]. rewrite H in E. rewrite (proj2 (kcmp_eq _ _) eq_refl) in E. discriminate.
  Qed.
  Lemma kle_trans x y z : kle x y -> kle y z -> kle x z.
  Proof.
    rewrite !kle_cases. unfold klt. intros [H1|H1] [H2|H2].
    - left. eauto. - left. now rewrite <- H2. - left. now rewrite H1. - right. congruence.
  Qed.
  Lemma klt_kle_trans x y z : klt x y -> kle y z -> klt x z.
  Proof. intros H1 H2. apply kle_cases in H2 as [H2|H2]; unfold klt in *; [eauto|now rewrite <- H2]. Qed.
  Lemma not_lt_le x y : ~ klt x y -> kle y x.
  Proof. unfold klt, kle. intros H E. apply H. rewrite kcmp_opp, E. reflexivity. Qed.
  Lemma kle_refl x : kle x x. Proof. apply kle_cases; auto. Qed.

  Definition slot_list (p : slot A) : list A := match p with (Some x, r) => x :: r | (None, r) => r end.
  Definition slot_ok (p : slot A) : Prop :=
    match p with (Some x, r) => P x /\ Forall P r | (None, r) => r = [] end.
  Definition pending (s : list (slot A)) : list A := flat_map slot_list s.

  Lemma refill_ok r : Forall P r -> slot_ok (refill norm r) /\ slot_list (refill norm r) = r.
  Proof. intros F. destruct F as [|x r Px F]; simpl; [auto|]. rewrite (P_norm x Px). simpl. auto. Qed.
  Lemma slots_ok ls : Forall (Forall P) ls -> Forall slot_ok (map (refill norm) ls) /\ pending (map (refill norm) ls) = concat ls.
  Proof.
    induction 1 as [|l ls F1 F2 [IH1 IH2]]; simpl; [auto|]. destruct (refill_ok l F1) as [E1 E2].
    split; [constructor; auto|]. unfold pending in *. simpl. now rewrite E2, IH2.
  Qed.

  (** first minimal element *)
  Lemma min_from_spec m l : P m -> Forall P l -> exists v, min_from cmp m l = Ok v /\
    ((v = m /\ Forall (kle m) l) \/
     (exists l1 l2, l = l1 ++ v :: l2 /\ klt v m /\ Forall (klt v) l1 /\ Forall (kle v) l2)).
  Proof.
    intros Pm F. revert m Pm; induction F as [|y l Py F IH]; simpl; intros m Pm; [eauto|].
    rewrite (P_cmp y m Py Pm). fold (klt y m). destruct (kcmp (key y) (key m)) eqn:E.
    - destruct (IH m Pm) as (v & -> & [[-> H]|(l1 & l2 & -> & H1 & H2 & H3)]); (eexists; split; [reflexivity|]).
      + left. split; auto. constructor; auto. apply not_lt_le. unfold klt; congruence.
      + right. exists (y :: l1), l2. repeat split; auto. constructor; auto. apply klt_kle_trans with m; auto.
        apply not_lt_le. unfold klt; congruence.
    - destruct (IH y Py) as (v & -> & [[-> H]|(l1 & l2 & -> & H1 & H2 & H3)]); (eexists; split; [reflexivity|]); right.
      + exists [], l. repeat split; auto.
      + exists (y :: l1), l2. repeat split; auto. unfold klt in *. eauto.
    - destruct (IH m Pm) as (v & -> & [[-> H]|(l1 & l2 & -> & H1 & H2 & H3)]); (eexists; split; [reflexivity|]).
      + left. split; auto. constructor; auto. apply not_lt_le. unfold klt; congruence.
      + right. exists (y :: l1), l2. repeat split; auto. constructor; auto. apply klt_kle_trans with m; auto.
        apply not_lt_le. unfold klt; congruence.
  Qed.

  Lemma some_of_app a b : some_of (A:=A) (a ++ b) = some_of a ++ some_of b.
  Proof. unfold some_of. induction a; simpl; auto. now rewrite IHa, app_assoc. Qed.
  Lemma some_of_P s : Forall slot_ok s -> Forall P (some_of s).
  Proof.
    induction 1 as [|[[y|] r] s F1 F2 IH]; simpl; auto. simpl in F1. constructor; [apply F1|auto].
  Qed.
  (** splitting the slots where the list of heads splits *)
  Lemma some_of_split_at (s : list (slot A)) l1 v l2 : some_of s = l1 ++ v :: l2 ->
    exists s1 r s2, s = s1 ++ (Some v, r) :: s2 /\ some_of s1 = l1 /\ some_of s2 = l2.
  Proof.
    revert l1; induction s as [|[[y|] r] s IH]; simpl; intros l1 H.
    - destruct l1; discriminate.
    - destruct l1 as [|z l1]; simpl in H.
      + injection H as -> H. exists [], r, s. auto.
      + injection H as <- H. destruct (IH l1 H) as (s1 & r' & s2 & -> & E1 & E2).
        exists ((Some y, r) :: s1), r', s2. simpl. now rewrite E1.
    - destruct (IH l1 H) as (s1 & r' & s2 & -> & E1 & E2). exists ((None, r) :: s1), r', s2. auto.
  Qed.
  Lemma min_slot_spec s : Forall slot_ok s -> some_of s <> [] ->
    exists v s1 r s2, min_slot cmp s = Ok v /\ s = s1 ++ (Some v, r) :: s2 /\
      Forall (klt v) (some_of s1) /\ Forall (kle v) (some_of s2).
  Proof.
    intros F NE. pose proof (some_of_P s F) as FP. unfold min_slot.
    destruct (some_of s) as [|x l] eqn:E; [congruence|]. inversion FP as [|? ? Px Fl]; subst.
    destruct (min_from_spec x l Px Fl) as (v & -> & [[-> H]|(l1 & l2 & -> & H1 & H2 & H3)]).
    - destruct (some_of_split_at s [] x l E) as (s1 & r & s2 & -> & E1 & E2).
      exists x, s1, r, s2. rewrite E1, E2. auto.
    - destruct (some_of_split_at s (x :: l1) v l2 E) as (s1 & r & s2 & -> & E1 & E2).
      exists v, s1, r, s2. rewrite E1, E2. auto.
  Qed.
  Lemma advance_split v s1 r s2 : P v -> Forall P (some_of s1) -> Forall (klt v) (some_of s1) ->
    advance norm eqb v (s1 ++ (Some v, r) :: s2) = s1 ++ refill norm r :: s2.
  Proof.
    intros Pv FP FL. induction s1 as [|[[y|] r'] s1 IH]; simpl in *.
    - rewrite (proj2 (P_eqb v v Pv Pv) eq_refl). reflexivity.
    - inversion FP as [|? ? Py FP']; inversion FL as [|? ? Ly FL']; subst.
      destruct (eqb y v) eqn:E.
      + apply (P_eqb y v Py Pv) in E. unfold klt in Ly. rewrite E in Ly. rewrite (proj2 (kcmp_eq _ _) eq_refl) in Ly. discriminate.
      + f_equal. auto.
    - f_equal. auto.
  Qed.

  Lemma pending_app a b : pending (a ++ b) = pending a ++ pending b.
  Proof. unfold pending. induction a; simpl; auto. now rewrite IHa, app_assoc. Qed.
  Lemma pending_empty s : Forall slot_ok s -> some_of s = [] -> pending s = [].
  Proof.
    induction 1 as [|[[y|] r] s F1 F2 IH]; simpl; intros H; auto; [discriminate|].
    simpl in F1. subst. now apply IH.
  Qed.

  (** one round *)
  Lemma merge_step s : Forall slot_ok s -> some_of s <> [] ->
    exists v s', min_slot cmp s = Ok v /\ advance norm eqb v s = s' /\ Forall slot_ok s' /\ P v /\
      Permutation (pending s) (v :: pending s') /\ Forall (kle v) (some_of s) /\
      (forall p, In p s' -> In p s \/ (exists r, In (Some v, r) s /\ p = refill norm r)).
  Proof.
    intros F NE. destruct (min_slot_spec s F NE) as (v & s1 & r & s2 & M & E & L1 & L2).
    exists v, (s1 ++ refill norm r :: s2). split; auto.
    assert (F' := F). rewrite E in F'. apply Forall_app in F' as [F1 F2]. inversion F2 as [|? ? SO F3]; subst. simpl in SO. destruct SO as [Pv Pr].
    destruct (refill_ok r Pr) as [RO RL].
    split; [apply advance_split; auto; now apply some_of_P|]. split; [apply Forall_app; auto|]. split; auto. split; [|split].
    - rewrite !pending_app. simpl. unfold pending at 2 4. simpl. rewrite RL. fold (pending s2).
      symmetry. apply Permutation_middle.
    - rewrite some_of_app. apply Forall_app. split; [eapply Forall_impl; [|exact L1]; apply klt_le|].
      simpl. constructor; auto using kle_refl.
    - intros p I. apply in_app_or in I as [I|[<-|I]].
      + left. apply in_or_app; auto.
      + right. exists r. split; auto. apply in_or_app; simpl; auto.
      + left. apply in_or_app; simpl; auto.
  Qed.

  Lemma any_slot_true s : Forall slot_ok s -> (forall x, In x (pending s) -> truth x = true) ->
    any_slot truth s = true <-> some_of s <> [].
  Proof.
    intros F T. induction F as [|[[y|] r] s F1 F2 IH]; simpl.
    - split; [discriminate|congruence].
    - unfold any_slot; simpl. rewrite (T y) by (unfold pending; simpl; auto). simpl. split; [discriminate|auto].
    - unfold any_slot in *; simpl. apply IH. intros x I. apply T. unfold pending. simpl. apply in_or_app; auto.
  Qed.

  Definition slot_sorted (p : slot A) : Prop := StronglySorted kle (slot_list p).
  Lemma heads_le v s : Forall slot_ok s -> Forall slot_sorted s -> Forall (kle v) (some_of s) -> Forall (kle v) (pending s).
  Proof.
    intros F. induction F as [|[[y|] r] s F1 F2 IH]; intros S H; simpl; auto; inversion S as [|? ? S1 S2]; subst.
    - inversion H as [|? ? Hy Hr]; subst. unfold pending; simpl. constructor; auto. apply Forall_app. split; [|now apply IH].
      unfold slot_sorted in S1; simpl in S1. inversion S1 as [|? ? _ FR]; subst. eapply Forall_impl; [|exact FR].
      intros z Hz. now apply kle_trans with y.
    - simpl in F1. subst. unfold pending; simpl. now apply IH.
  Qed.

  Lemma merge_spec fuel s : Forall slot_ok s -> (forall x, In x (pending s) -> truth x = true) ->
    (length (pending s) < fuel)%nat ->
    exists l, merge norm truth cmp eqb fuel s = (l, None) /\ Permutation (pending s) l /\
      (Forall slot_sorted s -> StronglySorted kle l).
  Proof.
    revert s; induction fuel as [|fuel IH]; intros s F T L; [lia|]. cbn [merge].
    pose proof (any_slot_true s F T) as AT. destruct (any_slot truth s) eqn:AS.
    - destruct (merge_step s F) as (v & s' & M & AD & F' & Pv & PE & LE & SRC); [now apply AT|].
      rewrite M, AD. destruct (IH s' F') as (l & -> & PE' & SO).
      + intros x I. apply T. apply (Permutation_in x (Permutation_sym PE)). simpl; auto.
      + pose proof (Permutation_length PE) as PL. simpl in PL. lia.
      + exists (v :: l). split; auto. split; [now rewrite PE, PE'|]. intros S.
        assert (S' : Forall slot_sorted s').
        { apply Forall_forall. intros p I. rewrite Forall_forall in S. destruct (SRC p I) as [I2|(r & I2 & ->)]; auto.
          specialize (S _ I2). unfold slot_sorted in *; simpl in S. inversion S; subst.
          rewrite Forall_forall in F. specialize (F _ I2). simpl in F. destruct F as [_ Fr].
          now rewrite (proj2 (refill_ok r Fr)). }
        constructor; auto. apply Forall_forall. intros x I.
        pose proof (heads_le v s F S LE) as HL. rewrite Forall_forall in HL. apply HL.
        apply (Permutation_in x (Permutation_sym PE)). simpl. right. apply (Permutation_in x (Permutation_sym PE')). exact I.
    - exists []. split; auto. assert (some_of s = []).
      { destruct (some_of s) eqn:E; auto. assert (false = true) by (apply AT; discriminate). discriminate. }
      rewrite pending_empty; auto. split; auto. intros _. constructor.
  Qed.
End Merge.

(** ** [iterkeys] *)
Definition ktruth (k : pystr) : bool := match k with [] => false | _ => true end.

Lemma str_kcmp_eq a b : str_compare a b = Eq <-> a = b. Proof. apply str_compare_eq. Qed.
Lemma str_kcmp_trans a b c : str_compare a b = Lt -> str_compare b c = Lt -> str_compare a c = Lt.
Proof. apply slt_trans. Qed.

Lemma sle_slt_sorted l : StronglySorted sle l -> NoDup l -> StronglySorted slt l.
Proof.
  induction 1 as [|x l S IH F]; intros ND; constructor; inversion ND as [|? ? NI ND']; subst; auto.
  apply Forall_forall. intros y I. rewrite Forall_forall in F. specialize (F y I).
  apply sle_cases in F as [->|F]; auto. contradiction.
Qed.
Lemma slt_sle_sorted l : StronglySorted slt l -> StronglySorted sle l.
Proof.
  induction 1 as [|x l S IH F]; constructor; auto. eapply Forall_impl; [|exact F]. intros; now apply slt_le.
Qed.

Definition kmerge := merge (fun k : pystr => Some k) ktruth (fun a b => Some (str_compare a b)) str_eqb.
Definition krefill := refill (fun k : pystr => Some k).

Lemma kmerge_spec fuel ls : (forall k, In k (concat ls) -> k <> []) -> Forall sorted_keys ls ->
  NoDup (concat ls) -> (length (concat ls) < fuel)%nat ->
  exists l, kmerge fuel (map krefill ls) = (l, None) /\ Permutation (concat ls) l /\ StronglySorted slt l.
Proof.
  intros T S ND L.
  destruct (slots_ok pystr (fun k => Some k) (fun _ => True)) with (ls := ls) as [OK PE]; auto.
  { apply Forall_forall. intros l _. apply Forall_forall. auto. }
  destruct (merge_spec pystr pystr (fun k => Some k) ktruth (fun a b => Some (str_compare a b)) str_eqb str_compare
              (fun k => k) (fun _ => True)) with (fuel := fuel) (s := map krefill ls) as (l & E1 & E2 & E3); auto.
  - apply str_compare_eq.
  - apply str_compare_antisym.
  - apply str_kcmp_trans.
  - intros x y _ _. apply str_eqb_eq.
  - unfold krefill. rewrite PE. intros x I. apply T in I. destruct x; [congruence|reflexivity].
  - unfold krefill. now rewrite PE.
  - exists l. split; [exact E1|]. unfold krefill in E2. rewrite PE in E2. split; auto.
    apply sle_slt_sorted; [|now apply (Permutation_NoDup E2)]. apply E3.
    apply Forall_forall. intros p I. apply in_map_iff in I as (k & <- & I). unfold slot_sorted, krefill.
    rewrite Forall_forall in S. specialize (S k I). destruct k as [|x r]; simpl; [constructor|].
    apply slt_sle_sorted in S. exact S.
Qed.

Definition heads (ls : list (list pystr)) : list pystr := flat_map (fun l => firstn 1 l) ls.
Lemma some_of_heads ls : some_of (map krefill ls) = heads ls.
Proof. induction ls as [|[|x l] ls IH]; simpl; auto. now rewrite IH. Qed.
Lemma any_heads ls : any_slot ktruth (map krefill ls) = existsb ktruth (heads ls).
Proof. unfold any_slot. induction ls as [|[|x l] ls IH]; simpl; auto. now rewrite IH. Qed.
Lemma heads_in ls k : In k (heads ls) -> In k (concat ls).
Proof.
  unfold heads. rewrite in_flat_map, in_concat. intros (l & I & H). exists l. split; auto.
  destruct l; simpl in *; [contradiction|tauto].
Qed.

Lemma kmerge_full fuel ls : existsb ktruth (heads ls) = true \/ ~ In [] (concat ls) -> Forall sorted_keys ls ->
  NoDup (concat ls) -> (length (concat ls) < fuel)%nat ->
  exists l, kmerge fuel (map krefill ls) = (l, None) /\ Permutation (concat ls) l /\ StronglySorted slt l.
Proof.
  intros D S ND L. destruct (in_dec str_dec [] (concat ls)) as [IN|NI].
  2: { apply kmerge_spec; auto. intros k I ->. auto. }
  destruct D as [D|D]; [|contradiction].
  destruct (slots_ok pystr (fun k => Some k) (fun _ => True)) with (ls := ls) as [OK PE]; auto.
  { apply Forall_forall. intros l _. apply Forall_forall. auto. }
  fold krefill in OK, PE.
  assert (SS : Forall (slot_sorted pystr pystr str_compare (fun k => k)) (map krefill ls)).
  { apply Forall_forall. intros p I. apply in_map_iff in I as (k & <- & I). unfold slot_sorted, krefill.
    rewrite Forall_forall in S. specialize (S k I). destruct k as [|x r]; simpl; [constructor|].
    apply slt_sle_sorted in S. exact S. }
  destruct (merge_step pystr pystr (fun k => Some k) (fun a b => Some (str_compare a b)) str_eqb str_compare
              (fun k => k) (fun _ => True) str_compare_eq str_compare_antisym str_kcmp_trans)
    with (s := map krefill ls) as (v & s' & M & AD & F' & _ & PM & LE & SRC); auto.
  { intros x y _ _. apply str_eqb_eq. }
  { rewrite some_of_heads. intros E. rewrite E in D. discriminate. }
  pose proof (heads_le pystr pystr str_compare (fun k => k) (fun _ => True) str_compare_eq str_kcmp_trans v _ OK SS LE) as HL.
  rewrite PE in PM, HL. rewrite Forall_forall in HL. specialize (HL [] IN). unfold kle in HL.
  assert (v = []). { destruct v; auto. simpl in HL. congruence. }
  subst v. assert (ND' : NoDup ([] :: pending pystr s')) by (now apply (Permutation_NoDup PM)).
  inversion ND' as [|? ? NI' ND'']; subst x l.
  destruct fuel as [|fuel]; [lia|].
  unfold kmerge. cbn [merge]. rewrite any_heads, D, M, AD.
  destruct (merge_spec pystr pystr (fun k => Some k) ktruth (fun a b => Some (str_compare a b)) str_eqb str_compare
              (fun k => k) (fun _ => True)) with (fuel := fuel) (s := s') as (l & E1 & E2 & E3); auto.
  - apply str_compare_eq.
  - apply str_compare_antisym.
  - apply str_kcmp_trans.
  - intros x y _ _. apply str_eqb_eq.
  - intros x I. destruct x; [contradiction|reflexivity].
  - pose proof (Permutation_length PM) as PL. simpl in PL. lia.
  - rewrite E1. exists ([] :: l). split; auto. split; [now rewrite PM, E2|].
    constructor.
    + apply sle_slt_sorted; [|now apply (Permutation_NoDup E2)]. apply E3.
      apply Forall_forall. intros p I. rewrite Forall_forall in SS. destruct (SRC p I) as [I2|(r & I2 & ->)]; auto.
      specialize (SS _ I2). unfold slot_sorted in *; simpl in SS. inversion SS; subst. destruct r; simpl; [constructor|assumption].
    + apply Forall_forall. intros x I. assert (x <> []).
      { intros ->. apply NI'. apply (Permutation_in [] (Permutation_sym E2)). exact I. }
      destruct x; [congruence|reflexivity].
Qed.
Lemma kmerge_stuck fuel ls : existsb ktruth (heads ls) = false -> (0 < fuel)%nat -> kmerge fuel (map krefill ls) = ([], None).
Proof. intros D L. destruct fuel; [lia|]. unfold kmerge. cbn [merge]. now rewrite any_heads, D. Qed.

(** the part of a group within bounds *)
Definition inb (lo hi : option pystr) (k : pystr) : bool := in_lo lo k && in_hi hi k.
Lemma inb_spec lo hi k : inb lo hi k = true <-> above lo k /\ below hi k.
Proof. unfold inb. now rewrite andb_true_iff, in_lo_above, in_hi_below. Qed.

Lemma map_fst_filter {V} (f : pystr -> bool) (t : list (pystr * V)) :
  map fst (filter (fun kv => f (fst kv)) t) = filter f (map fst t).
Proof. induction t as [|kv t IH]; simpl; auto. destruct (f (fst kv)); simpl; now rewrite IH. Qed.
Lemma iterkeys_filter lo hi c : c_iterkeys lo hi c = filter (inb lo hi) (c_keys c).
Proof. unfold c_iterkeys, c_iteritems, bt_range, c_keys, bt_keys. exact (map_fst_filter (inb lo hi) (c_tree c)). Qed.
Lemma concat_iterkeys lo hi g : concat (map (c_iterkeys lo hi) g) = filter (inb lo hi) (g_keys g).
Proof.
  induction g as [|c g IH]; simpl; auto. rewrite iterkeys_filter, IH. symmetry. apply filter_app.
Qed.
Lemma concat_iteritems lo hi g :
  concat (map (c_iteritems lo hi) g) = filter (fun kv => inb lo hi (fst kv)) (g_items g).
Proof. induction g as [|c g IH]; simpl; auto. rewrite IH. symmetry. apply filter_app. Qed.
Lemma concat_itervalues lo hi g :
  concat (map (c_itervalues lo hi) g) = map snd (filter (fun kv => inb lo hi (fst kv)) (g_items g)).
Proof. rewrite <- concat_iteritems. induction g as [|c g IH]; simpl; auto. rewrite map_app, <- IH. reflexivity. Qed.
Lemma filter_in_bounds lo hi g k : In k (filter (inb lo hi) (g_keys g)) <-> g_abs g k <> None /\ above lo k /\ below hi k.
Proof. now rewrite filter_In, g_keys_in, inb_spec. Qed.

Lemma iterkeys_sorted lo hi g : g_wf g -> Forall sorted_keys (map (c_iterkeys lo hi) g).
Proof.
  intros W. apply Forall_forall. intros l I. apply in_map_iff in I as (c & <- & I).
  apply In_nth_error in I as [i Hi]. apply (bt_range_wf lo hi). apply (W i c Hi).
Qed.

(** when every in-bounds id sits with the empty id in collection 0, the generator yields nothing *)
Definition lone_empty_id (lo hi : option pystr) (g : group) : Prop :=
  (g_abs g [] <> None /\ above lo [] /\ below hi []) /\
  forall k, g_abs g k <> None -> above lo k -> below hi k -> get_group_index k (length g) = Ok 0%nat.

Lemma index_nil n : (0 < n)%nat -> get_group_index [] n = Ok 0%nat.
Proof.
  intros H. unfold get_group_index. destruct n as [|n]; [lia|]. reflexivity.
Qed.

Lemma heads_lone lo hi g : g_wf g -> (0 < length g)%nat -> lone_empty_id lo hi g ->
  existsb ktruth (heads (map (c_iterkeys lo hi) g)) = false.
Proof.
  intros W L [N0 N1]. destruct (existsb ktruth _) eqn:E; auto. exfalso.
  apply existsb_exists in E as (k & I & T). unfold heads in I. apply in_flat_map in I as (l & Il & Ik).
  apply in_map_iff in Il as (c & <- & Ic). apply In_nth_error in Ic as [i Hi].
  assert (SK : sorted_keys (c_iterkeys lo hi c)) by (apply (bt_range_wf lo hi), (W i c Hi)).
  destruct (c_iterkeys lo hi c) as [|x r] eqn:EL; simpl in Ik; [contradiction|]. destruct Ik as [->|[]].
  assert (MEM : forall j, In j (c_iterkeys lo hi c) -> c_abs c j <> None /\ above lo j /\ below hi j).
  { intros j. rewrite iterkeys_filter, filter_In, inb_spec. intros [I1 I2]. split; auto. now apply c_abs_keys. }
  destruct (MEM k) as (K1 & K2 & K3); [rewrite EL; simpl; auto|].
  assert (KI : get_group_index k (length g) = Ok i) by (now apply (W i c Hi)).
  rewrite (N1 k) in KI; auto. 2: { rewrite (g_abs_of_coll g c k W); auto. now apply nth_error_In in Hi. }
  injection KI as <-.
  destruct N0 as (Z1 & Z2 & Z3).
  assert (c_abs c [] <> None) by (rewrite <- (g_abs_route g [] 0 c); auto; now apply index_nil).
  assert (I0 : In [] (k :: r)).
  { rewrite <- EL, iterkeys_filter, filter_In, inb_spec. split; auto. now apply c_abs_keys. }
  destruct I0 as [->|I0]; [discriminate|]. inversion SK as [|? ? _ FR]; subst. rewrite Forall_forall in FR.
  specialize (FR [] I0). unfold slt in FR. destruct k; discriminate.
Qed.
Lemma heads_not_lone lo hi g : g_wf g -> (0 < length g)%nat -> ~ lone_empty_id lo hi g ->
  existsb ktruth (heads (map (c_iterkeys lo hi) g)) = true \/ ~ In [] (concat (map (c_iterkeys lo hi) g)).
Proof.
  intros W L NL. destruct (existsb ktruth (heads (map (c_iterkeys lo hi) g))) eqn:E; auto. right. intros I0. apply NL.
  rewrite concat_iterkeys in I0. apply filter_in_bounds in I0. split; auto.
  intros k K1 K2 K3. destruct (g_abs_coll g k W K1) as (c & Ic & Ec).
  apply In_nth_error in Ic as [i Hi].
  assert (KI : get_group_index k (length g) = Ok i) by (apply (W i c Hi); congruence).
  rewrite KI. f_equal.
  assert (MEM : In k (c_iterkeys lo hi c)).
  { rewrite iterkeys_filter, filter_In, inb_spec. split; auto. apply c_abs_keys. congruence. }
  destruct (c_iterkeys lo hi c) as [|x r] eqn:EL; [contradiction|].
  assert (HX : In x (heads (map (c_iterkeys lo hi) g))).
  { unfold heads. apply in_flat_map. exists (c_iterkeys lo hi c). split; [apply in_map; now apply nth_error_In in Hi|]. rewrite EL. simpl; auto. }
  destruct x as [|b x].
  - assert (c_abs c [] <> None).
    { apply c_abs_keys. assert (I1 : In [] (c_iterkeys lo hi c)) by (rewrite EL; simpl; auto).
      rewrite iterkeys_filter, filter_In in I1. tauto. }
    pose proof (proj2 (W i c Hi) [] H) as R. rewrite index_nil in R by auto. congruence.
  - assert (existsb ktruth (heads (map (c_iterkeys lo hi) g)) = true); [|congruence].
    apply existsb_exists. exists (b :: x). auto.
Qed.

Lemma g_iterkeys_spec lo hi g : g_wf g -> (0 < length g)%nat ->
  (lone_empty_id lo hi g -> g_iterkeys lo hi g = ([], None)) /\
  (~ lone_empty_id lo hi g -> exists l, g_iterkeys lo hi g = (l, None) /\ StronglySorted slt l /\
     forall k, In k l <-> g_abs g k <> None /\ above lo k /\ below hi k).
Proof.
  intros W L. unfold g_iterkeys, merge_all. split.
  - intros H. apply (kmerge_stuck _ (map (c_iterkeys lo hi) g)); [now apply heads_lone|lia].
  - intros H. destruct (kmerge_full (S (length (concat (map (c_iterkeys lo hi) g)))) (map (c_iterkeys lo hi) g)) as (l & E & PE & SO).
    + now apply heads_not_lone.
    + now apply iterkeys_sorted.
    + rewrite concat_iterkeys. apply NoDup_filter. now apply g_keys_nodup.
    + lia.
    + exists l. split; [exact E|]. split; auto. intros k. rewrite <- filter_in_bounds, <- concat_iterkeys.
      split; intros I; [now apply (Permutation_in k (Permutation_sym PE))|now apply (Permutation_in k PE)].
Qed.

(** ** [iteritems] follows [iterkeys] *)
Definition ikeys (ps : list (list (pystr * pyval))) : list (list pystr) := map (map fst) ps.
Lemma key_slots_heads ps : some_of (key_slots (map irefill ps)) = heads (ikeys ps).
Proof. unfold key_slots, ikeys. induction ps as [|[|[k v] p] ps IH]; simpl; auto. now rewrite IH. Qed.
Lemma key_slots_any ps : any_slot ktruth (key_slots (map irefill ps)) = existsb ktruth (heads (ikeys ps)).
Proof. unfold any_slot, key_slots, ikeys. induction ps as [|[|[k v] p] ps IH]; simpl; auto. now rewrite IH. Qed.
Lemma min_slot_heads cmp ps : min_slot cmp (key_slots (map irefill ps)) = min_slot cmp (map krefill (ikeys ps)).
Proof. unfold min_slot. now rewrite key_slots_heads, some_of_heads. Qed.

(** drop the head of the first list whose head key is [k] *)
Fixpoint drop_head (k : pystr) (ps : list (list (pystr * pyval))) : list (list (pystr * pyval)) :=
  match ps with
  | [] => []
  | [] :: ps' => [] :: drop_head k ps'
  | ((x, v) :: p) :: ps' => if str_eqb x k then p :: ps' else ((x, v) :: p) :: drop_head k ps'
  end.
Fixpoint next_item (k : pystr) (ps : list (list (pystr * pyval))) : list (pystr * pyval) :=
  match ps with
  | [] => []
  | [] :: ps' => next_item k ps'
  | ((x, v) :: p) :: ps' => if str_eqb x k then first_item p else next_item k ps'
  end.
Lemma iadvance_drop k ps : iadvance k (map irefill ps) = (map irefill (drop_head k ps), next_item k ps).
Proof.
  induction ps as [|[|[x v] p] ps IH]; simpl; auto.
  - rewrite IH. reflexivity.
  - destruct (str_eqb x k); auto. now rewrite IH.
Qed.
Lemma advance_drop k ps : advance (fun k => Some k) str_eqb k (map krefill (ikeys ps)) = map krefill (ikeys (drop_head k ps)).
Proof.
  induction ps as [|[|[x v] p] ps IH]; simpl; auto.
  - unfold krefill in *. simpl. now rewrite IH.
  - unfold krefill in *. simpl. destruct (str_eqb x k); auto. simpl. now rewrite IH.
Qed.

(** [drop_head k] removes exactly the pair with key [k] when [k] is a head *)
Lemma drop_head_perm k ps : In k (heads (ikeys ps)) ->
  exists v, Permutation (concat ps) ((k, v) :: concat (drop_head k ps)) /\
    In (k, v) (flat_map first_item ps) /\
    (forall h, In h (flat_map first_item (drop_head k ps)) -> In h (flat_map first_item ps) \/ In h (next_item k ps)) /\
    incl (next_item k ps) (concat (drop_head k ps)) /\
    (length (next_item k ps) <= 1)%nat.
Proof.
  induction ps as [|[|[x w] p] ps IH]; simpl; [contradiction| |].
  - intros H. destruct (IH H) as (v & P1 & P2 & P3 & P4 & P5). exists v. auto.
  - intros H. destruct (str_eqb x k) eqn:E.
    + apply str_eqb_eq in E. subst x. exists w. repeat split; auto.
      * simpl. intros h I. apply in_app_or in I as [I|I]; auto.
      * intros h I. simpl. apply in_or_app. left. destruct p; simpl in *; [contradiction|tauto].
      * destruct p; simpl; lia.
    + assert (x <> k) by (intros ->; rewrite str_eqb_refl in E; discriminate).
      destruct H as [H|H]; [congruence|]. destruct (IH H) as (v & P1 & P2 & P3 & P4 & P5). exists v. repeat split; auto.
      * simpl. rewrite P1. change ((x, w) :: p ++ (k, v) :: concat (drop_head k ps)) with (((x, w) :: p) ++ (k, v) :: concat (drop_head k ps)).
        symmetry. apply (Permutation_middle ((x, w) :: p)).
      * simpl. intros h [->|I]; auto. destruct (P3 h I); auto.
      * intros h I. simpl. right. apply in_or_app. right. now apply P4.
Qed.

Lemma first_items_incl ps h : In h (flat_map first_item ps) -> In h (concat ps).
Proof.
  rewrite in_flat_map, in_concat. intros (l & I & H). exists l. split; auto. destruct l; simpl in *; [contradiction|tauto].
Qed.
Lemma nodup_fst_eq (l : list (pystr * pyval)) k v w : NoDup (map fst l) -> In (k, v) l -> In (k, w) l -> v = w.
Proof. intros ND I1 I2. apply (bt_get_nodup k v l ND) in I1. apply (bt_get_nodup k w l ND) in I2. congruence. Qed.

Lemma imerge_kmerge fuel ps items : NoDup (map fst (concat ps)) ->
  (forall k v, In (k, v) (flat_map first_item ps) -> bt_get k items = Some v) ->
  (forall e, snd (kmerge fuel (map krefill (ikeys ps))) = Some e -> e <> OutOfModel -> False) ->
  exists l, imerge fuel (map irefill ps) items = (l, snd (kmerge fuel (map krefill (ikeys ps)))) /\
    map fst l = fst (kmerge fuel (map krefill (ikeys ps))) /\ incl l (concat ps).
Proof.
  revert ps items; induction fuel as [|fuel IH]; intros ps items ND HD HE; [exists []; repeat split; auto; intros x []|].
  unfold kmerge in *. cbn [imerge merge] in *.
  change (fun k : pystr => match k with [] => false | _ :: _ => true end) with ktruth.
  rewrite key_slots_any, any_heads, min_slot_heads in *.
  destruct (existsb ktruth (heads (ikeys ps))) eqn:AN; [|exists []; repeat split; auto; intros x []].
  destruct (slots_ok pystr (fun k => Some k) (fun _ => True)) with (ls := ikeys ps) as [OK PE]; auto.
  { apply Forall_forall. intros l _. apply Forall_forall. auto. }
  fold krefill in OK, PE.
  destruct (min_slot_spec pystr pystr (fun a b => Some (str_compare a b)) str_compare (fun k => k) (fun _ => True)
     str_compare_eq str_compare_antisym str_kcmp_trans) with (s := map krefill (ikeys ps)) as (k & s1 & r & s2 & M & ES & _ & _); auto.
  { rewrite some_of_heads. intros E. rewrite E in AN. discriminate. }
  rewrite M in *. rewrite iadvance_drop, advance_drop in *.
  assert (IH0 : In k (heads (ikeys ps))).
  { rewrite <- some_of_heads, ES, some_of_app. apply in_or_app. right. simpl. auto. }
  destruct (drop_head_perm k ps IH0) as (v & PM & HK & HS & HN & HL1).
  assert (ND2 : NoDup (map fst ((k, v) :: concat (drop_head k ps)))) by (apply (Permutation_NoDup (Permutation_map fst PM)); exact ND).
  simpl in ND2. inversion ND2 as [|? ? NI2 ND3]; subst x l.
  assert (G : bt_get k (bt_update (next_item k ps) items) = Some v).
  { rewrite bt_get_update. assert (last_binding k (next_item k ps) = None) as ->.
    { apply last_binding_none. intros I. apply NI2. apply in_map_iff in I as (h & E & I). apply HN in I. apply (in_map fst) in I. rewrite E in I. exact I. }
    now apply HD. }
  rewrite G.
  destruct (merge (fun k0 => Some k0) ktruth (fun a b => Some (str_compare a b)) str_eqb fuel (map krefill (ikeys (drop_head k ps))))
    as [lk ek] eqn:EK.
  destruct (IH (drop_head k ps) (bt_del k (bt_update (next_item k ps) items)) ND3) as (l & E1 & E2 & E3).
  - intros j w I.
    assert (Ij : In (j, w) (concat (drop_head k ps))) by now apply first_items_incl.
    assert (Hjk : j <> k). { intros ->. apply NI2. apply (in_map fst) in Ij. exact Ij. }
    rewrite bt_get_del_other by auto. rewrite bt_get_update.
    destruct (HS (j, w) I) as [I1|I1].
    + assert (GB : bt_get j items = Some w) by now apply HD.
      destruct (last_binding j (next_item k ps)) as [u|] eqn:LB; auto.
      destruct (next_item k ps) as [|[q u'] t] eqn:NX; simpl in LB; [discriminate|].
      destruct t; [|simpl in HL1; lia]. simpl in LB. destruct (str_eqb j q) eqn:EQ; [|discriminate].
      apply str_eqb_eq in EQ. subst q. injection LB as ->. f_equal.
      apply (nodup_fst_eq (concat (drop_head k ps)) j); auto. apply HN. simpl; auto.
    + destruct (next_item k ps) as [|[q u'] t] eqn:NX; simpl in I1; [contradiction|].
      destruct t; [|simpl in HL1; lia]. destruct I1 as [I1|[]]. injection I1 as -> ->. simpl. now rewrite str_eqb_refl.
  - rewrite EK in *. simpl in *. exact HE.
  - rewrite EK in *. rewrite E1. simpl. exists ((k, v) :: l). repeat split; simpl; [now rewrite E2|].
    intros h [<-|I]; [apply first_items_incl; exact HK|].
    apply (Permutation_in h (Permutation_sym PM)). simpl. right. now apply E3.
Qed.

Lemma g_iteritems_spec lo hi g : g_wf g -> (0 < length g)%nat ->
  (lone_empty_id lo hi g -> g_iteritems lo hi g = ([], None)) /\
  (~ lone_empty_id lo hi g -> exists l, g_iteritems lo hi g = (l, None) /\ StronglySorted slt (map fst l) /\
     forall k v, In (k, v) l <-> g_abs g k = Some v /\ above lo k /\ below hi k).
Proof.
  intros W L.
  assert (IK : ikeys (map (c_iteritems lo hi) g) = map (c_iterkeys lo hi) g).
  { unfold ikeys. rewrite map_map. reflexivity. }
  assert (LEN : length (concat (map (c_iteritems lo hi) g)) = length (concat (map (c_iterkeys lo hi) g))).
  { rewrite concat_iteritems, concat_iterkeys, g_keys_items, <- map_fst_filter, map_length. reflexivity. }
  assert (NDK : NoDup (map fst (concat (map (c_iteritems lo hi) g)))).
  { rewrite concat_iteritems, map_fst_filter, <- g_keys_items. apply NoDup_filter. now apply g_keys_nodup. }
  pose proof (g_iterkeys_spec lo hi g W L) as [K1 K2].
  assert (REL : forall e, snd (g_iterkeys lo hi g) = e -> e = None ->
    exists l, g_iteritems lo hi g = (l, None) /\ map fst l = fst (g_iterkeys lo hi g) /\ incl l (concat (map (c_iteritems lo hi) g))).
  { intros e He ->. unfold g_iteritems. cbv zeta.
    destruct (imerge_kmerge (S (length (concat (map (c_iteritems lo hi) g)))) (map (c_iteritems lo hi) g)
               (bt_update (flat_map first_item (map (c_iteritems lo hi) g)) [])) as (l & E1 & E2 & E3); auto.
    - intros k v I. rewrite bt_get_update. 
      assert (NDF : NoDup (map fst (flat_map first_item (map (c_iteritems lo hi) g)))).
      { clear - NDK. induction (map (c_iteritems lo hi) g) as [|[|kv p] ps IHp]; simpl in *; [constructor|exact (IHp NDK)|].
        inversion NDK as [|? ? NI ND]; subst. constructor.
        - intros H. apply NI. rewrite map_app. apply in_or_app. right. apply in_map_iff in H as (h & E & I).
          apply in_map_iff. exists h. split; auto. now apply first_items_incl.
        - apply IHp. rewrite map_app in ND. clear - ND. induction (map fst p); simpl in *; auto. inversion ND; auto. }
      rewrite last_binding_get by auto. now rewrite (bt_get_nodup k v _ NDF I).
    - rewrite IK, LEN. intros e E _.
      change (snd (g_iterkeys lo hi g) = Some e) in E. rewrite He in E. discriminate.
    - rewrite IK, LEN in E1, E2. exists l. change (map fst l = fst (g_iterkeys lo hi g)) in E2.
      split; [|auto]. rewrite LEN. rewrite E1. f_equal. exact He. }
  split.
  - intros H. destruct (REL None) as (l & E1 & E2 & _); auto; [now rewrite (K1 H)|]. rewrite (K1 H) in E2. simpl in E2.
    destruct l; [exact E1|discriminate].
  - intros H. destruct (K2 H) as (lk & EK & SO & IN).
    destruct (REL None) as (l & E1 & E2 & E3); auto; [now rewrite EK|]. rewrite EK in E2. simpl in E2.
    exists l. split; auto. split; [now rewrite E2|]. intros k v. split.
    + intros I. apply E3 in I. rewrite concat_iteritems, filter_In, inb_spec in I. destruct I as [I1 I2].
      apply g_items_in in I1; auto.
    + intros (H1 & H2 & H3). assert (IK2 : In k (map fst l)).
      { rewrite E2. apply IN. repeat split; auto. congruence. }
      apply in_map_iff in IK2 as ([k' w] & Ek & Iw). simpl in Ek. subst k'.
      assert (E4 := E3 _ Iw). rewrite concat_iteritems, filter_In in E4. destruct E4 as [E4 _].
      apply g_items_in in E4; auto. congruence.
Qed.
