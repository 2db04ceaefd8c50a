(** Facts about Container: the specification vocabulary, reads, write, delete. *)
From Coq Require Import Sorting.Permutation.
From Verif Require Import Base BaseFacts Value BTree BTreeFacts Float53 Utils UtilsFacts Collection SpecMap CollectionFacts Group
  RoutingFacts GroupFacts GroupCapFacts GroupNewFacts StorageThms Container.
Open Scope Z_scope.
Set Implicit Arguments.

(** ** Specification vocabulary *)
(** a usable group: its objects are filed where their id says, and it has at least one collection *)
Definition good_group (g : group) : Prop := g_wf g /\ (0 < length g)%nat.
(** the groups of the container are distinct usable objects and the primary is one of them *)
Definition k_ok (k : container) : Prop :=
  NoDup (k_groups k) /\ In (k_primary k) (k_groups k) /\
  forall i, In i (k_groups k) -> (i < length (k_heap k))%nat /\ good_group (grp k i).
Definition primary_first (k : container) : Prop := exists rest, k_groups k = k_primary k :: rest.
(** the groups in order, as maps *)
Definition maps (k : container) : list amap := map (fun i => g_abs (grp k i)) (k_groups k).
(** the value of the first group that holds [id] *)
Fixpoint first_held (id : pystr) (ms : list amap) : option pyval :=
  match ms with [] => None | m :: ms' => match m id with Some v => Some v | None => first_held id ms' end end.
Definition held (k : container) (id : pystr) : option pyval := first_held id (maps k).
(** [v] is the first truthy value bound to [id] *)
Inductive first_truthy (id : pystr) : list amap -> option pyval -> Prop :=
| ft_nil : first_truthy id [] None
| ft_hit m ms v : m id = Some v -> truthy v = true -> first_truthy id (m :: ms) (Some v)
| ft_skip m ms r : (forall v, m id = Some v -> truthy v = false) -> first_truthy id ms r -> first_truthy id (m :: ms) r.

Lemma grp_set_same i g k : (i < length (k_heap k))%nat -> grp (set_grp i g k) i = g.
Proof. intros H. unfold grp, set_grp. simpl. apply nth_error_nth. now apply set_nth_same. Qed.
Lemma nth_set_other {A} i j (x d : A) l : i <> j -> nth j (set_nth i x l) d = nth j l d.
Proof. revert i j. induction l as [|y l IH]; intros [|i] [|j] H; simpl; auto; try congruence. Qed.
Lemma grp_set_other i j g k : i <> j -> grp (set_grp i g k) j = grp k j.
Proof. intros H. unfold grp, set_grp. simpl. now apply nth_set_other. Qed.
Lemma heap_set_grp i g k : length (k_heap (set_grp i g k)) = length (k_heap k).
Proof. apply set_nth_length. Qed.

Lemma first_truthy_det id ms r1 r2 : first_truthy id ms r1 -> first_truthy id ms r2 -> r1 = r2.
Proof.
  intros H. revert r2. induction H as [|m ms v Hm T|m ms r Hm H IH]; intros r2 H2; inversion H2 as [|? ? w Hw Tw|? ? ? Hw H3]; subst; auto; try congruence.
  - apply Hw in Hm. congruence.
  - apply Hm in Hw. congruence.
Qed.
Lemma read_from_spec id dflt gs : encodable id -> Forall good_group gs ->
  exists r, first_truthy id (map g_abs gs) r /\ read_from id dflt gs = Ok (match r with Some v => v | None => dflt end).
Proof.
  intros E F. induction F as [|g gs [W L] F (r & IH & IR)]; simpl; [exists None; split; [constructor|reflexivity]|].
  rewrite (g_get_spec _ _ VNone W L E). destruct (g_abs g id) as [v|] eqn:G.
  - destruct (truthy v) eqn:T; [exists (Some v); split; [econstructor; eauto|reflexivity]|].
    exists r. split; auto. apply ft_skip; auto. intros w Hw. congruence.
  - simpl. exists r. split; auto. apply ft_skip; auto. intros w Hw. congruence.
Qed.
Lemma ok_good k : k_ok k -> Forall good_group (map (grp k) (k_groups k)).
Proof. intros (_ & _ & H). apply Forall_forall. intros g I. apply in_map_iff in I as (i & <- & I). apply (H i I). Qed.
Lemma k_read_spec k id dflt : k_ok k -> encodable id ->
  exists r, first_truthy id (maps k) r /\ k_read id dflt k = Ok (match r with Some v => v | None => dflt end).
Proof.
  intros O E. destruct (@read_from_spec id dflt (map (grp k) (k_groups k)) E (ok_good O)) as (r & A & B).
  rewrite map_map in A. exists r. split; auto.
Qed.
(** how many of the maps bind [id] *)
Definition holders (id : pystr) (ms : list amap) : Z :=
  Z.of_nat (length (filter (fun m => match m id with Some _ => true | None => false end) ms)).
Lemma has_from id (gs : list group) : encodable id -> Forall good_group gs ->
  exists bs, mapM (g_has_key id) gs = Ok bs /\ count_true bs = holders id (map g_abs gs).
Proof.
  intros E F. induction F as [|g gs [W L] F (bs & IH & IC)]; simpl; [exists []; auto|].
  destruct (g_has_key_spec _ _ W L E) as (b & -> & B). rewrite IH. exists (b :: bs). split; auto.
  unfold count_true, holders in *. simpl. rewrite IC. destruct (g_abs g id) eqn:G, b; simpl zbool; simpl length; try lia; exfalso.
  - assert (false = true) by (apply B; congruence). discriminate.
  - apply B; auto.
Qed.
Lemma mapM_map {A B C} (f : B -> res C) (h : A -> B) l : mapM (fun x => f (h x)) l = mapM f (map h l).
Proof. induction l as [|x l IH]; simpl; auto. now rewrite IH. Qed.
Lemma k_has_spec k id : k_ok k -> encodable id -> k_has id k = Ok (holders id (maps k)).
Proof.
  intros O E. unfold k_has. rewrite (mapM_map (g_has_key id) (grp k)).
  destruct (@has_from id (map (grp k) (k_groups k)) E (ok_good O)) as (bs & -> & C). rewrite map_map in C. now rewrite C.
Qed.
Lemma holders_held id ms : 0 < holders id ms <-> first_held id ms <> None.
Proof.
  unfold holders. induction ms as [|m ms IH]; simpl; [split; [lia|congruence]|].
  destruct (m id) eqn:M; simpl; [split; intros; [congruence|lia]|exact IH].
Qed.
Lemma holders_zero id ms : holders id ms = 0 <-> Forall (fun m => m id = None) ms.
Proof.
  unfold holders. induction ms as [|m ms IH]; simpl; [split; auto|].
  destruct (m id) eqn:M; simpl; split; intros H.
  - lia.
  - inversion H; congruence.
  - constructor; auto. apply IH. exact H.
  - apply IH. now inversion H.
Qed.

(** ** writing one group *)
(** replacing group [i] by [g'] changes only map [i] *)
Lemma set_grp_ok k i g' : k_ok k -> In i (k_groups k) -> good_group g' -> k_ok (set_grp i g' k).
Proof.
  intros (ND & P & H) I G. split; [exact ND|]. split; [exact P|]. intros j J. rewrite heap_set_grp. destruct (H j J) as [L GJ]. split; auto.
  destruct (Nat.eq_dec i j) as [<-|NE]; [rewrite grp_set_same; auto|rewrite grp_set_other; auto].
Qed.
Lemma maps_set_grp k i g' pre post : k_groups k = pre ++ i :: post -> NoDup (k_groups k) -> (i < length (k_heap k))%nat ->
  maps (set_grp i g' k) = map (fun j => g_abs (grp k j)) pre ++ g_abs g' :: map (fun j => g_abs (grp k j)) post.
Proof.
  intros E ND L. unfold maps. simpl. rewrite E in *. rewrite map_app. simpl. rewrite grp_set_same by auto.
  apply NoDup_remove_2 in ND.
  f_equal; [|f_equal]; apply map_ext_in; intros j J; rewrite grp_set_other; auto; intros ->; apply ND; apply in_or_app; auto.
Qed.

(** ** write *)
Definition single_update_raises (g : group) (id : pystr) (v : pyval) : Prop := exists e, snd (g_update [(id, v)] g) = Err e.
Lemma g_insert_step (g : group) id v : g_step g (Insert id v) = (fst (g_insert id v g), out OInt (snd (g_insert id v g))).
Proof. simpl. now destruct (g_insert id v g). Qed.
Lemma g_update_step (g : group) d : g_step g (Update d) = (fst (g_update d g), out (fun _ => ONone) (snd (g_update d g))).
Proof. simpl. now destruct (g_update d g). Qed.
Lemma g_pop_step (g : group) id d : g_step g (Pop id d) = (fst (g_pop id d g), out OVal (snd (g_pop id d g))).
Proof. simpl. now destruct (g_pop id d g). Qed.

(** outcome of inserting into a good group *)
Lemma insert_outcome g id v : good_group g ->
  good_group (fst (g_insert id v g)) /\
  ((exists e, snd (g_insert id v g) = Err e /\ fst (g_insert id v g) = g) \/
   (snd (g_insert id v g) = Ok 1 /\ g_abs g id = None /\ bound (g_abs g) id v (g_abs (fst (g_insert id v g)))) \/
   (snd (g_insert id v g) = Ok 0 /\ (exists w, g_abs g id = Some w) /\ same (g_abs g) (g_abs (fst (g_insert id v g))))).
Proof.
  intros [W L]. destruct (g_step_spec g (Insert id v) W L I) as (W' & L' & O). rewrite g_insert_step in *. simpl fst in *. simpl snd in *.
  split; [split; auto; lia|]. destruct O as [(e & E & _ & EQ)|[(d & i0 & E & _)|(_ & _ & OK)]]; [|discriminate|].
  - left. destruct (snd (g_insert id v g)); simpl in E; [discriminate|]. eexists; split; [reflexivity|exact EQ].
  - right. destruct (snd (g_insert id v g)) as [z|e]; simpl in OK; inversion OK; subst; eauto.
Qed.
Lemma insert_present_noop (g : group) id v : snd (g_insert id v g) = Ok 0 -> fst (g_insert id v g) = g.
Proof.
  unfold g_insert. destruct (get_group_index id (length g)) as [i|e] eqn:E; [|discriminate]. destruct (_ && _ && _); [discriminate|].
  unfold groupfn. rewrite E. destruct (nth_error g i) as [c|] eqn:N; [|discriminate].
  unfold c_insert. destruct (_ && _); [discriminate|]. unfold bt_insert. destruct (bt_has id (c_tree c)); simpl; intros H; [|discriminate].
  replace (c_with_tree c (c_tree c)) with c by (destruct c; reflexivity). now apply set_nth_id.
Qed.
Lemma insert_ok_room (g : group) id v z i c : snd (g_insert id v g) = Ok z -> get_group_index id (length g) = Ok i ->
  nth_error g i = Some c -> ~ (c_strict c = true /\ c_max c <= c_size c).
Proof.
  unfold g_insert. intros H E N [S F]. rewrite E in H. destruct (_ && _ && _); [discriminate|]. unfold groupfn in H. rewrite E, N in H.
  unfold c_insert in H. rewrite S in H. assert (c_max c <=? c_size c = true) as T by lia. rewrite T in H. discriminate.
Qed.
Lemma update_one g id v : good_group g -> snd (g_insert id v g) = Ok 0 ->
  good_group (fst (g_update [(id, v)] g)) /\
  (g_strict g = true /\ g_max g < g_size g /\ g_update [(id, v)] g = (g, Err GroupCapacityError) \/
   ~ (g_strict g = true /\ g_max g < g_size g) /\ snd (g_update [(id, v)] g) = Ok tt /\
   bound (g_abs g) id v (g_abs (fst (g_update [(id, v)] g)))).
Proof.
  intros G H. pose proof (insert_outcome id v G) as [_ [(e & E & _)|[(E & _)|(_ & [w Hw] & _)]]]; try congruence.
  destruct G as [W L].
  assert (ND : wf_op (Update [(id, v)])) by (repeat constructor; simpl; auto).
  destruct (g_step_spec g (Update [(id, v)]) W L ND) as (W' & L' & O). rewrite g_update_step in *. simpl fst in *. simpl snd in *.
  split; [split; auto; lia|].
  assert (EX : exists i, get_group_index id (length g) = Ok i).
  { unfold g_insert in H. destruct (get_group_index id (length g)); [eauto|discriminate]. }
  destruct EX as [i Ei]. destruct (route_nth _ _ _ Ei) as [c Ec].
  assert (M : mem_str id (g_keys g) = true).
  { unfold mem_str. apply existsb_exists. exists id. split; [apply g_keys_in; congruence|apply str_eqb_refl]. }
  assert (CASE : (g_max g <? 0 + g_size g) && g_strict g = true -> g_update [(id, v)] g = (g, Err GroupCapacityError)).
  { intros C. unfold g_update. simpl map. simpl filter. rewrite M. simpl length. simpl Z.of_nat. now rewrite C. }
  destruct ((g_max g <? 0 + g_size g) && g_strict g) eqn:C.
  - left. apply andb_true_iff in C as [C1 C2]. split; auto. split; [lia|]. now apply CASE.
  - right. assert (NC : ~ (g_strict g = true /\ g_max g < g_size g)).
    { intros [C1 C2]. rewrite C1, andb_true_r in C. lia. }
    split; auto. clear CASE C.
    assert (FK : forall f, fresh_keys (g_abs g) [(id, v)] f -> f = 0).
    { intros f Hf. unfold fresh_keys in Hf. simpl in Hf. rewrite Hw in Hf. simpl in Hf. auto. }
    destruct O as [(e & E & RZ & EQ)|[(d & i0 & E & _ & _ & B & _)|(_ & _ & OK)]].
    + exfalso. inversion RZ as [? ? K ?| | |? n f GS HS FR LT|? ? ? ? X| |]; subst; [exact K| |].
      * apply NC. split; auto. apply FK in FR. pose proof (has_size_unique _ _ _ HS (g_has_size _ W)). lia.
      * apply Exists_exists in X as (kv & [<-|[]] & X). simpl in X. rewrite (index_err _ (length g) X) in Ei. discriminate.
    + exfalso. injection E as <-. destruct B as (c0 & B1 & (B2 & B3 & B4) & _).
      assert (i0 = i).
      { destruct (share [(id, v)] (length g) i0) as [|kv l] eqn:SH; [congruence|].
        assert (In kv (share [(id, v)] (length g) i0)) as IN by (rewrite SH; simpl; auto).
        apply share_in in IN as [[<-|[]] IN]. simpl in IN. congruence. }
      subst i0. rewrite Ec in B1. injection B1 as <-.
      apply (insert_ok_room _ _ _ H Ei Ec). split; auto.
      assert (NK : c_new_keys (share [(id, v)] (length g) i) c = []).
      { unfold c_new_keys.
        destruct (filter _ _) as [|x l] eqn:F; auto. exfalso. assert (I1 : In x (x :: l)) by (simpl; auto). rewrite <- F in I1.
        apply filter_In in I1 as [I1 I2]. apply in_map_iff in I1 as (kv & <- & I1). apply share_in in I1 as [[<-|[]] _]. simpl in I2.
        apply negb_true_iff in I2. assert (mem_str id (bt_keys (c_tree c)) = true); [|congruence].
        unfold mem_str. apply existsb_exists. exists id. split; [|apply str_eqb_refl]. apply c_abs_keys.
        rewrite <- (g_abs_route _ _ _ _ W Ei Ec). congruence. }
      rewrite NK in B4. simpl in B4. lia.
    + destruct (snd (g_update [(id, v)] g)) as [[]|e]; simpl in OK; inversion OK as [| |? m' OV| | | | | |]; subst. split; auto.
      split; [apply OV; simpl; auto|]. intros j NJ. apply OV. simpl. intros [?|[]]; congruence.
Qed.

(** result of a write *)
Inductive write_result (p : group) (id : pystr) (v : pyval) : res (option Z) -> group -> Prop :=
| wr_new p' : g_abs p id = None -> (forall e, ~ g_raises p (g_abs p) (Insert id v) e) -> bound (g_abs p) id v (g_abs p') ->
    write_result p id v (Ok (Some 1)) p'
| wr_replace w p' : g_abs p id = Some w -> (forall e, ~ g_raises p (g_abs p) (Insert id v) e) ->
    ~ (g_strict p = true /\ g_max p < g_size p) -> bound (g_abs p) id v (g_abs p') -> write_result p id v (Ok None) p'
| wr_refused e : g_raises p (g_abs p) (Insert id v) e -> write_result p id v (Err e) p
| wr_overfull w : g_abs p id = Some w -> (forall e, ~ g_raises p (g_abs p) (Insert id v) e) -> g_strict p = true -> g_max p < g_size p ->
    write_result p id v (Err GroupCapacityError) p.
Lemma set_grp_id k i : (i < length (k_heap k))%nat -> set_grp i (grp k i) k = k.
Proof.
  intros H. unfold set_grp, grp. destruct k as [h gs p]. simpl in *. f_equal. apply set_nth_id. now apply nth_error_nth'.
Qed.
Lemma k_write_spec k id v : k_ok k ->
  exists p', write_result (k_prim k) id v (snd (k_write id v k)) p' /\ good_group p' /\ fst (k_write id v k) = set_grp (k_primary k) p' k.
Proof.
  intros (ND & P & HG). destruct (HG _ P) as [L G]. fold (k_prim k) in G. unfold k_write.
  pose proof (insert_outcome id v G) as [GI OI].
  assert (RZ : match snd (g_insert id v (k_prim k)) with Ok _ => forall e, ~ g_raises (k_prim k) (g_abs (k_prim k)) (Insert id v) e
               | Err e => g_raises (k_prim k) (g_abs (k_prim k)) (Insert id v) e end).
  { destruct G as [W Lg]. destruct (g_step_spec (k_prim k) (Insert id v) W Lg I) as (_ & _ & O). rewrite g_insert_step in O. simpl fst in O. simpl snd in O.
    destruct O as [(e & E & RZ & _)|[(d & i0 & E & _)|(NR & _ & OK)]]; [|discriminate|].
    - destruct (snd (g_insert id v (k_prim k))); simpl in E; [discriminate|]. injection E as ->. exact RZ.
    - destruct (snd (g_insert id v (k_prim k))); auto. simpl in OK. inversion OK. }
  destruct OI as [(e & E & EQ)|[(E & N & B)|(E & [w Hw] & S)]].
  - destruct (g_insert id v (k_prim k)) as [g r]. simpl in *. subst. exists (k_prim k). split; [now constructor|]. auto.
  - destruct (g_insert id v (k_prim k)) as [g r]. simpl in *. subst. exists g. simpl. split; [now constructor|]. auto.
  - pose proof (insert_present_noop _ _ _ E) as NO. pose proof (update_one id v G E) as [GU OU].
    destruct (g_insert id v (k_prim k)) as [g r]. simpl in *. subst g r. simpl.
    destruct OU as [(C1 & C2 & EU)|(NC & EU & B)].
    + rewrite EU. exists (k_prim k). split; [eapply wr_overfull; eauto|]. auto.
    + destruct (g_update [(id, v)] (k_prim k)) as [g' r']. simpl in *. subst r'. exists g'. split; [eapply wr_replace; eauto|]. auto.
Qed.
Lemma k_write_ok k id v : k_ok k -> k_ok (fst (k_write id v k)).
Proof. intros O. destruct (k_write_spec id v O) as (p' & _ & G & ->). apply set_grp_ok; auto. apply O. Qed.
Lemma k_write_err k id v e : k_ok k -> snd (k_write id v k) = Err e -> fst (k_write id v k) = k.
Proof.
  intros O H. destruct (k_write_spec id v O) as (p' & R & _ & ->). rewrite H in R.
  destruct O as (_ & P & HG). destruct (HG _ P) as [L _]. inversion R; subst; now apply set_grp_id.
Qed.

(** ** delete *)
Lemma held_encodable g id v : good_group g -> g_abs g id = Some v -> encodable id.
Proof.
  intros [W L] H. destruct (encodable_dec id) as [E|E]; auto. exfalso.
  rewrite (g_abs_unroutable _ _ _ W (index_err _ (length g) E)) in H. discriminate.
Qed.
Lemma pop_hit g id v : good_group g -> g_abs g id = Some v ->
  exists g', g_pop id VNone g = (g', Ok v) /\ good_group g' /\ removed (g_abs g) id (g_abs g').
Proof.
  intros G H. pose proof (held_encodable id G H) as E. destruct G as [W L]. destruct (g_step_spec g (Pop id VNone) W L I) as (W' & L' & O). rewrite g_pop_step in *. simpl fst in *. simpl snd in *.
  exists (fst (g_pop id VNone g)).
  assert (good_group (fst (g_pop id VNone g))) as GG by (split; auto; lia).
  destruct O as [(e & _ & RZ & _)|[(d & i0 & E0 & _)|(_ & _ & OK)]]; [|discriminate|].
  - exfalso. inversion RZ as [? ? K NE| | | | | |]; subst; [simpl in K; congruence|congruence].
  - destruct (g_pop id VNone g) as [g' [w|e]]; simpl in *; inversion OK as [| | |? ? w0 m' Hw R|? ? m' Hn D SM| | | |]; subst; try congruence.
    split; [f_equal; f_equal; congruence|]. split; auto.
Qed.
Lemma pop_miss g id : good_group g -> encodable id -> g_abs g id = None -> g_pop id VNone g = (g, Err KeyError).
Proof.
  intros [W L] E H. destruct (g_step_spec g (Pop id VNone) W L I) as (W' & L' & O). rewrite g_pop_step in *. simpl fst in *. simpl snd in *.
  destruct O as [(e & EQ & RZ & EG)|[(d & i0 & E0 & _)|(_ & _ & OK)]]; [|discriminate|].
  - destruct (g_pop id VNone g) as [g' [w|e']]; simpl in *; [discriminate|]. injection EQ as ->. subst g'.
    inversion RZ as [? ? K NE| | | | |? ? ?|]; subst; [simpl in K; subst; contradiction|reflexivity].
  - exfalso. destruct (g_pop id VNone g) as [g' [w|e']]; simpl in *; inversion OK; congruence.
Qed.

(** [id] was taken out of the groups in [gone] and nothing else changed *)
Definition taken_out (k k' : container) (id : pystr) (gone : list nat) : Prop :=
  k_groups k' = k_groups k /\ k_primary k' = k_primary k /\ length (k_heap k') = length (k_heap k) /\
  forall i, (In i gone -> removed (g_abs (grp k i)) id (g_abs (grp k' i))) /\ (~ In i gone -> grp k' i = grp k i).
Definition holds_id (k : container) (id : pystr) (i : nat) : Prop := g_abs (grp k i) id <> None.

Lemma holders_pos_in k id i : In i (k_groups k) -> holds_id k id i -> holders id (maps k) <> 0.
Proof.
  intros I H E. apply holders_zero in E. rewrite Forall_forall in E. apply H. apply E. unfold maps. apply (in_map (fun i => g_abs (grp k i)) _ _ I).
Qed.
Lemma delete_skip id gs k : k_ok k -> encodable id -> (forall i, In i (k_groups k) -> ~ holds_id k id i) -> delete_from id gs k = (k, Ok []).
Proof.
  intros O E H. induction gs as [|i gs IH]; simpl; auto. rewrite (k_has_spec O E).
  assert (holders id (maps k) = 0) as ->; [|simpl; exact IH].
  apply holders_zero. apply Forall_forall. intros m I. apply in_map_iff in I as (j & <- & I). specialize (H j I). unfold holds_id in H.
  destruct (g_abs (grp k j) id); auto. exfalso. apply H. congruence.
Qed.
(** the values the groups [A] hold for [id], in order *)
Definition values_at (k : container) (id : pystr) (A : list nat) (vs : list pyval) : Prop :=
  Forall2 (fun i v => g_abs (grp k i) id = Some v) A vs.
Lemma delete_prefix id A : forall B D k, k_ok k -> encodable id -> k_groups k = D ++ A ++ B ->
  (forall i, In i D -> ~ holds_id k id i) -> (forall i, In i A -> holds_id k id i) ->
  ((forall i, In i B -> ~ holds_id k id i) ->
   exists k' vs, delete_from id (A ++ B) k = (k', Ok vs) /\ k_ok k' /\ taken_out k k' id A /\ values_at k id A vs) /\
  (forall b B', B = b :: B' -> ~ holds_id k id b -> (exists j, In j B' /\ holds_id k id j) ->
   exists k', delete_from id (A ++ B) k = (k', Err KeyError) /\ k_ok k' /\ taken_out k k' id A).
Proof.
  induction A as [|a A IH]; intros B D k O E EG HD HA.
  - split.
    + intros HB. exists k, []. simpl app in *. split.
      * apply delete_skip; auto. intros i I. rewrite EG in I. apply in_app_or in I as [I|I]; auto.
      * split; auto. split; [|constructor]. split; [reflexivity|]. split; [reflexivity|]. split; [reflexivity|]. intros i. split; [intros []|reflexivity].
    + intros b B' -> NB (j & J & HJ). exists k. simpl app in *. simpl delete_from.
      rewrite (k_has_spec O E). destruct (holders id (maps k) =? 0) eqn:Z.
      * exfalso. apply Z.eqb_eq in Z. apply (@holders_pos_in k id j); auto. rewrite EG. apply in_or_app. right. simpl. auto.
      * assert (Ib : In b (k_groups k)) by (rewrite EG; apply in_or_app; right; simpl; auto).
        destruct (proj2 (proj2 O) b Ib) as [Lb Gb]. rewrite (pop_miss Gb E).
        -- rewrite set_grp_id by auto. split; auto. split; auto. split; [reflexivity|]. split; [reflexivity|]. split; [reflexivity|]. intros i. split; [intros []|reflexivity].
        -- unfold holds_id in NB. destruct (g_abs (grp k b) id); auto. exfalso. apply NB. congruence.
  - assert (Ia : In a (k_groups k)) by (rewrite EG; apply in_or_app; right; simpl; auto).
    assert (Ha : holds_id k id a) by (apply HA; simpl; auto). unfold holds_id in Ha.
    destruct (g_abs (grp k a) id) as [v|] eqn:EV; [|congruence]. clear Ha.
    destruct (proj2 (proj2 O) a Ia) as [La Ga]. destruct (pop_hit id Ga EV) as (g' & EP & Gg' & RM).
    set (k1 := set_grp a g' k).
    assert (O1 : k_ok k1) by (apply set_grp_ok; auto).
    assert (ND : NoDup (k_groups k)) by apply O.
    assert (Gs1 : grp k1 a = g') by (apply grp_set_same; auto).
    assert (Go : forall j, j <> a -> grp k1 j = grp k j) by (intros j J; apply grp_set_other; auto).
    assert (NaA : ~ In a (A ++ B) /\ ~ In a D).
    { rewrite EG in ND. apply NoDup_remove_2 in ND. simpl in ND. rewrite in_app_iff in ND. tauto. }
    rewrite in_app_iff in NaA.
    assert (HU : forall j, j <> a -> (holds_id k1 id j <-> holds_id k id j)) by (intros j J; unfold holds_id; rewrite Go; tauto).
    assert (DEL : forall B', delete_from id ((a :: A) ++ B') k =
       match delete_from id (A ++ B') k1 with (k', Ok vs) => (k', Ok (v :: vs)) | (k', Err e) => (k', Err e) end).
    { intros B'. simpl. rewrite (k_has_spec O E). destruct (holders id (maps k) =? 0) eqn:Z.
      - exfalso. apply Z.eqb_eq in Z. apply (@holders_pos_in k id a Ia); auto. unfold holds_id. congruence.
      - rewrite EP. reflexivity. }
    assert (EG1 : k_groups k1 = (D ++ [a]) ++ A ++ B) by (rewrite <- app_assoc; exact EG).
    assert (HD1 : forall i, In i (D ++ [a]) -> ~ holds_id k1 id i).
    { intros i I. apply in_app_or in I as [I|[<-|[]]].
      - rewrite HU; [auto|]. intros ->. tauto.
      - unfold holds_id. rewrite Gs1. destruct RM as [RM _]. intros X. congruence. }
    assert (HA1 : forall i, In i A -> holds_id k1 id i).
    { intros i I. apply HU; [intros ->; tauto|]. apply HA. simpl; auto. }
    assert (TO : forall k', taken_out k1 k' id A -> taken_out k k' id (a :: A)).
    { intros k' (T1 & T2 & T3 & T4). split; [exact T1|]. split; [exact T2|]. split; [rewrite T3; apply heap_set_grp|].
      intros i. destruct (T4 i) as [T5 T6]. destruct (Nat.eq_dec i a) as [->|NE].
      - split; [|intros X; exfalso; apply X; simpl; auto]. intros _. rewrite T6 by tauto. now rewrite Gs1.
      - rewrite Go in * by auto. split; [intros [?|I]; [congruence|auto]|]. intros X. apply T6. intros I. apply X. simpl; auto. }
    destruct (IH B (D ++ [a]) k1 O1 E EG1 HD1 HA1) as [IH1 IH2]. split.
    + intros HB. destruct IH1 as (k' & vs & EQ & O' & T & V).
      { intros i I. rewrite HU; auto. intros ->. tauto. }
      exists k', (v :: vs). rewrite DEL, EQ. split; auto. split; auto. split; auto.
      constructor; [exact EV|]. unfold values_at in *. clear - V Go NaA.
      assert (N : ~ In a A) by tauto. revert N. induction V as [|i w A0 vs0 H V IHV]; intros N; constructor; simpl in N.
      * rewrite <- Go; [exact H|]. intros ->. tauto.
      * apply IHV; tauto.
    + intros b B' -> NB (j & J & HJ). destruct (IH2 b B' eq_refl) as (k' & EQ & O' & T).
      { rewrite HU; auto. intros ->. apply (proj1 NaA). simpl; tauto. }
      { exists j. split; auto. apply HU; auto. intros ->. apply (proj1 NaA). simpl; tauto. }
      exists k'. rewrite DEL, EQ. auto.
Qed.
