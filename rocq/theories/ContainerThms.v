(** Container facts in the form used by the property theorems *)
From Verif Require Import Base BaseFacts Value BTree BTreeFacts Float53 Utils UtilsFacts Collection SpecMap CollectionFacts Group RoutingFacts GroupFacts GroupCapFacts GroupNewFacts StorageThms Container ContainerFacts CondenseFacts ResizeFacts.
Open Scope Z_scope.
Set Implicit Arguments.

(** ** Reachable containers: [Container(primary, groups, strict)] over reachable groups, with the primary first
    (given first, or not among the groups given), followed by any history of calls *)
Definition kop_ok (o : kop) : Prop := match o with KResize _ cap mcs _ _ => sizable cap mcs | _ => True end.
Definition k_start (k : container) : Prop :=
  exists heap primary groups strict, container_init heap primary groups (VBool strict) = Ok k /\
    NoDup groups /\ (~ In primary groups \/ exists rest, groups = primary :: rest) /\
    (forall i, i = primary \/ In i groups -> (i < length heap)%nat /\ g_reachable (nth i heap [])).
Definition k_reachable (k : container) : Prop :=
  exists k0 ops, k_start k0 /\ Forall kop_ok ops /\ k = k_run ops k0.

Lemma k_start_ok k : k_start k -> k_ok k /\ primary_first k.
Proof.
  intros (heap & p & gs & s & E & ND & F & ALL). unfold container_init in E.
  set (gs' := if existsb (Nat.eqb p) gs then gs else p :: gs) in *.
  assert (GS : NoDup gs' /\ (exists rest, gs' = p :: rest) /\ forall i, In i gs' -> i = p \/ In i gs).
  { unfold gs'. destruct (existsb (Nat.eqb p) gs) eqn:X.
    - split; auto. split; auto. destruct F as [F|F]; auto. apply existsb_exists in X as (x & X1 & X2). apply Nat.eqb_eq in X2. subst. contradiction.
    - split; [constructor; auto|].
      + intros I. assert (existsb (Nat.eqb p) gs = true); [|congruence]. apply existsb_exists. exists p. split; auto. apply Nat.eqb_refl.
      + split; eauto. intros i [<-|I]; auto. }
  destruct GS as (N' & (rest & R) & INC).
  assert (O : k_ok (mkK heap gs' p)).
  { split; [exact N'|]. split; [simpl; rewrite R; simpl; auto|]. intros i I. destruct (ALL i (INC i I)) as [L G]. split; [exact L|].
    apply g_reachable_wf in G. exact G. }
  destruct (proj1 (k_set_strict_spec (VBool s) O) s eq_refl) as (RS & O' & G & P & _).
  destruct (k_set_strict (VBool s) (mkK heap gs' p)) as [k1 r]. simpl fst in *. simpl snd in *. subst r. injection E as <-.
  split; auto. exists rest. rewrite G, P. exact R.
Qed.

(** ** the invariant is kept by every call *)
Lemma delete_from_ok id gs : forall k, k_ok k -> incl gs (k_groups k) ->
  k_ok (fst (delete_from id gs k)) /\ k_groups (fst (delete_from id gs k)) = k_groups k /\ k_primary (fst (delete_from id gs k)) = k_primary k.
Proof.
  induction gs as [|i gs IH]; intros k O I; simpl; auto. destruct (k_has id k) as [n|e]; simpl; auto.
  destruct (n =? 0); [apply IH; auto; intros x X; apply I; simpl; auto|].
  assert (Ii : In i (k_groups k)) by (apply I; simpl; auto). destruct (proj2 (proj2 O) i Ii) as [L [W G]].
  destruct (g_step_spec (grp k i) (Pop id VNone) W G Logic.I) as (W' & L' & _). rewrite g_pop_step in W', L'. simpl fst in *.
  destruct (g_pop id VNone (grp k i)) as [g' [v|e]]; simpl fst in *.
  - assert (O1 : k_ok (set_grp i g' k)) by (apply set_grp_ok; auto; split; auto; lia).
    destruct (IH (set_grp i g' k) O1) as (A & B & C); [intros x X; apply I; simpl; auto|].
    destruct (delete_from id gs (set_grp i g' k)) as [k' [vs|e]]; simpl in *; auto.
  - split; auto. apply set_grp_ok; auto. split; auto; lia.
Qed.
Lemma k_step_ok k o : k_ok k -> primary_first k -> kop_ok o -> k_ok (k_step k o) /\ primary_first (k_step k o).
Proof.
  intros O PF K. destruct o as [id v|id|t|u c m ca t|v]; simpl.
  - split; [now apply k_write_ok|]. destruct (k_write_spec id v O) as (p' & _ & _ & ->). destruct PF as (r & E). exists r. exact E.
  - unfold k_delete. destruct (delete_from_ok id O (incl_refl _)) as (A & B & C). split; auto. destruct PF as (r & E). exists r. congruence.
  - destruct t.
    + destruct (condense_transfer O PF) as [(k' & EQ & O' & G & P & _)|(k' & e & EQ & R)]; rewrite EQ; simpl.
      * split; auto. exists []. congruence.
      * destruct (refused_effect O R) as (i & key & v & _ & _ & O' & G & P & _). split; auto. destruct PF as (r & E). exists r. congruence.
    + destruct (condense_copy O PF) as [(k' & EQ & O' & G & P & _)|(k' & e & EQ & R)]; rewrite EQ; simpl.
      * split; auto. destruct PF as (r & E). exists r. congruence.
      * destruct (refused_effect O R) as (i & key & v & _ & _ & O' & G & P & _). split; auto. destruct PF as (r & E). exists r. congruence.
  - destruct (resize_spec u ca t O K) as (k' & n & m0 & EQ & O' & PF' & _). rewrite EQ. simpl. auto.
  - destruct (k_set_strict_spec v O) as [S1 S2]. destruct (match v with VBool _ => true | _ => false end) eqn:B.
    + destruct v as [| b | | |]; try discriminate. destruct (S1 b eq_refl) as (_ & O' & G & P & _). destruct PF as (r & E). split; [auto|]. exists r. congruence.
    + rewrite S2; [simpl; auto|]. intros b ->. discriminate.
Qed.
Lemma k_run_ok ops : forall k, k_ok k -> primary_first k -> Forall kop_ok ops -> k_ok (k_run ops k) /\ primary_first (k_run ops k).
Proof.
  induction ops as [|o ops IH]; intros k O PF F; simpl; auto. inversion F as [|? ? K F']; subst.
  destruct (k_step_ok o O PF K) as [O' PF']. apply IH; auto.
Qed.
Lemma k_reachable_ok k : k_reachable k -> k_ok k /\ primary_first k.
Proof. intros (k0 & ops & ST & F & ->). destruct (k_start_ok ST) as [O PF]. now apply k_run_ok. Qed.

(** ** C24 *)
Lemma first_truthy_ext id (f g : nat -> amap) l r : (forall j, In j l -> f j id = g j id) -> first_truthy id (map f l) r -> first_truthy id (map g l) r.
Proof.
  revert r. induction l as [|a l IH]; simpl; intros r H T; auto. inversion T as [|? ? v E TV|? ? ? E T']; subst.
  - apply ft_hit; auto. rewrite <- H; auto.
  - apply ft_skip; [intros v X; apply E; rewrite H; auto|]. apply IH; auto.
Qed.
Lemma k_read_same k k' id d : k_ok k -> k_ok k' -> encodable id -> k_groups k' = k_groups k ->
  (forall j, In j (k_groups k) -> g_abs (grp k' j) id = g_abs (grp k j) id) -> k_read id d k' = k_read id d k /\ k_has id k' = k_has id k.
Proof.
  intros O O' E G H. destruct (k_read_spec d O E) as (r & T & ->). destruct (k_read_spec d O' E) as (r' & T' & ->). split.
  - unfold maps in *. rewrite G in T'. apply first_truthy_ext with (g := fun i => g_abs (grp k i)) in T'; auto. now rewrite (first_truthy_det T T').
  - rewrite !k_has_spec by auto. f_equal. unfold holders, maps. rewrite G. f_equal. clear - H. induction (k_groups k) as [|a l IH]; simpl; auto.
    rewrite (H a) by (simpl; auto). destruct (g_abs (grp k a) id); simpl; rewrite IH by (intros; apply H; simpl; auto); auto.
Qed.
Lemma write_effect k id v r : k_ok k -> snd (k_write id v k) = Ok r ->
  encodable id /\ k_groups (fst (k_write id v k)) = k_groups k /\ k_primary (fst (k_write id v k)) = k_primary k /\ k_ok (fst (k_write id v k)) /\
  bound (g_abs (k_prim k)) id v (g_abs (k_prim (fst (k_write id v k)))) /\
  (forall j, j <> k_primary k -> grp (fst (k_write id v k)) j = grp k j).
Proof.
  intros O E. destruct (k_write_spec id v O) as (p' & WR & GG & EQ). pose proof (k_write_ok id v O) as O'. rewrite E in WR. rewrite EQ in *.
  assert (PP : k_prim (set_grp (k_primary k) p' k) = p') by (apply grp_set_same; apply O; apply O).
  assert (B : bound (g_abs (k_prim k)) id v (g_abs p')) by (inversion WR; auto).
  assert (EN : encodable id).
  { apply (held_encodable id (v := v) GG). apply B. }
  split; auto. split; auto. split; auto. split; auto. split; [rewrite PP; exact B|]. intros j J. apply grp_set_other; auto.
Qed.
Lemma C24_lemma k id v r : k_reachable k -> snd (k_write id v k) = Ok r ->
  (forall j d, j <> id -> k_read j d (fst (k_write id v k)) = k_read j d k /\ k_has j (fst (k_write id v k)) = k_has j k) /\
  (exists n, k_has id (fst (k_write id v k)) = Ok n /\ 1 <= n) /\
  (truthy v = true -> forall d, k_read id d (fst (k_write id v k)) = Ok v) /\
  (truthy v = false -> forall d, exists r, first_truthy id (tl (maps k)) r /\
      k_read id d (fst (k_write id v k)) = Ok (match r with Some w => w | None => d end)).
Proof.
  intros R E. destruct (k_reachable_ok R) as [O (rest & EG)]. destruct (write_effect id v O E) as (EN & G & P & O' & B & OT).
  set (k' := fst (k_write id v k)) in *.
  assert (MP : maps k' = g_abs (k_prim k') :: map (fun j => g_abs (grp k j)) rest).
  { unfold maps. rewrite G, EG. simpl. f_equal; [unfold k_prim; now rewrite P|]. apply map_ext_in. intros j J. rewrite OT; auto. intros ->.
    destruct O as (ND & _). rewrite EG in ND. apply NoDup_cons_iff in ND. tauto. }
  split; [|split; [|split]].
  - intros j d NJ. destruct (encodable_dec j) as [EJ|EJ].
    + apply k_read_same; auto. intros i I. destruct (Nat.eq_dec i (k_primary k)) as [->|NI].
      * change (g_abs (grp k (k_primary k)) j) with (g_abs (k_prim k) j). destruct B as [_ B]. rewrite <- B by auto. unfold k_prim. now rewrite P.
      * now rewrite OT.
    + assert (X : forall k0 i, k_ok k0 -> In i (k_groups k0) -> g_get j VNone (grp k0 i) = Err UnicodeEncodeError /\ g_has_key j (grp k0 i) = Err UnicodeEncodeError).
      { intros k0 i O0 I0. destruct (proj2 (proj2 O0) i I0) as [_ [W L]].
        pose proof (index_err j (length (grp k0 i)) EJ) as IX. unfold g_get, g_has_key, groupfn. rewrite IX. auto. }
      unfold k_read, k_has. rewrite G, EG. simpl.
      destruct (X k (k_primary k)) as [-> ->]; auto; [rewrite EG; simpl; auto|].
      destruct (X k' (k_primary k)) as [-> ->]; auto. rewrite G, EG; simpl; auto.
  - rewrite k_has_spec by auto. eexists; split; eauto. rewrite MP. unfold holders. simpl. destruct B as [B _]. rewrite B. simpl. lia.
  - intros TV d. destruct (k_read_spec d O' EN) as (r' & T & ->). rewrite MP in T. destruct B as [B _].
    inversion T as [|? ? w X TW|? ? ? X T']; subst; [congruence|]. rewrite (X v B) in TV. discriminate.
  - intros TV d. destruct (k_read_spec d O' EN) as (r' & T & ->). rewrite MP in T. destruct B as [B _].
    exists r'. split; auto. unfold maps. rewrite EG. simpl. inversion T as [|? ? w X TW|? ? ? X T']; subst; auto. congruence.
Qed.

(** ** C25 *)
Lemma C25_lemma k id d : k_reachable k -> encodable id ->
  (exists r, first_truthy id (maps k) r /\ k_read id d k = Ok (match r with Some v => v | None => d end)) /\
  k_has id k = Ok (holders id (maps k)) /\
  (Forall (fun m => m id = None) (maps k) -> k_read id d k = Ok d /\ k_has id k = Ok 0).
Proof.
  intros R E. destruct (k_reachable_ok R) as [O _]. split; [now apply k_read_spec|]. split; [now apply k_has_spec|].
  intros F. split.
  - destruct (k_read_spec d O E) as (r & T & ->). f_equal. clear - F T. revert F. induction T; intros F; auto; inversion F; subst; [congruence|auto].
  - rewrite k_has_spec by auto. f_equal. now apply holders_zero.
Qed.

(** reads follow what is held first, when that is truthy *)
Lemma read_held k id d : k_ok k -> encodable id ->
  (forall v, held k id = Some v -> truthy v = true -> k_read id d k = Ok v) /\ (held k id = None -> k_read id d k = Ok d).
Proof.
  intros O E. destruct (k_read_spec d O E) as (r & T & ->). unfold held. split.
  - intros v H TV. f_equal. revert H. induction T as [|m ms w X TW|m ms r X T IH]; simpl; intros H; [discriminate|rewrite X in H; congruence|].
    destruct (m id) as [w|] eqn:EM; [|auto]. injection H as ->. rewrite (X v eq_refl) in TV. discriminate.
  - intros H. f_equal. revert H. induction T as [|m ms w X TW|m ms r X T IH]; simpl; intros H; auto; [rewrite X in H; discriminate|].
    destruct (m id); [discriminate|auto].
Qed.
(** the first value held for [id] is not falsy *)
Definition not_falsy (k : container) (id : pystr) : Prop := forall v, held k id = Some v -> truthy v = true.
Lemma read_eq_of_held k k' id d : k_ok k -> k_ok k' -> encodable id -> (forall i, held k' i = held k i) -> not_falsy k id -> k_read id d k' = k_read id d k.
Proof.
  intros O O' E H NF. destruct (read_held d O E) as [A1 A2]. destruct (read_held d O' E) as [B1 B2].
  destruct (held k id) as [v|] eqn:X.
  - rewrite (A1 v), (B1 v); auto. now rewrite H.
  - rewrite A2, B2; auto. now rewrite H.
Qed.
Lemma has_iff_held k id : k_ok k -> encodable id -> exists n, k_has id k = Ok n /\ 0 <= n /\ (0 < n <-> held k id <> None).
Proof.
  intros O E. eexists. split; [now apply k_has_spec|]. split; [unfold holders; lia|]. apply holders_held.
Qed.

(** ** C26 *)
Lemma C26_lemma k id v : k_reachable k ->
  exists p', write_result (k_prim k) id v (snd (k_write id v k)) p' /\ k_prim (fst (k_write id v k)) = p' /\
    k_groups (fst (k_write id v k)) = k_groups k /\ k_primary (fst (k_write id v k)) = k_primary k /\
    (forall j, j <> k_primary k -> grp (fst (k_write id v k)) j = grp k j) /\
    (forall e, snd (k_write id v k) = Err e -> fst (k_write id v k) = k).
Proof.
  intros R. destruct (k_reachable_ok R) as [O _]. destruct (k_write_spec id v O) as (p' & WR & GG & EQ). exists p'. split; auto.
  split; [rewrite EQ; apply grp_set_same; apply O; apply O|]. split; [now rewrite EQ|]. split; [now rewrite EQ|]. split.
  - intros j J. rewrite EQ. apply grp_set_other; auto.
  - intros e. now apply k_write_err.
Qed.
Lemma C26_full_refuses k id v i c : k_reachable k -> get_group_index id (length (k_prim k)) = Ok i -> nth_error (k_prim k) i = Some c ->
  c_strict c = true -> c_max c <= c_size c -> exists e, snd (k_write id v k) = Err e /\ fst (k_write id v k) = k.
Proof.
  intros R EI EN CS CF. destruct (k_reachable_ok R) as [O _].
  destruct (snd (k_write id v k)) as [z|e] eqn:E; [|exists e; split; auto; eapply k_write_err; eauto]. exfalso.
  unfold k_write in E. destruct (g_insert id v (k_prim k)) as [g [z0|e0]] eqn:EG; [|discriminate].
  apply (@insert_ok_room (k_prim k) id v z0 i c); auto. now rewrite EG.
Qed.

(** ** C27 *)
(** the longest prefix of the groups that hold [id] *)
Inductive holding_prefix (k : container) (id : pystr) : list nat -> list nat -> list nat -> Prop :=
| hp_nil : holding_prefix k id [] [] []
| hp_stop i l : ~ holds_id k id i -> holding_prefix k id (i :: l) [] (i :: l)
| hp_more i l A B : holds_id k id i -> holding_prefix k id l A B -> holding_prefix k id (i :: l) (i :: A) B.
Lemma holding_prefix_ex k id l : exists A B, holding_prefix k id l A B.
Proof.
  induction l as [|i l (A & B & H)]; [exists [], []; constructor|].
  destruct (g_abs (grp k i) id) eqn:E.
  - exists (i :: A), B. constructor; auto. unfold holds_id. congruence.
  - exists [], (i :: l). constructor. unfold holds_id. congruence.
Qed.
Lemma holding_prefix_spec k id l A B : holding_prefix k id l A B ->
  l = A ++ B /\ (forall i, In i A -> holds_id k id i) /\ (forall b B', B = b :: B' -> ~ holds_id k id b).
Proof.
  induction 1 as [|i l N|i l A B H HP (IH1 & IH2 & IH3)]; [split; auto; split; [intros i []|discriminate]| |].
  - split; auto. split; [intros x []|]. intros b B' E. injection E as <- <-. exact N.
  - subst l. split; auto. split; auto. intros x [<-|X]; auto.
Qed.
Lemma C27_lemma k id : k_reachable k -> encodable id ->
  exists A B, holding_prefix k id (k_groups k) A B /\
    ((forall i, In i B -> ~ holds_id k id i) -> exists k' vs, k_delete id k = (k', Ok vs) /\ taken_out k k' id A /\ values_at k id A vs /\ k_has id k' = Ok 0) /\
    ((exists j, In j B /\ holds_id k id j) -> exists k', k_delete id k = (k', Err KeyError) /\ taken_out k k' id A).
Proof.
  intros R E. destruct (k_reachable_ok R) as [O _]. destruct (holding_prefix_ex k id (k_groups k)) as (A & B & HP). exists A, B. split; auto.
  destruct (holding_prefix_spec HP) as (EG & HA & HB). destruct (@delete_prefix id A B [] k O E EG) as [D1 D2]; [intros i []|exact HA|].
  unfold k_delete. rewrite EG. split.
  - intros NB. destruct (D1 NB) as (k' & vs & EQ & O' & T & V). exists k', vs. split; auto. split; auto. split; auto.
    rewrite k_has_spec by auto. f_equal. apply holders_zero. apply Forall_forall. intros m I. apply in_map_iff in I as (i & <- & I).
    destruct T as (T1 & T2 & T3 & T4). rewrite T1, EG in I. destruct (T4 i) as [T5 T6].
    destruct (in_dec Nat.eq_dec i A) as [IA|NA]; [now apply T5|]. rewrite T6 by auto. apply in_app_or in I as [I|I]; [contradiction|].
    specialize (NB i I). unfold holds_id in NB. destruct (g_abs (grp k i) id); auto. exfalso. apply NB. congruence.
  - intros (j & J & HJ). destruct B as [|b B']; [destruct J|]. pose proof (HB b B' eq_refl) as NB.
    destruct (D2 b B' eq_refl NB) as (k' & EQ & O' & T); [|eauto]. destruct J as [<-|J]; [contradiction|eauto].
Qed.

(** ** C28-C30 *)
Lemma C28_lemma k : k_reachable k -> relaxed (k_prim k) ->
  exists k', condense true k = (k', Ok (tl (k_groups k))) /\ k_groups k' = [k_primary k] /\ k_primary k' = k_primary k /\
    (forall id, g_abs (k_prim k') id = held k id) /\ (forall id, held k' id = held k id) /\
    (forall id d, encodable id -> not_falsy k id -> k_read id d k' = k_read id d k) /\
    (forall j id, In j (tl (k_groups k)) -> g_abs (grp k' j) id = None) /\ (forall j, In j (tl (k_groups k)) -> g_size (grp k' j) = 0).
Proof.
  intros R RX. destruct (k_reachable_ok R) as [O PF].
  destruct (condense_transfer O PF) as [(k' & EQ & O' & G & P & HE & EM & _)|(k' & e & _ & X)]; [|exfalso; eapply relaxed_never_refuses; eauto].
  exists k'. split; auto. split; auto. split; auto. split.
  - intros id. rewrite <- HE. symmetry. apply (@prim_single k' (k_primary k)); auto.
  - split; auto. split; [intros; now apply read_eq_of_held|]. split; auto. intros j J. rewrite g_size_length.
    destruct (g_keys (grp k' j)) as [|x l] eqn:EK; auto. exfalso. assert (In x (g_keys (grp k' j))) as I by (rewrite EK; simpl; auto).
    apply g_keys_in in I. apply I. apply EM. exact J.
Qed.
Lemma C29_lemma k : k_reachable k -> relaxed (k_prim k) ->
  exists k', condense false k = (k', Ok []) /\ k_groups k' = k_groups k /\ k_primary k' = k_primary k /\
    (forall id, g_abs (k_prim k') id = held k id) /\ (forall j, j <> k_primary k -> grp k' j = grp k j) /\
    (forall id, held k' id = held k id) /\ (forall id d, encodable id -> not_falsy k id -> k_read id d k' = k_read id d k).
Proof.
  intros R RX. destruct (k_reachable_ok R) as [O PF].
  destruct (condense_copy O PF) as [(k' & EQ & O' & G & P & HE & EM & _)|(k' & e & _ & X)]; [|exfalso; eapply relaxed_never_refuses; eauto].
  exists k'. split; auto. split; auto. split; auto. split; auto. split; auto.
  assert (HH : forall id, held k' id = held k id).
  { intros id. destruct PF as (rest & E). rewrite (@held_split k' rest) by (rewrite G, P; auto). rewrite HE.
    destruct (held k id) eqn:X; auto. rewrite <- X, (held_split _ _ E). rewrite (held_split _ _ E) in X.
    destruct (g_abs (k_prim k) id); [discriminate|]. apply first_held_ext. intros j J. rewrite EM; auto. intros ->.
    destruct O as (ND & _). rewrite E in ND. apply NoDup_cons_iff in ND. tauto. }
  split; auto. intros; now apply read_eq_of_held.
Qed.
(** a condense that raises, whatever the strictness of the primary *)
Lemma C30_lemma k k' e : k_reachable k -> condense true k = (k', Err e) ->
  exists i key v, In i (tl (k_groups k)) /\ g_abs (grp k i) key = Some v /\ g_abs (grp k' i) key = None /\
    k_groups k' = k_groups k /\ snd (g_insert key v (k_prim k')) = Err e /\
    (forall id, id <> key -> held k' id = held k id) /\
    ((forall j, In j (k_groups k) -> j <> i -> g_abs (grp k j) key = None) ->
       k_has key k' = Ok 0 /\ forall d, k_read key d k' = Ok d).
Proof.
  intros R E. destruct (k_reachable_ok R) as [O PF]. destruct (condense_transfer O PF) as [(k1 & EQ & _)|(k1 & e1 & EQ & X)]; [congruence|].
  assert (k1 = k' /\ e1 = e) as [-> ->] by (split; congruence). destruct (refused_effect O X) as (i & key & v & I & EV & O' & G & P & GN & HO & _ & HN & RF).
  exists i, key, v. split; auto. split; auto. split; auto. split; auto. split; auto. split; auto.
  intros H. specialize (HN H eq_refl). assert (EN : encodable key).
  { apply (held_encodable key (g := grp k i) (v := v)); auto. apply O. destruct PF as (r & EG). rewrite EG in *. simpl in *; auto. }
  split.
  - destruct (has_iff_held O' EN) as (n & -> & N1 & N2). f_equal. destruct (Z.eq_dec n 0); auto. exfalso. apply N2; auto; lia.
  - intros d. now apply (read_held d O' EN).
Qed.
Lemma C30_copy_never_loses k k' e : k_reachable k -> condense false k = (k', Err e) -> forall id, held k' id = held k id.
Proof.
  intros R E. destruct (k_reachable_ok R) as [O PF]. destruct (condense_copy O PF) as [(k1 & EQ & _)|(k1 & e1 & EQ & X)]; [congruence|].
  assert (k1 = k') as -> by congruence. destruct (refused_effect O X) as (i & key & v & I & EV & O' & G & P & GN & HO & HS & _). auto.
Qed.

(** ** C32, C33 *)
Lemma C32_lemma u0 cap mcs ca tr k : k_reachable k -> sizable cap mcs ->
  exists k', resize u0 cap mcs ca tr k = (k', Ok (resized_removed ca tr (k_groups k))) /\
    cap <= k_capacity k' /\ ~ In (k_primary k') (k_groups k) /\
    k_groups k' = resized_groups ca tr (k_primary k') (k_groups k) /\
    (forall id, held k' id = held k id) /\
    (forall id, encodable id -> exists n n', k_has id k = Ok n /\ k_has id k' = Ok n' /\ (0 < n' <-> 0 < n)) /\
    (forall id d, encodable id -> not_falsy k id -> k_read id d k' = k_read id d k) /\
    (forall j, In j (tl (k_groups k')) -> tr = false \/ ca = false -> grp k' j = grp k j) /\
    (forall j id, In j (resized_removed ca tr (k_groups k)) -> g_abs (grp k' j) id = None).
Proof.
  intros R SZ. destruct (k_reachable_ok R) as [O PF].
  destruct (resize_spec u0 ca tr O SZ) as (k' & n & m & EQ & O' & PF' & G & NP & MX & Hn & Hm & RX & CP & CC & HE & SE & EM).
  exists k'. split; auto. split; [rewrite CP; auto|]. split; auto. split; auto. split; auto. split.
  - intros id E. destruct (has_iff_held O E) as (a & Ea & _ & A). destruct (has_iff_held O' E) as (b & Eb & _ & B). exists a, b.
    split; auto. split; auto. rewrite A, B, HE. tauto.
  - split; [intros; now apply read_eq_of_held|]. auto.
Qed.
Lemma C33_lemma u0 cap mcs ca tr k : k_reachable k -> sizable cap mcs -> k_strict (fst (resize u0 cap mcs ca tr k)) = false.
Proof.
  intros R SZ. destruct (k_reachable_ok R) as [O PF].
  destruct (resize_spec u0 ca tr O SZ) as (k' & n & m & EQ & O' & PF' & G & NP & MX & Hn & Hm & RX & _). rewrite EQ. simpl. unfold k_strict.
  destruct (proj2 (proj2 O') _ (proj1 (proj2 O'))) as [_ [_ L]]. fold (k_prim k') in L. unfold g_strict.
  destruct (k_prim k') as [|c g]; [simpl in L; lia|]. inversion RX as [|? ? C]; subst. simpl. now rewrite C.
Qed.

Lemma C27_missing k id : k_reachable k -> encodable id -> (forall i, In i (k_groups k) -> ~ holds_id k id i) -> k_delete id k = (k, Ok []).
Proof. intros R E H. destruct (k_reachable_ok R) as [O _]. now apply delete_skip. Qed.
Lemma sizable_small cap mcs : 1 <= cap <= 2 ^ 50 -> 1 <= mcs <= 2 ^ 50 -> sizable cap mcs.
Proof.
  unfold sizable. change (2 ^ 53) with 9007199254740992. change (2 ^ 52 - 47) with 4503599627370449. change (2 ^ 50) with 1125899906842624. intros. split; [lia|]. split; nia.
Qed.
