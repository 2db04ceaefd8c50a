(** Capacity of strict groups, flags, metadata. *)
From Verif Require Import Base BaseFacts Value BTree BTreeFacts Float53 Utils Collection SpecMap CollectionFacts Group RoutingFacts GroupFacts.
Open Scope Z_scope.

(** within capacity: every collection is strict, has a non-negative limit and respects it *)
Definition within (c : collection) : Prop := c_strict c = true /\ 0 <= c_max c /\ c_size c <= c_max c.

Lemma Forall_set_nth {A} (P : A -> Prop) i x l : Forall P l -> P x -> Forall P (set_nth i x l).
Proof. intros F Px. revert i; induction F; intros [|i]; simpl; auto. Qed.
Lemma groupfn_forall {A} (P : collection -> Prop) k (f : collection -> collection * res A) g :
  Forall P g -> (forall c, In c g -> P c -> P (fst (f c))) -> Forall P (fst (groupfn k f g)).
Proof.
  intros F H. unfold groupfn. destruct (get_group_index k (length g)); auto.
  destruct (nth_error g a) as [c|] eqn:N; auto. pose proof (nth_error_In _ _ N) as I.
  pose proof (H c I). destruct (f c) as [c' r] eqn:E. simpl in *. apply Forall_set_nth; auto.
  apply H0. rewrite Forall_forall in F. auto.
Qed.
Lemma update_from_forall (P : collection -> Prop) d n i g :
  Forall P g -> (forall c j, In c g -> P c -> share d n j <> [] -> P (fst (c_update (share d n j) c))) ->
  Forall P (fst (update_from d n i g)).
Proof.
  intros F. revert i; induction F as [|c g Pc F IH]; cbn [update_from]; intros i H; [constructor|].
  assert (T : Forall P (fst (update_from d n (S i) g))) by (apply IH; intros c' j I'; apply H; simpl; auto).
  destruct (share d n i) as [|kv s] eqn:SH.
  - destruct (update_from d n (S i) g); simpl in *. constructor; auto.
  - pose proof (H c i (or_introl eq_refl) Pc) as Hc. rewrite SH in Hc. specialize (Hc ltac:(discriminate)).
    destruct (c_update (kv :: s) c) as [c' [u|e]]; simpl in *.
    + destruct (update_from d n (S i) g); simpl in *. constructor; auto.
    + constructor; auto.
Qed.

(** what each step does to each collection: nothing, or a collection operation of the same kind *)
Lemma g_step_forall (P : collection -> Prop) g o :
  Forall P g ->
  (forall c o', In c g -> P c -> wf_op o' -> (checked_op o -> checked_op o') -> P (fst (c_step c o'))) ->
  wf_op o -> Forall P (fst (g_step g o)).
Proof.
  intros F H WO. destruct o as [k v|d|k dflt| |k v|]; simpl.
  - unfold g_insert. destruct (get_group_index k (length g)); auto. destruct (_ && _ && _); auto.
    pose proof (groupfn_forall P k (c_insert k v) g F) as G.
    destruct (groupfn k (c_insert k v) g); simpl in *. apply G. intros c I Pc.
    specialize (H c (Insert k v) I Pc). simpl in H. destruct (c_insert k v c). simpl in *. apply H; auto.
  - unfold g_update. destruct (_ && _); auto. destruct (mapM _ d); auto.
    pose proof (update_from_forall P d (length g) 0 g F) as G.
    destruct (update_from d (length g) 0 g); simpl in *. apply G. intros c j I Pc NE.
    specialize (H c (Update (share d (length g) j)) I Pc). simpl in H.
    destruct (c_update (share d (length g) j) c). simpl in *. apply H; auto. now apply share_nodup.
  - unfold g_pop. pose proof (groupfn_forall P k (c_pop k dflt) g F) as G.
    destruct (groupfn k (c_pop k dflt) g); simpl in *. apply G. intros c I Pc.
    specialize (H c (Pop k dflt) I Pc). simpl in H. destruct (c_pop k dflt c). simpl in *. apply H; auto.
  - unfold g_popitem. destruct (g_minkey None g) as [k|]; auto. unfold g_pop.
    pose proof (groupfn_forall P k (c_pop k VNone) g F) as G.
    destruct (groupfn k (c_pop k VNone) g) as [g' [v|e]]; simpl in *; apply G; intros c I Pc;
      specialize (H c (Pop k VNone) I Pc); simpl in H; destruct (c_pop k VNone c); simpl in *; apply H; auto.
  - unfold g_setdefault. pose proof (groupfn_forall P k (c_setdefault k v) g F) as G.
    destruct (groupfn k (c_setdefault k v) g); simpl in *. apply G. intros c I Pc.
    specialize (H c (Setdefault k v) I Pc). simpl in H. destruct (c_setdefault k v c). simpl in *. apply H; auto.
  - unfold g_clear. apply Forall_forall. intros x I. apply in_map_iff in I as (c & <- & I).
    rewrite Forall_forall in F. apply (H c Clear I (F c I)); simpl; auto.
Qed.

Lemma g_step_within g o : g_wf g -> wf_op o -> checked_op o -> Forall within g -> Forall within (fst (g_step g o)).
Proof.
  intros W WO CO F.
  assert (G : Forall (fun c => c_wf c /\ within c) (fst (g_step g o))).
  { apply g_step_forall; auto.
    - rewrite Forall_forall in *. intros c I. split; [|auto]. apply In_nth_error in I as [i Hi]. apply (W i c Hi).
    - intros c o' I [Wc (S & M & LE)] WO' CO'. split; [now apply c_step_wf|].
      destruct (c_step_meta c o') as (M1 & S1 & _). unfold within. rewrite M1, S1. repeat split; auto.
      apply c_step_capacity; auto. }
  eapply Forall_impl; [|exact G]. intros c [_ ?]; auto.
Qed.
Lemma g_run_within ops g : g_wf g -> (0 < length g)%nat -> Forall wf_op ops -> Forall checked_op ops ->
  Forall within g -> Forall within (g_run ops g).
Proof.
  revert g; induction ops as [|o ops IH]; simpl; intros g W L FW FC F; auto.
  inversion FW as [|? ? W1 W2]; inversion FC as [|? ? C1 C2]; subst.
  destruct (g_step_spec g o W L W1) as (W' & L' & _). apply IH; auto; [lia|]. now apply g_step_within.
Qed.
Lemma within_total g : Forall within g -> g_size g <= g_max g /\ g_strict g = true.
Proof.
  intros F. induction F as [|c g (S & M & LE) F [IH1 IH2]]; [split; [unfold g_size, g_max; simpl; lia|reflexivity]|].
  unfold g_size, g_max, g_strict in *; simpl. rewrite S, IH2. split; [lia|reflexivity].
Qed.
Lemma within_full g : Forall within g -> g_max g <= g_size g -> Forall (fun c => c_max c <= c_size c) g.
Proof.
  intros F H. induction F as [|c g (S & M & LE) F IH]; [constructor|].
  destruct (within_total g F) as [T _]. unfold g_size, g_max in *; simpl in H.
  constructor; [lia|]. apply IH. lia.
Qed.

(** an insert into a within-capacity strict group is accepted iff the target collection has room *)
Lemma strict_insert_iff g k v i c : Forall within g -> get_group_index k (length g) = Ok i -> nth_error g i = Some c ->
  ((exists z, snd (g_insert k v g) = Ok z) <-> c_size c < c_max c).
Proof.
  intros F R N. pose proof (nth_error_In _ _ N) as I.
  assert (S : c_strict c = true) by (rewrite Forall_forall in F; apply (F c I)).
  unfold g_insert. rewrite R. destruct (_ && _ && _) eqn:E.
  - simpl. split; [intros [z H]; discriminate|]. intros H. exfalso.
    apply andb_true_iff in E as [E _]. apply andb_true_iff in E as [E _].
    assert (FU : Forall (fun c => c_max c <= c_size c) g) by (apply within_full; auto; lia).
    rewrite Forall_forall in FU. specialize (FU c I). lia.
  - unfold groupfn. rewrite R, N. unfold c_insert. rewrite S, andb_true_r.
    destruct (c_max c <=? c_size c) eqn:Q; simpl.
    + split; [intros [z H]; discriminate|lia].
    + destruct (bt_insert k v (c_tree c)); simpl. split; [lia|eauto].
Qed.

(** ** metadata never changes *)
Lemma g_step_meta g o : map c_max (fst (g_step g o)) = map c_max g /\ map c_strict (fst (g_step g o)) = map c_strict g.
Proof.
  assert (SN : forall {B} (f : collection -> B) i c c' (g : group), nth_error g i = Some c -> f c' = f c -> map f (set_nth i c' g) = map f g).
  { intros B f i c c' g0. revert i; induction g0 as [|x g0 IH]; intros [|i] N E; simpl in *; try discriminate.
    - injection N as ->. now rewrite E.
    - f_equal. eauto. }
  assert (GF : forall {A} k (f : collection -> collection * res A) (g : group),
     (forall c, c_max (fst (f c)) = c_max c /\ c_strict (fst (f c)) = c_strict c) ->
     map c_max (fst (groupfn k f g)) = map c_max g /\ map c_strict (fst (groupfn k f g)) = map c_strict g).
  { intros A k f g0 H. unfold groupfn. destruct (get_group_index k (length g0)) as [i|]; auto.
    destruct (nth_error g0 i) as [c|] eqn:N; auto. destruct (H c) as [H1 H2]. destruct (f c) as [c' r]; simpl in *.
    split; eapply SN; eauto. }
  assert (ST : forall c o', c_max (fst (c_step c o')) = c_max c /\ c_strict (fst (c_step c o')) = c_strict c).
  { intros c o'. destruct (c_step_meta c o') as (? & ? & _). auto. }
  destruct o as [k v|d|k dflt| |k v|]; simpl.
  - unfold g_insert. destruct (get_group_index k (length g)); auto. destruct (_ && _ && _); auto.
    pose proof (GF _ k (c_insert k v) g) as G. destruct (groupfn k (c_insert k v) g). simpl in *. apply G.
    intros c. specialize (ST c (Insert k v)). simpl in ST. now destruct (c_insert k v c).
  - unfold g_update. destruct (_ && _); auto. destruct (mapM _ d); auto.
    assert (UF : forall n i g, map c_max (fst (update_from d n i g)) = map c_max g /\ map c_strict (fst (update_from d n i g)) = map c_strict g).
    { intros n i g0. revert i; induction g0 as [|c g0 IH]; cbn [update_from]; intros i; auto.
      specialize (IH (S i)). destruct (share d n i) as [|kv s] eqn:SS.
      - destruct (update_from d n (S i) g0); simpl in *. destruct IH as [-> ->]. auto.
      - specialize (ST c (Update (kv :: s))). simpl in ST. destruct (c_update (kv :: s) c) as [c' [u|e]]; simpl in *.
        + destruct (update_from d n (S i) g0); simpl in *. destruct IH as [-> ->]. destruct ST as [-> ->]. auto.
        + destruct ST as [-> ->]. auto. }
    specialize (UF (length g) O g). destruct (update_from d (length g) 0 g). simpl in *. auto.
  - unfold g_pop. pose proof (GF _ k (c_pop k dflt) g) as G. destruct (groupfn k (c_pop k dflt) g). simpl in *. apply G.
    intros c. specialize (ST c (Pop k dflt)). simpl in ST. now destruct (c_pop k dflt c).
  - unfold g_popitem. destruct (g_minkey None g) as [k|]; auto. unfold g_pop.
    pose proof (GF _ k (c_pop k VNone) g) as G.
    assert (HC : forall c, c_max (fst (c_pop k VNone c)) = c_max c /\ c_strict (fst (c_pop k VNone c)) = c_strict c).
    { intros c. specialize (ST c (Pop k VNone)). simpl in ST. now destruct (c_pop k VNone c). }
    destruct (groupfn k (c_pop k VNone) g) as [g' [v|e]]; simpl in *; apply G; auto.
  - unfold g_setdefault. pose proof (GF _ k (c_setdefault k v) g) as G. destruct (groupfn k (c_setdefault k v) g). simpl in *. apply G.
    intros c. specialize (ST c (Setdefault k v)). simpl in ST. now destruct (c_setdefault k v c).
  - unfold g_clear. rewrite !map_map. auto.
Qed.
Lemma g_run_meta ops g : map c_max (g_run ops g) = map c_max g /\ map c_strict (g_run ops g) = map c_strict g.
Proof.
  revert g; induction ops as [|o ops IH]; simpl; intros g; auto.
  destruct (IH (fst (g_step g o))) as [-> ->]. apply g_step_meta.
Qed.
Lemma g_strict_map g : g_strict g = forallb (fun b => b) (map c_strict g).
Proof. unfold g_strict. induction g as [|c g IH]; simpl; auto. now rewrite IH. Qed.

(** ** flags *)
Lemma g_set_strict_spec v g :
  (forall b, v = VBool b -> snd (g_set_strict v g) = Ok tt /\ Forall (fun c => c_strict c = b) (fst (g_set_strict v g))
     /\ map c_tree (fst (g_set_strict v g)) = map c_tree g /\ map c_max (fst (g_set_strict v g)) = map c_max g)
  /\ ((forall b, v <> VBool b) -> g_set_strict v g = (g, Err TypeError)).
Proof.
  split.
  - intros b ->. simpl. rewrite !map_map. repeat split; auto. apply Forall_forall. intros c I.
    apply in_map_iff in I as (x & <- & _). reflexivity.
  - intros H. destruct v; auto. exfalso. apply (H b). reflexivity.
Qed.
Lemma g_strict_iff g : g_strict g = true <-> Forall (fun c => c_strict c = true) g.
Proof. unfold g_strict. rewrite forallb_forall, Forall_forall. tauto. Qed.

Lemma zmax_list_spec l d : (zmax_list d l = d \/ In (zmax_list d l) l) /\ d <= zmax_list d l /\ forall x, In x l -> x <= zmax_list d l.
Proof.
  unfold zmax_list. revert d; induction l as [|x l IH]; simpl; intros d; [repeat split; auto; [lia|contradiction]|].
  destruct (IH (Z.max d x)) as (A & B & C). repeat split.
  - destruct A as [A|A]; auto. rewrite A. destruct (Z.max_spec d x) as [[? ->]|[? ->]]; auto.
  - lia.
  - intros y [->|Hy]; [lia|auto].
Qed.
Lemma g_status_spec g s : g_status g = Ok s ->
  (exists c, In c g /\ c_status c = Ok s) /\ forall c, In c g -> exists s', c_status c = Ok s' /\ s' <= s.
Proof.
  unfold g_status. destruct (mapM c_status g) as [[|m r]|] eqn:M; try discriminate. intros H. injection H as <-.
  destruct (zmax_list_spec r m) as (A & B & C). split.
  - assert (I : In (zmax_list m r) (m :: r)) by (destruct A as [->|A]; simpl; auto).
    destruct (mapM_in_inv _ _ _ _ M I) as (c & E & Ic). eauto.
  - intros c I. destruct (mapM_in _ _ _ _ M I) as (y & E & Iy). exists y. split; auto.
    destruct Iy as [->|Iy]; auto.
Qed.
