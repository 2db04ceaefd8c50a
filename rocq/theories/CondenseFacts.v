(** condense, resize and Container.new *)
From Verif Require Import Base BaseFacts Value BTree BTreeFacts Float53 Utils UtilsFacts Collection SpecMap CollectionFacts Group RoutingFacts GroupFacts GroupCapFacts GroupNewFacts StorageThms Container ContainerFacts.
Open Scope Z_scope.
Set Implicit Arguments.

(** no collection of the primary group is strict *)
Definition relaxed (g : group) : Prop := Forall (fun c => c_strict c = false) g.

Lemma relaxed_map g : relaxed g <-> Forall (fun b => b = false) (map c_strict g).
Proof. unfold relaxed. rewrite Forall_map. tauto. Qed.
Lemma relaxed_insert g id v : relaxed g -> relaxed (fst (g_insert id v g)).
Proof.
  rewrite !relaxed_map. intros R. pose proof (proj2 (g_step_meta g (Insert id v))) as M. rewrite g_insert_step in M. simpl in M. now rewrite M.
Qed.
Lemma relaxed_insert_ok g id v : good_group g -> relaxed g -> encodable id -> exists z, snd (g_insert id v g) = Ok z.
Proof.
  intros [W L] R E. destruct (g_step_spec g (Insert id v) W L I) as (W' & L' & O). rewrite g_insert_step in *. simpl fst in *. simpl snd in *.
  destruct (snd (g_insert id v g)) as [z|e]; eauto. exfalso. simpl in O.
  assert (ST : g_strict g = false).
  { unfold g_strict. destruct g as [|c g]; [simpl in L; lia|]. inversion R as [|? ? C R']; subst. simpl. now rewrite C. }
  destruct O as [(e0 & _ & RZ & _)|[(d & i0 & E0 & _)|(_ & _ & OK)]]; [|discriminate|inversion OK].
  inversion RZ as [? ? K NE|? ? ? ? GS|? ? ? i c EI NT HS OR CS| | | |]; subst.
  - simpl in K. congruence.
  - congruence.
  - unfold relaxed in R. rewrite Forall_forall in R. rewrite (R c) in CS; [discriminate|]. now apply nth_error_In in NT.
Qed.

(** ** one move *)
(** [k'] differs from [k] only in the contents of groups, keeps what is held, and only adds to the primary *)
Record step_ok (k k' : container) : Prop := {
  so_groups : k_groups k' = k_groups k;
  so_prim : k_primary k' = k_primary k;
  so_heap : length (k_heap k') = length (k_heap k);
  so_ok : k_ok k';
  so_keep : forall id w, g_abs (k_prim k) id = Some w -> g_abs (k_prim k') id = Some w;
  so_meta : map c_max (k_prim k') = map c_max (k_prim k) /\ map c_strict (k_prim k') = map c_strict (k_prim k)
}.
Lemma step_ok_refl k : k_ok k -> step_ok k k.
Proof. intros O. split; auto. Qed.
Lemma step_ok_trans k1 k2 k3 : step_ok k1 k2 -> step_ok k2 k3 -> step_ok k1 k3.
Proof.
  intros [A1 A2 A3 A4 A5 A6] [B1 B2 B3 B4 B5 B6]. split; try congruence; auto.
  destruct A6, B6. split; congruence.
Qed.

(** what one move does to group [i] (not the primary) *)
Definition source_after (transfer : bool) (g g' : group) (key : pystr) : Prop :=
  if transfer then removed (g_abs g) key (g_abs g') else g' = g.

Lemma move_spec transfer i key k v : k_ok k -> In i (k_groups k) -> i <> k_primary k -> g_abs (grp k i) key = Some v ->
  (snd (move transfer i key k) = Ok tt /\ step_ok k (fst (move transfer i key k)) /\
   source_after transfer (grp k i) (grp (fst (move transfer i key k)) i) key /\
   (forall j, j <> i -> j <> k_primary k -> grp (fst (move transfer i key k)) j = grp k j) /\
   (forall id, id <> key -> g_abs (k_prim (fst (move transfer i key k))) id = g_abs (k_prim k) id) /\
   g_abs (k_prim (fst (move transfer i key k))) key = Some (match g_abs (k_prim k) key with Some w => w | None => v end))
  \/ (exists e, snd (move transfer i key k) = Err e /\ step_ok k (fst (move transfer i key k)) /\ snd (g_insert key v (k_prim k)) = Err e /\
      source_after transfer (grp k i) (grp (fst (move transfer i key k)) i) key /\
      (forall j, j <> i -> grp (fst (move transfer i key k)) j = grp k j)).
Proof.
  intros O I NP EV. pose proof O as (ND & IP & ALL).
  destruct (ALL i I) as [Li Gi]. destruct (ALL _ IP) as [Lp Gp].
  pose proof (held_encodable key Gi EV) as EN.
  (* the state after the argument was evaluated *)
  assert (exists k1, (if transfer then let (g, r) := g_pop key VNone (grp k i) in (set_grp i g k, r) else (k, g_get key VNone (grp k i))) = (k1, Ok v)
     /\ k_groups k1 = k_groups k /\ k_primary k1 = k_primary k /\ length (k_heap k1) = length (k_heap k) /\ k_ok k1 /\
     source_after transfer (grp k i) (grp k1 i) key /\ forall j, j <> i -> grp k1 j = grp k j) as (k1 & EQ & K1 & K2 & K3 & K4 & K5 & K6).
  { destruct transfer.
    - destruct (pop_hit key Gi EV) as (g' & EP & Gg & RM). exists (set_grp i g' k). rewrite EP. split; auto. split; auto. split; auto.
      split; [apply heap_set_grp|]. split; [apply set_grp_ok; auto|]. split; [|intros j J; apply grp_set_other; auto].
      simpl. now rewrite grp_set_same.
    - exists k. rewrite (g_get_spec _ _ VNone (proj1 Gi) (proj2 Gi) EN), EV. split; auto. split; auto. split; auto. split; auto. split; auto.
      split; auto. reflexivity. }
  assert (P1 : k_prim k1 = k_prim k) by (unfold k_prim; rewrite K2; apply K6; auto).
  unfold move. rewrite EQ, P1, K2. destruct (insert_outcome key v Gp) as (GG & OUT). fold (k_prim k) in *.
  assert (IP1 : In (k_primary k) (k_groups k1)) by now rewrite K1.
  assert (Lp1 : (k_primary k < length (k_heap k1))%nat) by now rewrite K3.
  pose proof (g_step_meta (k_prim k) (Insert key v)) as MT. rewrite g_insert_step in MT. simpl fst in MT.
  set (p' := fst (g_insert key v (k_prim k))) in *.
  assert (OK2 : k_ok (set_grp (k_primary k) p' k1)) by (apply set_grp_ok; auto).
  assert (PP : k_prim (set_grp (k_primary k) p' k1) = p').
  { unfold k_prim. simpl k_primary. rewrite K2. apply grp_set_same; auto. }
  assert (OT : forall j, j <> k_primary k -> grp (set_grp (k_primary k) p' k1) j = grp k1 j) by (intros; apply grp_set_other; auto).
  assert (SO : (forall id w, g_abs (k_prim k) id = Some w -> g_abs p' id = Some w) -> step_ok k (set_grp (k_primary k) p' k1)).
  { intros H. split; simpl; auto.
    - rewrite <- K3. apply heap_set_grp.
    - rewrite PP. exact H.
    - rewrite PP. exact MT. }
  assert (SRC : source_after transfer (grp k i) (grp (set_grp (k_primary k) p' k1) i) key) by (rewrite OT; auto).
  assert (EI : g_insert key v (k_prim k) = (p', snd (g_insert key v (k_prim k)))) by (unfold p'; now destruct (g_insert key v (k_prim k))).
  destruct OUT as [(e & E & F)|[(E & N & B)|(E & (w & N) & B)]]; rewrite E in EI; rewrite EI; simpl fst; simpl snd.
  - right. exists e. split; auto. split; [apply SO; rewrite F; auto|]. split; auto. split; [exact SRC|]. rewrite F.
    intros j J. destruct (Nat.eq_dec j (k_primary k)) as [->|NJ].
    + rewrite grp_set_same; auto.
    + rewrite grp_set_other; auto.
  - left. split; auto. split; [apply SO|].
    + intros id w H. destruct B as [B1 B2]. rewrite B2; auto. congruence.
    + split; auto. split; [intros j J1 J2; rewrite OT; auto|]. rewrite PP. destruct B as [B1 B2]. split; auto. now rewrite N.
  - left. split; auto. split; [apply SO|].
    + intros id w0 H. rewrite B. exact H.
    + split; auto. split; [intros j J1 J2; rewrite OT; auto|]. rewrite PP. split; [intros; apply B|]. rewrite B, N. reflexivity.
Qed.

(** ** a condense in progress: the groups [done] are processed, group [i] is being processed and has the keys
    [togo] left, the groups [todo] are still to be processed *)
Record mid (transfer : bool) (k0 : container) (done : list nat) (i : nat) (togo : list pystr) (todo : list nat) (k : container) : Prop := {
  m_step : step_ok k0 k;
  m_groups : k_groups k0 = k_primary k0 :: done ++ i :: todo;
  m_held : forall id, held k id = held k0 id;
  m_cover : forall j id, In j done -> holds_id k id j -> g_abs (k_prim k) id <> None;
  m_nodup : NoDup togo;
  m_togo : forall id, In id togo -> holds_id k id i;
  m_rest : forall id, holds_id k id i -> ~ In id togo -> g_abs (k_prim k) id <> None;
  m_todo : forall j, In j todo -> grp k j = grp k0 j;
  m_src : if transfer then (forall j id, In j done -> g_abs (grp k j) id = None) /\ (forall id, ~ In id togo -> g_abs (grp k i) id = None)
          else forall j, j <> k_primary k0 -> grp k j = grp k0 j;
  m_same : forall id, In id togo -> g_abs (grp k i) id = g_abs (grp k0 i) id;
  m_shrink : forall j id, j <> k_primary k0 -> holds_id k id j -> holds_id k0 id j;
  m_from : forall id, g_abs (k_prim k) id <> None ->
     g_abs (k_prim k0) id <> None \/ (exists j, In j done /\ holds_id k0 id j) \/ (holds_id k0 id i /\ ~ In id togo);
  m_frame : forall j, ~ In j (k_groups k0) -> grp k j = grp k0 j;
  m_gone : forall j id, j <> k_primary k0 -> holds_id k0 id j -> holds_id k id j \/ g_abs (k_prim k) id <> None
}.

Lemma first_held_ext id f g (l : list nat) : (forall j, In j l -> f j id = g j id) -> first_held id (map f l) = first_held id (map g l).
Proof.
  induction l as [|a l IH]; simpl; auto. intros H. rewrite (H a) by auto. rewrite IH by auto. reflexivity.
Qed.
Lemma first_held_skip id f (l r : list nat) : (forall j, In j l -> f j id = None) -> first_held id (map f (l ++ r)) = first_held id (map f r).
Proof. induction l as [|a l IH]; simpl; auto. intros H. rewrite (H a) by auto. auto. Qed.
Lemma held_split k rest id : k_groups k = k_primary k :: rest ->
  held k id = match g_abs (k_prim k) id with Some w => Some w | None => first_held id (map (fun j => g_abs (grp k j)) rest) end.
Proof. intros E. unfold held, maps. rewrite E. reflexivity. Qed.

Lemma mid_move transfer k0 done i key togo todo k : mid transfer k0 done i (key :: togo) todo k ->
  (snd (move transfer i key k) = Ok tt /\ mid transfer k0 done i togo todo (fst (move transfer i key k)))
  \/ (exists e v, snd (move transfer i key k) = Err e /\ g_abs (grp k i) key = Some v /\ snd (g_insert key v (k_prim k)) = Err e /\
      step_ok k (fst (move transfer i key k)) /\
      source_after transfer (grp k i) (grp (fst (move transfer i key k)) i) key /\
      (forall j, j <> i -> grp (fst (move transfer i key k)) j = grp k j)).
Proof.
  intros [ST GR HE CO ND TG RS TD SR SM SH FR FM GN].
  assert (O : k_ok k) by apply ST. assert (GK : k_groups k = k_primary k0 :: done ++ i :: todo) by (rewrite (so_groups ST); auto).
  assert (PK : k_primary k = k_primary k0) by apply ST.
  assert (NDG : NoDup (k_groups k)) by apply O. rewrite GK in NDG.
  assert (NP : i <> k_primary k).
  { intros E. apply NoDup_cons_iff in NDG as [NI _]. apply NI. rewrite <- PK, <- E. apply in_or_app. right. simpl; auto. }
  assert (NI : ~ In i (done ++ todo)) by (apply NoDup_cons_iff in NDG as [_ N2]; apply NoDup_remove_2 in N2; auto).
  rewrite in_app_iff in NI.
  assert (NPD : forall j, In j done -> j <> k_primary k).
  { intros j J ->. apply NoDup_cons_iff in NDG as [N1 _]. apply N1. rewrite <- PK. apply in_or_app. auto. }
  assert (NPT : forall j, In j todo -> j <> k_primary k).
  { intros j J ->. apply NoDup_cons_iff in NDG as [N1 _]. apply N1. rewrite <- PK. apply in_or_app. simpl; auto. }
  assert (HK : holds_id k key i) by (apply TG; simpl; auto). unfold holds_id in HK.
  destruct (g_abs (grp k i) key) as [v|] eqn:EV; [|congruence]. clear HK.
  assert (II : In i (k_groups k)) by (rewrite GK; simpl; right; apply in_or_app; simpl; auto).
  destruct (move_spec transfer key O II NP EV) as [(E & S1 & SA & OT & PO & PV)|(e & E & S1 & IE & SA & OT)].
  2:{ right. exists e, v. split; [exact E|]. split; [reflexivity|]. auto. }
  left. split; auto. set (k' := fst (move transfer i key k)) in *. inversion ND as [|? ? NK ND']; subst.
  assert (PK' : k_primary k' = k_primary k) by apply S1.
  assert (SAME : forall j, In j done \/ In j todo -> grp k' j = grp k j).
  { intros j J. apply OT; [|destruct J; auto]. intros ->. tauto. }
  assert (IO : forall id, id <> key -> g_abs (grp k' i) id = g_abs (grp k i) id).
  { intros id N. unfold source_after in SA. destruct transfer; [apply SA; auto|now rewrite SA]. }
  assert (HS : forall id, held k' id = held k id).
  { intros id. rewrite (@held_split k' (done ++ i :: todo)), (@held_split k (done ++ i :: todo)) by (rewrite ?(so_groups S1), ?PK', PK; auto).
    destruct (str_dec id key) as [->|N].
    - rewrite PV. destruct (g_abs (k_prim k) key) as [w|] eqn:EP; auto.
      rewrite first_held_skip; [simpl; now rewrite EV|]. intros j J.
      destruct (g_abs (grp k j) key) as [w|] eqn:EJ; auto. exfalso. apply (CO j key J); auto. unfold holds_id. congruence.
    - rewrite PO by auto. destruct (g_abs (k_prim k) id); auto. apply first_held_ext. intros j J.
      apply in_app_or in J as [J|[<-|J]]; [now rewrite SAME by auto|auto|now rewrite SAME by auto]. }
  split.
  - eapply step_ok_trans; eauto.
  - auto.
  - intros id. rewrite HS. apply HE.
  - intros j id J H. unfold holds_id in H. rewrite SAME in H by auto. specialize (CO j id J H).
    destruct (g_abs (k_prim k) id) as [w|] eqn:EP; [|congruence]. rewrite (so_keep S1 _ EP). congruence.
  - auto.
  - intros id J. unfold holds_id. rewrite IO; [apply TG; simpl; auto|]. intros ->. contradiction.
  - intros id H NT. destruct (str_dec id key) as [->|N]; [rewrite PV; congruence|].
    rewrite PO by auto. apply RS; [unfold holds_id in *; now rewrite <- IO|]. intros [<-|J]; congruence.
  - intros j J. rewrite SAME by auto. auto.
  - unfold source_after in SA. destruct transfer.
    + destruct SR as [SR1 SR2]. split.
      * intros j id J. rewrite SAME by auto. auto.
      * intros id NT. destruct (str_dec id key) as [->|N]; [apply SA|]. rewrite IO by auto. apply SR2. intros [<-|J]; congruence.
    + intros j J. destruct (Nat.eq_dec j i) as [->|NJ]; [rewrite SA; auto|]. rewrite OT; [auto|auto|congruence].
  - intros id J. rewrite IO; [apply SM; simpl; auto|]. intros ->. contradiction.
  - intros j id NJ H. apply SH; auto. unfold holds_id in *. destruct (Nat.eq_dec j i) as [->|NJi].
    + destruct (str_dec id key) as [->|N]; [congruence|]. now rewrite <- IO.
    + rewrite <- OT; auto. congruence.
  - intros id H. destruct (str_dec id key) as [->|N].
    + right; right. split; auto. apply SH; [congruence|]. unfold holds_id. congruence.
    + rewrite PO in H by auto. destruct (FR id H) as [A|[A|[A B]]]; auto. right; right. split; auto. intros J. apply B. simpl; auto.
  - intros j J. rewrite OT; auto; intros ->; apply J; rewrite <- (so_groups ST); [auto|apply O].
  - intros j id NJ H. destruct (str_dec id key) as [->|N]; [right; rewrite PV; congruence|]. rewrite PO by auto.
    destruct (GN j id NJ H) as [A|A]; auto. left. unfold holds_id in *. destruct (Nat.eq_dec j i) as [->|NJi]; [now rewrite IO|].
    rewrite OT; auto. congruence.
Qed.
Lemma mid_start transfer k i todo : k_ok k -> k_groups k = k_primary k :: i :: todo -> mid transfer k [] i (g_keys (grp k i)) todo k.
Proof.
  intros O E. assert (I : In i (k_groups k)) by (rewrite E; simpl; auto).
  destruct (proj2 (proj2 O) i I) as [L [W GL]]. split; auto.
  - now apply step_ok_refl.
  - now apply g_keys_nodup.
  - intros id J. now apply g_keys_in in J.
  - intros id H N. exfalso. apply N. now apply g_keys_in.
  - destruct transfer; auto. split; [intros j id []|]. intros id N. rewrite g_keys_in in N.
    destruct (g_abs (grp k i) id); auto. exfalso. apply N. congruence.
Qed.
Lemma mid_next transfer k0 done i j todo k : k_ok k0 -> mid transfer k0 done i [] (j :: todo) k ->
  mid transfer k0 (done ++ [i]) j (g_keys (grp k j)) todo k.
Proof.
  intros O0 [ST GR HE CO ND TG RS TD SR SM SH FR FM GN].
  assert (I : In j (k_groups k)) by (rewrite (so_groups ST), GR; simpl; right; apply in_or_app; simpl; auto).
  destruct (proj2 (proj2 (so_ok ST)) j I) as [L [W GL]]. split; auto.
  - now rewrite <- app_assoc.
  - intros x id J H. apply in_app_or in J as [J|[<-|[]]]; eauto.
  - now apply g_keys_nodup.
  - intros id J. now apply g_keys_in in J.
  - intros id H N. exfalso. apply N. now apply g_keys_in.
  - intros x J. apply TD. simpl; auto.
  - destruct transfer; auto. destruct SR as [S1 S2]. split.
    + intros x id J. apply in_app_or in J as [J|[<-|[]]]; auto.
    + intros id N. rewrite g_keys_in in N. destruct (g_abs (grp k j) id); auto. exfalso. apply N. congruence.
  - intros id _. rewrite TD; simpl; auto.
  - intros id H. destruct (FR id H) as [A|[(x & X & A)|[A _]]]; auto; right; left.
    + exists x. split; auto. apply in_or_app; auto.
    + exists i. split; auto. apply in_or_app; simpl; auto.
Qed.

(** the state in which a move was refused: [key] with value [v] in group [i] *)
Definition refused_at (transfer : bool) (k0 k' : container) (e : exn) : Prop :=
  exists done i key togo todo k v, mid transfer k0 done i (key :: togo) todo k /\ g_abs (grp k i) key = Some v /\
    snd (g_insert key v (k_prim k)) = Err e /\ step_ok k k' /\ source_after transfer (grp k i) (grp k' i) key /\
    (forall j, j <> i -> grp k' j = grp k j).

Lemma move_keys_spec transfer k0 done i todo : forall togo k, mid transfer k0 done i togo todo k ->
  (snd (move_keys transfer i togo k) = Ok tt /\ mid transfer k0 done i [] todo (fst (move_keys transfer i togo k)))
  \/ exists e, snd (move_keys transfer i togo k) = Err e /\ refused_at transfer k0 (fst (move_keys transfer i togo k)) e.
Proof.
  induction togo as [|key togo IH]; intros k M; simpl; auto.
  destruct (mid_move M) as [(E & M')|(e & v & E & EV & IE & S1 & SA & OT)];
    destruct (move transfer i key k) as [k1 r] eqn:EM; simpl in *; subst r.
  - apply IH. exact M'.
  - right. exists e. split; auto. exists done, i, key, togo, todo, k, v. split; [exact M|]. auto 10.
Qed.
Lemma move_groups_spec transfer k0 : k_ok k0 -> forall todo done i k, mid transfer k0 done i (g_keys (grp k i)) todo k ->
  (snd (move_groups transfer (i :: todo) k) = Ok tt /\
   exists done' i', done' ++ [i'] = done ++ i :: todo /\ mid transfer k0 done' i' [] [] (fst (move_groups transfer (i :: todo) k)))
  \/ exists e, snd (move_groups transfer (i :: todo) k) = Err e /\ refused_at transfer k0 (fst (move_groups transfer (i :: todo) k)) e.
Proof.
  intros O. induction todo as [|j todo IH]; intros done i k M; cbn [move_groups];
    destruct (move_keys_spec M) as [(E & M')|(e & E & R)]; destruct (move_keys transfer i (g_keys (grp k i)) k) as [k1 r]; simpl fst in *; simpl snd in *; subst r.
  - left. split; auto. exists done, i. split; [reflexivity|exact M'].
  - right. exists e. auto.
  - destruct (IH (done ++ [i]) j k1 (mid_next O M')) as [(E & d & x & H & M2)|(e & E & R)].
    + left. split; [exact E|]. exists d, x. split; auto. rewrite H, <- app_assoc. reflexivity.
    + right. exists e. auto.
  - right. exists e. auto.
Qed.

(** ** condense *)
Lemma condense_err_or_ok transfer k : k_ok k -> primary_first k ->
  (snd (move_groups transfer (tl (k_groups k)) k) = Ok tt /\ step_ok k (fst (move_groups transfer (tl (k_groups k)) k)) /\
   (forall id, held (fst (move_groups transfer (tl (k_groups k)) k)) id = held k id) /\
   (forall j id, In j (k_groups k) -> holds_id (fst (move_groups transfer (tl (k_groups k)) k)) id j ->
       g_abs (k_prim (fst (move_groups transfer (tl (k_groups k)) k))) id <> None) /\
   (forall j, ~ In j (k_groups k) -> grp (fst (move_groups transfer (tl (k_groups k)) k)) j = grp k j) /\
   (if transfer then forall j id, In j (tl (k_groups k)) -> g_abs (grp (fst (move_groups transfer (tl (k_groups k)) k)) j) id = None
    else forall j, j <> k_primary k -> grp (fst (move_groups transfer (tl (k_groups k)) k)) j = grp k j))
  \/ exists e, snd (move_groups transfer (tl (k_groups k)) k) = Err e /\ refused_at transfer k (fst (move_groups transfer (tl (k_groups k)) k)) e.
Proof.
  intros O (rest & E). rewrite E. simpl tl. destruct rest as [|i todo].
  - left. simpl. split; auto. split; [now apply step_ok_refl|]. split; auto. split.
    + intros j id [<-|[]] H. exact H.
    + split; auto. destruct transfer; [intros j id []|auto].
  - destruct (@move_groups_spec transfer k O todo [] i k (mid_start transfer O E)) as [(EQ & d & x & H & M)|R]; auto.
    left. destruct M as [ST GR HE CO ND TG RS TD SR SM SH FR FM GN]. split; auto. split; auto. split; auto. rewrite GR in E. injection E as E. split.
    + intros j id J HJ. rewrite <- E in J. destruct J as [<-|J].
      * unfold holds_id in HJ. unfold k_prim. now rewrite (so_prim ST).
      * apply in_app_or in J as [J|[<-|[]]]; [eauto|]. apply RS; auto.
    + rewrite GR in FM. rewrite E in FM. split; [exact FM|]. destruct transfer; auto. intros j id J. rewrite <- E in J. destruct SR as [S1 S2].
      apply in_app_or in J as [J|[<-|[]]]; auto.
Qed.
Lemma prim_single k p : k_groups k = [p] -> p = k_primary k -> forall id, held k id = g_abs (k_prim k) id.
Proof. intros E -> id. rewrite (held_split (rest:=[]) _ _ E). destruct (g_abs (k_prim k) id); auto. Qed.
Lemma held_prim k id : primary_first k -> (forall j, In j (k_groups k) -> holds_id k id j -> g_abs (k_prim k) id <> None) -> g_abs (k_prim k) id = held k id.
Proof.
  intros (rest & E) H. rewrite (held_split _ _ E). destruct (g_abs (k_prim k) id) eqn:EP; auto.
  symmetry. rewrite <- (app_nil_r rest), first_held_skip; auto. intros j J.
  destruct (g_abs (grp k j) id) eqn:EJ; auto. exfalso. apply (H j); auto; [rewrite E; simpl; auto|]. unfold holds_id. congruence.
Qed.
Lemma ok_single k : k_ok k -> k_ok (with_groups [k_primary k] k).
Proof.
  intros (ND & IP & ALL). split; [simpl; constructor; [intros []|constructor]|]. split; [simpl; auto|].
  intros i [<-|[]]. apply ALL. exact IP.
Qed.

Lemma condense_transfer k : k_ok k -> primary_first k ->
  (exists k', condense true k = (k', Ok (tl (k_groups k))) /\ k_ok k' /\ k_groups k' = [k_primary k] /\ k_primary k' = k_primary k /\
     (forall id, held k' id = held k id) /\ (forall j id, In j (tl (k_groups k)) -> g_abs (grp k' j) id = None) /\
     map c_max (k_prim k') = map c_max (k_prim k) /\ map c_strict (k_prim k') = map c_strict (k_prim k) /\ length (k_heap k') = length (k_heap k) /\
     (forall j, ~ In j (k_groups k) -> grp k' j = grp k j))
  \/ exists k' e, condense true k = (k', Err e) /\ refused_at true k k' e.
Proof.
  intros O PF. destruct (condense_err_or_ok true O PF) as [(E & ST & HE & CO & FM & SR)|(e & E & R)]; unfold condense;
   destruct (move_groups true (tl (k_groups k)) k) as [k1 r]; simpl fst in *; simpl snd in *; subst r.
  - left. destruct PF as (rest & EG). rewrite (so_groups ST), EG. eexists. split; [simpl; reflexivity|].
    rewrite <- (so_prim ST). split; [apply ok_single, ST|]. split; auto. split; auto. split.
    + intros id. rewrite (@prim_single _ (k_primary k1)); auto. rewrite <- HE. change (g_abs (k_prim k1) id = held k1 id).
      apply held_prim; [exists rest; rewrite (so_groups ST), EG, (so_prim ST); auto|].
      intros j J H. apply CO with (j := j); auto. now rewrite <- (so_groups ST).
    + split; [intros j id J; apply SR; rewrite EG; exact J|]. split; [apply (so_meta ST)|]. split; [apply (so_meta ST)|]. split; [apply ST|]. intros j J; apply FM; rewrite EG, <- (so_prim ST); exact J.
  - right. exists k1, e. auto.
Qed.
Lemma condense_copy k : k_ok k -> primary_first k ->
  (exists k', condense false k = (k', Ok []) /\ k_ok k' /\ k_groups k' = k_groups k /\ k_primary k' = k_primary k /\
     (forall id, g_abs (k_prim k') id = held k id) /\ (forall j, j <> k_primary k -> grp k' j = grp k j) /\
     map c_max (k_prim k') = map c_max (k_prim k) /\ map c_strict (k_prim k') = map c_strict (k_prim k) /\ length (k_heap k') = length (k_heap k) /\
     (forall j, ~ In j (k_groups k) -> grp k' j = grp k j))
  \/ exists k' e, condense false k = (k', Err e) /\ refused_at false k k' e.
Proof.
  intros O PF. destruct (condense_err_or_ok false O PF) as [(E & ST & HE & CO & FM & SR)|(e & E & R)]; unfold condense;
   destruct (move_groups false (tl (k_groups k)) k) as [k1 r]; simpl fst in *; simpl snd in *; subst r.
  - left. exists k1. split; auto. split; [apply ST|]. split; [apply ST|]. split; [apply ST|]. split.
    + intros id. rewrite <- HE. destruct PF as (rest & EG). apply held_prim; [exists rest; rewrite (so_groups ST), EG, (so_prim ST); auto|].
      intros j J H. apply CO with (j := j); auto. now rewrite <- (so_groups ST).
    + split; [exact SR|]. split; [apply (so_meta ST)|]. split; [apply (so_meta ST)|]. split; [apply ST|]. exact FM.
  - right. exists k1, e. auto.
Qed.
Lemma relaxed_never_refuses transfer k k' e : k_ok k -> relaxed (k_prim k) -> ~ refused_at transfer k k' e.
Proof.
  intros O R (done & i & key & togo & todo & k1 & v & M & EV & IE & _).
  pose proof (m_step M) as ST. assert (R1 : relaxed (k_prim k1)).
  { apply relaxed_map. rewrite (proj2 (so_meta ST)). now apply relaxed_map. }
  assert (I : In i (k_groups k1)) by (rewrite (so_groups ST), (m_groups M); simpl; right; apply in_or_app; simpl; auto).
  destruct (proj2 (proj2 (so_ok ST)) i I) as [_ Gi].
  destruct (proj2 (proj2 (so_ok ST)) _ (proj1 (proj2 (so_ok ST)))) as [_ Gp].
  destruct (relaxed_insert_ok v Gp R1 (held_encodable key Gi EV)) as (z & Z). fold (k_prim k1) in Z. congruence.
Qed.

(** what a refused condense leaves behind *)
Lemma refused_effect transfer k k' e : k_ok k -> refused_at transfer k k' e ->
  exists i key v, In i (tl (k_groups k)) /\ g_abs (grp k i) key = Some v /\ k_ok k' /\ k_groups k' = k_groups k /\ k_primary k' = k_primary k /\
    (if transfer then g_abs (grp k' i) key = None else grp k' i = grp k i) /\
    (forall id, id <> key -> held k' id = held k id) /\
    (transfer = false -> forall id, held k' id = held k id) /\
    ((forall j, In j (k_groups k) -> j <> i -> g_abs (grp k j) key = None) -> transfer = true -> held k' key = None) /\
    snd (g_insert key v (k_prim k')) = Err e.
Proof.
  intros O (done & i & key & togo & todo & k1 & v & M & EV & IE & ST & SA & OT).
  destruct M as [ST0 GR HE CO ND TG RS TD SR SM SH FR FM GN].
  assert (GK : k_groups k1 = k_primary k1 :: done ++ i :: todo) by (rewrite (so_groups ST0), (so_prim ST0); auto).
  assert (NDG : NoDup (k_groups k1)) by apply (so_ok ST0). rewrite GK in NDG. apply NoDup_cons_iff in NDG as [NP N2].
  assert (NP' : i <> k_primary k1) by (intros X; apply NP; rewrite <- X; apply in_or_app; simpl; auto).
  assert (PE : k_prim k' = k_prim k1) by (unfold k_prim; rewrite (so_prim ST); apply OT; auto).
  assert (GK' : k_groups k' = k_primary k' :: done ++ i :: todo) by (rewrite (so_groups ST), (so_prim ST); auto).
  assert (IO : forall id, id <> key -> g_abs (grp k' i) id = g_abs (grp k1 i) id).
  { intros id N. unfold source_after in SA. destruct transfer; [apply SA; auto|now rewrite SA]. }
  assert (NI : ~ In i (done ++ todo)) by (apply NoDup_remove_2 in N2; auto).
  exists i, key, v. split; [rewrite GR; simpl; apply in_or_app; simpl; auto|].
  split; [rewrite <- SM; simpl; auto|]. split; [apply ST|].
  split; [now rewrite (so_groups ST), (so_groups ST0)|]. split; [now rewrite (so_prim ST), (so_prim ST0)|].
  split.
  { unfold source_after in SA. destruct transfer; [apply SA|]. rewrite SA. apply SR. rewrite <- (so_prim ST0). auto. }
  split.
  { intros id N. rewrite <- HE, (held_split _ _ GK), (held_split _ _ GK'), PE. destruct (g_abs (k_prim k1) id); auto.
    apply first_held_ext. intros j J. destruct (Nat.eq_dec j i) as [->|NJ]; auto. now rewrite OT. }
  split.
  { intros -> id. rewrite <- HE, (held_split _ _ GK), (held_split _ _ GK'), PE. destruct (g_abs (k_prim k1) id); auto.
    apply first_held_ext. intros j J. destruct (Nat.eq_dec j i) as [->|NJ]; [now rewrite SA|now rewrite OT]. }
  split.
  { intros H ->. rewrite (held_split _ _ GK'), PE. destruct (g_abs (k_prim k1) key) as [w|] eqn:EP.
    - exfalso. destruct (FR key) as [A|[(j & J & A)|[A B]]]; [congruence| | |].
      + apply A. apply H; [apply O|]. rewrite <- (so_prim ST0); auto.
      + apply A. apply H; [rewrite GR; simpl; right; apply in_or_app; auto|]. intros ->. apply NI. apply in_or_app; auto.
      + apply B. simpl; auto.
    - rewrite <- (app_nil_r (done ++ i :: todo)), first_held_skip; auto. intros j J.
      destruct (Nat.eq_dec j i) as [->|NJ]; [apply SA|]. rewrite OT by auto.
      destruct (g_abs (grp k1 j) key) eqn:EJ; auto. exfalso. apply (SH j key); [|unfold holds_id; congruence|].
      + intros ->. apply NP. now rewrite (so_prim ST0).
      + apply H; auto. rewrite GR. simpl; auto. }
  now rewrite PE.
Qed.
