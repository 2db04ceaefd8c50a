(** condense and resize with a transaction manager *)
From Verif Require Import Base BaseFacts Value BTree BTreeFacts Float53 Utils UtilsFacts Collection SpecMap CollectionFacts Group RoutingFacts GroupFacts GroupCapFacts GroupNewFacts StorageThms Container ContainerFacts CondenseFacts ResizeFacts ContainerThms ContainerTx.
Set Implicit Arguments.

(** nothing pending *)
Definition clean (k : container) (t : tx) : Prop := t_work t = k /\ t_saved t = k.
(** a state that keeps every object of [k0] *)
Definition keeps (k0 d : container) : Prop := k_ok d /\ primary_first d /\ forall id, held d id = held k0 id.

Lemma keeps_refl k : k_ok k -> primary_first k -> keeps k k.
Proof. intros O P. split; auto. Qed.
Lemma mid_keeps transfer k0 done i togo todo k : mid transfer k0 done i togo todo k -> keeps k0 k.
Proof.
  intros M. split; [apply (m_step M)|]. split; [|apply (m_held M)].
  exists (done ++ i :: todo). now rewrite (so_groups (m_step M)), (so_prim (m_step M)), (m_groups M).
Qed.

Lemma tx_keys_spec b transfer k0 done i todo : forall togo n t t' n' r, mid transfer k0 done i togo todo (t_work t) ->
  tx_keys b transfer i togo n t = (t', n', r) ->
  (forall d, In d (durable t') -> In d (durable t) \/ keeps k0 d) /\
  (r = Ok tt -> mid transfer k0 done i [] todo (t_work t')) /\
  (forall e, r = Err e -> refused_at transfer k0 (t_work t') e \/ exists m, b m = CRaise e).
Proof.
  induction togo as [|key togo IH]; intros n t t' n' r M E; cbn [tx_keys] in E.
  - injection E as <- <- <-. split; auto. split; auto. discriminate.
  - destruct (mid_move M) as [(EM & M')|(e & v & EM & EV & IE & S1 & SA & OT)];
      destruct (move transfer i key (t_work t)) as [k1 r1] eqn:MV; simpl fst in *; simpl snd in *; subst r1.
    + destruct (b n) as [| |e] eqn:B; cbn [call_commit] in E.
      * destruct (IH _ (tx_commit (tx_put k1 t)) t' n' r M' E) as (D & O & X). split; auto.
        intros d I. destruct (D d I) as [[<-|J]|K]; auto. right. apply (mid_keeps M').
      * destruct (IH _ (tx_put k1 t) t' n' r M' E) as (D & O & X). split; auto.
      * injection E as <- <- <-. split; auto. split; [discriminate|]. intros e0 E0. injection E0 as <-. right. eauto.
    + injection E as <- <- <-. split; auto. split; [discriminate|]. intros e0 E0. injection E0 as <-. left.
      exists done, i, key, togo, todo, (t_work t), v. split; [exact M|]. auto 10.
Qed.
Lemma tx_groups_spec b transfer k0 stop : k_ok k0 -> forall todo done i n t t' n' r, mid transfer k0 done i (g_keys (grp (t_work t) i)) (todo ++ stop) (t_work t) ->
  tx_groups b transfer (i :: todo) n t = (t', n', r) ->
  (forall d, In d (durable t') -> In d (durable t) \/ keeps k0 d) /\
  (r = Ok tt -> exists done' i', done' ++ [i'] = done ++ i :: todo /\ mid transfer k0 done' i' [] stop (t_work t')) /\
  (forall e, r = Err e -> refused_at transfer k0 (t_work t') e \/ exists m, b m = CRaise e).
Proof.
  intros O. induction todo as [|j todo IH]; intros done i n t t' n' r M E; cbn [tx_groups] in E;
    destruct (tx_keys b transfer i (g_keys (grp (t_work t) i)) n t) as [[t1 n1] r1] eqn:EK;
    destruct (tx_keys_spec b n t M EK) as (D & OK & X); destruct r1 as [[]|e].
  - injection E as <- <- <-. split; auto. split; [|discriminate]. intros _. exists done, i. split; auto.
  - injection E as <- <- <-. split; auto. split; [discriminate|]. exact X.
  - destruct (IH (done ++ [i]) j n1 t1 t' n' r (mid_next O (OK eq_refl)) E) as (D2 & OK2 & X2). split; [|split; auto].
    + intros d I. destruct (D2 d I) as [J|J]; auto.
    + intros ER. destruct (OK2 ER) as (d' & i' & H & M2). exists d', i'. split; auto. rewrite H, <- app_assoc. reflexivity.
  - injection E as <- <- <-. split; auto. split; [discriminate|]. exact X.
Qed.

Lemma cut_keeps k0 k : k_ok k0 -> keeps k0 k -> (forall id, g_abs (k_prim k) id = held k id) -> keeps k0 (with_groups [k_primary k] k).
Proof.
  intros O (OK & (rest & E) & H) P. split; [now apply ok_single|]. split; [exists []; reflexivity|].
  intros id. rewrite (@prim_single _ (k_primary k)); auto. change (g_abs (k_prim k) id = held k0 id). now rewrite P.
Qed.

(** the first block: everything is moved or copied *)
Lemma condense_block b transfer k t : k_ok k -> primary_first k -> clean k t ->
  forall t1 r, with_block (fun t => let '(t1, _, r) := tx_groups b transfer (tl (k_groups k)) 0%nat t in (t1, r)) t = (t1, r) ->
  (forall d, In d (durable t1) -> In d (durable t) \/ keeps k d) /\ t_work t1 = t_saved t1 /\
  (r = Ok tt -> keeps k (t_work t1) /\ k_groups (t_work t1) = k_groups k /\ k_primary (t_work t1) = k_primary k /\
     (forall id, g_abs (k_prim (t_work t1)) id = held k id) /\
     (if transfer then forall j id, In j (tl (k_groups k)) -> g_abs (grp (t_work t1) j) id = None
      else forall j, j <> k_primary k -> grp (t_work t1) j = grp k j)) /\
  (forall e, r = Err e -> (exists k', refused_at transfer k k' e) \/ exists m, b m = CRaise e).
Proof.
  intros O PF (CW & CS) t1 r E. unfold with_block in E. pose proof PF as (rest & EG). rewrite EG in E. simpl tl in E.
  assert (AW : t_work (tx_abort t) = k) by exact CS. assert (AD : durable (tx_abort t) = durable t) by reflexivity.
  destruct rest as [|i todo].
  - simpl in E. injection E as <- <-. split.
    + intros d [<-|I]; auto. right. simpl. rewrite CS. now apply keeps_refl.
    + split; auto. split; [|discriminate]. intros _. simpl. rewrite CS. split; [now apply keeps_refl|]. split; auto. split; auto. split.
      * intros id. symmetry. apply (prim_single _ EG). reflexivity.
      * rewrite EG. destruct transfer; auto. intros j id [].
  - destruct (tx_groups b transfer (i :: todo) 0%nat (tx_abort t)) as [[t2 n2] r2] eqn:ET.
    assert (M0 : mid transfer k [] i (g_keys (grp (t_work (tx_abort t)) i)) (todo ++ []) (t_work (tx_abort t))).
    { rewrite AW, app_nil_r. now apply mid_start. }
    destruct (@tx_groups_spec b transfer k [] O todo [] i 0%nat (tx_abort t) t2 n2 r2 M0 ET) as (D & OK & X). rewrite AD in D.
    destruct r2 as [[]|e]; injection E as <- <-.
    + destruct (OK eq_refl) as (done & i' & H & M). simpl in H. pose proof (mid_keeps M) as KP.
      assert (GW : k_groups (t_work t2) = k_groups k) by apply (m_step M). assert (PW : k_primary (t_work t2) = k_primary k) by apply (m_step M).
      split; [intros d [<-|I]; auto|]. split; auto. split; [|discriminate]. intros _. simpl. split; auto. split; auto. split; auto. split.
      * intros id. rewrite <- (m_held M). apply held_prim; [exists (i :: todo); now rewrite GW, PW|].
        intros j J HJ. rewrite GW, EG in J. destruct J as [<-|J]; [unfold holds_id in HJ; unfold k_prim; now rewrite PW|].
        rewrite <- H in J. apply in_app_or in J as [J|[<-|[]]]; [apply (m_cover M J HJ)|apply (m_rest M); auto].
      * pose proof (m_src M) as SR. destruct transfer; auto. intros j id J. rewrite EG in J. cbn [tl] in J. rewrite <- H in J.
        destruct SR as [S1 S2]. apply in_app_or in J as [J|[<-|[]]]; auto.
    + split; [exact D|]. split; auto. split; [discriminate|]. intros e0 E0. injection E0 as <-. destruct (X e eq_refl) as [X1|X1]; eauto.
Qed.

Lemma condense_tx_spec b1 b2 transfer k t : k_ok k -> primary_first k -> clean k t ->
  forall t' r, condense_tx b1 b2 transfer t = (t', r) ->
  (forall d, In d (durable t') -> In d (durable t) \/ keeps k d) /\ t_work t' = t_saved t' /\
  (forall l, r = Ok l -> (forall id, g_abs (k_prim (t_work t')) id = held k id) /\
     k_groups (t_work t') = (if transfer then [k_primary k] else k_groups k) /\ k_primary (t_work t') = k_primary k /\
     l = (if transfer then tl (k_groups k) else []) /\
     (if transfer then forall j id, In j l -> g_abs (grp (t_work t') j) id = None else forall j, j <> k_primary k -> grp (t_work t') j = grp k j)) /\
  (forall e, r = Err e -> (exists k', refused_at transfer k k' e) \/ (exists m, b1 m = CRaise e) \/ b2 0%nat = CRaise e).
Proof.
  intros O PF C t' r E. unfold condense_tx in E. rewrite (proj1 C) in E.
  destruct (with_block (fun t => let '(t1, _, r) := tx_groups b1 transfer (tl (k_groups k)) 0%nat t in (t1, r)) t) as [t1 r1] eqn:EB.
  destruct (condense_block b1 transfer O PF C EB) as (D & CL & OK & X). destruct r1 as [[]|e].
  2:{ injection E as <- <-. split; auto. split; auto. split; [discriminate|]. intros e0 E0. injection E0 as <-. destruct (X e eq_refl) as [?|?]; auto. }
  destruct (OK eq_refl) as (KP & G & P & HP & SR). destruct transfer.
  2:{ injection E as <- <-. split; auto. split; auto. split; [|discriminate]. intros l L. injection L as <-. auto 10. }
  destruct PF as (rest & EG). unfold with_block in E.
  assert (WA : t_work (tx_abort t1) = t_work t1) by (simpl; auto). rewrite WA, G, EG in E.
  set (kc := with_groups [k_primary k] (t_work t1)) in *.
  assert (KC : keeps k kc).
  { unfold kc. rewrite <- P. apply cut_keeps; auto. intros id. rewrite HP. symmetry. apply KP. }
  assert (D0 : forall d, In d (durable (tx_put kc (tx_abort t1))) -> In d (durable t) \/ keeps k d) by exact D.
  destruct (b2 0%nat) as [| |e] eqn:B; cbn [call_commit] in E; injection E as <- <-.
  - split; [intros d [<-|[<-|I]]; auto|]. split; auto. split; [|discriminate]. intros l L. injection L as <-.
    simpl t_work. split; [exact HP|]. split; [reflexivity|]. split; [exact P|]. rewrite EG. split; auto. intros j id J. apply SR. rewrite EG. exact J.
  - split; [intros d [<-|I]; auto|]. split; auto. split; [|discriminate]. intros l L. injection L as <-.
    simpl t_work. split; [exact HP|]. split; [reflexivity|]. split; [exact P|]. rewrite EG. split; auto. intros j id J. apply SR. rewrite EG. exact J.
  - split; [exact D|]. split; auto. split; [discriminate|]. intros e0 E0. injection E0 as <-. auto.
Qed.

(** ** one commit per object *)
(** consecutive durable states (newest first) are equal, or differ by the move of one object, or by the final removal
    of the emptied groups *)
Definition small_step (transfer : bool) (d d' : container) : Prop :=
  d' = d \/ (exists i key, move transfer i key d = (d', Ok tt)) \/ (exists p rest, k_groups d = p :: rest /\ d' = with_groups [p] d).
Fixpoint linked (R : container -> container -> Prop) (l : list container) : Prop :=
  match l with
  | d' :: ((d :: _) as l') => R d d' /\ linked R l'
  | _ => True
  end.
Definition always_commits (b : nat -> cbeh) : Prop := forall n, b n = CCommit.

Lemma tx_keys_linked b transfer i keys : always_commits b -> forall n t t' n' r, t_work t = t_saved t -> linked (small_step transfer) (durable t) ->
  tx_keys b transfer i keys n t = (t', n', r) ->
  linked (small_step transfer) (durable t') /\ (r = Ok tt -> t_work t' = t_saved t' /\ length (t_past t') = (length (t_past t) + length keys)%nat).
Proof.
  intros B. induction keys as [|key keys IH]; intros n t t' n' r CL L E; cbn [tx_keys] in E.
  - injection E as <- <- <-. split; auto.
  - destruct (move transfer i key (t_work t)) as [k1 [[]|e]] eqn:MV.
    + rewrite (B n) in E. cbn [call_commit] in E. destruct (IH (S n) (tx_commit (tx_put k1 t)) t' n' r) as [L' OK]; auto.
      * simpl. split; auto. right. left. exists i, key. congruence.
      * split; auto. intros R. destruct (OK R) as [W LN]. split; auto. rewrite LN. simpl. lia.
    + injection E as <- <- <-. split; auto. discriminate.
Qed.
Lemma tx_groups_linked b transfer src : always_commits b -> forall n t t' n' r, t_work t = t_saved t -> linked (small_step transfer) (durable t) ->
  tx_groups b transfer src n t = (t', n', r) ->
  linked (small_step transfer) (durable t') /\ (r = Ok tt -> t_work t' = t_saved t').
Proof.
  intros B. induction src as [|i src IH]; intros n t t' n' r CL L E; cbn [tx_groups] in E.
  - injection E as <- <- <-. auto.
  - destruct (tx_keys b transfer i (g_keys (grp (t_work t) i)) n t) as [[t1 n1] r1] eqn:EK.
    destruct (tx_keys_linked transfer i _ B _ _ CL L EK) as [L1 OK]. destruct r1 as [[]|e].
    + destruct (OK eq_refl) as [CL1 _]. eapply IH; eauto.
    + injection E as <- <- <-. split; auto. discriminate.
Qed.
Lemma linked_commit (R : container -> container -> Prop) t : (forall d, R d d) -> t_work t = t_saved t -> linked R (durable t) -> linked R (durable (tx_commit t)).
Proof. intros RR W L. simpl. split; auto. rewrite W. auto. Qed.
Lemma condense_tx_linked b1 b2 transfer k t : always_commits b1 -> always_commits b2 -> clean k t -> linked (small_step transfer) (durable t) ->
  linked (small_step transfer) (durable (fst (condense_tx b1 b2 transfer t))).
Proof.
  intros B1 B2 (CW & CS) L. assert (RR : forall d, small_step transfer d d) by (left; auto). unfold condense_tx, with_block.
  destruct (tx_groups b1 transfer (tl (k_groups (t_work t))) O (tx_abort t)) as [[t1 n1] r1] eqn:ET.
  destruct (tx_groups_linked transfer _ B1 O (tx_abort t) eq_refl L ET) as [L1 OK]. destruct r1 as [[]|e]; [|exact L1].
  specialize (OK eq_refl). pose proof (@linked_commit (small_step transfer) t1 RR OK L1) as L2. destruct transfer; [|exact L2].
  simpl t_work. rewrite OK. destruct (k_groups (t_saved t1)) as [|p rest] eqn:EG; [exact L2|].
  rewrite (B2 O). simpl. simpl in L2. rewrite OK in *. split; auto. split; [right; right; exists p, rest; split; [exact EG|reflexivity]|exact L2].
Qed.

(** ** the transaction object as the package has it: its second [commit()] raises *)
Definition one_shot (e : exn) (b : nat -> cbeh) : Prop := b O = CCommit /\ forall n, b (S n) = CRaise e.
Definition to_move (k : container) : nat := length (flat_map (fun i => g_keys (grp k i)) (tl (k_groups k))).

Lemma tx_groups_spent b e transfer k0 : k_ok k0 -> relaxed (k_prim k0) -> one_shot e b -> forall todo done i n t,
  mid transfer k0 done i (g_keys (grp (t_work t) i)) todo (t_work t) -> flat_map (fun j => g_keys (grp k0 j)) todo <> [] \/ g_keys (grp (t_work t) i) <> [] ->
  exists t' n', tx_groups b transfer (i :: todo) (S n) t = (t', n', Err e) /\ t_saved t' = t_saved t /\ t_past t' = t_past t.
Proof.
  intros O RX (B0 & B1). induction todo as [|j todo IH]; intros done i n t M H; cbn [tx_groups].
  - destruct (g_keys (grp (t_work t) i)) as [|key keys] eqn:EK; [simpl in H; destruct H; congruence|].
    cbn [tx_keys]. destruct (mid_move M) as [(EM & M')|(e0 & v & EM & EV & IE & S1 & SA & OT)].
    + destruct (move transfer i key (t_work t)) as [k1 r1]. simpl in EM. subst r1. rewrite B1. cbn [call_commit]. eauto.
    + exfalso. eapply (@relaxed_never_refuses transfer k0); eauto. exists done, i, key, keys, [], (t_work t), v. split; [exact M|]. eauto 10.
  - destruct (g_keys (grp (t_work t) i)) as [|key keys] eqn:EK.
    + cbn [tx_keys]. pose proof (mid_next O M) as M1. apply (IH (done ++ [i]) j n t M1).
      assert (EJ : grp (t_work t) j = grp k0 j) by (apply (m_todo M); simpl; auto). rewrite EJ.
      destruct H as [H|H]; [|congruence]. simpl in H. destruct (g_keys (grp k0 j)); [left; exact H|right; discriminate].
    + cbn [tx_keys]. destruct (mid_move M) as [(EM & M')|(e0 & v & EM & EV & IE & S1 & SA & OT)].
      * destruct (move transfer i key (t_work t)) as [k1 r1]. simpl in EM. subst r1. rewrite B1. cbn [call_commit]. eauto.
      * exfalso. eapply (@relaxed_never_refuses transfer k0); eauto. exists done, i, key, keys, (j :: todo), (t_work t), v. split; [exact M|]. eauto 10.
Qed.
Lemma tx_groups_one_shot b e transfer k0 : k_ok k0 -> relaxed (k_prim k0) -> one_shot e b -> forall todo done i t,
  t_work t = k0 -> mid transfer k0 done i (g_keys (grp (t_work t) i)) todo (t_work t) ->
  (2 <= length (flat_map (fun j => g_keys (grp k0 j)) (i :: todo)))%nat ->
  exists t' n' j key, tx_groups b transfer (i :: todo) O t = (t', n', Err e) /\ In j (i :: todo) /\ In key (g_keys (grp k0 j)) /\
    t_saved t' = fst (move transfer j key k0) /\ t_past t' = durable t.
Proof.
  intros O RX OS. induction todo as [|x todo IH]; intros done i t W M H.
  - pose proof M as MM. rewrite W in M. cbn [flat_map] in H. rewrite app_nil_r in H. cbn [tx_groups]. rewrite W.
    destruct (g_keys (grp k0 i)) as [|key [|key2 keys]] eqn:EK; [simpl in H; lia|simpl in H; lia|]. cbn [tx_keys]. rewrite W.
    destruct (mid_move M) as [(EM & M')|(e0 & v & EM & EV & IE & S1 & SA & OT)].
    2:{ exfalso. eapply (@relaxed_never_refuses transfer k0); eauto. exists done, i, key, (key2 :: keys), [], k0, v. split; [exact M|]. eauto 10. }
    destruct (move transfer i key k0) as [k1 r1] eqn:MV. simpl in EM. subst r1. rewrite (proj1 OS). cbn [call_commit].
    simpl fst in M'. simpl t_work. destruct (mid_move M') as [(EM & M2)|(e0 & v & EM & EV & IE & S1 & SA & OT)].
    2:{ exfalso. eapply (@relaxed_never_refuses transfer k0); eauto. exists done, i, key2, keys, [], k1, v. split; [exact M'|]. eauto 10. }
    destruct (move transfer i key2 k1) as [k2 r2]. simpl in EM. subst r2. rewrite (proj2 OS). cbn [call_commit].
    eexists _, _, i, key. split; [reflexivity|]. split; [simpl; auto|]. rewrite EK. split; [simpl; auto|]. rewrite MV. simpl. auto.
  - pose proof M as MM. rewrite W in M. cbn [flat_map] in H. cbn [tx_groups]. rewrite W.
    destruct (g_keys (grp k0 i)) as [|key keys] eqn:EK.
    + cbn [tx_keys]. pose proof (mid_next O M) as M1. rewrite <- W in M1 at 2 3. destruct (IH (done ++ [i]) x t W M1 H) as (t' & n' & j & ky & E & I1 & I2 & S1 & P1).
      exists t', n', j, ky. split; [exact E|]. split; [simpl; auto|]. auto.
    + cbn [tx_keys]. rewrite W. destruct (mid_move M) as [(EM & M')|(e0 & v & EM & EV & IE & S1 & SA & OT)].
      2:{ exfalso. eapply (@relaxed_never_refuses transfer k0); eauto. exists done, i, key, keys, (x :: todo), k0, v. split; [exact M|]. eauto 10. }
      destruct (move transfer i key k0) as [k1 r1] eqn:MV. simpl in EM. subst r1. rewrite (proj1 OS). cbn [call_commit]. simpl fst in M'.
      destruct keys as [|key2 keys].
      * cbn [tx_keys]. set (t1 := tx_commit (tx_put k1 t)).
        assert (M1 : mid transfer k0 (done ++ [i]) x (g_keys (grp (t_work t1) x)) todo (t_work t1)) by (exact (mid_next O M')).
        assert (GX : grp (t_work t1) x = grp k0 x) by (apply (m_todo M'); simpl; auto).
        destruct (@tx_groups_spent b e transfer k0 O RX OS todo (done ++ [i]) x 0%nat t1 M1) as (t' & n' & E & S1 & P1).
        { rewrite GX. simpl in H. rewrite app_length in H. destruct (g_keys (grp k0 x)); [left; intros Z; rewrite Z in H; simpl in H; lia|right; discriminate]. }
        cbn [tx_groups] in E. rewrite E. exists t', n', i, key. split; auto. split; [simpl; auto|]. rewrite EK. split; [simpl; auto|].
        rewrite MV, S1, P1. auto.
      * cbn [tx_keys]. simpl t_work. destruct (mid_move M') as [(EM & M2)|(e0 & v & EM & EV & IE & S1 & SA & OT)].
        2:{ exfalso. eapply (@relaxed_never_refuses transfer k0); eauto. exists done, i, key2, keys, (x :: todo), k1, v. split; [exact M'|]. eauto 10. }
        destruct (move transfer i key2 k1) as [k2 r2]. simpl in EM. subst r2. rewrite (proj2 OS). cbn [call_commit].
        eexists _, _, i, key. split; [reflexivity|]. split; [simpl; auto|]. rewrite EK. split; [simpl; auto|]. rewrite MV. simpl. auto.
Qed.
Lemma condense_tx_one_shot b1 b2 e transfer k t : k_ok k -> primary_first k -> relaxed (k_prim k) -> clean k t -> one_shot e b1 -> (2 <= to_move k)%nat ->
  exists t' i key, condense_tx b1 b2 transfer t = (t', Err e) /\ In i (tl (k_groups k)) /\ In key (g_keys (grp k i)) /\
    t_work t' = fst (move transfer i key k) /\ durable t' = fst (move transfer i key k) :: durable t.
Proof.
  intros O (rest & EG) RX (CW & CS) OS H. unfold condense_tx, with_block. rewrite CW. unfold to_move in H. rewrite EG in *. simpl tl in *.
  destruct rest as [|i todo]; [simpl in H; lia|]. assert (AW : t_work (tx_abort t) = k) by exact CS.
  assert (M : mid transfer k [] i (g_keys (grp (t_work (tx_abort t)) i)) todo (t_work (tx_abort t))) by (rewrite AW; now apply mid_start).
  destruct (@tx_groups_one_shot b1 e transfer k O RX OS todo [] i (tx_abort t) AW M H) as (t' & n' & j & key & E & I1 & I2 & S1 & P1).
  rewrite E. exists (tx_abort t'), j, key. split; auto. split; auto. split; auto. split; [exact S1|]. unfold durable. simpl. rewrite S1, P1. reflexivity.
Qed.

(** ** resize with a transaction manager *)
Definition never_raises (b : nat -> cbeh) : Prop := forall n e, b n <> CRaise e.

Lemma push_block b g t k : never_raises b -> clean k t ->
  exists t1, with_block (fun t => call_commit (b O) (tx_put (push_primary g (t_work t)) t)) t = (t1, Ok tt) /\ clean (push_primary g k) t1 /\
    forall d, In d (durable t1) -> In d (durable t) \/ d = push_primary g k.
Proof.
  intros B (CW & CS). unfold with_block. assert (AW : t_work (tx_abort t) = k) by exact CS. rewrite AW.
  destruct (b O) as [| |e] eqn:E; cbn [call_commit]; [| |exfalso; eapply B; eauto].
  - eexists. split; [reflexivity|]. split; [split; reflexivity|]. intros d [<-|[<-|[<-|I]]]; simpl; auto.
  - eexists. split; [reflexivity|]. split; [split; reflexivity|]. intros d [<-|[<-|I]]; simpl; auto.
Qed.

(** condense called by resize with condense=False: the group list cut to two was never committed, so the block starts from
    the full list [p :: a :: secs], while the source groups are just [a] *)
Lemma short_condense b1 b2 transfer k a secs t : k_ok k -> k_groups k = k_primary k :: a :: secs -> relaxed (k_prim k) -> never_raises b1 -> never_raises b2 ->
  t_saved t = k -> t_work t = with_groups [k_primary k; a] k ->
  exists t' l, condense_tx b1 b2 transfer t = (t', Ok l) /\ t_work t' = t_saved t' /\ k_ok (t_work t') /\
    (forall id, g_abs (k_prim (t_work t')) id = match g_abs (k_prim k) id with Some w => Some w | None => g_abs (grp k a) id end) /\
    k_primary (t_work t') = k_primary k /\ (forall j, In j secs -> grp (t_work t') j = grp k j) /\
    (if transfer then k_groups (t_work t') = [k_primary k] /\ l = a :: secs /\ forall id, g_abs (grp (t_work t') a) id = None
     else k_groups (t_work t') = k_groups k /\ l = [] /\ grp (t_work t') a = grp k a).
Proof.
  intros OK EG RX B1 B2 TS TW. unfold condense_tx. rewrite TW. change (tl (k_groups (with_groups [k_primary k; a] k))) with [a].
  assert (AW : t_work (tx_abort t) = k) by exact TS. unfold with_block at 1.
  destruct (tx_groups b1 transfer [a] O (tx_abort t)) as [[t1 n1] r1] eqn:ET.
  assert (M0 : mid transfer k [] a (g_keys (grp (t_work (tx_abort t)) a)) ([] ++ secs) (t_work (tx_abort t))) by (rewrite AW; now apply mid_start).
  destruct (@tx_groups_spec b1 transfer k secs OK [] [] a O (tx_abort t) t1 n1 r1 M0 ET) as (_ & S1 & X).
  destruct r1 as [[]|e].
  2:{ exfalso. destruct (X e eq_refl) as [R|(m & R)]; [eapply relaxed_never_refuses; eauto|eapply B1; eauto]. }
  destruct (S1 eq_refl) as (d' & i' & H & M). simpl in H. assert (d' = [] /\ i' = a) as [-> ->].
  { destruct d' as [|x d']; simpl in H; [split; congruence|]. injection H as _ H. destruct d'; discriminate. }
  assert (ND : NoDup (k_groups k)) by apply OK. rewrite EG in ND. apply NoDup_cons_iff in ND as [NP ND]. apply NoDup_cons_iff in ND as [NA ND].
  assert (G : k_groups (t_work t1) = k_primary k :: a :: secs) by (rewrite (so_groups (m_step M)); exact EG).
  assert (P : k_primary (t_work t1) = k_primary k) by apply (m_step M).
  assert (HP : forall id, g_abs (k_prim (t_work t1)) id = match g_abs (k_prim k) id with Some w => Some w | None => g_abs (grp k a) id end).
  { intros id. destruct (g_abs (k_prim k) id) as [w|] eqn:EP; [now apply (so_keep (m_step M))|].
    pose proof (m_held M id) as HE. rewrite (@held_split (t_work t1) (a :: secs)) in HE by (rewrite P; exact G). rewrite (held_split _ _ EG), EP in HE. simpl in HE.
    destruct (g_abs (k_prim (t_work t1)) id) as [w|] eqn:EW.
    - destruct (m_from M id) as [A|[(j & [] & _)|[A _]]]; [congruence|congruence|]. unfold holds_id in A.
      destruct (g_abs (grp k a) id); [congruence|contradiction].
    - destruct (g_abs (grp k a) id) as [w|] eqn:EA; auto. exfalso.
      destruct (m_gone M (j := a) (id := id)) as [Y|Y]; [intros ->; apply NP; simpl; auto|unfold holds_id; congruence| |congruence].
      apply (m_rest M Y); auto. }
  assert (SE : forall j, In j secs -> grp (t_work t1) j = grp k j) by apply (m_todo M).
  destruct transfer.
  - simpl t_work. rewrite G. unfold with_block. assert (WA : t_work (tx_abort (tx_commit t1)) = t_work t1) by reflexivity. rewrite WA, G.
    pose proof (m_src M) as (_ & SA).
    destruct (b2 O) as [| |e] eqn:E2; cbn [call_commit]; [| |exfalso; eapply B2; eauto];
      (eexists _, _; split; [reflexivity|]; split; [reflexivity|]; split; [rewrite <- P; apply ok_single, (so_ok (m_step M))|]; split; [exact HP|]; split; [exact P|]; split; [exact SE|];
       split; [reflexivity|]; split; [reflexivity|]; intros id; apply SA; intros []).
  - pose proof (m_src M) as SR. eexists _, _. split; [reflexivity|]. split; [reflexivity|]. split; [apply (so_ok (m_step M))|]. split; [exact HP|]. split; [exact P|]. split; [exact SE|].
    split; [rewrite EG; exact G|]. split; [reflexivity|]. apply SR. intros ->. apply NP. simpl; auto.
Qed.
Lemma resize_tx_spec b0 b1 b2 u0 cap mcs transfer k t : k_ok k -> clean k t -> sizable cap mcs ->
  never_raises b0 -> never_raises b1 -> never_raises b2 ->
  exists t' l p first rest, resize_tx b0 b1 b2 u0 cap mcs false transfer t = (t', Ok l) /\ k_groups k = first :: rest /\ ~ In p (k_groups k) /\ k_ok (t_saved t') /\
    k_primary (t_saved t') = p /\ (forall id, g_abs (grp (t_saved t') p) id = g_abs (grp k first) id) /\ (forall j, In j rest -> grp (t_saved t') j = grp k j) /\
    t_work t' = with_groups (k_groups (t_saved t') ++ rest) (t_saved t') /\
    (if transfer then k_groups (t_saved t') = [p] /\ l = k_groups k else k_groups (t_saved t') = p :: k_groups k /\ l = [] /\ grp (t_saved t') first = grp k first).
Proof.
  intros OK C SZ B0 B1 B2. destruct (sized_group_spec u0 (k_strict k) SZ) as (g & n & m & E & EV & _). unfold resize_tx. rewrite (proj1 C), E.
  destruct (@push_block b0 g t k B0 C) as (t1 & -> & C1 & _). pose proof (push_ok OK (even_group_good EV)) as O1. rewrite (proj1 C1).
  assert (NP : ~ In (length (k_heap k)) (k_groups k)) by (intros I; apply OK in I; lia).
  destruct (k_groups k) as [|a secs] eqn:EG; [destruct OK as (_ & IP & _); rewrite EG in IP; destruct IP|].
  assert (G1 : k_groups (push_primary g k) = k_primary (push_primary g k) :: a :: secs) by (simpl; now rewrite EG).
  rewrite G1. change (firstn 2 (k_primary (push_primary g k) :: a :: secs)) with [k_primary (push_primary g k); a].
  change (skipn 2 (k_primary (push_primary g k) :: a :: secs)) with secs.
  destruct (@short_condense b1 b2 transfer (push_primary g k) a secs (tx_put (with_groups [k_primary (push_primary g k); a] (push_primary g k)) t1) O1 G1)
    as (t2 & l & -> & CL & O2 & HP & P & SE & T); auto.
  { rewrite push_new. apply (even_group_relaxed EV). }
  { apply C1. }
  exists (tx_put (with_groups (k_groups (t_work t2) ++ secs) (t_work t2)) t2), l, (length (k_heap k)), a, secs.
  assert (PO : forall j, In j (a :: secs) -> grp (push_primary g k) j = grp k j) by (intros j J; apply push_old; auto; rewrite EG; exact J).
  split; auto. split; auto. split; auto. simpl t_saved. rewrite <- CL. split; [exact O2|]. split; [exact P|]. split.
  - intros id. rewrite <- PO by (simpl; auto). specialize (HP id). rewrite push_new, (even_group_empty id EV) in HP. rewrite <- HP.
    unfold k_prim. now rewrite P.
  - split; [intros j J; rewrite SE by auto; apply PO; simpl; auto|]. split; [reflexivity|]. destruct transfer.
    + destruct T as (T1 & T2 & _). split; auto.
    + destruct T as (T1 & T2 & T3). split; [rewrite T1; exact G1|]. split; auto. rewrite T3. apply PO. simpl; auto.
Qed.

(** ** C31, C34 in the form used by the property theorems *)
Definition on_disk (k : container) : tx := mkTx k k [].
Lemma C31_lemma b1 b2 transfer k t' r : k_reachable k -> condense_tx b1 b2 transfer (on_disk k) = (t', r) ->
  (forall d, In d (durable t') -> keeps k d) /\ (forall e, r = Err e -> t_work t' = t_saved t') /\ keeps k (t_work t') /\
  (forall l, r = Ok l -> t_work t' = t_saved t' /\ (forall id, g_abs (k_prim (t_work t')) id = held k id) /\
     l = (if transfer then tl (k_groups k) else []) /\ k_groups (t_work t') = (if transfer then [k_primary k] else k_groups k)).
Proof.
  intros R E. destruct (k_reachable_ok R) as [O PF]. assert (C : clean k (on_disk k)) by (split; reflexivity).
  destruct (condense_tx_spec b1 b2 transfer O PF C E) as (D & W & OK & X).
  assert (DK : forall d, In d (durable t') -> keeps k d).
  { intros d I. destruct (D d I) as [[<-|[]]|K]; auto. now apply keeps_refl. }
  split; auto. split; auto. split; [rewrite W; apply DK; simpl; auto|]. intros l L. destruct (OK l L) as (A1 & A2 & A3 & A4 & _). auto.
Qed.
Lemma C31_commits b1 b2 transfer k : always_commits b1 -> always_commits b2 ->
  linked (small_step transfer) (durable (fst (condense_tx b1 b2 transfer (on_disk k)))).
Proof. intros B1 B2. apply (@condense_tx_linked b1 b2 transfer k); auto; [split; reflexivity|simpl; auto]. Qed.
Lemma C31_one_shot_lemma b1 b2 e transfer k : k_reachable k -> relaxed (k_prim k) -> one_shot e b1 -> (2 <= to_move k)%nat ->
  exists t' i key, condense_tx b1 b2 transfer (on_disk k) = (t', Err e) /\ In i (tl (k_groups k)) /\ In key (g_keys (grp k i)) /\
    t_work t' = fst (move transfer i key k) /\ durable t' = [fst (move transfer i key k); k].
Proof.
  intros R RX OS H. destruct (k_reachable_ok R) as [O PF]. apply (@condense_tx_one_shot b1 b2 e transfer k (on_disk k)); auto. split; reflexivity.
Qed.
Lemma C34_lemma b0 b1 b2 u0 cap mcs k first rest : k_reachable k -> sizable cap mcs -> never_raises b0 -> never_raises b1 -> never_raises b2 ->
  k_groups k = first :: rest ->
  exists t', resize_tx b0 b1 b2 u0 cap mcs false true (on_disk k) = (t', Ok (k_groups k)) /\
    k_groups (t_saved t') = [k_primary (t_saved t')] /\ (forall id, held (t_saved t') id = g_abs (grp k first) id) /\
    (forall id, encodable id -> g_abs (grp k first) id = None -> k_has id (t_saved t') = Ok 0) /\
    k_groups (t_work t') = k_primary (t_saved t') :: rest /\ (forall id, held (t_work t') id = held k id).
Proof.
  intros R SZ B0 B1 B2 EG. destruct (k_reachable_ok R) as [O PF].
  destruct (@resize_tx_spec b0 b1 b2 u0 cap mcs true k (on_disk k) O (conj eq_refl eq_refl) SZ B0 B1 B2)
    as (t' & l & p & f & rs & E & EG' & NP & OS & P & HP & SE & W & G & L).
  rewrite EG in EG'. injection EG' as <- <-. subst l. exists t'. split; auto. split; [now rewrite P|].
  assert (HS : forall id, held (t_saved t') id = g_abs (grp k first) id).
  { intros id. rewrite (@prim_single _ p); auto. unfold k_prim. rewrite P. apply HP. }
  split; auto. split.
  - intros id EN H. destruct (has_iff_held OS EN) as (n & -> & N1 & N2). f_equal. rewrite HS in N2. assert (~ (0 < n)%Z) by (intros X; apply N2 in X; congruence). lia.
  - rewrite W. simpl. rewrite G. split; [now rewrite P|]. intros id. unfold held, maps. simpl. rewrite EG. simpl. rewrite HP.
    destruct (g_abs (grp k first) id); auto. apply first_held_ext. intros j J. change (g_abs (grp (t_saved t') j) id = g_abs (grp k j) id). now rewrite SE.
Qed.
Lemma C34_copy b0 b1 b2 u0 cap mcs k first rest : k_reachable k -> sizable cap mcs -> never_raises b0 -> never_raises b1 -> never_raises b2 ->
  k_groups k = first :: rest ->
  exists t', resize_tx b0 b1 b2 u0 cap mcs false false (on_disk k) = (t', Ok []) /\
    k_groups (t_saved t') = k_primary (t_saved t') :: k_groups k /\ (forall id, held (t_saved t') id = held k id) /\
    k_groups (t_work t') = k_groups (t_saved t') ++ rest.
Proof.
  intros R SZ B0 B1 B2 EG. destruct (k_reachable_ok R) as [O PF].
  destruct (@resize_tx_spec b0 b1 b2 u0 cap mcs false k (on_disk k) O (conj eq_refl eq_refl) SZ B0 B1 B2)
    as (t' & l & p & f & rs & E & EG' & NP & OS & P & HP & SE & W & G & L & FE).
  rewrite EG in EG'. injection EG' as <- <-. subst l. exists t'. split; auto. split; [now rewrite P|]. split; [|now rewrite W].
  intros id. rewrite (@held_split _ (k_groups k)) by (now rewrite P). unfold k_prim. rewrite P, HP. unfold held, maps. rewrite EG. simpl.
  rewrite FE. destruct (g_abs (grp k first) id); auto. apply first_held_ext. intros j J. now rewrite SE.
Qed.
