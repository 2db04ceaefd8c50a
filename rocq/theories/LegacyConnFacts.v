(** Lemmas about CitrineConnection *)
From Verif Require Import Base BaseFacts Value Dict DictFacts SpecMap RoutingFacts Txn TxnFacts Legacy LegacyFacts LegacyConn.
Open Scope Z_scope.

Lemma default_mutator b cmd c : lis_read cmd = false -> lexec ThreadDefault b cmd c = (c, Err AttributeError).
Proof. intros H. unfold lexec. now rewrite H. Qed.
Lemma read_keeps m b cmd c : lis_read cmd = true -> fst (lexec m b cmd c) = c.
Proof. intros H. unfold lexec. rewrite H. unfold perform. cbn [is_read legacy_calls]. now rewrite H. Qed.
Lemma default_unchanged b p : forall c, n_work c = n_saved c ->
  let c' := fst (lrun ThreadDefault b p c) in n_work c' = n_saved c /\ n_saved c' = n_saved c /\ Forall (fun s => s = n_saved c \/ In s (n_past c)) (history c').
Proof.
  cbv zeta.
  assert (G : forall c l, n_work c = n_saved c -> Forall (fun s => s = n_saved c \/ In s l) (history c) ->
      let c' := fst (lrun ThreadDefault b p c) in n_work c' = n_saved c /\ n_saved c' = n_saved c /\ Forall (fun s => s = n_saved c \/ In s l) (history c')).
  { cbv zeta. induction p as [r|cmd k IH|v k IH|body IHb k IH]; intros c l W H; cbn [lrun].
    - auto.
    - destruct (lis_read cmd) eqn:R.
      + pose proof (read_keeps ThreadDefault b cmd c R) as K. destruct (lexec ThreadDefault b cmd c) as [c1 r]. cbn [fst] in K. subst c1. now apply IH.
      + rewrite default_mutator by auto. now apply IH.
    - now apply IH.
    - specialize (IHb (tm_enter c) l). destruct IHb as (B1 & B2 & B3); [reflexivity|exact H|]. destruct (lrun ThreadDefault b body (tm_enter c)) as [c1 r]. cbn [fst] in B1, B2, B3.
      cbn [tm_enter tm_abort set_auto n_saved] in B1, B2, B3.
      destruct (tm_exit b r c1) as [c2 r2] eqn:E.
      assert (Q : n_work c2 = n_saved c /\ n_saved c2 = n_saved c /\ Forall (fun s => s = n_saved c \/ In s l) (history c2)).
      { unfold tm_exit in E. destruct r as [a|e].
        - unfold tm_commit in E. destruct (n_failed c1); [injection E as <- _; auto|]. destruct (b (n_calls c1)) as [e|]; injection E as <- _; cbn.
          + split; [exact B2|]. split; [exact B2|exact B3].
          + split; [exact B1|]. split; [exact B1|]. constructor; [now left|]. exact B3.
        - injection E as <- _. cbn. split; [exact B2|]. split; [exact B2|exact B3]. }
      destruct Q as (Q1 & Q2 & Q3). rewrite <- Q2 in Q3 |- *. apply IH; [congruence|exact Q3]. }
  intros c W. apply G; auto. unfold history. constructor; [now left|]. apply Forall_forall. auto.
Qed.

(** explicit manager: the calls of a session, each committed on its own, behave like a map in which create overwrites *)
Definition l_map (r : lroot) : amap := match r_container r with Some c => l_abs c | None => empty_map end.
Definition look (m : amap) (id : pystr) : pyval := match m id with Some v => v | None => VNone end.
Inductive lmap_call (m : amap) : lcmd -> amap -> res lres -> Prop :=
| lm_create id v m' : bound m id v m' -> lmap_call m (LcCreate id v) m' (Ok (LRVal VNone))
| lm_update id v m' : bound m id v m' -> lmap_call m (LcUpdate id v) m' (Ok (LRVal VNone))
| lm_delete id w m' : m id = Some w -> removed m id m' -> lmap_call m (LcDelete id) m' (Ok (LRVal VNone))
| lm_missing id m' : m id = None -> same m m' -> lmap_call m (LcDelete id) m' (Err KeyError)
| lm_read id m' : same m m' -> lmap_call m (LcRead id) m' (Ok (LRVal (look m id)))
| lm_slice m' : same m m' -> lmap_call m (LcItem XSlice) m' (Err TypeError)
| lm_other m' : same m m' -> lmap_call m (LcItem XOther) m' (Err TypeError)
| lm_str id m' : same m m' -> lmap_call m (LcItem (XStr id)) m' (Ok (LRVal (look m id)))
| lm_list ids m' : same m m' -> lmap_call m (LcItem (XIter ids)) m' (Ok (LRList (map (look m) ids))).
Inductive lmap_session : amap -> list lcmd -> amap -> list (res lres) -> Prop :=
| ls_end m m' : same m m' -> lmap_session m [] m' []
| ls_call m m1 m2 cmd cmds r rs : lmap_call m cmd m1 r -> lmap_session m1 cmds m2 rs -> lmap_session m (cmd :: cmds) m2 (r :: rs).
Fixpoint session (man : manager) (b : nat -> option exn) (cmds : list lcmd) (c : conn lroot) : conn lroot * list (res lres) :=
  match cmds with
  | [] => (c, [])
  | cmd :: cmds' => let (c1, r) := lexec man b cmd c in let (c2, rs) := session man b cmds' c1 in (c2, r :: rs)
  end.
Definition lcmd_ids (cmd : lcmd) : list pystr :=
  match cmd with LcCreate id _ | LcUpdate id _ | LcDelete id | LcRead id | LcItem (XStr id) => [id] | LcItem (XIter ids) => ids | LcItem _ => [] end.
Definition lr_wf (r : lroot) : Prop := exists c, r_container r = Some c /\ l_wf c.
Lemma lread_spec id r : lr_wf r -> encodable id -> lread id r = Ok (look (l_map r) id).
Proof.
  intros (c & E & W) H. unfold lread, lcontainer, l_map, look. rewrite E. cbn [rbind].
  destruct (@l_step_spec (LRead id) c W H) as (S & _). cbn [l_step fst snd] in S. inversion S as [| | |id' m' A B C X| ]. unfold rbind in X. destruct (dbc_read id c) as [v|e]; [|discriminate]. now injection X as <-.
Qed.
Lemma lreads_spec ids r : lr_wf r -> Forall encodable ids -> mapM (fun id => lread id r) ids = Ok (map (look (l_map r)) ids).
Proof.
  intros W F. induction F as [|id ids H F IH]; [reflexivity|]. cbn [mapM map]. rewrite lread_spec by auto. cbn [rbind]. rewrite IH. reflexivity.
Qed.
Lemma lsem_spec cmd r : lr_wf r -> Forall encodable (lcmd_ids cmd) ->
  lmap_call (l_map r) cmd (l_map (fst (lsem cmd r))) (snd (lsem cmd r)) /\ lr_wf (fst (lsem cmd r)).
Proof.
  intros W F. assert (SM : forall m, same m m) by (intros m k; reflexivity).
  assert (WR : forall id v, encodable id -> bound (l_map r) id v (l_map (fst (lchange (dbc_write id v) r))) /\ snd (lchange (dbc_write id v) r) = Ok (LRVal VNone) /\ lr_wf (fst (lchange (dbc_write id v) r))).
  { intros id v H. destruct W as (c & E & W). destruct (@l_step_spec (LWrite id v) c W H) as (S & W'). unfold lchange, l_map. rewrite E. cbn [l_step] in S, W'.
    destruct (dbc_write id v c) as [c1 x]. cbn [fst snd r_container] in *. inversion S as [id' v' m' A B C X| | | |]. destruct x; [|discriminate]. split; auto. split; auto. exists c1. auto. }
  destruct cmd as [id v|id v|id|id|i]; cbn [lsem lcmd_ids] in *.
  - apply Forall_cons_iff in F. destruct F as (F & _). destruct (WR id v F) as (A & -> & C). split; auto. now constructor.
  - apply Forall_cons_iff in F. destruct F as (F & _). destruct (WR id v F) as (A & -> & C). split; auto. now constructor.
  - apply Forall_cons_iff in F. destruct F as (F & _). destruct W as (c & E & W). destruct (@l_step_spec (LDelete id) c W F) as (S & W'). unfold lchange, l_map. rewrite E. cbn [l_step] in S, W'.
    destruct (dbc_delete id c) as [c1 x]. cbn [fst snd r_container] in *. split; [|exists c1; auto].
    inversion S as [|id' w m' A B C X Y|id' m' A B C X Y| |]; destruct x; try discriminate; cbn [rbind] in *.
    + econstructor; eauto.
    + assert (X' : e = KeyError) by congruence. rewrite X'. now constructor.
  - apply Forall_cons_iff in F. destruct F as (F & _). cbn [fst snd]. rewrite lread_spec by auto. cbn [rbind]. split; auto. now constructor.
  - cbn [fst snd]. split; auto. destruct i as [|id|ids|]; cbn [lcmd_ids] in F.
    + now constructor.
    + apply Forall_cons_iff in F. destruct F as (F & _). rewrite lread_spec by auto. cbn [rbind]. now constructor.
    + rewrite lreads_spec by auto. cbn [rbind]. now constructor.
    + now constructor.
Qed.
Definition quiet (c : conn lroot) : Prop := n_work c = n_saved c /\ n_auto c = true /\ n_failed c = false.
Lemma same_refl m : same m m. Proof. intros k. reflexivity. Qed.
Lemma lexec_explicit b cmd c : (forall n, b n = None) -> quiet c -> lr_wf (n_saved c) -> Forall encodable (lcmd_ids cmd) ->
  quiet (fst (lexec Explicit b cmd c)) /\ lr_wf (n_saved (fst (lexec Explicit b cmd c))) /\
  lmap_call (l_map (n_saved c)) cmd (l_map (n_saved (fst (lexec Explicit b cmd c)))) (snd (lexec Explicit b cmd c)).
Proof.
  intros B (Q1 & Q2 & Q3) W F. unfold lexec. destruct (lis_read cmd) eqn:R.
  - unfold perform. cbn [is_read legacy_calls]. rewrite R. cbn [fst snd]. split; [now repeat split|]. split; auto. rewrite Q1.
    destruct (lsem_spec cmd _ W F) as (S & _). assert (X : fst (lsem cmd (n_saved c)) = n_saved c) by (destruct cmd; try discriminate; reflexivity).
    rewrite X in S. exact S.
  - unfold autocommitted. rewrite Q2. unfold perform. cbn [is_read legacy_calls sem]. rewrite R.
    cbn [tm_enter tm_abort set_auto n_failed n_work]. destruct (lsem_spec cmd _ W F) as (S & W'). destruct (lsem cmd (n_saved c)) as [r x] eqn:E. cbn [fst snd] in S, W'.
    unfold tm_exit. destruct x as [a|e].
    + unfold tm_commit. cbn [n_failed put n_calls]. rewrite B. cbn. split; [now repeat split|]. auto.
    + cbn. split; [now repeat split|]. split; auto.
      assert (X : r = n_saved c).
      { destruct cmd as [id v|id v|id|id|i]; try discriminate; cbn [lsem lcmd_ids] in *.
        - inversion S.
        - inversion S.
        - unfold lchange in E. destruct (r_container (n_saved c)) as [d|] eqn:RC; [|injection E as <- _; reflexivity].
          unfold dbc_delete in E. destruct (locate id d) as [i|]; [destruct (d_get id (at_ i d))|]; cbn [rbind] in E; try discriminate; injection E as <- _; rewrite <- RC; now destruct (n_saved c). }
      rewrite <- X. rewrite X in S at 1. rewrite <- X in S. exact S.
Qed.
Lemma session_spec b cmds : (forall n, b n = None) -> forall c, quiet c -> lr_wf (n_saved c) -> Forall (fun cmd => Forall encodable (lcmd_ids cmd)) cmds ->
  lmap_session (l_map (n_saved c)) cmds (l_map (n_saved (fst (session Explicit b cmds c)))) (snd (session Explicit b cmds c)).
Proof.
  intros B. induction cmds as [|cmd cmds IH]; intros c Q W F; cbn [session]; [constructor; apply same_refl|].
  apply Forall_cons_iff in F. destruct F as (F1 & F2). destruct (lexec_explicit b cmd c B Q W F1) as (Q' & W' & S).
  destruct (lexec Explicit b cmd c) as [c1 r]. cbn [fst snd] in *. specialize (IH c1 Q' W' F2). destruct (session Explicit b cmds c1) as [c2 rs]. cbn [fst snd] in *. econstructor; eauto.
Qed.
(** setup *)
Lemma in_block_ok b f c r : b (n_calls c) = None -> f (n_saved c) = (r, Ok tt) ->
  exists c', in_block b f c = (c', Ok tt) /\ n_work c' = r /\ n_saved c' = r /\ history c' = r :: history c /\ n_calls c' = S (n_calls c) /\ n_auto c' = true /\ n_failed c' = false.
Proof. intros B E. unfold in_block, tm_exit, tm_commit. cbn. rewrite E. cbn. rewrite B. cbn. eexists. split; [reflexivity|]. cbn. auto 10. Qed.
Lemma setup_spec b c : (forall n, b n = None) -> n_work c = n_saved c ->
  exists c', lsetup b c = (c', Ok tt) /\ n_work c' = n_saved c' /\ r_meta (n_saved c') = true /\
    r_container (n_saved c') = Some (match r_container (n_saved c) with Some d => d | None => dbc_new end) /\
    (r_container (n_saved c) <> None -> r_meta (n_saved c) = true -> c' = c).
Proof.
  intros B W. unfold lsetup, setup_with. rewrite W. destruct (r_container (n_saved c)) as [d|] eqn:RC.
  - cbv iota beta. rewrite W. destruct (r_meta (n_saved c)) eqn:RM.
    + exists c. rewrite RC. auto.
    + destruct (in_block_ok b add_meta c _ (B _) eq_refl) as (c' & E & A1 & A2 & _). exists c'. rewrite E. split; auto. split; [congruence|]. rewrite A2. cbn. split; auto. split; auto. congruence.
  - destruct (in_block_ok b add_container c _ (B _) eq_refl) as (c1 & E & A1 & A2 & A3 & A4 & A5 & A6). rewrite E. rewrite A1. cbn [r_meta].
    destruct (r_meta (n_saved c)) eqn:RM.
    + exists c1. split; auto. split; [congruence|]. rewrite A2. cbn. rewrite ?RM. split; auto. split; auto. congruence.
    + destruct (in_block_ok b add_meta c1 _ (B _) eq_refl) as (c2 & E2 & B1 & B2 & _). exists c2. rewrite E2. split; auto. split; [congruence|]. rewrite B2. cbn. rewrite A2. cbn. split; auto. split; auto. congruence.
Qed.
Lemma managed_setup_fails b c : r_container (n_work c) = None -> exists c', managed_setup b c = (c', Err TypeError) /\ n_work c' = n_saved c /\ history c' = history c.
Proof. intros E. unfold managed_setup, setup_with. rewrite E. unfold in_block, tm_exit. cbn. eexists. split; [reflexivity|]. auto. Qed.
(** before [setup]: no container *)
Lemma no_container_calls m b cmd c : quiet c -> r_container (n_saved c) = None ->
  n_saved (fst (lexec m b cmd c)) = n_saved c /\ history (fst (lexec m b cmd c)) = history c /\
  snd (lexec m b cmd c) = match cmd with LcItem XSlice | LcItem XOther => Err TypeError | LcItem (XIter []) => Ok (LRList []) | _ => Err AttributeError end.
Proof.
  intros (Q1 & Q2 & Q3) N. unfold lexec. destruct cmd as [id v|id v|id|id|[|id|[|i ids]|]]; cbn [lis_read];
    try (unfold perform; cbn [is_read legacy_calls lis_read sem lsem fst snd]; rewrite Q1; unfold lread, lcontainer; cbn [mapM]; rewrite ?N; auto; fail);
    destruct m; try (cbn [fst snd]; auto; fail); unfold autocommitted; rewrite Q2; unfold perform; cbn; unfold lchange; rewrite N; cbn; auto.
Qed.
(** a commit that fails, and recovering from it *)
Lemma legacy_failed_commit b cmd c a e : quiet c -> lis_read cmd = false -> snd (lsem cmd (n_saved c)) = Ok a -> b (n_calls c) = Some e ->
  exists c', lexec Explicit b cmd c = (c', Err e) /\ n_work c' = n_saved c /\ history c' = history c /\
    n_calls c' = Nat.succ (n_calls c) /\
    (forall cmd2, lis_read cmd2 = false -> lexec Explicit b cmd2 c' = (c', Err TransactionFailedError)).
Proof.
  intros (Q1 & Q2 & Q3) R S B. unfold lexec at 1. rewrite R. unfold autocommitted at 1. rewrite Q2. unfold perform at 1. cbn [is_read legacy_calls sem]. rewrite R.
  cbn [tm_enter tm_abort set_auto n_failed n_work]. destruct (lsem cmd (n_saved c)) as [k x]. cbn [snd] in S. subst x.
  unfold tm_exit, tm_commit. cbn [n_failed put n_calls set_auto tm_abort tm_enter]. rewrite B. cbn. eexists. split; [reflexivity|]. cbn. repeat split.
  intros cmd2 R2. unfold lexec. rewrite R2. unfold autocommitted, perform. cbn. now rewrite R2.
Qed.
Lemma legacy_block_recovers b cmd c k a : lis_read cmd = false -> lsem cmd (n_saved c) = (k, Ok a) -> b (n_calls c) = None ->
  exists c', lrun Explicit b (Block (Do cmd Done) Done) c = (c', Ok a) /\ quiet c' /\ n_saved c' = k /\ history c' = k :: history c.
Proof.
  intros R S B. cbn [lrun]. unfold lexec. rewrite R. unfold autocommitted, perform. cbn [tm_enter set_auto tm_abort n_auto is_read legacy_calls n_failed sem n_work]. rewrite R, S.
  unfold tm_exit, tm_commit. cbn [n_failed put n_calls set_auto tm_abort tm_enter]. rewrite B. cbn. eexists. split; [reflexivity|]. now repeat split.
Qed.
