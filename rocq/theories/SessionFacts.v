(** Sessions with failing commits refine a map; groups of databases *)
From Verif Require Import Base BaseFacts Value BTree Collection SpecMap Group RoutingFacts GroupFacts GroupCapFacts GroupNewFacts StorageThms
  Container ContainerFacts CondenseFacts ResizeFacts ContainerThms Txn TxnFacts Connection ConnectionFacts ConnHistory Db DbFacts GroupRead GroupReadFacts Session.
Open Scope Z_scope.
Open Scope list_scope.
Set Implicit Arguments.

(** ** Specification: a map with transactions whose commits may fail.
    [session b n w s a f ops os n' m]: with working map [w], committed map [s], autocommit [a] and, if [f], a failed transaction, the operations [ops] show the program [os] and leave the committed map [m].
    [b i] says what the [i]-th commit does; [n] commits were asked for before, [n'] afterwards. *)
Inductive session (b : nat -> option exn) : nat -> amap -> amap -> bool -> bool -> list hop -> list sout -> nat -> amap -> Prop :=
| se_end n w s a f m : same s m -> session b n w s a f [] [] n m
| se_read n w w' s a f c r ops os n' m : conn_is_read c = true -> map_call w c w' r -> session b n w' s a f ops os n' m -> session b n w s a f (HCall c :: ops) (SCall r :: os) n' m
(* with autocommit on, a mutator works on the committed map; what failed changes nothing and asks for no commit *)
| se_refused n w s s' f c e ops os n' m : conn_is_read c = false -> map_call s c s' (Err e) -> session b n s s true false ops os n' m ->
    session b n w s true f (HCall c :: ops) (SCall (Err e) :: os) n' m
| se_commit n w s s' f c r ops os n' m : conn_is_read c = false -> map_call s c s' (Ok r) -> b n = None -> session b (Datatypes.S n) s' s' true false ops os n' m ->
    session b n w s true f (HCall c :: ops) (SCall (Ok r) :: os) n' m
(* a commit that fails: the call raises what the commit raised, and autocommit is off afterwards *)
| se_commit_fails n w s s' f c r e ops os n' m : conn_is_read c = false -> map_call s c s' (Ok r) -> b n = Some e -> session b (Datatypes.S n) s s false true ops os n' m ->
    session b n w s true f (HCall c :: ops) (SCall (Err e) :: os) n' m
| se_pending n w w' s c r ops os n' m : conn_is_read c = false -> map_call w c w' r -> session b n w' s false false ops os n' m -> session b n w s false false (HCall c :: ops) (SCall r :: os) n' m
| se_in_failed n w s c ops os n' m : conn_is_read c = false -> session b n w s false true ops os n' m -> session b n w s false true (HCall c :: ops) (SCall (Err TransactionFailedError) :: os) n' m
| se_auto n w s a a' f ops os n' m : session b n w s a' f ops os n' m -> session b n w s a f (HAuto a' :: ops) os n' m
| se_reopen n w s a f flag ops os n' m : session b n s s true false ops os n' m -> session b n w s a f (HReopen flag :: ops) os n' m
| se_enter n w s a f ops os n' m : session b n s s false false ops os n' m -> session b n w s a f (HEnter :: ops) os n' m
| se_abort n w s a f ops os n' m : session b n s s true false ops os n' m -> session b n w s a f (HExit true :: ops) (SExit (Err (UserError 0)) :: os) n' m
| se_leave n w s a ops os n' m : b n = None -> session b (Datatypes.S n) w w true false ops os n' m -> session b n w s a false (HExit false :: ops) (SExit (Ok tt) :: os) n' m
| se_leave_fails n w s a e ops os n' m : b n = Some e -> session b (Datatypes.S n) s s true true ops os n' m -> session b n w s a false (HExit false :: ops) (SExit (Err e) :: os) n' m
| se_leave_failed n w s a ops os n' m : session b n w s true true ops os n' m -> session b n w s a true (HExit false :: ops) (SExit (Err TransactionFailedError) :: os) n' m.

Lemma same_refl m : same m m.
Proof. intros j. reflexivity. Qed.
Lemma mutator_error cmd k e : one_group k -> good_call cmd -> conn_is_read cmd = false -> snd (conn_sem cmd k) = Err e -> fst (conn_sem cmd k) = k.
Proof.
  intros G GO D SE. destruct cmd as [id v|id v|id| |]; try discriminate; simpl in SE, GO |- *.
  - destruct (@create_effect id v k) as [(k' & X & _)|(e' & X)]; [apply G|now apply one_first| |]; rewrite X in *; [discriminate SE|reflexivity].
  - exfalso. unfold do_update in SE. destruct GO as [EN TV]. rewrite one_read in SE by auto. destruct (@one_write id v _ G EN TV) as (r & W & _).
    destruct (k_write id v k) as [k2 r2]. simpl in W. subst r2. discriminate.
  - exfalso. unfold do_delete in SE. destruct (@one_delete id _ G GO) as (k' & l & X & _). rewrite X in SE. discriminate.
Qed.

Theorem s_hops_spec b ops : forall c c' os, one_group (n_work c) -> one_group (n_saved c) -> (n_failed c = true -> n_work c = n_saved c) -> Forall good_hop ops -> s_hops b ops c = (c', os) ->
  session b (n_calls c) (held (n_work c)) (held (n_saved c)) (n_auto c) (n_failed c) ops os (n_calls c') (held (n_saved c')) /\ one_group (n_saved c').
Proof.
  induction ops as [|o ops IH]; intros c c' os GW GS NF F E; [injection E as <- <-; split; [apply se_end, same_refl|auto]|]. apply Forall_cons_iff in F. destruct F as [GO F].
  cbn [s_hops] in E. destruct o as [cmd|a|f| |[|]]; cbn [s_hop] in E.
  - simpl in GO. destruct (conn_is_read cmd) eqn:D.
    + assert (X : exec conn_calls b cmd c = (c, snd (conn_sem cmd (n_work c)))) by (unfold exec, perform; simpl; now rewrite D).
      rewrite X in E. destruct (s_hops b ops c) as [c2 rs] eqn:R. cbn [app] in E. injection E as <- <-. destruct (IH c c2 rs GW GS NF F R) as [I1 I2]. split; [|exact I2].
      destruct (@call_step cmd _ GW GO) as [MC _]. assert (KE : fst (conn_sem cmd (n_work c)) = n_work c) by (destruct cmd; try discriminate; reflexivity).
      rewrite KE in MC. eapply se_read; eauto.
    + destruct (n_auto c) eqn:A.
      * destruct (@call_step cmd _ GS GO) as [MC G']. assert (Y := fun e => @mutator_error cmd (n_saved c) e GS GO D).
        unfold exec, autocommitted, perform in E. cbn -[conn_sem s_hops] in E. rewrite D, A in E. cbn -[conn_sem s_hops] in E. destruct (conn_sem cmd (n_saved c)) as [k1 [r|e]] eqn:SE; cbn [fst snd] in *.
        -- unfold tm_exit, tm_commit in E. cbn -[conn_sem s_hops] in E. destruct (b (n_calls c)) as [e|] eqn:B; cbn -[conn_sem s_hops] in E; destruct (s_hops b ops _) as [c2 rs] eqn:R; injection E as <- <-;
             apply IH in R; cbn [n_work n_saved n_failed n_auto n_calls] in *; auto; destruct R as [I1 I2]; (split; [|exact I2]).
           ++ eapply se_commit_fails; eauto.
           ++ eapply se_commit; eauto.
        -- specialize (Y e eq_refl). subst k1. unfold tm_exit in E. cbn -[conn_sem s_hops] in E. destruct (s_hops b ops _) as [c2 rs] eqn:R; injection E as <- <-.
           apply IH in R; cbn [n_work n_saved n_failed n_auto n_calls] in *; auto; try discriminate. destruct R as [I1 I2]. split; [|exact I2]. eapply se_refused; eauto.
      * destruct (@call_step cmd _ GW GO) as [MC G']. rewrite exec_off in E by auto. unfold perform in E. simpl is_read in E. rewrite D in E. destruct (n_failed c) eqn:Nf.
        -- destruct (s_hops b ops c) as [c2 rs] eqn:R; injection E as <- <-. apply IH in R; auto. rewrite A, Nf in R. destruct R as [I1 I2]. split; [|exact I2]. apply se_in_failed; auto.
        -- change (sem conn_calls cmd (n_work c)) with (conn_sem cmd (n_work c)) in E. destruct (conn_sem cmd (n_work c)) as [k1 r] eqn:SE. cbn [fst snd] in *. destruct (s_hops b ops _) as [c2 rs] eqn:R; injection E as <- <-.
           apply IH in R; cbn [put n_work n_saved n_failed n_auto n_calls] in *; auto; [|congruence]. rewrite A, Nf in R. destruct R as [I1 I2]. split; [|exact I2]. eapply se_pending; eauto.
  - destruct (s_hops b ops _) as [c2 rs] eqn:R; injection E as <- <-. apply IH in R; cbn in *; auto. destruct R as [I1 I2]. split; [|exact I2]. apply se_auto. exact I1.
  - destruct (s_hops b ops _) as [c2 rs] eqn:R; injection E as <- <-. apply IH in R; cbn in *; auto. destruct R as [I1 I2]. split; [|exact I2]. apply se_reopen. exact I1.
  - destruct (s_hops b ops _) as [c2 rs] eqn:R; injection E as <- <-. apply IH in R; cbn in *; auto. destruct R as [I1 I2]. split; [|exact I2]. apply se_enter. exact I1.
  - unfold conn_exit in E. cbn -[s_hops] in E. destruct (s_hops b ops _) as [c2 rs] eqn:R; injection E as <- <-. apply IH in R; cbn in *; auto. destruct R as [I1 I2]. split; [|exact I2]. apply se_abort. exact I1.
  - unfold conn_exit, tm_exit, tm_commit in E. cbn -[s_hops] in E. destruct (n_failed c) eqn:Nf.
    + cbn -[s_hops] in E. destruct (s_hops b ops _) as [c2 rs] eqn:R; injection E as <- <-. apply IH in R; cbn in *; auto. destruct R as [I1 I2]. split; [|exact I2]. rewrite ?Nf in *. apply se_leave_failed. exact I1.
    + destruct (b (n_calls c)) as [e|] eqn:B; cbn -[s_hops] in E; destruct (s_hops b ops _) as [c2 rs] eqn:R; injection E as <- <-; apply IH in R; cbn in *; auto; destruct R as [I1 I2]; (split; [|exact I2]).
      * eapply se_leave_fails; eauto.
      * apply se_leave; auto.
Qed.

(** the specification determines what the program sees, the number of commits and the committed map *)
Lemma map_call_det m c m1 r1 : map_call m c m1 r1 -> forall m' m2 r2, same m m' -> map_call m' c m2 r2 -> r1 = r2 /\ same m1 m2.
Proof.
  assert (GT : forall m m' : amap, same m m' -> forall d id, get m' d id = get m d id) by (intros x y S d id; unfold get; now rewrite (S id)).
  intros H m' m2 r2 S H2. assert (G := GT _ _ S). unfold same in S.
  assert (BB : forall id v a1 a2, bound m id v a1 -> bound m' id v a2 -> same a1 a2).
  { intros id v a1 a2 [A1 A2] [B1 B2] j. destruct (str_dec j id) as [->|N]; [congruence|]. rewrite A2, B2, S; auto. }
  assert (RR : forall id a1 a2, removed m id a1 -> removed m' id a2 -> same a1 a2).
  { intros id a1 a2 [A1 A2] [B1 B2] j. destruct (str_dec j id) as [->|N]; [congruence|]. rewrite A2, B2, S; auto. }
  assert (SS : forall a1 a2, same m a1 -> same m' a2 -> same a1 a2) by (intros a1 a2 A B j; specialize (A j); specialize (B j); specialize (S j); congruence).
  destruct H; inversion H2; subst; repeat match goal with X : m' _ = _ |- _ => rewrite <- S in X end; try congruence; try (split; [congruence|eauto]; fail).
  - split; [|eauto]. f_equal. f_equal. apply map_ext. intro id. symmetry. apply G.
  - exfalso. match goal with X : Exists _ _ |- _ => apply Exists_exists in X as (id & I & X); apply X; rewrite <- S; match goal with Y : Forall _ _ |- _ => rewrite Forall_forall in Y; now apply Y end end.
  - exfalso. match goal with X : Exists _ _ |- _ => apply Exists_exists in X as (id & I & X); apply X; rewrite S; match goal with Y : Forall _ _ |- _ => rewrite Forall_forall in Y; now apply Y end end.
Qed.
Lemma same_sym m m' : same m m' -> same m' m.
Proof. intros S j. symmetry. apply S. Qed.
Lemma session_det b n w s a f ops os n1 m1 : session b n w s a f ops os n1 m1 -> forall w' s' os' n2 m2, same w w' -> same s s' -> session b n w' s' a f ops os' n2 m2 -> os = os' /\ n1 = n2 /\ same m1 m2.
Proof.
  induction 1; intros w0 s0 os0 n2 m2 SW SS H9; inversion H9; subst; try congruence;
    try match goal with
        | X : map_call ?m1 ?c ?m1' ?r1, Y : map_call ?m2 ?c ?m2' ?r2, Z : same ?m1 ?m2 |- _ => destruct (map_call_det X Z Y) as [E1 E2]; try discriminate E1; try injection E1 as E1
        end; subst;
    try match goal with
        | X : b ?n = Some _, Y : b ?n = Some _ |- _ => rewrite X in Y; injection Y as Y; subst
        | X : b ?n = Some _, Y : b ?n = None |- _ => congruence
        end.
  { split; [reflexivity|]. split; [reflexivity|]. unfold same in *. intro j. congruence. }
  all: match goal with
       | I : forall _ _ _ _ _, same _ _ -> same _ _ -> session _ _ _ _ _ _ _ _ _ _ -> _, Y : session _ _ _ _ _ _ _ ?o2 ?n3 ?m3 |- _ =>
           assert (Q := I _ _ _ _ _ ltac:(eassumption) ltac:(eassumption) Y); destruct Q as (Q1 & Q2 & Q3); subst; auto
       end.
Qed.
Lemma map_call_ext m c m1 r : map_call m c m1 r -> forall m', same m m' -> map_call m' c m1 r.
Proof.
  intros H m' S. assert (GT : forall d id, get m' d id = get m d id) by (intros d id; unfold get; now rewrite (S id)). unfold same in S.
  destruct H; try (rewrite <- (GT _ _)); try (rewrite <- (GT VNone)).
  - apply mc_create; [now rewrite S|]. destruct H0 as [B1 B2]. split; auto. intros j N. rewrite S. auto.
  - eapply mc_exists; [rewrite S; eauto|]. intros j. rewrite S. auto.
  - apply mc_update. destruct H as [B1 B2]. split; auto. intros j N. rewrite S. auto.
  - apply mc_delete; [now rewrite S|]. destruct H0 as [B1 B2]. split; auto. intros j N. rewrite S. auto.
  - apply mc_nothing; [now rewrite S|]. intros j. rewrite S. auto.
  - apply mc_read. intros j. rewrite S. auto.
  - apply mc_item; [now rewrite S|]. intros j. rewrite S. auto.
  - apply mc_noitem; [now rewrite S|]. intros j. rewrite S. auto.
  - replace (map (get m VNone) ids) with (map (get m' VNone) ids) by (apply map_ext; auto). apply mc_items; [|intros j; rewrite S; auto].
    apply Exists_exists in H. destruct H as (id & J & X). apply Exists_exists. exists id. split; auto. now rewrite S.
  - apply mc_noitems; [|intros j; rewrite S; auto]. rewrite Forall_forall in *. intros id J. rewrite S. auto.
  - apply mc_index. intros j. rewrite S. auto.
Qed.
Lemma session_ext b n w s a f ops os n1 m1 : session b n w s a f ops os n1 m1 -> forall w' s', same w w' -> same s s' -> session b n w' s' a f ops os n1 m1.
Proof.
  induction 1; intros w0 s0 SW SS.
  - apply se_end. unfold same in *. intro j. congruence.
  - eapply se_read; eauto using map_call_ext, same_refl.
  - eapply se_refused; eauto using map_call_ext, same_refl.
  - eapply se_commit; eauto using map_call_ext, same_refl.
  - eapply se_commit_fails; eauto using map_call_ext, same_refl.
  - eapply se_pending; eauto using map_call_ext, same_refl.
  - eapply se_in_failed; eauto using map_call_ext, same_refl.
  - eapply se_auto; eauto using map_call_ext, same_refl.
  - eapply se_reopen; eauto using map_call_ext, same_refl.
  - eapply se_enter; eauto using map_call_ext, same_refl.
  - eapply se_abort; eauto using map_call_ext, same_refl.
  - eapply se_leave; eauto using map_call_ext, same_refl.
  - eapply se_leave_fails; eauto using map_call_ext, same_refl.
  - eapply se_leave_failed; eauto using map_call_ext, same_refl.
Qed.

(** ** The life of a database *)
(** what can be chosen: a capacity ContainerDb takes, ids that can be encoded, stored objects that are truthy *)
Definition good_life (l : life) : Prop := 1 <= l_capacity l < 2 ^ 53 /\ Forall good_hop (l_ops l).
Lemma live_spec l : good_life l -> exists c os, live l = Some (c, os) /\ session (l_commits l) 0 empty_map empty_map true false (l_ops l) os (n_calls c) (held (n_saved c)) /\ one_group (n_saved c) /\
  exists other, left_file l = Some (mkRoot (Some (n_saved c)) other).
Proof.
  intros [H F]. destruct (@C84_create (l_clock l) (l_capacity l) (l_truncate l) (l_strict l) (l_file l) H) as (k & E1 & _ & HN & _ & _ & E2).
  destruct (@fresh_one _ _ _ _ (create_sizable H) E1) as [G _].
  unfold left_file, live, db_new. rewrite E2. rewrite C85_existing with (k := k) by reflexivity. cbn [db_open rt_container connect].
  destruct (s_hops (l_commits l) (l_ops l) (mkConn k k [] true (VBool true) false O)) as [c os] eqn:R.
  destruct (s_hops_spec (l_commits l) (mkConn k k [] true (VBool true) false O) G G (fun X => False_ind _ (Bool.diff_false_true X)) F R) as [S G2]. cbn [n_work n_saved n_auto n_failed n_calls] in S.
  exists c, os. split; [reflexivity|]. split; [|split; [exact G2|eauto]]. eapply session_ext; [exact S| |]; intro j; unfold empty_map; now rewrite ?HN.
Qed.
Lemma through_spec k other id : one_group k -> encodable id -> through (Some (mkRoot (Some k) other)) id = Ok (match held k id with Some v => v | None => VNone end).
Proof. intros G E. unfold through. cbn. rewrite one_read by auto. reflexivity. Qed.
Lemma group_spec ls id schedule : Forall good_life ls -> encodable id -> runs_all (map (fun l => through (left_file l)) ls) schedule ->
  exists ms, Forall2 (fun l m => exists c os n, live l = Some (c, os) /\ session (l_commits l) 0 empty_map empty_map true false (l_ops l) os n m) ls ms /\
    group_read (map (fun l => through (left_file l)) ls) id false false schedule =
      Ok (match find (fun m : amap => match m id with Some _ => true | None => false end) ms with Some m => match m id with Some v => v | None => VNone end | None => VNone end).
Proof.
  intros F E RA. assert (X : exists ms, Forall2 (fun l m => exists c os n, live l = Some (c, os) /\ session (l_commits l) 0 empty_map empty_map true false (l_ops l) os n m) ls ms /\
    map (fun d : db => d id) (map (fun l => through (left_file l)) ls) = map (fun m : amap => Ok (match m id with Some v => v | None => VNone end)) ms /\ Forall (fun m : amap => forall v, m id = Some v -> truthy v = true) ms).
  { clear RA. induction F as [|l ls G F IH]; [exists []; repeat split; constructor|]. destruct IH as (ms & I1 & I2 & I3). destruct (live_spec G) as (c & os & L & S & O & other & LF).
    exists (held (n_saved c) :: ms). split; [constructor; eauto 8|]. split.
    - cbn [map]. rewrite LF, through_spec by auto. now rewrite I2.
    - constructor; [|exact I3]. intros v H. destruct O as (_ & _ & _ & T). eauto. }
  destruct X as (ms & X1 & X2 & X3). exists ms. split; [exact X1|]. unfold group_read. rewrite (run_tasks_all id RA).
  assert (G : gather (map (fun d : db => Some (d id)) (map (fun l => through (left_file l)) ls)) = Ok (map (fun m : amap => match m id with Some v => v | None => VNone end) ms)).
  { change (fun d : db => Some (d id)) with (fun d : db => Some ((fun d : db => d id) d)). rewrite <- (map_map (fun d : db => d id) Some), X2. clear. induction ms as [|m ms IH]; [reflexivity|]. cbn. now rewrite IH. }
  rewrite G. clear - X3. induction X3 as [|m ms T F IH]; [reflexivity|]. cbn [map filter find]. destruct (m id) as [v|] eqn:Q; [|exact IH].
  assert (N : is_none v = false) by (destruct v; try reflexivity; specialize (T VNone eq_refl); discriminate T). rewrite N. cbn [negb]. now rewrite Q.
Qed.
(** whatever else the root holds is neither used nor lost *)
Lemma left_other l : good_life l -> exists r, left_file l = Some r /\ rt_other r = if l_truncate l then [] else match l_file l with Some r0 => rt_other r0 | None => [] end.
Proof.
  intros G. destruct (live_spec G) as (c & os & L & _). destruct G as [H F]. destruct (@C84_create (l_clock l) (l_capacity l) (l_truncate l) (l_strict l) (l_file l) H) as (k & E1 & _ & HN & _ & _ & E2).
  unfold left_file. rewrite L. unfold db_new. rewrite E2. rewrite C85_existing with (k := k) by reflexivity. eexists. split; [reflexivity|]. cbn [fst plain_db rt_other]. destruct (l_truncate l), (l_file l); reflexivity.
Qed.
