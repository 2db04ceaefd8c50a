(** Property theorems C105-C108: several connections to one database. *)
From Coq Require Import String Sorting.Permutation Sorting.Sorted.
From Verif Require Import Base BaseFacts Value BTree Collection SpecMap Group RoutingFacts GroupFacts GroupNewFacts StorageThms PropsStorage
  Container ContainerFacts CondenseFacts ResizeFacts ContainerThms PropsContainer Txn Connection Multi MultiFacts MultiSem MultiLin MultiHist MultiBlocks MultiLog MultiSound MultiStrict MultiMaint.
Open Scope Z_scope.
Open Scope list_scope.

(** Reading aid. A schedule is a list of events, each naming its connection: [EStart i c] is the call [c] up to its commit,
    [EFinish i ok] its commit ([ok = false]: the storage refuses it for a reason of its own), [EEnter i] / [EExit i raised ok]
    begin and end [with conn:], [EDirect i o] is a method of [conn.container], [EAbort i] aborts, [EAuto i b] assigns
    [conn.autocommit]. [run_events evs (start_world k)] runs a schedule on any number of connections to a database holding [k];
    [o_now] is the committed container, [snd (step w e)] what the caller gets at [e]. A finished autocommitted call is
    recorded with its arguments, its outcome and the numbers of the events where it started and ended (first theorem).
    [serial cs k] runs calls one after the other, each in a transaction of its own; [held k id] is what [k] holds under [id]. *)

(** ** C105 *)
Theorem C105_log_is_what_callers_see : forall k evs f, In f (o_log (run_events evs (start_world k))) <->
  (exists ok, nth_error evs (f_end f) = Some (EFinish (f_conn f) ok) /\
     snd (step (run_events (firstn (f_end f) evs) (start_world k)) (EFinish (f_conn f) ok)) = Some (f_res f)) /\
  (exists r0, w_call (o_conn (run_events (firstn (f_end f) evs) (start_world k)) (f_conn f)) = Some (f_cmd f, r0, f_start f)) /\
  (f_start f < f_end f)%nat /\ nth_error evs (f_start f) = Some (EStart (f_conn f) (f_cmd f)).
Proof. exact log_calls. Qed.
Print Assumptions C105_log_is_what_callers_see.
(** [single]: calls, their commits, aborts and changes of [autocommit], but no [with] block and no maintenance *)
Theorem C105_linearizable : forall k evs, k_reachable k -> k_groups k = [k_primary k] -> Forall (fun c => c_strict c = false) (k_prim k) -> Forall single evs ->
  exists order : list (nat * finished),
    Permutation (map snd order) (filter accepted (o_log (run_events evs (start_world k)))) /\
    StronglySorted (fun a b => (fst a < fst b)%nat) order /\
    Forall (fun p => (f_start (snd p) <= fst p <= f_end (snd p))%nat) order /\
    serial (map (fun p => f_cmd (snd p)) order) k = (o_now (run_events evs (start_world k)), map (fun p => f_res (snd p)) order).
Proof. intros k evs K. exact (@linearizable k evs (proj1 (k_reachable_ok K))). Qed.
Print Assumptions C105_linearizable.
(** a create that was told it succeeded found nothing under its id in the state it was committed to, and left its value there *)
Theorem C105_create_never_overwrites : forall k evs i id v ok a s, k_reachable k -> k_groups k = [k_primary k] -> Forall (fun c => c_strict c = false) (k_prim k) -> Forall single evs ->
  let w := run_events evs (start_world k) in
  w_call (o_conn w i) = Some (CCreate id v, Ok a, s) -> snd (step w (EFinish i ok)) = Some (Ok a) ->
  held (o_now w) id = None /\ held (o_now (fst (step w (EFinish i ok)))) id = Some v.
Proof. intros k evs i id v ok a s K. exact (@created_there k evs i id v ok a s (proj1 (k_reachable_ok K))). Qed.
Print Assumptions C105_create_never_overwrites.
(** with nobody else around this is the connection of C35-C43 *)
Theorem C105_alone : forall w i c cmd ok, k_ok (n_saved c) -> k_groups (n_saved c) = [k_primary (n_saved c)] -> Forall (fun x => c_strict x = false) (k_prim (n_saved c)) ->
  agree w i c ->
  let (c2, r) := exec conn_calls (answers ok) cmd c in
  let (w1, o1) := step w (EStart i cmd) in let (w2, o2) := step w1 (EFinish i ok) in
  agree w2 i c2 /\ ((o1 = Some r /\ o2 = None) \/ (o1 = None /\ o2 = Some r)).
Proof. intros w i c cmd ok K G R. exact (@alone_call w i c cmd ok (conj (conj K G) R)). Qed.
Print Assumptions C105_alone.
Theorem C105_alone_enter : forall w i c, agree w i c -> agree (fst (step w (EEnter i))) i (conn_enter c).
Proof. exact alone_enter. Qed.
Print Assumptions C105_alone_enter.
Theorem C105_alone_exit : forall w i c (r : res cres) ok, plain (n_saved c) -> plain (n_work c) -> alike (n_saved c) (n_work c) -> agree w i c ->
  let (c2, r2) := conn_exit (answers ok) r c in
  let (w2, o2) := step w (EExit i (match r with Ok _ => None | Err e => Some e end) ok) in
  agree w2 i c2 /\ o2 = Some (match r2 with Ok _ => Ok (RVal VNone) | Err e => Err e end).
Proof. exact alone_exit. Qed.
Print Assumptions C105_alone_exit.
(** after a refused commit every further mutating call raises, until the transaction is aborted ... *)
Theorem C105_refused_then_failed : forall w i ok c a s d, w_call (o_conn w i) = Some (c, Ok a, s) -> snd (step w (EFinish i ok)) = Some (Err ConflictError) -> conn_is_read d = false ->
  snd (step (fst (step w (EFinish i ok))) (EStart i d)) = Some (Err TransactionFailedError).
Proof. exact failed_raises. Qed.
Print Assumptions C105_refused_then_failed.
(** ... and aborting does not bring autocommit back: the connection's calls commit nothing any more *)
Theorem C105_refused_then_silent : forall w i ok c a s pre e, w_call (o_conn w i) = Some (c, Ok a, s) -> snd (step w (EFinish i ok)) = Some (Err ConflictError) ->
  Forall (just_calls i) (pre ++ [e]) -> event_conn e = i ->
  let w1 := run_events pre (fst (step w (EFinish i ok))) in o_now (fst (step w1 e)) = o_now w1.
Proof. exact after_refusal. Qed.
Print Assumptions C105_refused_then_silent.

(** Container.new(4, 2): two collections of two places; Container.new(1, 1, strict=True): one collection with one place *)
Definition k4 : container := mkK [[mkC 0 2 false []; mkC 1 2 false []]] [0%nat] 0.
Definition k1s : container := mkK [[mkC 0 1 true []]] [0%nat] 0.
Lemma k4_new : container_new 0 4 2 false = Ok k4.
Proof. vm_compute. reflexivity. Qed.
Lemma k1s_new : container_new 0 1 1 true = Ok k1s.
Proof. vm_compute. reflexivity. Qed.
Lemma small_sizable cap mcs : 1 <= cap <= 4 -> 1 <= mcs <= 4 -> sizable cap mcs.
Proof. intros. unfold sizable. change (2 ^ 53) with 9007199254740992. change (2 ^ 52) with 4503599627370496. nia. Qed.
Lemma new_reachable u cap mcs strict k : sizable cap mcs -> container_new u cap mcs strict = Ok k -> k_reachable k.
Proof.
  intros S E. exists k, []. split; [|split; [constructor|reflexivity]]. unfold container_new in E. destruct (sized_group_spec u strict S) as (g & n & m & Q & EV & _). rewrite Q in E.
  exists [g], 0%nat, [], strict. split; [exact E|]. split; [constructor|]. split; [left; intros []|]. intros i [-> |[]]. split; [simpl; lia|].
  exists g, []. split; [apply EV|]. split; [apply (even_group_good EV)|]. split; [constructor|reflexivity].
Qed.
Lemma k4_reach : k_reachable k4.
Proof. apply (@new_reachable 0 4 2 false); [apply small_sizable; lia|exact k4_new]. Qed.
Lemma k4_plain : k_groups k4 = [k_primary k4] /\ Forall (fun c => c_strict c = false) (k_prim k4).
Proof. split; [reflexivity|repeat constructor]. Qed.
(** four calls on three connections overlap; the update of connection 0 loses against that of connection 2 *)
Definition ex_sched : list event :=
  [EStart 0 (CCreate (py "a") (VInt 1)); EStart 1 (CCreate (py "b") (VInt 2)); EFinish 1 true; EFinish 0 true;
   EStart 2 (CUpdate (py "a") (VInt 3)); EStart 0 (CUpdate (py "a") (VInt 4)); EFinish 2 true; EFinish 0 true].
Example C105_case : Forall single ex_sched /\
  map f_res (o_log (run_events ex_sched (start_world k4))) = [Err ConflictError; Ok (RVal (VInt 1)); Ok (RVal (VInt 1)); Ok (RVal (VInt 1))] /\
  held (o_now (run_events ex_sched (start_world k4))) (py "a") = Some (VInt 3) /\ held (o_now (run_events ex_sched (start_world k4))) (py "b") = Some (VInt 2) /\
  (let w := run_events (firstn 7 ex_sched) (start_world k4) in exists s, w_call (o_conn w 0) = Some (CUpdate (py "a") (VInt 4), Ok (RVal (VInt 1)), s)) /\
  (let w := run_events (firstn 3 ex_sched) (start_world k4) in exists s, w_call (o_conn w 0) = Some (CCreate (py "a") (VInt 1), Ok (RVal (VInt 1)), s)) /\
  (* the connection that lost: abort, then a create that "succeeds" and is never stored *)
  snd (step (run_events (ex_sched ++ [EAbort 0]) (start_world k4)) (EStart 0 (CCreate (py "c") (VInt 5)))) = Some (Ok (RVal (VInt 1))).
Proof. split; [repeat constructor|]. vm_compute. eauto 10. Qed.
Example C105_alone_case : agree (start_world k4) 0 (mkConn k4 k4 [] true (VBool true) false 0).
Proof. split; reflexivity. Qed.

(** ** C106 *)
(** what other connections do is invisible until this connection does something *)
Theorem C106_isolated : forall evs w i, Forall (fun e => event_conn e <> i) evs -> o_conn (run_events evs w) i = o_conn w i.
Proof. exact isolated. Qed.
Print Assumptions C106_isolated.
(** inside a block every call answers as if the block were alone since it was entered, whatever others commit meanwhile *)
Theorem C106_block_reads_its_snapshot : forall w i body c, w_call (o_conn w i) = None -> Forall (in_block i) body ->
  snd (step (run_events (EEnter i :: body) w) (EStart i c)) = Some (snd (conn_sem c (calls_on (own_calls i body) (o_now w)))).
Proof. exact block_call. Qed.
Print Assumptions C106_block_reads_its_snapshot.
(** at its end the block commits exactly the ids it changed, or is refused and changes nothing. An accepted block has changed
    no id that others changed since it was entered; a refusal (not of the storage's own) needs such an id. *)
Theorem C106_first_committer_wins : forall k pre i body ok, k_reachable k -> k_groups k = [k_primary k] -> Forall (fun c => c_strict c = false) (k_prim k) ->
  Forall calls_only (pre ++ body) -> Forall (in_block i) body ->
  let w0 := run_events pre (start_world k) in w_call (o_conn w0 i) = None ->
  let before := o_now w0 in
  let mine := calls_on (own_calls i body) before in
  let w1 := run_events (EEnter i :: body) w0 in
  let others := o_now w1 in
  let result := o_now (fst (step w1 (EExit i None ok))) in
  (snd (step w1 (EExit i None ok)) = Some (Ok (RVal VNone)) /\
   forall id, (held mine id = held before id -> held result id = held others id) /\
              (held mine id <> held before id -> held others id = held before id /\ held result id = held mine id))
  \/ (snd (step w1 (EExit i None ok)) = Some (Err ConflictError) /\ result = others /\
      (ok = true -> exists id, held mine id <> held before id /\ held others id <> held before id)).
Proof. intros k pre i body ok K. exact (@block_commit k pre i body ok (proj1 (k_reachable_ok K))). Qed.
Print Assumptions C106_first_committer_wins.
(** block 0 adds "y" having seen no "x", block 1 adds "x" having seen no "y" *)
Definition ex_blocks : list event :=
  [EEnter 0; EEnter 1; EStart 0 (CRead (py "x") VNone); EStart 1 (CRead (py "y") VNone);
   EStart 0 (CCreate (py "y") (VInt 1)); EStart 1 (CCreate (py "x") (VInt 2)); EExit 0 None true].
Example C106_case : Forall calls_only ex_blocks /\ Forall (in_block 1) (skipn 2 ex_blocks) /\ own_calls 1 (skipn 2 ex_blocks) = [CRead (py "y") VNone; CCreate (py "x") (VInt 2)] /\
  snd (step (run_events ex_blocks (start_world k4)) (EExit 1 None true)) = Some (Ok (RVal VNone)) /\
  (* both blocks writing "y": the second one is refused *)
  snd (step (run_events [EEnter 0; EEnter 1; EStart 0 (CCreate (py "y") (VInt 1)); EStart 1 (CCreate (py "y") (VInt 2)); EExit 0 None true] (start_world k4)) (EExit 1 None true)) = Some (Err ConflictError).
Proof.
  split; [repeat constructor|]. split; [|vm_compute; auto].
  unfold ex_blocks, skipn, in_block. repeat (apply Forall_cons; [cbn; first [left; discriminate | right; eauto; fail]|]); apply Forall_nil.
Qed.
(** Accepted blocks need not be equivalent to any one-after-the-other execution: of two blocks "if there is no x, create y"
    and "if there is no y, create x", one after the other in either order, the second creates nothing; run together both create *)
Definition guarded (seen new : pystr) (v : Z) (k : container) : container :=
  match k_read seen VNone k with Ok VNone => fst (conn_sem (CCreate new (VInt v)) k) | _ => k end.
Theorem C106_serializable_refuted : exists k pre, k_reachable k /\
  let w := run_events (pre ++ [EExit 0 None true; EExit 1 None true]) (start_world k) in
  pre = [EEnter 0; EEnter 1; EStart 0 (CRead (py "x") VNone); EStart 1 (CRead (py "y") VNone);
         EStart 0 (CCreate (py "y") (VInt 1)); EStart 1 (CCreate (py "x") (VInt 2))] /\
  snd (step (run_events [EEnter 0; EEnter 1] (start_world k)) (EStart 0 (CRead (py "x") VNone))) = Some (Ok (RVal VNone)) /\
  snd (step (run_events [EEnter 0; EEnter 1] (start_world k)) (EStart 1 (CRead (py "y") VNone))) = Some (Ok (RVal VNone)) /\
  snd (step (run_events (pre ++ [EExit 0 None true]) (start_world k)) (EExit 1 None true)) = Some (Ok (RVal VNone)) /\
  held (o_now w) (py "x") = Some (VInt 2) /\ held (o_now w) (py "y") = Some (VInt 1) /\
  held (guarded (py "x") (py "y") 1 (guarded (py "y") (py "x") 2 k)) (py "y") = None /\
  held (guarded (py "y") (py "x") 2 (guarded (py "x") (py "y") 1 k)) (py "x") = None.
Proof. eexists k4, _. split; [apply k4_reach|]. cbv zeta. split; [reflexivity|]. vm_compute. auto 10. Qed.
Print Assumptions C106_serializable_refuted.

(** ** C107 *)
(** [refreshes i w e]: [e] ends a call or a block of [i], or begins one, or aborts. A read gives what was committed then. *)
Theorem C107_read_sees_last_boundary : forall i w e q c, refreshes i w e -> Forall (quiet i) q -> conn_is_read c = true ->
  snd (step (run_events q (fst (step w e))) (EStart i c)) = Some (snd (conn_sem c (o_now (fst (step w e))))).
Proof. exact read_sees. Qed.
Print Assumptions C107_read_sees_last_boundary.
Example C107_case : refreshes 0 (run_events (firstn 3 ex_sched) (start_world k4)) (EFinish 0 true) /\ Forall (quiet 0) [EStart 2 (CUpdate (py "a") (VInt 3)); EFinish 2 true; EStart 0 (CRead (py "b") VNone)].
Proof. split; [split; [reflexivity|vm_compute; discriminate]|]. unfold quiet. repeat (apply Forall_cons; [cbn; first [left; discriminate | right; eauto; fail]|]); apply Forall_nil. Qed.
(** so a plain read does not see what another connection has committed since *)
Theorem C107_reads_are_fresh_refuted : exists k evs id, k_reachable k /\ Forall single evs /\
  held (o_now (run_events evs (start_world k))) id = Some (VInt 7) /\
  snd (step (run_events evs (start_world k)) (EStart 0 (CRead id VNone))) = Some (Ok (RVal VNone)).
Proof. exists k4, [EStart 1 (CCreate (py "a") (VInt 7)); EFinish 1 true], (py "a"). split; [apply k4_reach|]. split; [repeat constructor|]. vm_compute. auto. Qed.
Print Assumptions C107_reads_are_fresh_refuted.

(** ** C108 *)
(** whatever the schedule, maintenance included, the committed container stays usable: its groups are distinct objects with the
    primary first, every id lies in the one collection its hash names, [has] counts the groups holding it and [read] finds the
    first truthy value *)
Theorem C108_never_damaged : forall u cap mcs strict k0 ops evs, sizable cap mcs -> container_new u cap mcs strict = Ok k0 -> Forall kop_ok ops -> Forall event_ok evs ->
  let k := o_now (run_events evs (start_world (k_run ops k0))) in
  k_ok k /\ primary_first k /\
  forall id d, encodable id -> k_has id k = Ok (holders id (maps k)) /\
    exists r, first_truthy id (maps k) r /\ k_read id d k = Ok (match r with Some v => v | None => d end).
Proof. exact never_damaged. Qed.
Print Assumptions C108_never_damaged.
Definition ex_maint : list event :=
  [EStart 0 (CCreate (py "a") (VInt 1)); EEnter 1; EDirect 1 (KResize 10 4 2 true true); EExit 1 None true; EFinish 0 true; EStart 0 (CCreate (py "b") (VInt 2)); EFinish 0 true].
Example C108_case : sizable 4 2 /\ Forall event_ok ex_maint /\ k_has (py "b") (o_now (run_events ex_maint (start_world k4))) = Ok 1 /\ length (k_groups (o_now (run_events ex_maint (start_world k4)))) = 1%nat.
Proof. split; [apply small_sizable; lia|]. split; [repeat (apply Forall_cons; [first [exact Logic.I | apply small_sizable; lia]|]); apply Forall_nil|]. vm_compute. auto. Qed.
(** But maintenance by one connection can lose what another is told it has stored: *)
Theorem C108_create_is_kept_refuted : exists k evs, k_reachable k /\ Forall event_ok evs /\
  evs = [EStart 0 (CCreate (py "a") (VInt 1)); EEnter 1; EDirect 1 (KResize 10 4 2 true true); EExit 1 None true] /\
  let w := run_events evs (start_world k) in
  snd (step w (EFinish 0 true)) = Some (Ok (RVal (VInt 1))) /\                                              (* the create succeeds *)
  snd (step (fst (step w (EFinish 0 true))) (EStart 0 (CRead (py "a") VNone))) = Some (Ok (RVal VNone)) /\  (* and is not there *)
  k_has (py "a") (o_now (fst (step w (EFinish 0 true)))) = Ok 0.
Proof. eexists k4, _. split; [apply k4_reach|]. split; [|split; [reflexivity|]]; [repeat (apply Forall_cons; [first [exact Logic.I | apply small_sizable; lia]|]); apply Forall_nil|]. vm_compute. auto. Qed.
Print Assumptions C108_create_is_kept_refuted.
(** ... can let two creates of the same id succeed ... *)
Theorem C108_create_is_exclusive_refuted : exists k evs, k_reachable k /\ Forall event_ok evs /\
  evs = [EStart 0 (CCreate (py "a") (VInt 1)); EEnter 1; EDirect 1 (KResize 10 4 2 true false); EExit 1 None true; EStart 2 (CCreate (py "a") (VInt 2)); EFinish 2 true] /\
  let w := run_events evs (start_world k) in
  map f_res (o_log w) = [Ok (RVal (VInt 1))] /\ snd (step w (EFinish 0 true)) = Some (Ok (RVal (VInt 1))) /\
  k_has (py "a") (o_now (fst (step w (EFinish 0 true)))) = Ok 2.
Proof. eexists k4, _. split; [apply k4_reach|]. split; [|split; [reflexivity|]]; [repeat (apply Forall_cons; [first [exact Logic.I | apply small_sizable; lia]|]); apply Forall_nil|]. vm_compute. auto. Qed.
Print Assumptions C108_create_is_exclusive_refuted.
(** ... and a strict container can be filled beyond its capacity by calls that overlap *)
Lemma k1s_reach : k_reachable k1s.
Proof. apply (@new_reachable 0 1 1 true); [apply small_sizable; lia|exact k1s_new]. Qed.
Theorem C108_strict_capacity_refuted : exists k evs, k_reachable k /\ k_groups k = [k_primary k] /\ Forall (fun c => c_strict c = true) (k_prim k) /\ Forall single evs /\
  Forall (fun f => exists a, f_res f = Ok a) (o_log (run_events evs (start_world k))) /\ k_used k <= k_capacity k /\
  k_capacity (o_now (run_events evs (start_world k))) = 1 /\ k_used (o_now (run_events evs (start_world k))) = 2.
Proof.
  exists k1s, [EStart 0 (CCreate (py "a") (VInt 1)); EStart 1 (CCreate (py "b") (VInt 2)); EFinish 0 true; EFinish 1 true].
  split; [apply k1s_reach|]. split; [reflexivity|]. split; [repeat constructor|]. split; [repeat constructor|]. split; [vm_compute; repeat constructor; eauto|].
  vm_compute. repeat split; discriminate.
Qed.
Print Assumptions C108_strict_capacity_refuted.
(** [n] connections can exceed the capacity of a strict collection, but by no more than [n - 1] *)
Theorem C108_strict_capacity : forall k n evs, k_reachable k -> k_groups k = [k_primary k] -> (1 <= n)%nat ->
  Forall (fun c => c_strict c = true -> c_size c <= c_max c) (k_prim k) -> Forall single evs -> Forall (fun e => (event_conn e < n)%nat) evs ->
  forall j c, nth_error (k_prim (o_now (run_events evs (start_world k)))) j = Some c -> c_strict c = true -> c_size c <= c_max c + Z.of_nat n - 1.
Proof. intros k n evs K. exact (@strict_bound k n evs (proj1 (k_reachable_ok K))). Qed.
Print Assumptions C108_strict_capacity.
Example C108_strict_case : Forall (fun c => c_strict c = true -> c_size c <= c_max c) (k_prim k1s).
Proof. repeat constructor. vm_compute. discriminate. Qed.
(** [layout k]: the groups of the container and its primary group. A block commits its own change of the groups only if nobody else
    has changed them since it began, and without such a change leaves those it finds; otherwise it is refused and nothing changes *)
Theorem C108_maintenance_commit : forall w0 i body ok, w_call (o_conn w0 i) = None -> Forall (in_work i) body ->
  let before := o_now w0 in
  let mine := own_work i body before in
  let w1 := run_events (EEnter i :: body) w0 in
  let others := o_now w1 in
  let result := o_now (fst (step w1 (EExit i None ok))) in
  let answer := snd (step w1 (EExit i None ok)) in
  (answer = Some (Ok (RVal VNone)) /\
     (layout mine = layout before -> layout result = layout others) /\
     (layout mine <> layout before -> layout others = layout before /\ layout result = layout mine))
  \/ (answer = Some (Err ConflictError) /\ result = others).
Proof. exact maintenance_commit. Qed.
Print Assumptions C108_maintenance_commit.
(** of two overlapping resizes the second is always refused *)
Theorem C108_one_maintenance : forall w0 i body ok, w_call (o_conn w0 i) = None -> Forall (in_work i) body ->
  let before := o_now w0 in
  let mine := own_work i body before in
  let w1 := run_events (EEnter i :: body) w0 in
  layout mine <> layout before -> layout (o_now w1) <> layout before ->
  snd (step w1 (EExit i None ok)) = Some (Err ConflictError) /\ o_now (fst (step w1 (EExit i None ok))) = o_now w1.
Proof. exact maintenance_conflict. Qed.
Print Assumptions C108_one_maintenance.
Definition ex_two_resizes : list event := [EDirect 0 (KResize 10 6 2 true false); EEnter 1; EDirect 1 (KResize 20 4 2 true true); EExit 1 None true].
Example C108_one_case : Forall (in_work 0) ex_two_resizes /\
  layout (own_work 0 ex_two_resizes k4) <> layout k4 /\ layout (o_now (run_events (EEnter 0 :: ex_two_resizes) (start_world k4))) <> layout k4.
Proof.
  split; [|split; vm_compute; discriminate].
  unfold in_work, ex_two_resizes. repeat (apply Forall_cons; [cbn; first [left; discriminate | right; right; eexists; reflexivity]|]); apply Forall_nil.
Qed.
(** an autocommitted call, whatever happened since it started, does not undo or redo maintenance *)
Theorem C108_calls_keep_groups : forall k evs i ok, let w := run_events evs (start_world k) in
  layout (o_now (fst (step w (EFinish i ok)))) = layout (o_now w).
Proof. exact calls_keep_layout. Qed.
Print Assumptions C108_calls_keep_groups.
Example C108_groups_case : layout (o_now (run_events ex_maint (start_world k4))) <> layout k4.
Proof. vm_compute. discriminate. Qed.
(** With a second group in the container (an unfinished resize) calls are not even linearizable: *)
Definition k2g : container := mkK [[mkC 0 2 false []; mkC 1 2 false []]; [mkC 2 2 false [(py "b", VInt 1)]; mkC 3 2 false []]] [0; 1]%nat 0.
Lemma k2g_reach : k_reachable k2g.
Proof.
  exists k2g, []. split; [|split; [constructor|reflexivity]].
  exists (k_heap k2g), 0%nat, [1%nat], false. split; [vm_compute; reflexivity|]. split; [repeat constructor; simpl; intuition|]. split; [left; simpl; intuition discriminate|].
  intros i [-> |[<-|[]]]; (split; [simpl; lia|]).
  - exists [mkC 0 2 false []; mkC 1 2 false []], []. split; [repeat constructor|]. split; [simpl; lia|]. split; [constructor|reflexivity].
  - exists [mkC 2 2 false []; mkC 3 2 false []], [Insert (py "b") (VInt 1)]. split; [repeat constructor|]. split; [simpl; lia|]. split; [repeat constructor|vm_compute; reflexivity].
Qed.
Fixpoint inserts {A} (x : A) (l : list A) : list (list A) := (x :: l) :: match l with [] => [] | y :: l' => map (cons y) (inserts x l') end.
Fixpoint perms {A} (l : list A) : list (list A) := match l with [] => [[]] | x :: l' => flat_map (inserts x) (perms l') end.
Lemma inserts_in {A} (x : A) : forall l1 l2, In (l1 ++ x :: l2) (inserts x (l1 ++ l2)).
Proof.
  induction l1 as [|y l1 IH]; intro l2; simpl; [destruct l2; simpl; auto|]. right. apply in_map. apply IH.
Qed.
Lemma perms_complete {A} : forall (l l' : list A), Permutation l l' -> In l' (perms l).
Proof.
  induction l as [|x l IH]; intros l' P; simpl; [apply Permutation_nil in P; auto|].
  assert (I : In x l') by (apply (Permutation_in _ P); simpl; auto). apply in_split in I as (l1 & l2 & ->).
  apply Permutation_cons_app_inv in P. apply in_flat_map. exists (l1 ++ l2). split; [now apply IH|apply inserts_in].
Qed.
Theorem C108_two_groups_linearizable_refuted : exists k evs, k_reachable k /\ Forall (fun c => c_strict c = false) (k_prim k) /\ Forall single evs /\
  let w := run_events evs (start_world k) in length (o_log w) = 3%nat /\
  forall order, Permutation (filter accepted (o_log w)) order -> snd (serial (map f_cmd order) k) <> map f_res order.
Proof.
  exists k2g, [EStart 0 (CUpdate (py "b") (VInt 5)); EStart 1 (CUpdate (py "b") (VInt 6)); EFinish 1 true; EStart 1 (CDelete (py "b")); EFinish 1 true; EFinish 0 true].
  split; [apply k2g_reach|]. split; [repeat constructor|]. split; [repeat constructor|]. cbv zeta. split; [vm_compute; reflexivity|].
  intros order P. apply perms_complete in P. vm_compute in P.
  repeat (destruct P as [<-|P]; [vm_compute; discriminate|]). destruct P.
Qed.
Print Assumptions C108_two_groups_linearizable_refuted.
