(** Property theorems C35-C43, C77: transactions and ContainerConnection. *)
From Coq Require Import String.
From Verif Require Import Base BaseFacts Value BTree Collection SpecMap Group RoutingFacts GroupFacts GroupNewFacts StorageThms PropsStorage
  Container ContainerFacts CondenseFacts ResizeFacts ContainerThms PropsContainer Txn TxnFacts Connection ConnectionFacts ConnHistory.
Open Scope Z_scope.
Open Scope list_scope.

(** Reading aid. [exec conn_calls b cmd c] is the call [cmd] on the connection [c]; [run conn_calls b p c] runs a program;
    [b n] says whether the n-th commit succeeds ([None]) or fails. [n_saved] is the committed state, [n_work] the state seen
    in memory, [history] all committed states, newest first. C35-C39 hold for every kind of call ([cs]). *)

(** ** C35 *)
Theorem C35_autocommit_is_atomic : forall (S C R : Type) (cs : calls S C R) b cmd c, n_auto c = true -> is_read cs cmd = false ->
  (exists a c', exec cs b cmd c = (c', Ok a) /\ sem cs cmd (n_saved c) = (n_saved c', Ok a) /\ n_work c' = n_saved c' /\ history c' = n_saved c' :: history c) \/
  (exists e c', exec cs b cmd c = (c', Err e) /\ n_work c' = n_saved c /\ history c' = history c).
Proof. exact @C35_lemma. Qed.
Print Assumptions C35_autocommit_is_atomic.
Theorem C35_raises_iff_the_call_does : forall (S C R : Type) (cs : calls S C R) b cmd c, commits b -> n_auto c = true -> is_read cs cmd = false ->
  forall e, snd (exec cs b cmd c) = Err e <-> snd (sem cs cmd (n_saved c)) = Err e.
Proof. exact @C35_no_failure. Qed.
Print Assumptions C35_raises_iff_the_call_does.
Definition ex_c : conn container := mkConn (ex_k false) (ex_k false) [] true (VBool true) false 0.
Definition all_ok : nat -> option exn := fun _ => None.
Example C35_case : commits all_ok /\ n_auto ex_c = true /\
  snd (exec conn_calls all_ok (CCreate (py "new") (VInt 3)) ex_c) = Ok (RVal (VInt 1)) /\
  k_has (py "new") (n_saved (fst (exec conn_calls all_ok (CCreate (py "new") (VInt 3)) ex_c))) = Ok 1 /\
  (* delete of "b" raises KeyError half-way; nothing is lost *)
  snd (exec conn_calls all_ok (CDelete (py "b")) ex_c) = Err KeyError /\ n_work (fst (exec conn_calls all_ok (CDelete (py "b")) ex_c)) = ex_k false.
Proof. split; [intros n; reflexivity|]. vm_compute. auto 10. Qed.

(** ** C36 *)
Theorem C36_block_commits_together : forall (S C R : Type) (cs : calls S C R) b body c k a,
  flat body -> direct cs body (n_saved c) = (k, Ok a) -> b (n_calls c) = None ->
  exists c', run cs b (Block body Done) c = (c', Ok a) /\ n_work c' = k /\ history c' = k :: history c.
Proof. exact @C36_lemma. Qed.
Print Assumptions C36_block_commits_together.
Theorem C36_exception_rolls_back : forall (S C R : Type) (cs : calls S C R) b body c k e,
  flat body -> direct cs body (n_saved c) = (k, Err e) ->
  exists c', run cs b (Block body Done) c = (c', Err e) /\ n_work c' = n_saved c /\ history c' = history c.
Proof. exact @C36_raises. Qed.
Print Assumptions C36_exception_rolls_back.
Theorem C36_failed_commit_rolls_back : forall (S C R : Type) (cs : calls S C R) b body c k a e,
  flat body -> direct cs body (n_saved c) = (k, Ok a) -> b (n_calls c) = Some e ->
  exists c', run cs b (Block body Done) c = (c', Err e) /\ n_work c' = n_saved c /\ history c' = history c.
Proof. exact @C36_commit_fails. Qed.
Print Assumptions C36_failed_commit_rolls_back.
Theorem C36_crash_inside_loses_exactly_the_block : forall (S C R : Type) (cs : calls S C R) b body c c',
  flat body -> visits cs b body (conn_enter c) c' -> history c' = history c.
Proof. exact @C36_during. Qed.
Print Assumptions C36_crash_inside_loses_exactly_the_block.
(** create "x", then raise if that failed, update "x" and return what update gives *)
Definition ex_body : prog ccmd cres :=
  Do (CCreate (py "x") (VInt 1)) (fun r => match r with Err e => Done (Err e) | Ok _ => Do (CUpdate (py "x") (VInt 2)) (fun r => Done r) end).
Lemma ex_body_flat : flat ex_body.
Proof. constructor. intros [a|e]; repeat constructor. Qed.
Example C36_case : flat ex_body /\ snd (direct conn_calls ex_body (ex_k false)) = Ok (RVal (VInt 1)) /\
  k_read (py "x") VNone (n_saved (fst (run conn_calls all_ok (Block ex_body Done) ex_c))) = Ok (VInt 2) /\
  length (history (fst (run conn_calls all_ok (Block ex_body Done) ex_c))) = 2%nat.
Proof. split; [apply ex_body_flat|]. vm_compute. auto. Qed.

(** ** C37 *)
Theorem C37_block_restores_autocommit : forall (S C R : Type) (cs : calls S C R) b body c,
  n_auto (fst (run cs b (Block body Done) c)) = true /\ n_flag (fst (run cs b (Block body Done) c)) = VBool true.
Proof. exact @C37_lemma. Qed.
Print Assumptions C37_block_restores_autocommit.
Theorem C37_setter_takes_only_booleans : forall (S : Type) v (c : conn S),
  (forall a, v = VBool a -> exists c', set_autocommit v c = (c', Ok tt) /\ n_auto c' = a /\ n_flag c' = v /\ n_work c' = n_work c /\ history c' = history c) /\
  ((forall a, v <> VBool a) -> set_autocommit v c = (c, Err TypeError)).
Proof. exact @C37_setter. Qed.
Print Assumptions C37_setter_takes_only_booleans.
Example C37_case : n_auto (fst (run conn_calls all_ok (SetAuto (VBool false) (fun _ => Block ex_body Done)) ex_c)) = true /\
  set_autocommit (VInt 0) ex_c = (ex_c, Err TypeError).
Proof. vm_compute. auto. Qed.

(** ** C38 *)
Theorem C38_inner_block_discards_pending_work : forall (S C R : Type) (cs : calls S C R) b body next pending c,
  run cs b (Block body next) (put pending c) = run cs b (Block body next) c.
Proof. exact @C38_discards. Qed.
Print Assumptions C38_inner_block_discards_pending_work.
Theorem C38_rest_runs_with_autocommit : forall (S C R : Type) (cs : calls S C R) b body next c,
  exists c' r, run cs b (Block body Done) c = (c', r) /\ n_auto c' = true /\ run cs b (Block body next) c = run cs b (next r) c'.
Proof. exact @C38_lemma. Qed.
Print Assumptions C38_rest_runs_with_autocommit.
Theorem C38_committed_states_stay : forall (S C R : Type) (cs : calls S C R) b p c, exists l, history (fst (run cs b p c)) = l ++ history c.
Proof. exact @run_grows. Qed.
Print Assumptions C38_committed_states_stay.
(** with conn: create x; (with conn: create y); create z; raise — x is lost, y and z are durable *)
Definition ex_nested : prog ccmd cres :=
  Block (Do (CCreate (py "x") (VInt 1)) (fun _ => Block (Do (CCreate (py "y") (VInt 1)) (fun r => Done r))
           (fun _ => Do (CCreate (py "z") (VInt 1)) (fun _ => Done (Err ValueError))))) Done.
Example C38_case : snd (run conn_calls all_ok ex_nested ex_c) = Err ValueError /\
  k_has (py "x") (n_saved (fst (run conn_calls all_ok ex_nested ex_c))) = Ok 0 /\
  k_has (py "y") (n_saved (fst (run conn_calls all_ok ex_nested ex_c))) = Ok 1 /\
  k_has (py "z") (n_saved (fst (run conn_calls all_ok ex_nested ex_c))) = Ok 1.
Proof. vm_compute. auto. Qed.

(** ** C39 *)
Theorem C39_constructor_flag_is_ignored : forall k tm_auto flag c, connect (Some k) tm_auto flag = Ok c -> n_flag c = flag /\ n_work c = k /\ history c = [k] /\
  (forall b cmd a k', conn_is_read cmd = false -> conn_sem cmd k = (k', Ok a) -> b 0%nat = None ->
   exists c', exec conn_calls b cmd c = (c', Ok a) /\ n_work c' = k' /\ history c' = if tm_auto then [k'; k] else [k]).
Proof. exact C39_lemma. Qed.
Print Assumptions C39_constructor_flag_is_ignored.
Theorem C39_assignment_disables : forall b c cmd c1 c2 r, set_autocommit (VBool false) c = (c1, Ok tt) -> exec conn_calls b cmd c1 = (c2, r) -> history c2 = history c.
Proof. exact C39_off. Qed.
Print Assumptions C39_assignment_disables.
Theorem C39_no_container : forall tm_auto flag, connect None tm_auto flag = Err IncompatibleDatabaseError.
Proof. reflexivity. Qed.
Example C39_case : exists c, connect (Some (ex_k false)) true (VBool false) = Ok c /\ snd (conn_sem (CCreate (py "x") (VInt 1)) (ex_k false)) = Ok (RVal (VInt 1)).
Proof. eexists. split; reflexivity. Qed.

(** ** C40 *)
Theorem C40_create_refuses_existing : forall b c id v w, n_auto c = true -> k_reachable (n_saved c) -> held (n_saved c) id = Some w ->
  exists c', exec conn_calls b (CCreate id v) c = (c', Err ObjectOverwriteError) /\ n_work c' = n_saved c /\ history c' = history c.
Proof. exact C40_present. Qed.
Print Assumptions C40_create_refuses_existing.
Theorem C40_create_stores_fresh : forall b c id v, n_auto c = true -> k_reachable (n_saved c) -> held (n_saved c) id = None ->
  forall c' a, exec conn_calls b (CCreate id v) c = (c', Ok a) -> a = RVal (VInt 1) /\ bound (held (n_saved c)) id v (held (n_saved c')).
Proof. exact C40_fresh. Qed.
Print Assumptions C40_create_stores_fresh.
Theorem C40_create_accepts_fresh : forall b c id v, n_auto c = true -> k_reachable (n_saved c) -> held (n_saved c) id = None -> encodable id ->
  relaxed (k_prim (n_saved c)) -> b (n_calls c) = None -> exists c', exec conn_calls b (CCreate id v) c = (c', Ok (RVal (VInt 1))).
Proof. exact C40_accepted. Qed.
Print Assumptions C40_create_accepts_fresh.
Theorem C40_first_create_wins : forall b l c c' rs, n_auto c = true -> k_reachable (n_saved c) -> creates b l c = (c', rs) ->
  length rs = length l /\
  (forall id w, held (n_saved c) id = Some w -> held (n_saved c') id = Some w) /\
  (forall i id v a, nth_error l i = Some (id, v) -> nth_error rs i = Some (Ok a) -> held (n_saved c') id = Some v) /\
  (forall id w, held (n_saved c') id = Some w -> held (n_saved c) id = Some w \/ exists i a, nth_error l i = Some (id, w) /\ nth_error rs i = Some (Ok a)).
Proof. exact C40_history. Qed.
Print Assumptions C40_first_create_wins.
Example C40_case : k_reachable (n_saved ex_c) /\ held (n_saved ex_c) (py "a") = Some (VInt 1) /\
  snd (creates all_ok [(py "x", VInt 1); (py "x", VInt 2); (py "a", VInt 9)] ex_c) = [Ok (RVal (VInt 1)); Err ObjectOverwriteError; Err ObjectOverwriteError].
Proof. split; [apply ex_k_reach|]. vm_compute. auto. Qed.

(** ** C41: [seen c] is the state the call works on: the committed one with autocommit on, else the working one *)
Theorem C41_update : forall b c c' id v a, k_reachable (seen c) -> exec conn_calls b (CUpdate id v) c = (c', Ok a) ->
  exists previous, a = RVal previous /\ k_read id VNone (seen c) = Ok previous /\
    (exists r, first_truthy id (maps (seen c)) r /\ previous = match r with Some w => w | None => VNone end) /\
    bound (g_abs (k_prim (seen c))) id v (g_abs (k_prim (n_work c'))) /\
    (forall j d, j <> id -> k_read j d (n_work c') = k_read j d (seen c) /\ k_has j (n_work c') = k_has j (seen c)) /\
    (n_auto c = true -> n_saved c' = n_work c').
Proof. exact C41_lemma. Qed.
Print Assumptions C41_update.
Example C41_case : k_reachable (seen ex_c) /\ snd (exec conn_calls all_ok (CUpdate (py "d") (VInt 8)) ex_c) = Ok (RVal (VInt 4)) /\
  snd (exec conn_calls all_ok (CUpdate (py "new") (VInt 8)) ex_c) = Ok (RVal VNone).
Proof. split; [apply ex_k_reach|]. vm_compute. auto. Qed.

(** ** C42 *)
Theorem C42_sessions_behave_like_a_map : forall b u0 cap mcs k flag c ops, commits b -> sizable cap mcs -> container_new u0 cap mcs false = Ok k ->
  connect (Some k) true flag = Ok c -> Forall good_hop ops -> map_history empty_map empty_map true ops (snd (do_hops b ops c)).
Proof. exact C42_lemma. Qed.
Print Assumptions C42_sessions_behave_like_a_map.
(** a session with a lost update, on a one-group container *)
Definition ex_session : list hop :=
  [HCall (CCreate (py "x") (VInt 1)); HAuto false; HCall (CUpdate (py "x") (VInt 2)); HCall (CRead (py "x") VNone); HReopen (VBool true);
   HCall (CRead (py "x") VNone); HEnter; HCall (CDelete (py "x")); HExit true; HCall (CItem (IStr (py "x"))); HCall (CItem (IIter [py "y"; py "x"]))].
Definition ex_one : container := mkK [ex_g false 1 1 1] [0%nat] 0.
Example C42_case : Forall good_hop ex_session /\
  snd (do_hops all_ok ex_session (mkConn ex_one ex_one [] true (VBool true) false 0)) =
  [Ok (RVal (VInt 1)); Ok (RVal (VInt 1)); Ok (RVal (VInt 2)); Ok (RVal (VInt 1)); Ok (RTuple [VInt 1]); Ok (RVal (VInt 1)); Ok (RList [VNone; VInt 1])].
Proof.
  split; [|vm_compute; reflexivity].
  assert (EX : encodable (py "x") /\ encodable (py "y")) by (split; apply Forall_forall; intros ch [<-|[]]; vm_compute; intuition discriminate).
  destruct EX as [EX EY]. unfold ex_session. repeat (apply Forall_cons; [simpl; auto|]); auto.
Qed.

(** ** C43 *)
Theorem C43_index_by_id : forall b id c, k_reachable (n_work c) -> encodable id ->
  (held (n_work c) id = None -> exec conn_calls b (CItem (IStr id)) c = (c, Err KeyError)) /\
  (held (n_work c) id <> None -> exists v, k_read id VNone (n_work c) = Ok v /\ exec conn_calls b (CItem (IStr id)) c = (c, Ok (RVal v))).
Proof. exact C43_str. Qed.
Print Assumptions C43_index_by_id.
Theorem C43_index_by_list : forall b ids c, k_reachable (n_work c) -> Forall encodable ids ->
  exists vs, Forall2 (fun id v => k_read id VNone (n_work c) = Ok v) ids vs /\
    ((exists v, In v vs /\ truthy v = true) -> exec conn_calls b (CItem (IIter ids)) c = (c, Ok (RList vs))) /\
    ((forall v, In v vs -> truthy v = false) -> exec conn_calls b (CItem (IIter ids)) c = (c, Err KeyError)).
Proof. exact C43_list. Qed.
Print Assumptions C43_index_by_list.
Theorem C43_other_index : forall b c, exec conn_calls b (CItem IOther) c = (c, Err IndexError).
Proof. reflexivity. Qed.
Print Assumptions C43_other_index.
Example C43_case : snd (exec conn_calls all_ok (CItem (IIter [py "d"; py "q"])) ex_c) = Ok (RList [VInt 4; VNone]) /\
  snd (exec conn_calls all_ok (CItem (IIter [py "q"])) ex_c) = Err KeyError.
Proof. vm_compute. auto. Qed.

(** ** C77: a commit that fails in an autocommitted call leaves autocommit off *)
Theorem C77_failed_commit_leaves_autocommit_off : forall (S C R : Type) (cs : calls S C R) b cmd c a e,
  n_auto c = true -> is_read cs cmd = false -> snd (sem cs cmd (n_saved c)) = Ok a -> b (n_calls c) = Some e ->
  exists c', exec cs b cmd c = (c', Err e) /\ n_auto c' = false /\ n_failed c' = true /\ n_flag c' = n_flag c.
Proof. exact @failed_commit. Qed.
Print Assumptions C77_failed_commit_leaves_autocommit_off.
Theorem C77_then_no_call_has_an_effect : forall (S C R : Type) (cs : calls S C R) b p c, flat p -> n_auto c = false -> n_failed c = true -> fst (run cs b p c) = c.
Proof. exact @stuck_after_failure. Qed.
Print Assumptions C77_then_no_call_has_an_effect.
Theorem C77_then_every_mutator_raises : forall (S C R : Type) (cs : calls S C R) b cmd c, n_auto c = false -> n_failed c = true -> is_read cs cmd = false ->
  exec cs b cmd c = (c, Err TransactionFailedError).
Proof. exact @stuck_raises. Qed.
Print Assumptions C77_then_every_mutator_raises.
Example C77_case : let b := fun n => match n with O => Some (UserError 7) | _ => None end in
  snd (run conn_calls b (Do (CCreate (py "x") (VInt 1)) (fun _ => Do (CCreate (py "x") (VInt 1)) (fun r => Done r))) ex_c) = Err TransactionFailedError.
Proof. vm_compute. reflexivity. Qed.
