(** Property theorem C94: CitrineConnection (the older connection over DbContainer). *)
From Coq Require Import String.
From Verif Require Import Base BaseFacts Value Dict DictFacts SpecMap RoutingFacts Txn TxnFacts Legacy LegacyFacts LegacyConn LegacyConnFacts.
Open Scope Z_scope.
Open Scope list_scope.

(** Reading aid. [lexec m b cmd c] performs a call with the manager [m]; [lrun] runs a program (calls, with-blocks, exception handling);
    [n_saved] is the committed root, [history] all committed roots; [b n] tells whether the n-th commit fails. [lmap_call] and
    [lmap_session] say what a plain map would do and return (LegacyConnFacts.v). *)

(** ** C94 *)
(** With the default manager every create, update and delete raises AttributeError at once ... *)
Theorem C94_default_manager_refuses : forall b cmd c, lis_read cmd = false -> lexec ThreadDefault b cmd c = (c, Err AttributeError).
Proof. exact default_mutator. Qed.
Print Assumptions C94_default_manager_refuses.
(** ... so no program, with blocks or not, catching exceptions or not, whatever its commits do, changes the database. *)
Theorem C94_default_manager_never_writes : forall b p c, n_work c = n_saved c ->
  let c' := fst (lrun ThreadDefault b p c) in n_work c' = n_saved c /\ n_saved c' = n_saved c /\ Forall (fun s => s = n_saved c \/ In s (n_past c)) (history c').
Proof. exact default_unchanged. Qed.
Print Assumptions C94_default_manager_never_writes.
(** Reading works with either manager and changes nothing. *)
Theorem C94_reads : forall m b id c, lr_wf (n_work c) -> encodable id ->
  lexec m b (LcRead id) c = (c, Ok (LRVal (match l_map (n_work c) id with Some v => v | None => VNone end))).
Proof. intros m b id c W E. unfold lexec, perform. cbn. rewrite lread_spec by auto. reflexivity. Qed.
Print Assumptions C94_reads.
(** With a CitrineTransactionManager the calls of a session behave like a map, each committed on its own; create overwrites. *)
Theorem C94_explicit_manager_session : forall b cmds, (forall n, b n = None) -> forall c, quiet c -> lr_wf (n_saved c) ->
  Forall (fun cmd => Forall encodable (lcmd_ids cmd)) cmds ->
  lmap_session (l_map (n_saved c)) cmds (l_map (n_saved (fst (session Explicit b cmds c)))) (snd (session Explicit b cmds c)).
Proof. exact session_spec. Qed.
Print Assumptions C94_explicit_manager_session.
Theorem C94_create_overwrites : forall b id v c, (forall n, b n = None) -> quiet c -> lr_wf (n_saved c) -> encodable id ->
  snd (lexec Explicit b (LcCreate id v) c) = Ok (LRVal VNone) /\ bound (l_map (n_saved c)) id v (l_map (n_saved (fst (lexec Explicit b (LcCreate id v) c)))).
Proof.
  intros b id v c B Q W E. destruct (lexec_explicit b (LcCreate id v) c B Q W) as (_ & _ & H); [cbn; auto|]. inversion H; auto.
Qed.
Print Assumptions C94_create_overwrites.
(** [setup] adds what is missing, commits it, and leaves what is there alone. *)
Theorem C94_setup : forall b c, (forall n, b n = None) -> n_work c = n_saved c ->
  exists c', lsetup b c = (c', Ok tt) /\ n_work c' = n_saved c' /\ r_meta (n_saved c') = true /\
    r_container (n_saved c') = Some (match r_container (n_saved c) with Some d => d | None => dbc_new end) /\
    (r_container (n_saved c) <> None -> r_meta (n_saved c) = true -> c' = c).
Proof. exact setup_spec. Qed.
Print Assumptions C94_setup.
Theorem C94_managed_setup_fails : forall b c, r_container (n_work c) = None ->
  exists c', managed_setup b c = (c', Err TypeError) /\ n_work c' = n_saved c /\ history c' = history c.
Proof. exact managed_setup_fails. Qed.
Print Assumptions C94_managed_setup_fails.
(** Before [setup], on a database without a container, every call raises AttributeError and commits nothing, with either manager; indexing by
    a slice or anything not iterable raises TypeError all the same, and indexing by no ids gives the empty list. *)
Theorem C94_before_setup : forall m b cmd c, quiet c -> r_container (n_saved c) = None ->
  n_saved (fst (lexec m b cmd c)) = n_saved c /\ history (fst (lexec m b cmd c)) = history c /\
  snd (lexec m b cmd c) = match cmd with LcItem XSlice | LcItem XOther => Err TypeError | LcItem (XIter []) => Ok (LRList []) | _ => Err AttributeError end.
Proof. exact no_container_calls. Qed.
Print Assumptions C94_before_setup.
(** A commit that fails raises its error and leaves the database as it was; from then on every create, update and delete outside a with-block
    raises TransactionFailedError and changes nothing ... *)
Theorem C94_failed_commit : forall b cmd c a e, quiet c -> lis_read cmd = false -> snd (lsem cmd (n_saved c)) = Ok a -> b (n_calls c) = Some e ->
  exists c', lexec Explicit b cmd c = (c', Err e) /\ n_work c' = n_saved c /\ history c' = history c /\
    n_calls c' = Nat.succ (n_calls c) /\
    (forall cmd2, lis_read cmd2 = false -> lexec Explicit b cmd2 c' = (c', Err TransactionFailedError)).
Proof. exact legacy_failed_commit. Qed.
Print Assumptions C94_failed_commit.
(** ... until a with-block: it starts from the saved state, and once its commit succeeds the connection commits each call again. *)
Theorem C94_with_block_recovers : forall b cmd c k a, lis_read cmd = false -> lsem cmd (n_saved c) = (k, Ok a) -> b (n_calls c) = None ->
  exists c', lrun Explicit b (Block (Do cmd Done) Done) c = (c', Ok a) /\ quiet c' /\ n_saved c' = k /\ history c' = k :: history c.
Proof. exact legacy_block_recovers. Qed.
Print Assumptions C94_with_block_recovers.
Definition leg0 : conn lroot := mkConn (mkRoot None false) (mkRoot None false) [] true (VBool true) false 0.
Definition ok_commits : nat -> option exn := fun _ => None.
Definition leg1 : conn lroot := fst (lsetup ok_commits leg0).
Definition leg_cmds : list lcmd :=
  [LcCreate (py "a") (VInt 1); LcCreate (py "a") (VInt 2); LcItem (XIter [py "a"; py "b"]); LcDelete (py "b"); LcDelete (py "a"); LcRead (py "a"); LcItem XSlice].
Example C94_case : quiet leg1 /\ lr_wf (n_saved leg1) /\ Forall (fun cmd => Forall encodable (lcmd_ids cmd)) leg_cmds /\
  snd (session Explicit ok_commits leg_cmds leg1) =
    [Ok (LRVal VNone); Ok (LRVal VNone); Ok (LRList [VInt 2; VNone]); Err KeyError; Ok (LRVal VNone); Ok (LRVal VNone); Err TypeError] /\
  snd (lrun ThreadDefault ok_commits (Block (Do (LcCreate (py "a") (VInt 1)) Done) Done) leg1) = Err AttributeError /\
  r_container (n_work leg0) = None /\ n_work leg0 = n_saved leg0.
Proof.
  split; [now repeat split|]. split; [exists dbc_new; split; [reflexivity|apply (@fresh_wf 1%nat); apply Nat.lt_0_1]|]. split.
  - assert (E : forall ch, In ch [97; 98]%N -> encodable [ch]).
    { intros ch H. apply Forall_cons; [|constructor]. destruct H as [<- |[<- |[]]]; (split; [reflexivity|intros (X & Y); apply X; reflexivity]). }
    assert (EA : encodable (py "a")) by (apply (E 97%N); cbn; auto). assert (EB : encodable (py "b")) by (apply (E 98%N); cbn; auto).
    unfold leg_cmds. repeat (first [assumption | apply Forall_nil | apply Forall_cons | progress cbn [lcmd_ids]]).
  - repeat split; vm_compute; reflexivity.
Qed.
Example C94_before_setup_case : quiet leg0 /\ r_container (n_saved leg0) = None /\ snd (lexec Explicit ok_commits (LcItem (XIter [py "a"])) leg0) = Err AttributeError.
Proof. repeat split. Qed.
(** the commit of the first create fails: the next update raises, the with-block after it succeeds, and the update after that is committed on its own *)
Definition first_fails : nat -> option exn := fun n => if Nat.eqb n 2 then Some ValueError else None.
Example C94_failed_commit_case : quiet leg1 /\ n_calls leg1 = 2%nat /\
  let c1 := fst (lexec Explicit first_fails (LcCreate (py "a") (VInt 1)) leg1) in
  let c2 := fst (lrun Explicit first_fails (Block (Do (LcCreate (py "a") (VInt 2)) Done) Done) c1) in
  let c3 := fst (lexec Explicit first_fails (LcUpdate (py "b") (VInt 3)) c2) in
  snd (lexec Explicit first_fails (LcCreate (py "a") (VInt 1)) leg1) = Err ValueError /\
  snd (lexec Explicit first_fails (LcUpdate (py "a") (VInt 2)) c1) = Err TransactionFailedError /\
  snd (lexec Explicit first_fails (LcItem (XIter [py "a"; py "b"])) c3) = Ok (LRList [VInt 2; VInt 3]) /\ List.length (history c3) = 5%nat.
Proof. repeat split; vm_compute; reflexivity. Qed.
