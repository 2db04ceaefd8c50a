(** Property theorems C84-C86: creating, opening and entering a database. *)
From Coq Require Import String.
From Verif Require Import Base BaseFacts Value BTree Utils Collection SpecMap Group Container ContainerFacts ResizeFacts ContainerThms RoutingFacts Txn TxnFacts Connection ConnHistory PropsContainer Db DbFacts.
Open Scope Z_scope.
Open Scope list_scope.

(** ** C84: creating a database at a path.
    [f] is what the file held before, arbitrary; [truncate] and [strict] are the caller's arguments [create] and [strict]. [held k id = None] for every id: the container is empty. *)
Theorem C84_create_replaces_the_container : forall u0 cap truncate strict f, 1 <= cap < 2 ^ 53 ->
  exists k, container_new u0 cap DEFAULT_COLLECTION_SIZE false = Ok k /\ k_ok k /\ (forall id, held k id = None) /\ Forall (fun c => c_strict c = false) (k_prim k) /\ cap <= k_capacity k /\
    db_create u0 cap truncate strict (Ok tt) f = (Some (mkRoot (Some k) (if truncate then [] else rt_other (plain_db f))), Ok tt).
Proof. exact C84_create. Qed.
Print Assumptions C84_create_replaces_the_container.
(** nothing stored before can be read afterwards, whatever [create=False] suggests *)
Theorem C84_earlier_objects_gone : forall u0 cap truncate strict f f1 c id d, 1 <= cap < 2 ^ 53 -> encodable id ->
  db_create u0 cap truncate strict (Ok tt) f = (f1, Ok tt) -> db_open f1 = Ok c -> k_read id d (n_work c) = Ok d /\ k_has id (n_work c) = Ok 0.
Proof. exact C84_gone. Qed.
Print Assumptions C84_earlier_objects_gone.
Theorem C84_new_database_is_an_empty_map : forall b u0 cap truncate strict f f1 c ops, commits b -> 1 <= cap < 2 ^ 53 ->
  db_create u0 cap truncate strict (Ok tt) f = (f1, Ok tt) -> db_open f1 = Ok c -> Forall good_hop ops ->
  map_history empty_map empty_map true ops (snd (do_hops b ops c)).
Proof. exact C84_session. Qed.
Print Assumptions C84_new_database_is_an_empty_map.
(** a failing commit leaves the file as it was, unless it was truncated; capacity 0 leaves it untouched *)
Theorem C84_failed_commit : forall u0 cap truncate strict e f, 1 <= cap < 2 ^ 53 ->
  db_create u0 cap truncate strict (Err e) f = (Some (if truncate then empty_root else plain_db f), Err e).
Proof. exact C84_failed. Qed.
Print Assumptions C84_failed_commit.
Theorem C84_capacity_zero : forall u0 truncate strict commit f, db_create u0 0 truncate strict commit f = (f, Err ValueError).
Proof. exact C84_zero. Qed.
Print Assumptions C84_capacity_zero.
(** [new] replaces the container too, and with a [databases] dict it raises after having done so *)
Theorem C84_new_with_databases : forall u0 cap (truncate : bool) strict name f, 1 <= cap < 2 ^ 53 ->
  exists k, container_new u0 cap DEFAULT_COLLECTION_SIZE false = Ok k /\ (forall id, held k id = None) /\
    let f1 := Some (mkRoot (Some k) (if truncate then [] else rt_other (plain_db f))) in
    (forall commit2, db_new u0 cap truncate strict None name (Ok tt) commit2 f = (f1, None, Ok tt)) /\
    (forall l commit2, exists d, db_new u0 cap truncate strict (Some l) name (Ok tt) commit2 f = (f1, d, Err ValueError)).
Proof. exact C84_new. Qed.
Print Assumptions C84_new_with_databases.
(** [new] fails like [create] when that fails *)
Theorem C84_new_fails_with_create : forall u0 truncate strict databases name commit2 f,
  (forall cap e, 1 <= cap < 2 ^ 53 -> db_new u0 cap truncate strict databases name (Err e) commit2 f = (Some (if truncate then empty_root else plain_db f), databases, Err e)) /\
  (forall commit, db_new u0 0 truncate strict databases name commit commit2 f = (f, databases, Err ValueError)).
Proof. exact C84_new_fails. Qed.
Print Assumptions C84_new_fails_with_create.
(** the file of a database in use: "a" is stored, and cannot be read after creating again with [create=False] *)
Definition ex_file : file := Some (mkRoot (Some (ex_k false)) [(py "other", VInt 1)]).
Example C84_case : 1 <= 100000 < 2 ^ 53 /\ encodable (py "a") /\
  (exists c, db_open ex_file = Ok c /\ k_read (py "a") VNone (n_work c) = Ok (VInt 1)) /\
  (exists f1 c, db_create 7 100000 false true (Ok tt) ex_file = (f1, Ok tt) /\ db_open f1 = Ok c /\ k_read (py "a") VNone (n_work c) = Ok VNone /\ rt_other (plain_db f1) = [(py "other", VInt 1)]).
Proof.
  assert (H : 1 <= 100000 < 2 ^ 53) by (change (2 ^ 53) with 9007199254740992; lia). assert (N : encodable (py "a")) by (apply Forall_forall; intros ch [<-|[]]; vm_compute; intuition discriminate).
  split; [exact H|]. split; [exact N|]. split; [eexists; split; [reflexivity|vm_compute; reflexivity]|].
  destruct (C84_create 7 false true ex_file H) as (k & _ & _ & _ & _ & _ & E). eexists _, _. split; [exact E|]. split; [reflexivity|].
  split; [exact (proj1 (C84_gone 7 false true ex_file VNone H N E eq_refl))|reflexivity].
Qed.

(** ** C85: opening *)
Theorem C85_existing_container_unchanged : forall u0 name commit r k, rt_container r = Some k -> db_init u0 None name commit (Some r) = (Some r, None, Ok tt).
Proof. exact C85_existing. Qed.
Print Assumptions C85_existing_container_unchanged.
Theorem C85_foreign_database_refused : forall u0 name commit r, rt_container r = None -> db_init u0 None name commit (Some r) = (Some r, None, Err IncompatibleDatabaseError).
Proof. exact C85_no_container. Qed.
Print Assumptions C85_foreign_database_refused.
Theorem C85_empty_storage_gets_a_container : forall u0 name, exists k, container_new u0 DEFAULT_CONTAINER_SIZE DEFAULT_COLLECTION_SIZE false = Ok k /\ k_ok k /\ (forall id, held k id = None) /\
  DEFAULT_CONTAINER_SIZE <= k_capacity k /\
  db_init u0 None name (Ok tt) None = (Some (mkRoot (Some k) []), None, Ok tt) /\
  (forall e, db_init u0 None name (Err e) None = (Some empty_root, None, Err e)).
Proof. exact C85_new_file. Qed.
Print Assumptions C85_empty_storage_gets_a_container.
(** if that first commit fails, the storage is left with a root without container and every later opening is refused *)
Theorem C85_failed_first_commit_is_final : forall u0 u1 name name' e commit f1 d, db_init u0 None name (Err e) None = (f1, d, Err e) ->
  db_init u1 None name' commit f1 = (f1, None, Err IncompatibleDatabaseError).
Proof. intros * H. destruct (C85_new_file u0 name) as (k & _ & _ & _ & _ & _ & F). rewrite F in H. apply pair_equal_spec in H as [H _]. apply pair_equal_spec in H as [<- _]. exact (C85_no_container u1 name' commit empty_root eq_refl). Qed.
Print Assumptions C85_failed_first_commit_is_final.
(** passing a [databases] dict never succeeds *)
Theorem C85_databases_always_fails : forall u0 l name commit f, exists f1 d e, db_init u0 (Some l) name commit f = (f1, d, Err e) /\
  (commit = Ok tt -> (forall r, f = Some r -> rt_container r <> None) -> e = ValueError).
Proof. exact C85_databases. Qed.
Print Assumptions C85_databases_always_fails.
(** the client: creating is refused, connecting never changes the server's root, whatever [strict] *)
Theorem C85_client_never_creates : (forall f, client_new f = (f, Err NotImplementedError)) /\
  forall u0 strict name commit r, client_connect u0 strict None name commit r = (r, None, match rt_container r with Some _ => Ok tt | None => Err IncompatibleDatabaseError end).
Proof. split; [reflexivity|exact C85_client_connect]. Qed.
Print Assumptions C85_client_never_creates.
Example C85_case : (exists r k, ex_file = Some r /\ rt_container r = Some k) /\ rt_container empty_root = None /\
  exists f1, db_init 3 None (py "unnamed") (Err IOError) None = (f1, None, Err IOError) /\ snd (db_init 3 (Some [py "main"]) (py "unnamed") (Ok tt) ex_file) = Err ValueError.
Proof.
  split; [eexists _, _; split; reflexivity|]. split; [reflexivity|]. destruct (C85_new_file 3 (py "unnamed")) as (k & _ & _ & _ & _ & _ & F). eexists. split; [apply F|]. vm_compute. reflexivity.
Qed.

(** ** C86: [with db as conn] blocks, nested in any way.
    The i-th opening is numbered i. A connection is closed if and only if nothing was opened between its opening and the end of its own block. *)
Theorem C86_closed_iff_innermost : forall p c l e, d_run p = (c, l, e) -> opened l = seq 0 (x_next c) /\
  forall i, In (Closed i) l <-> exists l1 l2, l = l1 ++ Opened i :: Closed i :: l2.
Proof. exact C86_lemma. Qed.
Print Assumptions C86_closed_iff_innermost.
Theorem C86_block : forall body c c1 l e, d_stmt (DWith body) c = (c1, l, e) -> In (Opened (x_next c)) l /\ (In (Closed (x_next c)) l <-> x_next c1 = S (x_next c)).
Proof. exact C86_block_lemma. Qed.
Print Assumptions C86_block.
(** so there is a program of which the outer connection stays open *)
Theorem C86_every_connection_closed_refuted : exists p c l, d_run p = (c, l, None) /\ In (Opened 0) l /\ ~ In (Closed 0) l.
Proof.
  exists [DWith [DWith []]]. eexists _, _. split; [vm_compute; reflexivity|]. split; [left; reflexivity|]. intros H. simpl in H. intuition discriminate.
Qed.
Print Assumptions C86_every_connection_closed_refuted.
Example C86_case : d_run [DWith []; DTry [DWith [DWith [DRaise KeyError]]]; DWith []] =
  (mkCtx 4 (Some 3%nat), [Opened 0; Closed 0; Opened 1; Opened 2; Closed 2; Closed 2; Opened 3; Closed 3]%nat, None).
Proof. reflexivity. Qed.
