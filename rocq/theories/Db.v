(** citrine/database/containerdb.py [ContainerDb] and citrine/client/container_client.py [ContainerClient]: what creating, opening and entering a database does to its file.
    ZODB itself is outside the repository. What is used of it: a storage holds the last committed root object, if there is one; [ZODB.DB(storage)] commits an empty root if there is none;
    reading the root when there is none raises POSKeyError; [DB.__init__] raises ValueError if its name is already in [databases] and adds it otherwise, before it opens its first connection;
    a commit either stores everything or raises and stores nothing. *)
From Verif Require Import Base Value Utils Group Container Txn Connection.
Open Scope Z_scope.
Set Implicit Arguments.

(** the root object: [root.container], if set, and any other entries *)
Record root := mkRoot { rt_container : option container; rt_other : list (pystr * pyval) }.
(** what a FileStorage holds *)
Definition file := option root.
(** POSKeyError is a subclass of KeyError; no other KeyError occurs below *)
Notation POSKeyError := KeyError (only parsing).
Definition empty_root : root := mkRoot None [].
(** ZODB.DB(storage) *)
Definition plain_db (f : file) : root := match f with Some r => r | None => empty_root end.
(** citrine/storage/consts.py:8-9 *)
Definition DEFAULT_COLLECTION_SIZE : Z := 5000.
Definition DEFAULT_CONTAINER_SIZE : Z := 100000.

(** containerdb.py:141-190 [create]. [truncate] is the argument [create], passed on to FileStorage; [commit] is what the commit does. The argument [strict] is not used. *)
Definition db_create (u0 : N) (capacity : Z) (truncate strict : bool) (commit : res unit) (f : file) : file * res unit :=
  match container_new u0 capacity DEFAULT_COLLECTION_SIZE false with
  | Err e => (f, Err e)
  | Ok k => let r := plain_db (if truncate then None else f) in
            match commit with Err e => (Some r, Err e) | Ok _ => (Some (mkRoot (Some k) (rt_other r)), Ok tt) end
  end.

(** ZODB.DB.__init__ with klass = ContainerConnection, whose constructor looks for [root.container] (container_connection.py:153-170).
    [databases]: the names in the dict passed, if one is passed. *)
Definition base_init (databases : option (list pystr)) (name : pystr) (f : file) : option (list pystr) * res unit :=
  match databases with
  | Some l => if mem_str name l then (databases, Err ValueError)
              else (Some (l ++ [name]), match f with None => Err POSKeyError | Some r => match connect (rt_container r) true (VBool true) with Ok _ => Ok tt | Err e => Err e end end)
  | None => (None, match f with None => Err POSKeyError | Some r => match connect (rt_container r) true (VBool true) with Ok _ => Ok tt | Err e => Err e end end)
  end.
(** containerdb.py:32-139 [__init__] for a FileStorage: the base class is initialised twice *)
Definition db_init (u0 : N) (databases : option (list pystr)) (name : pystr) (commit : res unit) (f : file) : file * option (list pystr) * res unit :=
  let second := fun (d : option (list pystr)) (f : file) => let (d2, r) := base_init d name f in (f, d2, r) in
  match base_init databases name f with
  | (d, Ok _) => second d f
  | (d, Err POSKeyError) =>
      let r := plain_db f in
      match rt_container r with
      | Some _ => second d (Some r)
      | None => match container_new u0 DEFAULT_CONTAINER_SIZE DEFAULT_COLLECTION_SIZE false return file * option (list pystr) * res unit with
                | Err e => (Some r, d, Err e)
                | Ok k => match commit with
                          | Err e => (Some r, d, Err e)
                          | Ok _ => second d (Some (mkRoot (Some k) (rt_other r)))
                          end
                end
      end
  | (d, Err e) => (f, d, Err e)
  end.
(** containerdb.py:192-250 [load] is the constructor. containerdb.py:252-376 [new]: [create], then [load]; [commit]s: of [create] and of [load] *)
Definition db_new (u0 : N) (capacity : Z) (truncate strict : bool) (databases : option (list pystr)) (name : pystr) (commit commit2 : res unit) (f : file) : file * option (list pystr) * res unit :=
  match db_create u0 capacity truncate strict commit f with
  | (f1, Err e) => (f1, databases, Err e)
  | (f1, Ok _) => db_init u0 databases name commit2 f1
  end.
(** containerdb.py:26-30 [open]: a new connection with a new transaction manager (C39) *)
Definition db_open (f : file) : res (conn container) := match f with None => Err POSKeyError | Some r => connect (rt_container r) true (VBool true) end.

(** container_client.py:26-29 [create], and [new] inherited from ContainerDb, which calls it *)
Definition client_create : res unit := Err NotImplementedError.
Definition client_new (f : file) : file * res unit := match client_create with Err e => (f, Err e) | Ok _ => (f, Ok tt) end.
(** container_client.py:32-199 [connect] to a server whose storage has a root: [load], then a test for [root.container].
    [commit]: of a new container. (A server without any root is not modelled.) *)
Definition client_connect (u0 : N) (strict : bool) (databases : option (list pystr)) (name : pystr) (commit : res unit) (r : root) : root * option (list pystr) * res unit :=
  match db_init u0 databases name (Ok tt) (Some r) with
  | (f, d, Err e) => (plain_db f, d, Err e)
  | (f, d, Ok _) =>
      let r1 := plain_db f in
      match rt_container r1 with
      | Some _ => (r1, d, Ok tt)
      | None => match container_new u0 DEFAULT_CONTAINER_SIZE DEFAULT_COLLECTION_SIZE strict return root * option (list pystr) * res unit with
                | Err e => (r1, d, Err e)
                | Ok k => match commit with Err e => (r1, d, Err e) | Ok _ => (mkRoot (Some k) (rt_other r1), d, Ok tt) end
                end
      end
  end.

(** ** containerdb.py:378-389 [__enter__] and [__exit__]: one attribute holds the connection of the [with] block.
    Openings are numbered; closing a connection that is closed already changes nothing. *)
Record dbctx := mkCtx { x_next : nat; x_current : option nat }.
Inductive event := Opened (i : nat) | Closed (i : nat).
(** statements: [with db as conn: body], raising, catching *)
Inductive dstmt := DWith (body : list dstmt) | DRaise (e : exn) | DTry (body : list dstmt).
Definition d_enter (c : dbctx) : dbctx * list event := (mkCtx (S (x_next c)) (Some (x_next c)), [Opened (x_next c)]).
Definition d_exit (c : dbctx) : list event * option exn := match x_current c with Some i => ([Closed i], None) | None => ([], Some AttributeError) end.
Definition dout := (dbctx * list event * option exn)%type.
Definition d_seq (f : dstmt -> dbctx -> dout) := fix go (p : list dstmt) (c : dbctx) : dout :=
  match p with
  | [] => (c, [], None)
  | x :: p' => match f x c with
               | (c1, l, Some e) => (c1, l, Some e)
               | (c1, l, None) => let '(c2, l2, e) := go p' c1 in (c2, l ++ l2, e)
               end
  end.
Fixpoint d_stmt (x : dstmt) (c : dbctx) : dout :=
  match x with
  | DRaise e => (c, [], Some e)
  | DTry body => let '(c1, l, _) := d_seq d_stmt body c in (c1, l, None)
  | DWith body =>
      let (c0, l0) := d_enter c in
      let '(c1, l1, e) := d_seq d_stmt body c0 in
      let (l2, e2) := d_exit c1 in
      (c1, l0 ++ l1 ++ l2, match e2 with Some x => Some x | None => e end)
  end.
Definition d_run (p : list dstmt) : dout := d_seq d_stmt p (mkCtx 0 None).
