(** citrine/persistence.py: what [CitrineTransactionManager] and [autocommit] write to the log *)
From Coq Require Import String.
From Verif Require Import Base Value Dict Txn Legacy LegacyConn.
Open Scope list_scope.
Set Implicit Arguments.

(** log records: persistence.py:36 ['START TRANSACTION {uuid}'], 75 and 78 ['{uuid}: {fn.__name__} {id}'], 43 ['TRANSACTION {uuid} SUCCESSFUL'], 46 ['TRANSACTION {uuid} FAILED'].
    Simplification: uuid4 gives a number not given before; the uuid may be None in the last two. *)
Inductive entry := LStart (u : nat) | LCall (u : nat) (fn id : pystr) | LGood (u : option nat) | LBad (u : option nat).
(** [t_uuid]: [transaction_uuid] of the manager (None before the first transaction, where the attribute is missing and line 74 reads None); [t_next]: the next uuid *)
Record tlog := mkT { t_uuid : option nat; t_next : nat; t_log : list entry }.
Definition say (e : entry) (t : tlog) : tlog := mkT (t_uuid t) (t_next t) (t_log t ++ [e]).
Definition astate := (conn lroot * tlog)%type.
(** the name and the id that are logged: connection.py:63, 83, 93; reads are not decorated *)
Definition named (u : nat) (cmd : lcmd) : entry :=
  match cmd with
  | LcCreate id _ => LCall u (py "create") id
  | LcUpdate id _ => LCall u (py "update") id
  | LcDelete id => LCall u (py "delete") id
  | LcRead _ | LcItem _ => LCall u [] []
  end.
(** persistence.py:34-38 [__enter__] *)
Definition a_enter (s : astate) : astate :=
  let (c, t) := s in (tm_enter c, mkT (Some (t_next t)) (Datatypes.S (t_next t)) (t_log t ++ [LStart (t_next t)])).
(** persistence.py:40-48 [__exit__]: a commit that raises leaves the log, the uuid and autocommit as they are *)
Definition a_exit {A} (b : nat -> option exn) (r : res A) (s : astate) : astate * res A :=
  let (c, t) := s in
  match r with
  | Ok _ => match tm_commit b c with
            | (c1, Ok _) => ((set_auto true c1, mkT None (t_next t) (t_log t ++ [LGood (t_uuid t)])), r)
            | (c1, Err e) => ((c1, t), Err e)
            end
  | Err e => ((set_auto true (tm_abort c), mkT None (t_next t) (t_log t ++ [LBad (t_uuid t)])), Err e)
  end.
(** persistence.py:64-81 [autocommit] around connection.py:63-100; with the default manager reading [tm.autocommit] raises first *)
Definition a_call (m : manager) (b : nat -> option exn) (cmd : lcmd) (s : astate) : astate * res lres :=
  let (c, t) := s in
  if lis_read cmd then let (c1, r) := perform legacy_calls cmd c in ((c1, t), r)
  else match m with
       | ThreadDefault => (s, Err AttributeError)
       | Explicit =>
           if n_auto c then
             let u := t_next t in
             let (c0, t0) := a_enter s in
             let (c1, r) := perform legacy_calls cmd c0 in a_exit b r (c1, say (named u cmd) t0)
           else
             let t1 := match t_uuid t with Some u => say (named u cmd) t | None => t end in
             let (c1, r) := perform legacy_calls cmd c in ((c1, t1), r)
       end.
(** programs: as [lrun] (LegacyConn.v), connection.py:113-117 *)
Fixpoint a_run (m : manager) (b : nat -> option exn) (p : prog lcmd lres) (s : astate) : astate * res lres :=
  match p with
  | Done r => (s, r)
  | Do cmd k => let (s1, r) := a_call m b cmd s in a_run m b (k r) s1
  | SetAuto _ k => a_run m b (k (Ok tt)) s
  | Block body k =>
      let (s1, r) := a_run m b body (a_enter s) in
      let (s2, r2) := a_exit b r s1 in
      a_run m b (k r2) s2
  end.
