(** citrine/connection/container_connection.py *)
From Verif Require Import Base Value BTree Collection Group Container Txn.
Set Implicit Arguments.

(** index expressions: a string, an iterable of strings, anything else *)
Inductive index := IStr (id : pystr) | IIter (ids : list pystr) | IOther.
(** the methods of a connection *)
Inductive ccmd :=
| CCreate (id : pystr) (v : pyval)
| CUpdate (id : pystr) (v : pyval)
| CDelete (id : pystr)
| CRead (id : pystr) (dflt : pyval)
| CItem (i : index).
(** their results: a value (None is [RVal VNone]), a tuple or a list *)
Inductive cres := RVal (v : pyval) | RTuple (l : list pyval) | RList (l : list pyval).

(** container_connection.py:172-183 [create] *)
Definition do_create (id : pystr) (v : pyval) (k : container) : container * res cres :=
  match k_has id k with
  | Err e => (k, Err e)
  | Ok n => if Z.eqb n 0 then
              match k_write id v k with
              | (k1, Ok (Some z)) => (k1, Ok (RVal (VInt z)))
              | (k1, Ok None) => (k1, Ok (RVal VNone))
              | (k1, Err e) => (k1, Err e)
              end
            else (k, Err ObjectOverwriteError)
  end.
(** container_connection.py:195-207 [update] *)
Definition do_update (id : pystr) (v : pyval) (k : container) : container * res cres :=
  match k_read id VNone k with
  | Err e => (k, Err e)
  | Ok previous => match k_write id v k with
                   | (k1, Ok _) => (k1, Ok (RVal previous))
                   | (k1, Err e) => (k1, Err e)
                   end
  end.
(** container_connection.py:209-218 [delete] *)
Definition do_delete (id : pystr) (k : container) : container * res cres :=
  match k_delete id k with
  | (k1, Ok l) => (k1, Ok (RTuple l))
  | (k1, Err e) => (k1, Err e)
  end.
(** container_connection.py:220-238 [__getitem__] *)
Definition do_item (i : index) (k : container) : res cres :=
  match i with
  | IStr id => match k_has id k with
               | Err e => Err e
               | Ok n => if Z.eqb n 0 then Err KeyError else rbind (k_read id VNone k) (fun v => Ok (RVal v))
               end
  | IIter ids => match mapM (fun id => k_read id VNone k) ids with
                 | Err e => Err e
                 | Ok vs => if existsb truthy vs then Ok (RList vs) else Err KeyError
                 end
  | IOther => Err IndexError
  end.
Definition conn_sem (c : ccmd) (k : container) : container * res cres :=
  match c with
  | CCreate id v => do_create id v k
  | CUpdate id v => do_update id v k
  | CDelete id => do_delete id k
  | CRead id dflt => (k, rbind (k_read id dflt k) (fun v => Ok (RVal v)))     (* container_connection.py:185-193 *)
  | CItem i => (k, do_item i k)
  end.
Definition conn_is_read (c : ccmd) : bool := match c with CRead _ _ | CItem _ => true | _ => false end.
Definition conn_calls : calls container ccmd cres := mkCalls conn_sem conn_is_read.

(** container_connection.py:153-170 [__init__]: [root] is [root.container], if any; [tm_auto] is the autocommit
    flag of the transaction manager passed (True for a new one); [flag] is the [autocommit] argument *)
Definition connect (root : option container) (tm_auto : bool) (flag : pyval) : res (conn container) :=
  match root with
  | None => Err IncompatibleDatabaseError
  | Some k => Ok (mkConn k k [] tm_auto flag false O)
  end.
(** a new connection with a new transaction manager to the same database: what was not committed is gone *)
Definition reopen (flag : pyval) (c : conn container) : conn container :=
  mkConn (n_saved c) (n_saved c) (n_past c) true flag false (n_calls c).
