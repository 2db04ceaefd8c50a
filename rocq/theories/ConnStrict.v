(** citrine/connection/container_connection.py: the [strict] property of a connection *)
From Verif Require Import Base Value BTree Collection Group Container Txn Connection.

(** container_connection.py:115-117 [strict]: the container's, in the state seen in memory *)
Definition conn_strict (c : conn container) : bool := k_strict (n_work c).
(** container_connection.py:119-123 [strict] setter. It is not decorated with [autocommit]: it changes the objects in memory, which joins them to
    the current transaction. Simplification (as in Txn.v): in a failed transaction the assignment raises. *)
Definition conn_set_strict (v : pyval) (c : conn container) : conn container * res unit :=
  match v with
  | VBool _ => if n_failed c then (c, Err TransactionFailedError)
               else let (k, r) := k_set_strict v (n_work c) in (put k c, r)
  | _ => (c, Err TypeError)
  end.
