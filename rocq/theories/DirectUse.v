(** Programs that also use [conn.container] directly: writing, deleting, resizing and condensing without the decorated methods. citrine/connection/container_connection.py:74-80, 91-96 ([container], [capacity]),
    172-254, citrine/storage/container.py:220-388, citrine/storage/transaction.py:24-89. *)
From Verif Require Import Base Value Group Container Txn Connection ConnHistory Session.
Open Scope list_scope.
Set Implicit Arguments.

(** what a program does: the operations of a session (Session.v), or, on [conn.container]: write, delete, resize(capacity, mcs), condense() (both without a transaction manager, transfer=True), or reading [conn.capacity].
    [u0] numbers the uuids of the new collections *)
Inductive xop := XHop (o : hop) | XWrite (id : pystr) (v : pyval) | XDelete (id : pystr) | XResize (u0 : N) (capacity mcs : Z) | XCondense | XCapacity.
(** what it sees; of the list of removed groups that resize and condense return, its length *)
Inductive xout := XSaw (o : sout) | XDid (r : res cres) | XRemoved (r : res nat) | XCap (z : Z).
(** a method of the container changes the working copy only, and not in a failed transaction. Simplification: in a failed transaction it raises even if it would change nothing *)
Definition on_container {A} (fn : container -> container * res A) (c : conn container) : conn container * res A :=
  if n_failed c then (c, Err TransactionFailedError) else let (k, r) := fn (n_work c) in (put k c, r).
Definition raw_write (id : pystr) (v : pyval) (k : container) : container * res cres :=
  match k_write id v k with (k1, Ok (Some z)) => (k1, Ok (RVal (VInt z))) | (k1, Ok None) => (k1, Ok (RVal VNone)) | (k1, Err e) => (k1, Err e) end.
Definition count_of {X} (r : res (list X)) : res nat := match r with Ok l => Ok (length l) | Err e => Err e end.
Definition x_step (b : nat -> option exn) (o : xop) (c : conn container) : conn container * list xout :=
  match o with
  | XHop h => let (c1, os) := s_hop b h c in (c1, map XSaw os)
  | XWrite id v => let (c1, r) := on_container (raw_write id v) c in (c1, [XDid r])
  | XDelete id => let (c1, r) := on_container (do_delete id) c in (c1, [XDid r])
  | XResize u0 cap mcs => let (c1, r) := on_container (resize u0 cap mcs false true) c in (c1, [XRemoved (count_of r)])
  | XCondense => let (c1, r) := on_container (condense true) c in (c1, [XRemoved (count_of r)])
  | XCapacity => (c, [XCap (k_capacity (n_work c))])
  end.
Fixpoint x_run (b : nat -> option exn) (ops : list xop) (c : conn container) : conn container * list xout :=
  match ops with [] => (c, []) | o :: ops' => let (c1, r) := x_step b o c in let (c2, rs) := x_run b ops' c1 in (c2, r ++ rs) end.
