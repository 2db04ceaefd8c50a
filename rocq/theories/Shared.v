(** Connections of different databases opened with one transaction manager
    (containerdb.py:26-30 [open(transaction_manager=tm)], container_connection.py, transaction.py).
    One connection per database: two connections of one database cannot both write in one transaction (ZODB refuses
    the second [tpc_begin]); this is not modelled. *)
From Verif Require Import Base Value Txn.
Set Implicit Arguments.

Section Shared.
Context {A C R : Type} (cs : calls A C R).

(** [joint] gives each database's state; [h_tx] is the transaction manager with everything that joins its
    transactions (its own [n_flag] is not used), [h_flag i] is [___autocommit___] of connection [i]. *)
Definition joint := nat -> A.
Record shared := mkSh { h_tx : conn joint; h_flag : nat -> pyval }.

Definition upd_at {B} (i : nat) (x : B) (f : nat -> B) : nat -> B := fun j => if Nat.eqb j i then x else f j.
(** the call [snd ic] on the connection [fst ic]: it works on that connection's database only *)
Definition joint_calls : calls joint (nat * C) R :=
  mkCalls (fun ic s => let (k, r) := sem cs (snd ic) (s (fst ic)) in (upd_at (fst ic) k s, r)) (fun ic => is_read cs (snd ic)).

(** container_connection.py:138-143 [conn_i.autocommit = v]: the connection's own flag and the shared manager's *)
Definition s_set (i : nat) (v : pyval) (h : shared) : shared * res unit :=
  match v with
  | VBool a => (mkSh (set_auto a (h_tx h)) (upd_at i v (h_flag h)), Ok tt)
  | _ => (h, Err TypeError)
  end.
(** container_connection.py:240-254 [with conn_i:] and, for [None], transaction.py:24-38 [with tm:] *)
Definition s_enter (h : shared) : shared := mkSh (tm_enter (h_tx h)) (h_flag h).
Definition s_exit (b : nat -> option exn) (who : option nat) (r : res R) (h : shared) : shared * res R :=
  let h1 := match who with Some i => fst (s_set i (VBool true) h) | None => h end in
  let (c, r2) := tm_exit b r (h_tx h1) in (mkSh c (h_flag h1), r2).

(** programs, as in Txn.v, with the connection each step uses *)
Inductive sprog : Type :=
| SDone (r : res R)
| SDo (i : nat) (c : C) (k : res R -> sprog)
| SSet (i : nat) (v : pyval) (k : res unit -> sprog)
| SBlock (who : option nat) (body : sprog) (k : res R -> sprog).

Fixpoint srun (b : nat -> option exn) (p : sprog) (h : shared) : shared * res R :=
  match p with
  | SDone r => (h, r)
  | SDo i cmd k => let (c1, r) := exec joint_calls b (i, cmd) (h_tx h) in srun b (k r) (mkSh c1 (h_flag h))
  | SSet i v k => let (h1, r) := s_set i v h in srun b (k r) h1
  | SBlock who body k =>
      let (h1, r) := srun b body (s_enter h) in
      let (h2, r2) := s_exit b who r h1 in
      srun b (k r2) h2
  end.

(** The commit of a transaction in which several databases take part, inside the transaction and ZODB packages
    (external): after all have voted, they are finished one after the other. [order]: the databases it changes, in
    that order. What a crash before, between or after the steps leaves on disk. *)
Definition crash_state (saved work : joint) (done : list nat) : joint :=
  fun i => if existsb (Nat.eqb i) done then work i else saved i.
Definition crash_states (saved work : joint) (order : list nat) : list joint :=
  map (fun n => crash_state saved work (firstn n order)) (seq 0 (S (List.length order))).
End Shared.
Arguments SDone {C R} r.
Arguments SDo {C R} i c k.
Arguments SSet {C R} i v k.
Arguments SBlock {C R} who body k.
Arguments shared A : clear implicits.
Arguments joint A : clear implicits.
Arguments sprog C R : clear implicits.
