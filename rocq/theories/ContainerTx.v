(** condense and resize of citrine/storage/container.py with a transaction manager *)
From Verif Require Import Base Value BTree Collection Group Container.
Set Implicit Arguments.

(** What the database holds for one container: [t_work] is the in-memory state of the connection, [t_saved] the last
    committed state, [t_past] the committed states before it, newest first. A crash leaves [t_saved]. *)
Record tx := mkTx { t_work : container; t_saved : container; t_past : list container }.
Definition durable (t : tx) : list container := t_saved t :: t_past t.
(** [TransactionManager.commit] / [abort] / [begin] of the ZODB package: [begin] aborts what is pending
    (external; assumed). Simplification: [abort] restores every group reachable from the container. *)
Definition tx_commit (t : tx) : tx := mkTx (t_work t) (t_work t) (durable t).
Definition tx_abort (t : tx) : tx := mkTx (t_saved t) (t_saved t) (t_past t).
Definition tx_put (k : container) (t : tx) : tx := mkTx k (t_saved t) (t_past t).

(** [with transaction_manager as tm] binds [tm] to what the package's [__enter__] returns, and the code then
    calls [tm.commit()]. What the n-th such call does is left open: it commits what is pending (the documented
    intent), does nothing, or raises. *)
Inductive cbeh := CCommit | CNothing | CRaise (e : exn).
Definition call_commit (b : cbeh) (t : tx) : tx * res unit :=
  match b with CCommit => (tx_commit t, Ok tt) | CNothing => (t, Ok tt) | CRaise e => (t, Err e) end.
(** transaction.py:53-67 [__enter__] / [__exit__]: begin; commit if the body ends normally, else abort and re-raise *)
Definition with_block {A} (body : tx -> tx * res A) (t : tx) : tx * res A :=
  match body (tx_abort t) with
  | (t1, Ok a) => (tx_commit t1, Ok a)
  | (t1, Err e) => (tx_abort t1, Err e)
  end.

(** container.py:332-334, with [tm.commit()] after every object; [n] counts the calls made so far *)
Fixpoint tx_keys (b : nat -> cbeh) (transfer : bool) (i : nat) (keys : list pystr) (n : nat) (t : tx) : tx * nat * res unit :=
  match keys with
  | [] => (t, n, Ok tt)
  | key :: keys' =>
      match move transfer i key (t_work t) with
      | (k1, Err e) => (tx_put k1 t, n, Err e)
      | (k1, Ok _) =>
          match call_commit (b n) (tx_put k1 t) with
          | (t1, Err e) => (t1, S n, Err e)
          | (t1, Ok _) => tx_keys b transfer i keys' (S n) t1
          end
      end
  end.
Fixpoint tx_groups (b : nat -> cbeh) (transfer : bool) (src : list nat) (n : nat) (t : tx) : tx * nat * res unit :=
  match src with
  | [] => (t, n, Ok tt)
  | i :: src' =>
      match tx_keys b transfer i (g_keys (grp (t_work t) i)) n t with
      | (t1, n1, Err e) => (t1, n1, Err e)
      | (t1, n1, Ok _) => tx_groups b transfer src' n1 t1
      end
  end.
(** container.py:318-349 [condense]; the source groups are read before the block begins *)
Definition condense_tx (b1 b2 : nat -> cbeh) (transfer : bool) (t : tx) : tx * res (list nat) :=
  let source_groups := tl (k_groups (t_work t)) in
  match with_block (fun t => let '(t1, _, r) := tx_groups b1 transfer source_groups O t in (t1, r)) t with
  | (t1, Err e) => (t1, Err e)
  | (t1, Ok _) =>
      if transfer then
        let discarded := tl (k_groups (t_work t1)) in
        match with_block (fun t => match k_groups (t_work t) with
                                   | [] => (t, Err IndexError)
                                   | p :: _ => call_commit (b2 O) (tx_put (with_groups [p] (t_work t)) t)
                                   end) t1 with
        | (t2, Err e) => (t2, Err e)
        | (t2, Ok _) => (t2, Ok discarded)
        end
      else (t1, Ok [])
  end.
(** container.py:263-300 [resize]. The assignment of [groups[:2]] at line 296 is not committed. *)
Definition resize_tx (b0 b1 b2 : nat -> cbeh) (u0 : N) (capacity mcs : Z) (condense_all transfer : bool) (t : tx) : tx * res (list nat) :=
  match sized_group u0 capacity mcs (k_strict (t_work t)) with
  | Err e => (t, Err e)
  | Ok g =>
      match with_block (fun t => call_commit (b0 O) (tx_put (push_primary g (t_work t)) t)) t with
      | (t1, Err e) => (t1, Err e)
      | (t1, Ok _) =>
          if condense_all then condense_tx b1 b2 transfer t1
          else
            let secondaries := skipn 2 (k_groups (t_work t1)) in
            match condense_tx b1 b2 transfer (tx_put (with_groups (firstn 2 (k_groups (t_work t1))) (t_work t1)) t1) with
            | (t2, Err e) => (t2, Err e)
            | (t2, Ok removed) =>
                (tx_put (with_groups (k_groups (t_work t2) ++ secondaries) (t_work t2)) t2, Ok removed)
            end
      end
  end.
