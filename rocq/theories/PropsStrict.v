(** Property theorem C93: assigning [conn.strict]. *)
From Coq Require Import String.
From Verif Require Import Base BaseFacts Value BTree Collection SpecMap Group RoutingFacts GroupFacts GroupNewFacts StorageThms PropsStorage
  Container ContainerFacts ContainerThms PropsContainer Txn TxnFacts Connection ConnectionFacts ConnHistory PropsConnection ConnStrict ConnStrictFacts.
Open Scope Z_scope.
Open Scope list_scope.

(** ** C93 *)
(** The assignment takes effect in memory ... *)
Theorem C93_assignment : forall v c, k_reachable (n_work c) -> n_failed c = false ->
  exists c', conn_set_strict (VBool v) c = (c', Ok tt) /\ conn_strict c' = v /\ history c' = history c /\ n_auto c' = n_auto c.
Proof.
  intros v c R F. destruct (set_strict_conn v c R F) as (k & _ & -> & S). exists (put k c). auto.
Qed.
Print Assumptions C93_assignment.
Theorem C93_only_booleans : forall v c, (forall x, v <> VBool x) -> conn_set_strict v c = (c, Err TypeError).
Proof. intros v c H. destruct v as [|x| | |]; try reflexivity. now destruct (H x). Qed.
Print Assumptions C93_only_booleans.
(** ... but the next autocommitted create, update or delete, the next with-block and the next connection behave as if it had not happened. *)
Theorem C93_lost_by_the_next_call : forall b v cmd c, n_auto c = true -> conn_is_read cmd = false ->
  exec conn_calls b cmd (fst (conn_set_strict v c)) = exec conn_calls b cmd c.
Proof. exact lost_call. Qed.
Print Assumptions C93_lost_by_the_next_call.
Theorem C93_lost_by_the_next_block : forall b v body next c,
  run conn_calls b (Block body next) (fst (conn_set_strict v c)) = run conn_calls b (Block body next) c.
Proof. exact lost_block. Qed.
Print Assumptions C93_lost_by_the_next_block.
Theorem C93_lost_by_reopening : forall v f c, reopen f (fst (conn_set_strict v c)) = reopen f c.
Proof. exact lost_reopen. Qed.
Print Assumptions C93_lost_by_reopening.
(** Inside a with-block that ends normally the new value is committed, with everything the block does. *)
Theorem C93_kept_by_a_block : forall b v body c k' a, k_reachable (n_saved c) -> flat body ->
  direct conn_calls body (fst (k_set_strict (VBool v) (n_saved c))) = (k', Ok a) -> b (n_calls c) = None ->
  exists c1 c2 c3, conn_set_strict (VBool v) (conn_enter c) = (c1, Ok tt) /\ run conn_calls b body c1 = (c2, Ok a) /\ conn_exit b (Ok a) c2 = (c3, Ok a) /\
    n_saved c3 = k' /\ n_work c3 = k' /\ history c3 = k' :: history c /\ k_strict k' = v.
Proof. exact kept_block. Qed.
Print Assumptions C93_kept_by_a_block.
(** the collection "a" lives in is full: strictness assigned outside a block does not stop the overwriting, assigned in a block it does *)
Definition put_a : prog ccmd cres := Do (CUpdate (py "a") (VInt 9)) Done.
Example C93_case : n_auto ex_c = true /\ n_failed ex_c = false /\ k_reachable (n_work ex_c) /\ flat put_a /\
  conn_strict (fst (conn_set_strict (VBool true) ex_c)) = true /\
  snd (run conn_calls all_ok put_a (fst (conn_set_strict (VBool true) ex_c))) = Ok (RVal (VInt 1)) /\
  snd (run conn_calls all_ok put_a (fst (conn_set_strict (VBool true) (conn_enter ex_c)))) = Err CollectionCapacityError /\
  snd (direct conn_calls put_a (fst (k_set_strict (VBool false) (n_saved ex_c)))) = Ok (RVal (VInt 1)).
Proof.
  split; [reflexivity|]. split; [reflexivity|]. split; [apply ex_k_reach|]. split; [repeat constructor|]. repeat split; vm_compute; reflexivity.
Qed.
