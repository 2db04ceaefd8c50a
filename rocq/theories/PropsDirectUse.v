(** C133: programs that also work on [conn.container] directly. *)
From Coq Require Import String.
From Verif Require Import Base BaseFacts Value BTree Collection SpecMap Group RoutingFacts GroupFacts GroupNewFacts StorageThms PropsStorage Container ContainerFacts ResizeFacts ContainerThms PropsContainer
  Txn TxnFacts Connection ConnectionFacts ConnHistory Db DbFacts GroupRead GroupReadFacts Session SessionFacts PropsSession DirectUse DirectUseFacts.
Open Scope Z_scope.
Open Scope list_scope.

(** Reading aid. A program ([xop]) makes the operations of C126's sessions and, between them, calls write, delete, resize and condense on [conn.container] and reads [conn.capacity]. [xsession b m ops os m'] (DirectUseFacts.v) is the
    specification: a state [m] is what the program works on (a map and a capacity), what is committed (a map and a capacity), autocommit, whether the transaction failed, and how many commits were asked for. In it a direct
    operation changes what the program works on, whatever autocommit is, and commits nothing; an autocommitted call starts from what is committed. *)
(** a session on a new database that also uses the container directly is a session on a map with a capacity *)
Theorem C133_session : forall b u0 cap mcs k flag c ops c' os, sizable cap mcs -> container_new u0 cap mcs false = Ok k -> connect (Some k) true flag = Ok c -> Forall good_xop ops -> x_run b ops c = (c', os) ->
  exists w s, xsession b (mkM 0 empty_map (k_capacity k) empty_map (k_capacity k) true false) ops os (mkM (n_calls c') w (k_capacity (n_work c')) s (k_capacity (n_saved c')) (n_auto c') (n_failed c')) /\
    (forall id, held (n_work c') id = w id) /\ (forall id, held (n_saved c') id = s id).
Proof. exact session_new. Qed.
Print Assumptions C133_session.
(** the specification determines what the program sees and both maps and capacities *)
Theorem C133_determined : forall b m ops os1 m1 os2 m2, Forall good_xop ops -> xsession b m ops os1 m1 -> xsession b m ops os2 m2 ->
  os1 = os2 /\ (forall id, m_work m1 id = m_work m2 id) /\ m_wcap m1 = m_wcap m2 /\ (forall id, m_saved m1 id = m_saved m2 id) /\ m_scap m1 = m_scap m2 /\ m_auto m1 = m_auto m2 /\ m_failed m1 = m_failed m2.
Proof. exact determined. Qed.
Print Assumptions C133_determined.
(** the capacity that resize gives depends on its arguments only, and is enough *)
Theorem C133_capacity : forall cap mcs, sizable cap mcs -> exists z, cap <= z /\ forall u0 strict k, container_new u0 cap mcs strict = Ok k -> k_capacity k = z.
Proof. exact capacity_fixed. Qed.
Print Assumptions C133_capacity.
(** with autocommit on, what was done to the container directly is as if never done for the next call that writes, on any container: [p] is any change to the working copy, [b] which commits fail *)
Theorem C133_forgotten : forall b cmd (c : conn container) p, n_auto c = true -> conn_is_read cmd = false ->
  exec conn_calls b cmd (mkConn p (n_saved c) (n_past c) (n_auto c) (n_flag c) (n_failed c) (n_calls c)) = exec conn_calls b cmd c.
Proof. exact forgotten_any. Qed.
Print Assumptions C133_forgotten.
(** leaving a [with conn:] block, or with autocommit off until the block is left: direct operations are committed with the rest *)
Theorem C133_kept : forall b (c : conn container), n_failed c = false -> b (n_calls c) = None -> n_saved (fst (conn_exit b (Ok tt) c)) = n_work c.
Proof. exact kept_by_exit. Qed.
Print Assumptions C133_kept.
(** a resize and a write by hand are lost by the next autocommitted call; in a block they are committed; [delete] by hand after a failed commit raises *)
Definition fourth_fails (i : nat) : option exn := if Nat.eqb i 3 then Some IOError else None.
Definition ex_xops : list xop :=
  [XHop (HCall (CCreate (py "x") (VInt 1))); XResize 9 4 2; XWrite (py "z") (VInt 7); XCapacity; XHop (HCall (CRead (py "z") VNone)); XHop (HCall (CCreate (py "y") (VInt 2))); XCapacity; XHop (HCall (CRead (py "z") VNone));
   XHop HEnter; XResize 9 4 2; XWrite (py "z") (VInt 7); XDelete (py "x"); XCondense; XHop (HExit false); XCapacity; XHop (HCall (CItem (IIter [py "x"; py "y"; py "z"])));
   XHop (HCall (CUpdate (py "y") (VInt 3))); XDelete (py "y")].
Lemma ex_xops_good : Forall good_xop ex_xops.
Proof.
  assert (EX : encodable (py "x") /\ encodable (py "y") /\ encodable (py "z")) by (split; [|split]; apply Forall_forall; intros ch [<-|[]]; vm_compute; intuition discriminate).
  destruct EX as (EX & EY & EZ). assert (SZ : sizable 4 2) by (apply sizable_small; lia). unfold ex_xops. repeat (apply Forall_cons; [simpl; auto|]); auto.
Qed.
Example C133_case : Forall good_xop ex_xops /\
  snd (x_run fourth_fails ex_xops (mkConn ex_box ex_box [] true (VBool true) false 0)) =
  [XSaw (SCall (Ok (RVal (VInt 1)))); XRemoved (Ok 1%nat); XDid (Ok (RVal (VInt 1))); XCap 4; XSaw (SCall (Ok (RVal (VInt 7)))); XSaw (SCall (Ok (RVal (VInt 1)))); XCap 3; XSaw (SCall (Ok (RVal VNone)));
   XRemoved (Ok 1%nat); XDid (Ok (RVal (VInt 1))); XDid (Ok (RTuple [VInt 1])); XRemoved (Ok 0%nat); XSaw (SExit (Ok tt)); XCap 4; XSaw (SCall (Ok (RList [VNone; VInt 2; VInt 7])));
   XSaw (SCall (Err IOError)); XDid (Err TransactionFailedError)].
Proof. split; [exact ex_xops_good|]. vm_compute. reflexivity. Qed.
