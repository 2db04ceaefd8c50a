(** C135: sessions on a strict container. *)
From Coq Require Import String.
From Verif Require Import Base BaseFacts Value BTree Collection SpecMap CollectionFacts Group RoutingFacts GroupFacts GroupNewFacts Container ContainerFacts ResizeFacts ContainerThms
  Txn TxnFacts Connection ConnectionFacts ConnHistory Db DbFacts GroupRead GroupReadFacts Session SessionFacts StrictFacts.
Open Scope Z_scope.
Open Scope list_scope.

(** Reading aid. As in C126: [ops] is what a program does with a connection, [b i] whether the [i]-th commit asked for fails, [s_hops b ops c] the connection afterwards and what the program saw. [ssession call b t ops os t']
    (StrictFacts.v) is a map with transactions in which a call does what [call] says: here [strict_call n m], a call on a map whose ids are dealt out, by their hash, over [n] collections of [m] places each. It is refused,
    with no effect, in two cases: an object would be added while all [n * m] places are taken ([GroupCapacityError]), or the collection of the id is full ([CollectionCapacityError], also when the id is already in it). *)
(** a session on a new strict database of capacity [cap]: never more objects than places, worked on or committed *)
Theorem C135_session : forall b u0 cap mcs k flag c ops c' os, sizable cap mcs -> container_new u0 cap mcs true = Ok k -> connect (Some k) true flag = Ok c -> Forall good_hop ops -> s_hops b ops c = (c', os) ->
  exists n m w s, k_capacity k = Z.of_nat n * m /\ cap <= Z.of_nat n * m /\
    ssession (strict_call n m) b (mkS 0 empty_map empty_map true false) ops os (mkS (n_calls c') w s (n_auto c') (n_failed c')) /\
    (forall id, held (n_work c') id = w id) /\ (forall id, held (n_saved c') id = s id) /\ (forall z, has_size w z -> z <= k_capacity k) /\ (forall z, has_size s z -> z <= k_capacity k).
Proof. exact strict_new. Qed.
Print Assumptions C135_session.
(** the specification determines what the program sees, the commits asked for, both maps, and the state of the connection *)
Theorem C135_determined : forall n m b t ops os1 t1 os2 t2, ssession (strict_call n m) b t ops os1 t1 -> ssession (strict_call n m) b t ops os2 t2 ->
  os1 = os2 /\ (forall id, s_work t1 id = s_work t2 id) /\ (forall id, s_saved t1 id = s_saved t2 id) /\ s_n t1 = s_n t2 /\ s_auto t1 = s_auto t2 /\ s_failed t1 = s_failed t2.
Proof. exact strict_determined. Qed.
Print Assumptions C135_determined.
(** two collections of two places: [x], [z] and [b] belong to the first, [y], [a] and [c] to the second. The fifth commit fails. *)
Definition fifth_fails (i : nat) : option exn := if Nat.eqb i 4 then Some IOError else None.
Definition cr (id : string) (v : Z) : hop := HCall (CCreate (py id) (VInt v)).
Definition ch (id : string) (v : Z) : hop := HCall (CUpdate (py id) (VInt v)).
Definition ex_strict_ops : list hop :=
  [cr "x" 1; cr "y" 2; cr "z" 3; cr "b" 4; ch "x" 5; cr "a" 6; cr "c" 7; cr "x" 8; HCall (CDelete (py "x")); HAuto true; HCall (CDelete (py "x")); ch "b" 9; ch "z" 10; HEnter; ch "y" 11; HCall (CDelete (py "a")); ch "y" 11; HExit false;
   HCall (CItem (IIter [py "x"; py "y"; py "z"; py "a"; py "b"]))].
Lemma ex_strict_good : Forall good_hop ex_strict_ops.
Proof.
  assert (EN : forall id, In id [py "x"; py "y"; py "z"; py "a"; py "b"; py "c"] -> encodable id).
  { intros id I. cbn [In] in I. destruct I as [<-|[<-|[<-|[<-|[<-|[<-|[]]]]]]]; apply Forall_forall; intros ch [<-|[]]; vm_compute; intuition discriminate. }
  unfold ex_strict_ops, cr, ch. repeat (apply Forall_cons; [cbn [good_hop good_call]; first [exact I|split; [apply EN; cbn [In]; tauto|reflexivity]|apply EN; cbn [In]; tauto|repeat (apply Forall_cons; [apply EN; cbn [In]; tauto|]); apply Forall_nil]|]). apply Forall_nil.
Qed.
Example C135_case : sizable 4 2 /\ Forall good_hop ex_strict_ops /\ exists k, container_new 0 4 2 true = Ok k /\ exists c, connect (Some k) true (VBool true) = Ok c /\
  snd (s_hops fifth_fails ex_strict_ops c) =
  [SCall (Ok (RVal (VInt 1))); SCall (Ok (RVal (VInt 1))); SCall (Ok (RVal (VInt 1))); SCall (Err CollectionCapacityError); SCall (Err CollectionCapacityError); SCall (Ok (RVal (VInt 1)));
   SCall (Err GroupCapacityError); SCall (Err ObjectOverwriteError); SCall (Err IOError); SCall (Ok (RTuple [VInt 1])); SCall (Ok (RVal VNone)); SCall (Err CollectionCapacityError);
   SCall (Err CollectionCapacityError); SCall (Ok (RTuple [VInt 6])); SCall (Ok (RVal (VInt 2))); SExit (Ok tt); SCall (Ok (RList [VNone; VInt 11; VInt 3; VNone; VInt 9]))].
Proof.
  split; [apply sizable_small; lia|]. split; [exact ex_strict_good|]. eexists. split; [vm_compute; reflexivity|]. eexists. split; [reflexivity|]. vm_compute. reflexivity.
Qed.
