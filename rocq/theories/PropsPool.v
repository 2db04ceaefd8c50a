(** C132: closed connections that are handed out again *)
From Coq Require Import String.
From Verif Require Import Base Value Group Container SpecMap RoutingFacts ContainerFacts ResizeFacts ContainerThms Txn Connection ConnectionFacts ConnHistory Session SessionFacts Pool PoolFacts PropsStorage PropsContainer.
Open Scope nat_scope.
Open Scope list_scope.

(** Reading aid. [p_run busy registers b ops p]: the state and what the program saw after [ops] (calls, assignments to and readings of [conn.autocommit], blocks, and [PAgain]: close the connection and open one again).
    [b i]: whether the [i]-th commit succeeds. [busy]: ConnectionStateError. [registers]: which calls change stored objects, any account that is right about those it says change nothing.
    [session] is the specification of C126, in which every connection is new; [tells] (PoolFacts.v) is the specification of the attribute. *)
(** whichever connections are handed out again, and whatever was done with them: the calls and blocks show what they would on new connections, and the same is committed *)
Theorem C132_as_new : forall busy registers b u0 cap mcs k ops p outs, sizable cap mcs -> container_new u0 cap mcs false = Ok k -> Forall good_pop ops -> p_run busy registers b ops (p_first k) = (p, outs) ->
  session b 0 empty_map empty_map true false (flat_map as_hops ops) (flat_map as_souts outs) (n_calls (p_conn p)) (held (n_saved (p_conn p))).
Proof. exact C132_session_lemma. Qed.
Print Assumptions C132_as_new.
(** what [conn.autocommit] reports: what was assigned last on this connection, by any of its users, or True if a block was left since; the connections that failing calls and reopening leave with other behaviour do not show it *)
Theorem C132_attribute : forall busy registers b ops k p outs, p_run busy registers b ops (p_first k) = (p, outs) ->
  exists f, p_run busy registers b (ops ++ [PAsk]) (p_first k) = (p, outs ++ [OAsk f]) /\ forall f', tells (VBool true) [] (combine ops outs) f' <-> f' = f.
Proof.
  intros busy registers b ops k p outs R. exists (n_flag (p_conn p)). split; [now rewrite run_ask, R|]. pose proof (@C132_tells_lemma busy registers b ops (p_first k) p outs R) as T.
  intros f'. split; [intros H; symmetry; exact (C132_tells_one T H)|intros ->; exact T].
Qed.
Print Assumptions C132_attribute.
(** closing raises exactly when the program changed something in a transaction that it has not ended; the change is then lost. Otherwise nothing is lost: what it worked on is what is committed *)
Theorem C132_close : forall busy registers, (forall cmd k, registers cmd k = false -> fst (conn_sem cmd k) = k) -> forall b ops k, let q := after busy registers b ops (p_first k) in
  (snd (p_step busy registers b PAgain q) = OClose (Err busy) <-> unfinished busy registers b ops (p_first k)) /\ (snd (p_step busy registers b PAgain q) = OClose (Ok tt) <-> ~ unfinished busy registers b ops (p_first k)) /\
  n_work (p_conn (after busy registers b (ops ++ [PAgain]) (p_first k))) = n_saved (p_conn q) /\ (snd (p_step busy registers b PAgain q) = OClose (Ok tt) -> n_work (p_conn q) = n_saved (p_conn q)).
Proof. exact C132_close_lemma. Qed.
Print Assumptions C132_close.
(** closing never raises in programs that neither switch autocommit off nor use blocks, whatever commits fail *)
Theorem C132_close_plain : forall busy registers b ops k, (forall o, In o ops -> o <> PAuto false /\ o <> PEnter) -> forall r, In (OClose r) (snd (p_run busy registers b ops (p_first k))) -> r = Ok tt.
Proof. intros busy registers b ops k H. apply (@C132_plain_lemma busy registers b ops (p_first k) H eq_refl). now left. Qed.
Print Assumptions C132_close_plain.

(** refused: "x" is lost and the next connection is new. Then autocommit is switched off and the connection closed: the next user reads False but the call is committed. The third commit fails: the attribute reads True although nothing is committed any more *)
Definition ex_pool : container := mkK [ex_g false 1 1 1] [0%nat] 0.
Definition ex_pops : list pop :=
  [PAsk; PAuto false; PCall (CCreate (py "x") (VInt 1)); PCall (CRead (py "x") VNone); PAgain; PAsk; PCall (CRead (py "x") VNone); PAuto false; PAgain; PAsk; PCall (CCreate (py "y") (VInt 2)); PAgain; PCall (CRead (py "y") VNone);
   PEnter; PAsk; PExit false; PAsk; PCall (CDelete (py "y")); PCall (CDelete (py "y")); PAsk; PAgain; PCall (CDelete (py "y"))].
Definition third_fails (i : nat) : option exn := if Nat.eqb i 2 then Some IOError else None.
Definition ex_registers (cmd : ccmd) (k : container) : bool := negb (conn_is_read cmd).
Example C132_case : Forall good_pop ex_pops /\ (forall cmd k, ex_registers cmd k = false -> fst (conn_sem cmd k) = k) /\
  snd (p_run (UserError 9) ex_registers third_fails ex_pops (p_first ex_pool)) =
  [OAsk (VBool true); ONothing; OCall (Ok (RVal (VInt 1))); OCall (Ok (RVal (VInt 1))); OClose (Err (UserError 9)); OAsk (VBool true); OCall (Ok (RVal VNone)); ONothing; OClose (Ok tt); OAsk (VBool false);
   OCall (Ok (RVal (VInt 1))); OClose (Ok tt); OCall (Ok (RVal (VInt 2))); ONothing; OAsk (VBool false); OExit (Ok tt); OAsk (VBool true); OCall (Err IOError); OCall (Err TransactionFailedError); OAsk (VBool true);
   OClose (Ok tt); OCall (Ok (RTuple [VInt 2]))].
Proof.
  split; [|split].
  - assert (encodable (py "x") /\ encodable (py "y")) as [EX EY] by (split; apply Forall_forall; intros ch [<-|[]]; vm_compute; intuition discriminate).
    unfold ex_pops. repeat (apply Forall_cons; [cbn; auto|]); auto.
  - intros cmd k H. destruct cmd; try discriminate; reflexivity.
  - vm_compute. reflexivity.
Qed.
