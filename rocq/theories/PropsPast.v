(** C131: connections to the past *)
From Coq Require Import String.
From Verif Require Import Base Value Group Container Txn Connection Db PastConn PastConnFacts PropsStorage PropsContainer.
Open Scope nat_scope.
Open Scope list_scope.

(** Reading aid. [log]: the transactions of a storage, oldest first, with their ids and the root object each left. [opens_past] (PastConnFacts.v) is the specification of [open(at=..., before=...)].
    [p_run cs registers readonly g (c, false)]: running the program [g] on a historical connection [c]; [readonly] is ReadOnlyHistoryError; [registers]: any account of which calls change stored objects
    that is right about the calls it says change nothing. *)
(** which state is opened, and when opening raises *)
Theorem C131_open : forall at_ before l x, open_at at_ before l = x <-> opens_past at_ before l x.
Proof. exact C131_open_lemma. Qed.
Print Assumptions C131_open.
(** what is committed later does not change what is seen at a time in the past *)
Theorem C131_later_commits : forall t l l', (t <= last_tid l)%N -> (forall t' r, In (t', r) l' -> (last_tid l < t')%N) -> open_at (Some t) None (l ++ l') = open_at (Some t) None l.
Proof. exact C131_later_lemma. Qed.
Print Assumptions C131_later_commits.
(** no program can commit anything but the state that was there *)
Theorem C131_nothing_is_committed : forall St C R (cs : calls St C R) registers readonly, (forall cmd s, registers cmd s = false -> fst (sem cs cmd s) = s) ->
  forall s0 g c, n_saved c = s0 -> n_work c = s0 -> exists c' d' r k, p_run cs registers readonly g (c, false) = (c', d', r) /\ n_saved c' = s0 /\ n_past c' = repeat s0 k ++ n_past c.
Proof.
  intros St C R cs registers readonly H s0 g c Hs Hw. assert (at_past s0 (c, false)) as Hp by (split; [exact Hs|auto]).
  destruct (@C131_kept_lemma _ _ _ cs registers readonly s0 H g _ Hp) as [[H1 _] [k H2]].
  destruct (p_run cs registers readonly g (c, false)) as [[c' d'] r]. exists c', d', r, k. auto.
Qed.
Print Assumptions C131_nothing_is_committed.
(** programs that only read, whatever blocks they use, run as on an ordinary connection to that state *)
Theorem C131_reading : forall St C R (cs : calls St C R) registers readonly g, only_reads cs g -> forall c,
  p_run cs registers readonly g (c, false) = let (c1, r) := run cs (fun _ => None) g c in ((c1, false), r).
Proof. exact C131_reads_lemma. Qed.
Print Assumptions C131_reading.
(** a mutator outside a block: if it changes something it raises ReadOnlyHistoryError, even though it would have succeeded, and the next calls are not committed any more (C77) *)
Theorem C131_call : forall St C R (cs : calls St C R) registers readonly s0, (forall cmd s, registers cmd s = false -> fst (sem cs cmd s) = s) ->
  forall cmd p, at_past s0 p -> is_read cs cmd = false -> n_auto (fst p) = true ->
  let '((c, d), r) := p_exec cs registers readonly cmd p in n_work c = s0 /\ n_saved c = s0 /\ d = false /\
    match snd (sem cs cmd s0) with
    | Err e => r = Err e /\ n_auto c = true /\ n_failed c = false
    | Ok v => if registers cmd s0 then r = Err readonly /\ n_auto c = false /\ n_failed c = true else r = Ok v /\ n_auto c = true /\ n_failed c = false
    end.
Proof. exact C131_call_lemma. Qed.
Print Assumptions C131_call.
(** a block of calls: the body runs as on an ordinary connection and sees its own changes; at the end they are gone, and leaving the block raises, unless nothing was changed *)
Theorem C131_block : forall St C R (cs : calls St C R) registers readonly s0, (forall cmd s, registers cmd s = false -> fst (sem cs cmd s) = s) ->
  forall b body k p, at_past s0 p -> calls_only body ->
  let (c1, r) := run cs b body (conn_enter (fst p)) in
  exists p2 r2, p_run cs registers readonly (Block body k) p = p_run cs registers readonly (k r2) p2 /\ n_work (fst p2) = s0 /\ n_saved (fst p2) = s0 /\
    match r with
    | Err e => r2 = Err e /\ n_auto (fst p2) = true /\ n_failed (fst p2) = false
    | Ok v => (r2 = Ok v /\ n_work c1 = s0 /\ n_auto (fst p2) = true /\ n_failed (fst p2) = false) \/ (r2 = Err readonly /\ n_auto (fst p2) = true /\ n_failed (fst p2) = true)
    end.
Proof. exact C131_block_lemma. Qed.
Print Assumptions C131_block.

(** three transactions: an empty root, a container, an object written to it *)
Definition ex_k0 : container := mkK [ex_g false 1 1 1] [0%nat] 0.
Definition ex_k1 : container := fst (conn_sem (CCreate (py "x") (VInt 1)) ex_k0).
Definition ex_log : log := [(5%N, mkRoot None []); (7%N, mkRoot (Some ex_k0) []); (9%N, mkRoot (Some ex_k1) [])].
Definition ex_reg (cmd : ccmd) (k : container) : bool := negb (conn_is_read cmd).
Lemma ex_honest : forall cmd k, ex_reg cmd k = false -> fst (sem conn_calls cmd k) = k.
Proof. intros cmd k H. destruct cmd; try discriminate; reflexivity. Qed.
(** the program's last answer: what reading "x" gives after what it tries *)
Definition ex_tries : list (prog ccmd cres) :=
  [Do (CRead (py "x") VNone) Done; Do (CCreate (py "y") (VInt 2)) Done; Do (CCreate (py "y") (VInt 2)) (fun _ => Do (CCreate (py "z") (VInt 2)) Done);
   Block (Do (CUpdate (py "x") (VInt 3)) (fun _ => Do (CRead (py "x") VNone) Done)) Done; Block (Do (CUpdate (py "x") (VInt 3)) (fun _ => Do (CRead (py "x") VNone) (fun r => SetAuto (VBool true) (fun _ => Done r)))) (fun _ => Do (CRead (py "x") VNone) Done)].
Example C131_case :
  map (fun a => match open_at (fst a) (snd a) ex_log with Ok (h, c) => Ok (h, snd (exec conn_calls (fun _ => None) (CRead (py "x") VNone) c)) | Err e => Err e end)
    [(None, None); (Some 9%N, None); (Some 8%N, None); (None, Some 9%N); (Some 6%N, None); (Some 4%N, None); (Some 10%N, None); (None, Some 10%N); (None, Some 11%N); (Some 8%N, Some 8%N)] =
    [Ok (false, Ok (RVal (VInt 1))); Ok (true, Ok (RVal (VInt 1))); Ok (true, Ok (RVal VNone)); Ok (true, Ok (RVal VNone)); Err IncompatibleDatabaseError; Err KeyError; Err ValueError;
     Ok (true, Ok (RVal (VInt 1))); Err ValueError; Err ValueError] /\
  map (fun g => snd (p_run conn_calls ex_reg (UserError 7) g (mkConn ex_k1 ex_k1 [] true (VBool true) false 0, false))) ex_tries =
    [Ok (RVal (VInt 1)); Err (UserError 7); Err TransactionFailedError; Err (UserError 7); Ok (RVal (VInt 1))].
Proof. vm_compute. auto. Qed.
