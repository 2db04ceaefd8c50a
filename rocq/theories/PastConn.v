(** Connections to the past: [db.open(at=...)], [db.open(before=...)]. citrine/database/containerdb.py:26-30, citrine/cluster_tools/dbmodule/dbmodule.py:150-169,
    citrine/connection/container_connection.py:138-170, 240-254, citrine/storage/transaction.py:24-89.
    ZODB is outside the repository. What is used of it: [DB.open] raises ValueError when both are given or the time is later than just after the last transaction; [at] is [before] the next transaction id;
    the connection reads the state as of that time, and [commit] raises ReadOnlyHistoryError if an object was changed. *)
From Verif Require Import Base Value Container Txn Connection Db.
Open Scope list_scope.
Set Implicit Arguments.

(** the transactions of a storage, oldest first: their ids and the root object each left *)
Definition log := list (N * root).
Definition last_tid (l : log) : N := last (map fst l) 0%N.
(** what [DB.open] makes of its arguments: [None] is the newest state *)
Definition wanted_time (at_ before : option N) (l : log) : res (option N) :=
  match at_, before with
  | Some _, Some _ => Err ValueError
  | None, None => Ok None
  | Some t, None => if N.ltb (N.succ (last_tid l)) (N.succ t) then Err ValueError else Ok (Some (N.succ t))
  | None, Some t => if N.ltb (N.succ (last_tid l)) t then Err ValueError else Ok (Some t)
  end.
Fixpoint newest (ok : N -> bool) (l : log) : option root :=
  match l with [] => None | (t, r) :: l' => match newest ok l' with Some x => Some x | None => if ok t then Some r else None end end.
(** containerdb.py:26-30 [open], then container_connection.py:153-170. [fst]: whether the connection is historical *)
Definition open_at (at_ before : option N) (l : log) : res (bool * conn container) :=
  match wanted_time at_ before l with
  | Err e => Err e
  | Ok w =>
      match newest (fun t => match w with None => true | Some b => N.ltb t b end) l with
      | None => Err POSKeyError
      | Some r => match connect (rt_container r) true (VBool true) with Err e => Err e | Ok c => Ok (match w with None => false | Some _ => true end, c) end
      end
  end.

Section Past.
Variables (S C R : Type) (cs : calls S C R).
(** [registers cmd s]: whether the call changes any stored object in the state [s]; [readonly]: the exception ReadOnlyHistoryError *)
Variables (registers : C -> S -> bool) (readonly : exn).
(** the connection (Txn.v) and whether the current transaction has changed an object *)
Definition past : Type := conn S * bool.
(** [abort()], [commit()] of the transaction package on a historical connection *)
Definition p_abort (p : past) : past := (tm_abort (fst p), false).
Definition p_commit (p : past) : past * res unit :=
  let (c1, r) := tm_commit (fun _ => if snd p then Some readonly else None) (fst p) in
  ((c1, if n_failed (fst p) then snd p else false), r).
(** transaction.py:24-38, 53-67 *)
Definition p_enter (p : past) : past := let (c, d) := p_abort p in (set_auto false c, d).
Definition p_exit {A} (r : res A) (p : past) : past * res A :=
  match r with
  | Ok _ => match p_commit p with
            | ((c1, d), Ok _) => ((set_auto true c1, d), r)
            | (p1, Err e) => (p1, Err e)
            end
  | Err e => let (c, d) := p_abort p in ((set_auto true c, d), Err e)
  end.
(** the undecorated method, and transaction.py:70-89 *)
Definition p_perform (cmd : C) (p : past) : past * res R :=
  let (c1, r) := perform cs cmd (fst p) in ((c1, snd p || (negb (is_read cs cmd) && negb (n_failed (fst p)) && registers cmd (n_work (fst p)))), r).
Definition p_exec (cmd : C) (p : past) : past * res R :=
  if is_read cs cmd then p_perform cmd p
  else if n_auto (fst p) then let (p1, r) := p_perform cmd (p_enter p) in p_exit r p1 else p_perform cmd p.
(** container_connection.py:138-143, 240-254 *)
Fixpoint p_run (g : prog C R) (p : past) : past * res R :=
  match g with
  | Done r => (p, r)
  | Do cmd k => let (p1, r) := p_exec cmd p in p_run (k r) p1
  | SetAuto v k => let (c1, r) := set_autocommit v (fst p) in p_run (k r) (c1, snd p)
  | Block body k =>
      let (p1, r) := p_run body (p_enter p) in
      let (p2, r2) := p_exit r (fst (set_autocommit (VBool true) (fst p1)), snd p1) in
      p_run (k r2) p2
  end.
End Past.
