(** One connection used by several threads (container_connection.py, transaction.py:41-89). Its transaction manager is by default a [ThreadTransactionManager] (containerdb.py:27),
    a [threading.local]: every thread has a transaction and an [autocommit] of its own. The connection (ZODB, external) joins the transaction of the thread that changes it first
    and stays with it until that transaction ends; what other threads change meanwhile goes along.
    Simplifications: the states committed before are not recorded; no other connection writes to the database; a call, an assignment, entering and leaving a block are atomic. *)
From Verif Require Import Base Value Txn.
Set Implicit Arguments.

Section Threads.
Context {S C R : Type} (cs : calls S C R).
(** whether a call changes a persistent object, in that state *)
Variable touches : C -> S -> bool.
(** [t_join]: the thread whose transaction the connection has joined; [t_auto], [t_failed]: [autocommit] and a failed transaction, of each thread;
    [t_flag]: the connection's [___autocommit___], which the threads share *)
Record tconn := mkT { t_work : S; t_saved : S; t_join : option nat; t_auto : nat -> bool; t_failed : nat -> bool; t_flag : pyval }.
Definition upd_t {B} (t : nat) (x : B) (f : nat -> B) : nat -> B := fun u => if Nat.eqb u t then x else f u.
Definition mine (t : nat) (w : tconn) : bool := match t_join w with Some u => Nat.eqb u t | None => false end.
Definition set_t_auto (t : nat) (a : bool) (w : tconn) : tconn := mkT (t_work w) (t_saved w) (t_join w) (upd_t t a (t_auto w)) (t_failed w) (t_flag w).
(** [abort()]/[begin()] in thread [t] (external): only a connection that has joined this thread's transaction is reset *)
Definition t_abort (t : nat) (w : tconn) : tconn :=
  if mine t w then mkT (t_saved w) (t_saved w) None (t_auto w) (upd_t t false (t_failed w)) (t_flag w)
  else mkT (t_work w) (t_saved w) (t_join w) (t_auto w) (upd_t t false (t_failed w)) (t_flag w).
(** [commit()] in thread [t] (external); [fail]: what makes it fail, if it has something to write *)
Definition t_commit (t : nat) (fail : option exn) (w : tconn) : tconn * res unit :=
  if t_failed w t then (w, Err TransactionFailedError)
  else if mine t w
       then match fail with
            | None => (mkT (t_work w) (t_work w) None (t_auto w) (t_failed w) (t_flag w), Ok tt)
            | Some e => (mkT (t_saved w) (t_saved w) None (t_auto w) (upd_t t true (t_failed w)) (t_flag w), Err e)
            end
       else (w, Ok tt).
(** transaction.py:53-57, 59-67 *)
Definition t_enter (t : nat) (w : tconn) : tconn := set_t_auto t false (t_abort t w).
Definition t_leave {A} (t : nat) (fail : option exn) (r : res A) (w : tconn) : tconn * res A :=
  match r with
  | Ok _ => match t_commit t fail w with
            | (w1, Ok _) => (set_t_auto t true w1, r)
            | (w1, Err e) => (w1, Err e)
            end
  | Err e => (set_t_auto t true (t_abort t w), Err e)
  end.
(** the undecorated method in thread [t]; as in Txn.v, every mutator raises in a failed transaction - if the connection has to join it *)
Definition t_perform (t : nat) (cmd : C) (w : tconn) : tconn * res R :=
  if is_read cs cmd then (w, snd (sem cs cmd (t_work w)))
  else match t_join w with
       | None => if t_failed w t then (w, Err TransactionFailedError)
                 else let (k, r) := sem cs cmd (t_work w) in
                      (mkT k (t_saved w) (if touches cmd (t_work w) then Some t else None) (t_auto w) (t_failed w) (t_flag w), r)
       | Some u => let (k, r) := sem cs cmd (t_work w) in (mkT k (t_saved w) (Some u) (t_auto w) (t_failed w) (t_flag w), r)
       end.
(** transaction.py:70-89 *)
Definition t_exec (t : nat) (cmd : C) (fail : option exn) (w : tconn) : tconn * res R :=
  if is_read cs cmd then t_perform t cmd w
  else if t_auto w t then let (w1, r) := t_perform t cmd (t_enter t w) in t_leave t fail r w1
  else t_perform t cmd w.
(** container_connection.py:138-143 *)
Definition t_set (t : nat) (v : pyval) (w : tconn) : tconn * res unit :=
  match v with
  | VBool a => (mkT (t_work w) (t_saved w) (t_join w) (upd_t t a (t_auto w)) (t_failed w) v, Ok tt)
  | _ => (w, Err TypeError)
  end.
(** [TEnter t]: [with conn:] in thread [t]; [TExit t r fail]: the end of the block, [r] is what its body does (a value or an exception) *)
Inductive tevent := TCall (t : nat) (cmd : C) (fail : option exn) | TSet (t : nat) (v : pyval) | TEnter (t : nat) | TExit (t : nat) (r : res R) (fail : option exn).
Inductive tout := OCall (r : res R) | OSet (r : res unit) | OEnter | OExit (r : res R).
Definition t_step (e : tevent) (w : tconn) : tconn * tout :=
  match e with
  | TCall t cmd fail => let (w1, r) := t_exec t cmd fail w in (w1, OCall r)
  | TSet t v => let (w1, r) := t_set t v w in (w1, OSet r)
  | TEnter t => (t_enter t w, OEnter)
  | TExit t r fail => let (w1, r1) := t_leave t fail r (fst (t_set t (VBool true) w)) in (w1, OExit r1)
  end.
Fixpoint t_run (evs : list tevent) (w : tconn) : tconn * list tout :=
  match evs with
  | [] => (w, [])
  | e :: evs' => let (w1, o) := t_step e w in let (w2, l) := t_run evs' w1 in (w2, o :: l)
  end.
(** a connection just opened *)
Definition t_open (k : S) (flag : pyval) : tconn := mkT k k None (fun _ => true) (fun _ => false) flag.
End Threads.
Arguments TCall {C R}. Arguments TSet {C R}. Arguments TEnter {C R}. Arguments TExit {C R}.
Arguments OCall {R}. Arguments OSet {R}. Arguments OEnter {R}. Arguments OExit {R}.
Arguments tevent : clear implicits. Arguments tconn : clear implicits. Arguments tout : clear implicits.
