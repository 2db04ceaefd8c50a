(** citrine/connection/group_connection.py [GroupReadConnection.read] *)
From Verif Require Import Base Value.
Set Implicit Arguments.

(** what [connection.read(id)] of one database gives *)
Definition db := pystr -> res pyval.

(** group_connection.py:68-78: one task per connection, run by the event loop in some order; [schedule] lists the task
    numbers in the order in which they run to completion (a task body has no await, so it runs in one go) *)
Definition task_slots := list (option (res pyval)).
Fixpoint finish (i : nat) (r : res pyval) (slots : task_slots) : task_slots :=
  match slots, i with
  | [], _ => []
  | _ :: s, O => Some r :: s
  | x :: s, S i' => x :: finish i' r s
  end.
Definition run_tasks (dbs : list db) (id : pystr) (schedule : list nat) : task_slots :=
  fold_left (fun s i => match nth_error dbs i with Some d => finish i (d id) s | None => s end) schedule (map (fun _ => None) dbs).
(** leaving the TaskGroup waits for all tasks and raises if one failed *)
Fixpoint gather (slots : task_slots) : res (list pyval) :=
  match slots with
  | [] => Ok []
  | Some (Ok v) :: s => match gather s with Ok vs => Ok (v :: vs) | Err e => Err e end
  | Some (Err _) :: _ => Err ExceptionGroup
  | None :: _ => Err OutOfModel                     (* a task that never ran: excluded by the schedule *)
  end.
(** group_connection.py:36-45 and 47-85. [timeout] is the truth value of the timeout argument: with it the code says
    [with aiotimeout(...)], which is an asynchronous context manager. [multiple]: [val.results()] does not exist. *)
Definition group_read (dbs : list db) (id : pystr) (timeout multiple : bool) (schedule : list nat) : res pyval :=
  if timeout then Err TypeError
  else match gather (run_tasks dbs id schedule) with
       | Err e => Err e
       | Ok vs => if multiple then match vs with [] => Ok VNone | _ => Err AttributeError end
                  else match filter (fun v => negb (is_none v)) vs with
                       | [] => Ok VNone
                       | v :: _ => Ok v
                       end
       end.
