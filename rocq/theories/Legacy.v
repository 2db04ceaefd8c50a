(** citrine/persistence.py:96-170 [DbContainer] and citrine/connection/connection.py:53-61 *)
From Verif Require Import Base Value Dict Txn.
Open Scope Z_scope.
Set Implicit Arguments.

(** [self.containers] with keys 0..n-1, as [__init__] without argument and [expand_size] make it; each entry is a mapping.
    Simplification: ids are strings (the code calls [str(id)] for routing). *)
Definition dbc := list (dict pyval).
(** persistence.py:111-115 [__init__] *)
Definition dbc_new : dbc := [[]].
(** persistence.py:103-109 *)
Definition containers_size (c : dbc) : Z := Z.of_nat (length c).
Definition dbc_size (c : dbc) : Z := fold_right Z.add 0 (map (fun d => Z.of_nat (length d)) c).
(** persistence.py:161-170 [__locate_container] *)
Definition locate (id : pystr) (c : dbc) : res nat :=
  match encode id with
  | Err e => Err e
  | Ok bs => match c with
             | [] => Err ZeroDivisionError
             | _ => Ok (N.to_nat (from_bytes bs mod N.of_nat (length c)))
             end
  end.
Definition at_ (i : nat) (c : dbc) : dict pyval := nth i c [].
Fixpoint replace_at (i : nat) (d : dict pyval) (c : dbc) : dbc :=
  match c, i with
  | [], _ => []
  | _ :: c', O => d :: c'
  | x :: c', S i' => x :: replace_at i' d c'
  end.
(** persistence.py:117-125 [expand_size] *)
Definition expand_size (new_size : Z) (c : dbc) : dbc * res unit :=
  if new_size <=? containers_size c then (c, Err ValueError)
  else (map (fun i => at_ i c) (seq 0 (Z.to_nat new_size)), Ok tt).
(** persistence.py:127-134 [has], 136-142 [read], 144-151 [write], 153-159 [delete] *)
Definition dbc_has (id : pystr) (c : dbc) : res bool :=
  match locate id c with Err e => Err e | Ok i => Ok (d_mem id (at_ i c)) end.
Definition dbc_read (id : pystr) (c : dbc) : res pyval :=
  match locate id c with Err e => Err e | Ok i => Ok (match d_get id (at_ i c) with Some v => v | None => VNone end) end.
Definition dbc_write (id : pystr) (v : pyval) (c : dbc) : dbc * res unit :=
  match locate id c with Err e => (c, Err e) | Ok i => (replace_at i (d_set id v (at_ i c)) c, Ok tt) end.
Definition dbc_delete (id : pystr) (c : dbc) : dbc * res unit :=
  match locate id c with
  | Err e => (c, Err e)
  | Ok i => match d_get id (at_ i c) with
            | None => (c, Err KeyError)
            | Some _ => (replace_at i (d_del id (at_ i c)) c, Ok tt)
            end
  end.

(** histories *)
Inductive lop := LWrite (id : pystr) (v : pyval) | LDelete (id : pystr) | LRead (id : pystr) | LHas (id : pystr).
Inductive lout := LNone | LVal (v : pyval) | LBool (b : bool).
Definition l_step (o : lop) (c : dbc) : dbc * res lout :=
  match o with
  | LWrite id v => let (c1, r) := dbc_write id v c in (c1, rbind r (fun _ => Ok LNone))
  | LDelete id => let (c1, r) := dbc_delete id c in (c1, rbind r (fun _ => Ok LNone))
  | LRead id => (c, rbind (dbc_read id c) (fun v => Ok (LVal v)))
  | LHas id => (c, rbind (dbc_has id c) (fun v => Ok (LBool v)))
  end.
Fixpoint l_run (ops : list lop) (c : dbc) : dbc * list (res lout) :=
  match ops with
  | [] => (c, [])
  | o :: ops' => let (c1, r) := l_step o c in let (c2, rs) := l_run ops' c1 in (c2, r :: rs)
  end.

(** connection.py:53-61 [expand_containers]; connection.py:113-117 [__enter__]/[__exit__] are the manager's *)
Definition expand_containers (b : nat -> option exn) (num : Z) (c : conn dbc) : conn dbc * res unit :=
  let c0 := tm_enter c in
  let (k, r) := expand_size (containers_size (n_work c0) + num) (n_work c0) in
  tm_exit b r (put k c0).
