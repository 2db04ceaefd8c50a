(** citrine/connection/connection.py [CitrineConnection], [ManagedConnection] and the managers of citrine/persistence.py *)
From Verif Require Import Base Value Dict Txn Legacy.
Set Implicit Arguments.

(** the root object as far as the connection uses it: [root.container] and whether [root.meta] exists *)
Record lroot := mkRoot { r_container : option dbc; r_meta : bool }.
(** index expressions: a slice, a string, an iterable of strings, anything else *)
Inductive lindex := XSlice | XStr (id : pystr) | XIter (ids : list pystr) | XOther.
(** the methods, connection.py:63-111. Simplification: ids are strings. *)
Inductive lcmd :=
| LcCreate (id : pystr) (v : pyval)
| LcUpdate (id : pystr) (v : pyval)
| LcDelete (id : pystr)
| LcRead (id : pystr)
| LcItem (i : lindex).
Inductive lres := LRVal (v : pyval) | LRList (l : list pyval).

(** [self.root.container]: AttributeError when the root has none *)
Definition lcontainer (r : lroot) : res dbc := match r_container r with Some c => Ok c | None => Err AttributeError end.
Definition lchange (f : dbc -> dbc * res unit) (r : lroot) : lroot * res lres :=
  match r_container r with
  | None => (r, Err AttributeError)
  | Some c => let (c1, x) := f c in (mkRoot (Some c1) (r_meta r), rbind x (fun _ => Ok (LRVal VNone)))
  end.
(** connection.py:74-81 [read] *)
Definition lread (id : pystr) (r : lroot) : res pyval := rbind (lcontainer r) (dbc_read id).
(** connection.py:63-72 [create], 83-91 [update], 93-100 [delete], 102-111 [__getitem__]; iterating over a non-iterable raises TypeError *)
Definition lsem (cmd : lcmd) (r : lroot) : lroot * res lres :=
  match cmd with
  | LcCreate id v | LcUpdate id v => lchange (dbc_write id v) r
  | LcDelete id => lchange (dbc_delete id) r
  | LcRead id => (r, rbind (lread id r) (fun v => Ok (LRVal v)))
  | LcItem i => (r, match i with
                    | XSlice | XOther => Err TypeError
                    | XStr id => rbind (lread id r) (fun v => Ok (LRVal v))
                    | XIter ids => rbind (mapM (fun id => lread id r) ids) (fun l => Ok (LRList l))
                    end)
  end.
Definition lis_read (cmd : lcmd) : bool := match cmd with LcRead _ | LcItem _ => true | _ => false end.
Definition legacy_calls : calls lroot lcmd lres := mkCalls lsem lis_read.

(** connection.py:38-49: the manager is the one passed, or a new CitrineThreadTransactionManager. *)
Inductive manager := ThreadDefault | Explicit.
(** persistence.py:52-61 and 64-81. The decorator reads [tm.autocommit] first: CitrineThreadTransactionManager keeps a CitrineTransactionManager in
    [self.manager] but has no attribute [autocommit] itself (nor does its base class), so the decorated call raises AttributeError
    before anything else happens. With a CitrineTransactionManager (persistence.py:18-49) the decorator is that of storage/transaction.py. *)
Definition lexec (m : manager) (b : nat -> option exn) (cmd : lcmd) (c : conn lroot) : conn lroot * res lres :=
  if lis_read cmd then perform legacy_calls cmd c
  else match m with
       | ThreadDefault => (c, Err AttributeError)
       | Explicit => autocommitted b (perform legacy_calls cmd) c
       end.
(** programs over a connection; [with conn:] is connection.py:113-117, the manager's enter and exit. Assigning [conn.autocommit] only sets an
    attribute nothing reads. *)
Fixpoint lrun (m : manager) (b : nat -> option exn) (p : prog lcmd lres) (c : conn lroot) : conn lroot * res lres :=
  match p with
  | Done r => (c, r)
  | Do cmd k => let (c1, r) := lexec m b cmd c in lrun m b (k r) c1
  | SetAuto _ k => lrun m b (k (Ok tt)) c
  | Block body k =>
      let (c1, r) := lrun m b body (tm_enter c) in
      let (c2, r2) := tm_exit b r c1 in
      lrun m b (k r2) c2
  end.
(** [with self: self.root.x = ...], the change [f] raising or not *)
Definition in_block (b : nat -> option exn) (f : lroot -> lroot * res unit) (c : conn lroot) : conn lroot * res unit :=
  let c0 := tm_enter c in
  let (r, x) := f (n_work c0) in tm_exit b x (put r c0).
Definition add_container (r : lroot) : lroot * res unit := (mkRoot (Some dbc_new) (r_meta r), Ok tt).
Definition add_meta (r : lroot) : lroot * res unit := (mkRoot (r_container r) true, Ok tt).
Definition setup_with (mk : lroot -> lroot * res unit) (b : nat -> option exn) (c : conn lroot) : conn lroot * res unit :=
  let (c1, x) := match r_container (n_work c) with Some _ => (c, Ok tt) | None => in_block b mk c end in
  match x with
  | Err e => (c1, Err e)
  | Ok _ => if r_meta (n_work c1) then (c1, Ok tt) else in_block b add_meta c1
  end.
(** connection.py:119-135 [CitrineConnection.setup] *)
Definition lsetup := setup_with add_container.
(** connection.py:149-165 [ManagedConnection.setup]: [Container()] lacks its required argument [primary] (container.py:176) and raises TypeError *)
Definition managed_setup := setup_with (fun r => (r, Err TypeError)).
