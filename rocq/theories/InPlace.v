(** Objects that are changed in place after they were stored: citrine/connection/container_connection.py:172-253 and citrine/storage/transaction.py
    with what ZODB does for stored objects that are not Persistent (the objects of jsonld and activitystreams are not; neither are lists and dicts).
    Everything below the connection is a map from ids to contents: C42 proves that of a new container. *)
From Verif Require Import Base Value SpecMap Txn Connection ConnHistory.
Set Implicit Arguments.

(** A connection: [i_mem] what its cached objects contain now, [i_disk] what is committed, [i_dirty] the ids whose entry of a BTree was changed in the
    current transaction, [i_auto] whether calls commit by themselves, [i_n] the number of transactions ended so far. *)
Record icon := mkI { i_mem : amap; i_disk : amap; i_dirty : list pystr; i_auto : bool; i_n : nat }.
Definition known_in (id : pystr) (l : list pystr) : bool := existsb (str_eqb id) l.
Definition with_id (id : pystr) (v : option pyval) (m : amap) : amap := fun j => if str_eqb j id then v else m j.

(** container_connection.py:172-229: the undecorated calls on a map *)
Definition map_sem (c : ccmd) (m : amap) : amap * res cres :=
  match c with
  | CCreate id v => match m id with None => (with_id id (Some v) m, Ok (RVal (VInt 1))) | Some _ => (m, Err ObjectOverwriteError) end
  | CUpdate id v => (with_id id (Some v) m, Ok (RVal (get m VNone id)))
  | CDelete id => match m id with Some w => (with_id id None m, Ok (RTuple [w])) | None => (m, Ok (RTuple [])) end
  | CRead id d => (m, Ok (RVal (get m d id)))
  | CItem (IStr id) => (m, match m id with Some w => Ok (RVal w) | None => Err KeyError end)
  | CItem (IIter ids) => (m, if existsb (fun id => match m id with Some _ => true | None => false end) ids then Ok (RList (map (get m VNone) ids)) else Err KeyError)
  | CItem IOther => (m, Err IndexError)
  end.
(** the ids whose entry a call changes *)
Definition writes (c : ccmd) (m : amap) : list pystr :=
  match c with
  | CCreate id _ => match m id with None => [id] | Some _ => [] end
  | CUpdate id _ => [id]
  | CDelete id => match m id with None => [] | Some _ => [id] end
  | CRead _ _ | CItem _ => []
  end.

Section InPlace.
(** [near n id]: the entry of [id] is in one of the records (buckets of a BTree) written or reverted at the end of the [n]-th transaction. Entries are grouped
    into records as the BTrees please. *)
Variable near : nat -> pystr -> bool.
(** whether a BTree takes no notice of an assignment of the very object it already holds *)
Variable skips : bool.

(** a record is registered with the transaction if one of its entries was changed through the BTree; an object that was only changed in place is not noticed *)
Definition touched (c : icon) (id : pystr) : bool :=
  match i_dirty c with [] => false | _ => known_in id (i_dirty c) || near (i_n c) id end.
(** commit (ZODB): the registered records are written as they are in memory, with everything they contain *)
Definition i_commit (c : icon) : icon :=
  mkI (i_mem c) (fun id => if touched c id then i_mem c id else i_disk c id) [] (i_auto c) (S (i_n c)).
(** abort, begin (ZODB): the registered records are dropped and read again when they are used next; the others stay as they are *)
Definition i_abort (c : icon) : icon :=
  mkI (fun id => if touched c id then i_disk c id else i_mem c id) (i_disk c) [] (i_auto c) (S (i_n c)).
Definition i_set_auto (a : bool) (c : icon) : icon := mkI (i_mem c) (i_disk c) (i_dirty c) a (i_n c).
(** a call inside a transaction *)
Definition i_call (cmd : ccmd) (c : icon) : icon * res cres :=
  let (m, r) := map_sem cmd (i_mem c) in (mkI m (i_disk c) (writes cmd (i_mem c) ++ i_dirty c) (i_auto c) (i_n c), r).
(** [conn.update(id, obj)] with the object [obj] that is already stored under [id]: container.py:378-380 insert finds the id, update assigns the same object *)
Definition i_same (id : pystr) (c : icon) : icon * res cres :=
  match i_mem c id with
  | Some v => (mkI (i_mem c) (i_disk c) ((if skips then [] else [id]) ++ i_dirty c) (i_auto c) (i_n c), Ok (RVal v))
  | None => i_call (CUpdate id VNone) c                 (* conn.read gave None *)
  end.
(** transaction.py:70-88 [autocommit] around it, 24-38 [with tm:] *)
Definition i_auto_call (f : icon -> icon * res cres) (c : icon) : icon * res cres :=
  if i_auto c then
    let (c1, r) := f (i_set_auto false (i_abort c)) in
    match r with Ok _ => (i_set_auto true (i_commit c1), r) | Err _ => (i_set_auto true (i_abort c1), r) end
  else f c.

(** what a session consists of: the steps of C42, changes in place of the object [conn.read(id)] gives, giving it back to [conn.update], and
    the cache dropping unchanged records at any moment *)
Inductive iop := IHop (o : hop) | IChange (id : pystr) (f : pyval -> pyval) | ISame (id : pystr) | IEvict (drop : pystr -> bool).
Definition do_iop (o : iop) (c : icon) : icon * list (res cres) :=
  match o with
  | IHop (HCall cmd) => let (c1, r) := if conn_is_read cmd then (c, snd (map_sem cmd (i_mem c))) else i_auto_call (i_call cmd) c in (c1, [r])
  | IHop (HAuto a) => (i_set_auto a c, [])
  | IHop (HReopen _) => (mkI (i_disk c) (i_disk c) [] true (i_n c), [])
  | IHop HEnter => (i_set_auto false (i_abort c), [])
  | IHop (HExit raises) => (i_set_auto true (if raises then i_abort c else i_commit c), [])
  | IChange id f => (mkI (fun j => if str_eqb j id then option_map f (i_mem c id) else i_mem c j) (i_disk c) (i_dirty c) (i_auto c) (i_n c), [])
  | ISame id => let (c1, r) := i_auto_call (i_same id) c in (c1, [r])
  | IEvict drop => (mkI (fun j => if drop j && negb (touched c j) then i_disk c j else i_mem c j) (i_disk c) (i_dirty c) (i_auto c) (i_n c), [])
  end.
Fixpoint do_iops (ops : list iop) (c : icon) : icon * list (res cres) :=
  match ops with
  | [] => (c, [])
  | o :: ops' => let (c1, r) := do_iop o c in let (c2, rs) := do_iops ops' c1 in (c2, r ++ rs)
  end.
End InPlace.

(** a connection that has just been opened *)
Definition i_open (m : amap) : icon := mkI m m [] true O.
