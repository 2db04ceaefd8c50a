(** citrine/connection/group_connection.py:20-34 [GroupReadConnection.__init__] with citrine/database/containerdb.py:26-30 [ContainerDb.open] *)
From Coq Require Import String.
From Verif Require Import Base Dict.
Open Scope list_scope.

Section Open.
(** databases, transaction managers, other values, connections, and whatever opening a database may change *)
Variables D M V C St : Type.
(** db.database_name *)
Variable name_of : D -> pystr.
(** a keyword argument: None, a transaction manager (always truthy), anything else (with its truth value) *)
Inductive kw := KNone | KMgr (m : M) | KVal (truth : bool) (v : V).
(** the manager a connection is opened with: a new ThreadTransactionManager, or the argument *)
Inductive mgr := New | Given (m : M) | GivenVal (v : V).
(** ZODB.DB.open(transaction_manager, at, before) *)
Variable zopen : D -> mgr -> kw -> kw -> St -> St * res C.
(** containerdb.py:26-30; an argument it does not know is a TypeError *)
Definition manager (k : kw) : mgr := match k with KNone => New | KMgr m => Given m | KVal true v => GivenVal v | KVal false _ => New end.
Definition kget (n : string) (d : dict kw) : kw := match d_get (py n) d with Some k => k | None => KNone end.
Definition known_args (d : dict kw) : bool := forallb (fun n => mem_str n [py "transaction_manager"; py "at"; py "before"]) (d_keys d).
Definition db_open (b : D) (d : dict kw) (s : St) : St * res C :=
  if known_args d then zopen b (manager (kget "transaction_manager" d)) (kget "at" d) (kget "before" d) s else (s, Err TypeError).
(** group_connection.py:28-33: [None] as the entry of a name stands for a value that is no mapping: TypeError *)
Definition details (default : dict kw) (args : dict (option (dict kw))) (b : D) : res (dict kw) :=
  match d_get (name_of b) args with None => Ok (d_merge default default) | Some None => Err TypeError | Some (Some d) => Ok (d_merge d default) end.
(** group_connection.py:27-34: the connections opened, also when the constructor raises, and its exception *)
Fixpoint open_all (default : dict kw) (args : dict (option (dict kw))) (bs : list D) (s : St) : St * list C * option exn :=
  match bs with
  | [] => (s, [], None)
  | b :: r => match details default args b with
              | Err e => (s, [], Some e)
              | Ok d => match db_open b d s with
                        | (s1, Err e) => (s1, [], Some e)
                        | (s1, Ok c) => let '(s2, l, e) := open_all default args r s1 in (s2, c :: l, e)
                        end
              end
  end.
Definition group_init (bs : list D) (transaction_manager : kw) (args : dict (option (dict kw))) (s : St) : St * list C * option exn :=
  open_all [(py "transaction_manager", transaction_manager)] args bs s.
End Open.
