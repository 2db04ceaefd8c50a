(** citrine/cluster_tools/dbmodule/dbgroup.py:92-266 [ManagedGroupDB] *)
From Coq Require Import String.
From Verif Require Import Base Dict Fs Cluster.
Open Scope list_scope.

Section Managed.
Variable run : pystr -> pystr -> res pymodule.
(** FileStorage(path), which ZODB.DB.__init__ makes of the path it is given: what it does to the files *)
Variable storage : fs -> pystr -> fs * res unit.
(** dbgroup.py:109-118 [databases] while none are set: the modules' and the cluster's own, under [database_name], which before ZODB.DB.__init__ has run is 'unnamed'.
    Afterwards [own] is its name. *)
Definition managed_databases (g : dbgroup) (own : option pystr) : list pystr :=
  d_keys (d_set (match own with Some n => n | None => py "unnamed" end) tt (map (fun p => (fst p, tt)) (g_mods g))).
(** dbgroup.py:129-150 [__init__]: DbGroup.__init__ discovers the modules; ZODB.DB.__init__ opens the storage and refuses a name that is among the databases given *)
Definition managed_init (s : fs) (root name : pystr) : fs * res (dbgroup * list pystr) :=
  match new_dbgroup run s root true [] with
  | Err e => (s, Err e)
  | Ok g => match storage s (join root name) with
            | (s1, Err e) => (s1, Err e)
            | (s1, Ok _) => if mem_str name (managed_databases g None) then (s1, Err ValueError) else (s1, Ok (g, managed_databases g (Some name)))
            end
  end.
(** [with self as conn]: ZODB.DB is no context manager *)
Definition with_self {A} (s : fs) (body : fs -> fs * res A) : fs * res A := (s, Err TypeError).
(** dbgroup.py:202-212 [create_dbmodule], 214-222 [destroy_dbmodule] (their bodies from the base class), 152-200 [validate_module_registration] *)
Definition managed_create (fresh : pystr) (s : fs) (g : dbgroup) (name : pystr) (overwrite : bool) : fs * res dbmodule :=
  with_self s (fun s => let '(s1, _, r) := group_create run fresh s g name overwrite in (s1, r)).
Definition managed_destroy (s : fs) (g : dbgroup) (name : pystr) : fs * res unit :=
  with_self s (fun s => let '(s1, _, r) := group_destroy s g name in (s1, r)).
Definition managed_validate (s : fs) : fs * res unit := with_self s (fun s => (s, Ok tt)).
(** dbgroup.py:243-266 [new]: the constructor, then [with db as conn] *)
Definition managed_new (s : fs) (root name : pystr) : fs * res (dbgroup * list pystr) :=
  match managed_init s root name with (s1, Err e) => (s1, Err e) | (s1, Ok x) => with_self s1 (fun s => (s, Ok x)) end.
End Managed.
