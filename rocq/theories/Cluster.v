(** citrine/cluster_tools: database modules on disk, groups of them, and the registry container *)
From Verif Require Import Base Dict Fs.
From Coq Require Import String.
Open Scope list_scope.
Set Implicit Arguments.

Definition init_py : pystr := py "__init__.py".

(** dbmodule.py:17-40 [create_dbmodule]. [fresh]: the text uuid4 gives, used when [name] is empty or None ([[]]) *)
Definition create_dbmodule (fresh : pystr) (s : fs) (path name : pystr) (discoverable overwrite : bool) : fs * res pystr :=
  let name := match name with [] => fresh | _ => name end in
  let path := join path name in
  if negb overwrite && exists_ s path then (s, Err IOError)
  else match mkdir s path with
       | (s1, Err e) => (s1, Err e)
       | (s1, Ok _) => match write_file s1 (join path init_py) (Generated discoverable) with
                       | (s2, Err e) => (s2, Err e)
                       | (s2, Ok _) => (s2, Ok path)
                       end
       end.

(** dbmodule.py:43-65 [delete_dbmodule] *)
Fixpoint remove_files (s : fs) (files : list pystr) : fs * res unit :=
  match files with
  | [] => (s, Ok tt)
  | f :: l => match remove s f with
              | (s1, Err e) => (s1, Err e)
              | (s1, Ok _) => remove_files s1 l
              end
  end.
Definition delete_dbmodule (s : fs) (path : pystr) (remove_empty remove_all : bool) : fs * res unit :=
  if remove_all then rmtree s path
  else
    let name := basename path in
    match listdir s path with
    | Err e => (s, Err e)
    | Ok names =>
        let affected := map (join path) (filter (fun f => (isfile s (join path f) && startswith name f) || str_eqb f init_py) names) in
        match remove_files s affected with
        | (s1, Err e) => (s1, Err e)
        | (s1, Ok _) =>
            if remove_empty then
              match listdir s1 path with
              | Err e => (s1, Err e)
              | Ok [] => rmdir s1 path
              | Ok _ => (s1, Ok tt)
              end
            else (s1, Ok tt)
        end
    end.

(** ** importing [__init__.py] *)
(** what executing a module gives: the truth value of its [DB_MODULE] attribute (None: absent) and its [db] attribute
    (None: absent), the outcome of calling it being the name of the database.
    Simplification: executing a module and calling [db] change no file that this model looks at. *)
Record pymodule := mkMod { m_flag : option bool; m_db : option (res pystr) }.
(** citrine/__init__.py:1-13 binds these names, and the package has these submodules *)
Definition citrine_names : list pystr :=
  map py ["__author__"; "__credits__"; "__license__"; "__version__"; "__maintainer__"; "__email__"; "__status__"; "__source__";
          "datetime"; "__created__"; "__updated__"]%string.
Definition citrine_submodules : list pystr :=
  map py ["client"; "cluster_tools"; "connection"; "database"; "exceptions"; "persistence"; "storage"; "tests"]%string.
(** consts.py:5-27: the fifth line is [from citrine import CitrineDB]; [dirname] is the directory of the file, whose
    last component becomes the database name *)
Definition run_generated (dirname : pystr) (discoverable : bool) : res pymodule :=
  if mem_str (py "CitrineDB") (citrine_names ++ citrine_submodules)
  then Ok (mkMod (Some true) (Some (Ok (basename dirname)))) else Err ImportError.
Section Import.
(** [run]: what executing any other source text gives; it may raise anything *)
Variable run : pystr -> pystr -> res pymodule.
(** spec_from_file_location / module_from_spec / exec_module of [dir/__init__.py] *)
Definition exec_init (s : fs) (dir : pystr) : res pymodule :=
  match stat s (join dir init_py) with
  | Some (RegFile (Generated d)) => run_generated dir d
  | Some (RegFile (Text t)) => run dir t
  | Some Directory => Err IsADirectoryError
  | None => Err FileNotFoundError
  end.
(** dbmodule.py:68-79 [is_path_dbmodule]: [except Exception] lets SystemExit through *)
Definition is_path_dbmodule (s : fs) (dir : pystr) : res bool :=
  match exec_init s dir with
  | Ok m => Ok (match m_flag m with Some b => b | None => false end)
  | Err SystemExit => Err SystemExit
  | Err _ => Ok false
  end.
(** dbmodule.py:82-86 the candidates of [find_dbmodules] *)
Definition candidates (s : fs) (root : pystr) : res (list pystr) :=
  match listdir s root with
  | Err e => Err e
  | Ok names => Ok (map (join root) (filter (fun f => exists_ s (join (join root f) init_py) && negb (str_eqb f root)) names))
  end.
(** dbmodule.py:91-105 [import_db] *)
Definition import_db (s : fs) (dir : pystr) : res pystr :=
  if negb (exists_ s (join dir init_py)) then Err FileNotFoundError
  else match exec_init s dir with
       | Err e => Err e
       | Ok m => match m_db m with None => Err AttributeError | Some r => r end
       end.
(** dbmodule.py:108-148 [DbModule]: its path and the name of its database *)
Record dbmodule := mkDbm { dm_path : pystr; dm_name : pystr }.
Definition open_dbmodule (s : fs) (dir : pystr) : res dbmodule :=
  if negb (exists_ s dir) then Err FileNotFoundError
  else match import_db s dir with Err e => Err e | Ok n => Ok (mkDbm dir n) end.
(** dbmodule.py:126-138 the [path] setter on an already constructed module *)
Definition set_dbmodule_path (m : dbmodule) (v : pystr) : dbmodule * res unit := (m, Err AttributeError).
(** dbmodule.py:171-179 [DbModule.create]: [overwrite] lands in the [discoverable] position *)
Definition dbmodule_create (fresh : pystr) (s : fs) (path name : pystr) (overwrite : bool) : fs * res dbmodule :=
  match create_dbmodule fresh s path name overwrite false with
  | (s1, Err e) => (s1, Err e)
  | (s1, Ok p) => (s1, open_dbmodule s1 p)
  end.

(** dbgroup.py:81-89 [discover]: the generator of find_dbmodules is consumed lazily *)
Fixpoint open_all (s : fs) (cands : list pystr) : res (list dbmodule) :=
  match cands with
  | [] => Ok []
  | c :: l => match is_path_dbmodule s c with
              | Err e => Err e
              | Ok false => open_all s l
              | Ok true => match open_dbmodule s c with
                           | Err e => Err e
                           | Ok m => match open_all s l with Err e => Err e | Ok ms => Ok (m :: ms) end
                           end
              end
  end.
Definition discover (s : fs) (root : pystr) : res (dict dbmodule) :=
  match candidates s root with
  | Err e => Err e
  | Ok cs => match open_all s cs with
             | Err e => Err e
             | Ok ms => Ok (d_of (map (fun m => (dm_name m, m)) ms))
             end
  end.
(** dbgroup.py:12-89 [DbGroup]: its root and its modules *)
Record dbgroup := mkGrp { g_root : pystr; g_mods : dict dbmodule }.
(** dbgroup.py:53-62 *)
Definition new_dbgroup (s : fs) (root : pystr) (discovery : bool) (modules : dict dbmodule) : res dbgroup :=
  if discovery then match discover s root with Err e => Err e | Ok d => Ok (mkGrp root (d_merge d modules)) end
  else Ok (mkGrp root modules).
(** dbgroup.py:64-72 *)
Definition group_create (fresh : pystr) (s : fs) (g : dbgroup) (name : pystr) (overwrite : bool) : fs * dbgroup * res dbmodule :=
  match dbmodule_create fresh s (g_root g) name overwrite with
  | (s1, Err e) => (s1, g, Err e)
  | (s1, Ok m) => (s1, mkGrp (g_root g) (d_set (dm_name m) m (g_mods g)), Ok m)
  end.
(** dbgroup.py:74-79 *)
Definition group_destroy (s : fs) (g : dbgroup) (name : pystr) : fs * dbgroup * res unit :=
  let (s1, r) := delete_dbmodule s (join (g_root g) name) true false in (s1, g, r).
(** dbgroup.py:23-31 [databases] when none were set: name to the module's database (here: its name) *)
Definition group_databases (g : dbgroup) : dict pystr := map (fun p => (fst p, dm_name (snd p))) (g_mods g).
End Import.

(** ** clusterdb/container.py:33-83 [ClusterRegistryContainer] *)
(** what is handed to [write]: the attributes [name] and [path] of the object, None when it has none *)
Record modobj := mkObj { o_name : option pystr; o_path : option pystr }.
(** container.py:10-30 [DbModuleRegistry] as [from_dbmodule(obj)] makes it (created and size_limit are None, both flags False) *)
Record regentry := mkReg { r_name : pystr; r_path : pystr }.
Definition registry := dict regentry.
Definition reg_has (id : pystr) (c : registry) : bool := d_mem id c.
Definition reg_read (id : pystr) (c : registry) : option regentry := d_get id c.
Definition reg_write (id : pystr) (o : modobj) (c : registry) : registry * res unit :=
  match o_name o, o_path o with
  | Some n, Some p => (d_set id (mkReg n p) c, Ok tt)
  | _, _ => (c, Err AttributeError)
  end.
Definition reg_delete (id : pystr) (c : registry) : registry * res unit :=
  match d_get id c with None => (c, Err KeyError) | Some _ => (d_del id c, Ok tt) end.
Definition reg_expand (n : Z) (c : registry) : registry * res unit := (c, Ok tt).
Inductive rop := RWrite (id : pystr) (o : modobj) | RDelete (id : pystr) | RRead (id : pystr) | RHas (id : pystr) | RExpand (n : Z).
Inductive rout := RUnit | REntry (e : option regentry) | RBool (b : bool).
Definition r_step (o : rop) (c : registry) : registry * res rout :=
  match o with
  | RWrite id ob => let (c1, r) := reg_write id ob c in (c1, rbind r (fun _ => Ok RUnit))
  | RDelete id => let (c1, r) := reg_delete id c in (c1, rbind r (fun _ => Ok RUnit))
  | RRead id => (c, Ok (REntry (reg_read id c)))
  | RHas id => (c, Ok (RBool (reg_has id c)))
  | RExpand n => let (c1, r) := reg_expand n c in (c1, rbind r (fun _ => Ok RUnit))
  end.
Fixpoint r_run (ops : list rop) (c : registry) : registry * list (res rout) :=
  match ops with
  | [] => (c, [])
  | o :: ops' => let (c1, r) := r_step o c in let (c2, rs) := r_run ops' c1 in (c2, r :: rs)
  end.
