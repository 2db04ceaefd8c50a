(** citrine/storage/container.py:390-410: the operators a container only has docstrings for;
    citrine/cluster_tools/dbmodule/dbmodule.py:140-143, 193-218 and dbgroup.py:49-51: the sizes of databases;
    jsonld/utils.py:38-52 and jsonld/tools/url.py:16-30: the request for a document. *)
From Coq Require Import String ZArith.
From Verif Require Import Base Value Dict Group Container.
Open Scope Z_scope.
Open Scope list_scope.

(** ** What the interpreter does with the result of a special method *)
(** [x in c]: the truth value of what [type(c).__contains__] returns *)
Definition py_in (truth : option bool) : bool := match truth with Some b => b | None => false end.
(** [iter(c)]: what [type(c).__iter__] returns must be an iterator, or TypeError; here the items it would give *)
Definition py_iter {A} (it : option (list A)) : res (list A) := match it with Some l => Ok l | None => Err TypeError end.

(** container.py:399-404, 406-410 and 390-397: a function whose body is a docstring returns None *)
Definition k_contains_dunder (id : pystr) (k : container) : option bool := None.
Definition k_iter_dunder (k : container) : option (list (pystr * pyval)) := None.
Definition k_add_dunder {A} (k : container) (other : A) : option container := None.
(** [id in container], [for x in container] (and [list(container)], [dict(container)], [*container]), [container + other] *)
Definition k_in (id : pystr) (k : container) : bool := py_in (k_contains_dunder id k).
Definition k_iterate (k : container) : res (list (pystr * pyval)) := py_iter (k_iter_dunder k).
Definition k_plus {A} (k : container) (other : A) : option container := k_add_dunder k other.

(** ** Sizes *)
(** What a database's connection is: a ContainerConnection, which has no [size] (container_connection.py:62-139 lists its properties, ZODB's Connection has none either),
    or one of a class that has, such as CitrineConnection (connection/connection.py:35-37), where the value is that of its container *)
Inductive conn := CContainer (k : container) | CSized (size : res Z).
Definition conn_size (c : conn) : res Z := match c with CContainer _ => Err AttributeError | CSized r => r end.
(** What happens to connections *)
Inductive ev := Opened (name : pystr) | Closed (name : pystr).
(** dbmodule.py:140-143 [DbModule.size]: [with self.db as connection: return connection.size]. The database opens a connection on entering and closes it on leaving the block, also by an exception
    (database/containerdb.py:379-389). [m] is the module's name and what opening its database gives. *)
Definition module := (pystr * res conn)%type.
Definition module_size (m : module) : list ev * res Z :=
  match snd m with Err e => ([], Err e) | Ok c => ([Opened (fst m); Closed (fst m)], conn_size c) end.
(** dbgroup.py:49-51 [DbGroup.size]: [sum(module.size for module in self.modules.values())] *)
Fixpoint sum_sizes (acc : Z) (ms : list module) : list ev * res Z :=
  match ms with
  | [] => ([], Ok acc)
  | m :: ms' => match module_size m with
                | (t, Err e) => (t, Err e)
                | (t, Ok n) => let '(t', r) := sum_sizes (acc + n) ms' in (t ++ t', r)
                end
  end.
Definition group_size (ms : list module) : list ev * res Z := sum_sizes 0 ms.
(** dbmodule.py:193-200 [DbModuleRegistry], 211-218 [from_dbmodule], 202-209 [update_from_dbmodule] *)
Record reg := mkR { r_path : pystr; r_name : pystr; r_size : Z }.
Definition from_dbmodule (path : pystr) (m : module) : res reg := match snd (module_size m) with Ok n => Ok (mkR path (fst m) n) | Err e => Err e end.
Definition update_from_dbmodule (r : reg) (m : module) : reg * res unit :=
  match snd (module_size m) with Ok n => (mkR (r_path r) (r_name r) n, Ok tt) | Err e => (r, Err e) end.

(** ** The request *)
(** utils.py:38-40 *)
Definition accept : pystr := py "application/ld+json, application/activity+json, application/json".
Definition default_headers : dict pystr := [(py "Accept", accept)].
Section Request.
Variable R J : Type.
(** [requests.get(url, headers=headers)] and the response's [json()] *)
Variable get : pystr -> dict pystr -> res R.
Variable parse : R -> res J.
Inductive answer := Raw (r : R) | Json (j : J).
(** utils.py:50-52: [{**DEFAULT_HEADERS, **(headers if headers else {})}] *)
Definition request_headers (headers : option (dict pystr)) : dict pystr := d_merge (d_of default_headers) (match headers with Some h => h | None => [] end).
Definition jsonld_get (url : pystr) (headers : option (dict pystr)) (json : bool) : res answer :=
  match get url (request_headers headers) with
  | Err e => Err e
  | Ok r => if json then match parse r with Ok j => Ok (Json j) | Err e => Err e end else Ok (Raw r)
  end.
End Request.
