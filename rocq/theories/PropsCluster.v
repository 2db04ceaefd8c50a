(** Property theorems C44-C52, C78, C79: the legacy container, group reads and the cluster tools. *)
From Coq Require Import String Permutation.
From Verif Require Import Base BaseFacts Value Dict DictFacts SpecMap RoutingFacts Txn TxnFacts Legacy LegacyFacts GroupRead GroupReadFacts
  Fs FsFacts Cluster ClusterFacts DiscoverFacts.
Open Scope Z_scope.
Open Scope list_scope.

(** ** C44. [map_lops] (LegacyFacts) says what each call must return and do to a partial map; [l_abs c] is the map a container
    holds: the binding of an id in the only place where [read] looks for it. *)
Theorem C44_behaves_like_a_map : forall n ops c rs, (0 < n)%nat -> Forall (fun o => encodable (lop_id o)) ops -> l_run ops (repeat [] n) = (c, rs) ->
  map_lops empty_map ops (l_abs c) rs /\ has_size (l_abs c) (dbc_size c) /\ length c = n.
Proof. exact C44_lemma. Qed.
Print Assumptions C44_behaves_like_a_map.
Theorem C44_unencodable_id : forall o c, ~ encodable (lop_id o) -> l_step o c = (c, Err UnicodeEncodeError).
Proof. exact C44_unencodable. Qed.
Print Assumptions C44_unencodable_id.
Definition ex_lops : list lop :=
  [LWrite (py "a") (VInt 1); LWrite (py "b") (VInt 2); LWrite (py "a") (VInt 3); LRead (py "a"); LDelete (py "c"); LDelete (py "b"); LHas (py "b"); LRead (py "b")].
Lemma enc_ascii a : (a < 128)%N -> encodable [a].
Proof. intros H. apply Forall_forall. intros ch [<-|[]]. unfold encodable_char. lia. Qed.
Example C44_case : Forall (fun o => encodable (lop_id o)) ex_lops /\
  snd (l_run ex_lops (repeat [] 3)) = [Ok LNone; Ok LNone; Ok LNone; Ok (LVal (VInt 3)); Err KeyError; Ok LNone; Ok (LBool false); Ok (LVal VNone)] /\
  dbc_size (fst (l_run ex_lops (repeat [] 3))) = 1.
Proof. split; [repeat (apply Forall_cons; [apply enc_ascii; reflexivity|]); apply Forall_nil | vm_compute; auto]. Qed.

(** ** C45. [id_number id h]: [h] is the number the UTF-8 bytes of [id] denote *)
Theorem C45_refuses_to_shrink : forall m c, m <= containers_size c -> expand_size m c = (c, Err ValueError).
Proof. exact C45_refused. Qed.
Print Assumptions C45_refuses_to_shrink.
Theorem C45_does_not_rehash : forall n ops c rs m, (0 < n)%nat -> Forall (fun o => encodable (lop_id o)) ops -> l_run ops (repeat [] n) = (c, rs) -> Z.of_nat n < m ->
  exists c', expand_size m c = (c', Ok tt) /\ containers_size c' = m /\ dbc_size c' = dbc_size c /\
    (forall i, at_ i c' = at_ i c) /\
    forall id h v, id_number id h -> dbc_read id c = Ok v ->
      ((h mod N.of_nat n = h mod Z.to_N m)%N -> dbc_read id c' = Ok v) /\
      ((h mod N.of_nat n <> h mod Z.to_N m)%N -> dbc_read id c' = Ok VNone /\ dbc_has id c' = Ok false /\
         (dbc_has id c = Ok true -> forall w, exists c2 i j, dbc_write id w c' = (c2, Ok tt) /\ dbc_size c2 = dbc_size c + 1 /\ i <> j /\ holds_copy c2 id i /\ holds_copy c2 id j)).
Proof. exact C45_lemma. Qed.
Print Assumptions C45_does_not_rehash.
(* "a" is byte 97: 97 mod 3 = 1, 97 mod 5 = 2, 97 mod 4 = 1 *)
Example C45_case : id_number (py "a") 97 /\ dbc_read (py "a") (fst (l_run ex_lops (repeat [] 3))) = Ok (VInt 3) /\
  dbc_read (py "a") (fst (expand_size 5 (fst (l_run ex_lops (repeat [] 3))))) = Ok VNone /\
  dbc_read (py "a") (fst (expand_size 4 (fst (l_run ex_lops (repeat [] 3))))) = Ok (VInt 3).
Proof. split; [exists [97%N]; split; reflexivity|vm_compute; auto]. Qed.

(** ** C46 *)
Theorem C46_expands_and_commits : forall b num c, 1 <= num -> b (n_calls c) = None ->
  exists c' k, expand_containers b num c = (c', Ok tt) /\ n_saved c' = n_saved c ++ repeat [] k /\ n_work c' = n_saved c' /\
    containers_size (n_saved c') = containers_size (n_saved c) + num /\ dbc_size (n_saved c') = dbc_size (n_saved c) /\ history c' = n_saved c' :: history c.
Proof. exact C46_ok. Qed.
Print Assumptions C46_expands_and_commits.
Theorem C46_refused_and_rolled_back : forall b num c, num <= 0 ->
  exists c', expand_containers b num c = (c', Err ValueError) /\ n_work c' = n_saved c /\ history c' = history c.
Proof. exact C46_refused. Qed.
Print Assumptions C46_refused_and_rolled_back.
Example C46_case : let c := mkConn [[(py "a", VInt 1)]] [[]] [] true (VBool true) false 0 in
  n_saved (fst (expand_containers (fun _ => None) 2 c)) = [[]; []; []] /\ n_work (fst (expand_containers (fun _ => None) 0 c)) = [[]].
Proof. vm_compute. auto. Qed.

(** ** C47, C48. [runs_all dbs schedule]: the schedule completes every per-database task exactly once, in any order. *)
Theorem C47_first_hit : forall dbs id schedule, runs_all dbs schedule -> (forall d : db, In d dbs -> is_ok (d id) = true) ->
  (exists before d after v, dbs = before ++ d :: after /\ (forall e : db, In e before -> e id = Ok VNone) /\
     d id = Ok v /\ v <> VNone /\ group_read dbs id false false schedule = Ok v) \/
  ((forall d : db, In d dbs -> d id = Ok VNone) /\ group_read dbs id false false schedule = Ok VNone).
Proof. exact C47_lemma. Qed.
Print Assumptions C47_first_hit.
Theorem C47_multiple_always_fails : forall dbs id schedule, runs_all dbs schedule -> (forall d : db, In d dbs -> is_ok (d id) = true) ->
  group_read dbs id false true schedule = match dbs with [] => Ok VNone | _ => Err AttributeError end.
Proof. exact C47_multiple. Qed.
Print Assumptions C47_multiple_always_fails.
Theorem C47_timeout_always_fails : forall dbs id multiple schedule, group_read dbs id true multiple schedule = Err TypeError.
Proof. exact C47_timeout. Qed.
Print Assumptions C47_timeout_always_fails.
Theorem C47_failing_read : forall dbs id multiple schedule, runs_all dbs schedule -> (exists d : db, In d dbs /\ is_ok (d id) = false) ->
  group_read dbs id false multiple schedule = Err ExceptionGroup.
Proof. exact C47_failing. Qed.
Print Assumptions C47_failing_read.
Theorem C48_schedule_independent : forall dbs id timeout multiple s1 s2, runs_all dbs s1 -> runs_all dbs s2 ->
  group_read dbs id timeout multiple s1 = group_read dbs id timeout multiple s2.
Proof. exact C48_lemma. Qed.
Print Assumptions C48_schedule_independent.
Definition ex_dbs : list db := [fun _ => Ok VNone; fun id => Ok (VStr id); fun _ => Ok (VInt 7)].
Example C47_case : runs_all ex_dbs [2; 0; 1]%nat /\ runs_all ex_dbs [1; 2; 0]%nat /\ (forall d : db, In d ex_dbs -> is_ok (d (py "k")) = true) /\
  group_read ex_dbs (py "k") false false [2; 0; 1]%nat = Ok (VStr (py "k")) /\ group_read ex_dbs (py "k") false false [1; 2; 0]%nat = Ok (VStr (py "k")) /\
  group_read ex_dbs (py "k") false true [1; 2; 0]%nat = Err AttributeError.
Proof.
  split. { unfold runs_all. simpl. apply perm_trans with [0; 2; 1]%nat; [constructor|]. apply perm_skip. constructor. }
  split. { unfold runs_all. simpl. apply perm_trans with [1; 0; 2]%nat; [apply perm_skip; constructor|constructor]. }
  split. { intros d [<-|[<-|[<-|[]]]]; reflexivity. }
  vm_compute. auto.
Qed.

(** ** C49-C51. [entry s q] is what the file system [s] has at the absolute path [q] (a list of names); [resolve s p] is the absolute
    path a path string means; [stat s p] is what is there, as os.path.exists/isfile see it; [wanted] is join(path, name or uuid). *)
Theorem C49_existing_path_is_refused : forall fresh s path name d ow n, stat s (wanted fresh path name) = Some n ->
  create_dbmodule fresh s path name d ow = (s, Err (if ow then FileExistsError else IOError)).
Proof. exact C49_existing. Qed.
Print Assumptions C49_existing_path_is_refused.
Theorem C49_fresh_path_is_created : forall fresh s path name d ow, fs_ok s -> let p := wanted fresh path name in
  p <> [] -> entry s (resolve s p) = None -> entry s (removelast (resolve s p)) = Some Directory ->
  exists s', create_dbmodule fresh s path name d ow = (s', Ok p).
Proof. exact C49_fresh. Qed.
Print Assumptions C49_fresh_path_is_created.
Theorem C49_nothing_else_changes : forall fresh s path name d ow s' r, fs_ok s -> create_dbmodule fresh s path name d ow = (s', r) ->
  let p := wanted fresh path name in let P := resolve s p in
  match r with
  | Err e => s' = s
  | Ok p' => p' = p /\ entry s P = None /\ entry s (removelast P) = Some Directory /\ fs_ok s' /\
      entry s' P = Some Directory /\ entry s' (P ++ [init_py]) = Some (RegFile (Generated d)) /\
      forall q, q <> P -> q <> P ++ [init_py] -> entry s' q = entry s q
  end.
Proof. exact C49_lemma. Qed.
Print Assumptions C49_nothing_else_changes.

(** a disk with /w/db (a module with data and foreign files) and /w/sub/x; the current directory is /w *)
Definition w := py "w".  Definition dbn := py "db".
Definition ex_fs : fs := mkFs [w]
  [([w], Directory); ([w; dbn], Directory); ([w; dbn; init_py], RegFile (Text (py "flag"))); ([w; dbn; py "db.index"], RegFile (Text []));
   ([w; dbn; py "notes"], RegFile (Text [])); ([w; py "sub"], Directory); ([w; py "sub"; py "x"], RegFile (Text []))].
Lemma ex_fs_ok : fs_ok ex_fs.
Proof.
  assert (G : forall a, In a [w; dbn; init_py; py "db.index"; py "notes"; py "sub"; py "x"] -> good_name a).
  { intros a Ha. repeat split; intros H; repeat (destruct Ha as [<-|Ha]; [vm_compute in H; intuition discriminate|]); destruct Ha. }
  split; [apply Forall_cons; [apply G; simpl; auto|constructor]|]. split.
  - repeat (apply NoDup_cons; [vm_compute; intuition discriminate|]). constructor.
  - intros p n Hi. repeat (destruct Hi as [[= <- <-]|Hi]; [split; [discriminate|]; split; [repeat (apply Forall_cons; [apply G; simpl; tauto|]); constructor|reflexivity]|]). destruct Hi.
Qed.
Example C49_case : fs_ok ex_fs /\ stat ex_fs (wanted [] (py ".") dbn) = Some Directory /\
  snd (create_dbmodule [] ex_fs (py ".") (py "new") true false) = Ok (py "./new") /\
  snd (create_dbmodule (py "u_u") ex_fs (py "/w/sub") [] true false) = Ok (py "/w/sub/u_u") /\
  entry (fst (create_dbmodule (py "u_u") ex_fs (py "/w/sub") [] true false)) [w; py "sub"; py "u_u"; init_py] = Some (RegFile (Generated true)) /\
  snd (create_dbmodule [] ex_fs (py "nowhere") (py "new") true false) = Err FileNotFoundError.
Proof. split; [exact ex_fs_ok|]. vm_compute. auto 10. Qed.

(** [doomed s path f]: [f] is a regular file directly in the directory, called __init__.py or starting with the directory's name
    as split(path)[1] gives it *)
Theorem C50_touches_nothing_else : forall s path re s' r, fs_ok s -> delete_dbmodule s path re false = (s', r) ->
  fs_ok s' /\ forall q, entry s' q = entry s q \/
    (entry s' q = None /\ exists f, q = resolve s path ++ [f] /\ doomed s path f) \/
    (entry s' q = None /\ q = resolve s path /\ re = true /\ r = Ok tt /\ forall f, entry s (resolve s path ++ [f]) <> None -> doomed s path f).
Proof. exact delete_frame. Qed.
Print Assumptions C50_touches_nothing_else.
Theorem C50_exactly : forall s path re s' r, fs_ok s -> stat s path = Some Directory -> entry s (resolve s path ++ [init_py]) <> Some Directory ->
  delete_dbmodule s path re false = (s', r) ->
  let P := resolve s path in
  (forall f, doomed s path f -> entry s' (P ++ [f]) = None) /\
  (forall q, q <> P -> (forall f, doomed s path f -> q <> P ++ [f]) -> entry s' q = entry s q) /\
  (re = true -> (forall f, entry s (P ++ [f]) <> None -> doomed s path f) ->
     (removable s path -> entry s' P = None /\ r = Ok tt) /\ (~ removable s path -> entry s' P = Some Directory /\ r = Err IOError)) /\
  (re = false \/ (exists f, entry s (P ++ [f]) <> None /\ ~ doomed s path f) -> entry s' P = Some Directory /\ r = Ok tt).
Proof. exact delete_exact. Qed.
Print Assumptions C50_exactly.
Theorem C50_trailing_slash_deletes_every_file : forall s path f c, ends_slash path = true ->
  entry s (resolve s path ++ [f]) = Some (RegFile c) -> doomed s path f.
Proof. exact C50_slash. Qed.
Print Assumptions C50_trailing_slash_deletes_every_file.
Theorem C50_remove_all : forall s path s' r, fs_ok s -> rmtree s path = (s', r) -> let P := resolve s path in
  (stat s path <> Some Directory -> s' = s /\ is_ok r = false) /\
  (stat s path = Some Directory ->
     (forall q, (forall a t, q <> P ++ a :: t) -> q <> P -> entry s' q = entry s q) /\
     (forall a t, entry s' (P ++ a :: t) = None) /\
     (removable s path -> entry s' P = None /\ r = Ok tt) /\
     (~ removable s path -> entry s' P = Some Directory /\ r = Err IOError)).
Proof. exact rmtree_spec. Qed.
Print Assumptions C50_remove_all.
Example C50_case : fs_ok ex_fs /\ stat ex_fs (py "/w/db") = Some Directory /\ entry ex_fs (resolve ex_fs (py "/w/db") ++ [init_py]) <> Some Directory /\
  (* notes survives, so the directory does *)
  map (entry (fst (delete_dbmodule ex_fs (py "/w/db") true false))) [[w; dbn]; [w; dbn; init_py]; [w; dbn; py "db.index"]; [w; dbn; py "notes"]] =
    [Some Directory; None; None; Some (RegFile (Text []))] /\
  (* with a trailing slash nothing survives *)
  map (entry (fst (delete_dbmodule ex_fs (py "db/") true false))) [[w; dbn]; [w; dbn; py "notes"]; [w; py "sub"; py "x"]] =
    [None; None; Some (RegFile (Text []))].
Proof. split; [exact ex_fs_ok|]. vm_compute. split; [reflexivity|]. split; [discriminate|auto]. Qed.

(** [module_dir run s root f n]: [root/f] is a directory whose __init__.py, executed, has DB_MODULE true and a db() called [n];
    [run dir t]: what executing the source text [t] as [dir/__init__.py] gives *)
Theorem C51_is_path_dbmodule_never_raises : forall run s dir, (forall t, run dir t <> Err SystemExit) -> exists b, is_path_dbmodule run s dir = Ok b.
Proof. exact C51_never. Qed.
Print Assumptions C51_is_path_dbmodule_never_raises.
Theorem C51_system_exit_gets_through_refuted : exists run s dir, is_path_dbmodule run s dir = Err SystemExit.
Proof. exists (fun _ _ => Err SystemExit), ex_fs, (py "/w/db"). apply C51_exit with (t := py "flag"); reflexivity. Qed.
Print Assumptions C51_system_exit_gets_through_refuted.
Theorem C51_discovery : forall run s root d, fs_ok s -> discover run s root = Ok d ->
  (forall n m, d_get n d = Some m -> dm_name m = n /\ exists f, dm_path m = join root f /\ module_dir run s root f n) /\
  (forall f n, module_dir run s root f n -> d_get n d <> None) /\ NoDup (d_keys d).
Proof. exact discover_spec. Qed.
Print Assumptions C51_discovery.
Theorem C51_explicit_modules_win : forall run s root modules g, fs_ok s -> NoDup (d_keys modules) -> new_dbgroup run s root true modules = Ok g ->
  g_root g = root /\
  (forall n m, d_get n modules = Some m -> d_get n (g_mods g) = Some m) /\
  (forall n, d_get n modules = None ->
     (forall m, d_get n (g_mods g) = Some m -> dm_name m = n /\ exists f, dm_path m = join root f /\ module_dir run s root f n) /\
     (forall f, module_dir run s root f n -> d_get n (g_mods g) <> None)).
Proof. exact C51_merge. Qed.
Print Assumptions C51_explicit_modules_win.
Theorem C51_no_discovery : forall run s root modules, new_dbgroup run s root false modules = Ok (mkGrp root modules).
Proof. exact C51_plain. Qed.
Print Assumptions C51_no_discovery.
Definition ex_run (dir t : pystr) : res pymodule := if str_eqb t (py "flag") then Ok (mkMod (Some true) (Some (Ok (py "first")))) else Err ValueError.
Example C51_case : module_dir ex_run ex_fs (py ".") dbn (py "first") /\
  discover ex_run ex_fs (py ".") = Ok [(py "first", mkDbm (py "./db") (py "first"))] /\
  new_dbgroup ex_run ex_fs (py ".") true [(py "z", mkDbm (py "q") (py "z")); (py "first", mkDbm (py "mine") (py "first"))] =
    Ok (mkGrp (py ".") [(py "first", mkDbm (py "mine") (py "first")); (py "z", mkDbm (py "q") (py "z"))]) /\
  is_path_dbmodule ex_run ex_fs (py "./sub") = Ok false.
Proof.
  split; [|vm_compute; auto]. split; [reflexivity|]. split; [discriminate|]. exists (py "flag"), (mkMod (Some true) (Some (Ok (py "first")))). repeat split.
Qed.

(** ** C52. [reg_history] (DiscoverFacts) is the specification: a partial map from ids to entries *)
Theorem C52_registry_is_a_map : forall ops c c' rs, NoDup (d_keys c) -> r_run ops c = (c', rs) ->
  reg_history (fun id => d_get id c) ops (fun id => d_get id c') rs /\ NoDup (d_keys c').
Proof. exact C52_lemma. Qed.
Print Assumptions C52_registry_is_a_map.
Example C52_case : let o := mkObj (Some (py "n")) (Some (py "p")) in
  r_run [RWrite (py "a") o; RRead (py "a"); RExpand 7; RDelete (py "b"); RWrite (py "a") (mkObj None None); RHas (py "a"); RDelete (py "a"); RHas (py "a")] [] =
  ([], [Ok RUnit; Ok (REntry (Some (mkReg (py "n") (py "p")))); Ok RUnit; Err KeyError; Err AttributeError; Ok (RBool true); Ok RUnit; Ok (RBool false)]).
Proof. reflexivity. Qed.

(** ** C78 *)
Theorem C78_generated_module_is_no_module : forall run s dir d, stat s (join dir init_py) = Some (RegFile (Generated d)) ->
  is_path_dbmodule run s dir = Ok false /\ (exists_ s dir = true -> open_dbmodule run s dir = Err ImportError).
Proof. exact C78_not_module. Qed.
Print Assumptions C78_generated_module_is_no_module.
Theorem C78_never_discovered : forall run s root d n m f b, fs_ok s -> discover run s root = Ok d -> d_get n d = Some m -> dm_path m = join root f -> good_name f ->
  entry s (resolve s root ++ [f; init_py]) <> Some (RegFile (Generated b)).
Proof. exact C78_undiscovered. Qed.
Print Assumptions C78_never_discovered.
Theorem C78_create_always_raises : forall run fresh s g name ow, fs_ok s ->
  exists s' e, group_create run fresh s g name ow = (s', g, Err e) /\
    (s' = s \/ (e = ImportError /\ let P := resolve s (wanted fresh (g_root g) name) in
       entry s' P = Some Directory /\ entry s' (P ++ [init_py]) = Some (RegFile (Generated ow)) /\
       forall q, q <> P -> q <> P ++ [init_py] -> entry s' q = entry s q)).
Proof. exact C78_create. Qed.
Print Assumptions C78_create_always_raises.
Example C78_case : let g := mkGrp (py ".") [] in let x := group_create ex_run [] ex_fs g (py "new") false in
  snd x = Err ImportError /\ entry (fst (fst x)) [w; py "new"] = Some Directory /\
  discover ex_run (fst (fst x)) (py ".") = Ok [(py "first", mkDbm (py "./db") (py "first"))] /\
  (* a second attempt fails for another reason *)
  snd (group_create ex_run [] (fst (fst x)) g (py "new") true) = Err IOError.
Proof. vm_compute. auto. Qed.

(** ** C79 *)
Theorem C79_destroy_keeps_the_entry : forall s g name, exists s' r,
  group_destroy s g name = (s', g, r) /\ delete_dbmodule s (join (g_root g) name) true false = (s', r).
Proof. exact C79_destroy. Qed.
Print Assumptions C79_destroy_keeps_the_entry.
Theorem C79_overwrite_is_refused : forall run fresh s path name n ow, stat s (wanted fresh path name) = Some n ->
  dbmodule_create run fresh s path name ow = (s, Err IOError).
Proof. exact C79_overwrite. Qed.
Print Assumptions C79_overwrite_is_refused.
Example C79_case : let g := mkGrp (py ".") [(dbn, mkDbm (py "./db") dbn)] in
  snd (fst (group_destroy ex_fs g dbn)) = g /\ entry (fst (fst (group_destroy ex_fs g dbn))) [w; dbn; init_py] = None /\
  stat ex_fs (wanted [] (py ".") dbn) = Some Directory.
Proof. vm_compute. auto. Qed.
