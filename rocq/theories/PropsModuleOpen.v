(** C128: opening a database module by its path *)
From Coq Require Import String.
From Verif Require Import Base Dict Fs FsFacts Cluster ClusterFacts DiscoverFacts ModuleOpenFacts PropsCluster.
Open Scope list_scope.

(** [opens] (ModuleOpenFacts) is the specification *)
Theorem C128_open : forall run s dir r, open_dbmodule run s dir = r <-> opens run s dir r.
Proof. exact C128_open_lemma. Qed.
Print Assumptions C128_open.
Theorem C128_flag_not_needed : forall run run' s dir, (forall t, its_db (run dir t) = its_db (run' dir t)) -> open_dbmodule run s dir = open_dbmodule run' s dir.
Proof. exact C128_flag_lemma. Qed.
Print Assumptions C128_flag_not_needed.
Theorem C128_nothing_else_read : forall run s s' dir, exists_ s dir = exists_ s' dir -> stat s (join dir (py "__init__.py")) = stat s' (join dir (py "__init__.py")) ->
  open_dbmodule run s dir = open_dbmodule run s' dir.
Proof. exact C128_only_lemma. Qed.
Print Assumptions C128_nothing_else_read.
Theorem C128_path_cannot_be_changed : forall m v, set_dbmodule_path m v = (m, Err AttributeError).
Proof. exact C128_fixed_lemma. Qed.
Print Assumptions C128_path_cannot_be_changed.
Theorem C128_create_always_raises : forall run fresh s path name ow, fs_ok s -> exists s' e, dbmodule_create run fresh s path name ow = (s', Err e).
Proof. exact C128_create_lemma. Qed.
Print Assumptions C128_create_always_raises.
Example C128_case : open_dbmodule ex_run ex_fs (py "./db") = Ok (mkDbm (py "./db") (py "first")) /\
  open_dbmodule ex_run ex_fs (py "./sub") = Err FileNotFoundError /\ open_dbmodule ex_run ex_fs (py "./gone") = Err FileNotFoundError /\
  (exists_ ex_fs (py "./sub"), exists_ ex_fs (py "./gone")) = (true, false) /\
  (* the flag that discovery looks for is not looked at *)
  (let unflagged := fun _ _ => Ok (mkMod None (Some (Ok (py "first")))) in
   is_path_dbmodule unflagged ex_fs (py "./db") = Ok false /\ open_dbmodule unflagged ex_fs (py "./db") = Ok (mkDbm (py "./db") (py "first"))) /\
  open_dbmodule (fun _ _ => Ok (mkMod (Some true) None)) ex_fs (py "./db") = Err AttributeError /\ open_dbmodule (fun _ _ => Err SystemExit) ex_fs (py "./db") = Err SystemExit.
Proof. vm_compute. auto 10. Qed.

(** ** C49: where nothing can be created. [resolve s p]: the absolute path of the string [p]; [wanted]: join(path, name or uuid) *)
(** somewhere on the way there is a regular file *)
Theorem C49_below_a_file : forall fresh s path name d ow a b c, fs_ok s -> ClusterFacts.wanted fresh path name <> [] -> resolve s (ClusterFacts.wanted fresh path name) = a ++ b -> b <> [] -> entry s a = Some (RegFile c) ->
  create_dbmodule fresh s path name d ow = (s, Err NotADirectoryError).
Proof. intros fresh s path name d ow a b c. exact (@create_under_file fresh s path name d ow a b c). Qed.
Print Assumptions C49_below_a_file.
(** no directory to create it in, and no file on the way *)
Theorem C49_no_parent : forall fresh s path name d ow, ClusterFacts.wanted fresh path name <> [] -> let P := resolve s (ClusterFacts.wanted fresh path name) in
  entry s P = None -> entry s (removelast P) = None -> (forall a b c, P = a ++ b -> a <> [] -> entry s a <> Some (RegFile c)) -> create_dbmodule fresh s path name d ow = (s, Err FileNotFoundError).
Proof. exact create_no_parent. Qed.
Print Assumptions C49_no_parent.
(** a regular file is there and the path ends in a slash: os.path.exists says no, mkdir says yes *)
Theorem C49_file_and_slash : forall fresh s path name d ow q c, ClusterFacts.wanted fresh path name = q ++ [slash] -> entry s (resolve s (q ++ [slash])) = Some (RegFile c) ->
  create_dbmodule fresh s path name d ow = (s, Err FileExistsError).
Proof. exact create_over_file_slash. Qed.
Print Assumptions C49_file_and_slash.
Definition one_file : fs := mkFs [py "home"] [([py "home"], Directory); ([py "home"; py "notes"], RegFile (Text (py "x")))].
Example C49_refused_case :
  (create_dbmodule (py "u") one_file (py "notes") (py "db") true false, create_dbmodule (py "u") one_file (py "gone") (py "db") true false,
   create_dbmodule (py "u") one_file (py ".") (py "notes/") true false, create_dbmodule (py "u") one_file (py ".") (py "notes") true false) =
  ((one_file, Err NotADirectoryError), (one_file, Err FileNotFoundError), (one_file, Err FileExistsError), (one_file, Err IOError)) /\
  resolve one_file (ClusterFacts.wanted (py "u") (py "notes") (py "db")) = [py "home"; py "notes"] ++ [py "db"] /\ ClusterFacts.wanted (py "u") (py ".") (py "notes/") = py "./notes" ++ [slash].
Proof. vm_compute. auto. Qed.
Example C49_refused_disk : fs_ok one_file.
Proof.
  assert (G : forall a, In a [py "home"; py "notes"] -> good_name a).
  { intros a [<-|[<-|[]]]; (split; [discriminate|split; [discriminate|]]); vm_compute; intuition discriminate. }
  split; [apply Forall_cons; [apply G; now left|constructor]|]. split.
  - cbn [map fst f_ent one_file]. apply NoDup_cons; [|apply NoDup_cons; [intros []|constructor]]. intros [H|[]]. discriminate H.
  - intros p n [H|[H|[]]]; injection H as <- <-; (split; [discriminate|]); (split; [|reflexivity]); repeat (apply Forall_cons; [apply G; cbn [In]; tauto|]); constructor.
Qed.

(** ** C50: what cannot be deleted, with or without [remove_all] *)
(** the path leads to or through a regular file *)
Theorem C50_not_a_directory : forall s path re all a b, fs_ok s -> path <> [] -> resolve s path = a ++ b -> (exists c, entry s a = Some (RegFile c)) -> delete_dbmodule s path re all = (s, Err NotADirectoryError).
Proof. exact delete_no_dir. Qed.
Print Assumptions C50_not_a_directory.
Theorem C50_nothing_there : forall s path re all, entry s (resolve s path) = None -> (forall a b c, resolve s path = a ++ b -> a <> [] -> entry s a <> Some (RegFile c)) -> delete_dbmodule s path re all = (s, Err FileNotFoundError).
Proof. exact delete_nothing. Qed.
Print Assumptions C50_nothing_there.
(** a directory called __init__.py: IsADirectoryError, and the directory of the module stays (C50_touches_nothing_else) *)
Theorem C50_init_is_a_directory : forall s path re, fs_ok s -> stat s path = Some Directory -> entry s (resolve s path ++ [py "__init__.py"]) = Some Directory -> snd (delete_dbmodule s path re false) = Err IsADirectoryError.
Proof. exact delete_init_dir. Qed.
Print Assumptions C50_init_is_a_directory.
Definition odd_dir : fs := mkFs [py "home"] [([py "home"], Directory); ([py "home"; py "__init__.py"], Directory)].
Example C50_refused_case :
  (delete_dbmodule one_file (py "notes") true false, delete_dbmodule one_file (py "notes/db/") true true, delete_dbmodule one_file (py "gone") true false, snd (delete_dbmodule odd_dir (py "/home") true false)) =
  ((one_file, Err NotADirectoryError), (one_file, Err NotADirectoryError), (one_file, Err FileNotFoundError), Err IsADirectoryError) /\ stat odd_dir (py "/home") = Some Directory.
Proof. vm_compute. auto. Qed.
