(** C121: create_dbmodule and delete_dbmodule when processes die in the middle or run at the same time (citrine/cluster_tools/dbmodule/dbmodule.py:17-65). *)
From Coq Require Import String.
From Verif Require Import Base Fs FsFacts Cluster ClusterFacts CrashFs CrashFsFacts PropsCluster.
Open Scope nat_scope.
Open Scope list_scope.

(** Run alone to its end, a process does what create_dbmodule (C49) and delete_dbmodule (C50) do. *)
Theorem C121_create_alone s fresh path name d ow : fs_ok s -> let p := wanted fresh path name in let out := create_dbmodule fresh s path name d ow in
  w_run [0; 0; 0; 0] (w_start s [JCreate p d ow]) = mkW (fst out) [mkP (JCreate p d ow) (Done (match snd out with Ok _ => Ok tt | Err e => Err e end))].
Proof. exact (@C121_create_alone_lemma s fresh path name d ow). Qed.
Print Assumptions C121_create_alone.
Theorem C121_delete_alone s p re : fs_ok s ->
  exists n, w_run (repeat 0 n) (w_start s [JDelete p re]) = mkW (fst (delete_dbmodule s p re false)) [mkP (JDelete p re) (Done (snd (delete_dbmodule s p re false)))].
Proof. exact (@C121_delete_alone_lemma s p re). Qed.
Print Assumptions C121_delete_alone.

(** Any number of processes creating the same directory [P], in any schedule (a process that is not scheduled any more has died): at most one returns normally, the others raise IOError or
    FileExistsError - and only when the directory is there -; if all come to an end one returns normally; the one that returned has its __init__.py in place; nothing else in the file system changes,
    and an __init__.py is whole or empty. *)
Theorem C121_creators s0 P jobs sched : fs_ok s0 -> Forall good_name P -> entry s0 P = None -> entry s0 (removelast P) = Some Directory ->
  (forall j, In j jobs -> exists p d ow, j = JCreate p d ow /\ p <> [] /\ resolve s0 p = P) ->
  let w := w_run sched (w_start s0 jobs) in let s := w_fs w in
  (forall i j q r, nth_error (w_procs w) i = Some q -> nth_error (w_procs w) j = Some r -> p_phase q = Done (Ok tt) -> p_phase r = Done (Ok tt) -> i = j) /\
  (forall q e, In q (w_procs w) -> p_phase q = Done (Err e) -> (e = IOError \/ e = FileExistsError) /\ entry s P = Some Directory) /\
  (forall q p d ow, In q (w_procs w) -> p_job q = JCreate p d ow -> p_phase q = Done (Ok tt) -> entry s P = Some Directory /\ entry s (P ++ [init_py]) = Some (RegFile (Generated d))) /\
  (jobs <> [] -> all_done w -> exists q, In q (w_procs w) /\ p_phase q = Done (Ok tt)) /\
  (forall q, q <> P -> q <> P ++ [init_py] -> entry s q = entry s0 q) /\
  (entry s P = None \/ entry s P = Some Directory) /\
  (entry s (P ++ [init_py]) = None \/ exists c, entry s (P ++ [init_py]) = Some (RegFile c) /\ (c = Text [] \/ exists p d ow, In (JCreate p d ow) jobs /\ c = Generated d)).
Proof. exact (@C121_creators_lemma s0 P jobs sched). Qed.
Print Assumptions C121_creators.

(** Wherever they died: either nothing was made, or the name is taken for every later create_dbmodule until delete_dbmodule is called, which then succeeds and leaves the file system as it was at first. *)
Theorem C121_recover s0 jobs sched p fresh path name d ow : fs_ok s0 -> p = wanted fresh path name -> let P := resolve s0 p in p <> [] -> removable s0 p -> entry s0 P = None -> entry s0 (removelast P) = Some Directory ->
  (forall j, In j jobs -> exists p d ow, j = JCreate p d ow /\ p <> [] /\ resolve s0 p = P) ->
  let s := w_fs (w_run sched (w_start s0 jobs)) in
  (s = s0 /\ delete_dbmodule s p true false = (s, Err FileNotFoundError)) \/
  (entry s P = Some Directory /\ create_dbmodule fresh s path name d ow = (s, Err (if ow then FileExistsError else IOError)) /\
   exists s', delete_dbmodule s p true false = (s', Ok tt) /\ same_entries s' s0).
Proof. exact (@C121_recover_lemma s0 jobs sched p fresh path name d ow). Qed.
Print Assumptions C121_recover.

(** A delete that died anywhere can be done again: the second gives the same file system and result as one that is not interrupted, except that it raises FileNotFoundError
    when the first had already removed the directory. *)
Theorem C121_restart s p re sched : fs_ok s -> let s' := w_fs (w_run sched (w_start s [JDelete p re])) in
  delete_dbmodule s' p re false = delete_dbmodule s p re false \/
  (delete_dbmodule s p re false = (s', Ok tt) /\ delete_dbmodule s' p re false = (s', Err FileNotFoundError) /\ entry s' (resolve s' p) = None).
Proof. exact (@C121_restart_lemma s p re sched). Qed.
Print Assumptions C121_restart.

(** Any number of processes deleting the same directory: only what one delete is after can vanish, the only error is FileNotFoundError, and once one of them has returned normally
    all of it has vanished. *)
Theorem C121_deleters s0 p jobs sched : fs_ok s0 -> let P := resolve s0 p in stat s0 p = Some Directory -> entry s0 (P ++ [init_py]) <> Some Directory -> removable s0 p ->
  (forall j, In j jobs -> exists re, j = JDelete p re) ->
  let w := w_run sched (w_start s0 jobs) in let s := w_fs w in
  (forall q, entry s q = entry s0 q \/ (entry s q = None /\ ((exists f, q = P ++ [f] /\ doomed s0 p f) \/ (q = P /\ forall f, entry s0 (P ++ [f]) <> None -> doomed s0 p f)))) /\
  (forall q e, In q (w_procs w) -> p_phase q = Done (Err e) -> e = FileNotFoundError) /\
  (forall q re, In q (w_procs w) -> p_job q = JDelete p re -> p_phase q = Done (Ok tt) ->
     (forall f, doomed s0 p f -> entry s (P ++ [f]) = None) /\ (re = true -> (forall f, entry s0 (P ++ [f]) <> None -> doomed s0 p f) -> entry s P = None)).
Proof. exact (@C121_deleters_lemma s0 p jobs sched). Qed.
Print Assumptions C121_deleters.

(** ** Refuted *)
Definition dbp : pystr := py "/w/db".
Definition two_deletes : world := w_start ex_fs [JDelete dbp true; JDelete dbp true].
(** Claim: deleting is idempotent, so of two processes deleting the same directory both return normally. *)
Theorem C121_both_deletes_return_refuted : ~ (forall sched e q, In q (w_procs (w_run sched two_deletes)) -> p_phase q <> Done (Err e)).
Proof.
  intro H. apply (H [0; 0; 0; 0; 0; 1; 1; 1; 1; 1; 0; 1]%nat FileNotFoundError (mkP (JDelete dbp true) (Done (Err FileNotFoundError)))); [|reflexivity]. right. left. vm_compute. reflexivity.
Qed.
Print Assumptions C121_both_deletes_return_refuted.
(** Claim: a create that returned normally has made a database module. If someone deletes the directory meanwhile it returns normally and there is nothing. *)
Theorem C121_create_during_delete_refuted : ~ (forall sched q, let o := w_run sched (w_start ex_fs [JCreate (py "/w/new") true false; JDelete (py "/w/new") true]) in
  nth_error (w_procs o) 0 = Some q -> p_phase q = Done (Ok tt) -> entry (w_fs o) [w; py "new"] = Some Directory).
Proof.
  intro H. specialize (H [0; 0; 0; 1; 1; 1; 1; 1; 1; 1; 0]%nat (mkP (JCreate (py "/w/new") true false) (Done (Ok tt)))). cbv zeta in H.
  assert (X : @None node = Some Directory); [|discriminate X]. apply H; vm_compute; reflexivity.
Qed.
Print Assumptions C121_create_during_delete_refuted.

(** Deleting with remove_all that died part-way: shutil.rmtree removes entries below the directory in an order that is its own business, so what is left is the file system without some entries below it. Running the delete again ends as the first would have. *)
Theorem C121_remove_all_restart : forall s path (gone : Fs.path -> bool) remove_empty, stat s path = Some Directory -> (forall q, gone q = true -> exists a t, q = resolve s path ++ a :: t) ->
  delete_dbmodule (drop_ents gone s) path remove_empty true = delete_dbmodule s path remove_empty true.
Proof. intros s path gone re E H. apply C121_remove_all_restart_lemma; [exact E|]. intros q F. apply under_spec. exact (H q F). Qed.
Print Assumptions C121_remove_all_restart.
Example C121_remove_all_ex : stat ex_fs dbp = Some Directory /\ let gone := path_eqb [w; dbn; init_py] in
  (forall q, gone q = true -> exists a t, q = resolve ex_fs dbp ++ a :: t) /\ entry (drop_ents gone ex_fs) [w; dbn; init_py] = None /\ entry ex_fs [w; dbn; init_py] <> None /\
  entry (fst (delete_dbmodule (drop_ents gone ex_fs) dbp false true)) [w; dbn] = None.
Proof.
  split; [reflexivity|]. cbv zeta. split; [intros q E; apply path_eqb_eq in E; subst q; exists init_py, []; vm_compute; reflexivity|]. vm_compute. split; [reflexivity|]. split; [discriminate|reflexivity].
Qed.

(** ** Examples *)
Definition newp : pystr := py "/w/new".
Definition three : list job := [JCreate newp true false; JCreate (py "./new") false true; JCreate newp false false].
Lemma three_ok : forall j, In j three -> exists p d ow, j = JCreate p d ow /\ p <> [] /\ resolve ex_fs p = [w; py "new"].
Proof. intros j [<-|[<-|[<-|[]]]]; (eexists; eexists; eexists; split; [reflexivity|]; split; [discriminate|vm_compute; reflexivity]). Qed.
(** three processes create the same directory at the same time; the second, which was there first, dies before it has written *)
Example C121_creators_ex : fs_ok ex_fs /\ entry ex_fs [w; py "new"] = None /\ entry ex_fs [w] = Some Directory /\
  let o := w_run [0; 1; 2; 1; 0; 2; 1]%nat (w_start ex_fs three) in
  map p_phase (w_procs o) = [Done (Err FileExistsError); CWrite; Done (Err FileExistsError)] /\ entry (w_fs o) [w; py "new"; init_py] = Some (RegFile (Text [])).
Proof. split; [exact ex_fs_ok|]. split; [reflexivity|]. split; [reflexivity|]. vm_compute. auto. Qed.
(** ... and deleting the directory makes room again *)
Example C121_recover_ex : removable ex_fs newp /\ newp = wanted [] (py "/w") (py "new") /\
  let s := w_fs (w_run [0; 1; 2; 1; 0; 2; 1]%nat (w_start ex_fs three)) in
  snd (create_dbmodule [] s (py "/w") (py "new") true false) = Err IOError /\ fst (delete_dbmodule s newp true false) = ex_fs.
Proof. split; [split; vm_compute; discriminate|]. vm_compute. auto. Qed.
(** a delete that died after the first removal *)
Example C121_restart_ex : let s' := w_fs (w_run (repeat 0 6) (w_start ex_fs [JDelete dbp true])) in
  map (entry s') [[w; dbn; init_py]; [w; dbn; py "db.index"]] = [None; Some (RegFile (Text []))] /\ delete_dbmodule s' dbp true false = delete_dbmodule ex_fs dbp true false.
Proof. vm_compute. auto. Qed.
(** two processes delete; the second raises, the first returns and everything is gone *)
Example C121_deleters_ex : stat ex_fs dbp = Some Directory /\ entry ex_fs (resolve ex_fs dbp ++ [init_py]) <> Some Directory /\ removable ex_fs dbp /\
  let o := w_run [0; 0; 0; 0; 0; 1; 1; 1; 1; 1; 0; 1; 0; 0; 0]%nat two_deletes in
  map p_phase (w_procs o) = [Done (Ok tt); Done (Err FileNotFoundError)] /\ map (entry (w_fs o)) [[w; dbn]; [w; dbn; init_py]; [w; dbn; py "db.index"]; [w; dbn; py "notes"]] = [Some Directory; None; None; Some (RegFile (Text []))].
Proof. split; [reflexivity|]. split; [vm_compute; discriminate|]. split; [split; vm_compute; discriminate|]. vm_compute. auto. Qed.
