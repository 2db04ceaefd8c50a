From Coq Require Import String.
From Verif Require Import Base BaseFacts Dict DictFacts Fs Cluster PropsCluster Managed.
Open Scope list_scope.

(** ** C103 the managed group *)
Lemma managed_keys g own n : In n (managed_databases g own) <-> In n (d_keys (g_mods g)) \/ n = match own with Some x => x | None => py "unnamed" end.
Proof.
  unfold managed_databases. generalize (match own with Some x => x | None => py "unnamed" end). intros k. rewrite d_keys_set.
  assert (E : d_keys (map (fun p : pystr * dbmodule => (fst p, tt)) (g_mods g)) = d_keys (g_mods g)) by (unfold d_keys; rewrite map_map; reflexivity). rewrite E. unfold d_mem.
  destruct (d_get k (map (fun p : pystr * dbmodule => (fst p, tt)) (g_mods g))) eqn:G.
  - split; [now left|]. intros [H| ->]; [exact H|]. rewrite <- E. apply d_get_in. rewrite G. discriminate.
  - rewrite in_app_iff. cbn [In]. split; [intros [H|[H|[]]]|intros [H|H]]; auto.
Qed.
(** the constructor succeeds exactly if the modules can be discovered, the storage opened, and the name is neither 'unnamed' nor the name of a module; the databases are then the modules' and its own *)
Theorem C103_construction : forall run storage s root name s' g dbs, managed_init run storage s root name = (s', Ok (g, dbs)) <->
  discover run s root = Ok (g_mods g) /\ g_root g = root /\ storage s (join root name) = (s', Ok tt) /\ name <> py "unnamed" /\ d_get name (g_mods g) = None /\ dbs = d_keys (g_mods g) ++ [name].
Proof.
  intros run storage s root name s' g dbs. unfold managed_init, new_dbgroup. destruct (discover run s root) as [d|e]; [|split; [discriminate|intros [X _]; discriminate X]].
  change (d_merge d []) with d. destruct (storage s (join root name)) as [s1 [[]|e]]; [|split; [discriminate|intros [_ [_ [X _]]]; discriminate X]].
  destruct (mem_str name (managed_databases (mkGrp root d) None)) eqn:M.
  - apply mem_str_In, managed_keys in M. cbn [g_mods] in M. split; [discriminate|]. intros [X [_ [_ [N [G _]]]]]. injection X as ->. destruct M as [M|M]; [|contradiction]. apply d_get_in in M. contradiction.
  - apply mem_str_false in M. rewrite managed_keys in M. cbn [g_mods] in M.
    assert (D : d_get name d = None). { destruct (d_get name d) eqn:G; [|reflexivity]. exfalso. apply M. left. apply d_get_in. rewrite G. discriminate. }
    assert (K : managed_databases (mkGrp root d) (Some name) = d_keys d ++ [name]).
    { unfold managed_databases. cbn [g_mods]. rewrite d_keys_set. assert (E : d_keys (map (fun p : pystr * dbmodule => (fst p, tt)) d) = d_keys d) by (unfold d_keys; rewrite map_map; reflexivity). rewrite E. unfold d_mem.
      replace (d_get name (map (fun p : pystr * dbmodule => (fst p, tt)) d)) with (@None unit); [reflexivity|]. symmetry. apply d_get_none. rewrite E. now apply d_get_none. }
    rewrite K. split.
    + intros X. injection X as <- <- <-. cbn [g_mods g_root]. repeat split; auto.
    + intros [X [<- [Y [N [G ->]]]]]. injection Y as ->. injection X as ->. now destruct g.
Qed.
Print Assumptions C103_construction.
(** the default name is never possible *)
Theorem C103_default_name_refuted : forall run storage s root, exists s' e, managed_init run storage s root (py "unnamed") = (s', Err e).
Proof.
  intros run storage s root. destruct (managed_init run storage s root (py "unnamed")) as [s' [[g dbs]|e]] eqn:E; [|exists s', e; reflexivity].
  apply C103_construction in E. destruct E as [_ [_ [_ [N _]]]]. now elim N.
Qed.
Print Assumptions C103_default_name_refuted.
(** nothing can be done with it: creating, destroying and validating modules raise TypeError and touch no file; [new] never returns, although it has opened the storage *)
Theorem C103_unusable : forall run storage fresh s g name overwrite root,
  managed_create run fresh s g name overwrite = (s, Err TypeError) /\ managed_destroy s g name = (s, Err TypeError) /\ managed_validate s = (s, Err TypeError) /\
  exists e, managed_new run storage s root name = (fst (managed_init run storage s root name), Err e) /\ (forall x, snd (managed_init run storage s root name) = Ok x -> e = TypeError) /\ (forall e', snd (managed_init run storage s root name) = Err e' -> e = e').
Proof.
  intros run storage fresh s g name ow root. split; [reflexivity|]. split; [reflexivity|]. split; [reflexivity|].
  unfold managed_new. destruct (managed_init run storage s root name) as [s1 [x|e]]; cbn [fst snd].
  - exists TypeError. repeat split; intros; congruence.
  - exists e. repeat split; intros; congruence.
Qed.
Print Assumptions C103_unusable.
Example C103_case : let storage := fun (s : fs) (_ : pystr) => (s, Ok tt) in
  snd (managed_init ex_run storage ex_fs (py ".") (py "cluster")) = Ok (mkGrp (py ".") [(py "first", mkDbm (py "./db") (py "first"))], [py "first"; py "cluster"]) /\
  snd (managed_init ex_run storage ex_fs (py ".") (py "first")) = Err ValueError /\ snd (managed_init ex_run storage ex_fs (py ".") (py "unnamed")) = Err ValueError.
Proof. cbv zeta. split; [|split]; vm_compute; reflexivity. Qed.
