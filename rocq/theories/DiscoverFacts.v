(** Proofs about importing and discovering database modules, groups, and the registry *)
From Coq Require Import String.
From Verif Require Import Base BaseFacts Dict DictFacts Fs FsFacts Cluster ClusterFacts.
Open Scope list_scope.
Set Implicit Arguments.

Lemma C51_never run s dir : (forall t, run dir t <> Err SystemExit) -> exists b, is_path_dbmodule run s dir = Ok b.
Proof.
  intros H. unfold is_path_dbmodule. destruct (exec_init run s dir) as [m|e] eqn:E; [eauto|].
  destruct e; eauto. exfalso. unfold exec_init in E. destruct (stat s _) as [[[d|t]|]|]; try discriminate. now apply (H t).
Qed.
Lemma C51_exit run s dir t : stat s (join dir init_py) = Some (RegFile (Text t)) -> run dir t = Err SystemExit ->
  is_path_dbmodule run s dir = Err SystemExit.
Proof. intros H1 H2. unfold is_path_dbmodule, exec_init. now rewrite H1, H2. Qed.

Lemma run_generated_fails dir d : run_generated dir d = Err ImportError.
Proof. reflexivity. Qed.

(** [f] names a module directory below [root] whose database is called [n] *)
Definition module_dir (run : pystr -> pystr -> res pymodule) (s : fs) (root f n : pystr) : Prop :=
  entry s (resolve s root ++ [f]) = Some Directory /\ f <> root /\
  exists t m, entry s (resolve s root ++ [f; init_py]) = Some (RegFile (Text t)) /\ run (join root f) t = Ok m /\
    m_flag m = Some true /\ m_db m = Some (Ok n).

Lemma stat_init s root f : good_name f -> stat s (join (join root f) init_py) = entry s (resolve s root ++ [f; init_py]).
Proof. intros Hg. rewrite (stat_join s _ init_good), (resolve_join s root Hg), <- app_assoc. reflexivity. Qed.

Lemma is_db_true run s root f : good_name f -> is_path_dbmodule run s (join root f) = Ok true ->
  exists t m, entry s (resolve s root ++ [f; init_py]) = Some (RegFile (Text t)) /\ run (join root f) t = Ok m /\ m_flag m = Some true.
Proof.
  intros Hg H. unfold is_path_dbmodule, exec_init in H. rewrite (stat_init s root Hg) in H.
  destruct (entry s _) as [[[d|t]|]|]; try discriminate. destruct (run (join root f) t) as [m|e] eqn:E; [|destruct e; discriminate].
  exists t, m. destruct (m_flag m) as [[|]|] eqn:Ef; try discriminate. auto.
Qed.

Lemma open_all_spec run s root : fs_ok s -> forall names ms,
  (forall f, In f names -> good_name f /\ exists_ s (join (join root f) init_py) = true /\ f <> root) ->
  open_all run s (map (join root) names) = Ok ms ->
  (forall m, In m ms -> exists f, In f names /\ m = mkDbm (join root f) (dm_name m) /\ module_dir run s root f (dm_name m)) /\
  (forall f n, In f names -> module_dir run s root f n -> In (mkDbm (join root f) n) ms).
Proof.
  intros Hok. induction names as [|f names IH]; intros ms Hn H; simpl in H.
  - injection H as <-. split; [intros ? []|intros ? ? []].
  - assert (Hn' : forall f, In f names -> good_name f /\ exists_ s (join (join root f) init_py) = true /\ f <> root) by (intros g Hg; apply Hn; now right).
    destruct (Hn f (or_introl eq_refl)) as (Hg & Hex & Hne).
    destruct (is_path_dbmodule run s (join root f)) as [[|]|e] eqn:Ei; [| |discriminate].
    + destruct (open_dbmodule run s (join root f)) as [m|e] eqn:Eo; [|discriminate].
      destruct (open_all run s (map (join root) names)) as [ms'|e] eqn:Ea; [|discriminate]. injection H as <-.
      destruct (IH ms' Hn' eq_refl) as [H1 H2].
      destruct (is_db_true run s root Hg Ei) as (t & md & He & Hr & Hf).
      unfold open_dbmodule in Eo. destruct (negb (exists_ s (join root f))) eqn:Ex; [discriminate|].
      unfold import_db in Eo. rewrite Hex in Eo. simpl in Eo. unfold exec_init in Eo. rewrite (stat_init s root Hg), He, Hr in Eo.
      destruct (m_db md) as [[n|e]|] eqn:Ed; try discriminate. injection Eo as <-.
      assert (Hdir : entry s (resolve s root ++ [f]) = Some Directory).
      { assert (Hne2 : resolve s root ++ [f; init_py] <> []) by (now destruct (resolve s root)).
        pose proof (@entry_parent s _ _ Hok He Hne2) as Hp. change [f; init_py] with ([f] ++ [init_py]) in Hp. rewrite app_assoc, removelast_last in Hp. exact Hp. }
      split.
      * intros m [<-|Hm].
        -- exists f. split; [now left|]. split; [reflexivity|]. simpl. split; [exact Hdir|]. split; [exact Hne|]. exists t, md. auto.
        -- destruct (H1 m Hm) as (g & Hgi & Hx). exists g. split; [now right|exact Hx].
      * intros g n0 [<-|Hgi] Hmd; [|right; now apply H2].
        left. destruct Hmd as (_ & _ & t' & m' & He' & Hr' & _ & Hd'). rewrite He in He'. injection He' as <-. rewrite Hr in Hr'. injection Hr' as <-. rewrite Ed in Hd'. injection Hd' as <-. reflexivity.
    + destruct (IH ms Hn' H) as [H1 H2]. split.
      * intros m Hm. destruct (H1 m Hm) as (g & Hgi & Hx). exists g. split; [now right|exact Hx].
      * intros g n [<-|Hgi] Hmd; [|now apply H2]. exfalso. destruct Hmd as (_ & _ & t & m & He & Hr & Hf & _).
        unfold is_path_dbmodule, exec_init in Ei. rewrite (stat_init s root Hg), He, Hr, Hf in Ei. discriminate.
Qed.

Lemma discover_spec run s root d : fs_ok s -> discover run s root = Ok d ->
  (forall n m, d_get n d = Some m -> dm_name m = n /\ exists f, dm_path m = join root f /\ module_dir run s root f n) /\
  (forall f n, module_dir run s root f n -> d_get n d <> None) /\ NoDup (d_keys d).
Proof.
  intros Hok H. unfold discover in H. destruct (candidates s root) as [cs|e] eqn:Ec; [|discriminate].
  destruct (open_all run s cs) as [ms|e] eqn:Eo; [|discriminate]. injection H as <-.
  unfold candidates in Ec. destruct (listdir s root) as [names|e] eqn:El; [|discriminate]. injection Ec as <-.
  assert (Hnames : names = children s (resolve s root)).
  { unfold listdir in El. destruct (stat s root) as [[|]|]; congruence. }
  assert (Hc : forall f, In f (filter (fun f => exists_ s (join (join root f) init_py) && negb (str_eqb f root)) names) ->
     good_name f /\ exists_ s (join (join root f) init_py) = true /\ f <> root).
  { intros f Hf. apply filter_In in Hf as [Hf1 Hf2]. apply andb_true_iff in Hf2 as [Ha Hb]. rewrite Hnames in Hf1.
    split; [now apply (@children_good s (resolve s root) f Hok)|]. split; [exact Ha|]. apply negb_true_iff, str_eqb_neq in Hb. exact Hb. }
  destruct (@open_all_spec run s root Hok _ ms Hc Eo) as [H1 H2]. unfold d_of.
  split; [|split].
  - intros n m Hg. rewrite d_get_merge in Hg. simpl in Hg. destruct (last_of n (map (fun m0 => (dm_name m0, m0)) ms)) as [m'|] eqn:E; [|discriminate].
    injection Hg as ->. apply last_of_some, in_map_iff in E as [m0 [[= <- ->] Hm]]. split; [reflexivity|].
    destruct (H1 m Hm) as (f & _ & Hp & Hmd). exists f. split; [now rewrite Hp|exact Hmd].
  - intros f n Hmd. assert (Hin : In (mkDbm (join root f) n) ms).
    { apply H2; [|exact Hmd]. apply filter_In. destruct Hmd as (Hd & Hr & t & m & He & _).
      assert (Hi : In f (children s (resolve s root))) by (apply children_in; [auto|congruence]).
      split; [now rewrite Hnames|]. apply andb_true_iff. split; [|apply negb_true_iff, str_eqb_neq, Hr].
      assert (Hg : good_name f) by (now apply (@children_good s (resolve s root) f Hok)).
      unfold exists_. now rewrite (stat_init s root Hg), He. }
    rewrite d_get_merge. assert (Hl : last_of n (map (fun m0 => (dm_name m0, m0)) ms) <> None).
    { apply last_of_in. rewrite map_map. apply in_map_iff. exists (mkDbm (join root f) n). auto. }
    destruct (last_of n _); congruence.
  - apply d_merge_nodup. constructor.
Qed.

Lemma C51_merge run s root modules g : fs_ok s -> NoDup (d_keys modules) -> new_dbgroup run s root true modules = Ok g ->
  g_root g = root /\
  (forall n m, d_get n modules = Some m -> d_get n (g_mods g) = Some m) /\
  (forall n, d_get n modules = None ->
     (forall m, d_get n (g_mods g) = Some m -> dm_name m = n /\ exists f, dm_path m = join root f /\ module_dir run s root f n) /\
     (forall f, module_dir run s root f n -> d_get n (g_mods g) <> None)).
Proof.
  intros Hok Hnd H. unfold new_dbgroup in H. destruct (discover run s root) as [d|e] eqn:Ed; [|discriminate]. injection H as <-. simpl.
  destruct (@discover_spec _ _ _ _ Hok Ed) as (H1 & H2 & _).
  assert (Hget : forall n, d_get n (d_merge d modules) = match d_get n modules with Some v => Some v | None => d_get n d end).
  { intros n. rewrite d_get_merge. now rewrite (@last_of_nodup _ n modules Hnd). }
  split; [reflexivity|]. split.
  - intros n m Hm. now rewrite Hget, Hm.
  - intros n Hn. rewrite Hget, Hn. split; [apply H1|intros f; apply H2].
Qed.
Lemma C51_plain run s root modules : new_dbgroup run s root false modules = Ok (mkGrp root modules).
Proof. reflexivity. Qed.

(** ** C78: generated modules cannot be imported *)
Lemma C78_not_module run s dir d : stat s (join dir init_py) = Some (RegFile (Generated d)) ->
  is_path_dbmodule run s dir = Ok false /\ (exists_ s dir = true -> open_dbmodule run s dir = Err ImportError).
Proof.
  intros H. unfold is_path_dbmodule, open_dbmodule, import_db, exec_init. rewrite H, run_generated_fails. split; [reflexivity|].
  intros Hx. rewrite Hx. unfold exists_. rewrite H. reflexivity.
Qed.
Lemma C78_create run fresh s g name ow : fs_ok s ->
  exists s' e, group_create run fresh s g name ow = (s', g, Err e) /\
    (s' = s \/ (e = ImportError /\ let P := resolve s (wanted fresh (g_root g) name) in
       entry s' P = Some Directory /\ entry s' (P ++ [init_py]) = Some (RegFile (Generated ow)) /\
       forall q, q <> P -> q <> P ++ [init_py] -> entry s' q = entry s q)).
Proof.
  intros Hok. unfold group_create, dbmodule_create. destruct (create_dbmodule fresh s (g_root g) name ow false) as [s1 [p|e]] eqn:E.
  - pose proof (@C49_lemma _ _ _ _ _ _ _ _ Hok E) as (-> & Hn & Hd & Hok1 & HP & Hi & Hf).
    set (p := wanted fresh (g_root g) name) in *.
    assert (Hne : p <> []). { intros Hp. unfold p in Hp. unfold create_dbmodule in E. fold (wanted fresh (g_root g) name) in E. fold p in E. unfold p in E. rewrite Hp in E. discriminate. }
    assert (Hcw : f_cwd s1 = f_cwd s).
    { clear -E. revert E. unfold create_dbmodule. destruct (negb false && _); [discriminate|]. destruct (mkdir s _) as [s2 [u|e]] eqn:Em; [|discriminate].
      assert (Hc : f_cwd s2 = f_cwd s). { unfold mkdir in Em. destruct (join _ _); [congruence|]. destruct (entry s _); [congruence|]. destruct (entry s _) as [[|]|]; try congruence. injection Em as <- _. reflexivity. }
      rewrite <- Hc. destruct (write_file s2 _ _) as [s3 [u'|e]] eqn:Ew; [|discriminate]. intros [= <-].
      unfold write_file in Ew. destruct (join _ init_py); [discriminate|]. destruct (dir_form _); [discriminate|].
      destruct (entry s2 _) as [[|]|]; try discriminate; [injection Ew as <-; unfold set_ent; now destruct (entry s2 _)|].
      destruct (entry s2 _) as [[|]|]; try discriminate. injection Ew as <-. reflexivity. }
    assert (Hres : resolve s1 p = resolve s p) by (unfold resolve; now rewrite Hcw).
    assert (Hst : stat s1 (join p init_py) = Some (RegFile (Generated ow))) by (rewrite (stat_join s1 p init_good), Hres; exact Hi).
    assert (Hex : exists_ s1 p = true). { unfold exists_, stat. rewrite Hres, HP. now destruct p. }
    destruct (@C78_not_module run s1 p ow Hst) as [_ Ho]. rewrite (Ho Hex). exists s1, ImportError. split; [reflexivity|]. right. auto.
  - pose proof (@C49_lemma _ _ _ _ _ _ _ _ Hok E) as Hs. simpl in Hs. subst s1. exists s, e. auto.
Qed.
Lemma C78_undiscovered run s root d n m f b : fs_ok s -> discover run s root = Ok d -> d_get n d = Some m -> dm_path m = join root f -> good_name f ->
  entry s (resolve s root ++ [f; init_py]) <> Some (RegFile (Generated b)).
Proof.
  intros Hok Hd Hm Hp Hg He. destruct (@discover_spec _ _ _ _ Hok Hd) as (H1 & _). destruct (H1 n m Hm) as (_ & f' & Hp' & Hmd' & _ & t & _ & He' & _).
  rewrite Hp in Hp'. assert (Hg' : good_name f'). { apply (@children_good s (resolve s root) f' Hok), children_in; [auto|congruence]. }
  assert (Hff : f = f') by (rewrite <- (basename_join root Hg), <- (basename_join root Hg'); congruence). subst f'. congruence.
Qed.

(** ** C79: destroy does not unregister, and overwrite is not overwrite *)
Lemma C79_destroy s g name : exists s' r, group_destroy s g name = (s', g, r) /\ delete_dbmodule s (join (g_root g) name) true false = (s', r).
Proof. unfold group_destroy. destruct (delete_dbmodule _ _ _ _) as [s' r]. eauto. Qed.
Lemma C79_overwrite run fresh s path name n ow : stat s (wanted fresh path name) = Some n ->
  dbmodule_create run fresh s path name ow = (s, Err IOError).
Proof. intros H. unfold dbmodule_create. now rewrite (C49_existing fresh s path name ow false H). Qed.

(** ** C52 *)
Definition rmap := pystr -> option regentry.
Inductive reg_spec (m : rmap) : rop -> rmap -> res rout -> Prop :=
| rs_write id o n p m' : o_name o = Some n -> o_path o = Some p -> m' id = Some (mkReg n p) -> (forall j, j <> id -> m' j = m j) -> reg_spec m (RWrite id o) m' (Ok RUnit)
| rs_write_bad id o m' : o_name o = None \/ o_path o = None -> (forall j, m' j = m j) -> reg_spec m (RWrite id o) m' (Err AttributeError)
| rs_delete id m' : m id <> None -> m' id = None -> (forall j, j <> id -> m' j = m j) -> reg_spec m (RDelete id) m' (Ok RUnit)
| rs_missing id m' : m id = None -> (forall j, m' j = m j) -> reg_spec m (RDelete id) m' (Err KeyError)
| rs_read id m' : (forall j, m' j = m j) -> reg_spec m (RRead id) m' (Ok (REntry (m id)))
| rs_has id b m' : (b = true <-> m id <> None) -> (forall j, m' j = m j) -> reg_spec m (RHas id) m' (Ok (RBool b))
| rs_expand n m' : (forall j, m' j = m j) -> reg_spec m (RExpand n) m' (Ok RUnit).
Inductive reg_history : rmap -> list rop -> rmap -> list (res rout) -> Prop :=
| rh_nil m m' : (forall j, m' j = m j) -> reg_history m [] m' []
| rh_cons m m1 m2 o ops r rs : reg_spec m o m1 r -> reg_history m1 ops m2 rs -> reg_history m (o :: ops) m2 (r :: rs).

Lemma r_step_spec o c : NoDup (d_keys c) -> reg_spec (fun id => d_get id c) o (fun id => d_get id (fst (r_step o c))) (snd (r_step o c)) /\ NoDup (d_keys (fst (r_step o c))).
Proof.
  intros Hnd. destruct o as [id o|id|id|id|n]; simpl.
  - unfold reg_write. destruct (o_name o) as [n|] eqn:En; [destruct (o_path o) as [p|] eqn:Ep|]; simpl.
    + split; [|now apply d_set_nodup]. eapply rs_write; eauto; [apply d_get_set_same|]. intros j Hj. now apply d_get_set_other.
    + split; [|exact Hnd]. apply rs_write_bad; auto.
    + split; [|exact Hnd]. apply rs_write_bad; auto.
  - unfold reg_delete. destruct (d_get id c) as [e|] eqn:E; simpl.
    + split; [|now apply d_del_nodup]. apply rs_delete; [congruence|now apply d_get_del_same|]. intros j Hj. now apply d_get_del_other.
    + split; [|exact Hnd]. apply rs_missing; auto.
  - split; [|exact Hnd]. apply (rs_read (fun id => d_get id c)). auto.
  - split; [|exact Hnd]. apply rs_has; [|auto]. unfold reg_has, d_mem. destruct (d_get id c); split; congruence.
  - split; [|exact Hnd]. apply rs_expand. auto.
Qed.
Lemma C52_lemma ops : forall c c' rs, NoDup (d_keys c) -> r_run ops c = (c', rs) ->
  reg_history (fun id => d_get id c) ops (fun id => d_get id c') rs /\ NoDup (d_keys c').
Proof.
  induction ops as [|o ops IH]; intros c c' rs Hnd H; simpl in H.
  - injection H as <- <-. split; [now constructor|exact Hnd].
  - destruct (@r_step_spec o c Hnd) as [H1 H2]. destruct (r_step o c) as [c1 r]. simpl in *. destruct (r_run ops c1) as [c2 rs'] eqn:E.
    injection H as <- <-. destruct (IH c1 c2 rs' H2 E) as [H3 H4]. split; [|exact H4]. econstructor; eauto.
Qed.
