(** Opening a database module by its path. citrine/cluster_tools/dbmodule/dbmodule.py:91-148 *)
From Coq Require Import String.
From Verif Require Import Base Dict Fs FsFacts Cluster ClusterFacts CrashFsFacts DiscoverFacts.
Open Scope list_scope.
Set Implicit Arguments.

(** The specification: [DbModule(dir)], from the directory and its [__init__.py] alone.
    [run dir t]: what executing the source text [t] found there gives. *)
Inductive opens (run : pystr -> pystr -> res pymodule) (s : fs) (dir : pystr) : res dbmodule -> Prop :=
| open_nowhere : exists_ s dir = false -> opens run s dir (Err FileNotFoundError)
| open_no_init : exists_ s dir = true -> stat s (join dir (py "__init__.py")) = None -> opens run s dir (Err FileNotFoundError)
| open_init_dir : exists_ s dir = true -> stat s (join dir (py "__init__.py")) = Some Directory -> opens run s dir (Err IsADirectoryError)
| open_generated : forall d, exists_ s dir = true -> stat s (join dir (py "__init__.py")) = Some (RegFile (Generated d)) -> opens run s dir (Err ImportError)
| open_raises : forall t e, exists_ s dir = true -> stat s (join dir (py "__init__.py")) = Some (RegFile (Text t)) -> run dir t = Err e -> opens run s dir (Err e)
| open_no_db : forall t flag, exists_ s dir = true -> stat s (join dir (py "__init__.py")) = Some (RegFile (Text t)) ->
    run dir t = Ok (mkMod flag None) -> opens run s dir (Err AttributeError)
| open_db_raises : forall t flag e, exists_ s dir = true -> stat s (join dir (py "__init__.py")) = Some (RegFile (Text t)) ->
    run dir t = Ok (mkMod flag (Some (Err e))) -> opens run s dir (Err e)
| open_db : forall t flag n, exists_ s dir = true -> stat s (join dir (py "__init__.py")) = Some (RegFile (Text t)) ->
    run dir t = Ok (mkMod flag (Some (Ok n))) -> opens run s dir (Ok (mkDbm dir n)).

Lemma open_opens : forall run s dir, opens run s dir (open_dbmodule run s dir).
Proof.
  intros. unfold open_dbmodule, import_db, exec_init. destruct (exists_ s dir) eqn:E; cbn [negb].
  - destruct (exists_ s (join dir init_py)) eqn:Ei; cbn [negb].
    + unfold exists_ in Ei. destruct (stat s (join dir init_py)) as [[[d|t]|]|] eqn:Es; try discriminate.
      * rewrite run_generated_fails. eapply open_generated; eauto.
      * destruct (run dir t) as [[f [[n|e]|]]|e] eqn:Er; cbn [m_db].
        -- eapply open_db; eauto.
        -- eapply open_db_raises; eauto.
        -- eapply open_no_db; eauto.
        -- eapply open_raises; eauto.
      * apply open_init_dir; auto.
    + unfold exists_ in Ei. destruct (stat s (join dir init_py)) eqn:Es; [discriminate|]. apply open_no_init; auto.
  - apply open_nowhere. exact E.
Qed.
Lemma opens_fun : forall run s dir r r', opens run s dir r -> opens run s dir r' -> r = r'.
Proof. intros run s dir r r' H H'. destruct H; inversion H'; subst; congruence. Qed.
Lemma C128_open_lemma : forall run s dir r, open_dbmodule run s dir = r <-> opens run s dir r.
Proof. intros. split; [intros <-; apply open_opens|intros H; eapply opens_fun; [apply open_opens|exact H]]. Qed.

(** what a module gives, its [DB_MODULE] flag apart *)
Definition its_db (r : res pymodule) : res (option (res pystr)) := match r with Ok m => Ok (m_db m) | Err e => Err e end.
Lemma C128_flag_lemma : forall run run' s dir, (forall t, its_db (run dir t) = its_db (run' dir t)) -> open_dbmodule run s dir = open_dbmodule run' s dir.
Proof.
  intros run run' s dir H. unfold open_dbmodule, import_db, exec_init. destruct (exists_ s dir); cbn [negb]; [|reflexivity].
  destruct (exists_ s (join dir init_py)); cbn [negb]; [|reflexivity].
  destruct (stat s (join dir init_py)) as [[[d|t]|]|]; try reflexivity.
  specialize (H t). destruct (run dir t) as [m|e], (run' dir t) as [m'|e']; cbn in H; try discriminate.
  - injection H as ->. reflexivity.
  - now injection H as ->.
Qed.
Lemma C128_only_lemma : forall run s s' dir, exists_ s dir = exists_ s' dir -> stat s (join dir init_py) = stat s' (join dir init_py) -> open_dbmodule run s dir = open_dbmodule run s' dir.
Proof. intros run s s' dir H H'. unfold open_dbmodule, import_db, exec_init, exists_ in *. now rewrite H, H'. Qed.
Lemma C128_fixed_lemma : forall m v, set_dbmodule_path m v = (m, Err AttributeError).
Proof. reflexivity. Qed.
(** [DbModule.create] is what the group calls *)
Lemma C128_create_lemma : forall run fresh s path name ow, fs_ok s -> exists s' e, dbmodule_create run fresh s path name ow = (s', Err e).
Proof.
  intros run fresh s path name ow H. destruct (C78_create run fresh (mkGrp path []) name ow H) as (s' & e & E & _).
  unfold group_create in E. cbn [g_root] in E. destruct (dbmodule_create run fresh s path name ow) as [s1 [m|e1]]; [discriminate|].
  injection E as <- <-. eauto.
Qed.

(** ** what refuses to be created *)
Lemma through_some s : forall b a c, b <> [] -> entry s (a ++ b) = Some (RegFile c) -> forall t, through_file s a (b ++ t) = true.
Proof.
  induction b as [|x b IH]; intros a c Nb E t; [congruence|]. cbn [app through_file]. destruct b as [|y b].
  - rewrite E. reflexivity.
  - destruct (entry s (a ++ [x])) as [[d|]|]; [reflexivity| |]; apply IH with c; try discriminate; rewrite <- app_assoc; exact E.
Qed.
Lemma create_under_file fresh s path name d ow a b c : fs_ok s -> wanted fresh path name <> [] -> resolve s (wanted fresh path name) = a ++ b -> b <> [] -> entry s a = Some (RegFile c) ->
  create_dbmodule fresh s path name d ow = (s, Err NotADirectoryError).
Proof.
  intros Hok Np R Nb E. assert (Na : a <> []) by (intros ->; discriminate E).
  assert (NO : forall x, x <> [] -> entry s (a ++ x) = None) by (intros x Nx; destruct (entry s (a ++ x)) eqn:Q; [|reflexivity]; rewrite (@prefix_dir s a x _ Hok Q Nx) in E; discriminate E).
  unfold create_dbmodule. unfold wanted in *. set (p := join path match name with [] => fresh | _ => name end) in *. clearbody p.
  assert (X : exists_ s p = false) by (unfold exists_, stat; destruct p; [reflexivity|]; now rewrite R, NO). rewrite X, andb_false_r. unfold mkdir. destruct p as [|ch p]; [now destruct Np|]. rewrite R, (NO b Nb).
  assert (PD : entry s (parent (a ++ b)) <> Some Directory).
  { unfold parent. rewrite removelast_app by auto. destruct (removelast b) eqn:Q; [rewrite app_nil_r, E; discriminate|]. rewrite NO by discriminate. discriminate. }
  assert (M : missing s (ch :: p) = NotADirectoryError) by (unfold missing; rewrite R, (@through_some s a [] c Na E b); reflexivity). rewrite M. destruct (entry s (parent (a ++ b))) as [[|]|]; try reflexivity. now destruct PD.
Qed.
Lemma create_no_parent fresh s path name d ow : wanted fresh path name <> [] -> let P := resolve s (wanted fresh path name) in
  entry s P = None -> entry s (removelast P) = None -> (forall a b c, P = a ++ b -> a <> [] -> entry s a <> Some (RegFile c)) -> create_dbmodule fresh s path name d ow = (s, Err FileNotFoundError).
Proof.
  intros Np P E D K. unfold create_dbmodule. unfold wanted in *. set (p := join path match name with [] => fresh | _ => name end) in *. clearbody p.
  assert (X : exists_ s p = false) by (unfold exists_, stat; destruct p; [reflexivity|]; fold P; now rewrite E). rewrite X, andb_false_r. unfold mkdir. destruct p as [|ch p]; [now destruct Np|]. unfold parent. fold P. rewrite E, D.
  unfold missing. fold P. assert (T : through_file s [] P = false); [|now rewrite T]. apply through_none. cbn [app]. intros a b H Na c. exact (K a b c H Na).
Qed.
Lemma create_over_file_slash fresh s path name d ow q c : wanted fresh path name = q ++ [slash] -> entry s (resolve s (q ++ [slash])) = Some (RegFile c) ->
  create_dbmodule fresh s path name d ow = (s, Err FileExistsError).
Proof.
  intros W E. unfold create_dbmodule. unfold wanted in *. set (p := join path match name with [] => fresh | _ => name end) in *. clearbody p. subst p.
  assert (B : basename (q ++ [slash]) = []).
  { unfold basename. assert (X : forall l, exists h t, pieces (l ++ [slash]) = h :: t /\ last (h :: t) [] = [] /\ t <> []).
    { induction l as [|x l IH]; cbn [app pieces]; [eexists _, _; split; [reflexivity|]; split; [reflexivity|discriminate]|]. destruct IH as (h & t & -> & L & N). destruct (N.eqb x slash).
      - eexists [], (h :: t). split; [reflexivity|]. split; [exact L|discriminate].
      - eexists (x :: h), t. split; [reflexivity|]. split; [|exact N]. destruct t; [now destruct N|exact L]. }
    destruct (X q) as (h & t & -> & L & _). exact L. }
  assert (DF : dir_form (q ++ [slash]) = true) by (unfold dir_form; now rewrite B).
  assert (X : exists_ s (q ++ [slash]) = false) by (unfold exists_, stat; destruct (q ++ [slash]); [reflexivity|]; now rewrite E, DF). rewrite X, andb_false_r. unfold mkdir. rewrite E. destruct q; reflexivity.
Qed.

(** ** what refuses to be deleted *)
Lemma remove_files_dir path d : forall l s, fs_ok s -> NoDup l -> Forall good_name l -> entry s (resolve s path ++ [d]) = Some Directory -> In d l ->
  (forall f, In f l -> f <> d -> exists c, entry s (resolve s path ++ [f]) = Some (RegFile c)) -> snd (remove_files s (map (join path) l)) = Err IsADirectoryError.
Proof.
  induction l as [|f l IH]; intros s Hok Hd Hg E I K; [destruct I|]. apply NoDup_cons_iff in Hd as [Hf Hd]. apply Forall_cons_iff in Hg as [Hgf Hg]. cbn [map remove_files].
  destruct (list_eq_dec N.eq_dec f d) as [->|N].
  - unfold remove. rewrite (stat_join s path Hgf), E. reflexivity.
  - destruct (K f (or_introl eq_refl) N) as [c C]. rewrite (remove_reg s path Hgf C). set (s0 := drop_ents (path_eqb (resolve s path ++ [f])) s) in *.
    assert (Hok0 : fs_ok s0) by (apply (@ok_drop_file s _ c Hok C)). assert (Hres : resolve s0 path = resolve s path) by reflexivity.
    assert (OT : forall g, g <> f -> entry s0 (resolve s0 path ++ [g]) = entry s (resolve s path ++ [g])).
    { intros g Ng. rewrite Hres. unfold s0. rewrite entry_drop_one by apply snoc_neq. destruct (path_eqb _ _) eqn:Q; [|reflexivity]. apply path_eqb_eq, app_inj_tail in Q as [_ ->]. now destruct Ng. }
    apply IH; auto.
    + rewrite OT by auto. exact E.
    + destruct I as [I|I]; [now destruct N|exact I].
    + intros g G Ng. rewrite OT by (intros ->; contradiction). apply K; [now right|exact Ng].
Qed.
Lemma delete_init_dir s path re : fs_ok s -> stat s path = Some Directory -> entry s (resolve s path ++ [init_py]) = Some Directory -> snd (delete_dbmodule s path re false) = Err IsADirectoryError.
Proof.
  intros Hok Hs E. unfold delete_dbmodule. cbn [negb]. unfold listdir at 1. rewrite Hs. change (filter _ (children s (resolve s path))) with (affected s path).
  assert (Ha : NoDup (affected s path)) by (apply NoDup_filter, children_nodup, Hok).
  assert (Hg : Forall good_name (affected s path)) by (apply Forall_forall; intros f Hf; apply filter_In in Hf as [Hf _]; now apply (@children_good s (resolve s path) f Hok)).
  pose proof (@remove_files_dir path init_py (affected s path) s Hok Ha Hg E) as R. destruct (remove_files s (map (join path) (affected s path))) as [s1 [u|e]]; cbn [snd] in *.
  - assert (X : Ok u = Err IsADirectoryError); [|discriminate X]. apply R.
    + apply (affected_spec path init_py Hok). right. auto.
    + intros f I N. apply (affected_spec path f Hok) in I. destruct I as [(c & C & _)|[-> _]]; [eauto|now destruct N].
  - apply R.
    + apply (affected_spec path init_py Hok). right. auto.
    + intros f I N. apply (affected_spec path f Hok) in I. destruct I as [(c & C & _)|[-> _]]; [eauto|now destruct N].
Qed.
Lemma delete_no_dir s path re all a b : fs_ok s -> path <> [] -> resolve s path = a ++ b -> (exists c, entry s a = Some (RegFile c)) -> delete_dbmodule s path re all = (s, Err NotADirectoryError).
Proof.
  intros Hok Np R (c & E).
  assert (X : (exists d, stat s path = Some (RegFile d)) \/ (stat s path = None /\ missing s path = NotADirectoryError)).
  { assert (Na : a <> []) by (intros ->; discriminate E). assert (T : missing s path = NotADirectoryError) by (unfold missing; destruct path; [now destruct Np|]; rewrite R, (@through_some s a [] c Na E b); reflexivity).
    destruct (stat s path) as [[d|]|] eqn:Q; [left; eauto| |right; auto]. exfalso. assert (EP : entry s (resolve s path) = Some Directory) by exact (@stat_entry s path Directory Q).
    rewrite R in EP. destruct b as [|y b]; [rewrite app_nil_r in EP; rewrite E in EP; discriminate EP|]. assert (Y : entry s a = Some Directory) by (apply (@prefix_dir s a (y :: b) _ Hok EP); discriminate). rewrite E in Y. discriminate Y. }
  unfold delete_dbmodule, rmtree, listdir. destruct X as [(d & ->)|[-> ->]]; destruct all; reflexivity.
Qed.
Lemma delete_nothing s path re all : entry s (resolve s path) = None -> (forall a b c, resolve s path = a ++ b -> a <> [] -> entry s a <> Some (RegFile c)) -> delete_dbmodule s path re all = (s, Err FileNotFoundError).
Proof.
  intros E K. assert (S : stat s path = None) by (unfold stat; destruct path; [reflexivity|]; now rewrite E). assert (M : missing s path = FileNotFoundError).
  { unfold missing. destruct path; [reflexivity|]. rewrite (@through_none s _ []); [reflexivity|]. cbn [app]. intros a b H Na c. exact (K a b c H Na). }
  unfold delete_dbmodule, rmtree, listdir. rewrite S, M. destruct all; reflexivity.
Qed.
