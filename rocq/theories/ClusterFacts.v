(** Proofs about the cluster tools *)
From Coq Require Import String.
From Verif Require Import Base BaseFacts Dict DictFacts Fs FsFacts Cluster.
Open Scope list_scope.
Set Implicit Arguments.

Lemma init_good : good_name init_py.
Proof. repeat split; try (vm_compute; discriminate). intros H. vm_compute in H. intuition discriminate. Qed.

(** ** create_dbmodule *)
(** the directory asked for *)
Definition wanted (fresh : pystr) (path name : pystr) : pystr := join path (match name with [] => fresh | _ => name end).

Lemma stat_nonempty s p n : stat s p = Some n -> p <> [].
Proof. intros H ->. discriminate. Qed.
Lemma stat_entry s p n : stat s p = Some n -> entry s (resolve s p) = Some n.
Proof.
  unfold stat. destruct p; [discriminate|]. destruct (entry s _) as [[c|]|]; try discriminate; auto.
  destruct (dir_form _); [discriminate|auto].
Qed.
Lemma exists_stat s p : exists_ s p = true <-> stat s p <> None.
Proof. unfold exists_. destruct (stat s p); split; intros H; congruence. Qed.

Lemma resolve_drop f s p : resolve (drop_ents f s) p = resolve s p.
Proof. reflexivity. Qed.
Lemma resolve_add q n s p : resolve (add_ent q n s) p = resolve s p.
Proof. reflexivity. Qed.

Lemma C49_lemma fresh s path name d ow s' r : fs_ok s -> create_dbmodule fresh s path name d ow = (s', r) ->
  let p := wanted fresh path name in let P := resolve s p in
  match r with
  | Err e => s' = s
  | Ok p' => p' = p /\ entry s P = None /\ entry s (removelast P) = Some Directory /\ fs_ok s' /\
      entry s' P = Some Directory /\ entry s' (P ++ [init_py]) = Some (RegFile (Generated d)) /\
      forall q, q <> P -> q <> P ++ [init_py] -> entry s' q = entry s q
  end.
Proof.
  intros Hok. unfold create_dbmodule. fold (wanted fresh path name). remember (wanted fresh path name) as p eqn:Ep. clear Ep. cbv zeta.
  destruct (negb ow && exists_ s p); [now intros [= <- <-]|].
  destruct (mkdir s p) as [s1 [u|e]] eqn:Em.
  2:{ intros [= <- <-]. unfold mkdir in Em. destruct p; [congruence|]. destruct (entry s _); [congruence|]. destruct (entry s _) as [[|]|]; congruence. }
  unfold mkdir in Em. destruct p as [|c p]; [discriminate|]. set (P := resolve s (c :: p)) in *.
  destruct (entry s P) as [n|] eqn:En; [discriminate|]. destruct (entry s (parent P)) as [[|]|] eqn:Ed; try discriminate. injection Em as <- _.
  assert (Hne : P <> []) by (intros E; rewrite E in En; discriminate).
  assert (Hchild : entry s (P ++ [init_py]) = None) by (apply (entry_child_none _ _ Hok); congruence).
  assert (Hd1 : P ++ [init_py] <> P) by (intros E; apply (f_equal (@List.length pystr)) in E; rewrite app_length in E; simpl in E; lia).
  assert (Hok1 : fs_ok (add_ent P Directory s)) by (apply ok_add; auto; now apply resolve_good).
  assert (Hc1 : entry (add_ent P Directory s) (P ++ [init_py]) = None).
  { rewrite (entry_add s Directory _ Hne En). apply path_eqb_neq in Hd1. now rewrite Hd1. }
  assert (Hp1 : entry (add_ent P Directory s) P = Some Directory) by (rewrite (entry_add s Directory _ Hne En); now rewrite path_eqb_refl).
  unfold write_file. rewrite (dir_form_join (c :: p) init_good). pose proof (join_nonempty (c :: p) init_good) as Hnj.
  rewrite (resolve_join _ (c :: p) init_good), resolve_add. fold P. unfold parent. rewrite removelast_last, Hc1, Hp1.
  destruct (join (c :: p) init_py) as [|x y]; [congruence|]. intros [= <- <-].
  split; [reflexivity|]. split; [first [exact En|reflexivity]|]. split; [first [exact Ed|reflexivity]|].
  assert (Hne2 : P ++ [init_py] <> []) by (now destruct P).
  split.
  { apply ok_add; auto.
    - apply Forall_app. split; [apply (resolve_good (c :: p) Hok)|constructor; [apply init_good|constructor]].
    - now rewrite removelast_last. }
  assert (Hent : forall q, entry (add_ent (P ++ [init_py]) (RegFile (Generated d)) (add_ent P Directory s)) q =
     if path_eqb q (P ++ [init_py]) then Some (RegFile (Generated d)) else if path_eqb q P then Some Directory else entry s q).
  { intros q. rewrite (entry_add _ _ _ Hne2 Hc1), (entry_add s Directory _ Hne En). reflexivity. }
  split. { rewrite Hent, path_eqb_refl. assert (E : path_eqb P (P ++ [init_py]) = false) by (apply path_eqb_neq; congruence). now rewrite E. }
  split. { now rewrite Hent, path_eqb_refl. }
  intros q H1 H2. rewrite Hent. apply path_eqb_neq in H1, H2. now rewrite H1, H2.
Qed.

Lemma C49_existing fresh s path name d ow n : stat s (wanted fresh path name) = Some n ->
  create_dbmodule fresh s path name d ow = (s, Err (if ow then FileExistsError else IOError)).
Proof.
  intros H. unfold create_dbmodule. fold (wanted fresh path name). pose proof (@stat_nonempty _ _ _ H) as Hn. pose proof (@stat_entry _ _ _ H) as He.
  unfold exists_. rewrite H. destruct ow; simpl; [|reflexivity]. unfold mkdir. rewrite He. destruct (wanted fresh path name); [congruence|reflexivity].
Qed.
Lemma C49_fresh fresh s path name d ow : fs_ok s -> let p := wanted fresh path name in
  p <> [] -> entry s (resolve s p) = None -> entry s (removelast (resolve s p)) = Some Directory ->
  exists s', create_dbmodule fresh s path name d ow = (s', Ok p).
Proof.
  intros Hok p Hp He Hd. destruct (create_dbmodule fresh s path name d ow) as [s' [p'|e]] eqn:E.
  - pose proof (@C49_lemma _ _ _ _ _ _ _ _ Hok E) as (-> & _). now exists s'.
  - exfalso. revert E. unfold create_dbmodule. fold (wanted fresh path name). fold p.
    assert (Hx : exists_ s p = false). { unfold exists_, stat. destruct p; [reflexivity|]. now rewrite He. }
    rewrite Hx, andb_false_r. unfold mkdir. set (P := resolve s p) in *. rewrite He. unfold parent. rewrite Hd.
    destruct p as [|c p]; [congruence|].
    assert (Hne : P <> []) by (intros E; rewrite E in He; discriminate).
    assert (Hd1 : P ++ [init_py] <> P) by (intros E; apply (f_equal (@List.length pystr)) in E; rewrite app_length in E; simpl in E; lia).
    unfold write_file. rewrite (dir_form_join (c :: p) init_good). pose proof (join_nonempty (c :: p) init_good) as Hnj.
    rewrite (resolve_join _ (c :: p) init_good), resolve_add. fold P. unfold parent. rewrite removelast_last.
    rewrite !(entry_add s Directory _ Hne He), path_eqb_refl. assert (Hf : path_eqb (P ++ [init_py]) P = false) by now apply path_eqb_neq. rewrite Hf.
    rewrite (entry_child_none P init_py Hok) by congruence. destruct (join (c :: p) init_py); [congruence|discriminate].
Qed.

(** ** delete_dbmodule *)
Lemma ok_drop_file s p c : fs_ok s -> entry s p = Some (RegFile c) -> fs_ok (drop_ents (path_eqb p) s).
Proof.
  intros Hok He. assert (Hp : p <> []) by (intros ->; discriminate). apply ok_drop; auto.
  - destruct p; [congruence|reflexivity].
  - intros q a Hq Hn. exfalso. apply path_eqb_eq in Hq. subst q. apply Hn. apply (entry_child_none p a Hok). congruence.
Qed.
Lemma remove_reg s path f c : good_name f -> entry s (resolve s path ++ [f]) = Some (RegFile c) ->
  remove s (join path f) = (drop_ents (path_eqb (resolve s path ++ [f])) s, Ok tt).
Proof. intros Hg He. unfold remove. now rewrite (stat_join s path Hg), He, (resolve_join s path Hg). Qed.
Lemma entry_drop_one s p q : p <> [] -> entry (drop_ents (path_eqb p) s) q = if path_eqb p q then None else entry s q.
Proof. intros Hp. apply entry_drop. destruct p; [congruence|reflexivity]. Qed.
Lemma snoc_neq {A} (l : list A) a : l ++ [a] <> [].
Proof. now destruct l. Qed.

Definition gone (s s1 : fs) (P : Fs.path) (l : list pystr) : Prop :=
  forall q, entry s1 q = if existsb (fun f => path_eqb (P ++ [f]) q) l then None else entry s q.
Lemma remove_files_spec path : forall l s s1 r, fs_ok s -> NoDup l -> Forall good_name l ->
  remove_files s (map (join path) l) = (s1, r) ->
  exists done rest, l = done ++ rest /\ fs_ok s1 /\ f_cwd s1 = f_cwd s /\ gone s s1 (resolve s path) done /\
    (forall f, In f done -> exists c, entry s (resolve s path ++ [f]) = Some (RegFile c)) /\
    match r with Ok _ => rest = [] | Err _ => exists f t, rest = f :: t /\ forall c, entry s (resolve s path ++ [f]) <> Some (RegFile c) end.
Proof.
  induction l as [|f l IH]; intros s s1 r Hok Hd Hg; simpl.
  - intros [= <- <-]. exists [], []. split; [reflexivity|]. split; [exact Hok|]. split; [reflexivity|]. split; [intros q; reflexivity|]. split; [intros ? []|reflexivity].
  - apply NoDup_cons_iff in Hd as [Hf Hd]. apply Forall_cons_iff in Hg as [Hgf Hg].
    destruct (entry s (resolve s path ++ [f])) as [[c|]|] eqn:E.
    + rewrite (remove_reg s path Hgf E). intros Hr.
      set (s0 := drop_ents (path_eqb (resolve s path ++ [f])) s) in *.
      assert (Hok0 : fs_ok s0) by (apply (@ok_drop_file s _ c Hok E)).
      destruct (IH _ _ _ Hok0 Hd Hg Hr) as (done & rest & -> & Hok1 & Hcw & Hgone & Hreg & Hrest).
      assert (Hres : resolve s0 path = resolve s path) by reflexivity. rewrite Hres in *.
      assert (He0 : forall q, entry s0 q = if path_eqb (resolve s path ++ [f]) q then None else entry s q) by (intros q; apply entry_drop_one, snoc_neq).
      assert (Hoth : forall g, In g (done ++ rest) -> entry s0 (resolve s path ++ [g]) = entry s (resolve s path ++ [g])).
      { intros g Hgi. rewrite He0. destruct (path_eqb _ _) eqn:Eq; [|reflexivity]. apply path_eqb_eq, app_inj_tail in Eq as [_ ->]. contradiction. }
      exists (f :: done), rest. split; [reflexivity|]. split; [exact Hok1|]. split; [rewrite Hcw; reflexivity|]. split.
      { intros q. rewrite (Hgone q), He0. simpl. destruct (path_eqb _ q); [simpl; now destruct (existsb _ done)|reflexivity]. }
      split. { intros g [<-|Hgi]; [now exists c|]. rewrite <- Hoth by (apply in_app_iff; now left). now apply Hreg. }
      destruct r; [exact Hrest|]. destruct Hrest as (g & t & -> & Hn). exists g, t. split; [reflexivity|]. intros c'. rewrite <- Hoth; [apply Hn|]. apply in_app_iff. right. now left.
    + unfold remove. rewrite (stat_join s path Hgf), E. intros [= <- <-]. exists [], (f :: l). split; [reflexivity|]. split; [exact Hok|]. split; [reflexivity|]. split; [intros q; reflexivity|]. split; [intros ? []|]. exists f, l. split; [reflexivity|]. intros c. congruence.
    + unfold remove. rewrite (stat_join s path Hgf), E. intros [= <- <-]. exists [], (f :: l). split; [reflexivity|]. split; [exact Hok|]. split; [reflexivity|]. split; [intros q; reflexivity|]. split; [intros ? []|]. exists f, l. split; [reflexivity|]. intros c. congruence.
Qed.

(** [f] is a regular file directly in the directory [P] that delete_dbmodule(path) is after *)
Definition doomed (s : fs) (path : pystr) (f : pystr) : Prop :=
  exists c, entry s (resolve s path ++ [f]) = Some (RegFile c) /\ (f = init_py \/ exists t, f = basename path ++ t).
Lemma startswith_spec p s : startswith p s = true <-> exists t, s = p ++ t.
Proof.
  revert s. induction p as [|a p IH]; intros s; simpl; [split; eauto|]. destruct s as [|b s]; [split; [discriminate|intros [t H]; discriminate]|].
  split.
  - intros H. apply andb_true_iff in H as [H1 H2]. apply N.eqb_eq in H1. apply IH in H2 as [t ->]. exists t. now rewrite H1.
  - intros [t [= -> ->]]. rewrite N.eqb_refl. apply IH. eauto.
Qed.
Definition affected (s : fs) (path : pystr) : list pystr :=
  filter (fun f => (isfile s (join path f) && startswith (basename path) f) || str_eqb f init_py) (children s (resolve s path)).
Lemma affected_spec s path f : fs_ok s ->
  (In f (affected s path) <-> doomed s path f \/ (f = init_py /\ entry s (resolve s path ++ [f]) = Some Directory)).
Proof.
  intros Hok. unfold affected. rewrite filter_In, (children_in (resolve s path) f Hok). split.
  - intros [Hn Hb]. assert (Hg : good_name f) by (apply (@children_good s (resolve s path) f Hok), children_in; auto).
    unfold isfile in Hb. rewrite (stat_join s path Hg) in Hb. apply orb_true_iff in Hb as [Hb|Hb].
    + apply andb_true_iff in Hb as [H1 H2]. destruct (entry s _) as [[c|]|] eqn:E; try discriminate. left. exists c. split; [exact E|]. right. now apply startswith_spec.
    + apply str_eqb_eq in Hb. destruct (entry s _) as [[c|]|] eqn:E; [|right; now split|congruence]. left. exists c. split; auto.
  - intros [(c & E & H)|[-> E]].
    + split; [congruence|]. assert (Hg : good_name f) by (apply (@children_good s (resolve s path) f Hok), children_in; [auto|congruence]).
      apply orb_true_iff. destruct H as [->|H]; [right; apply str_eqb_refl|]. left. apply andb_true_iff. split; [|now apply startswith_spec].
      unfold isfile. now rewrite (stat_join s path Hg), E.
    + split; [congruence|]. rewrite str_eqb_refl. apply orb_true_r.
Qed.
(** rmdir refuses the root and strings ending in ['.'] *)
Definition removable (s : fs) (path : pystr) : Prop :=
  resolve s path <> [] /\ last (filter (fun x => negb (str_eqb x [])) (pieces path)) [] <> dot.

Lemma existsb_path P l q : existsb (fun f => path_eqb (P ++ [f]) q) l = true <-> exists f, In f l /\ q = P ++ [f].
Proof.
  rewrite existsb_exists. split; intros [f [H1 H2]]; exists f; split; auto; [apply path_eqb_eq in H2; auto|subst; apply path_eqb_refl].
Qed.
Lemma gone_out s s1 P l q : gone s s1 P l -> (forall f, In f l -> q <> P ++ [f]) -> entry s1 q = entry s q.
Proof.
  intros H Hn. rewrite (H q). destruct (existsb _ l) eqn:E; [|reflexivity]. apply existsb_path in E as [f [Hf ->]]. exfalso. now apply (Hn f Hf).
Qed.
Lemma gone_in s s1 P l f : gone s s1 P l -> In f l -> entry s1 (P ++ [f]) = None.
Proof. intros H Hf. rewrite (H _). assert (E : existsb (fun f0 => path_eqb (P ++ [f0]) (P ++ [f])) l = true) by (apply existsb_path; eauto). now rewrite E. Qed.

Lemma snoc_longer {A} (P : list A) f : P <> P ++ [f].
Proof. intros E. apply (f_equal (@List.length A)) in E. rewrite app_length in E. simpl in E. lia. Qed.

(** everything [delete_dbmodule(path)] (without remove_all) can do, whatever happens *)
Lemma delete_frame s path re s' r : fs_ok s -> delete_dbmodule s path re false = (s', r) ->
  fs_ok s' /\ forall q, entry s' q = entry s q \/
    (entry s' q = None /\ exists f, q = resolve s path ++ [f] /\ doomed s path f) \/
    (entry s' q = None /\ q = resolve s path /\ re = true /\ r = Ok tt /\ forall f, entry s (resolve s path ++ [f]) <> None -> doomed s path f).
Proof.
  intros Hok. unfold delete_dbmodule. simpl. set (P := resolve s path).
  destruct (listdir s path) as [names|e] eqn:El; [|intros [= <- <-]; split; auto].
  assert (Hn : names = children s P /\ stat s path = Some Directory).
  { unfold listdir in El. destruct (stat s path) as [[|]|] eqn:Es; try discriminate. injection El as <-. auto. }
  destruct Hn as [-> Hs]. change (filter _ (children s P)) with (affected s path).
  destruct (remove_files s (map (join path) (affected s path))) as [s1 r1] eqn:Er.
  assert (Ha : NoDup (affected s path)) by (apply NoDup_filter, children_nodup, Hok).
  assert (Hg : Forall good_name (affected s path)).
  { apply Forall_forall. intros f Hf. apply filter_In in Hf as [Hf _]. now apply (@children_good s P f Hok). }
  destruct (remove_files_spec path Hok Ha Hg Er) as (done & rest & Hl & Hok1 & Hcw & Hgone & Hreg & Hrest). fold P in Hgone, Hreg, Hrest.
  assert (Hdoom : forall f, In f done -> doomed s path f).
  { intros f Hf. assert (Hi : In f (affected s path)) by (rewrite Hl; apply in_app_iff; now left).
    apply (affected_spec path f Hok) in Hi as [Hi|[_ Hi]]; [exact Hi|]. destruct (Hreg f Hf) as [c Hc]. fold P in Hi. congruence. }
  assert (H1 : forall q, entry s1 q = entry s q \/ (entry s1 q = None /\ exists f, q = P ++ [f] /\ doomed s path f)).
  { intros q. rewrite (Hgone q). destruct (existsb _ done) eqn:E; [|now left]. right. split; [reflexivity|]. apply existsb_path in E as [f [Hf ->]]. eauto. }
  assert (H2 : fs_ok s1 /\ forall q, entry s1 q = entry s q \/
    (entry s1 q = None /\ exists f, q = P ++ [f] /\ doomed s path f) \/
    (entry s1 q = None /\ q = P /\ re = true /\ r = Ok tt /\ forall f, entry s (P ++ [f]) <> None -> doomed s path f)).
  { split; [exact Hok1|]. intros q. destruct (H1 q) as [H|H]; auto. }
  destruct r1 as [u|e]; [|intros [= <- <-]; exact H2].
  destruct re; [|intros [= <- <-]; exact H2].
  assert (HP1 : resolve s1 path = P) by (unfold P, resolve; now rewrite Hcw).
  assert (HeP : entry s P = Some Directory) by (apply (@stat_entry s path Directory Hs)).
  assert (HeP1 : entry s1 P = Some Directory). { rewrite (@gone_out _ _ _ _ P Hgone); [exact HeP|]. intros f _. apply snoc_longer. }
  assert (Hs1 : stat s1 path = Some Directory).
  { unfold stat. rewrite HP1, HeP1. unfold stat in Hs. now destruct path. }
  unfold listdir. rewrite Hs1, HP1. destruct (children s1 P) as [|x y] eqn:Ec; [|intros [= <- <-]; exact H2].
  unfold rmdir. rewrite Hs1, HP1. destruct (str_eqb _ dot); [intros [= <- <-]; exact H2|].
  clearbody P. destruct P as [|a P'] eqn:EP; [intros [= <- <-]; exact H2|]. rewrite <- EP in *. rewrite Ec. intros [= <- <-].
  assert (Hcn : forall b, entry s1 (P ++ [b]) = None).
  { intros b. destruct (entry s1 (P ++ [b])) eqn:E; [|reflexivity]. exfalso. assert (Hi : In b (children s1 P)) by (apply children_in; [auto|congruence]). rewrite Ec in Hi. destruct Hi. }
  split.
  - apply ok_drop; auto; [now rewrite EP|]. intros q b Hq Hb. exfalso. apply path_eqb_eq in Hq. subst q. now apply Hb.
  - intros q. assert (Hne : P <> []) by (rewrite EP; discriminate). rewrite (entry_drop_one s1 q Hne). destruct (path_eqb P q) eqn:Eq.
    + apply path_eqb_eq in Eq. subst q. right. right. repeat split; auto. intros f Hf. specialize (Hcn f). rewrite (Hgone _) in Hcn.
      destruct (existsb _ done) eqn:E; [|congruence]. apply existsb_path in E as [g [Hgi Eg]]. apply app_inj_tail in Eg as [_ ->]. auto.
    + destruct (H1 q) as [H|H]; auto.
Qed.

(** ... and exactly what it does when [__init__.py] is not a directory *)
Lemma delete_exact s path re s' r : fs_ok s -> stat s path = Some Directory -> entry s (resolve s path ++ [init_py]) <> Some Directory ->
  delete_dbmodule s path re false = (s', r) ->
  let P := resolve s path in
  (forall f, doomed s path f -> entry s' (P ++ [f]) = None) /\
  (forall q, q <> P -> (forall f, doomed s path f -> q <> P ++ [f]) -> entry s' q = entry s q) /\
  (re = true -> (forall f, entry s (P ++ [f]) <> None -> doomed s path f) ->
     (removable s path -> entry s' P = None /\ r = Ok tt) /\ (~ removable s path -> entry s' P = Some Directory /\ r = Err IOError)) /\
  (re = false \/ (exists f, entry s (P ++ [f]) <> None /\ ~ doomed s path f) -> entry s' P = Some Directory /\ r = Ok tt).
Proof.
  intros Hok Hs Hinit. unfold delete_dbmodule. simpl. set (P := resolve s path) in *. unfold listdir at 1. rewrite Hs. change (filter _ (children s (resolve s path))) with (affected s path).
  destruct (remove_files s (map (join path) (affected s path))) as [s1 r1] eqn:Er.
  assert (Ha : NoDup (affected s path)) by (apply NoDup_filter, children_nodup, Hok).
  assert (Hg : Forall good_name (affected s path)).
  { apply Forall_forall. intros f Hf. apply filter_In in Hf as [Hf _]. now apply (@children_good s P f Hok). }
  destruct (remove_files_spec path Hok Ha Hg Er) as (done & rest & Hl & Hok1 & Hcw & Hgone & Hreg & Hrest). fold P in Hgone, Hreg, Hrest.
  assert (Haff : forall f, In f (affected s path) <-> doomed s path f).
  { intros f. rewrite (affected_spec path f Hok). split; [|now left]. intros [H|[-> H]]; [exact H|]. fold P in H. congruence. }
  destruct r1 as [u|e].
  2:{ exfalso. destruct Hrest as (f & t & -> & Hn). assert (Hi : In f (affected s path)) by (rewrite Hl; apply in_app_iff; right; now left).
      apply Haff in Hi as (c & Hc & _). now apply (Hn c). }
  subst rest. rewrite app_nil_r in Hl. subst done.
  assert (HP1 : resolve s1 path = P) by (unfold P, resolve; now rewrite Hcw).
  assert (HeP : entry s P = Some Directory) by (apply (@stat_entry s path Directory Hs)).
  assert (HeP1 : entry s1 P = Some Directory). { rewrite (@gone_out _ _ _ _ P Hgone); [exact HeP|]. intros f _. apply snoc_longer. }
  assert (Hs1 : stat s1 path = Some Directory).
  { unfold stat. rewrite HP1, HeP1. unfold stat in Hs. now destruct path. }
  assert (HA : forall f, doomed s path f -> entry s1 (P ++ [f]) = None) by (intros f Hf; apply (@gone_in _ _ _ _ f Hgone), Haff, Hf).
  assert (HB : forall q, (forall f, doomed s path f -> q <> P ++ [f]) -> entry s1 q = entry s q).
  { intros q Hq. apply (@gone_out _ _ _ _ q Hgone). intros f Hf. apply Hq, Haff, Hf. }
  assert (Hchild : forall f, entry s1 (P ++ [f]) <> None <-> entry s (P ++ [f]) <> None /\ ~ doomed s path f).
  { intros f. split.
    - intros H. split.
      + intros E. apply H. rewrite (Hgone _), E. now destruct (existsb _ _).
      + intros Hd. apply H, HA, Hd.
    - intros [H1 H2]. rewrite HB; [exact H1|]. intros g Hg' Eg. apply app_inj_tail in Eg as [_ ->]. contradiction. }
  assert (Hdecide : (children s1 P = [] /\ forall f, entry s (P ++ [f]) <> None -> doomed s path f) \/
                    (children s1 P <> [] /\ exists f, entry s (P ++ [f]) <> None /\ ~ doomed s path f)).
  { destruct (children s1 P) as [|x y] eqn:Ec.
    - left. split; [reflexivity|]. intros f Hf. destruct (in_dec str_dec f (affected s path)) as [Hi|Hi]; [now apply Haff|].
      exfalso. assert (Hx : In f (children s1 P)). { apply children_in; [exact Hok1|]. apply Hchild. split; [exact Hf|]. intros Hd. apply Hi, Haff, Hd. }
      rewrite Ec in Hx. destruct Hx.
    - right. split; [discriminate|]. exists x. apply Hchild. apply children_in; [exact Hok1|]. rewrite Ec. now left. }
  destruct re.
  2:{ intros [= <- <-]. split; [exact HA|]. split; [intros q _; apply HB|]. split; [discriminate|]. auto. }
  unfold listdir. rewrite Hs1, HP1. destruct Hdecide as [[Hc Hall]|[Hc Hex]].
  - rewrite Hc. unfold rmdir. rewrite Hs1, HP1.
    assert (Hno : ~ (true = false \/ exists f, entry s (P ++ [f]) <> None /\ ~ doomed s path f)).
    { intros [H|(f & H1 & H2)]; [discriminate|]. apply H2, Hall, H1. }
    destruct (str_eqb _ dot) eqn:Edot.
    + apply str_eqb_eq in Edot. intros [= <- <-]. split; [exact HA|]. split; [intros q _; apply HB|]. split; [|intros H; contradiction].
      intros _ _. split; [intros [_ H]; contradiction|]. auto.
    + apply str_eqb_neq in Edot. pose proof (eq_refl : P = resolve s path) as HPd. clearbody P. destruct P as [|a P'] eqn:EP.
      * intros [= <- <-]. split; [exact HA|]. split; [intros q _; apply HB|]. split; [|intros H; contradiction].
        intros _ _. split; [intros [H _]; congruence|]. auto.
      * rewrite <- EP in *. rewrite Hc. intros [= <- <-]. assert (Hne : P <> []) by (rewrite EP; discriminate).
        split. { intros f Hf. rewrite (entry_drop_one s1 _ Hne). destruct (path_eqb _ _); [reflexivity|auto]. }
        split. { intros q Hq Hf. rewrite (entry_drop_one s1 _ Hne). assert (E : path_eqb P q = false) by (apply path_eqb_neq; congruence). rewrite E. auto. }
        split; [|intros H; contradiction]. intros _ _. split.
        -- intros _. rewrite (entry_drop_one s1 _ Hne), path_eqb_refl. auto.
        -- intros H. exfalso. apply H. split; [congruence|exact Edot].
  - destruct (children s1 P) as [|x y] eqn:Ec; [congruence|]. intros [= <- <-]. split; [exact HA|]. split; [intros q _; apply HB|]. split.
    + intros _ Hall. destruct Hex as (f & H1 & H2). exfalso. apply H2, Hall, H1.
    + auto.
Qed.

Lemma basename_slash p : ends_slash p = true -> basename p = [].
Proof.
  intros H. destruct (ends_slash_split _ H) as [a ->]. unfold basename. change [slash] with (slash :: []). rewrite pieces_app_slash. apply last_last.
Qed.
Lemma C50_slash s path f c : ends_slash path = true -> entry s (resolve s path ++ [f]) = Some (RegFile c) -> doomed s path f.
Proof. intros H He. exists c. split; [exact He|]. right. exists f. now rewrite (basename_slash _ H). Qed.

(** remove_all *)
Lemma rmtree_spec s path s' r : fs_ok s -> rmtree s path = (s', r) -> let P := resolve s path in
  (stat s path <> Some Directory -> s' = s /\ is_ok r = false) /\
  (stat s path = Some Directory ->
     (forall q, (forall a t, q <> P ++ a :: t) -> q <> P -> entry s' q = entry s q) /\
     (forall a t, entry s' (P ++ a :: t) = None) /\
     (removable s path -> entry s' P = None /\ r = Ok tt) /\
     (~ removable s path -> entry s' P = Some Directory /\ r = Err IOError)).
Proof.
  intros Hok H P. unfold rmtree in H. destruct (stat s path) as [[c|]|] eqn:Es.
  1,3: injection H as <- <-; split; [auto|discriminate].
  split; [congruence|]. intros _. fold P in H. set (s1 := drop_ents (under P) s) in *.
  assert (HP : resolve s1 path = P) by reflexivity.
  assert (He : entry s P = Some Directory) by (apply (@stat_entry s path Directory Es)).
  assert (Hu0 : under P [] = false) by (now destruct P).
  assert (Hent : forall q, entry s1 q = if under P q then None else entry s q) by (intros q; now apply entry_drop).
  assert (HuP : under P P = false).
  { destruct (under P P) eqn:E; [|reflexivity]. apply under_spec in E as (a & t & E). apply (f_equal (@List.length pystr)) in E. rewrite app_length in E. simpl in E. lia. }
  assert (He1 : entry s1 P = Some Directory) by (rewrite Hent, HuP; exact He).
  assert (Hs1 : stat s1 path = Some Directory). { unfold stat. rewrite HP, He1. unfold stat in Es. now destruct path. }
  assert (Hc : children s1 P = []).
  { destruct (children s1 P) as [|x y] eqn:Ec; [reflexivity|]. exfalso. assert (Hi : In x (children s1 P)) by (rewrite Ec; now left).
    unfold children in Hi. apply in_flat_map in Hi as [[p n] [Hi Hx]]. simpl in Hx. destruct (child_of P p) as [b|] eqn:Eb; [|destruct Hx].
    apply child_of_spec in Eb. subst p. simpl in Hi. apply filter_In in Hi as [_ Hi]. simpl in Hi.
    assert (Hu : under P (P ++ [b]) = true) by (apply under_spec; eauto). now rewrite Hu in Hi. }
  assert (HF : forall q, (forall a t, q <> P ++ a :: t) -> entry s1 q = entry s q).
  { intros q Hq. rewrite Hent. destruct (under P q) eqn:E; [|reflexivity]. apply under_spec in E as (a & t & E). now apply Hq in E. }
  assert (HG : forall a t, entry s1 (P ++ a :: t) = None).
  { intros a t. rewrite Hent. assert (E : under P (P ++ a :: t) = true) by (apply under_spec; eauto). now rewrite E. }
  unfold rmdir in H. rewrite Hs1, HP in H. destruct (str_eqb _ dot) eqn:Ed.
  - apply str_eqb_eq in Ed. injection H as <- <-. split; [auto|]. split; [auto|]. split; [intros [_ Hx]; contradiction|auto].
  - apply str_eqb_neq in Ed. pose proof (eq_refl : P = resolve s path) as HPd. clearbody P. destruct P as [|a P'] eqn:EP.
    + injection H as <- <-. split; [auto|]. split; [auto|]. split; [intros [Hx _]; congruence|auto].
    + rewrite <- EP in *. rewrite Hc in H. injection H as <- <-. assert (Hne : P <> []) by (rewrite EP; discriminate).
      split. { intros q H1 H2. rewrite (entry_drop_one s1 _ Hne). assert (E : path_eqb P q = false) by (apply path_eqb_neq; congruence). rewrite E. auto. }
      split. { intros b t. rewrite (entry_drop_one s1 _ Hne). destruct (path_eqb P (P ++ b :: t)); auto. }
      split; [intros _; rewrite (entry_drop_one s1 _ Hne), path_eqb_refl; auto|]. intros Hx. exfalso. apply Hx. split; [congruence|exact Ed].
Qed.
