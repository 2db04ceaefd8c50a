(** Facts about create_dbmodule and delete_dbmodule interrupted between file system calls and run by several processes. *)
From Coq Require Import String Lia.
From Verif Require Import Base BaseFacts Fs FsFacts Cluster ClusterFacts CtxThreads CtxThreadsFacts CrashFs.
Open Scope list_scope.
Set Implicit Arguments.

(** ** Specification *)
(** two file systems in which every path shows the same *)
Definition same_entries (s1 s2 : fs) : Prop := forall q, entry s1 q = entry s2 q.
Definition is_done (p : proc) : Prop := exists r, p_phase p = Done r.
Definition all_done (w : world) : Prop := forall p, In p (w_procs w) -> is_done p.
Definition w_start (s : fs) (jobs : list job) : world := mkW s (map p_new jobs).

Lemma w_run_ind (P : world -> Prop) : (forall w i, P w -> P (w_step w i)) -> forall sched w, P w -> P (w_run sched w).
Proof. intros K sched. induction sched as [|i sched IH]; intros w Z; [exact Z|]. cbn. apply IH, K, Z. Qed.

(** ** One process that deletes *)
Section Delete.
Variables (p : pystr) (re : bool).
Definition chosen (s : fs) (f : pystr) : bool := (isfile s (join p f) && startswith (basename p) f) || str_eqb f init_py.
Definition fin_again (s : fs) : fs * res unit := match listdir s p with Err e => (s, Err e) | Ok [] => rmdir s p | Ok _ => (s, Ok tt) end.
Definition fin_remove (s : fs) (l : list pystr) : fs * res unit :=
  match remove_files s (map (join p) l) with (s1, Err e) => (s1, Err e) | (s1, Ok _) => if re then fin_again s1 else (s1, Ok tt) end.
(** what the rest of the steps will give, if nobody interferes *)
Definition d_finish (s : fs) (ph : phase) : fs * res unit :=
  match ph with
  | DList => delete_dbmodule s p re false
  | DScan todo acc => fin_remove s (acc ++ filter (chosen s) todo)
  | DRemove todo => fin_remove s todo
  | DAgain => fin_again s
  | DRmdir => rmdir s p
  | Done r => (s, r)
  | _ => (s, Ok tt)
  end.
Definition d_phase (ph : phase) : Prop := match ph with DList | DScan _ _ | DRemove _ | DAgain | DRmdir | Done _ => True | _ => False end.
Lemma d_step_finish s ph : d_phase ph -> let '(s1, ph1) := j_delete p re s ph in d_phase ph1 /\ d_finish s1 ph1 = d_finish s ph.
Proof.
  intro D. destruct ph as [| | | | |todo acc|todo| | |r]; try contradiction; cbn [j_delete].
  - destruct (listdir s p) as [names|e] eqn:E; (split; [exact I|]); cbn [d_finish]; unfold delete_dbmodule; rewrite E; reflexivity.
  - destruct todo as [|f todo]; (split; [exact I|]); cbn [d_finish filter]; [now rewrite app_nil_r|]. rewrite <- app_assoc. f_equal. f_equal. unfold chosen. now destruct (_ || _).
  - destruct todo as [|f todo].
    + destruct re eqn:R; (split; [exact I|]); cbn [d_finish]; unfold fin_remove; cbn; rewrite ?R; reflexivity.
    + destruct (remove s (join p f)) as [s1 [u|e]] eqn:E; (split; [exact I|]); cbn [d_finish]; unfold fin_remove; cbn [map remove_files]; now rewrite E.
  - destruct (listdir s p) as [[|x y]|e] eqn:E; (split; [exact I|]); cbn [d_finish]; unfold fin_again; now rewrite E.
  - destruct (rmdir s p) as [s1 r] eqn:E. split; [exact I|]. cbn [d_finish]. now rewrite E.
  - split; [exact I|reflexivity].
Qed.

(** the directory as it is when a delete stops *)
Definition d_inv (s : fs) (ph : phase) : Prop :=
  let P := resolve s p in
  fs_ok s /\
  match ph with
  | DList => True
  | DScan todo acc => stat s p = Some Directory /\ exists seen, children s P = seen ++ todo /\ acc = filter (chosen s) seen
  | DRemove todo => stat s p = Some Directory /\ todo = affected s p
  | DAgain => stat s p = Some Directory /\ affected s p = [] /\ re = true
  | DRmdir => stat s p = Some Directory /\ children s P = [] /\ re = true
  | Done r => delete_dbmodule s p re false = (s, r) \/ (r = Ok tt /\ re = true /\ entry s P = None /\ P <> [] /\ entry s (removelast P) = Some Directory)
  | _ => False
  end.
Lemma children_drop s P f : fs_ok s -> children (drop_ents (path_eqb (P ++ [f])) s) P = filter (fun a => negb (str_eqb f a)) (children s P).
Proof.
  intros _. unfold children, drop_ents. cbn [f_ent]. induction (f_ent s) as [|[q n] l IH]; cbn; [reflexivity|].
  destruct (path_eqb (P ++ [f]) q) eqn:E; cbn.
  - apply path_eqb_eq in E. subst q. assert (C : child_of P (P ++ [f]) = Some f) by now apply child_of_spec. rewrite C. cbn. rewrite str_eqb_refl. cbn. exact IH.
  - rewrite IH. destruct (child_of P q) as [a|] eqn:C; cbn; [|reflexivity]. destruct (str_eqb f a) eqn:F; cbn; [|reflexivity].
    exfalso. apply str_eqb_eq in F. subst a. apply child_of_spec in C. subst q. now rewrite path_eqb_refl in E.
Qed.
Lemma filter_filter {A} (f g : A -> bool) l : filter f (filter g l) = filter (fun a => g a && f a) l.
Proof. induction l as [|a l IH]; cbn; [reflexivity|]. destruct (g a); cbn; [destruct (f a); now rewrite IH|exact IH]. Qed.
Lemma filter_notin f l : ~ In f l -> filter (fun a => negb (str_eqb f a)) l = l.
Proof. induction l as [|a l IH]; cbn; [reflexivity|]. intro N. destruct (str_eqb f a) eqn:E; cbn; [apply str_eqb_eq in E; subst; exfalso; apply N; now left|]. f_equal. apply IH. intro; apply N; now right. Qed.
(** removing the first of the files a delete is after leaves the rest *)
Lemma affected_drop s f todo : fs_ok s -> affected s p = f :: todo -> let s1 := drop_ents (path_eqb (resolve s p ++ [f])) s in affected s1 p = todo.
Proof.
  intros Hok A s1. assert (Nd : NoDup (affected s p)) by apply NoDup_filter, children_nodup, Hok. rewrite A in Nd. apply NoDup_cons_iff in Nd as [Nf _].
  unfold affected in *. assert (R : resolve s1 p = resolve s p) by reflexivity. rewrite R. unfold s1. rewrite (children_drop (resolve s p) f Hok), filter_filter.
  assert (T : todo = filter (fun a => negb (str_eqb f a)) (f :: todo)) by (cbn; rewrite str_eqb_refl; cbn; now rewrite (@filter_notin f todo Nf)).
  rewrite T.
  rewrite <- A, filter_filter. apply filter_ext_in. intros a Ia. assert (Hg : good_name a) by (apply (@children_good s (resolve s p) a Hok Ia)).
  destruct (str_eqb f a) eqn:E; cbn [negb andb]; [now rewrite andb_false_r|]. rewrite andb_true_r. unfold isfile. rewrite !(stat_join _ p Hg).
  change (resolve (drop_ents (path_eqb (resolve s p ++ [f])) s) p) with (resolve s p). rewrite (entry_drop_one s _ (snoc_neq (resolve s p) f)).
  assert (Ne : path_eqb (resolve s p ++ [f]) (resolve s p ++ [a]) = false).
  { apply path_eqb_neq. intro X. apply app_inj_tail in X as [_ X]. subst a. now rewrite str_eqb_refl in E. }
  now rewrite Ne.
Qed.
Lemma stat_drop_child s f : stat s p = Some Directory -> stat (drop_ents (path_eqb (resolve s p ++ [f])) s) p = Some Directory.
Proof.
  intro S. assert (E := @stat_entry s p Directory S). unfold stat. change (resolve (drop_ents (path_eqb (resolve s p ++ [f])) s) p) with (resolve s p).
  rewrite (entry_drop_one s _ (snoc_neq (resolve s p) f)). assert (N : path_eqb (resolve s p ++ [f]) (resolve s p) = false) by (apply path_eqb_neq; intro X; symmetry in X; revert X; apply snoc_longer).
  rewrite N, E. destruct p; [discriminate|reflexivity].
Qed.
Lemma children_affected s : children s (resolve s p) = [] -> affected s p = [].
Proof. unfold affected. now intros ->. Qed.
Lemma delete_from_dir s : stat s p = Some Directory -> delete_dbmodule s p re false = fin_remove s (affected s p).
Proof. intro S. unfold delete_dbmodule, listdir. rewrite S. reflexivity. Qed.
Lemma remove_good s f : good_name f -> match remove s (join p f) with
  | (s1, Ok _) => s1 = drop_ents (path_eqb (resolve s p ++ [f])) s /\ exists c, entry s (resolve s p ++ [f]) = Some (RegFile c)
  | (s1, Err _) => s1 = s end.
Proof.
  intro G. unfold remove. rewrite (stat_join s p G), (resolve_join s p G). destruct (entry s (resolve s p ++ [f])) as [[c|]|]; auto. split; [reflexivity|eauto].
Qed.
Lemma rmdir_cases s : fs_ok s -> match rmdir s p with
  | (s1, Ok _) => resolve s p <> [] /\ s1 = drop_ents (path_eqb (resolve s p)) s /\ children s (resolve s p) = [] /\ entry s (resolve s p) = Some Directory
  | (s1, Err _) => s1 = s end.
Proof.
  intro Hok. unfold rmdir. destruct (stat s p) as [[c|]|] eqn:S; auto. assert (E := @stat_entry s p Directory S). destruct (str_eqb _ dot); auto.
  destruct (resolve s p) as [|a P] eqn:R; auto. destruct (children s (a :: P)) eqn:C; auto. split; [discriminate|]. auto.
Qed.
Lemma d_step_inv s ph : d_inv s ph -> let '(s1, ph1) := j_delete p re s ph in d_inv s1 ph1.
Proof.
  intros [Hok D]. destruct ph as [| | | | |todo acc|todo| | |r]; try contradiction; cbn [j_delete]; cbv zeta in D.
  - unfold listdir. destruct (stat s p) as [[c|]|] eqn:S; (split; [exact Hok|]).
    + left. unfold delete_dbmodule, listdir. now rewrite S.
    + split; [exact S|]. exists []. split; reflexivity.
    + left. unfold delete_dbmodule, listdir. now rewrite S.
  - destruct D as (S & seen & C & A). destruct todo as [|f todo]; (split; [exact Hok|]); (split; [exact S|]).
    + rewrite app_nil_r in C. rewrite A, <- C. reflexivity.
    + exists (seen ++ [f]). split; [now rewrite C, <- app_assoc|]. rewrite A, filter_app. reflexivity.
  - destruct D as (S & A). destruct todo as [|f todo].
    + destruct re eqn:R.
      * split; [exact Hok|]. auto.
      * split; [exact Hok|]. left. assert (X := delete_from_dir s S). rewrite <- A in X. rewrite X. unfold fin_remove. cbn. now rewrite R.
    + assert (G : good_name f). { assert (If : In f (affected s p)) by (rewrite <- A; now left). apply filter_In in If as [If _]. now apply (@children_good s (resolve s p) f Hok). }
      assert (K := remove_good s G). destruct (remove s (join p f)) as [s1 [u|e]] eqn:E.
      * destruct K as [-> [c Ec]]. split; [now apply (@ok_drop_file s _ c Hok)|]. split; [now apply stat_drop_child|]. symmetry. symmetry in A. now apply (affected_drop Hok A).
      * subst s1. split; [exact Hok|]. left. rewrite (delete_from_dir s S), <- A. unfold fin_remove. cbn [map remove_files]. now rewrite E.
  - destruct D as (S & A & R). unfold listdir. rewrite S. destruct (children s (resolve s p)) as [|x y] eqn:C; (split; [exact Hok|]); [auto|].
    left. rewrite (delete_from_dir s S), A. unfold fin_remove, fin_again, listdir. cbn. now rewrite R, S, C.
  - destruct D as (S & C & R). assert (K := rmdir_cases Hok). destruct (rmdir s p) as [s1 [u|e]] eqn:E.
    + destruct K as (Ne & -> & _ & Ed). assert (Hd : entry s (removelast (resolve s p)) = Some Directory) by (eapply entry_parent; eauto).
      split.
      { apply ok_drop; [exact Hok|destruct (resolve s p); [congruence|reflexivity]|]. intros q a Q X. exfalso. apply path_eqb_eq in Q. subst q.
        assert (Ia : In a (children s (resolve s p))) by now apply children_in. rewrite C in Ia. destruct Ia. }
      cbv zeta. change (resolve (drop_ents (path_eqb (resolve s p)) s) p) with (resolve s p). right. destruct u. split; [reflexivity|]. split; [exact R|].
      rewrite !(entry_drop_one s _ Ne), path_eqb_refl. split; [reflexivity|]. split; [exact Ne|].
      assert (X : path_eqb (resolve s p) (removelast (resolve s p)) = false); [|now rewrite X].
      apply path_eqb_neq. destruct (exists_last Ne) as (l & a & L). rewrite L, removelast_last. intro X. symmetry in X. revert X. apply snoc_longer.
    + subst s1. split; [exact Hok|]. left. rewrite (delete_from_dir s S), (children_affected _ C). unfold fin_remove, fin_again, listdir. cbn. now rewrite R, S, C.
  - split; [exact Hok|exact D].
Qed.
End Delete.

Lemma prefix_dir s a b n : fs_ok s -> entry s (a ++ b) = Some n -> b <> [] -> entry s a = Some Directory.
Proof.
  intro Hok. revert n. induction b as [|x b IH] using rev_ind; intros n E Nb; [congruence|]. rewrite app_assoc in E.
  assert (D : entry s (a ++ b) = Some Directory). { assert (Y := @entry_parent s _ n Hok E (@snoc_neq _ (a ++ b) x)). now rewrite removelast_last in Y. }
  destruct b as [|y b]; [now rewrite app_nil_r in D|]. apply (IH _ D). discriminate.
Qed.
Lemma through_none s todo : forall dn, (forall a b, todo = a ++ b -> a <> [] -> forall c, entry s (dn ++ a) <> Some (RegFile c)) -> through_file s dn todo = false.
Proof.
  induction todo as [|x t IH]; intros dn K; cbn; [reflexivity|]. destruct (entry s (dn ++ [x])) as [[c|]|] eqn:E.
  - exfalso. apply (K [x] t eq_refl) with (c := c); [discriminate|exact E].
  - apply IH. intros a b -> Na c. rewrite <- app_assoc. apply (K (x :: a) b); [reflexivity|discriminate].
  - apply IH. intros a b -> Na c. rewrite <- app_assoc. apply (K (x :: a) b); [reflexivity|discriminate].
Qed.
(** nothing at [P], but its parent is a directory: the error is FileNotFoundError *)
Lemma missing_child s p : fs_ok s -> entry s (resolve s p) = None -> entry s (removelast (resolve s p)) = Some Directory -> missing s p = FileNotFoundError.
Proof.
  intros Hok E D. unfold missing. destruct p as [|c p]; [reflexivity|]. set (P := resolve s (c :: p)) in *. assert (T : through_file s [] P = false); [apply through_none|now rewrite T]. cbn [app].
  intros a b Hab Na x. destruct b as [|y b] using rev_ind; [rewrite app_nil_r in Hab; subst a; congruence|]. clear IHb. rewrite app_assoc in Hab. rewrite Hab, removelast_last in D.
  destruct b as [|z b]; [rewrite app_nil_r in D; congruence|]. assert (X : entry s a = Some Directory) by (apply (@prefix_dir s a (z :: b) Directory Hok D); discriminate). congruence.
Qed.
Lemma single_run (j : job) (R : fs -> phase -> Prop) : (forall s ph, R s ph -> let '(s1, ph1) := j_step j s ph in R s1 ph1) ->
  forall sched s, R s (p_phase (p_new j)) -> exists s' ph', w_run sched (w_start s [j]) = mkW s' [mkP j ph'] /\ R s' ph'.
Proof.
  intros K sched s H. apply (w_run_ind (fun w => exists s' ph', w = mkW s' [mkP j ph'] /\ R s' ph')).
  - intros w i (s' & ph' & -> & Q). unfold w_step. cbn [w_procs]. destruct i as [|i]; cbn [nth_error]; [|destruct i; cbn [nth_error]; eauto].
    specialize (K s' ph' Q). cbn [p_job p_phase w_fs]. destruct (j_step j s' ph') as [s1 ph1]. exists s1, ph1. split; [reflexivity|exact K].
  - exists s, (p_phase (p_new j)). split; [|exact H]. unfold w_start. cbn. now destruct j.
Qed.
Lemma delete_of_finish p re s ph : d_inv p re s ph -> (forall r, ph <> Done r) -> delete_dbmodule s p re false = d_finish p re s ph.
Proof.
  intros [Hok D] N. destruct ph as [| | | | |todo acc|todo| | |r]; try contradiction; cbn [d_finish].
  - reflexivity.
  - destruct D as (S & seen & C & ->). rewrite (delete_from_dir p re s S), <- filter_app, <- C. reflexivity.
  - destruct D as (S & ->). now apply delete_from_dir.
  - destruct D as (S & A & R). rewrite (delete_from_dir p re s S), A. unfold fin_remove. cbn. now rewrite R.
  - destruct D as (S & C & R). rewrite (delete_from_dir p re s S), (children_affected p _ C). unfold fin_remove. cbn. rewrite R. unfold fin_again, listdir. now rewrite S, C.
  - now destruct (N r).
Qed.
(** a delete that died anywhere and is done again *)
Lemma C121_restart_lemma s p re sched : fs_ok s -> let s' := w_fs (w_run sched (w_start s [JDelete p re])) in
  delete_dbmodule s' p re false = delete_dbmodule s p re false \/
  (delete_dbmodule s p re false = (s', Ok tt) /\ delete_dbmodule s' p re false = (s', Err FileNotFoundError) /\ entry s' (resolve s' p) = None).
Proof.
  intros Hok s'. destruct (single_run (JDelete p re) (fun s1 ph => d_inv p re s1 ph /\ d_phase ph /\ d_finish p re s1 ph = delete_dbmodule s p re false)) with (sched := sched) (s := s) as (s1 & ph & E & I & D & F).
  - intros s1 ph (I & D & F). cbn [j_step]. assert (A := d_step_inv I). assert (B := d_step_finish p re s1 ph D). destruct (j_delete p re s1 ph) as [s2 ph2]. destruct B as [B1 B2]. rewrite B2. auto.
  - cbn. split; [split; [exact Hok|exact I]|]. auto.
  - subst s'. rewrite E. cbn [w_fs]. destruct ph as [| | | | |todo acc|todo| | |r] eqn:Ph; try contradiction;
      try (left; rewrite <- F, <- Ph in *; apply delete_of_finish; [exact I|subst ph; discriminate]).
    destruct I as [Hok1 [X|(-> & R & En & Ne & Ep)]].
    + left. rewrite X. cbn [d_finish] in F. exact F.
    + right. cbn [d_finish] in F. split; [now symmetry|]. split; [|exact En]. unfold delete_dbmodule, listdir.
      assert (S : stat s1 p = None) by (unfold stat; destruct p; [reflexivity|now rewrite En]). now rewrite S, (@missing_child s1 p Hok1 En Ep).
Qed.
(** ... and run to its end it is delete_dbmodule *)
Lemma w_run_app a b w : w_run (a ++ b) w = w_run b (w_run a w).
Proof. apply fold_left_app. Qed.
Definition d_size (ph : phase) : nat :=
  match ph with DList => 0 | DScan todo acc => 5 + 2 * List.length todo + List.length acc | DRemove todo => 4 + List.length todo | DAgain => 3 | DRmdir => 2 | _ => 0 end.
Lemma d_ends p re : forall n s ph, d_size ph <= n -> ph <> DList -> d_phase ph -> exists m r s', w_run (repeat 0 m) (mkW s [mkP (JDelete p re) ph]) = mkW s' [mkP (JDelete p re) (Done r)].
Proof.
  induction n as [|n IH]; intros s ph L N D.
  - destruct ph; try contradiction; cbn in L; try lia; try congruence. exists 0, r, s. reflexivity.
  - destruct (j_delete p re s ph) as [s1 ph1] eqn:E. destruct (match ph with Done _ => true | _ => false end) eqn:Q.
    + destruct ph; try discriminate. exists 0, r, s. reflexivity.
    + assert (X : d_phase ph1 /\ ph1 <> DList /\ d_size ph1 <= n).
      { assert (B := d_step_finish p re s ph D). rewrite E in B. destruct B as [B _]. split; [exact B|].
        destruct ph as [| | | | |todo acc|todo| | |r]; try contradiction; try congruence; cbn [j_delete] in E.
        - destruct todo as [|f todo]; injection E as <- <-; (split; [discriminate|]); cbn in *; [lia|]. rewrite app_length. destruct (_ || _); cbn; lia.
        - destruct todo as [|f todo]; [injection E as <- <-; destruct re; (split; [discriminate|]); cbn in *; lia|].
          destruct (remove s (join p f)) as [s2 [u|e]]; injection E as <- <-; (split; [discriminate|]); cbn in *; lia.
        - destruct (listdir s p) as [[|x y]|e]; injection E as <- <-; (split; [discriminate|]); cbn in *; lia.
        - destruct (rmdir s p) as [s2 r]. injection E as <- <-. split; [discriminate|]. cbn. lia. }
      destruct X as (X1 & X2 & X3). destruct (IH s1 ph1 X3 X2 X1) as (m & r & s' & M). exists (S m), r, s'. cbn [repeat]. unfold w_run in *. cbn [fold_left].
      unfold w_step at 2. cbn [w_procs nth_error p_job p_phase w_fs j_step]. rewrite E. cbn [put_nth]. exact M.
Qed.
Lemma C121_delete_alone_lemma s p re : fs_ok s -> exists n, w_run (repeat 0 n) (w_start s [JDelete p re]) = mkW (fst (delete_dbmodule s p re false)) [mkP (JDelete p re) (Done (snd (delete_dbmodule s p re false)))].
Proof.
  intro Hok. assert (F := d_step_finish p re s DList I). destruct (j_delete p re s DList) as [s1 ph1] eqn:E. destruct F as [D F]. 
  assert (N : ph1 <> DList) by (cbn in E; destruct (listdir s p); injection E as <- <-; discriminate).
  destruct (@d_ends p re _ s1 ph1 (le_n _) N D) as (m & r & s' & M). exists (S m). 
  assert (Z : w_run (repeat 0 (S m)) (w_start s [JDelete p re]) = mkW s' [mkP (JDelete p re) (Done r)]).
  { cbn [repeat]. unfold w_run in *. cbn [fold_left]. unfold w_step at 2, w_start. cbn [map p_new w_procs nth_error p_job p_phase w_fs j_step]. rewrite E. exact M. }
  rewrite Z. destruct (single_run (JDelete p re) (fun s1 ph => d_phase ph /\ d_finish p re s1 ph = delete_dbmodule s p re false)) with (sched := repeat 0 (S m)) (s := s) as (s2 & ph & E2 & D2 & F2).
  - intros s2 ph (D2 & F2). cbn [j_step]. assert (B := d_step_finish p re s2 ph D2). destruct (j_delete p re s2 ph) as [s3 ph3]. destruct B as [B1 B2]. rewrite B2. auto.
  - cbn. auto.
  - rewrite Z in E2. injection E2 as <- <-. cbn [d_finish] in F2. rewrite <- F2. reflexivity.
Qed.

(** ** Processes that create the same directory *)
Lemma nth_put_other {A} i j (x : A) l : j <> i -> nth_error (put_nth i x l) j = nth_error l j.
Proof. revert i j. induction l as [|y l IH]; intros [|i] [|j] N; cbn; auto; try congruence.  Qed.
Lemma set_new s q n m : entry s q = None -> q <> [] -> set_ent q n (add_ent q m s) = add_ent q n s.
Proof.
  intros E Nq. unfold set_ent. rewrite (entry_add s m q Nq E), path_eqb_refl. unfold add_ent. cbn [f_cwd f_ent]. f_equal. rewrite map_app. cbn. rewrite path_eqb_refl. f_equal.
  assert (F : find_ent q (f_ent s) = None) by (destruct q; [congruence|exact E]). clear E. induction (f_ent s) as [|[r k] l IH]; cbn in *; [reflexivity|].
  destruct (path_eqb q r); [discriminate|]. f_equal. now apply IH.
Qed.
Section Creators.
Variables (s0 : fs) (P : Fs.path).
Hypotheses (Hok : fs_ok s0) (En : entry s0 P = None) (Ed : entry s0 (removelast P) = Some Directory) (Hg : Forall good_name P).
Definition cr1 : fs := add_ent P Directory s0.
Definition cr2 : fs := add_ent (P ++ [init_py]) (RegFile (Text [])) cr1.
Definition cr3 (d : bool) : fs := add_ent (P ++ [init_py]) (RegFile (Generated d)) cr1.
Let Ne : P <> [].
Proof. intro E. rewrite E in En. discriminate En. Qed.
Let Ni : P ++ [init_py] <> [].
Proof. apply snoc_neq. Qed.
Let Nd : path_eqb (P ++ [init_py]) P = false.
Proof. apply path_eqb_neq. intro X. symmetry in X. revert X. apply snoc_longer. Qed.
Let Ec : entry s0 (P ++ [init_py]) = None.
Proof. apply (entry_child_none P init_py Hok). congruence. Qed.
Lemma cr1_entry q : entry cr1 q = if path_eqb q P then Some Directory else entry s0 q.
Proof. exact (entry_add s0 Directory q Ne En). Qed.
Lemma cr1_init : entry cr1 (P ++ [init_py]) = None.
Proof. rewrite cr1_entry, Nd. exact Ec. Qed.
Lemma cr2_entry q : entry cr2 q = if path_eqb q (P ++ [init_py]) then Some (RegFile (Text [])) else if path_eqb q P then Some Directory else entry s0 q.
Proof. unfold cr2. rewrite (entry_add cr1 _ q Ni cr1_init), cr1_entry. reflexivity. Qed.
Lemma cr3_entry d q : entry (cr3 d) q = if path_eqb q (P ++ [init_py]) then Some (RegFile (Generated d)) else if path_eqb q P then Some Directory else entry s0 q.
Proof. unfold cr3. rewrite (entry_add cr1 _ q Ni cr1_init), cr1_entry. reflexivity. Qed.
Lemma cr1_ok : fs_ok cr1.
Proof. apply ok_add; auto. Qed.
Lemma good_init : Forall good_name (P ++ [init_py]).
Proof. apply Forall_app. split; [exact Hg|]. constructor; [apply init_good|constructor]. Qed.
Lemma cr_ok n : fs_ok (add_ent (P ++ [init_py]) n cr1).
Proof. apply ok_add; auto; [exact cr1_ok|exact good_init|exact cr1_init|]. rewrite removelast_last, cr1_entry, path_eqb_refl. reflexivity. Qed.

(** a process that creates [P] *)
Definition creates (q : proc) : Prop := exists p d ow, p_job q = JCreate p d ow /\ p <> [] /\ resolve s0 p = P.
(** how far the one that has made the directory is, and what the file system then is *)
Definition owner_at (d : bool) (s : fs) (ph : phase) : Prop := (ph = COpen /\ s = cr1) \/ (ph = CWrite /\ s = cr2) \/ (ph = Done (Ok tt) /\ s = cr3 d).
Definition loser (ph : phase) : Prop := ph = CExists \/ ph = CMkdir \/ ph = Done (Err IOError) \/ ph = Done (Err FileExistsError).
Definition nobody (w : world) : Prop := w_fs w = s0 /\ forall i q, nth_error (w_procs w) i = Some q -> creates q /\ (p_phase q = CExists \/ p_phase q = CMkdir).
Definition owned (w : world) : Prop := exists i p d ow ph, nth_error (w_procs w) i = Some (mkP (JCreate p d ow) ph) /\ p <> [] /\ resolve s0 p = P /\ owner_at d (w_fs w) ph /\
  forall j q, j <> i -> nth_error (w_procs w) j = Some q -> creates q /\ loser (p_phase q).
Lemma owner_dir d s ph : owner_at d s ph -> entry s P = Some Directory /\ f_cwd s = f_cwd s0.
Proof.
  assert (Nd' : path_eqb P (P ++ [init_py]) = false) by (apply path_eqb_neq; apply snoc_longer).
  intros [[_ ->]|[[_ ->]|[_ ->]]]; (split; [|reflexivity]); rewrite ?cr1_entry, ?cr2_entry, ?cr3_entry, ?Nd', path_eqb_refl; reflexivity.
Qed.
Lemma creators_step w i : nobody w \/ owned w -> nobody (w_step w i) \/ owned (w_step w i).
Proof.
  intros [[Fs A]|(k & p & d & ow & ph & Ek & Np & Rp & O & L)]; unfold w_step; destruct (nth_error (w_procs w) i) as [q|] eqn:Ei.
  - destruct (A i q Ei) as ((p & d & ow & J & Np & Rp) & Ph). rewrite J, Fs. destruct q as [j ph]. cbn in J, Ph. subst j.
    assert (Other : forall ph' s', (ph' = CExists \/ ph' = CMkdir) -> s' = s0 -> nobody (mkW s' (put_nth i (mkP (JCreate p d ow) ph') (w_procs w)))).
    { intros ph' s' X ->. split; [reflexivity|]. cbn [w_procs]. intros j q E. destruct (Nat.eq_dec j i) as [->|N].
      - rewrite (nth_put_same _ _ _ _ Ei) in E. injection E as <-. cbn. split; [|exact X]. exists p, d, ow. auto.
      - rewrite (nth_put_other _ _ N) in E. now apply (A j q). }
    cbn [p_phase p_job]. destruct Ph as [-> | ->]; cbn [j_step j_create].
    + assert (X : exists_ s0 p = false) by (unfold exists_, stat; destruct p; [reflexivity|]; now rewrite Rp, En). rewrite X, andb_false_r. left. apply Other; auto.
    + unfold mkdir. rewrite Rp, En. unfold parent. rewrite Ed. destruct p as [|c p]; [congruence|]. right.
      exists i, (c :: p), d, ow, COpen. cbn [w_procs w_fs]. rewrite (nth_put_same _ _ _ _ Ei). split; [reflexivity|]. split; [exact Np|]. split; [exact Rp|]. split; [left; auto|].
      intros j q N E. rewrite (nth_put_other _ _ N) in E. destruct (A j q E) as [C X]. split; [exact C|]. unfold loser. tauto.
  - left. now split.
  - assert (D := owner_dir O). destruct D as [D Cw]. assert (Res : forall x, resolve (w_fs w) x = resolve s0 x) by (intro x; unfold resolve; now rewrite Cw). right.
    destruct (Nat.eq_dec i k) as [->|N].
    + rewrite Ek in Ei. injection Ei as <-. cbn [p_job p_phase j_step].
      assert (Keep : forall ph' s', owner_at d s' ph' -> owned (mkW s' (put_nth k (mkP (JCreate p d ow) ph') (w_procs w)))).
      { intros ph' s' X. exists k, p, d, ow, ph'. cbn [w_procs w_fs]. rewrite (nth_put_same _ _ _ _ Ek). split; [reflexivity|]. split; [exact Np|]. split; [exact Rp|]. split; [exact X|].
        intros j q N E. rewrite (nth_put_other _ _ N) in E. now apply (L j). }
      destruct O as [[-> Es]|[[-> Es]|[-> Es]]]; cbn [j_create].
      * unfold write_file. rewrite (dir_form_join p init_good), (resolve_join _ p init_good), Res, Rp, Es, cr1_init. unfold parent. rewrite removelast_last, cr1_entry, path_eqb_refl.
        assert (Nj := join_nonempty p init_good). destruct (join p init_py) as [|x y]; [congruence|]. apply Keep. right. left. auto.
      * rewrite (resolve_join _ p init_good), Res, Rp, Es, cr2_entry, path_eqb_refl. apply Keep. right. right. split; [reflexivity|]. unfold cr2. rewrite (@set_new cr1 _ _ _ cr1_init Ni). reflexivity.
      * apply Keep. right. right. auto.
    + destruct (L i q N Ei) as ((p' & d' & ow' & J & Np' & Rp') & X). destruct q as [j ph2]. cbn in J, X. subst j. cbn [p_job p_phase j_step].
      assert (Keep : forall ph', loser ph' -> owned (mkW (w_fs w) (put_nth i (mkP (JCreate p' d' ow') ph') (w_procs w)))).
      { intros ph' Y. exists k, p, d, ow, ph. cbn [w_procs w_fs]. assert (N' : k <> i) by congruence. rewrite (nth_put_other _ _ N'). split; [exact Ek|]. split; [exact Np|]. split; [exact Rp|]. split; [exact O|].
        intros j q Nj E. destruct (Nat.eq_dec j i) as [->|Nji]; [|rewrite (nth_put_other _ _ Nji) in E; now apply (L j)].
        rewrite (nth_put_same _ _ _ _ Ei) in E. injection E as <-. cbn. split; [|exact Y]. exists p', d', ow'. auto. }
      unfold loser in *. destruct X as [->|[->|[->| ->]]]; cbn [j_create].
      * destruct (negb ow' && exists_ (w_fs w) p'); apply Keep; tauto.
      * unfold mkdir. rewrite Res, Rp', D. destruct p'; [congruence|]. apply Keep. tauto.
      * apply Keep. tauto.
      * apply Keep. tauto.
  - right. exists k, p, d, ow, ph. auto.
Qed.
Lemma creators_start jobs : (forall j, In j jobs -> exists p d ow, j = JCreate p d ow /\ p <> [] /\ resolve s0 p = P) -> nobody (w_start s0 jobs).
Proof.
  intro K. split; [reflexivity|]. intros i q E. unfold w_start in E. cbn in E. apply nth_error_In, in_map_iff in E. destruct E as (j & <- & Ij).
  destruct (K j Ij) as (p & d & ow & -> & Np & Rp). cbn. split; [|now left]. exists p, d, ow. auto.
Qed.
Lemma creators_inv jobs sched : (forall j, In j jobs -> exists p d ow, j = JCreate p d ow /\ p <> [] /\ resolve s0 p = P) ->
  nobody (w_run sched (w_start s0 jobs)) \/ owned (w_run sched (w_start s0 jobs)).
Proof. intro K. apply (w_run_ind (fun w => nobody w \/ owned w)); [intros; now apply creators_step|]. left. now apply creators_start. Qed.
Lemma owner_entries d s ph q : owner_at d s ph -> q <> P -> q <> P ++ [init_py] -> entry s q = entry s0 q.
Proof. intros O N1 N2. apply path_eqb_neq in N1, N2. destruct O as [[_ ->]|[[_ ->]|[_ ->]]]; rewrite ?cr1_entry, ?cr2_entry, ?cr3_entry, ?N1, ?N2; reflexivity. Qed.
Lemma owner_init d s ph : owner_at d s ph -> entry s (P ++ [init_py]) = None \/ exists c, entry s (P ++ [init_py]) = Some (RegFile c) /\ (c = Text [] \/ c = Generated d).
Proof.
  intros [[_ ->]|[[_ ->]|[_ ->]]]; [left; apply cr1_init|right|right]; rewrite ?cr2_entry, ?cr3_entry, path_eqb_refl; eauto.
Qed.
Lemma owner_ok d s ph : owner_at d s ph -> fs_ok s.
Proof. intros [[_ ->]|[[_ ->]|[_ ->]]]; [exact cr1_ok|apply cr_ok|apply cr_ok]. Qed.
(** deleting the directory afterwards restores the file system *)
Lemma owner_delete d s ph p : owner_at d s ph -> p <> [] -> resolve s0 p = P -> removable s0 p -> exists s', delete_dbmodule s p true false = (s', Ok tt) /\ same_entries s' s0.
Proof.
  intros O Np Rp Rm. destruct (owner_dir O) as [D Cw]. assert (Res : forall x, resolve s x = resolve s0 x) by (intro x; unfold resolve; now rewrite Cw).
  assert (Ks := owner_ok O). assert (St : stat s p = Some Directory) by (unfold stat; rewrite Res, Rp, D; destruct p; [congruence|reflexivity]).
  assert (Ki := owner_init O). destruct (delete_dbmodule s p true false) as [s' r] eqn:E.
  assert (Z : entry s (resolve s p ++ [init_py]) <> Some Directory) by (rewrite Res, Rp; destruct Ki as [->|(c & -> & _)]; discriminate).
  destruct (@delete_exact s p true s' r Ks St Z E) as (X1 & X2 & X3 & _). rewrite Res, Rp in *.
  assert (All : forall f, entry s (P ++ [f]) <> None -> doomed s p f).
  { intros f Nf. destruct (str_dec f init_py) as [->|Nfi].
    - destruct Ki as [Y|(c & Y & _)]; [congruence|]. exists c. rewrite Res, Rp. auto.
    - exfalso. apply Nf. rewrite (owner_entries O); [|intro Y; symmetry in Y; revert Y; apply snoc_longer|intro Y; apply app_inj_tail in Y as [_ Y]; congruence].
      apply (entry_child_none P f Hok). congruence. }
  destruct (X3 eq_refl All) as [X4 _]. assert (Rm' : removable s p) by (destruct Rm as [R1 R2]; split; [rewrite Res, Rp; exact Ne|exact R2]).
  destruct (X4 Rm') as [X5 ->]. exists s'. split; [reflexivity|]. intro q. destruct (path_dec q P) as [->|Nq]; [congruence|].
  destruct (path_dec q (P ++ [init_py])) as [->|Nq2].
  - rewrite Ec. destruct Ki as [Y|(c & Y & _)].
    + rewrite X2; [exact Y|exact Nq|]. intros f (c & Cf & _) X. apply app_inj_tail in X as [_ X]. subst f. rewrite Res, Rp in Cf. congruence.
    + apply X1. exists c. rewrite Res, Rp. auto.
  - rewrite X2; [now apply (owner_entries O)|exact Nq|]. intros f Df X. subst q. destruct (str_dec f init_py) as [->|Nfi]; [congruence|].
    destruct Df as (c & Cf & _). rewrite Res, Rp, (owner_entries O Nq Nq2) in Cf. rewrite (entry_child_none P f Hok) in Cf; congruence.
Qed.
End Creators.

(** [C121_creators]: several processes creating the same directory *)
Lemma C121_creators_lemma s0 P jobs sched : fs_ok s0 -> Forall good_name P -> entry s0 P = None -> entry s0 (removelast P) = Some Directory ->
  (forall j, In j jobs -> exists p d ow, j = JCreate p d ow /\ p <> [] /\ resolve s0 p = P) ->
  let w := w_run sched (w_start s0 jobs) in let s := w_fs w in
  (forall i j q r, nth_error (w_procs w) i = Some q -> nth_error (w_procs w) j = Some r -> p_phase q = Done (Ok tt) -> p_phase r = Done (Ok tt) -> i = j) /\
  (forall q e, In q (w_procs w) -> p_phase q = Done (Err e) -> (e = IOError \/ e = FileExistsError) /\ entry s P = Some Directory) /\
  (forall q p d ow, In q (w_procs w) -> p_job q = JCreate p d ow -> p_phase q = Done (Ok tt) -> entry s P = Some Directory /\ entry s (P ++ [init_py]) = Some (RegFile (Generated d))) /\
  (jobs <> [] -> all_done w -> exists q, In q (w_procs w) /\ p_phase q = Done (Ok tt)) /\
  (forall q, q <> P -> q <> P ++ [init_py] -> entry s q = entry s0 q) /\
  (entry s P = None \/ entry s P = Some Directory) /\
  (entry s (P ++ [init_py]) = None \/ exists c, entry s (P ++ [init_py]) = Some (RegFile c) /\ (c = Text [] \/ exists p d ow, In (JCreate p d ow) jobs /\ c = Generated d)).
Proof.
  intros Hok Hg En Ed K w s. assert (Inv := creators_inv Hok En Ed jobs sched K). fold w in Inv.
  assert (Jobs : map p_job (w_procs w) = jobs).
  { apply (w_run_ind (fun w => map p_job (w_procs w) = jobs)).
    - intros w' i Hm. unfold w_step. destruct (nth_error (w_procs w') i) as [q|] eqn:E; [|exact Hm]. destruct (j_step (p_job q) (w_fs w') (p_phase q)) as [s' ph'] eqn:Es. cbn [w_procs]. rewrite <- Hm.
      clear - E. revert i E. induction (w_procs w') as [|x l IH]; intros [|i] E; cbn in *; try discriminate; [now injection E as ->|]. f_equal. now apply IH.
    - unfold w_start. cbn. rewrite map_map. rewrite <- (map_id jobs) at 2. apply map_ext. intros []; reflexivity. }
  destruct Inv as [[Fs A]|(k & p & d & ow & ph & Ek & Np & Rp & O & L)]; subst s.
  - assert (NoDone : forall q r, In q (w_procs w) -> p_phase q <> Done r) by (intros q r I X; apply In_nth_error in I as [i I]; destruct (A i q I) as [_ [Y|Y]]; congruence).
    rewrite Fs. split; [intros i j q r Q _ D; exfalso; apply (NoDone q (Ok tt) (nth_error_In _ _ Q) D)|].
    split; [intros q e I D; exfalso; apply (NoDone q _ I D)|]. split; [intros q p d ow I _ D; exfalso; apply (NoDone q _ I D)|].
    split; [|split; [auto|split; [auto|left; apply (entry_child_none P init_py Hok); congruence]]].
    intros Nj Dn. exfalso. destruct (w_procs w) as [|q l] eqn:Ew; [cbn in Jobs; congruence|]. destruct (Dn q) as [r R]; [rewrite Ew; now left|]. apply (NoDone q r (or_introl eq_refl) R).
  - destruct (owner_dir Hok En Ed O) as [D _].
    assert (Loser : forall j q, nth_error (w_procs w) j = Some q -> j <> k -> loser (p_phase q)) by (intros j q E N; now destruct (L j q N E)).
    assert (Win : forall i q, nth_error (w_procs w) i = Some q -> p_phase q = Done (Ok tt) -> i = k).
    { intros i q E X. destruct (Nat.eq_dec i k) as [->|N]; [reflexivity|]. destruct (Loser i q E N) as [Y|[Y|[Y|Y]]]; congruence. }
    split; [intros i j q r Q R X Y; rewrite (Win i q Q X), (Win j r R Y); reflexivity|].
    split.
    { intros q e I X. split; [|exact D]. apply In_nth_error in I as [i I]. destruct (Nat.eq_dec i k) as [->|N].
      - rewrite Ek in I. injection I as <-. cbn in X. subst ph. destruct O as [[O _]|[[O _]|[O _]]]; discriminate.
      - destruct (Loser i q I N) as [Y|[Y|[Y|Y]]]; rewrite Y in X; try discriminate; injection X as <-; auto. }
    split.
    { intros q p' d' ow' I J X. split; [exact D|]. apply In_nth_error in I as [i I]. assert (Y := Win i q I X). subst i. rewrite Ek in I. injection I as <-. cbn in J, X. injection J as -> -> ->. subst ph.
      destruct O as [[O _]|[[O _]|[_ Ew]]]; try discriminate. rewrite Ew, cr3_entry by assumption. now rewrite path_eqb_refl. }
    split.
    { intros _ Dn. exists (mkP (JCreate p d ow) ph). split; [now apply nth_error_In in Ek|]. destruct (Dn _ (nth_error_In _ _ Ek)) as [r R]. cbn in *. destruct O as [[O _]|[[O _]|[O _]]]; congruence. }
    split; [intros q N1 N2; now apply (owner_entries Hok En Ed O)|]. split; [auto|]. destruct (owner_init Hok En Ed O) as [X|(c & X & Y)]; [auto|]. right. exists c. split; [exact X|].
    destruct Y as [->| ->]; [auto|]. right. exists p, d, ow. split; [|reflexivity]. rewrite <- Jobs. apply in_map_iff. exists (mkP (JCreate p d ow) ph). split; [reflexivity|]. now apply nth_error_In in Ek.
Qed.
(** [C121_recover]: whatever creators died where, the name is taken until the directory is deleted, and that restores the file system *)
Lemma C121_recover_lemma s0 jobs sched p fresh path name d ow : fs_ok s0 -> p = wanted fresh path name -> let P := resolve s0 p in p <> [] -> removable s0 p -> entry s0 P = None -> entry s0 (removelast P) = Some Directory ->
  (forall j, In j jobs -> exists p d ow, j = JCreate p d ow /\ p <> [] /\ resolve s0 p = P) ->
  let s := w_fs (w_run sched (w_start s0 jobs)) in
  (s = s0 /\ delete_dbmodule s p true false = (s, Err FileNotFoundError)) \/
  (entry s P = Some Directory /\ create_dbmodule fresh s path name d ow = (s, Err (if ow then FileExistsError else IOError)) /\
   exists s', delete_dbmodule s p true false = (s', Ok tt) /\ same_entries s' s0).
Proof.
  intros Hok Ep P Np Rm En Ed K s. assert (Hg : Forall good_name P) by now apply resolve_good. assert (Inv := creators_inv Hok En Ed jobs sched K).
  destruct Inv as [[Fs _]|(k & p' & d' & ow' & ph & _ & _ & _ & O & _)].
  - left. subst s. rewrite Fs. split; [reflexivity|]. unfold delete_dbmodule, listdir. assert (S : stat s0 p = None) by (unfold stat; destruct p; [reflexivity|]; fold P; now rewrite En).
    now rewrite S, (@missing_child s0 p Hok En Ed).
  - right. destruct (owner_dir Hok En Ed O) as [D Cw]. split; [exact D|]. split; [|now apply (owner_delete Hok En Ed Hg O)].
    apply C49_existing with (n := Directory). rewrite <- Ep. unfold stat. assert (R : resolve s p = P) by (unfold P, resolve; unfold s; now rewrite Cw). fold s in D. rewrite R, D. destruct p; [congruence|reflexivity].
Qed.
Lemma C121_create_alone_lemma s fresh path name d ow : fs_ok s -> let p := wanted fresh path name in let out := create_dbmodule fresh s path name d ow in
  w_run [0; 0; 0; 0] (w_start s [JCreate p d ow]) = mkW (fst out) [mkP (JCreate p d ow) (Done (match snd out with Ok _ => Ok tt | Err e => Err e end))].
Proof.
  intros Hok p out. subst out. unfold create_dbmodule. fold (wanted fresh path name). fold p. clearbody p.
  assert (St : forall s1 ph s2 ph2, j_create p d ow s1 ph = (s2, ph2) -> w_step (mkW s1 [mkP (JCreate p d ow) ph]) 0 = mkW s2 [mkP (JCreate p d ow) ph2]).
  { intros s1 ph s2 ph2 E. unfold w_step. cbn [w_procs nth_error p_job p_phase w_fs j_step]. rewrite E. reflexivity. }
  unfold w_start. cbn [map]. change (p_new (JCreate p d ow)) with (mkP (JCreate p d ow) CExists). unfold w_run. cbn [fold_left].
  destruct (negb ow && exists_ s p) eqn:X.
  - rewrite (St s CExists s (Done (Err IOError))) by (cbn [j_create]; now rewrite X). now rewrite !(St s (Done (Err IOError)) s (Done (Err IOError))) by reflexivity.
  - rewrite (St s CExists s CMkdir) by (cbn [j_create]; now rewrite X). destruct (mkdir s p) as [s1 [u|e]] eqn:M.
    + rewrite (St s CMkdir s1 COpen) by (cbn [j_create]; now rewrite M).
      unfold mkdir in M. destruct p as [|c p]; [discriminate|]. set (P := resolve s (c :: p)) in *. destruct (entry s P) eqn:En; [discriminate|]. destruct (entry s (parent P)) as [[x|]|] eqn:Ed; try discriminate. injection M as <- _.
      assert (Hg : Forall good_name P) by now apply resolve_good. unfold parent in Ed.
      assert (Hi : entry (cr1 s P) (P ++ [init_py]) = None) by (apply cr1_init; assumption). fold (cr1 s P) in *.
      assert (W : forall n, write_file (cr1 s P) (join (c :: p) init_py) n = (add_ent (P ++ [init_py]) (RegFile n) (cr1 s P), Ok tt)).
      { intro n. unfold write_file. rewrite (dir_form_join (c :: p) init_good), (resolve_join _ (c :: p) init_good). change (resolve (cr1 s P) (c :: p)) with P. rewrite Hi. unfold parent. rewrite removelast_last.
        rewrite cr1_entry, path_eqb_refl by assumption. assert (Nj := join_nonempty (c :: p) init_good). destruct (join (c :: p) init_py); [congruence|reflexivity]. }
      rewrite (St (cr1 s P) COpen (cr2 s P) CWrite) by (cbn [j_create]; now rewrite W). rewrite W. cbn [fst snd].
      apply St. cbn [j_create]. rewrite (resolve_join _ (c :: p) init_good). change (resolve (cr2 s P) (c :: p)) with P. rewrite cr2_entry, path_eqb_refl by assumption.
      unfold cr2. now rewrite (@set_new (cr1 s P) _ _ _ Hi (@snoc_neq _ P init_py)).
    + rewrite (St s CMkdir s1 (Done (Err e))) by (cbn [j_create]; now rewrite M). now rewrite !(St s1 (Done (Err e)) s1 (Done (Err e))) by reflexivity.
Qed.

(** ** Processes that delete the same directory *)
Lemma stat_dir s p : p <> [] -> entry s (resolve s p) = Some Directory \/ entry s (resolve s p) = None -> stat s p = entry s (resolve s p).
Proof. intros N [E|E]; unfold stat; rewrite E; destruct p; congruence || reflexivity. Qed.
Section Deleters.
Variables (s0 : fs) (p : pystr).
Let P : Fs.path := resolve s0 p.
Hypotheses (Hok : fs_ok s0) (S0 : stat s0 p = Some Directory) (Hi : entry s0 (P ++ [init_py]) <> Some Directory) (Rm : removable s0 p).
Definition left_of (s : fs) : Prop := fs_ok s /\ f_cwd s = f_cwd s0 /\
  forall q, entry s q = entry s0 q \/ (entry s q = None /\ (q = P \/ exists f, q = P ++ [f] /\ doomed s0 p f)).
Definition d_at (re : bool) (s : fs) (ph : phase) : Prop :=
  match ph with
  | DList => True
  | DScan todo acc => (forall f, doomed s0 p f -> entry s (P ++ [f]) <> None -> In f todo \/ In f acc) /\ (forall f, In f todo -> good_name f /\ entry s0 (P ++ [f]) <> None) /\ (forall f, In f acc -> good_name f /\ doomed s0 p f)
  | DRemove todo => (forall f, doomed s0 p f -> entry s (P ++ [f]) <> None -> In f todo) /\ (forall f, In f todo -> good_name f /\ doomed s0 p f)
  | DAgain => re = true /\ forall f, doomed s0 p f -> entry s (P ++ [f]) = None
  | DRmdir => re = true /\ forall f, entry s (P ++ [f]) = None
  | Done (Ok _) => (forall f, doomed s0 p f -> entry s (P ++ [f]) = None) /\ (re = true -> entry s P = None \/ exists f, entry s0 (P ++ [f]) <> None /\ ~ doomed s0 p f)
  | Done (Err e) => e = FileNotFoundError
  | _ => False
  end.
Let Ne : P <> [].
Proof. exact (proj1 Rm). Qed.
Let Ep : entry s0 P = Some Directory.
Proof. exact (@stat_entry s0 p Directory S0). Qed.
Let Epar : entry s0 (removelast P) = Some Directory.
Proof. exact (@entry_parent s0 P Directory Hok Ep Ne). Qed.
Lemma d_at_mono re s s' ph : (forall q, entry s' q = entry s q \/ entry s' q = None) -> d_at re s ph -> d_at re s' ph.
Proof.
  intros M. destruct ph as [| | | | |todo acc|todo| | |[u|e]]; cbn [d_at]; auto.
  - intros (A & B & C). split; [|auto]. intros f D N. apply A; [exact D|]. destruct (M (P ++ [f])); congruence.
  - intros (A & B). split; [|auto]. intros f D N. apply A; [exact D|]. destruct (M (P ++ [f])); congruence.
  - intros [A B]. split; [exact A|]. intros f D. destruct (M (P ++ [f])) as [X|X]; [rewrite X; auto|exact X].
  - intros [A B]. split; [exact A|]. intros f. destruct (M (P ++ [f])) as [X|X]; [rewrite X; auto|exact X].
  - intros [A B]. split; [intros f D; destruct (M (P ++ [f])) as [X|X]; [rewrite X; auto|exact X]|]. intro R. destruct (B R) as [X|X]; [left; destruct (M P); congruence|auto].
Qed.
Lemma left_dirs s a b : left_of s -> P = a ++ b -> b <> [] -> entry s a = Some Directory.
Proof.
  intros (_ & _ & L) E Nb. assert (E0 : entry s0 a = Some Directory) by (eapply prefix_dir; [exact Hok|rewrite <- E; exact Ep|exact Nb]).
  destruct (L a) as [->|[_ [X|(f & X & _)]]]; [exact E0| |]; exfalso.
  - rewrite X in E. apply (f_equal (@List.length _)) in E. rewrite app_length in E. destruct b; [congruence|cbn in E; lia].
  - rewrite X in E. apply (f_equal (@List.length _)) in E. rewrite !app_length in E. destruct b; [congruence|cbn in E; lia].
Qed.
Lemma left_P s : left_of s -> entry s P = Some Directory \/ entry s P = None.
Proof. intros (_ & _ & L). destruct (L P) as [->|[X _]]; auto. Qed.
Lemma left_res s x : left_of s -> resolve s x = resolve s0 x.
Proof. intros (_ & C & _). unfold resolve. now rewrite C. Qed.
Lemma left_missing s : left_of s -> entry s P = None -> missing s p = FileNotFoundError.
Proof.
  intros L E. destruct L as (K & L'). apply missing_child; [exact K| |]; rewrite (@left_res s p (conj K L')); fold P; [exact E|].
  destruct (exists_last Ne) as (l & a & X). rewrite X, removelast_last. apply (@left_dirs s l [a] (conj K L') X). discriminate.
Qed.
Lemma left_missing_child s f : left_of s -> good_name f -> entry s (P ++ [f]) = None -> missing s (join p f) = FileNotFoundError.
Proof.
  intros L G E. unfold missing. assert (Nj := join_nonempty p G). destruct (join p f) as [|x y] eqn:J; [reflexivity|]. rewrite <- J, (resolve_join s p G), (left_res p L). fold P.
  assert (T : through_file s [] (P ++ [f]) = false); [|now rewrite T]. apply through_none. cbn [app]. intros a b Hab Na c.
  destruct b as [|z b] using rev_ind; [rewrite app_nil_r in Hab; rewrite <- Hab; congruence|]. clear IHb. rewrite app_assoc in Hab. apply app_inj_tail in Hab as [Hab _].
  destruct b as [|u v]; [rewrite app_nil_r in Hab; rewrite <- Hab; destruct (left_P L); congruence|]. assert (Y : entry s a = Some Directory) by (apply (@left_dirs s a (u :: v) L Hab); discriminate). congruence.
Qed.
Lemma left_stat s : left_of s -> stat s p = entry s P.
Proof. intro L. assert (N : p <> []) by (intro X; rewrite X in S0; discriminate S0). rewrite (stat_dir s N); rewrite (left_res p L); [reflexivity|exact (left_P L)]. Qed.
Lemma left_children s f : left_of s -> entry s (P ++ [f]) <> None -> entry s (P ++ [f]) = entry s0 (P ++ [f]).
Proof. intros (_ & _ & L) N. destruct (L (P ++ [f])) as [E|[E _]]; [exact E|congruence]. Qed.
Lemma doomed_match f c : entry s0 (P ++ [f]) = Some (RegFile c) -> (f = init_py \/ startswith (basename p) f = true) -> doomed s0 p f.
Proof. intros E M. exists c. split; [exact E|]. destruct M as [M|M]; [auto|]. right. now apply startswith_spec. Qed.
Lemma d_step_left re s ph : left_of s -> d_at re s ph -> let '(s1, ph1) := j_delete p re s ph in
  left_of s1 /\ d_at re s1 ph1 /\ (forall q, entry s1 q = entry s q \/ entry s1 q = None).
Proof.
  intros L D. assert (L' := L). destruct L' as (K & Cw & V).
  destruct ph as [| | | | |todo acc|todo| | |r]; try contradiction; cbn [j_delete]; cbn [d_at] in D.
  - unfold listdir. rewrite (left_stat L). destruct (left_P L) as [E|E]; rewrite E; (split; [exact L|]); (split; [|auto]); cbn [d_at].
    + rewrite (left_res p L). fold P. split; [intros f _ N; left; now apply children_in|]. split; [|intros f []].
      intros f If. split; [now apply (@children_good s P f K)|]. apply (children_in P f K) in If. now rewrite <- (left_children _ L If).
    + now apply left_missing.
  - destruct todo as [|f todo]; (split; [exact L|]); (split; [|auto]); cbn [d_at]; destruct D as (A & B & C).
    + split; [|exact C]. intros f Df N. now destruct (A f Df N) as [[]|X].
    + assert (Gf := B f (or_introl eq_refl)). destruct Gf as [Gf N0]. unfold isfile. rewrite (stat_join s p Gf), (left_res p L). fold P.
      split.
      * intros g Dg N. destruct (A g Dg N) as [[<-|X]|X]; [right|left; exact X|right; apply in_app_iff; now left].
        apply in_app_iff. right. assert (Eg := left_children _ L N). destruct Dg as (c & Ec & M). fold P in Ec. rewrite Eg, Ec. cbn [andb].
        destruct M as [->|M]; [rewrite str_eqb_refl, orb_true_r; now left|]. apply startswith_spec in M. rewrite M. now left.
      * split; [intros g Ig; apply B; now right|]. intros g Ig. apply in_app_iff in Ig as [Ig|Ig]; [now apply C|].
        destruct (_ || _) eqn:Ch; [|destruct Ig]. destruct Ig as [<-|[]]. split; [exact Gf|]. apply orb_true_iff in Ch as [Ch|Ch].
        -- apply andb_true_iff in Ch as [Fi Sw]. destruct (entry s (P ++ [f])) as [[c|]|] eqn:E; try discriminate. apply (@doomed_match f c); [|now right].
           rewrite <- (left_children f L); [exact E|congruence].
        -- apply str_eqb_eq in Ch. subst f. destruct (entry s0 (P ++ [init_py])) as [[c|]|] eqn:E; [|congruence|congruence]. apply (@doomed_match init_py c E). now left.
  - destruct D as (A & B). destruct todo as [|f todo].
    + assert (All : forall f, doomed s0 p f -> entry s (P ++ [f]) = None) by (intros f Df; destruct (entry s (P ++ [f])) eqn:E; [exfalso; apply (A f Df); congruence|reflexivity]).
      destruct re; (split; [exact L|]); (split; [|auto]); cbn [d_at]; [auto|]. split; [exact All|discriminate].
    + destruct (B f (or_introl eq_refl)) as [Gf Df]. unfold remove. rewrite (stat_join s p Gf), (resolve_join s p Gf), (left_res p L). fold P.
      destruct (entry s (P ++ [f])) as [[c|]|] eqn:E.
      * assert (M : forall q, entry (drop_ents (path_eqb (P ++ [f])) s) q = entry s q \/ entry (drop_ents (path_eqb (P ++ [f])) s) q = None).
        { intro q. rewrite (entry_drop_one s q (@snoc_neq _ P f)). destruct (path_eqb _ q); auto. }
        split; [|split; [|exact M]].
        -- split; [now apply (@ok_drop_file s _ c K)|]. split; [exact Cw|]. intro q. rewrite (entry_drop_one s q (@snoc_neq _ P f)). destruct (path_eqb (P ++ [f]) q) eqn:Q; [|apply V].
           apply path_eqb_eq in Q. subst q. right. split; [reflexivity|]. right. eauto.
        -- cbn [d_at]. split; [|intros g Ig; apply B; now right]. intros g Dg N. rewrite (entry_drop_one s _ (@snoc_neq _ P f)) in N. destruct (path_eqb (P ++ [f]) (P ++ [g])) eqn:Q; [congruence|].
           destruct (A g Dg N) as [<-|X]; [rewrite path_eqb_refl in Q; discriminate|exact X].
      * exfalso. destruct Df as (c & Ec & _). fold P in Ec. rewrite (left_children f L) in E; congruence.
      * split; [exact L|]. split; [|auto]. cbn [d_at]. now apply left_missing_child.
  - destruct D as (R & A). unfold listdir. rewrite (left_stat L). destruct (left_P L) as [E|E]; rewrite E.
    + rewrite (left_res p L). fold P. destruct (children s P) as [|x y] eqn:C; (split; [exact L|]); (split; [|auto]); cbn [d_at].
      * split; [exact R|]. intro f. destruct (entry s (P ++ [f])) eqn:Ef; [|reflexivity]. exfalso. assert (X : In f (children s P)) by (apply children_in; [exact K|congruence]). rewrite C in X. destruct X.
      * split; [exact A|]. intros _. right. assert (X : entry s (P ++ [x]) <> None) by (apply (children_in P x K); rewrite C; now left). exists x. split; [now rewrite <- (left_children _ L X)|]. intro Dx. now apply X, A.
    + split; [exact L|]. split; [|auto]. cbn [d_at]. now apply left_missing.
  - destruct D as (R & A). unfold rmdir. rewrite (left_stat L). destruct (left_P L) as [E|E]; rewrite E.
    + rewrite (left_res p L). fold P. destruct Rm as [_ Rd]. assert (Nd : str_eqb (last (filter (fun x => negb (str_eqb x [])) (pieces p)) []) dot = false) by now apply str_eqb_neq. rewrite Nd.
      assert (C : children s P = []). { destruct (children s P) as [|x y] eqn:C; [reflexivity|]. exfalso. assert (X : In x (children s P)) by (rewrite C; now left). apply (children_in P x K) in X. now apply X. }
      assert (Z : match P with [] => (s, Err IOError) | _ :: _ => match children s P with [] => (drop_ents (path_eqb P) s, Ok tt) | _ :: _ => (s, Err OSErrorNotEmpty) end end = (drop_ents (path_eqb P) s, Ok tt)) by (rewrite C; assert (N := Ne); destruct P; [congruence|reflexivity]).
      assert (Z' : match P with [] => (s, Err IOError) | s1 :: l => match children s (s1 :: l) with [] => (drop_ents (path_eqb (s1 :: l)) s, Ok tt) | _ :: _ => (s, Err OSErrorNotEmpty) end end = (drop_ents (path_eqb P) s, Ok tt)) by (rewrite <- Z; destruct P; reflexivity).
      rewrite Z'. assert (M : forall q, entry (drop_ents (path_eqb P) s) q = entry s q \/ entry (drop_ents (path_eqb P) s) q = None).
      { intro q. rewrite (entry_drop_one s q Ne). destruct (path_eqb P q); auto. }
      split; [|split; [|exact M]].
      * split; [apply ok_drop; [exact K|destruct P; [now destruct Ne|reflexivity]|intros q a Q X; exfalso; apply path_eqb_eq in Q; subst q; now apply X]|]. split; [exact Cw|].
        intro q. rewrite (entry_drop_one s q Ne). destruct (path_eqb P q) eqn:Q; [|apply V]. apply path_eqb_eq in Q. subst q. right. auto.
      * cbn [d_at]. split; [|intros _; left; now rewrite (entry_drop_one s P Ne), path_eqb_refl]. intros f _. rewrite (entry_drop_one s _ Ne). destruct (path_eqb _ _); auto.
    + split; [exact L|]. split; [|auto]. cbn [d_at]. now apply left_missing.
  - split; [exact L|]. split; [exact D|auto].
Qed.
Lemma C121_deleters_section jobs sched : (forall j, In j jobs -> exists re, j = JDelete p re) ->
  let w := w_run sched (w_start s0 jobs) in
  left_of (w_fs w) /\ forall q, In q (w_procs w) -> exists re, p_job q = JDelete p re /\ d_at re (w_fs w) (p_phase q).
Proof.
  intros J w. apply (w_run_ind (fun w => left_of (w_fs w) /\ forall q, In q (w_procs w) -> exists re, p_job q = JDelete p re /\ d_at re (w_fs w) (p_phase q))).
  - intros w' i [L A]. unfold w_step. destruct (nth_error (w_procs w') i) as [q|] eqn:E; [|auto]. destruct (A q (nth_error_In _ _ E)) as (re & Jq & D). rewrite Jq. cbn [j_step].
    assert (X := @d_step_left re _ _ L D). destruct (j_delete p re (w_fs w') (p_phase q)) as [s1 ph1]. destruct X as (L1 & D1 & M). cbn [w_fs w_procs]. split; [exact L1|].
    intros r Ir. apply in_put in Ir as [->|Ir]; [exists re; auto|]. destruct (A r Ir) as (re' & Jr & Dr). exists re'. split; [exact Jr|]. now apply (@d_at_mono re' (w_fs w') s1 _ M).
  - split; [split; [exact Hok|auto]|]. intros q Iq. unfold w_start in Iq. cbn in Iq. apply in_map_iff in Iq as (j & <- & Ij). destruct (J j Ij) as [re ->]. exists re. cbn. auto.
Qed.
End Deleters.
Lemma C121_deleters_lemma s0 p jobs sched : fs_ok s0 -> let P := resolve s0 p in stat s0 p = Some Directory -> entry s0 (P ++ [init_py]) <> Some Directory -> removable s0 p ->
  (forall j, In j jobs -> exists re, j = JDelete p re) ->
  let w := w_run sched (w_start s0 jobs) in let s := w_fs w in
  (forall q, entry s q = entry s0 q \/ (entry s q = None /\ ((exists f, q = P ++ [f] /\ doomed s0 p f) \/ (q = P /\ forall f, entry s0 (P ++ [f]) <> None -> doomed s0 p f)))) /\
  (forall q e, In q (w_procs w) -> p_phase q = Done (Err e) -> e = FileNotFoundError) /\
  (forall q re, In q (w_procs w) -> p_job q = JDelete p re -> p_phase q = Done (Ok tt) ->
     (forall f, doomed s0 p f -> entry s (P ++ [f]) = None) /\ (re = true -> (forall f, entry s0 (P ++ [f]) <> None -> doomed s0 p f) -> entry s P = None)).
Proof.
  intros Hok P S0 Hi Rm J w s. destruct (@C121_deleters_section s0 p Hok S0 Hi Rm jobs sched J) as [L A]. fold w in L, A. fold s in L. assert (L' := L). destruct L' as (K & Cw & V). fold P in V. split.
  - intro q. destruct (V q) as [E|[E X]]; [auto|]. right. split; [exact E|]. destruct X as [->|X]; [|auto]. right. split; [reflexivity|]. intros f N.
    assert (Z : entry s (P ++ [f]) = None) by (apply (entry_child_none P f K); congruence). destruct (V (P ++ [f])) as [Y|[_ [Y|(g & Y & Dg)]]]; [congruence| |].
    + exfalso. symmetry in Y. revert Y. apply snoc_longer.
    + apply app_inj_tail in Y as [_ ->]. exact Dg.
  - split.
    + intros q e Iq Ph. destruct (A q Iq) as (re & _ & D). rewrite Ph in D. exact D.
    + intros q re Iq Jq Ph. destruct (A q Iq) as (re' & Jq' & D). rewrite Jq in Jq'. injection Jq' as <-. rewrite Ph in D. destruct D as [D1 D2]. split; [exact D1|].
      intros R All. destruct (D2 R) as [X|(f & X & Y)]; [exact X|]. exfalso. now apply Y, All.
Qed.
(** [C121_remove_all_restart]: an rmtree that died part-way, whatever it had removed *)
Lemma drop_twice f g s : (forall q, f q = true -> g q = true) -> drop_ents g (drop_ents f s) = drop_ents g s.
Proof.
  intro H. unfold drop_ents. cbn. f_equal. induction (f_ent s) as [|[q n] l IH]; cbn; [reflexivity|].
  destruct (f q) eqn:F; cbn; [rewrite (H q F); exact IH|]. destruct (g q); cbn; [exact IH|now rewrite IH].
Qed.
Lemma under_self P : under P P = false.
Proof. destruct (under P P) eqn:E; [|reflexivity]. apply under_spec in E as (a & t & E). rewrite <- (app_nil_r P) in E at 1. apply app_inv_head in E. discriminate. Qed.
Lemma C121_remove_all_restart_lemma s p f re : stat s p = Some Directory -> (forall q, f q = true -> under (resolve s p) q = true) ->
  delete_dbmodule (drop_ents f s) p re true = delete_dbmodule s p re true.
Proof.
  intros E H. assert (N : forall q, under (resolve s p) q = false -> f q = false) by (intros q X; destruct (f q) eqn:F; [rewrite (H q F) in X; discriminate|reflexivity]).
  assert (Fn : f [] = false) by (apply N; destruct (resolve s p); reflexivity).
  assert (E' : stat (drop_ents f s) p = Some Directory).
  { assert (X := @stat_entry s p Directory E). unfold stat. rewrite resolve_drop, entry_drop by exact Fn. rewrite (N _ (under_self _)), X. destruct p; [discriminate|reflexivity]. }
  unfold delete_dbmodule, rmtree. rewrite E, E', resolve_drop, drop_twice by exact H. reflexivity.
Qed.
