(** C116: objects changed in place *)
From Verif Require Import Base BaseFacts Value SpecMap Txn Connection ConnHistory InPlace.
Set Implicit Arguments.

Lemma with_id_bound id v m : bound m id v (with_id id (Some v) m).
Proof. split; unfold with_id; [now rewrite str_eqb_refl|]. intros j N. destruct (str_eqb j id) eqn:E; auto. apply str_eqb_eq in E. congruence. Qed.
Lemma with_id_removed id m : removed m id (with_id id None m).
Proof. split; unfold with_id; [now rewrite str_eqb_refl|]. intros j N. destruct (str_eqb j id) eqn:E; auto. apply str_eqb_eq in E. congruence. Qed.
Lemma same_refl m : same m m.
Proof. intros j. reflexivity. Qed.
Lemma map_sem_call c m : map_call m c (fst (map_sem c m)) (snd (map_sem c m)).
Proof.
  destruct c as [id v|id v|id|id d|i]; cbn.
  - destruct (m id) eqn:E; cbn; [eapply mc_exists; eauto using same_refl|apply mc_create; auto using with_id_bound].
  - apply mc_update, with_id_bound.
  - destruct (m id) eqn:E; cbn; [apply mc_delete; auto using with_id_removed|apply mc_nothing; auto using same_refl].
  - apply mc_read, same_refl.
  - destruct i as [id|ids|]; cbn.
    + destruct (m id) eqn:E; [now apply mc_item; auto using same_refl|apply mc_noitem; auto using same_refl].
    + destruct (existsb _ ids) eqn:E.
      * apply mc_items; [|apply same_refl]. apply existsb_exists in E. destruct E as (x & Hx & Hv). apply Exists_exists. exists x. split; auto. destruct (m x); congruence.
      * apply mc_noitems; [|apply same_refl]. apply Forall_forall. intros x Hx. destruct (m x) eqn:Ex; auto. exfalso.
        assert (T : existsb (fun id => match m id with Some _ => true | None => false end) ids = true) by (apply existsb_exists; exists x; rewrite Ex; auto). congruence.
    + apply mc_index, same_refl.
Qed.
Lemma map_sem_err c m e : snd (map_sem c m) = Err e -> fst (map_sem c m) = m.
Proof. destruct c as [i v|i v|i|i d|[i|l|]]; cbn; try discriminate; try reflexivity; destruct (m i); cbn; try discriminate; reflexivity. Qed.
(** a call changes only the entries it is said to change *)
Lemma writes_only c m id : ~ In id (writes c m) -> fst (map_sem c m) id = m id.
Proof.
  assert (W : forall i v, i <> id -> with_id i v m id = m id).
  { intros i v N. unfold with_id. destruct (str_eqb id i) eqn:E; auto. apply str_eqb_eq in E. congruence. }
  destruct c as [i v|i v|i|i d|x]; cbn; intros H.
  - destruct (m i); cbn in *; [reflexivity|apply W; tauto].
  - apply W. tauto.
  - destruct (m i); cbn in *; [apply W; tauto|reflexivity].
  - reflexivity.
  - destruct x; reflexivity.
Qed.
Lemma known_in_spec id l : known_in id l = true <-> In id l.
Proof.
  unfold known_in. rewrite existsb_exists. split; [intros (x & H & E); apply str_eqb_eq in E; congruence|]. intros H. exists id. split; auto. apply str_eqb_refl.
Qed.

Section Facts.
Variables (near : nat -> pystr -> bool) (skips : bool).
Notation touched := (touched near).
Notation i_commit := (i_commit near).
Notation i_abort := (i_abort near).
Notation do_iop := (do_iop near skips).
Notation do_iops := (do_iops near skips).

Lemma touched_dirty c id : In id (i_dirty c) -> touched c id = true.
Proof. unfold InPlace.touched. intros H. destruct (i_dirty c) eqn:E; [easy|]. rewrite (proj2 (known_in_spec _ _) H). reflexivity. Qed.
Lemma touched_clean c id : i_dirty c = [] -> touched c id = false.
Proof. unfold InPlace.touched. now intros ->. Qed.

(** what a commit and an abort do to each id *)
Lemma commit_law c id : let c' := i_commit c in
  (i_disk c' id = i_disk c id \/ i_disk c' id = i_mem c id) /\ (In id (i_dirty c) -> i_disk c' id = i_mem c id) /\ (i_dirty c = [] -> i_disk c' id = i_disk c id) /\ i_mem c' id = i_mem c id.
Proof.
  cbn. split; [destruct (touched c id); auto|]. split; [intros H; now rewrite touched_dirty|]. split; [intros H; now rewrite touched_clean|reflexivity].
Qed.

(** ** Nothing is noticed *)
Definition quiet (o : iop) : Prop := match o with IHop (HCall c) => conn_is_read c = true | IHop _ | IChange _ _ | IEvict _ => True | ISame _ => False end.
Lemma quiet_step o c : i_dirty c = [] -> quiet o -> i_dirty (fst (do_iop o c)) = [] /\ forall id, i_disk (fst (do_iop o c)) id = i_disk c id.
Proof.
  intros D Q. destruct o as [[cmd|a|f| |b]|id f|id|dr]; cbn in Q |- *; try tauto; auto.
  - rewrite Q. auto.
  - destruct b; cbn; auto. split; auto. intros id. now rewrite touched_clean.
Qed.
Lemma quiet_session ops : forall c, i_dirty c = [] -> Forall quiet ops -> forall id, i_disk (fst (do_iops ops c)) id = i_disk c id.
Proof.
  induction ops as [|o ops IH]; intros c D Q id; [reflexivity|]. inversion Q as [|x l Q1 Q2]; subst. cbn. destruct (quiet_step o c D Q1) as [D1 E1].
  destruct (do_iop o c) as [c1 r]. cbn in D1, E1. specialize (IH c1 D1 Q2 id). destruct (do_iops ops c1). cbn in *. now rewrite IH.
Qed.

(** ** Giving the object back, and giving another one *)
Lemma same_back c id f v : i_dirty c = [] -> i_auto c = true -> i_mem c id = Some v ->
  let c' := fst (do_iops [IChange id f; ISame id] c) in
  snd (do_iops [IChange id f; ISame id] c) = [Ok (RVal (f v))] /\ i_mem c' id = Some (f v) /\
  (skips = true -> forall j, i_disk c' j = i_disk c j) /\ (skips = false -> i_disk c' id = Some (f v)).
Proof.
  intros D A M. cbn. unfold i_auto_call. cbn. rewrite A. cbn. unfold i_same. cbn.
  rewrite str_eqb_refl, M. cbn. unfold InPlace.touched. cbn. rewrite D. cbn.
  destruct skips; cbn; rewrite ?str_eqb_refl, ?M, ?D; cbn; split; auto; split; auto; split; auto; try congruence.
Qed.
Lemma other_back c id f v w : i_dirty c = [] -> i_auto c = true -> i_mem c id = Some v ->
  let c' := fst (do_iops [IChange id f; IHop (HCall (CUpdate id w))] c) in
  snd (do_iops [IChange id f; IHop (HCall (CUpdate id w))] c) = [Ok (RVal (f v))] /\ i_mem c' id = Some w /\ i_disk c' id = Some w.
Proof.
  intros D A M. cbn. unfold i_auto_call. cbn. rewrite A. cbn. unfold get, with_id. cbn. rewrite D. cbn.
  rewrite !str_eqb_refl, M. cbn. auto.
Qed.

(** ** Sessions without changes in place *)
Definition erase (o : iop) : list hop := match o with IHop h => [h] | _ => [] end.
Definition by_value (o : iop) : Prop := match o with IHop _ | IEvict _ => True | _ => False end.
(** entries that were not written in this transaction are as committed *)
Definition settled (c : icon) : Prop := forall id, ~ In id (i_dirty c) -> i_mem c id = i_disk c id.
Lemma settled_call cmd c : settled c -> settled (fst (i_call cmd c)).
Proof.
  intros S id. unfold i_call. pose proof (@writes_only cmd (i_mem c) id) as W. destruct (map_sem cmd (i_mem c)) as [m r]. cbn in *.
  intros N. rewrite in_app_iff in N. rewrite W by tauto. apply S. tauto.
Qed.
Lemma commit_same c : settled c -> same (i_mem c) (i_disk (i_commit c)).
Proof.
  intros S id. cbn. destruct (touched c id) eqn:T; auto. symmetry. apply S. intros H. now rewrite (touched_dirty _ _ H) in T.
Qed.
Lemma abort_same c : settled c -> same (i_disk c) (i_mem (i_abort c)).
Proof.
  intros S id. cbn. destruct (touched c id) eqn:T; auto. apply S. intros H. now rewrite (touched_dirty _ _ H) in T.
Qed.
End Facts.

Lemma map_call_ext m m2 c m' r : same m m2 -> map_call m c m' r -> map_call m2 c m' r.
Proof.
  intros S H. assert (G : forall d i, get m d i = get m2 d i) by (intros d i; unfold get; now rewrite S).
  assert (SS : forall x, same m x -> same m2 x) by (intros x E j; now rewrite E, S).
  destruct H as [id v m' E B|id v w m' E B|id v m' B|id w m' E B|id m' E B|id d m' B|id w m' E B|id m' E B|ids m' E B|ids m' E B|m' B].
  - apply mc_create; [now rewrite S|]. destruct B as [B1 B2]. split; auto. intros j N. rewrite B2 by auto. now rewrite S.
  - eapply mc_exists; [rewrite S; eauto|auto].
  - rewrite G. apply mc_update. destruct B as [B1 B2]. split; auto. intros j N. rewrite B2 by auto. now rewrite S.
  - apply mc_delete; [now rewrite S|]. destruct B as [B1 B2]. split; auto. intros j N. rewrite B2 by auto. now rewrite S.
  - apply mc_nothing; [now rewrite S|auto].
  - rewrite G. now apply mc_read, SS.
  - apply mc_item; [now rewrite S|auto].
  - apply mc_noitem; [now rewrite S|auto].
  - replace (map (get m VNone) ids) with (map (get m2 VNone) ids) by (apply map_ext; intros i; now rewrite G). apply mc_items; auto. eapply Exists_impl; [|exact E]. cbn. intros i. now rewrite S.
  - apply mc_noitems; auto. eapply Forall_impl; [|exact E]. cbn. intros i. now rewrite S.
  - now apply mc_index, SS.
Qed.
Lemma map_history_ext w s a ops rs : map_history w s a ops rs -> forall w2 s2, same w w2 -> same s s2 -> map_history w2 s2 a ops rs.
Proof.
  induction 1 as [w s a|w w' s a c r ops rs R C H IH|w s s' c r ops rs R C H IH|w w' s c r ops rs R C H IH|w s a a' ops rs H IH|w s a f ops rs H IH|w s a ops rs H IH|w s a ops rs H IH|w s a ops rs H IH]; intros w2 s2 Sw Ss.
  - constructor.
  - eapply mh_read; eauto using map_call_ext. apply IH; auto. apply same_refl.
  - eapply mh_commit; eauto using map_call_ext.
  - eapply mh_pending; eauto using map_call_ext. apply IH; auto. apply same_refl.
  - apply mh_auto. now apply IH.
  - apply mh_reopen. now apply IH.
  - apply mh_enter. now apply IH.
  - apply mh_exit. now apply IH.
  - apply mh_abort. now apply IH.
Qed.

Lemma same_sym m m2 : same m m2 -> same m2 m.
Proof. intros S j. now rewrite S. Qed.
Lemma by_value_session near skips ops : forall c, settled c -> Forall by_value ops ->
  map_history (i_mem c) (i_disk c) (i_auto c) (flat_map erase ops) (snd (do_iops near skips ops c)).
Proof.
  induction ops as [|o ops IH]; intros c S Q; [constructor|]. inversion Q as [|x l Q1 Q2]; subst x l. cbn.
  destruct o as [h|id f|id|dr]; cbn in Q1; try tauto.
  - destruct h as [cmd|a|f| |b]; cbn.
    + destruct (conn_is_read cmd) eqn:R; cbn.
      * specialize (IH c S Q2). destruct (do_iops near skips ops c) as [c2 rs]. cbn in *. eapply mh_read; eauto. pose proof (map_sem_call cmd (i_mem c)) as C.
        assert (E : fst (map_sem cmd (i_mem c)) = i_mem c) by (destruct cmd as [| | | |[]]; cbn in R |- *; congruence). now rewrite E in C.
      * unfold i_auto_call. destruct (i_auto c) eqn:A.
        -- set (c0 := i_set_auto false (i_abort near c)). assert (S0 : settled c0) by (intros j _; exact (abort_same near S j)).
           pose proof (settled_call cmd S0) as S1. pose proof (map_sem_call cmd (i_mem c0)) as C.
           assert (E : i_mem (fst (i_call cmd c0)) = fst (map_sem cmd (i_mem c0)) /\ snd (i_call cmd c0) = snd (map_sem cmd (i_mem c0)) /\ i_disk (fst (i_call cmd c0)) = i_disk c0) by (unfold i_call; destruct (map_sem cmd (i_mem c0)); auto).
           destruct E as (E1 & E2 & E3). destruct (i_call cmd c0) as [c1 r] eqn:EC. cbn [fst snd] in *.
           assert (CD : map_call (i_disk c) cmd (fst (map_sem cmd (i_mem c0))) r) by (rewrite E2; eapply map_call_ext; [|exact C]; apply same_sym; exact (abort_same near S)).
           destruct r as [x|e]; cbn.
           ++ set (c2 := i_set_auto true (i_commit near c1)). assert (S2 : settled c2) by (intros j _; symmetry; exact (commit_same near S1 j)). specialize (IH c2 S2 Q2).
              destruct (do_iops near skips ops c2) as [c3 rs]. cbn [snd app] in *. eapply mh_commit; [exact R|exact CD|]. eapply map_history_ext; [exact IH| |].
              ** intros j. change (fst (map_sem cmd (i_mem c0)) j = i_mem c1 j). now rewrite E1.
              ** intros j. change (fst (map_sem cmd (i_mem c0)) j = if touched near c1 j then i_mem c1 j else i_disk c1 j). rewrite <- E1. destruct (touched near c1 j) eqn:T; [reflexivity|]. apply S1. intros HI. now rewrite (touched_dirty near _ _ HI) in T.
           ++ set (c2 := i_set_auto true (i_abort near c1)). assert (S2 : settled c2) by (intros j _; exact (abort_same near S1 j)). specialize (IH c2 S2 Q2).
              destruct (do_iops near skips ops c2) as [c3 rs]. cbn [snd app] in *.
              assert (EM : fst (map_sem cmd (i_mem c0)) = i_mem c0) by (eapply map_sem_err; symmetry; exact E2).
              rewrite EM in CD. eapply mh_commit; [exact R|exact CD|]. eapply map_history_ext; [exact IH| |].
              ** intros j. unfold c2. cbn. destruct (touched near c1 j); [rewrite E3; cbn|rewrite E1, EM; reflexivity]. destruct (touched near c j) eqn:T; auto. apply S. intros HI. now rewrite (touched_dirty near _ _ HI) in T.
              ** intros j. unfold c2. cbn. rewrite E3. cbn. destruct (touched near c j) eqn:T; auto. apply S. intros HI. now rewrite (touched_dirty near _ _ HI) in T.
        -- pose proof (settled_call cmd S) as S1. pose proof (map_sem_call cmd (i_mem c)) as C. unfold i_call in *. destruct (map_sem cmd (i_mem c)) as [m r]. cbn [fst snd] in *.
           specialize (IH _ S1 Q2). cbn [i_mem i_disk i_auto] in IH. destruct (do_iops near skips ops _) as [c3 rs]. cbn [snd app] in *. rewrite A in IH. eapply mh_pending; eauto.
    + apply mh_auto. specialize (IH (i_set_auto a c) S Q2). destruct (do_iops near skips ops _). exact IH.
    + apply mh_reopen. assert (S1 : settled (mkI (i_disk c) (i_disk c) [] true (i_n c))) by (intros j _; reflexivity). specialize (IH _ S1 Q2). destruct (do_iops near skips ops _). exact IH.
    + apply mh_enter. assert (S1 : settled (i_set_auto false (i_abort near c))) by (intros j _; exact (abort_same near S j)). specialize (IH _ S1 Q2). destruct (do_iops near skips ops _). cbn [snd app] in *.
      eapply map_history_ext; [exact IH| |apply same_refl]. apply same_sym. exact (abort_same near S).
    + destruct b.
      * apply mh_abort. assert (S1 : settled (i_set_auto true (i_abort near c))) by (intros j _; exact (abort_same near S j)). specialize (IH _ S1 Q2). destruct (do_iops near skips ops _). cbn [snd app] in *.
        eapply map_history_ext; [exact IH| |apply same_refl]. apply same_sym. exact (abort_same near S).
      * apply mh_exit. assert (S1 : settled (i_set_auto true (i_commit near c))) by (intros j _; symmetry; exact (commit_same near S j)). specialize (IH _ S1 Q2). destruct (do_iops near skips ops _). cbn [snd app] in *.
        eapply map_history_ext; [exact IH|apply same_refl|]. apply same_sym. exact (commit_same near S).
  - cbn. set (c1 := mkI (fun j => if dr j && negb (touched near c j) then i_disk c j else i_mem c j) (i_disk c) (i_dirty c) (i_auto c) (i_n c)).
    assert (E : same (i_mem c1) (i_mem c)).
    { intros j. unfold c1. cbn. destruct (dr j && negb (touched near c j))%bool eqn:T; auto. apply andb_prop in T. destruct T as [_ T]. apply S. intros HI. rewrite (touched_dirty near _ _ HI) in T. discriminate. }
    assert (S1 : settled c1) by (intros j N; rewrite <- (E j); now apply S). specialize (IH c1 S1 Q2). destruct (do_iops near skips ops c1). cbn [snd app] in *. eapply map_history_ext; [exact IH|exact E|apply same_refl].
Qed.
