(** Facts about VocabMut.v *)
From Coq Require Import String.
From Verif Require Import Base BaseFacts Dict DictFacts Duration DateTime Url JsonData VocabTables Vocab VocabFacts VocabStore VocabConstruct VocabLinks VocabMut.
Open Scope list_scope.

Section Facts.
Variable netloc_ok : pystr -> bool.
Variable nd : N -> option N.
Variable email : pystr -> res bool.
Notation create_link := (create_link netloc_ok nd email).
Notation assign := (assign netloc_ok nd email).
Notation norm := (norm netloc_ok nd).
Notation change_from := (change_from netloc_ok nd email).

(** an attribute of an object of models.py *)
Definition raw_of (c : cname) (a : dict value) (n : pystr) : value := match peek false c a n with Some v => v | None => VNone end.
Lemma property_plain c n : In n (property_set true c) -> n <> py "__namespace__" -> plain n = true.
Proof.
  intros H Hn. destruct (plain_type c n) eqn:E.
  - unfold plain_type in E. apply andb_true_iff in E as [E _]. apply str_eqb_eq in E. subst n. reflexivity.
  - destruct (property_set_prop c n H Hn E) as (p & R & _). pose proof (row_okn n p R) as X. destruct (row_in n p R) as [_ <-]. unfold row_ok in X. repeat (apply andb_true_iff in X as [X ?]). assumption.
Qed.
Definition accepted (c : cname) (n : pystr) (v : value) : res value := norm true c n v (create_link true v).
Lemma change_from_ok orig c names : NoDup names -> (forall n, In n names -> n <> py "__namespace__" -> plain n = true) -> forall ov attrs ov' b r, change_from orig c names ov attrs = (ov', b, r) ->
  (forall k, ~ In k (map (key true c) (filter (fun n => negb (str_eqb n (py "__namespace__"))) names)) -> d_get k b = d_get k attrs) /\
  (r = None -> ov' = (if mem_str (py "__namespace__") names then c :: ov else ov) /\ forall n, In n names -> n <> py "__namespace__" ->
     (exists w, accepted c n (raw_of c orig n) = Ok w /\ d_get (key true c n) b = Some w) \/ (accepted c n (raw_of c orig n) = Err AttributeError /\ d_get (key true c n) b = d_get (key true c n) attrs)) /\
  (forall e, r = Some e -> e <> AttributeError /\ (ov' = ov \/ ov' = c :: ov) /\ exists n, In n names /\ n <> py "__namespace__" /\ accepted c n (raw_of c orig n) = Err e).
Proof.
  induction names as [|n names IH]; intros Hnd Hpl ov attrs ov' b r E; cbn [VocabMut.change_from] in E.
  - assert (ov' = ov /\ b = attrs /\ r = None) as (-> & -> & ->) by (repeat split; congruence). split; [reflexivity|]. split; [intros _; split; [reflexivity|intros n []]|discriminate].
  - apply NoDup_cons_iff in Hnd as [Hn Hnd]. cbn [filter mem_str existsb]. fold (mem_str (py "__namespace__") names).
    destruct (str_eqb n (py "__namespace__")) eqn:En.
    + apply str_eqb_eq in En. subst n. cbn [negb]. destruct (IH Hnd (fun m Hm => Hpl m (or_intror Hm)) _ _ _ _ _ E) as (I1 & I2 & I3).
      assert (Hm : mem_str (py "__namespace__") names = false) by (destruct (mem_str (py "__namespace__") names) eqn:Em; [apply mem_str_in in Em; contradiction|reflexivity]).
      split; [exact I1|]. split.
      * intros Hr. destruct (I2 Hr) as [J1 J2]. unfold mem_str at 1. cbn [existsb]. rewrite str_eqb_refl. cbn [orb]. rewrite Hm in J1. split; [exact J1|]. intros m [<-|Hm'] Hne; [contradiction|now apply J2].
      * intros e Hr. destruct (I3 e Hr) as (J1 & J2 & m & J3 & J4 & J5). split; [exact J1|]. split; [|exists m; repeat split; auto; now right].
        clear - E Hm Hn Hr. subst r. right. revert attrs E. induction names as [|k names IHn]; intros attrs E; cbn [VocabMut.change_from] in E; [discriminate|]. unfold mem_str in Hm. cbn [existsb] in Hm. apply orb_false_iff in Hm as [H1 H2].
        destruct (str_eqb k (py "__namespace__")) eqn:Ek; [rewrite str_eqb_sym in H1; congruence|]. assert (Hn' : ~ In (py "__namespace__") names) by (intros X; apply Hn; now right).
        destruct (assign true c attrs k _) as [a|e0]; [exact (IHn Hn' H2 _ E)|destruct e0; try (assert (ov' = c :: ov) by congruence; assumption); exact (IHn Hn' H2 _ E)].
    + cbn [negb map]. assert (Hne : n <> py "__namespace__") by (intros ->; rewrite str_eqb_refl in En; discriminate). rewrite assign_norm in E. fold (raw_of c orig n) in E. fold (accepted c n (raw_of c orig n)) in E.
      assert (Hkey : ~ In (key true c n) (map (key true c) (filter (fun m => negb (str_eqb m (py "__namespace__"))) names))).
      { intros X. apply in_map_iff in X as (m & X1 & X2). apply filter_In in X2 as [X2 X3]. apply negb_true_iff in X3. assert (m <> py "__namespace__") by (intros ->; rewrite str_eqb_refl in X3; discriminate).
        apply key_inj in X1; [subst m; contradiction|apply Hpl; [now right|assumption]|apply Hpl; [now left|exact Hne]]. }
      assert (Hmem : mem_str (py "__namespace__") (n :: names) = mem_str (py "__namespace__") names) by (unfold mem_str; cbn [existsb]; rewrite str_eqb_sym, En; reflexivity).
      assert (Hskip : forall a, (forall k, k <> key true c n -> d_get k a = d_get k attrs) -> change_from orig c names ov a = (ov', b, r) ->
        ((exists w, accepted c n (raw_of c orig n) = Ok w /\ d_get (key true c n) a = Some w) \/ (accepted c n (raw_of c orig n) = Err AttributeError /\ d_get (key true c n) a = d_get (key true c n) attrs)) ->
        (forall k, ~ (key true c n = k \/ In k (map (key true c) (filter (fun n => negb (str_eqb n (py "__namespace__"))) names))) -> d_get k b = d_get k attrs) /\
        (r = None -> ov' = (if mem_str (py "__namespace__") (n :: names) then c :: ov else ov) /\ forall m, In m (n :: names) -> m <> py "__namespace__" ->
           (exists w, accepted c m (raw_of c orig m) = Ok w /\ d_get (key true c m) b = Some w) \/ (accepted c m (raw_of c orig m) = Err AttributeError /\ d_get (key true c m) b = d_get (key true c m) attrs)) /\
        (forall e, r = Some e -> e <> AttributeError /\ (ov' = ov \/ ov' = c :: ov) /\ exists m, In m (n :: names) /\ m <> py "__namespace__" /\ accepted c m (raw_of c orig m) = Err e)).
      { intros a Ha Ec Hacc. destruct (IH Hnd (fun m Hm => Hpl m (or_intror Hm)) _ _ _ _ _ Ec) as (I1 & I2 & I3). split; [|split].
        - intros k Hk. rewrite I1 by (intros X; apply Hk; now right). apply Ha. intros ->. apply Hk. now left.
        - intros Hr. destruct (I2 Hr) as [J1 J2]. rewrite Hmem. split; [exact J1|]. intros m [<-|Hm] Hmne.
          + rewrite (I1 _ Hkey). exact Hacc.
          + destruct (J2 m Hm Hmne) as [X|[X1 X2]]; [now left|right]. split; [exact X1|]. rewrite X2. apply Ha. intros X. apply Hkey. rewrite <- X. apply in_map. apply filter_In. split; [exact Hm|]. destruct (str_eqb m (py "__namespace__")) eqn:Y; [apply str_eqb_eq in Y; contradiction|reflexivity].
        - intros e Hr. destruct (I3 e Hr) as (J1 & J2 & m & J3 & J4 & J5). split; [exact J1|]. split; [exact J2|]. exists m. split; [now right|]. auto. }
      destruct (accepted c n (raw_of c orig n)) as [w|e] eqn:Ew.
      * apply (Hskip (d_set (key true c n) w attrs)); [intros k Hk; now rewrite d_get_set_other by exact Hk|exact E|left; exists w; split; [reflexivity|apply d_get_set_same]].
      * assert (Hstop : e <> AttributeError -> (ov', b, r) = (ov, attrs, Some e) -> (forall k, ~ (key true c n = k \/ In k (map (key true c) (filter (fun n => negb (str_eqb n (py "__namespace__"))) names))) -> d_get k b = d_get k attrs) /\
          (r = None -> ov' = (if mem_str (py "__namespace__") (n :: names) then c :: ov else ov) /\ forall m, In m (n :: names) -> m <> py "__namespace__" ->
           (exists w, accepted c m (raw_of c orig m) = Ok w /\ d_get (key true c m) b = Some w) \/ (accepted c m (raw_of c orig m) = Err AttributeError /\ d_get (key true c m) b = d_get (key true c m) attrs)) /\
          (forall e0, r = Some e0 -> e0 <> AttributeError /\ (ov' = ov \/ ov' = c :: ov) /\ exists m, In m (n :: names) /\ m <> py "__namespace__" /\ accepted c m (raw_of c orig m) = Err e0)).
        { intros Hea X. assert (ov' = ov /\ b = attrs /\ r = Some e) as (-> & -> & ->) by (repeat split; congruence). split; [reflexivity|]. split; [discriminate|]. intros e0 Hr. assert (e = e0) as -> by congruence. split; [exact Hea|]. split; [now left|]. exists n. split; [now left|]. auto. }
        destruct e; try (apply Hstop; [discriminate|congruence]). apply (Hskip attrs); [reflexivity|exact E|right; auto].
Qed.
End Facts.
