(** packages as a whole: properties after mapping, outcomes *)
From Coq Require Import String Permutation.
From Verif Require Import Base BaseFacts Dict DictFacts PyClass PyClassFacts Kamino KaminoOrder KaminoFacts KaminoMro KaminoAttrs KaminoExact KaminoResolve KaminoDone KaminoMarks KaminoNames Package PackageFacts PackageInit.
Open Scope list_scope.

Section Thms.
Variables P V : Type.
Notation world := (world P V).
Notation attr := (attr P V).
Variable wrap_prop : P -> P.
Variable wrap_call : V -> V.
Variables package_ref none_ref : V.
Variable show : nat -> attr -> pystr.
Notation own := (own P V).
Notation get_namespace := (get_namespace P V show).
Notation get_namespaces := (get_namespaces P V show).
Notation link_property := (link_property P V none_ref).
Notation link_mapping := (link_mapping P V none_ref).
Notation link_seq := (link_seq P V none_ref).
Notation perform_mapping := (perform_mapping P V none_ref).
Notation refresh_all := (refresh_all P V).
Notation clone_class := (clone_class P V wrap_prop wrap_call package_ref).
Notation clone_nodes := (clone_nodes P V wrap_prop wrap_call package_ref).
Notation clone_classes := (clone_classes P V wrap_prop wrap_call package_ref).
Notation package_init := (package_init P V wrap_prop wrap_call package_ref none_ref show).
Notation prepare := (prepare P V wrap_prop wrap_call package_ref show).
Notation prepared := (prepared P V wrap_prop wrap_call show).
Notation quiet := (quiet P V).
Notation proper := (proper P V).
Notation cached := (cached P V).
Notation name_of := (name_of P V).
Notation gp := (py "__get_properties__").
Notation gpn := (py "__get_property_name__").
Notation pn := (py "__property_name__").
Notation pp := (py "__properties__").
Notation rg := (py "__registration__").
Notation pk := (py "__jsonld_package__").

(** ** no property has a reserved name *)
Definition clean (w : world) : Prop := forall a n, reserved n -> (forall p, own w a n <> Some (AProp p)) /\ own w a pn <> Some (AStr n).
Lemma clean_set w c n v : clean w -> (reserved n -> forall p, v <> AProp p) -> (n = pn -> forall s, v = AStr s -> ~ reserved s) -> clean (set_attr w c n v).
Proof.
  intros H H1 H2 a x Hx. destruct (H a x Hx) as [A B]. destruct (Nat.lt_ge_cases c (List.length w)) as [Hc|Hc]; [|rewrite set_attr_out by exact Hc; split; assumption].
  split.
  - intros p. destruct (Nat.eq_dec a c) as [->|Ha]; [|rewrite own_set_other by (now left); apply A]. destruct (str_dec x n) as [->|Hn]; [|rewrite own_set_other by (now right); apply A]. rewrite own_set_same by exact Hc. intros E. injection E as E. exact (H1 Hx p E).
  - destruct (Nat.eq_dec a c) as [->|Ha]; [|rewrite own_set_other by (now left); exact B]. destruct (str_dec pn n) as [<-|Hn]; [|rewrite own_set_other by (now right); exact B]. rewrite own_set_same by exact Hc. intros E. injection E as E. exact (H2 eq_refl x E Hx).
Qed.
Lemma clean_lookup w c n p : clean w -> lookup w c n = Some (AProp p) -> ~ reserved n.
Proof. intros H E Hr. apply find_attr_some in E as (a & _ & Ea). apply (proj1 (H a n Hr) p Ea). Qed.
Lemma clean_name w c s : clean w -> name_of w c s -> ~ reserved s.
Proof. intros H E Hr. apply find_attr_some in E as (a & _ & Ea). apply (proj2 (H a s Hr) Ea). Qed.
Lemma special_reserved n : special n -> reserved n. Proof. now left. Qed.
Lemma clean_get_property_name w c : clean w -> dicts P V w -> clean (fst (get_property_name P V w c)).
Proof.
  intros H Hd. unfold get_property_name. destruct (lookup w c pn) as [a|]; [destruct a; exact H|]. destruct (filter _ _) as [|[n a] [|? ?]] eqn:E; try exact H. cbn [fst]. apply clean_set; [exact H|discriminate|].
  intros _ s Es Hr. injection Es as <-. assert (Hi : In (n, a) (filter (fun x => is_prop P V (snd x)) (c_attrs (get_cls w c)))) by (rewrite E; now left). apply filter_In in Hi as [Hi Hp]. apply is_prop_spec in Hp as [p Hp]. cbn in Hp. subst a.
  apply (proj1 (H c n Hr) p). unfold KaminoAttrs.own. apply d_get_nodup; [apply Hd|exact Hi].
Qed.
Lemma clean_wrap_names l : forall w k, clean w -> (forall n p, In (n, AProp p) l -> ~ reserved n) -> clean (wrap_names P V wrap_prop w k l).
Proof.
  induction l as [|[n a] l IH]; intros w k H Hl; [exact H|]. destruct a; cbn [wrap_names]; try (apply IH; [exact H|intros x q Hx; apply (Hl x q); now right]).
  apply IH; [|intros x q Hx; apply (Hl x q); now right]. apply clean_set; [exact H| |discriminate]. intros Hr. exfalso. apply (Hl n p (or_introl eq_refl) Hr).
Qed.
Lemma get_all_in w c names n a : In (n, a) (get_all P V w c names) -> lookup w c n = Some a.
Proof. intros H. apply in_flat_map in H as (x & _ & H). destruct (lookup w c x) eqn:E; [|destruct H]. destruct H as [H|[]]. congruence. Qed.
Lemma d_merge_one_in {A} (d : dict A) n (a : A) x b : In (x, b) (d_merge d [(n, a)]) -> In (x, b) d \/ (x = n /\ b = a).
Proof. cbn. induction d as [|[k v] d IH]; cbn; [intros [H|[]]; right; split; congruence|]. destruct (str_eqb n k) eqn:E; cbn; intros [H|H]; auto; [apply str_eqb_eq in E; subst; right; split; congruence|]. destruct (IH H); auto. Qed.
Lemma clean_wrap_properties w k : clean w -> dicts P V w -> clean (fst (wrap_properties P V wrap_prop w k)).
Proof.
  intros H Hd. unfold wrap_properties. unfold get_properties.
  remember (if has P V w k "__get_properties__" then (set_attr w k pp (ANames (property_names P V w k)), property_names P V w k) else (w, [])) as x1 eqn:E1. destruct x1 as [w1 names].
  assert (H1 : clean w1 /\ dicts P V w1). { destruct (has P V w k "__get_properties__"); injection E1 as -> ->; [|split; assumption]. split; [apply clean_set; [exact H|discriminate|discriminate]|now apply dicts_set]. }
  clear E1. destruct H1 as [H1 D1]. destruct (has P V w1 k "__get_property_name__").
  - pose proof (clean_get_property_name w1 k H1 D1) as H2. destruct (get_property_name P V w1 k) as [w2 r]. cbn [fst] in H2. destruct r as [name|e]; [|exact H2]. destruct (lookup w2 k name) as [a|] eqn:Ea; [|exact H2]. cbn [fst].
    apply clean_wrap_names; [exact H2|]. intros n p Hi. apply d_merge_one_in in Hi as [Hi|[-> <-]]; [|now apply (clean_lookup w2 k name p)]. apply get_all_in in Hi. now apply (clean_lookup w1 k n p).
  - cbn [fst]. apply clean_wrap_names; [exact H1|]. intros n p Hi. apply get_all_in in Hi. now apply (clean_lookup w1 k n p).
Qed.
Lemma clean_clone_class w keys done c : proper w -> c < List.length w -> clean w -> clean (fst (clone_class w keys done c)).
Proof.
  intros [Hw Hd] Hc H. unfold Kamino.clone_class. destruct (new_class w (c_name (get_cls w c)) _ (c_attrs (get_cls w c))) as [[w1 k]|e] eqn:En; [|exact H].
  unfold new_class in En. destruct (has_dup _); [discriminate|]. destruct (c3 _) as [m|]; [|discriminate]. injection En as Ew1 Ek1. subst k.
  assert (Gk : c_attrs (get_cls w1 (List.length w)) = c_attrs (get_cls w c)) by (rewrite <- Ew1; unfold get_cls; rewrite app_nth2, Nat.sub_diag by lia; reflexivity).
  assert (Hl1 : List.length w1 = S (List.length w)) by (rewrite <- Ew1, app_length; cbn; lia).
  assert (G1 : forall d, d < List.length w -> get_cls w1 d = get_cls w d) by (intros d Hdl; rewrite <- Ew1; now apply get_app).
  set (kc := mkCls (c_name (get_cls w1 (List.length w))) (c_bases (get_cls w1 (List.length w))) (c_mro (get_cls w1 (List.length w))) (wrap_callables P V wrap_call (c_attrs (get_cls w1 (List.length w))))).
  remember (PyClass.set_nth (List.length w) kc w1) as w2 eqn:Ew2.
  assert (G2k : get_cls w2 (List.length w) = kc) by (rewrite Ew2; apply set_nth_same; lia).
  assert (G2o : forall d, d <> List.length w -> get_cls w2 d = get_cls w1 d) by (intros d Hne; rewrite Ew2; apply set_nth_other, Hne).
  assert (L2 : List.length w2 = List.length w1) by (rewrite Ew2; apply set_nth_length).
  assert (Hout : forall d, List.length w < d -> get_cls w2 d = mkCls [] [] [] []) by (intros d Hdl; apply get_out; lia).
  assert (Hd2 : dicts P V w2). { intros d. destruct (lt_eq_lt_dec d (List.length w)) as [[Hlt| ->]|Hgt]; [rewrite G2o, G1 by lia; apply Hd|rewrite G2k; unfold kc; cbn [c_attrs]; rewrite wrap_callables_keys, Gk; apply Hd|rewrite Hout by exact Hgt; constructor]. }
  assert (H2 : clean w2).
  { intros a n Hr. destruct (lt_eq_lt_dec a (List.length w)) as [[Hlt| ->]|Hgt].
    - unfold KaminoAttrs.own. rewrite G2o, G1 by lia. exact (H a n Hr).
    - unfold KaminoAttrs.own. rewrite G2k. unfold kc. cbn [c_attrs]. rewrite !wrap_callables_get, Gk. destruct (H c n Hr) as [A B]. unfold KaminoAttrs.own in *. split.
      + intros p. destruct (d_get n (c_attrs (get_cls w c))) as [v|]; [|discriminate]. destruct v; cbn; try discriminate. intros E. injection E as <-. exact (A p0 eq_refl).
      + destruct (d_get pn (c_attrs (get_cls w c))) as [v|]; [|discriminate]. destruct v; cbn; try discriminate. intros E. injection E as <-. exact (B eq_refl).
    - unfold KaminoAttrs.own. rewrite Hout by exact Hgt. cbn. split; discriminate. }
  clear Ew2. pose proof (clean_wrap_properties w2 (List.length w) H2 Hd2) as H3. destruct (wrap_properties P V wrap_prop w2 (List.length w)) as [w3 [u|e]]; [|exact H3]. cbn [fst] in *. apply clean_set; [exact H3|discriminate|discriminate].
Qed.
Lemma clean_clone_nodes w0 keys l : wf P V w0 -> dicts P V w0 -> (forall d, In d keys -> d < List.length w0) -> ok_order P V w0 keys l ->
  forall todo w done, cloned P V w0 keys done w -> dicts P V w -> map fst done ++ todo = l -> clean w -> forall w' done', clone_nodes w keys done todo = (w', Ok done') -> clean w'.
Proof using.
  intros Hw0 Hd0 Hkl Hl. induction todo as [|c todo IH]; intros w done Hc Hd El Hcl w' done'; cbn [Kamino.clone_nodes]; [intros E; assert (w' = w) by congruence; now subst|].
  pose proof Hl as (L1 & L2 & L3). assert (Hck : In c keys) by (apply L2; rewrite <- El; apply in_or_app; right; now left).
  assert (Hcn : ~ In c (map fst done)). { rewrite <- El in L1. apply NoDup_remove_2 in L1. intros H. apply L1. apply in_or_app. now left. }
  assert (Hcand : forall a, In a (candidates P V w0 keys c) -> In a (map fst done)) by (intros a Hac; eapply (ancestors_first P V w0 Hw0 keys Hkl l Hl); [symmetry; exact El|exact Hac]).
  assert (Hcw : c < List.length w) by (rewrite (cl_len _ _ _ _ _ _ Hc); specialize (Hkl c Hck); lia).
  pose proof (clean_clone_class w keys done c (conj (cl_wf _ _ _ _ _ _ Hc) Hd) Hcw Hcl) as H1.
  destruct (clone_class w keys done c) as [w1 [k|e]] eqn:E1; [|discriminate]. cbn [fst] in H1.
  destruct (cloned_step P V wrap_prop wrap_call package_ref w0 keys done w c w1 k Hw0 Hkl Hc Hck Hcn Hcand E1) as [Ek Hc1].
  destruct (clone_class_attrs P V wrap_prop wrap_call package_ref w0 keys done w c w1 k Hw0 Hd Hc (Hkl c Hck) E1) as [Hd1 _].
  apply IH; auto. rewrite map_app, <- app_assoc. exact El.
Qed.
Lemma clean_clone_classes w classes w' rf : proper w -> (forall c, In c classes -> c < List.length w) -> clean w -> clone_classes w classes = (w', Ok rf) -> clean w'.
Proof using.
  intros [Hw Hd] Hlt Hcl. unfold Kamino.clone_classes. set (keys := keys_of [] (sort_by_deps P V w classes)).
  assert (Hkn : NoDup keys) by apply keys_nodup. assert (Hki : forall c, In c keys <-> In c classes) by (intros c; apply keys_in).
  assert (Hkl : forall c, In c keys -> c < List.length w) by (intros c Hc; apply Hlt, Hki, Hc). clearbody keys.
  destruct (order_ok P V w Hw keys Hkn Hkl) as (l & El & Hl & Hperm). rewrite El.
  destruct (clone_nodes w keys [] l) as [w1 [done|e]] eqn:E1; [|discriminate]. intros E. assert (w' = w1) by congruence. subst w'.
  eapply (clean_clone_nodes w keys l Hw Hd Hkl Hl) with (todo := l) (w := w) (done := []); eauto. now apply cloned_start.
Qed.
Lemma clean_get_namespace w c : clean w -> dicts P V w -> clean (fst (get_namespace w c)).
Proof using.
  intros H Hd. unfold Package.get_namespace. destruct (lookup w c (py "__get_namespace__")) as [a|]; [|exact H]. destruct a as [| | | | |k|]; try exact H. destruct k as [|pre|pre]; try exact H.
  - destruct (find_owner P V w (mro w c) (py "type")) as [[o v]|]; [destruct v|]; exact H.
  - destruct (lookup w c gpn); [|exact H]. pose proof (clean_get_property_name w c H Hd) as H1. destruct (get_property_name P V w c) as [w1 [s|e]]; exact H1.
Qed.
Lemma clean_get_namespaces cs : forall w, clean w -> proper w -> (forall c, In c cs -> c < List.length w) -> clean (fst (get_namespaces w cs)).
Proof using.
  induction cs as [|c cs IH]; intros w H Hp Hlt; cbn [Package.get_namespaces]; [exact H|]. pose proof (clean_get_namespace w c H (proj2 Hp)) as H1. destruct (get_namespace w c) as [w1 r1] eqn:E1.
  destruct (get_namespace_quiet P V show w c w1 r1 Hp (Hlt c (or_introl eq_refl)) E1) as (Q1 & P1 & _). cbn [fst] in H1. destruct r1 as [x|e]; [|exact H1].
  assert (Hlt1 : forall d, In d cs -> d < List.length w1) by (intros d Hd; rewrite (proj1 (proj1 Q1)); apply Hlt; now right).
  specialize (IH w1 H1 P1 Hlt1). destruct (get_namespaces w1 cs) as [w2 [l|e]]; exact IH.
Qed.
Lemma clean_prepare w objects properties w5 x : proper w -> (forall c, In c objects -> c < List.length w) -> (forall c, In c properties -> c < List.length w) -> clean w ->
  prepare w objects properties = (w5, Ok x) -> clean w5.
Proof using.
  intros Hp Ho Hq Hcl. unfold PackageInit.prepare. destruct (clone_classes w objects) as [w1 r1] eqn:E1. destruct (clone_facts_hold P V wrap_prop wrap_call package_ref w objects w1 r1 Hp Ho E1) as [X1 F1].
  destruct r1 as [oref|e]; [|discriminate]. destruct F1 as [P1 F1]. pose proof (clean_clone_classes w objects w1 oref Hp Ho Hcl E1) as C1.
  assert (L1 : List.length w <= List.length w1). { destruct (Nat.le_gt_cases (List.length w) (List.length w1)) as [H|H]; [exact H|]. destruct (proper_mro P V w _ Hp H) as (m & Em & _). unfold mro in Em. rewrite <- X1 in Em by exact H. rewrite get_out in Em by lia. discriminate. }
  assert (R1 : forall k, In k (map snd oref) -> k < List.length w1) by (intros k Hk; now apply (f_vals _ _ _ _ _ _ _ _ F1)).
  pose proof (clean_get_namespaces _ w1 C1 P1 R1) as C2. destruct (get_namespaces w1 (map snd oref)) as [w2 r2] eqn:E2. cbn [fst] in C2. destruct (get_namespaces_quiet P V show (map snd oref) w1 w2 r2 P1 R1 E2) as (Q2 & P2 & _).
  destruct r2 as [l2|e]; [|discriminate]. assert (L2 : List.length w2 = List.length w1) by apply Q2.
  assert (Hq2 : forall c, In c properties -> c < List.length w2) by (intros c Hc; specialize (Hq c Hc); lia).
  destruct (clone_classes w2 properties) as [w3 r3] eqn:E3. destruct (clone_facts_hold P V wrap_prop wrap_call package_ref w2 properties w3 r3 P2 Hq2 E3) as [X3 F3].
  destruct r3 as [pref|e]; [|discriminate]. destruct F3 as [P3 F3]. pose proof (clean_clone_classes w2 properties w3 pref P2 Hq2 C2 E3) as C3.
  assert (L3 : List.length w2 <= List.length w3). { destruct (Nat.le_gt_cases (List.length w2) (List.length w3)) as [H|H]; [exact H|]. destruct (proper_mro P V w2 _ P2 H) as (m & Em & _). unfold mro in Em. rewrite <- X3 in Em by exact H. rewrite get_out in Em by lia. discriminate. }
  assert (R3 : forall k, In k (map snd pref) -> k < List.length w3) by (intros k Hk; now apply (f_vals _ _ _ _ _ _ _ _ F3)).
  pose proof (clean_get_namespaces _ w3 C3 P3 R3) as C4. destruct (get_namespaces w3 (map snd pref)) as [w4 r4] eqn:E4. cbn [fst] in C4. destruct (get_namespaces_quiet P V show (map snd pref) w3 w4 r4 P3 R3 E4) as (Q4 & P4 & _).
  destruct r4 as [l4|e]; [|discriminate]. assert (L4 : List.length w4 = List.length w3) by apply Q4.
  assert (RD : forall k, In k (map snd oref ++ map snd pref) -> k < List.length w4) by (intros k Hk; apply in_app_or in Hk as [Hk|Hk]; [specialize (R1 k Hk)|specialize (R3 k Hk)]; lia).
  pose proof (clean_get_namespaces _ w4 C4 P4 RD) as C5. destruct (get_namespaces w4 (map snd oref ++ map snd pref)) as [w5' r5]. cbn [fst] in C5. destruct r5 as [nss|e]; [|discriminate]. intros E. assert (w5 = w5') by congruence. now subst.
Qed.

(** ** refreshing the property lists *)
Lemma refresh_all_ok objs : forall w w' r, proper w -> (forall c, In c objs -> c < List.length w) -> refresh_all w objs = (w', r) ->
  loud P V w w' /\ proper w' /\ (forall a n, n <> pp -> own w' a n = own w a n) /\ (forall a, ~ In a objs -> own w' a pp = own w a pp) /\
  match r with
  | Err e => e = AttributeError /\ exists c, In c objs /\ lookup w c gp = None
  | Ok _ => (forall c, In c objs -> lookup w c gp <> None) /\ forall c, In c objs -> exists l, own w' c pp = Some (ANames l) /\ NoDup l /\ forall n, n <> pp -> (In n l <-> In n (property_names P V w c))
  end.
Proof using.
  induction objs as [|c objs IH]; intros w w' r Hp Hlt; cbn [Package.refresh_all].
  - intros E. assert (w' = w) by congruence. assert (r = Ok tt) by congruence. subst. split; [apply loud_refl|]. split; [exact Hp|]. split; [auto|]. split; [auto|]. split; intros ? [].
  - unfold has. destruct (lookup w c gp) as [g|] eqn:Eg.
    + cbn [fst get_properties]. set (w1 := set_attr w c pp (ANames (property_names P V w c))). intros E.
      assert (P1 : proper w1) by now apply proper_set. assert (Hlt1 : forall d, In d objs -> d < List.length w1) by (intros d Hd; unfold w1; rewrite set_attr_length; apply Hlt; now right).
      destruct (IH w1 w' r P1 Hlt1 E) as (L & Pp & O & N & R). assert (O1 : forall a n, n <> pp -> own w1 a n = own w a n) by (intros a n Hn; apply own_set_other; now right).
      assert (Hlk : forall d, lookup w1 d gp = lookup w d gp) by (intros d; apply lookup_set_other; discriminate).
      assert (Hpn : forall d n, n <> pp -> (In n (property_names P V w1 d) <-> In n (property_names P V w d))).
      { intros d n Hn. rewrite (property_names_in P V w1 d n (proj2 P1)), (property_names_in P V w d n (proj2 Hp)). assert (Em1 : mro w1 d = mro w d) by (unfold w1; apply mro_set). rewrite Em1. split; intros (a & p & Ha & Ea); exists a, p; (split; [exact Ha|]); [rewrite <- O1|rewrite O1]; auto. }
      split; [eapply loud_trans; [apply loud_set|exact L]|]. split; [exact Pp|]. split; [intros a n Hn; rewrite O, O1; auto|].
      split; [intros a Ha; rewrite N by (intros Hi; apply Ha; now right); apply own_set_other; left; intros ->; apply Ha; now left|].
      destruct r as [u|e].
      * destruct R as [R1 R2]. split; [intros d [<-|Hd]; [congruence|rewrite <- Hlk; now apply R1]|]. intros d Hd.
        destruct (in_dec Nat.eq_dec d objs) as [Hi|Hi].
        { destruct (R2 d Hi) as (l & A & B & C). exists l. split; [exact A|]. split; [exact B|]. intros n Hn. rewrite (C n Hn). now apply Hpn. }
        destruct Hd as [<-|Hd]; [|contradiction]. exists (property_names P V w c). split; [rewrite N by exact Hi; apply own_set_same, Hlt; now left|]. split; [apply dedup_nodup|reflexivity].
      * destruct R as [R1 (d & R2 & R3)]. split; [exact R1|]. exists d. split; [now right|now rewrite <- Hlk].
    + intros E. assert (w' = w) by congruence. assert (r = Err AttributeError) by congruence. subst. split; [apply loud_refl|]. split; [exact Hp|]. split; [auto|]. split; [auto|]. split; [reflexivity|]. exists c. split; [now left|exact Eg].
Qed.

(** ** a package that was built *)
Lemma package_built w s objects properties mapping w' p : proper w -> (forall c, In c objects -> c < List.length w) -> (forall c, In c properties -> c < List.length w) ->
  package_init w s objects properties mapping = (w', Ok p) -> exists m w5 w6 nss L, s = Some (p_namespace p) /\ mapping = Some m /\ p_mapping p = mapping /\ fixed P V (List.length w) w w5 /\ prepare w objects properties = (w5, Ok (p_object_ref p, p_property_ref p, nss)) /\
    prepared w objects properties (p_object_ref p) (p_property_ref p) nss w5 /\ p_ref p = ns_of (combine nss (p_objects p ++ p_properties p)) /\
    resolve (p_ref p) m = Some L /\ link_seq w5 L = (w6, Ok tt) /\ refresh_all w6 (p_objects p) = (w', Ok tt).
Proof using.
  intros Hp Ho Hq. destruct s as [s|]; [|discriminate]. rewrite package_init_prepare. destruct (prepare w objects properties) as [w5 r] eqn:E5. destruct (prepare_spec P V wrap_prop wrap_call package_ref show w objects properties w5 r Hp Ho Hq E5) as [X5 Hr].
  destruct r as [[[oref pref] nss]|e]; [|discriminate]. unfold Package.perform_mapping. destruct mapping as [m|]; [|discriminate].
  set (d := ns_of (combine nss (map snd oref ++ map snd pref))). pose proof (link_mapping_seq P V none_ref d m w5) as Hl.
  destruct (resolve d m) as [L|] eqn:EL.
  - rewrite Hl. destruct (link_seq w5 L) as [w6 [u|e]] eqn:E6; [|discriminate]. destruct u. destruct (refresh_all w6 (map snd oref)) as [w7 [u|e]] eqn:E7; [|discriminate]. destruct u.
    intros E. assert (w' = w7) by congruence. assert (p = mkPackage s oref pref d (Some m)) by congruence. subst w' p. exists m, w5, w6, nss, L. cbn [p_namespace p_object_ref p_property_ref p_ref p_mapping]. unfold p_objects, p_properties. cbn [p_object_ref p_property_ref].
    refine (conj eq_refl (conj eq_refl (conj eq_refl (conj X5 (conj eq_refl (conj Hr (conj eq_refl (conj EL (conj E6 E7))))))))).
  - destruct Hl as (e & He). destruct (link_mapping w5 d m) as [w6 [u|e']]; cbn [snd] in *; [discriminate|]. discriminate.
Qed.
Lemma prepared_all_cached w objects properties oref pref nss w5 : prepared w objects properties oref pref nss w5 -> all_cached P V (fun k => In k (map snd oref ++ map snd pref)) w5.
Proof using. intros H k Hk. split; [apply (r_range _ _ _ _ _ _ _ _ _ _ _ _ H k Hk)|]. exact (r_cached _ _ _ _ _ _ _ _ _ _ _ _ H k Hk). Qed.
Lemma resolve_values nss cs m L : resolve (ns_of (combine nss cs)) m = Some L -> forall q j, In (q, j) L -> In q cs /\ In j cs.
Proof using. intros H q j Hi. apply (resolve_in _ _ _ H) in Hi as (o & names & n & _ & _ & Hj & Hq). split; eapply ns_of_values; eassumption. Qed.
Lemma package_links w objects properties m w' p : proper w -> (forall c, In c objects -> c < List.length w) -> (forall c, In c properties -> c < List.length w) -> clean w ->
  package_init w (Some (p_namespace p)) objects properties (Some m) = (w', Ok p) -> exists w5 nss L,
    prepared w objects properties (p_object_ref p) (p_property_ref p) nss w5 /\ clean w5 /\ resolve (p_ref p) m = Some L /\ (forall q j, In (q, j) L -> In q (p_objects p ++ p_properties p) /\ In j (p_objects p ++ p_properties p)) /\
    loud P V w5 w' /\ proper w' /\ (forall q t, lookup w' q pn = Some (AStr t) <-> lookup w5 q pn = Some (AStr t)) /\
    (forall a n, n <> rg -> n <> pp -> a < List.length w5 -> ((forall q, In (q, a) L -> ~ name_of w5 q n) -> own w' a n = own w5 a n) /\ ((exists q, In (q, a) L /\ name_of w5 q n) -> exists x, own w' a n = Some (AProp x))) /\
    (exists w6, link_seq w5 L = (w6, Ok tt) /\ refresh_all w6 (p_objects p) = (w', Ok tt) /\ loud P V w5 w6 /\ proper w6).
Proof using.
  intros Hp Ho Hq Hcl E. destruct (package_built w (Some (p_namespace p)) objects properties (Some m) w' p Hp Ho Hq E) as (m' & w5 & w6 & nss & L & _ & Em & _ & X5 & E5 & Hr & Href & HL & E6 & E7). injection Em as <-.
  pose proof (clean_prepare w objects properties w5 _ Hp Ho Hq Hcl E5) as C5. exists w5, nss, L. split; [exact Hr|]. split; [exact C5|]. split; [exact HL|].
  assert (Hv : forall q j, In (q, j) L -> In q (p_objects p ++ p_properties p) /\ In j (p_objects p ++ p_properties p)) by (rewrite Href in HL; exact (resolve_values _ _ _ _ HL)). split; [exact Hv|].
  pose proof (r_proper _ _ _ _ _ _ _ _ _ _ _ _ Hr) as P5.
  destruct (link_seq_own P V none_ref (fun k => In k (p_objects p ++ p_properties p)) L w5 w6 P5 (prepared_all_cached _ _ _ _ _ _ _ Hr) (fun q j H => proj1 (Hv q j H)) (fun q s _ Hn => clean_name w5 q s C5 Hn) E6) as (L6 & P6 & A6 & N6 & O6).
  assert (Hlt6 : forall c, In c (p_objects p) -> c < List.length w6) by (intros c Hc; rewrite (proj1 (proj1 L6)); apply (r_range _ _ _ _ _ _ _ _ _ _ _ _ Hr); apply in_or_app; now left).
  destruct (refresh_all_ok (p_objects p) w6 w' (Ok tt) P6 Hlt6 E7) as (L7 & P7 & O7 & _ & _).
  split; [eapply loud_trans; eassumption|]. split; [exact P7|].
  split. { intros q t. rewrite <- (N6 q t). unfold PackageFacts.name_of. unfold lookup. rewrite (proj1 (proj2 (proj1 L7))). rewrite (find_attr_ext P V w6 w' (mro w6 q) pn); [reflexivity|]. intros a _. apply O7. discriminate. }
  split; [|exists w6; auto]. intros a n Hn1 Hn2 Ha. rewrite O7 by exact Hn2. now apply O6.
Qed.
Lemma package_properties w objects properties m w' p : proper w -> (forall c, In c objects -> c < List.length w) -> (forall c, In c properties -> c < List.length w) -> clean w ->
  package_init w (Some (p_namespace p)) objects properties (Some m) = (w', Ok p) -> forall c k n, In (c, k) (p_object_ref p) -> ~ reserved n ->
  (In n (property_names P V w' k) <-> In n (property_names P V w c) \/
    exists o names x j q, In (o, names) m /\ In x names /\ pkg_get p o = Some j /\ pkg_get p x = Some q /\ In j (mro w' k) /\ lookup w' q pn = Some (AStr n)) /\
  (exists l, own w' k pp = Some (ANames l) /\ NoDup l /\ (In n l <-> In n (property_names P V w' k))).
Proof using.
  intros Hp Ho Hq Hcl E c k n Hck Hn. destruct (package_links w objects properties m w' p Hp Ho Hq Hcl E) as (w5 & nss & L & Hr & C5 & HL & Hv & L' & P' & N' & O' & w6 & E6 & E7 & L6 & P6).
  assert (Hs : ~ special n) by (intros H; apply Hn; now left). assert (Hpp : n <> pp) by (intros ->; apply Hs; now left). assert (Hrg : n <> rg) by (intros ->; apply Hn; right; now left).
  pose proof (r_proper _ _ _ _ _ _ _ _ _ _ _ _ Hr) as P5. assert (Hk : In k (p_objects p)) by (unfold p_objects; change k with (snd (c, k)); now apply in_map).
  pose proof (r_range _ _ _ _ _ _ _ _ _ _ _ _ Hr k (in_or_app _ _ _ (or_introl Hk))) as Rk.
  assert (Em : mro w' k = mro w5 k) by apply (proj1 (proj2 (proj1 L'))). assert (Hml : forall a, In a (mro w5 k) -> a < List.length w5) by (intros a Ha; exact (proj2 (mro_lt P V w5 (proj1 P5) k a (proj2 Rk) Ha))).
  split.
  - rewrite <- (r_props _ _ _ _ _ _ _ _ _ _ _ _ Hr c k n Hck Hs). rewrite (property_names_in P V w' k n (proj2 P')), (property_names_in P V w5 k n (proj2 P5)), Em. split.
    + intros (a & x & Ha & Ea). destruct (classic_links P V L w5 a n) as [(q & Hi & Hnq)|Hno].
      * right. pose proof Hi as Hi'. apply (resolve_in _ _ _ HL) in Hi as (o & names & y & H1 & H2 & H3 & H4). exists o, names, y, a, q. repeat split; auto. now apply N'.
      * left. exists a, x. split; [exact Ha|]. destruct (O' a n Hrg Hpp (Hml a Ha)) as [O1 _]. now rewrite <- (O1 Hno).
    + intros [(a & x & Ha & Ea)|(o & names & y & j & q & H1 & H2 & H3 & H4 & H5 & H6)].
      * destruct (O' a n Hrg Hpp (Hml a Ha)) as [O1 O2]. destruct (classic_links P V L w5 a n) as [Hi|Hno]; [destruct (O2 Hi) as (x' & Hx'); eauto|]. exists a, x. split; [exact Ha|]. now rewrite (O1 Hno).
      * assert (Hi : In (q, j) L) by (apply (resolve_in _ _ _ HL); exists o, names, y; auto). destruct (O' j n Hrg Hpp (Hml j H5)) as [_ O2]. destruct O2 as (x & Hx); [exists q; split; [exact Hi|now apply N']|]. exists j, x. auto.
  - assert (Hlt6 : forall d, In d (p_objects p) -> d < List.length w6) by (intros d Hd; rewrite (proj1 (proj1 L6)); apply (r_range _ _ _ _ _ _ _ _ _ _ _ _ Hr); apply in_or_app; now left).
    destruct (refresh_all_ok (p_objects p) w6 w' (Ok tt) P6 Hlt6 E7) as (L7 & P7 & O7 & _ & _ & R7). destruct (R7 k Hk) as (l & H1 & H2 & H3). exists l. split; [exact H1|]. split; [exact H2|]. rewrite (H3 n Hpp).
    rewrite (property_names_in P V w6 k n (proj2 P6)), (property_names_in P V w' k n (proj2 P7)), (proj1 (proj2 (proj1 L7))). split; intros (a & x & Ha & Ea); exists a, x; (split; [exact Ha|]); [rewrite O7|rewrite <- O7]; auto.
Qed.

(** ** which definition a link installs *)
Lemma link_seq_reg D q0 s0 p0 L : forall w w', proper w -> all_cached P V D w -> (forall q j, In (q, j) L -> D q) -> (forall q s, D q -> name_of w q s -> ~ reserved s) ->
  name_of w q0 s0 -> own w q0 s0 = Some (AProp p0) -> (lookup w q0 rg = None \/ own w q0 rg = Some (AReg p0)) -> (forall q j, In (q, j) L -> j <> q0) -> (forall q j, In (q, j) L -> q = q0 \/ ~ In q (mro w q0)) ->
  link_seq w L = (w', Ok tt) -> forall j, In (q0, j) L -> (forall q, In (q, j) L -> name_of w q s0 -> q = q0) -> j < List.length w -> own w' j s0 = Some (AProp p0).
Proof using.
  induction L as [|[q i] L IH]; intros w w' Hp Hac HL Hres Hn Ho Hr Hj Hm; cbn [PackageFacts.link_seq]; [intros _ j []|].
  destruct (link_property w q i) as [w1 [u|e]] eqn:E1; [|discriminate]. destruct u. pose proof (HL q i (or_introl eq_refl)) as HDq. destruct (Hac q HDq) as [Hql Hqc]. specialize (Hqc (link_property_some_gpn _ _ _ _ _ _ _ _ E1)).
  destruct (link_step P V none_ref w q i w1 Hp Hql Hqc (fun s => Hres q s HDq) E1) as (s & p & Hs & L1 & P1 & N1 & O1 & R1 & R2 & R3 & R4). intros E2 j Hi Huniq Hjl.
  assert (Hlen : List.length w1 = List.length w) by apply (proj1 L1). assert (Hs0 : q = q0 -> s = s0) by (intros ->; unfold PackageFacts.name_of in *; congruence).
  assert (Hq0 : In (q0, j) ((q, i) :: L) -> D q0) by (intros H; apply (HL q0 j H)). specialize (Hq0 Hi). assert (Hr0 : ~ reserved s0) by now apply (Hres q0).
  assert (Hs0rg : s0 <> rg) by (intros ->; apply Hr0; right; now left).
  assert (Ho1 : own w1 q0 s0 = Some (AProp p0)) by (rewrite O1 by exact Hs0rg; assert (Nat.eqb q0 i = false) as -> by (apply Nat.eqb_neq; intros <-; apply (Hj q q0 (or_introl eq_refl)); reflexivity); exact Ho).
  destruct (proper_mro P V w q0 Hp (proj1 (Hac q0 Hq0))) as (m0 & Em0 & _).
  assert (Hlr : own w q0 rg = Some (AReg p0) -> lookup w q0 rg = Some (AReg p0)) by (intros H; rewrite (lookup_own P V w q0 m0) by exact Em0; now rewrite H).
  assert (Hr1 : (lookup w1 q0 rg = None \/ own w1 q0 rg = Some (AReg p0)) /\ (q = q0 -> p = p0)).
  { destruct (Nat.eq_dec q q0) as [->|Hne].
    - assert (Hpp : p = p0). { specialize (Hs0 eq_refl). subst s. destruct R1 as [R1|[[R1 R1']|[R1 R1']]].
        - destruct Hr as [Hr|Hr]; [|congruence]. rewrite (lookup_own P V w q0 m0) in Hr by exact Em0. rewrite R1 in Hr. discriminate.
        - rewrite (lookup_own P V w q0 m0) in R1' by exact Em0. rewrite Ho in R1'. congruence.
        - destruct Hr as [Hr|Hr]; congruence. }
      split; [|auto]. right. destruct Hr as [Hr|Hr]; [rewrite (R2 Hr), Hpp; reflexivity|]. rewrite R4 by (rewrite (Hlr Hr); discriminate). exact Hr.
    - split; [|intros; contradiction]. assert (Hnm : ~ In q (mro w q0)) by (destruct (Hm q i (or_introl eq_refl)); [contradiction|assumption]).
      destruct Hr as [Hr|Hr]; [left|right; rewrite R3 by congruence; exact Hr]. unfold lookup in *. rewrite (proj1 (proj2 (proj1 L1))). rewrite <- Hr. apply find_attr_ext. intros a Ha. apply R3. intros ->. contradiction. }
  destruct Hr1 as [Hr1 Hpq].
  assert (Hsg : s <> gpn) by (intros ->; apply (Hres q gpn HDq Hs); right; now right).
  assert (Hgpn : forall y, lookup w1 y gpn = lookup w y gpn).
  { intros y. unfold lookup. rewrite (proj1 (proj2 (proj1 L1))). apply find_attr_ext. intros a _. rewrite O1 by discriminate. assert (str_eqb gpn s = false) as -> by (apply str_eqb_neq; congruence). now rewrite andb_false_r. }
  assert (Hac1 : all_cached P V D w1) by (intros y Hy; rewrite Hgpn, Hlen; destruct (Hac y Hy) as [A B]; split; [exact A|]; intros C; destruct (B C) as (t & Ht); exists t; now apply N1).
  assert (HL1 : forall q j, In (q, j) L -> D q) by (intros a b H; apply (HL a b); now right).
  assert (Hres1 : forall q s, D q -> name_of w1 q s -> ~ reserved s) by (intros a t Ha Ht; apply (Hres a t Ha); now apply N1).
  destruct (in_dec (fun a b : nat * nat => ltac:(decide equality; apply Nat.eq_dec) : {a = b} + {a <> b}) (q0, j) L) as [Hin|Hin].
  - apply (IH w1 w' P1 Hac1 HL1 Hres1 (proj2 (N1 q0 s0) Hn) Ho1 Hr1 (fun a b H => Hj a b (or_intror H))); auto.
    + intros a b H. rewrite (proj1 (proj2 (proj1 L1))). apply (Hm a b). now right.
    + intros a Ha Hna. apply (Huniq a (or_intror Ha)). now apply N1.
    + lia.
  - destruct Hi as [Hi|Hi]; [|contradiction]. injection Hi as -> ->. specialize (Hs0 eq_refl). subst s. rewrite (Hpq eq_refl) in *.
    destruct (link_seq_own P V none_ref D L w1 w' P1 Hac1 HL1 Hres1 E2) as (_ & _ & _ & _ & O6). destruct (O6 j s0 Hs0rg ltac:(lia)) as [O7 _]. rewrite O7.
    + rewrite O1 by exact Hs0rg. rewrite Nat.eqb_refl, str_eqb_refl. apply Nat.ltb_lt in Hjl. now rewrite Hjl.
    + intros a Ha Hna. apply N1 in Hna. pose proof (Huniq a (or_intror Ha) Hna). subst a. contradiction.
Qed.
End Thms.
