(** packages as a whole: outcomes of building one, the definition a mapping installs, namespaces *)
From Coq Require Import String Permutation.
From Verif Require Import Base BaseFacts Dict DictFacts PyClass PyClassFacts Kamino KaminoOrder KaminoFacts KaminoMro KaminoAttrs KaminoExact KaminoResolve KaminoDone KaminoMarks KaminoNames Package PackageFacts PackageInit PackageThms.
Open Scope list_scope.

Section Out.
Variables P V : Type.
Notation world := (world P V).
Notation attr := (attr P V).
Variable wrap_prop : P -> P.
Variable wrap_call : V -> V.
Variables package_ref none_ref : V.
Variable show : nat -> attr -> pystr.
Notation own := (own P V).
Notation get_namespace := (get_namespace P V show).
Notation get_namespaces := (get_namespaces P V show).
Notation link_property := (link_property P V none_ref).
Notation link_names := (link_names P V none_ref).
Notation link_mapping := (link_mapping P V none_ref).
Notation link_seq := (link_seq P V none_ref).
Notation perform_mapping := (perform_mapping P V none_ref).
Notation refresh_all := (refresh_all P V).
Notation clone_classes := (clone_classes P V wrap_prop wrap_call package_ref).
Notation package_init := (package_init P V wrap_prop wrap_call package_ref none_ref show).
Notation prepare := (prepare P V wrap_prop wrap_call package_ref show).
Notation prepared := (prepared P V wrap_prop wrap_call show).
Notation proper := (proper P V).
Notation cached := (cached P V).
Notation name_of := (name_of P V).
Notation clean := (clean P V).
Notation gp := (py "__get_properties__").
Notation gpn := (py "__get_property_name__").
Notation pn := (py "__property_name__").
Notation pp := (py "__properties__").
Notation rg := (py "__registration__").
Notation pk := (py "__jsonld_package__").
Notation usual e := (e = TypeError \/ e = ValueError \/ e = AttributeError).

(** ** errors, and classes that existed before *)
Lemma get_property_name_err (w : world) c w' e : get_property_name P V w c = (w', Err e) -> usual e.
Proof using.
  unfold get_property_name. intros H. repeat (match type of H with context [match ?x with _ => _ end] => destruct x end); try (injection H as _ <-; auto); try discriminate.
Qed.
Lemma link_property_err (w : world) q j w' e : link_property w q j = (w', Err e) -> usual e.
Proof using.
  unfold Package.link_property, get_registration. destruct (lookup w q gpn); [|intros H; injection H as _ <-; auto]. destruct (get_property_name P V w q) as [w1 [s|e1]] eqn:E1; [|intros H; assert (e = e1) by congruence; subst; eauto using get_property_name_err].
  destruct (get_property_name P V w1 q) as [w2 [s2|e2]] eqn:E2; [|intros H; assert (e = e2) by congruence; subst; eauto using get_property_name_err].
  destruct (lookup w2 q rg) as [g|]; [destruct g; intros H; try discriminate; injection H as _ <-; auto|]. destruct (lookup w2 q s2) as [g|]; [destruct g|]; intros H; try discriminate; injection H as _ <-; auto.
Qed.
Lemma link_names_err d names j : forall (w : world) w' e, link_names w d names j = (w', Err e) -> usual e.
Proof using.
  induction names as [|n names IH]; intros w w' e; cbn [Package.link_names]; [discriminate|]. destruct (ns_get (Some n) d) as [q|]; [|intros H; injection H as _ <-; auto].
  destruct (link_property w q j) as [w1 [u|e1]] eqn:E1; [apply IH|]. intros H. assert (e = e1) by congruence. subst. eauto using link_property_err.
Qed.
Lemma link_mapping_err d m : forall (w : world) w' e, link_mapping w d m = (w', Err e) -> usual e.
Proof using.
  induction m as [|[o names] m IH]; intros w w' e; cbn [Package.link_mapping]; [discriminate|]. unfold link_properties. destruct (ns_get (Some o) d) as [j|]; [|intros H; injection H as _ <-; auto].
  destruct (link_names w d names j) as [w1 [u|e1]] eqn:E1; [apply IH|]. intros H. assert (e = e1) by congruence. subst. eauto using link_names_err.
Qed.
Lemma refresh_all_err objs : forall (w : world) w' e, refresh_all w objs = (w', Err e) -> e = AttributeError.
Proof using. induction objs as [|c objs IH]; intros w w' e; cbn [Package.refresh_all]; [discriminate|]. destruct (has P V w c "__get_properties__"); [apply IH|]. intros H. congruence. Qed.
Lemma package_init_general w ns objects properties m w' r : proper w -> (forall c, In c objects -> c < List.length w) -> (forall c, In c properties -> c < List.length w) ->
  package_init w ns objects properties m = (w', r) -> fixed P V (List.length w) w w' /\ match r with Err e => usual e | Ok p => ns = Some (p_namespace p) /\ m <> None end.
Proof using.
  intros Hp Ho Hq. destruct ns as [s|]; [|intros E; assert (w' = w) by (cbn in E; congruence); assert (r = Err TypeError) by (cbn in E; congruence); subst; split; [apply fixed_refl|auto]].
  rewrite package_init_prepare. destruct (prepare w objects properties) as [w5 r5] eqn:E5. destruct (prepare_spec P V wrap_prop wrap_call package_ref show w objects properties w5 r5 Hp Ho Hq E5) as [X5 Hr].
  destruct r5 as [[[oref pref] nss]|e]; [|intros E; assert (w' = w5) by congruence; assert (r = Err e) by congruence; subst; auto].
  set (d := ns_of (combine nss (map snd oref ++ map snd pref))).
  assert (Hd : forall x q, ns_get x d = Some q -> List.length w <= q) by (intros x q Hx; apply ns_of_values in Hx; now apply (r_range _ _ _ _ _ _ _ _ _ _ _ _ Hr)).
  assert (Hob : forall c, In c (map snd oref) -> List.length w <= c) by (intros c Hc; apply (r_range _ _ _ _ _ _ _ _ _ _ _ _ Hr); apply in_or_app; now left).
  unfold Package.perform_mapping. destruct m as [m|]; [|intros E; assert (w' = w5) by congruence; assert (r = Err AttributeError) by congruence; subst; auto].
  pose proof (link_mapping_fixed P V none_ref (List.length w) d m Hd w5) as X6. destruct (link_mapping w5 d m) as [w6 [u|e]] eqn:E6; cbn [fst] in X6.
  - pose proof (refresh_all_fixed P V (List.length w) (map snd oref) Hob w6) as X7. destruct (refresh_all w6 (map snd oref)) as [w7 [u'|e]] eqn:E7; cbn [fst] in X7.
    + intros E. assert (w' = w7) by congruence. assert (r = Ok (mkPackage s oref pref d (Some m))) by congruence. subst. split; [eapply fixed_trans; [exact X5|eapply fixed_trans; eassumption]|]. split; [reflexivity|discriminate].
    + intros E. assert (w' = w7) by congruence. assert (r = Err e) by congruence. subst. split; [eapply fixed_trans; [exact X5|eapply fixed_trans; eassumption]|]. right. right. eauto using refresh_all_err.
  - intros E. assert (w' = w6) by congruence. assert (r = Err e) by congruence. subst. split; [eapply fixed_trans; eassumption|]. eauto using link_mapping_err.
Qed.

(** ** combining *)
Lemma get_namespaces_len_quiet (w : world) cs w' r : proper w -> (forall c, In c cs -> c < List.length w) -> get_namespaces w cs = (w', r) -> proper w' /\ List.length w' = List.length w /\ match r with Err e => usual e | Ok l => True end.
Proof using. intros Hp Hc E. destruct (get_namespaces_quiet P V show cs w w' r Hp Hc E) as (Q & H1 & H2). split; [exact H1|]. split; [apply Q|]. destruct r; [exact I|]. destruct H2 as [H2|[H2|H2]]; auto. Qed.
Lemma keep_others_in cs nss removed c : In c (keep_others cs nss removed) -> In c cs.
Proof using. unfold keep_others. rewrite in_map_iff. intros ([x k] & <- & H). apply filter_In in H as [H _]. now apply in_combine_r in H. Qed.
Lemma pkg_combine_fails w self oo so op sp f w' r : proper w -> (forall c, In c (oo ++ so ++ op ++ sp) -> c < List.length w) -> (forall a b c, In c (f a b) -> In c a \/ In c b) ->
  pkg_combine P V wrap_prop wrap_call package_ref none_ref show w self oo so op sp f = (w', r) -> exists e, r = Err e /\ usual e.
Proof using.
  intros Hp Hl Hf. unfold pkg_combine.
  assert (H1 : forall c, In c oo -> c < List.length w) by (intros; apply Hl; rewrite !in_app_iff; auto). assert (H2 : forall c, In c so -> c < List.length w) by (intros; apply Hl; rewrite !in_app_iff; auto).
  assert (H3 : forall c, In c op -> c < List.length w) by (intros; apply Hl; rewrite !in_app_iff; auto). assert (H4 : forall c, In c sp -> c < List.length w) by (intros; apply Hl; rewrite !in_app_iff; auto).
  destruct (get_namespaces w oo) as [w1 r1] eqn:E1. destruct (get_namespaces_len_quiet w oo w1 r1 Hp H1 E1) as (P1 & L1 & R1). destruct r1 as [x1|e]; [|intros E; assert (r = Err e) by congruence; eauto]. rewrite <- L1 in H2, H3, H4.
  destruct (get_namespaces w1 so) as [w2 r2] eqn:E2. destruct (get_namespaces_len_quiet w1 so w2 r2 P1 H2 E2) as (P2 & L2 & R2). destruct r2 as [x2|e]; [|intros E; assert (r = Err e) by congruence; eauto]. rewrite <- L2 in H3, H4.
  destruct (get_namespaces w2 op) as [w3 r3] eqn:E3. destruct (get_namespaces_len_quiet w2 op w3 r3 P2 H3 E3) as (P3 & L3 & R3). destruct r3 as [x3|e]; [|intros E; assert (r = Err e) by congruence; eauto]. rewrite <- L3 in H4.
  destruct (get_namespaces w3 sp) as [w4 r4] eqn:E4. destruct (get_namespaces_len_quiet w3 sp w4 r4 P3 H4 E4) as (P4 & L4 & R4). destruct r4 as [x4|e]; [|intros E; assert (r = Err e) by congruence; eauto].
  intros E. apply package_init_general in E as [_ E]; [|exact P4| |].
  - destruct r as [p|e]; [destruct E as [_ E]; congruence|eauto].
  - intros c Hc. rewrite L4, L3, L2, L1. apply Hl. rewrite !in_app_iff. apply Hf in Hc as [Hc|Hc]; [apply keep_others_in in Hc|]; auto.
  - intros c Hc. rewrite L4, L3, L2, L1. apply Hl. rewrite !in_app_iff. apply Hf in Hc as [Hc|Hc]; [apply keep_others_in in Hc|]; auto.
Qed.

(** ** which mappings succeed *)
Definition linkable (w : world) (q : nat) : Prop :=
  q < List.length w /\ lookup w q gpn <> None /\ (exists s p, name_of w q s /\ ~ reserved s /\ lookup w q s = Some (AProp p)) /\ (lookup w q rg = None \/ exists p, lookup w q rg = Some (AReg p)).
Lemma set_lookup_none (w : world) c n v q x : lookup w q x <> None -> lookup (set_attr w c n v) q x <> None.
Proof using.
  intros H H1. apply H. unfold lookup in *. rewrite mro_set in H1. clear H. induction (mro w q) as [|a l IH]; [reflexivity|]. cbn [find_attr] in *.
  pose proof (own_set_mono P V w c n v a x) as Ho. unfold KaminoAttrs.own in Ho. destruct (d_get x (c_attrs (get_cls w a))); [|destruct (d_get x (c_attrs (get_cls (set_attr w c n v) a))); [discriminate|now apply IH]].
  destruct (d_get x (c_attrs (get_cls (set_attr w c n v) a))); [discriminate|]. exfalso. apply Ho; congruence.
Qed.
Lemma set_lookup_cases (w : world) c n v q : lookup (set_attr w c n v) q n = Some v \/ lookup (set_attr w c n v) q n = lookup w q n.
Proof using.
  unfold lookup. rewrite mro_set. induction (mro w q) as [|a l IH]; [now right|]. cbn [find_attr].
  destruct (Nat.eq_dec a c) as [->|Hn].
  - destruct (Nat.lt_ge_cases c (List.length w)) as [Hl|Hl].
    + pose proof (own_set_same P V w c n v Hl) as Ho. unfold KaminoAttrs.own in Ho. rewrite Ho. now left.
    + rewrite (set_attr_out P V) by exact Hl. now right.
  - pose proof (own_set_other P V w c n v a n (or_introl Hn)) as Ho. unfold KaminoAttrs.own in Ho. rewrite Ho. destruct (d_get n (c_attrs (get_cls w a))); [now right|exact IH].
Qed.
(** setting a property under its own name, or the cached functions of a property, keeps classes linkable *)
Lemma linkable_set_prop (w : world) c s p q : ~ reserved s -> linkable w q -> linkable (set_attr w c s (AProp p)) q.
Proof using.
  intros Hs (H1 & H2 & (s' & p' & H3 & H4 & H5) & H6). split; [now rewrite set_attr_length|]. split; [now apply set_lookup_none|].
  assert (N1 : pn <> s) by (intros <-; apply Hs; left; right; now left). assert (N2 : rg <> s) by (intros <-; apply Hs; right; now left).
  split; [|rewrite (lookup_set_other P V) by exact N2; exact H6]. exists s'. destruct (str_dec s' s) as [->|Hn].
  - destruct (set_lookup_cases w c s (AProp p) q) as [E|E]; eexists; (split; [unfold PackageFacts.name_of; rewrite (lookup_set_other P V) by exact N1; exact H3|]); (split; [exact H4|]); rewrite E; eauto.
  - exists p'. split; [unfold PackageFacts.name_of; rewrite (lookup_set_other P V) by exact N1; exact H3|]. split; [exact H4|]. now rewrite (lookup_set_other P V) by exact Hn.
Qed.
Lemma linkable_set_reg (w : world) c p q : linkable w q -> linkable (set_attr w c rg (AReg p)) q.
Proof using.
  intros (H1 & H2 & (s' & p' & H3 & H4 & H5) & H6). split; [now rewrite set_attr_length|]. split; [now apply set_lookup_none|].
  split; [exists s', p'; split; [unfold PackageFacts.name_of; rewrite (lookup_set_other P V) by discriminate; exact H3|]; split; [exact H4|]; rewrite (lookup_set_other P V); [exact H5|intros ->; apply H4; right; now left]|].
  destruct (set_lookup_cases w c rg (AReg p) q) as [E|E]; rewrite E; eauto.
Qed.
Lemma link_property_works (w : world) q j : proper w -> linkable w q -> exists w', link_property w q j = (w', Ok tt) /\ proper w' /\ (forall i, linkable w i -> linkable w' i) /\ List.length w' = List.length w /\ (forall i x, lookup w i x <> None -> lookup w' i x <> None).
Proof using.
  intros Hp (H1 & H2 & (s & p & H3 & H4 & H5) & H6). unfold Package.link_property, get_registration. destruct (lookup w q gpn) as [g|]; [|now destruct H2]. clear H2.
  assert (Eg : get_property_name P V w q = (w, Ok s)).
  { unfold get_property_name. unfold PackageFacts.name_of in H3. rewrite H3. reflexivity. }
  rewrite !Eg. destruct H6 as [H6|(p' & H6)]; rewrite H6.
  - rewrite H5. eexists. split; [reflexivity|]. split; [now apply proper_set, proper_set|]. split; [intros i Hi; now apply linkable_set_prop, linkable_set_reg|]. split; [now rewrite !set_attr_length|]. intros i x Hx. now apply set_lookup_none, set_lookup_none.
  - eexists. split; [reflexivity|]. split; [now apply proper_set|]. split; [intros i Hi; now apply linkable_set_prop|]. split; [now rewrite set_attr_length|]. intros i x Hx. now apply set_lookup_none.
Qed.
(** every class of a list of links is linkable: the links are made *)
Lemma link_names_works d names j : forall w : world, proper w -> (forall n q, In n names -> ns_get (Some n) d = Some q -> linkable w q) ->
  exists w', link_names w d names j = (w', match resolve_names d names j with Some _ => Ok tt | None => Err ValueError end) /\ proper w' /\ (forall i, linkable w i -> linkable w' i) /\ List.length w' = List.length w /\ (forall i x, lookup w i x <> None -> lookup w' i x <> None).
Proof using.
  induction names as [|n names IH]; intros w Hp Hl; cbn [Package.link_names resolve_names]; [exists w; auto|].
  destruct (ns_get (Some n) d) as [q|] eqn:En; [|exists w; auto].
  destruct (link_property_works w q j Hp (Hl n q (or_introl eq_refl) En)) as (w1 & E1 & P1 & K1 & L1 & M1). rewrite E1.
  destruct (IH w1 P1) as (w2 & E2 & P2 & K2 & L2 & M2); [intros x y Hx Hy; apply K1, (Hl x y); auto; now right|]. exists w2. rewrite E2. split; [now destruct (resolve_names d names j)|].
  split; [exact P2|]. split; [auto|]. split; [congruence|auto].
Qed.
Lemma link_mapping_works d m : forall w : world, proper w -> (forall o names n q, In (o, names) m -> In n names -> ns_get (Some n) d = Some q -> linkable w q) ->
  exists w', link_mapping w d m = (w', match resolve d m with Some _ => Ok tt | None => Err ValueError end) /\ proper w' /\ List.length w' = List.length w /\ (forall i x, lookup w i x <> None -> lookup w' i x <> None).
Proof using.
  induction m as [|[o names] m IH]; intros w Hp Hl; cbn [Package.link_mapping resolve]; [exists w; auto|]. unfold link_properties.
  destruct (ns_get (Some o) d) as [j|] eqn:Eo; [|exists w; auto].
  destruct (link_names_works d names j w Hp (fun n q => Hl o names n q (or_introl eq_refl))) as (w1 & E1 & P1 & K1 & L1 & M1). rewrite E1.
  destruct (resolve_names d names j) as [L|]; [|exists w1; auto].
  destruct (IH w1 P1) as (w2 & E2 & P2 & L2 & M2); [intros x y z t H1 H2 H3; apply K1, (Hl x y z t); auto; now right|]. exists w2. rewrite E2. split; [now destruct (resolve d m)|].
  split; [exact P2|]. split; [congruence|auto].
Qed.
Lemma refresh_all_works objs : forall w : world, (forall c, In c objs -> lookup w c gp <> None) -> exists w', refresh_all w objs = (w', Ok tt).
Proof using.
  induction objs as [|c objs IH]; intros w H; cbn [Package.refresh_all]; [eauto|]. unfold has. pose proof (H c (or_introl eq_refl)) as Hc. destruct (lookup w c gp); [|now destruct Hc].
  apply IH. intros d Hd. cbn [get_properties fst]. apply set_lookup_none, H. now right.
Qed.
Lemma refresh_all_needs objs : forall (w : world) w', refresh_all w objs = (w', Ok tt) -> forall c, In c objs -> lookup w c gp <> None.
Proof using.
  induction objs as [|c objs IH]; intros w w'; cbn [Package.refresh_all]; [intros _ c []|]. unfold has. destruct (lookup w c gp) eqn:E; [|discriminate]. cbn [get_properties fst]. intros E1 d [<-|Hd]; [congruence|].
  specialize (IH _ _ E1 d Hd). rewrite (lookup_set_other P V) in IH by discriminate. exact IH.
Qed.
(** a standalone property class: its clone is linkable *)
Lemma standalone_linkable w objects properties oref pref nss w5 c k : proper w -> clean w5 -> prepared w objects properties oref pref nss w5 -> In (c, k) pref -> standalone P V w properties c -> lookup w c rg = None -> linkable w5 k.
Proof using.
  intros Hp Hcl Hr Hck Hs Hrg. destruct (r_alone _ _ _ _ _ _ _ _ _ _ _ _ Hr c k Hck Hs) as (s & p & A & B & C).
  assert (Hk : In k (map snd oref ++ map snd pref)) by (apply in_or_app; right; change k with (snd (c, k)); now apply in_map).
  pose proof (r_range _ _ _ _ _ _ _ _ _ _ _ _ Hr k Hk) as Rk. split; [apply Rk|].
  pose proof (r_pvisible _ _ _ _ _ _ _ _ _ _ _ _ Hr c k) as Hv. split; [rewrite Hv; [apply Hs|exact Hck|intros H; repeat (destruct H as [H|H]; try discriminate)]|].
  destruct (proper_mro P V w5 k (r_proper _ _ _ _ _ _ _ _ _ _ _ _ Hr) (proj2 Rk)) as (m & Em & _).
  assert (Hn : ~ reserved s) by (intros H; apply (Hcl k s) in H; now destruct H).
  split; [|left; apply Hv; [exact Hck|intros H; repeat (destruct H as [H|H]; try discriminate)|exact Hrg]].
  exists s, (wrap_prop p). split; [unfold PackageFacts.name_of; rewrite (lookup_own P V w5 k m) by exact Em; now rewrite B|]. split; [exact Hn|].
  rewrite (lookup_own P V w5 k m) by exact Em. rewrite C; [reflexivity| |]; intros ->; apply Hn; left; [right; now right|right; now left].
Qed.
Lemma package_outcome w s objects properties m w0 p0 : proper w -> (forall c, In c objects -> c < List.length w) -> (forall c, In c properties -> c < List.length w) -> clean w ->
  (forall c, In c properties -> standalone P V w properties c /\ lookup w c rg = None) -> package_init w (Some s) objects properties (Some []) = (w0, Ok p0) ->
  (forall o names n q, In (o, names) m -> In n names -> pkg_get p0 n = Some q -> In q (p_properties p0)) ->
  exists w', package_init w (Some s) objects properties (Some m) = (w', match resolve (p_ref p0) m with Some _ => Ok (mkPackage s (p_object_ref p0) (p_property_ref p0) (p_ref p0) (Some m)) | None => Err ValueError end).
Proof using.
  intros Hp Ho Hq Hcl Hst E Hm. rewrite package_init_prepare in *. destruct (prepare w objects properties) as [w5 r5] eqn:E5. destruct (prepare_spec P V wrap_prop wrap_call package_ref show w objects properties w5 r5 Hp Ho Hq E5) as [X5 Hr].
  destruct r5 as [[[oref pref] nss]|e]; [|discriminate]. pose proof (clean_prepare P V wrap_prop wrap_call package_ref show w objects properties w5 _ Hp Ho Hq Hcl E5) as C5.
  set (d := ns_of (combine nss (map snd oref ++ map snd pref))) in *. unfold Package.perform_mapping in *. cbn [Package.link_mapping] in E. destruct (refresh_all w5 (map snd oref)) as [w6 [u|e]] eqn:E6; [|discriminate]. destruct u.
  assert (p0 = mkPackage s oref pref d (Some [])) by congruence. subst p0. cbn [p_object_ref p_property_ref p_ref]. unfold pkg_get, p_properties in Hm. cbn [p_ref p_property_ref] in Hm.
  destruct (link_mapping_works d m w5 (r_proper _ _ _ _ _ _ _ _ _ _ _ _ Hr)) as (w7 & E7 & P7 & L7 & M7).
  { intros o names n q H1 H2 H3. specialize (Hm o names n q H1 H2 H3). apply in_map_iff in Hm as ([c k] & <- & Hck). cbn [snd].
    assert (Hc : In c properties) by (apply (r_properties _ _ _ _ _ _ _ _ _ _ _ _ Hr); change c with (fst (c, k)); now apply in_map). destruct (Hst c Hc) as [S1 S2]. eapply standalone_linkable; eassumption. }
  rewrite E7. destruct (resolve d m) as [L|]; [|eauto]. pose proof (refresh_all_needs _ _ _ E6) as Hg. destruct (refresh_all_works (map snd oref) w7) as (w8 & E8); [intros c Hc; apply M7, Hg, Hc|]. rewrite E8. eauto.
Qed.
(** ** the definition a mapping installs *)
Lemma package_definition w objects properties m w' p : proper w -> (forall c, In c objects -> c < List.length w) -> (forall c, In c properties -> c < List.length w) -> clean w ->
  package_init w (Some (p_namespace p)) objects properties (Some m) = (w', Ok p) -> (forall o names j, In (o, names) m -> pkg_get p o = Some j -> In j (p_objects p)) ->
  forall c q, In (c, q) (p_property_ref p) -> standalone P V w properties c -> lookup w c rg = None ->
  exists s x, filter (fun y => is_prop P V (snd y)) (c_attrs (get_cls w c)) = [(s, AProp x)] /\ lookup w' q pn = Some (AStr s) /\
  forall o names n j, In (o, names) m -> In n names -> pkg_get p o = Some j -> pkg_get p n = Some q ->
    (forall o' names' n' q', In (o', names') m -> In n' names' -> pkg_get p o' = Some j -> pkg_get p n' = Some q' -> lookup w' q' pn = Some (AStr s) -> q' = q) ->
    lookup w' j s = Some (AProp (wrap_prop x)).
Proof using.
  intros Hp Ho Hq Hcl E Htgt c q Hcq Hst Hrg.
  destruct (package_links P V wrap_prop wrap_call package_ref none_ref show w objects properties m w' p Hp Ho Hq Hcl E) as (w5 & nss & L & Hr & C5 & HL & Hv & L' & P' & N' & O' & w6 & E6 & E7 & L6 & P6).
  destruct (r_alone _ _ _ _ _ _ _ _ _ _ _ _ Hr c q Hcq Hst) as (s & x & A & B & C). exists s, x. split; [exact A|].
  assert (Hqp : In q (p_properties p)) by (unfold p_properties; change q with (snd (c, q)); now apply in_map). assert (Hqd : In q (p_objects p ++ p_properties p)) by (apply in_or_app; now right).
  pose proof (r_range _ _ _ _ _ _ _ _ _ _ _ _ Hr q Hqd) as Rq. pose proof (r_proper _ _ _ _ _ _ _ _ _ _ _ _ Hr) as P5. destruct (proper_mro P V w5 q P5 (proj2 Rq)) as (mq & Emq & _).
  assert (Hname : lookup w5 q pn = Some (AStr s)) by (rewrite (lookup_own P V w5 q mq) by exact Emq; now rewrite B).
  split; [now apply N'|]. intros o names n j H1 H2 H3 H4 Huniq.
  assert (Hn : ~ reserved s) by (intros H; apply (C5 q s) in H; now destruct H).
  assert (Hown : own w5 q s = Some (AProp (wrap_prop x))) by (apply C; intros ->; apply Hn; left; [right; now right|right; now left]).
  assert (Hin : In (q, j) L) by (apply (resolve_in _ _ _ HL); exists o, names, n; auto).
  assert (Hjl : j < List.length w5) by (apply (r_range _ _ _ _ _ _ _ _ _ _ _ _ Hr); apply (Hv q j Hin)).
  assert (Hdisj : forall i, In i (p_objects p) -> i <> q). { intros i Hi ->. pose proof (r_nodup _ _ _ _ _ _ _ _ _ _ _ _ Hr) as (_ & _ & Hnd). change (map snd (p_object_ref p)) with (p_objects p) in Hnd. change (map snd (p_property_ref p)) with (p_properties p) in Hnd.
    apply in_split in Hi as (l1 & l2 & E1). rewrite E1 in Hnd. rewrite <- app_assoc in Hnd. cbn in Hnd. apply NoDup_remove_2 in Hnd. apply Hnd. rewrite !in_app_iff. auto. }
  assert (Hreg : own w6 j s = Some (AProp (wrap_prop x))).
  { eapply (link_seq_reg P V none_ref (fun k => In k (p_objects p ++ p_properties p)) q s (wrap_prop x) L w5 w6 P5).
    - exact (prepared_all_cached P V wrap_prop wrap_call show _ _ _ _ _ _ _ Hr).
    - intros a b H. apply (Hv a b H).
    - intros a t Ha Ht. exact (clean_name P V w5 a t C5 Ht).
    - exact Hname.
    - exact Hown.
    - left. apply (r_pvisible _ _ _ _ _ _ _ _ _ _ _ _ Hr c q); auto. intros H; repeat (destruct H as [H|H]; try discriminate).
    - intros a b H. apply (resolve_in _ _ _ HL) in H as (o' & names' & n' & G1 & G2 & G3 & G4). apply Hdisj. apply (Htgt o' names' b); auto.
    - intros a b H. destruct (Nat.eq_dec a q) as [->|Hne]; [now left|right]. intros Ha. pose proof (r_range _ _ _ _ _ _ _ _ _ _ _ _ Hr a (proj1 (Hv a b H))) as Ra.
      apply (r_pmro _ _ _ _ _ _ _ _ _ _ _ _ Hr c q Hcq) in Ha as [Ha|(a0 & G1 & G2)].
      + assert (Hcl' : c < List.length w) by (apply Hq, (r_properties _ _ _ _ _ _ _ _ _ _ _ _ Hr); change c with (fst (c, q)); now apply in_map). pose proof (proj2 (mro_lt P V w (proj1 Hp) c a Hcl' Ha)). lia.
      + assert (a0 = c) as ->. { apply (proj1 Hst); [|exact G2]. apply (r_properties _ _ _ _ _ _ _ _ _ _ _ _ Hr). change a0 with (fst (a0, a)). now apply in_map. }
        pose proof (r_nodup _ _ _ _ _ _ _ _ _ _ _ _ Hr) as (_ & Hnd & _). apply Hne. clear - Hnd Hcq G1. apply in_split in G1 as (l1 & l2 & E1). rewrite E1 in *. rewrite map_app in Hnd. cbn in Hnd. apply NoDup_remove_2 in Hnd. rewrite <- map_app in Hnd.
        apply in_app_or in Hcq as [Hi|[Hi|Hi]]; [exfalso; apply Hnd; change c with (fst (c, q)); apply in_map, in_or_app; now left|congruence|exfalso; apply Hnd; change c with (fst (c, q)); apply in_map, in_or_app; now right].
    - exact E6.
    - exact Hin.
    - intros a Ha Hna. apply (resolve_in _ _ _ HL) in Ha as (o' & names' & n' & G1 & G2 & G3 & G4). apply (Huniq o' names' n' a); auto. now apply N'.
    - exact Hjl. }
  assert (Hlt6 : forall d, In d (p_objects p) -> d < List.length w6) by (intros d Hd; rewrite (proj1 (proj1 L6)); apply (r_range _ _ _ _ _ _ _ _ _ _ _ _ Hr); apply in_or_app; now left).
  destruct (refresh_all_ok P V (p_objects p) w6 w' (Ok tt) P6 Hlt6 E7) as (L7 & P7 & O7 & _). assert (Hjl' : j < List.length w') by (rewrite (proj1 (proj1 L')); exact Hjl).
  destruct (proper_mro P V w' j P' Hjl') as (mj & Emj & _). rewrite (lookup_own P V w' j mj) by exact Emj. rewrite O7 by (intros ->; apply Hn; left; now left). now rewrite Hreg.
Qed.

(** ** namespaces *)
(** the namespace a class declares, read off the original classes: [NsNone]: none; [NsType]: prefix#type; a standalone property class: prefix#dfn-name *)
Definition declares (w : world) (classes : list nat) (c : nat) (x : option pystr) : Prop :=
  ~ In (py "__get_namespace__") (property_names P V w c) /\
  ((lookup w c (py "__get_namespace__") = Some (ANs NsNone) /\ x = None) \/
  (exists prefix t, lookup w c (py "__get_namespace__") = Some (ANs (NsType prefix)) /\ lookup w c (py "type") = Some (AStr t) /\ ~ In (py "type") (property_names P V w c) /\ x = Some (prefix ++ py "#" ++ t)) \/
  (exists prefix s p, lookup w c (py "__get_namespace__") = Some (ANs (NsProp prefix)) /\ standalone P V w classes c /\ filter (fun y => is_prop P V (snd y)) (c_attrs (get_cls w c)) = [(s, AProp p)] /\ x = Some (prefix ++ py "#dfn-" ++ s))).
Lemma plain_value (w : world) keys c n v : regular P V w keys c -> lookup w c n = Some v -> wrap_attr P V wrap_call v = v ->
  match find_attr w (filter (fun x => mem x keys) (mro w c)) n with Some u => Some (wrap_attr P V wrap_call u) | None => lookup w c n end = Some v.
Proof using.
  intros [(a & b & E & H1 & H2) _]. rewrite forallb_forall in H1, H2. unfold lookup. rewrite E, filter_app.
  assert (E1 : filter (fun x => mem x keys) a = a) by (clear - H1; induction a as [|x a IH]; [reflexivity|]; cbn; rewrite (H1 x (or_introl eq_refl)); f_equal; apply IH; intros y Hy; apply H1; now right).
  assert (E2 : filter (fun x => mem x keys) b = []) by (clear - H2; induction b as [|x b IH]; [reflexivity|]; cbn; specialize (H2 x (or_introl eq_refl)) as H; apply negb_true_iff in H; rewrite H; apply IH; intros y Hy; apply H2; now right).
  rewrite E1, E2, app_nil_r. clear. induction a as [|x a IH]; cbn [find_attr app]; [auto|]. destruct (d_get n (c_attrs (get_cls w x))) as [u|]; [intros [= ->] ->; reflexivity|exact IH].
Qed.
Lemma find_owner_lookup (w : world) m n : find_attr w m n = match find_owner P V w m n with Some (_, v) => Some v | None => None end.
Proof using. induction m as [|a m IH]; [reflexivity|]. cbn [find_attr find_owner]. destruct (d_get n (c_attrs (get_cls w a))); [reflexivity|exact IH]. Qed.
Lemma clone_declares w objects properties oref pref nss w5 : proper w -> prepared w objects properties oref pref nss w5 ->
  (forall c, In c objects -> regular P V w objects c) -> (forall c, In c properties -> regular P V w properties c) ->
  (forall c k x, In (c, k) oref -> declares w objects c x -> lookup w c gpn = None -> get_namespace w5 k = (w5, Ok x)) /\ (forall c k x, In (c, k) pref -> declares w properties c x -> get_namespace w5 k = (w5, Ok x)).
Proof using.
  intros Hp Hr Hro Hrp.
  assert (Ho : forall c k n v, In (c, k) oref -> ~ special n -> ~ In n (property_names P V w c) -> lookup w c n = Some v -> wrap_attr P V wrap_call v = v -> lookup w5 k n = Some v).
  { intros c k n v H1 H2 H3 H4 H5. rewrite (r_plain _ _ _ _ _ _ _ _ _ _ _ _ Hr Hro c k n H1 H2 H3). apply plain_value; auto. apply Hro, (r_objects _ _ _ _ _ _ _ _ _ _ _ _ Hr). change c with (fst (c, k)). now apply in_map. }
  assert (Hq : forall c k n v, In (c, k) pref -> ~ special n -> ~ In n (property_names P V w c) -> lookup w c n = Some v -> wrap_attr P V wrap_call v = v -> lookup w5 k n = Some v).
  { intros c k n v H1 H2 H3 H4 H5. rewrite (r_pplain _ _ _ _ _ _ _ _ _ _ _ _ Hr Hrp c k n H1 H2 H3). apply plain_value; auto. apply Hrp, (r_properties _ _ _ _ _ _ _ _ _ _ _ _ Hr). change c with (fst (c, k)). now apply in_map. }
  assert (S1 : ~ special (py "__get_namespace__")) by (intros [H|[H|H]]; discriminate). assert (S2 : ~ special (py "type")) by (intros [H|[H|H]]; discriminate).
  assert (Ht : forall k t prefix, lookup w5 k (py "__get_namespace__") = Some (ANs (NsType prefix)) -> lookup w5 k (py "type") = Some (AStr t) -> get_namespace w5 k = (w5, Ok (Some (prefix ++ py "#" ++ t)))).
  { intros k t prefix H1 H2. unfold Package.get_namespace. rewrite H1. unfold lookup in H2. rewrite find_owner_lookup in H2. destruct (find_owner P V w5 (mro w5 k) (py "type")) as [[o v]|]; [|discriminate]. injection H2 as ->. reflexivity. }
  split.
  - intros c k x Hck (Hn & [(H1 & ->)|[(pre & t & H1 & H2 & H3 & ->)|(pre & s & p & H1 & H2 & H3 & ->)]]) Hg.
    + unfold Package.get_namespace. rewrite (Ho c k _ _ Hck S1 Hn H1); reflexivity.
    + apply Ht; [exact (Ho c k _ _ Hck S1 Hn H1 eq_refl)|exact (Ho c k _ _ Hck S2 H3 H2 eq_refl)].
    + destruct H2 as (_ & _ & H2 & _). contradiction.
  - intros c k x Hck (Hn & [(H1 & ->)|[(pre & t & H1 & H2 & H3 & ->)|(pre & s & p & H1 & H2 & H3 & ->)]]).
    + unfold Package.get_namespace. rewrite (Hq c k _ _ Hck S1 Hn H1); reflexivity.
    + apply Ht; [exact (Hq c k _ _ Hck S1 Hn H1 eq_refl)|exact (Hq c k _ _ Hck S2 H3 H2 eq_refl)].
    + destruct (r_alone _ _ _ _ _ _ _ _ _ _ _ _ Hr c k Hck H2) as (s' & p' & A & B & _). rewrite H3 in A. injection A as -> ->.
      assert (Hk : In k (map snd oref ++ map snd pref)) by (apply in_or_app; right; change k with (snd (c, k)); now apply in_map). pose proof (r_range _ _ _ _ _ _ _ _ _ _ _ _ Hr k Hk) as Rk.
      destruct (proper_mro P V w5 k (r_proper _ _ _ _ _ _ _ _ _ _ _ _ Hr) (proj2 Rk)) as (m & Em & _).
      assert (Hl : lookup w5 k pn = Some (AStr s')) by (rewrite (lookup_own P V w5 k m) by exact Em; now rewrite B).
      assert (Hg : lookup w5 k gpn <> None). { rewrite (r_pvisible _ _ _ _ _ _ _ _ _ _ _ _ Hr c k gpn Hck); [apply H2|intros [H|[H|H]]; discriminate]. }
      unfold Package.get_namespace. rewrite (Hq c k _ _ Hck S1 Hn H1 eq_refl). destruct (lookup w5 k gpn) as [g|]; [|now destruct Hg]. unfold get_property_name. rewrite Hl. reflexivity.
Qed.
Lemma last_ns_spec x (l : list (option pystr * nat)) k : last_ns x l = Some k <-> exists l1 l2, l = l1 ++ (x, k) :: l2 /\ forall y, In y l2 -> fst y <> x.
Proof using.
  induction l as [|[y c] l IH]; cbn [last_ns]; [split; [discriminate|intros ([|] & l2 & E & _); discriminate]|]. destruct (last_ns x l) as [r|] eqn:El.
  - split.
    + intros [= ->]. destruct (proj1 IH eq_refl) as (l1 & l2 & -> & H). exists ((y, c) :: l1), l2. auto.
    + intros (l1 & l2 & E & H). destruct l1 as [|z l1]; cbn in E.
      * injection E as -> -> ->. apply last_ns_in in El. exfalso. apply (H _ El). reflexivity.
      * injection E as _ ->. apply IH. exists l1, l2. auto.
  - destruct (ns_eqb x y) eqn:E.
    + apply ns_eqb_eq in E as <-. split.
      * intros [= ->]. exists [], l. split; [reflexivity|]. intros [z i] Hz Hzx. cbn [fst] in Hzx. subst z. apply last_ns_some in Hz as (c' & Hc). congruence.
      * intros (l1 & l2 & E & H). destruct l1 as [|z l1]; cbn in E; [injection E as -> ->; reflexivity|]. injection E as _ ->. assert (Hx : None = Some k) by (apply IH; exists l1, l2; auto). discriminate.
    + split; [discriminate|]. intros (l1 & l2 & E1 & H). destruct l1 as [|z l1]; cbn in E1.
      * injection E1 as -> _ _. assert (ns_eqb x x = true) by now apply ns_eqb_eq. congruence.
      * injection E1 as _ ->. assert (Hx : None = Some k) by (apply IH; exists l1, l2; auto). discriminate.
Qed.
Lemma package_lookup w s objects properties m w' p nsf : proper w -> (forall c, In c objects -> c < List.length w) -> (forall c, In c properties -> c < List.length w) ->
  (forall c, In c objects -> regular P V w objects c /\ lookup w c gpn = None /\ declares w objects c (nsf c)) -> (forall c, In c properties -> regular P V w properties c /\ declares w properties c (nsf c)) ->
  package_init w s objects properties m = (w', Ok p) ->
  p_ref p = ns_of (map (fun x => (nsf (fst x), snd x)) (p_object_ref p ++ p_property_ref p)) /\
  (forall c, In c (map fst (p_object_ref p)) <-> In c objects) /\ (forall c, In c (map fst (p_property_ref p)) <-> In c properties).
Proof using.
  intros Hp Ho Hq Hob Hpr E. destruct (package_built P V wrap_prop wrap_call package_ref none_ref show w s objects properties m w' p Hp Ho Hq E) as (m' & w5 & w6 & nss & L & _ & Em & _ & X5 & E5 & Hr & Href & _).
  split; [|split; [exact (r_objects _ _ _ _ _ _ _ _ _ _ _ _ Hr)|exact (r_properties _ _ _ _ _ _ _ _ _ _ _ _ Hr)]].
  rewrite Href. f_equal. unfold p_objects, p_properties. destruct (clone_declares w objects properties _ _ nss w5 Hp Hr (fun c Hc => proj1 (Hob c Hc)) (fun c Hc => proj1 (Hpr c Hc))) as [D1 D2].
  pose proof (r_nss _ _ _ _ _ _ _ _ _ _ _ _ Hr) as Hn. rewrite <- map_app in *.
  assert (Hd : forall x, In x (p_object_ref p ++ p_property_ref p) -> get_namespace w5 (snd x) = (w5, Ok (nsf (fst x)))).
  { intros [c k] Hx. cbn [fst snd]. apply in_app_or in Hx as [Hx|Hx].
    - assert (Hc : In c objects) by (apply (r_objects _ _ _ _ _ _ _ _ _ _ _ _ Hr); change c with (fst (c, k)); now apply in_map). destruct (Hob c Hc) as (_ & A & B). exact (D1 c k _ Hx B A).
    - assert (Hc : In c properties) by (apply (r_properties _ _ _ _ _ _ _ _ _ _ _ _ Hr); change c with (fst (c, k)); now apply in_map). exact (D2 c k _ Hx (proj2 (Hpr c Hc))). }
  clear - Hn Hd. revert nss Hn Hd. induction (p_object_ref p ++ p_property_ref p) as [|[c k] l IH]; intros nss Hn Hd; cbn [map] in *; inversion Hn; subst; [reflexivity|]. cbn [combine fst snd]. f_equal.
  - specialize (Hd _ (or_introl eq_refl)). cbn [fst snd] in *. f_equal. congruence.
  - apply IH; [assumption|]. intros x Hx. apply Hd. now right.
Qed.
Lemma package_lookup_last w s objects properties m w' p nsf : proper w -> (forall c, In c objects -> c < List.length w) -> (forall c, In c properties -> c < List.length w) ->
  (forall c, In c objects -> regular P V w objects c /\ lookup w c gpn = None /\ declares w objects c (nsf c)) -> (forall c, In c properties -> regular P V w properties c /\ declares w properties c (nsf c)) ->
  package_init w s objects properties m = (w', Ok p) -> forall t,
  (forall k, pkg_get p t = Some k <-> exists l1 c l2, p_object_ref p ++ p_property_ref p = l1 ++ (c, k) :: l2 /\ nsf c = Some t /\ forall c' k', In (c', k') l2 -> nsf c' <> Some t) /\
  (pkg_get p t = None <-> forall c, In c objects \/ In c properties -> nsf c <> Some t).
Proof using.
  intros Hp Ho Hq Hob Hpr E t. destruct (package_lookup w s objects properties m w' p nsf Hp Ho Hq Hob Hpr E) as (Hr & F1 & F2). unfold pkg_get. rewrite Hr, ns_of_get. set (refs := p_object_ref p ++ p_property_ref p).
  split.
  - intros k. rewrite last_ns_spec. split.
    + intros (l1 & l2 & E1 & H). apply map_eq_app in E1 as (r1 & r2 & E1 & <- & E2). apply map_eq_cons in E2 as ([c k'] & r3 & -> & E2 & <-). cbn [fst snd] in E2. injection E2 as E2 ->. exists r1, c, r3. split; [exact E1|]. split; [exact E2|].
      intros c' k' Hi. apply (H (nsf c', k')). change (nsf c', k') with ((fun x => (nsf (fst x), snd x)) (c', k')). now apply in_map.
    + intros (r1 & c & r2 & E1 & E2 & H). rewrite E1, map_app. cbn [map fst snd]. rewrite E2. eexists _, _. split; [reflexivity|]. intros y Hy. apply in_map_iff in Hy as ([c' k'] & <- & Hi). cbn [fst]. now apply (H c' k').
  - split.
    + intros Hn c Hc Hx. assert (Hi : In c (map fst refs)) by (unfold refs; rewrite map_app, in_app_iff, F1, F2; exact Hc). apply in_map_iff in Hi as ([c' k] & E1 & Hi). cbn in E1. subst c'.
      destruct (last_ns_some (Some t) (map (fun x => (nsf (fst x), snd x)) refs) k) as (c' & H'); [|congruence]. rewrite <- Hx. change (nsf c, k) with ((fun x => (nsf (fst x), snd x)) (c, k)). now apply in_map.
    + intros H. destruct (last_ns (Some t) (map (fun x => (nsf (fst x), snd x)) refs)) as [k|] eqn:El; [|reflexivity]. apply last_ns_in, in_map_iff in El as ([c k'] & E1 & Hi). cbn in E1. exfalso. apply (H c); [|congruence].
      assert (Hc : In c (map fst refs)) by (change c with (fst (c, k')); now apply in_map). unfold refs in Hc. rewrite map_app, in_app_iff, F1, F2 in Hc. exact Hc.
Qed.

(** ** assignments *)
Lemma assign_all_namespace l : forall (w : world) st w' st' es s, assign_all P V show w st l = (w', st', es) -> s_namespace st = Some s -> s <> [] -> s_namespace st' = Some s.
Proof using.
  induction l as [|a l IH]; intros w st w' st' es s; cbn [Package.assign_all]; [intros E Hs _; congruence|].
  destruct (assign P V show w st a) as [w1 [s1|e]] eqn:E1; destruct (assign_all P V show w1) as [[w2 s2] es2] eqn:E2 in |- *; intros E Hs Hn; assert (st' = s2) by congruence; subst; [|now apply (IH _ _ _ _ _ s E2)].
  apply (IH _ _ _ _ _ s E2); [|exact Hn]. unfold Package.assign in E1. rewrite Hs in E1. destruct a as [v|cs|cs].
  - destruct s; [now destruct Hn|]. discriminate.
  - destruct (s_objects st); [|discriminate]. destruct (get_namespaces w cs) as [? [?|?]]; [|discriminate]. injection E1 as _ <-. cbn. congruence.
  - destruct (s_properties st); [|discriminate]. destruct (get_namespaces w cs) as [? [?|?]]; [|discriminate]. injection E1 as _ <-. cbn. congruence.
Qed.
End Out.
