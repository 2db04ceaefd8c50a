(** Property theorems C67-C70 (and C81 for packages): packages and engines.
    Worlds, [mro], [lookup], [property_names]: see PropsKamino.v. [package_init … w ns objects properties mapping]: JsonLdPackage(ns, objects, properties, mapping)
    ([ns = None]: not a string; [mapping = None]: None was passed). [p_object_ref], [p_property_ref]: the dicts original class -> clone; [p_objects], [p_properties]: the clones;
    [pkg_get p s]: p[s] (None: not found). [show o v]: str() of an attribute that is not a string. *)
From Coq Require Import String Permutation.
From Verif Require Import Base BaseFacts Dict DictFacts PyClass PyClassFacts Kamino KaminoOrder KaminoFacts KaminoMro KaminoAttrs KaminoExact KaminoResolve KaminoDone KaminoMarks KaminoNames Package Engine PackageFacts PackageInit PackageThms PackageOut PackagePy PropsKamino.
Open Scope list_scope.

Lemma py_proper {P V} (w : world P V) : py_world P V w -> proper P V w.
Proof. intros H. split; [now apply py_wf|now apply py_dicts]. Qed.
Lemma first_regular {P V} (w : world P V) classes c : package_first w classes c -> unrelated_bases w c -> regular P V w classes c.
Proof. intros H1 H2. split; [now apply package_first_ok|exact H2]. Qed.

(** ** C67 *)
(** any sequence of assignments (exceptions caught): what has been set to something non-empty stays, and each further assignment to it raises AttributeError *)
Theorem C67_set_once : forall P V show (w : world P V) st l w' st' es, assign_all P V show w st l = (w', st', es) ->
  List.length es = List.length l /\
  (forall s, s_namespace st = Some s -> s <> [] -> s_namespace st' = Some s /\ forall i v, nth_error l i = Some (SetNamespace v) -> nth_error es i = Some (Some AttributeError)) /\
  (s_objects st <> [] -> s_objects st' = s_objects st /\ forall i v, nth_error l i = Some (SetObjects v) -> nth_error es i = Some (Some AttributeError)) /\
  (s_properties st <> [] -> s_properties st' = s_properties st /\ forall i v, nth_error l i = Some (SetProperties v) -> nth_error es i = Some (Some AttributeError)) /\
  (* a value that is not a string is never accepted *)
  (forall i, nth_error l i = Some (SetNamespace None) -> exists e, nth_error es i = Some (Some e)).
Proof.
  intros P V show w st l. revert w st. induction l as [|a l IH]; intros w st w' st' es; cbn [assign_all].
  - intros E. injection E as _ <- <-. repeat split; auto; intros [|]; discriminate.
  - destruct (assign P V show w st a) as [w1 [s1|e]] eqn:E1.
    + destruct (assign_all P V show w1 s1 l) as [[w2 s2] es2] eqn:E2. intros E. assert (st' = s2) by congruence. assert (es = None :: es2) by congruence. subst. clear E. destruct (IH _ _ _ _ _ E2) as (H0 & H1 & H2 & H3 & H4).
      unfold assign in E1. split; [cbn; congruence|]. split; [|split; [|split]].
      * intros s Hs Hn. assert (X : s_namespace s1 = Some s). { destruct a as [v|cs|cs]; rewrite ?Hs in E1; [destruct s; [now destruct Hn|discriminate]| |].
          - destruct (s_objects st); [|discriminate]. destruct (get_namespaces P V show w cs) as [? [?|?]]; [|discriminate]. injection E1 as _ <-. cbn. congruence.
          - destruct (s_properties st); [|discriminate]. destruct (get_namespaces P V show w cs) as [? [?|?]]; [|discriminate]. injection E1 as _ <-. cbn. congruence. }
        destruct (H1 s X Hn) as [A B]. split; [exact A|]. intros [|i] v Hi; cbn in *; [|eauto]. injection Hi as ->. rewrite Hs in E1. destruct s; [now destruct Hn|discriminate].
      * intros Hn. assert (X : s_objects s1 = s_objects st). { destruct a as [v|cs|cs].
          - destruct (s_namespace st) as [[|]|]; try discriminate; destruct v; try discriminate; injection E1 as _ <-; reflexivity.
          - destruct (s_objects st); [now destruct Hn|discriminate].
          - destruct (s_properties st); [|discriminate]. destruct (get_namespaces P V show w cs) as [? [?|?]]; [|discriminate]. injection E1 as _ <-. reflexivity. }
        rewrite X in H2. destruct (H2 Hn) as [A B]. split; [exact A|]. intros [|i] v Hi; cbn in *; [|eauto]. injection Hi as ->. destruct (s_objects st); [now destruct Hn|discriminate].
      * intros Hn. assert (X : s_properties s1 = s_properties st). { destruct a as [v|cs|cs].
          - destruct (s_namespace st) as [[|]|]; try discriminate; destruct v; try discriminate; injection E1 as _ <-; reflexivity.
          - destruct (s_objects st); [|discriminate]. destruct (get_namespaces P V show w cs) as [? [?|?]]; [|discriminate]. injection E1 as _ <-. reflexivity.
          - destruct (s_properties st); [now destruct Hn|discriminate]. }
        rewrite X in H3. destruct (H3 Hn) as [A B]. split; [exact A|]. intros [|i] v Hi; cbn in *; [|eauto]. injection Hi as ->. destruct (s_properties st); [now destruct Hn|discriminate].
      * intros [|i] Hi; cbn in *; [|eauto]. injection Hi as ->. destruct (s_namespace st) as [[|]|]; discriminate.
    + destruct (assign_all P V show w1 st l) as [[w2 s2] es2] eqn:E2. intros E. assert (st' = s2) by congruence. assert (es = Some e :: es2) by congruence. subst. clear E. destruct (IH _ _ _ _ _ E2) as (H0 & H1 & H2 & H3 & H4).
      unfold assign in E1. split; [cbn; congruence|]. split; [|split; [|split]].
      * intros s Hs Hn. destruct (H1 s Hs Hn) as [A B]. split; [exact A|]. intros [|i] v Hi; cbn in *; [|eauto]. injection Hi as ->. rewrite Hs in E1. destruct s; [now destruct Hn|]. congruence.
      * intros Hn. destruct (H2 Hn) as [A B]. split; [exact A|]. intros [|i] v Hi; cbn in *; [|eauto]. injection Hi as ->. destruct (s_objects st); [now destruct Hn|]. congruence.
      * intros Hn. destruct (H3 Hn) as [A B]. split; [exact A|]. intros [|i] v Hi; cbn in *; [|eauto]. injection Hi as ->. destruct (s_properties st); [now destruct Hn|]. congruence.
      * intros [|i] Hi; cbn in *; [|eauto]. injection Hi as ->. exists e. reflexivity.
Qed.
Print Assumptions C67_set_once.
(** the constructor sets the namespace to the string it is given; a non-string raises TypeError and creates nothing *)
Theorem C67_constructor : forall P V wrap_prop wrap_call package_ref none_ref show (w : world P V) ns objects properties m w' r,
  py_world P V w -> (forall c, In c objects \/ In c properties -> c < List.length w) -> package_init P V wrap_prop wrap_call package_ref none_ref show w ns objects properties m = (w', r) ->
  (ns = None -> r = Err TypeError /\ w' = w) /\
  (forall p, r = Ok p -> ns = Some (p_namespace p) /\ settable_of p = mkSettable ns (p_objects p) (p_properties p)).
Proof.
  intros P V wp wc pr nr show w ns objects properties m w' r Hw Hlt E. split.
  - intros ->. cbn in E. split; congruence.
  - intros p ->. apply package_init_general in E; [|now apply py_proper|auto|auto]. destruct E as (_ & E & _). split; [exact E|]. unfold settable_of. now rewrite E.
Qed.
Print Assumptions C67_constructor.
(** the empty string counts as "not set": it can be replaced *)
Theorem C67_empty_refuted : exists (w : world nat nat) st v w' st' es, s_namespace st = Some [] /\ assign_all nat nat (fun _ _ => []) w st [SetNamespace (Some v)] = (w', st', es) /\ s_namespace st' = Some v /\ v <> [] /\ es = [None].
Proof. exists (object_world []), (mkSettable (Some []) [] []), (py "x"). do 3 eexists. split; [reflexivity|]. split; [reflexivity|]. split; [reflexivity|]. split; [discriminate|reflexivity]. Qed.
Print Assumptions C67_empty_refuted.
(** [namespace_of w classes c x]: what [c.__get_namespace__()] says about the original class: None; prefix#type; for a property class with exactly one property, unrelated to the package's other properties: prefix#dfn-name *)
Definition unrelated_property {P V} (w : world P V) (classes : list nat) (c : nat) : Prop :=
  (forall a, In a classes -> In a (mro w c) -> a = c) /\ lookup w c (py "__property_name__") = None /\ lookup w c (py "__get_property_name__") <> None /\ lookup w c (py "__get_properties__") = None.
Definition only_property {P V} (w : world P V) (c : nat) (s : pystr) (p : P) : Prop := filter (fun x => match snd x with AProp _ => true | _ => false end) (c_attrs (get_cls w c)) = [(s, AProp p)].
Inductive namespace_of {P V} (w : world P V) (classes : list nat) (c : nat) : option pystr -> Prop :=
| no_namespace : lookup w c (py "__get_namespace__") = Some (ANs NsNone) -> namespace_of w classes c None
| type_namespace prefix t : lookup w c (py "__get_namespace__") = Some (ANs (NsType prefix)) -> lookup w c (py "type") = Some (AStr t) -> ~ In (py "type") (property_names P V w c) -> namespace_of w classes c (Some (prefix ++ py "#" ++ t))
| property_namespace prefix s p : lookup w c (py "__get_namespace__") = Some (ANs (NsProp prefix)) -> unrelated_property w classes c -> only_property w c s p -> namespace_of w classes c (Some (prefix ++ py "#dfn-" ++ s)).
Lemma namespace_declares {P V} (w : world P V) classes c x : ~ In (py "__get_namespace__") (property_names P V w c) -> namespace_of w classes c x -> declares P V w classes c x.
Proof. intros Hn H. split; [exact Hn|]. destruct H as [H|pre t H1 H2 H3|pre s p H1 H2 H3]; [now left|right; left; eauto 10|right; right]. exists pre, s, p. repeat split; auto; apply H2. Qed.
(** lookups: the clone of the last class (objects before properties) whose namespace is the given one; None exactly for the other strings *)
Theorem C67_lookup : forall P V wrap_prop wrap_call package_ref none_ref show (w : world P V) ns objects properties m w' p (nsf : nat -> option pystr),
  py_world P V w ->
  (forall c, In c objects -> c < List.length w /\ package_first w objects c /\ unrelated_bases w c /\ lookup w c (py "__get_property_name__") = None /\ ~ In (py "__get_namespace__") (property_names P V w c) /\ namespace_of w objects c (nsf c)) ->
  (forall c, In c properties -> c < List.length w /\ package_first w properties c /\ unrelated_bases w c /\ ~ In (py "__get_namespace__") (property_names P V w c) /\ namespace_of w properties c (nsf c)) ->
  package_init P V wrap_prop wrap_call package_ref none_ref show w ns objects properties m = (w', Ok p) ->
  (forall c, In c (map fst (p_object_ref p)) <-> In c objects) /\ (forall c, In c (map fst (p_property_ref p)) <-> In c properties) /\
  forall s,
    (forall k, pkg_get p s = Some k <-> exists l1 c l2, p_object_ref p ++ p_property_ref p = l1 ++ (c, k) :: l2 /\ nsf c = Some s /\ forall c' k', In (c', k') l2 -> nsf c' <> Some s) /\
    (pkg_get p s = None <-> forall c, In c objects \/ In c properties -> nsf c <> Some s).
Proof.
  intros P V wp wc pr nr show w ns objects properties m w' p nsf Hw Ho Hq E. pose proof (py_proper w Hw) as Hp.
  assert (Ho1 : forall c, In c objects -> c < List.length w) by (intros c Hc; apply (Ho c Hc)). assert (Hq1 : forall c, In c properties -> c < List.length w) by (intros c Hc; apply (Hq c Hc)).
  assert (Ho2 : forall c, In c objects -> regular P V w objects c /\ lookup w c (py "__get_property_name__") = None /\ declares P V w objects c (nsf c)) by (intros c Hc; destruct (Ho c Hc) as (_ & A & B & C & D & F); split; [now apply first_regular|]; split; [exact C|now apply namespace_declares]).
  assert (Hq2 : forall c, In c properties -> regular P V w properties c /\ declares P V w properties c (nsf c)) by (intros c Hc; destruct (Hq c Hc) as (_ & A & B & D & F); split; [now apply first_regular|now apply namespace_declares]).
  destruct (package_lookup P V wp wc pr nr show w ns objects properties m w' p nsf Hp Ho1 Hq1 Ho2 Hq2 E) as (_ & F1 & F2). split; [exact F1|]. split; [exact F2|].
  exact (package_lookup_last P V wp wc pr nr show w ns objects properties m w' p nsf Hp Ho1 Hq1 Ho2 Hq2 E).
Qed.
Print Assumptions C67_lookup.
(** several keys at once: ValueError as soon as one is not a string, else one result per key *)
Theorem C67_lookups : forall p keys, (In None keys /\ pkg_get_all p keys = Err ValueError) \/ (exists ss, keys = map Some ss /\ pkg_get_all p keys = Ok (map (pkg_get p) ss)).
Proof.
  intros p keys. unfold pkg_get_all. destruct (existsb (fun k => match k with None => true | _ => false end) keys) eqn:E.
  - left. apply existsb_exists in E as ([s|] & H1 & H2); [discriminate|]. auto.
  - right. exists (map (fun k => match k with Some s => s | None => [] end) keys). split.
    + induction keys as [|[s|] l IH]; [reflexivity| |discriminate]. cbn in E. cbn [map]. f_equal. now apply IH.
    + f_equal. rewrite map_map. induction keys as [|[s|] l IH]; [reflexivity| |discriminate]. cbn in E. cbn [map]. f_equal. now apply IH.
Qed.
Print Assumptions C67_lookups.

(** ** C68. [no_reserved_names]: no property is called, and no property class is cached as being called, [__properties__], [__property_name__], [__jsonld_package__], [__registration__] or [__get_property_name__] *)
Definition reserved_name (n : pystr) : Prop := In n [py "__properties__"; py "__property_name__"; py "__jsonld_package__"; py "__registration__"; py "__get_property_name__"].
Definition no_reserved_names {P V} (w : world P V) : Prop := forall a n, reserved_name n -> (forall p, d_get n (c_attrs (get_cls w a)) <> Some (AProp p)) /\ d_get (py "__property_name__") (c_attrs (get_cls w a)) <> Some (AStr n).
Lemma reserved_iff n : reserved n <-> reserved_name n.
Proof. unfold reserved, special, reserved_name. cbn [In]. intuition (subst; auto). Qed.
Lemma no_reserved_clean {P V} (w : world P V) : no_reserved_names w -> clean P V w.
Proof. intros H a n Hn. apply H. now apply reserved_iff. Qed.
(** each object class has exactly its original's properties and those that the mapping names for it or an ancestor; [__properties__] lists them *)
Theorem C68_properties : forall P V wrap_prop wrap_call package_ref none_ref show (w : world P V) ns objects properties m w' p,
  py_world P V w -> (forall c, In c objects \/ In c properties -> c < List.length w) -> no_reserved_names w ->
  package_init P V wrap_prop wrap_call package_ref none_ref show w ns objects properties (Some m) = (w', Ok p) ->
  forall c k n, In (c, k) (p_object_ref p) -> ~ reserved_name n ->
  (In n (property_names P V w' k) <-> In n (property_names P V w c) \/
    exists o names x j q, In (o, names) m /\ In x names /\ pkg_get p o = Some j /\ pkg_get p x = Some q /\ In j (mro w' k) /\ lookup w' q (py "__property_name__") = Some (AStr n)) /\
  (exists l, d_get (py "__properties__") (c_attrs (get_cls w' k)) = Some (ANames l) /\ NoDup l /\ (In n l <-> In n (property_names P V w' k))).
Proof.
  intros P V wp wc pr nr show w ns objects properties m w' p Hw Hlt Hn E c k n Hck Hr. pose proof (py_proper w Hw) as Hp. pose proof (no_reserved_clean w Hn) as Hcl. pose proof E as E0.
  apply package_init_general in E0; [|exact Hp|auto|auto]. destruct E0 as (_ & -> & _).
  apply (package_properties P V wp wc pr nr show w objects properties m w' p Hp (fun c H => Hlt c (or_introl H)) (fun c H => Hlt c (or_intror H)) Hcl E c k n Hck). intros H. apply Hr. now apply reserved_iff.
Qed.
Print Assumptions C68_properties.
(** the definition installed is the property class's own *)
Theorem C68_definition : forall P V wrap_prop wrap_call package_ref none_ref show (w : world P V) ns objects properties m w' p,
  py_world P V w -> (forall c, In c objects \/ In c properties -> c < List.length w) -> no_reserved_names w ->
  package_init P V wrap_prop wrap_call package_ref none_ref show w ns objects properties (Some m) = (w', Ok p) ->
  (forall o names j, In (o, names) m -> pkg_get p o = Some j -> In j (p_objects p)) ->
  forall c q, In (c, q) (p_property_ref p) -> unrelated_property w properties c -> lookup w c (py "__registration__") = None ->
  exists s x, only_property w c s x /\ lookup w' q (py "__property_name__") = Some (AStr s) /\
  forall o names n j, In (o, names) m -> In n names -> pkg_get p o = Some j -> pkg_get p n = Some q ->
    (* no other property of the same name is mapped to this class *)
    (forall o' names' n' q', In (o', names') m -> In n' names' -> pkg_get p o' = Some j -> pkg_get p n' = Some q' -> lookup w' q' (py "__property_name__") = Some (AStr s) -> q' = q) ->
    lookup w' j s = Some (AProp (wrap_prop x)).
Proof.
  intros P V wp wc pr nr show w ns objects properties m w' p Hw Hlt Hn E Ht c q Hcq Hu Hrg. pose proof (py_proper w Hw) as Hp. pose proof (no_reserved_clean w Hn) as Hcl. pose proof E as E0.
  apply package_init_general in E0; [|exact Hp|auto|auto]. destruct E0 as (_ & -> & _).
  exact (package_definition P V wp wc pr nr show w objects properties m w' p Hp (fun c H => Hlt c (or_introl H)) (fun c H => Hlt c (or_intror H)) Hcl E Ht c q Hcq Hu Hrg).
Qed.
Print Assumptions C68_definition.
(** a package that can be built without a mapping can be built with every mapping of its own names to its own properties; a mapping with an unknown name raises ValueError; no package results from it *)
Theorem C68_outcome : forall P V wrap_prop wrap_call package_ref none_ref show (w : world P V) ns objects properties w0 p0 m,
  py_world P V w -> (forall c, In c objects \/ In c properties -> c < List.length w) -> no_reserved_names w ->
  (forall c, In c properties -> unrelated_property w properties c /\ lookup w c (py "__registration__") = None) ->
  package_init P V wrap_prop wrap_call package_ref none_ref show w ns objects properties (Some []) = (w0, Ok p0) ->
  (forall o names n q, In (o, names) m -> In n names -> pkg_get p0 n = Some q -> In q (p_properties p0)) ->
  let known := forall o names, In (o, names) m -> pkg_get p0 o <> None /\ forall n, In n names -> pkg_get p0 n <> None in
  (known -> exists w', package_init P V wrap_prop wrap_call package_ref none_ref show w ns objects properties (Some m) = (w', Ok (mkPackage (p_namespace p0) (p_object_ref p0) (p_property_ref p0) (p_ref p0) (Some m)))) /\
  (~ known -> exists w', package_init P V wrap_prop wrap_call package_ref none_ref show w ns objects properties (Some m) = (w', Err ValueError)).
Proof.
  intros P V wp wc pr nr show w ns objects properties w0 p0 m Hw Hlt Hn Hu E0 Hm known. pose proof (py_proper w Hw) as Hp. pose proof (no_reserved_clean w Hn) as Hcl. pose proof E0 as E1.
  apply package_init_general in E1; [|exact Hp|auto|auto]. destruct E1 as (_ & -> & _).
  destruct (package_outcome P V wp wc pr nr show w (p_namespace p0) objects properties m w0 p0 Hp (fun c H => Hlt c (or_introl H)) (fun c H => Hlt c (or_intror H)) Hcl Hu E0 Hm) as (w' & E).
  pose proof (resolve_some (p_ref p0) m) as Hk. split; intros H.
  - destruct (resolve (p_ref p0) m) as [L|]; [eauto|]. exfalso. apply (proj2 Hk); [exact H|reflexivity].
  - destruct (resolve (p_ref p0) m) as [L|]; [|eauto]. exfalso. assert (K : known) by (refine (proj1 Hk _); discriminate). exact (H K).
Qed.
Print Assumptions C68_outcome.
(** whatever the classes: a package built has a mapping all of whose names are known *)
Theorem C68_unknown_name : forall P V wrap_prop wrap_call package_ref none_ref show (w : world P V) ns objects properties m w' p,
  py_world P V w -> (forall c, In c objects \/ In c properties -> c < List.length w) ->
  package_init P V wrap_prop wrap_call package_ref none_ref show w ns objects properties m = (w', Ok p) ->
  exists mm, m = Some mm /\ forall o names, In (o, names) mm -> pkg_get p o <> None /\ forall n, In n names -> pkg_get p n <> None.
Proof.
  intros P V wp wc pr nr show w ns objects properties m w' p Hw Hlt E.
  destruct (package_built P V wp wc pr nr show w ns objects properties m w' p (py_proper w Hw) (fun c H => Hlt c (or_introl H)) (fun c H => Hlt c (or_intror H)) E) as (mm & w5 & w6 & nss & L & _ & -> & _ & _ & _ & _ & _ & HL & _).
  exists mm. split; [reflexivity|]. apply resolve_some. congruence.
Qed.
Print Assumptions C68_unknown_name.

(** the results are again reachable worlds, and the clones are classes of them: the theorems apply to what comes next *)
Theorem C81_reachable : forall P V wrap_prop wrap_call package_ref none_ref show (w : world P V) ns objects properties m w' r,
  py_world P V w -> (forall c, In c objects \/ In c properties -> c < List.length w) -> package_init P V wrap_prop wrap_call package_ref none_ref show w ns objects properties m = (w', r) ->
  py_world P V w' /\ (forall p, r = Ok p -> forall c, In c (p_objects p ++ p_properties p) -> c < List.length w').
Proof.
  intros P V wp wc pr nr show w ns objects properties m w' r Hw Hlt E. apply grows_package_init in E; [|exact Hlt]. destruct E as [[G _] R]. split; [exact (G Hw)|]. intros p ->. exact R.
Qed.
Print Assumptions C81_reachable.
(** ** C81 for packages: building a package changes no class that existed before, whatever the outcome *)
Theorem C81_package : forall P V wrap_prop wrap_call package_ref none_ref show (w : world P V) ns objects properties m w' r,
  py_world P V w -> (forall c, In c objects \/ In c properties -> c < List.length w) -> package_init P V wrap_prop wrap_call package_ref none_ref show w ns objects properties m = (w', r) ->
  forall c, c < List.length w -> get_cls w' c = get_cls w c.
Proof.
  intros P V wp wc pr nr show w ns objects properties m w' r Hw Hlt E. apply package_init_general in E; [|now apply py_proper|auto|auto]. exact (proj1 E).
Qed.
Print Assumptions C81_package.

(** a concrete package: two object classes, two property classes *)
Definition ns_attr (k : nskind) : pystr * attr nat nat := (py "__get_namespace__", ANs k).
Definition w_pkg : world nat nat :=
  add (add (add (add (add (add (object_world [])
    "JsonObject" [0] [(py "__get_properties__", ACall 7); (py "data", ACall 8)])
    "JsonProperty" [0] [(py "__get_property_name__", ACall 9); ns_attr (NsProp (py "v"))])
    "Object" [1] [(py "type", AStr (py "Object")); (py "id", AProp 1); ns_attr (NsType (py "v"))])
    "Note" [3] [(py "type", AStr (py "Note"))])
    "Name" [2] [(py "name", AProp 10)])
    "Content" [2] [(py "content", AProp 20)].
Definition pkg_case m := package_init nat nat S S 0 99 (fun _ _ => []) w_pkg (Some (py "v")) [3; 4] [5; 6] (Some m).
Definition pkg_nsf (c : nat) : option pystr := match c with 3 => Some (py "v#Object") | 4 => Some (py "v#Note") | 5 => Some (py "v#dfn-name") | 6 => Some (py "v#dfn-content") | _ => None end.
Lemma names_ok (w : world nat nat) : forallb (fun k => forallb (fun n => match d_get n (c_attrs k) with Some (AProp _) => false | _ => true end && match d_get (py "__property_name__") (c_attrs k) with Some (AStr s) => negb (str_eqb s n) | _ => true end)
  [py "__properties__"; py "__property_name__"; py "__jsonld_package__"; py "__registration__"; py "__get_property_name__"]) w = true -> no_reserved_names w.
Proof.
  intros H a n Hn. unfold get_cls. destruct (nth_in_or_default a w (mkCls [] [] [] [])) as [Hi| ->]; [|cbn; split; discriminate]. rewrite forallb_forall in H. specialize (H _ Hi). rewrite forallb_forall in H. specialize (H n Hn).
  apply andb_true_iff in H as [H1 H2]. split; [intros p E; now rewrite E in H1|]. intros E. rewrite E in H2. apply negb_true_iff, str_eqb_neq in H2. congruence.
Qed.
Example C68_case :
  py_world nat nat w_pkg /\ no_reserved_names w_pkg /\ (forall c, In c [5; 6] -> unrelated_property w_pkg [5; 6] c /\ lookup w_pkg c (py "__registration__") = None) /\
  match pkg_case [(py "v#Object", [py "v#dfn-name"]); (py "v#Note", [py "v#dfn-content"])] with
  | (w', Ok p) => p_object_ref p = [(3, 7); (4, 8)] /\ p_property_ref p = [(5, 9); (6, 10)] /\ pkg_get p (py "v#Note") = Some 8 /\ pkg_get p (py "v#dfn-name") = Some 9 /\ pkg_get p (py "v#nothing") = None /\
      property_names nat nat w_pkg 4 = [py "id"] /\ incl (property_names nat nat w' 8) [py "id"; py "name"; py "content"] /\ incl [py "id"; py "name"; py "content"] (property_names nat nat w' 8) /\ ~ In (py "content") (property_names nat nat w' 7) /\ lookup w' 8 (py "content") = Some (AProp 21)
  | _ => False end /\
  snd (pkg_case []) <> Err ValueError /\ snd (pkg_case [(py "v#Object", [py "v#dfn-nothing"])]) = Err ValueError /\ snd (pkg_case [(py "v#Thing", [])]) = Err ValueError.
Proof.
  split; [world|]. split.
  { apply names_ok. vm_compute. reflexivity. }
  split. { intros c Hc. cbn in Hc. destruct Hc as [<-|[<-|[]]]; (split; [|reflexivity]); (split; [intros a Ha Hm; vm_compute in Ha, Hm; intuition congruence|]); repeat split; vm_compute; discriminate. }
  split; [|vm_compute; repeat split; discriminate].
  vm_compute. repeat split; try (intros x Hx; cbn in *; tauto). intros Hx; repeat (destruct Hx as [Hx|Hx]; [discriminate|]); destruct Hx.
Qed.
Example C67_case : forall c, In c [3; 4; 5; 6] -> let l := if Nat.leb 5 c then [5; 6] else [3; 4] in
  c < List.length w_pkg /\ package_first w_pkg l c /\ unrelated_bases w_pkg c /\ ~ In (py "__get_namespace__") (property_names nat nat w_pkg c) /\ namespace_of w_pkg l c (pkg_nsf c).
Proof.
  intros c Hc. assert (Hx : c = 3 \/ c = 4 \/ c = 5 \/ c = 6) by (cbn in Hc; intuition). clear Hc. destruct Hx as [->|[->|[->| ->]]]; cbv zeta; cbn [Nat.leb];
    (split; [vm_compute; lia|]); (split; [|split; [|split]]).
  1: exists [3], [1; 0]. 5: exists [4; 3], [1; 0]. 9: exists [5], [2; 0]. 13: exists [6], [2; 0].
  1,5,9,13: (split; [reflexivity|]; cbn; split; intros a H; intuition lia).
  1,4,7,10: (intros b b' H1 H2; vm_compute in H1, H2; destruct H1 as [<-|[]], H2 as [<-|[]]; reflexivity).
  1,3,5,7: (vm_compute; intuition discriminate).
  - change (pkg_nsf 3) with (Some (py "v" ++ py "#" ++ py "Object")). apply type_namespace; [reflexivity|reflexivity|vm_compute; intuition discriminate].
  - change (pkg_nsf 4) with (Some (py "v" ++ py "#" ++ py "Note")). apply type_namespace; [reflexivity|reflexivity|vm_compute; intuition discriminate].
  - change (pkg_nsf 5) with (Some (py "v" ++ py "#dfn-" ++ py "name")). apply (property_namespace w_pkg [5; 6] 5 (py "v") (py "name") 10); [reflexivity| |reflexivity].
    split; [intros a Ha Hm; vm_compute in Ha, Hm; intuition congruence|]. repeat split; vm_compute; discriminate.
  - change (pkg_nsf 6) with (Some (py "v" ++ py "#dfn-" ++ py "content")). apply (property_namespace w_pkg [5; 6] 6 (py "v") (py "content") 20); [reflexivity| |reflexivity].
    split; [intros a Ha Hm; vm_compute in Ha, Hm; intuition congruence|]. repeat split; vm_compute; discriminate.
Qed.

(** ** C69 *)
(** adding or subtracting: TypeError for an operand that is no package; otherwise no package is ever produced *)
Theorem C69_packages : forall P V wrap_prop wrap_call package_ref none_ref show (w : world P V) self other,
  py_world P V w -> (forall c, In c (p_objects self ++ p_properties self) -> c < List.length w) -> (forall o, other = Some o -> forall c, In c (p_objects o ++ p_properties o) -> c < List.length w) ->
  forall w' r, pkg_add P V wrap_prop wrap_call package_ref none_ref show w self other = (w', r) \/ pkg_sub P V wrap_prop wrap_call package_ref none_ref show w self other = (w', r) ->
  exists e, r = Err e /\ (other = None -> e = TypeError /\ w' = w) /\ (e = TypeError \/ e = ValueError \/ e = AttributeError).
Proof.
  intros P V wp wc pr nr show w self other Hw H1 H2 w' r E. pose proof (py_proper w Hw) as Hp. destruct other as [o|]; [|destruct E as [E|E]; cbn in E; exists TypeError; repeat split; auto; congruence].
  specialize (H2 o eq_refl). assert (G1 : forall c, In c (p_objects self) -> c < List.length w) by (intros; apply H1, in_or_app; auto). assert (G2 : forall c, In c (p_properties self) -> c < List.length w) by (intros; apply H1, in_or_app; auto).
  assert (G3 : forall c, In c (p_objects o) -> c < List.length w) by (intros; apply H2, in_or_app; auto). assert (G4 : forall c, In c (p_properties o) -> c < List.length w) by (intros; apply H2, in_or_app; auto).
  destruct E as [E|E]; unfold pkg_add, pkg_sub in E; apply pkg_combine_fails in E; auto.
  - destruct E as (e & -> & He). exists e. split; [reflexivity|]. split; [discriminate|exact He].
  - intros c Hc. rewrite !in_app_iff in Hc. destruct Hc as [Hc|[Hc|[Hc|Hc]]]; auto.
  - intros a b c Hc. now apply in_app_or.
  - destruct E as (e & -> & He). exists e. split; [reflexivity|]. split; [discriminate|exact He].
  - intros c Hc. rewrite !in_app_iff in Hc. destruct Hc as [Hc|[Hc|[Hc|Hc]]]; auto.
Qed.
Print Assumptions C69_packages.
(** when re-cloning the classes works, the exception is the AttributeError of the missing mapping *)
Theorem C69_attribute_error : forall P V wrap_prop wrap_call package_ref none_ref show (w : world P V) ns objects properties m w' p,
  py_world P V w -> (forall c, In c objects \/ In c properties -> c < List.length w) -> package_init P V wrap_prop wrap_call package_ref none_ref show w ns objects properties (Some m) = (w', Ok p) ->
  snd (package_init P V wrap_prop wrap_call package_ref none_ref show w ns objects properties None) = Err AttributeError.
Proof.
  intros P V wp wc pr nr show w ns objects properties m w' p Hw Hlt E. destruct ns as [s|]; [|discriminate]. rewrite package_init_prepare in *.
  destruct (prepare P V wp wc pr show w objects properties) as [w5 [[[oref pref] nss]|e]]; [reflexivity|discriminate].
Qed.
Print Assumptions C69_attribute_error.
Example C69_case : match pkg_case [(py "v#Object", [py "v#dfn-name"])] with
  | (w', Ok p) => snd (pkg_add nat nat S S 0 99 (fun _ _ => []) w' p (Some p)) = Err AttributeError /\ snd (pkg_sub nat nat S S 0 99 (fun _ _ => []) w' p (Some p)) = Err AttributeError
  | _ => False end.
Proof. vm_compute. auto. Qed.
(** engines: only a single package is accepted - a tuple, list or anything else raises AttributeError - and combining engines or adding a package never succeeds *)
Theorem C69_engine_packages : forall P V show engine_ref (w : world P V) arg w' e, engine_init P V show engine_ref w arg = (w', Ok e) -> exists p, arg = EPackage p /\ e_package e = p /\ e_packages e = [EPackage p].
Proof.
  intros P V show er w arg w' e. unfold engine_init. destruct arg as [p|l|]; [|discriminate|discriminate]. destruct (register_all P V show er w [] (p_objects p)) as [[w1 r] [u|x]]; [|discriminate].
  destruct (set_class_attrs P V w1 r []) as [a|]; [|discriminate]. intros E. injection E as _ <-. exists p. repeat split; reflexivity.
Qed.
Print Assumptions C69_engine_packages.
Theorem C69_engine_sequence : forall P V show engine_ref (w : world P V) l, engine_init P V show engine_ref w (ETuple l) = (w, Err AttributeError) /\ engine_init P V show engine_ref w EOther = (w, Err AttributeError).
Proof. intros. split; reflexivity. Qed.
Print Assumptions C69_engine_sequence.
Theorem C69_engine_combine : forall P V show engine_ref (w : world P V) self other, exists e1 e2,
  engine_add P V show engine_ref w self other = (w, Err e1) /\ engine_sub P V w self other = (w, Err e2) /\ e2 = TypeError /\
  (e1 = AttributeError <-> exists o, other = OEngine o) /\ (e1 = TypeError <-> ~ exists o, other = OEngine o).
Proof.
  intros P V show er w self other. destruct other as [p|o|]; cbn [engine_add engine_sub]; unfold engine_sub; do 2 eexists; (split; [reflexivity|]); (split; [reflexivity|]); (split; [reflexivity|]);
    (split; split; intros H; try discriminate H; try reflexivity; try (intros (x & Hx); discriminate Hx); try (destruct H as (x & Hx); discriminate Hx); eauto); exfalso; apply H; eauto.
Qed.
Print Assumptions C69_engine_combine.

(** ** C70. A registry is a dict namespace (or None) -> class: [ns_get]. *)
Theorem C70_register : forall P V engine_ref (w : world P V) reg name c w' reg' r, register_class P V engine_ref w reg name c = (w', reg', r) ->
  (ns_get name reg <> None -> r = Err ValueError /\ reg' = reg /\ w' = w) /\
  (ns_get name reg = None -> r = Ok tt /\ (forall x, ns_get x reg' = if ns_eqb x name then Some c else ns_get x reg) /\ w' = set_attr w c (py "__jsonld_engine__") (AOther engine_ref)).
Proof.
  intros P V er w reg name c w' reg' r. unfold register_class. destruct (ns_get name reg) as [x|].
  - intros E. split; [intros _; repeat split; congruence|discriminate].
  - intros E. split; [intros H; now destruct H|]. intros _. split; [congruence|]. split; [|congruence]. intros y. assert (reg' = ns_set name c reg) by congruence. subst. apply ns_get_set.
Qed.
Print Assumptions C70_register.
(** over any sequence of registrations (exceptions caught), an entry once made is never changed *)
Fixpoint register_many {P V} (engine_ref : V) (w : world P V) (reg : nsdict) (l : list (option pystr * nat)) : world P V * nsdict :=
  match l with [] => (w, reg) | (n, c) :: l' => let '(w1, reg1, _) := register_class P V engine_ref w reg n c in register_many engine_ref w1 reg1 l' end.
Theorem C70_never_overwritten : forall P V engine_ref l (w : world P V) reg x,
  ns_get x (snd (register_many engine_ref w reg l)) = match ns_get x reg with Some c => Some c | None => match find (fun y => ns_eqb x (fst y)) l with Some y => Some (snd y) | None => None end end.
Proof.
  intros P V er l. induction l as [|[n c] l IH]; intros w reg x; cbn [register_many find fst snd]; [now destruct (ns_get x reg)|].
  destruct (register_class P V er w reg n c) as [[w1 reg1] r] eqn:E. rewrite IH. destruct (C70_register P V er w reg n c w1 reg1 r E) as [H1 H2]. destruct (ns_get n reg) as [d|] eqn:En.
  - destruct H1 as (_ & -> & _); [discriminate|]. destruct (ns_get x reg) eqn:Ex; [reflexivity|]. destruct (ns_eqb x n) eqn:Exn; [|reflexivity]. apply ns_eqb_eq in Exn as ->. congruence.
  - destruct H2 as (_ & H2 & _); [reflexivity|]. rewrite H2. destruct (ns_eqb x n) eqn:Exn; [|reflexivity]. apply ns_eqb_eq in Exn as ->. now rewrite En.
Qed.
Print Assumptions C70_never_overwritten.
Example C70_register_case : snd (register_many 5 w_pkg [] [(Some (py "a"), 3); (Some (py "b"), 4); (Some (py "a"), 4)]) = [(Some (py "a"), 3); (Some (py "b"), 4)].
Proof. reflexivity. Qed.
(** what [__get_namespace__()] answers does not depend on the attribute [__jsonld_engine__] *)
Ltac fin := intros E; apply pair_equal_spec in E as [_ E]; first [discriminate E | now rewrite E].
Lemma namespace_stable P V show (w w1 : world P V) c x : proper P V w -> c < List.length w -> (forall d n, n <> py "__jsonld_engine__" -> d_get n (c_attrs (get_cls w1 d)) = d_get n (c_attrs (get_cls w d))) -> (forall d, mro w1 d = mro w d) ->
  get_namespace P V show w c = (w, Ok x) -> get_namespace P V show w1 c = (w1, Ok x).
Proof.
  intros Hp Hc Hat Hm. assert (Hlk : forall d n, n <> py "__jsonld_engine__" -> lookup w1 d n = lookup w d n) by (intros d n Hn; unfold lookup; rewrite Hm; apply (find_attr_ext P V); intros a _; now apply Hat).
  assert (Hfo : forall n l, n <> py "__jsonld_engine__" -> find_owner P V w1 l n = find_owner P V w l n) by (intros n l Hn; induction l as [|a l IH]; [reflexivity|]; cbn [find_owner]; rewrite Hat by exact Hn; destruct (d_get n (c_attrs (get_cls w a))); [reflexivity|exact IH]).
  unfold get_namespace. rewrite Hlk by discriminate. destruct (lookup w c (py "__get_namespace__")) as [a|]; [|fin]. destruct a as [| | | | |kind|]; try (fin). destruct kind as [|pre|pre]; try (fin).
  - rewrite Hm, Hfo by discriminate. destruct (find_owner P V w (mro w c) (py "type")) as [[o v]|]; [|fin]. destruct v; fin.
  - rewrite Hlk by discriminate. destruct (lookup w c (py "__get_property_name__")) as [g|]; [|fin]. unfold get_property_name. rewrite Hlk by discriminate. destruct (lookup w c (py "__property_name__")) as [v|] eqn:Ep; [destruct v; fin|].
    destruct (filter (fun x => is_prop P V (snd x)) (c_attrs (get_cls w c))) as [|[n v] [|]]; try (fin). intros E. exfalso. apply pair_equal_spec in E as [Ew _].
    destruct (proper_mro P V w c Hp Hc) as (m & Em & _). rewrite (lookup_own P V w c m) in Ep by exact Em. pose proof (own_set_same P V w c (py "__property_name__") (AStr n) Hc) as Ho. rewrite Ew in Ho. rewrite Ho in Ep. discriminate.
Qed.
(** engine construction registers, for every namespace, the first class of the package that has it; the registered classes get the attribute [__jsonld_engine__]; nothing else changes.
    [nsf c]: what [c.__get_namespace__()] answers (without changing anything: [package_init] has called it before). *)
Theorem C70_engine : forall P V show engine_ref (w : world P V) p w' e (nsf : nat -> option pystr), py_world P V w ->
  (forall c, In c (p_objects p) -> c < List.length w /\ get_namespace P V show w c = (w, Ok (nsf c))) ->
  engine_init P V show engine_ref w (EPackage p) = (w', Ok e) ->
  (forall x, ns_get x (e_registry e) = find (fun c => ns_eqb x (nsf c)) (p_objects p)) /\
  (forall c, In c (p_objects p) -> (ns_get (nsf c) (e_registry e) = Some c -> d_get (py "__jsonld_engine__") (c_attrs (get_cls w' c)) = Some (AOther engine_ref))) /\
  (forall d n, n <> py "__jsonld_engine__" -> d_get n (c_attrs (get_cls w' d)) = d_get n (c_attrs (get_cls w d))).
Proof.
  intros P V show er w p w' e nsf Hw Hns. apply py_proper in Hw. cbn [engine_init].
  assert (G : forall cs reg w1 w2 reg2, (forall c, In c cs -> In c (p_objects p)) -> (forall d n, n <> py "__jsonld_engine__" -> d_get n (c_attrs (get_cls w1 d)) = d_get n (c_attrs (get_cls w d))) -> (forall d, mro w1 d = mro w d) -> List.length w1 = List.length w ->
    register_all P V show er w1 reg cs = (w2, reg2, Ok tt) ->
    (forall x, ns_get x reg2 = match ns_get x reg with Some c => Some c | None => find (fun c => ns_eqb x (nsf c)) cs end) /\ (forall d n, n <> py "__jsonld_engine__" -> d_get n (c_attrs (get_cls w2 d)) = d_get n (c_attrs (get_cls w d))) /\
    (forall c, d_get (py "__jsonld_engine__") (c_attrs (get_cls w1 c)) = Some (AOther er) -> d_get (py "__jsonld_engine__") (c_attrs (get_cls w2 c)) = Some (AOther er)) /\
    (forall c, In c cs -> c < List.length w -> ns_get (nsf c) reg = None -> ns_get (nsf c) reg2 = Some c -> d_get (py "__jsonld_engine__") (c_attrs (get_cls w2 c)) = Some (AOther er))).
  { induction cs as [|c cs IH]; intros reg w1 w2 reg2 Hin Hat Hm Hl; cbn [register_all find].
    - intros E. assert (w2 = w1) by congruence. assert (reg2 = reg) by congruence. subst. split; [intros x; now destruct (ns_get x reg)|]. repeat split; auto. intros c [].
    - destruct (Hns c (Hin c (or_introl eq_refl))) as [Hcl0 Hns0]. rewrite (namespace_stable P V show w w1 c (nsf c) Hw Hcl0 Hat Hm Hns0). destruct (ns_get (nsf c) reg) as [d|] eqn:Ed.
      + intros E. destruct (IH reg w1 w2 reg2 (fun d Hd => Hin d (or_intror Hd)) Hat Hm Hl E) as (A & B & C & D). split; [|split; [exact B|split; [exact C|]]].
        * intros x. rewrite A. destruct (ns_get x reg) eqn:Ex; [reflexivity|]. destruct (ns_eqb x (nsf c)) eqn:E2; [|reflexivity]. apply ns_eqb_eq in E2 as ->. congruence.
        * intros c' [<-|Hc'] Hcl Hr Hr2; [congruence|]. now apply D.
      + rewrite (namespace_stable P V show w w1 c (nsf c) Hw Hcl0 Hat Hm Hns0). unfold register_class. rewrite Ed. set (w3 := set_attr w1 c (py "__jsonld_engine__") (AOther er)). intros E.
        assert (Hat3 : forall d n, n <> py "__jsonld_engine__" -> d_get n (c_attrs (get_cls w3 d)) = d_get n (c_attrs (get_cls w d))). { intros d n Hn. rewrite <- Hat by exact Hn. apply (own_set_other P V w1 c (py "__jsonld_engine__") (AOther er) d n). now right. }
        assert (Hm3 : forall d, mro w3 d = mro w d) by (intros d; unfold w3; rewrite mro_set; apply Hm). assert (Hl3 : List.length w3 = List.length w) by (unfold w3; rewrite set_attr_length; exact Hl).
        destruct (IH _ w3 w2 reg2 (fun d Hd => Hin d (or_intror Hd)) Hat3 Hm3 Hl3 E) as (A & B & C & D). split; [|split; [exact B|split]].
        * intros x. rewrite A, ns_get_set. destruct (ns_eqb x (nsf c)) eqn:E2; [|reflexivity]. apply ns_eqb_eq in E2 as ->. now rewrite Ed.
        * intros d Hd. apply C. destruct (Nat.eq_dec d c) as [->|Hne]; [|rewrite <- Hd; apply (own_set_other P V w1 c (py "__jsonld_engine__") (AOther er) d (py "__jsonld_engine__")); now left].
          destruct (Nat.lt_ge_cases c (List.length w1)) as [Hlt|Hge]; [exact (own_set_same P V w1 c (py "__jsonld_engine__") (AOther er) Hlt)|]. unfold w3. rewrite (set_attr_out P V) by exact Hge. exact Hd.
        * intros c' [<-|Hc'] Hcl Hr Hr2.
          -- apply C. assert (Hlt : c < List.length w1) by lia. exact (own_set_same P V w1 c (py "__jsonld_engine__") (AOther er) Hlt).
          -- destruct (ns_eqb (nsf c') (nsf c)) eqn:E2.
             ++ apply ns_eqb_eq in E2. rewrite A, E2, ns_get_set in Hr2. assert (Hrefl : ns_eqb (nsf c) (nsf c) = true) by now apply ns_eqb_eq. rewrite Hrefl in Hr2. injection Hr2 as ->. apply C. assert (Hlt : c' < List.length w1) by lia. exact (own_set_same P V w1 c' (py "__jsonld_engine__") (AOther er) Hlt).
             ++ apply D; auto. rewrite ns_get_set, E2. exact Hr. }
  destruct (register_all P V show er w [] (p_objects p)) as [[w1 reg] [u|x]] eqn:E1; [|discriminate]. destruct u. destruct (set_class_attrs P V w1 reg []) as [a|]; [|discriminate]. intros E. apply pair_equal_spec in E as [<- E]. injection E as <-. cbn [e_registry].
  destruct (G (p_objects p) [] w w1 reg (fun c H => H) (fun d n _ => eq_refl) (fun d => eq_refl) eq_refl E1) as (A & B & C & D). split; [exact A|]. split; [|exact B]. intros c Hc Hr. apply D; auto. apply (Hns c Hc).
Qed.
Print Assumptions C70_engine.
Example C70_case : match pkg_case [] with
  | (w', Ok p) => (forall c, In c (p_objects p) -> c < List.length w' /\ get_namespace nat nat (fun _ _ => []) w' c = (w', Ok (match c with 7 => Some (py "v#Object") | _ => Some (py "v#Note") end))) /\
      match engine_init nat nat (fun _ _ => []) 5 w' (EPackage p) with (_, Ok e) => e_registry e = [(Some (py "v#Object"), 7); (Some (py "v#Note"), 8)] /\ e_attrs e = [(py "Object", 7); (py "Note", 8)] | _ => False end
  | _ => False end.
Proof.
  destruct (pkg_case []) as [w' [p|e]] eqn:E; [|vm_compute in E; discriminate]. assert (Hc : forallb (fun c => Nat.ltb c (List.length w')) (p_objects p) = true) by (vm_compute in E; injection E as <- <-; reflexivity).
  vm_compute in E. injection E as <- <-. split; [|vm_compute; auto]. intros c Hi. split; [apply Nat.ltb_lt; rewrite forallb_forall in Hc; now apply Hc|]. cbn in Hi. destruct Hi as [<-|[<-|[]]]; vm_compute; reflexivity.
Qed.
(** after a property called "type" was mapped, the package finds the class under its namespace but the engine does not: the namespace is computed again, from the property's text form *)
Definition w_type : world nat nat := add w_pkg "Type" [2] [(py "type", AProp 30)].
Definition type_case : world nat nat * res package := package_init nat nat S S 0 99 (fun _ _ => py "<property>") w_type (Some (py "v")) [3; 4] [5; 6; 7] (Some [(py "v#Object", [py "v#dfn-type"])]).
Definition type_check : bool :=
  match type_case with
  | (w', Ok p) => match engine_init nat nat (fun _ _ => py "<property>") 5 w' (EPackage p) with
                  | (_, Ok e) => match pkg_get p (py "v#Object"), ns_get (Some (py "v#Object")) (e_registry e), ns_get (Some (py "v#<property>")) (e_registry e) with Some 8, None, Some 8 => true | _, _, _ => false end
                  | _ => false end
  | _ => false end.
Theorem C70_type_refuted : exists w' p e w2, py_world nat nat w_type /\ type_case = (w', Ok p) /\ pkg_get p (py "v#Object") = Some 8 /\
  engine_init nat nat (fun _ _ => py "<property>") 5 w' (EPackage p) = (w2, Ok e) /\ ns_get (Some (py "v#Object")) (e_registry e) = None /\ ns_get (Some (py "v#<property>")) (e_registry e) = Some 8.
Proof.
  assert (H : type_check = true) by (vm_compute; reflexivity). unfold type_check in H. destruct type_case as [w' [p|e0]]; [|discriminate].
  destruct (engine_init nat nat (fun _ _ => py "<property>") 5 w' (EPackage p)) as [w2 [e|e0]] eqn:E2; [|discriminate]. exists w', p, e, w2. split; [unfold w_type; world|]. split; [reflexivity|].
  destruct (pkg_get p (py "v#Object")) as [k|]; [|discriminate]. destruct (ns_get (Some (py "v#Object")) (e_registry e)); [do 9 (destruct k as [|k]; try discriminate)|]. destruct (ns_get (Some (py "v#<property>")) (e_registry e)) as [i|]; [|do 9 (destruct k as [|k]; try discriminate)].
  do 9 (destruct k as [|k]; try discriminate); do 9 (destruct i as [|i]; try discriminate). repeat split; auto.
Qed.
Print Assumptions C70_type_refuted.
