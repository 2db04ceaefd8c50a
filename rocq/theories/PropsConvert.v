(** Property theorems C90, C91: reading a property that holds an object of models.py, and the namespaces of classes.
    [get_attr ov c attrs n s] is obj.n for an instance of the package's class [c]: what it leaves behind (replaced namespaces [ov], the object's attributes, the outside state) and the value or exception.
    [VObj linked c attrs]: an object of the package ([linked]) or of models.py; [peek] is the value an attribute holds. *)
From Coq Require Import String.
From Verif Require Import Base BaseFacts Dict DictFacts Duration DateTime Url JsonData VocabTables Vocab VocabFacts VocabStore VocabConstruct VocabLinks VocabMut VocabMutFacts PropsVocab PropsRoundTrip PyClass.
Open Scope list_scope.

Section C90.
Variable netloc_ok : pystr -> bool.
Variable nd : N -> option N.
Variable email : pystr -> res bool.
Variable props_order : bool -> cname -> list pystr.
Variables St J : Type.
Variable fetch : St -> value -> St * res J.
Variable form : St -> bool -> cname -> J -> St * res value.
Variable prop_repr : cname -> pystr.
Notation get_attr := (get_attr netloc_ok nd email props_order St J fetch form prop_repr).
Notation change_class := (change_class netloc_ok nd email props_order).
Notation link_ns_of := (link_ns_of prop_repr).
Notation assign := (assign netloc_ok nd email).
Notation construct := (construct netloc_ok nd email).
Notation accepted := (accepted netloc_ok nd email).
Hypothesis Ho : orders props_order.

(** ** Specification *)
(** the value the attribute [n] of an object of models.py has; None if it has none *)
Definition had (c : cname) (a : dict value) (n : pystr) : value := match peek false c a n with Some v => v | None => VNone end.
(** obj.n = v for an instance of the package's class c: succeeds, and then obj.n holds w / raises e; whatever the object's attributes are *)
Definition takes_as (c : cname) (n : pystr) (v w : value) : Prop := forall a, exists a', assign true c a n v = Ok a' /\ peek true c a' n = Some w.
Definition refuses (c : cname) (n : pystr) (v : value) (e : exn) : Prop := forall a, assign true c a n v = Err e.
(** the properties of c other than those that conversion skips *)
Definition own_property (c : cname) (n : pystr) : Prop := In n (property_set true c) /\ n <> py "__namespace__".

Lemma accepted_takes c n v w : n <> py "hreflang" -> accepted c n v = Ok w -> takes_as c n v w.
Proof. intros Hh E a. rewrite assign_norm. unfold VocabMutFacts.accepted in E. rewrite E. eexists. split; [reflexivity|]. apply peek_set; [exact Hh|apply d_get_set_same]. Qed.
Lemma accepted_refuses c n v e : accepted c n v = Err e <-> refuses c n v e.
Proof. unfold refuses, VocabMutFacts.accepted. split; [intros E a; now rewrite assign_norm, E|intros H; specialize (H []); rewrite assign_norm in H; destruct (norm _ _ _ _ _ _ _) as [w|e']; [discriminate|congruence]]. Qed.

(** what change_class does to the object *)
Lemma changed ov k b ov' b' r : change_class ov k b = (ov', b', r) ->
  (r = None -> ov' = k :: ov /\ forall n, own_property k n -> (exists w, accepted k n (had k b n) = Ok w /\ d_get (key true k n) b' = Some w) \/ (accepted k n (had k b n) = Err AttributeError /\ d_get (key true k n) b' = d_get (key true k n) b)) /\
  (forall e, r = Some e -> e <> AttributeError /\ (ov' = ov \/ ov' = k :: ov) /\ exists n, own_property k n /\ accepted k n (had k b n) = Err e) /\
  (forall x, (forall n, own_property k n -> key true k n <> x) -> d_get x b' = d_get x b).
Proof.
  unfold VocabMut.change_class. intros E. destruct (Ho true k) as [N I]. destruct (change_from_ok netloc_ok nd email b k (props_order true k) N (fun n Hn => property_plain k n (proj1 (I n) Hn)) _ _ _ _ _ E) as (H1 & H2 & H3). split; [|split].
  - intros Hr. destruct (H2 Hr) as [J1 J2]. assert (mem_str (py "__namespace__") (props_order true k) = true) as Hm by (apply mem_str_in, I; right; now left). rewrite Hm in J1. split; [exact J1|].
    intros n [Hn Hne]. exact (J2 n (proj2 (I n) Hn) Hne).
  - intros e Hr. destruct (H3 e Hr) as (J1 & J2 & n & J3 & J4 & J5). split; [exact J1|]. split; [exact J2|]. exists n. split; [split; [now apply I|exact J4]|exact J5].
  - intros x Hx. apply H1. intros X. apply in_map_iff in X as (n & X1 & X2). apply filter_In in X2 as [X2 X3]. apply (Hx n); [|exact X1]. split; [now apply I|]. intros ->. rewrite str_eqb_refl in X3. discriminate.
Qed.

(** ** C90 *)
Definition get_table : bool := nodupb (map pd_get (acontext_def :: properties_py)) && forallb (fun p => negb (plain (pd_get p))) (acontext_def :: properties_py).
Lemma get_table_ok : get_table = true. Proof. vm_compute. reflexivity. Qed.
Lemma get_key_plain p : In p (acontext_def :: properties_py) -> plain (pd_get p) = false.
Proof. intros H. pose proof get_table_ok as T. apply andb_true_iff in T as [_ T]. rewrite forallb_forall in T. apply T in H. now apply negb_true_iff in H. Qed.
Lemma get_key_inj p q : In p (acontext_def :: properties_py) -> In q (acontext_def :: properties_py) -> pd_get p = pd_get q -> p = q.
Proof. pose proof get_table_ok as T. apply andb_true_iff in T as [T _]. apply nodupb_spec in T. apply nodup_map_eq with (1 := T). Qed.
Lemma other_attr c n p m v attrs : prop_of true c n = Some p -> m <> n -> plain m = true -> peek true c (d_set (pd_get p) v attrs) m = peek true c attrs m.
Proof.
  intros Hp Hm Hpl. pose proof (prop_of_in true c n p Hp) as Hi. unfold peek. destruct (prop_of true c m) as [q|] eqn:Hq.
  - unfold stored. rewrite d_get_set_other; [reflexivity|]. intros X. apply get_key_inj in X; [|exact (prop_of_in true c m q Hq)|exact Hi]. subst q. apply Hm. rewrite <- (prop_of_name _ _ _ _ Hp), <- (prop_of_name _ _ _ _ Hq). reflexivity.
  - rewrite d_get_set_other; [reflexivity|]. intros X. subst m. rewrite (get_key_plain p Hi) in Hpl. discriminate.
Qed.
(** reading leaves the object as it is, unless the property holds an object of models.py itself *)
Theorem C90_unchanged : forall ov c attrs n s ov' attrs' s' r, get_attr ov c attrs n s = ((ov', attrs', s'), r) -> (forall k b, peek true c attrs n <> Some (VObj false k b)) -> attrs' = attrs.
Proof.
  intros ov c attrs n s ov' attrs' s' r E H. unfold VocabMut.get_attr in E. destruct (str_eqb n (py "__namespace__")); [congruence|]. destruct (prop_of true c n) as [p|] eqn:Hp; [|congruence]. rewrite (peek_prop true c attrs n p Hp) in H.
  destruct (stored p attrs) as [v|] eqn:Hs; [|congruence]. destruct (pd_link p && _)%bool; [congruence|].
  assert (G : forall s1 w itself, (itself = true -> w = v) -> (let (s1, wb) := (s1, (w, itself)) in match wb with (VObj false k b, itself) => let '(ov', b', r) := change_class ov k b in ((ov', if itself then d_set (pd_get p) (VObj true k b') attrs else attrs, s1), match r with None => Ok (VObj true k b') | Some e => Err e end) | (w, _) => ((ov, attrs, s1), Ok w) end) = ((ov', attrs', s'), r) -> attrs' = attrs).
  { intros s1 w itself Hw. destruct w as [ | | | | | | | | | | |l k b| | ]; try congruence. destruct l; [congruence|]. destruct (change_class ov k b) as [[o1 b1] r1]. destruct itself; [|congruence]. specialize (Hw eq_refl). subst v. destruct (H k b eq_refl). }
  destruct (pd_link p); [|exact (G s v true (fun _ => eq_refl) E)].
  destruct (expand_get St J fetch form prop_repr ov s v) as [s1 [w itself]] eqn:Ex. apply (G s1 w itself); [|exact E]. intros ->. clear - Ex. unfold expand_get in Ex. destruct v as [ | | | | | | | | | | |l k b| | ]; try congruence.
  destruct (VocabMut.link_ns_of prop_repr ov l k); [|congruence]. destruct (peek l k b (py "href")) as [h|]; [|congruence]. destruct (truthy h); [|congruence]. destruct (fetch s h) as [s2 [j|e]]; [|congruence]. destruct (form s2 l k j) as [s3 [o|e]]; [|congruence]. destruct (truthy o); congruence.
Qed.
(** an object of models.py that is not a link to expand: it is converted where it is stored, whether the read succeeds or raises; nothing else in the object changes and nothing is requested.
    The read succeeds if and only if every attribute is acceptable for the package's class (AttributeError is ignored); then each property holds what assigning the attribute gives. Otherwise it raises what such an assignment raises. *)
Theorem C90_converts : forall ov c attrs n s k b ov' attrs' s' r, own_property c n -> plain_type c n = false -> peek true c attrs n = Some (VObj false k b) -> link_ns_of ov false k = false ->
  get_attr ov c attrs n s = ((ov', attrs', s'), r) ->
  s' = s /\ (forall m, m <> n -> plain m = true -> peek true c attrs' m = peek true c attrs m) /\
  exists b', peek true c attrs' n = Some (VObj true k b') /\
    ((r = Ok (VObj true k b') /\ (forall m, own_property k m -> m <> py "hreflang" -> takes_as k m (had k b m) (match peek true k b' m with Some w => w | None => VNone end) \/ (refuses k m (had k b m) AttributeError /\ peek true k b' m = peek true k b m)))
     \/ exists e m, r = Err e /\ e <> AttributeError /\ own_property k m /\ refuses k m (had k b m) e).
Proof.
  intros ov c attrs n s k b ov' attrs' s' r [Hn Hne] Hpt Hpk Hl E. destruct (property_set_prop c n Hn Hne Hpt) as (p & _ & Hp). unfold VocabMut.get_attr in E.
  destruct (str_eqb n (py "__namespace__")) eqn:En; [apply str_eqb_eq in En; contradiction|]. clear En. rewrite Hp in E. rewrite (peek_prop true c attrs n p Hp) in Hpk. rewrite Hpk in E.
  assert (no_href prop_repr ov (VObj false k b) = false) as Hnh by (unfold no_href; now rewrite Hl). rewrite Hnh, andb_false_r in E.
  assert ((if pd_link p then expand_get St J fetch form prop_repr ov s (VObj false k b) else (s, (VObj false k b, true))) = (s, (VObj false k b, true))) as Hx by (unfold expand_get; rewrite Hl; destruct (pd_link p); reflexivity). rewrite Hx in E.
  destruct (change_class ov k b) as [[o1 b1] r1] eqn:Ec. assert (attrs' = d_set (pd_get p) (VObj true k b1) attrs /\ s' = s /\ r = match r1 with None => Ok (VObj true k b1) | Some e => Err e end) as (-> & -> & ->) by (repeat split; congruence). clear E.
  split; [reflexivity|]. split; [intros m Hm Hpl; now apply (other_attr c n p)|]. exists b1. split; [rewrite (peek_prop true c _ n p Hp); unfold stored; now rewrite d_get_set_same|].
  destruct (changed _ _ _ _ _ _ Ec) as (H1 & H2 & _). destruct r1 as [e|].
  - right. destruct (H2 e eq_refl) as (X & _ & m & Y & Z). exists e, m. split; [reflexivity|]. split; [exact X|]. split; [exact Y|now apply accepted_refuses].
  - left. split; [reflexivity|]. destruct (H1 eq_refl) as [_ H]. intros m Hm Hh. destruct (H m Hm) as [(w & X & Y)|[X Y]].
    + left. rewrite (peek_set true k b1 m w Hh Y). now apply accepted_takes.
    + right. split; [now apply accepted_refuses|]. unfold peek. destruct Hm as [Hm Hmne]. unfold key in Y. destruct (prop_of true k m) as [q|] eqn:Hq; [unfold stored; rewrite (prop_keys true k m q Hq Hh), Y; reflexivity|now rewrite Y].
Qed.
(** the same read again returns the object as the first one left it, also if the first one raised *)
Theorem C90_again : forall ov c attrs n s k b ov' attrs' s' r, own_property c n -> plain_type c n = false -> peek true c attrs n = Some (VObj false k b) -> link_ns_of ov false k = false ->
  get_attr ov c attrs n s = ((ov', attrs', s'), r) -> link_ns_of ov' true k = false -> exists b', peek true c attrs' n = Some (VObj true k b') /\ forall s2, get_attr ov' c attrs' n s2 = ((ov', attrs', s2), Ok (VObj true k b')).
Proof.
  intros ov c attrs n s k b ov' attrs' s' r Hn Hpt Hpk Hl E Hl2. destruct (C90_converts _ _ _ _ _ _ _ _ _ _ _ Hn Hpt Hpk Hl E) as (_ & _ & b' & Hb & _). exists b'. split; [exact Hb|]. intros s2. destruct Hn as [Hn Hne]. destruct (property_set_prop c n Hn Hne Hpt) as (p & _ & Hp). unfold VocabMut.get_attr.
  destruct (str_eqb n (py "__namespace__")) eqn:En; [apply str_eqb_eq in En; contradiction|]. rewrite Hp. rewrite (peek_prop true c attrs' n p Hp) in Hb. rewrite Hb. unfold no_href, expand_get. rewrite Hl2, andb_false_r. destruct (pd_link p); reflexivity.
Qed.

(** a list is returned as it is: the objects of models.py in it are not converted *)
Theorem C90_lists : forall ov c attrs n s l, n <> py "__namespace__" -> peek true c attrs n = Some (VList l) -> get_attr ov c attrs n s = ((ov, attrs, s), Ok (VList l)).
Proof.
  intros ov c attrs n s l Hn H. unfold VocabMut.get_attr. destruct (str_eqb n (py "__namespace__")) eqn:E; [apply str_eqb_eq in E; contradiction|]. destruct (prop_of true c n) as [p|] eqn:Hp; [|now rewrite H].
  rewrite (peek_prop true c attrs n p Hp) in H. rewrite H. cbn [no_href]. rewrite andb_false_r. destruct (pd_link p); reflexivity.
Qed.

(** converting an object of models.py gives what the package's constructor makes of the same arguments; the type is the exception: for Object and Link the constructor leaves it None *)
Definition like_table (k : cname) : bool := is_collection k || forallb (fun n => str_eqb n (py "__namespace__") || str_eqb n (py "type") || (plain n && match last_write n (stages k) with Some true => true | None => negb (str_eqb n (py "height")) && negb (str_eqb n (py "hreflang")) && negb (str_eqb n (py "acontext")) | _ => false end)) (property_set true k).
Lemma like_tables : forallb like_table all_classes = true. Proof. vm_compute. reflexivity. Qed.
Lemma strict_rows : forallb (fun p => negb (pd_strict p) || str_eqb (pd_name p) (py "height")) (acontext_def :: properties_py) = true. Proof. vm_compute. reflexivity. Qed.
Theorem C90_like_constructed : forall ov k args a, is_collection k = false -> construct true k args = Ok (VObj true k a) -> exists b b', construct false k args = Ok (VObj false k b) /\ change_class ov k b = (k :: ov, b', None) /\
  (forall n, own_property k n -> n <> py "type" -> n <> py "hreflang" -> peek true k b' n = peek true k a n) /\ peek true k b' (py "type") = Some (VStr (name_of k)).
Proof.
  intros ov k args a Hk Hc. unfold Vocab.construct in *. pose proof (construct_with_ok _ _ _ _ _ _ _ Hc) as (a0 & Ra & Ea & Hself & Hid). assert (a0 = a) as -> by congruence. clear Ea.
  destruct (unlinked_stages netloc_ok nd (fun _ x => create_link netloc_ok nd email true x) k args) as (b & Rb).
  assert (Hb : construct_with netloc_ok nd (fun _ x => create_link netloc_ok nd email true x) false k args = Ok (VObj false k b)). { unfold construct_with. rewrite Hself. destruct (needs_id k) eqn:Ei; [rewrite (Hid eq_refl)|]; cbn [negb andb]; now rewrite Rb. }
  exists b. destruct (change_class ov k b) as [[o1 b1] r1] eqn:Ec. destruct (changed _ _ _ _ _ _ Ec) as (H1 & H2 & _).
  pose proof (by_class _ like_tables k) as T. unfold like_table in T. rewrite Hk in T. cbn [orb] in T. rewrite forallb_forall in T.
  (* what every property was *)
  assert (Hall : forall n, own_property k n -> n <> py "type" -> exists w, accepted k n (had k b n) = Ok w /\ (n <> py "hreflang" -> peek true k a n = Some w)).
  { intros n [Hn Hne] Ht. specialize (T n Hn). apply orb_true_iff in T as [T|T]; [apply orb_true_iff in T as [T|T]; apply str_eqb_eq in T; contradiction|]. apply andb_true_iff in T as [Hpl T].
    destruct (last_write n (stages k)) as [[|]|] eqn:El; [| discriminate|].
    - (* an argument *)
      assert (Hhad : n <> py "acontext" -> had k b n = arg args n). { intros Hac. destruct (last_write_arg netloc_ok nd false k n (stages k) Hpl (stages_fine k) El _ _ _ _ Rb) as (y & Y1 & Y2).
        assert (Hpo : prop_of false k n = None) by (unfold prop_of; destruct (str_eqb n (py "acontext")) eqn:E; [apply str_eqb_eq in E; contradiction|reflexivity]).
        unfold had. unfold key in Y2. rewrite Hpo in Y2. unfold peek. rewrite Hpo, Y2. exact (norm_plain netloc_ok nd false k n _ _ y Hpo Y1). }
      assert (Hhad2 : had k b n = arg args n). { destruct (str_dec n (py "acontext")) as [->|Hac]; [|now apply Hhad]. assert (py "acontext" <> py "hreflang") as Hh by discriminate.
        destruct (stored_arg netloc_ok nd _ false k args b (py "acontext") eq_refl Hh El Rb) as (v & V1 & V2). unfold had. rewrite V1. exact V2. }
      destruct (last_write_arg netloc_ok nd true k n (stages k) Hpl (stages_fine k) El _ _ _ _ Ra) as (y & Y1 & Y2). exists y. split; [unfold VocabMutFacts.accepted; rewrite Hhad2; exact Y1|]. intros Hh. now apply peek_set.
    - (* never set *)
      apply andb_true_iff in T as [T T3]. apply andb_true_iff in T as [T1 T2]. apply negb_true_iff in T1, T2, T3.
      assert (Hh : n <> py "hreflang") by (intros ->; rewrite str_eqb_refl in T2; discriminate).
      pose proof (last_write_none netloc_ok nd false k n (stages k) Hpl (stages_fine k) El _ _ _ _ Rb) as Z1. pose proof (last_write_none netloc_ok nd true k n (stages k) Hpl (stages_fine k) El _ _ _ _ Ra) as Z2.
      assert (Hpo : prop_of false k n = None) by (unfold prop_of; rewrite T3; reflexivity).
      assert (Hhad : had k b n = VNone). { unfold had, peek. unfold key in Z1. rewrite Hpo in *. rewrite Z1. cbn [d_get]. destruct (str_eqb n (py "type")) eqn:E; [apply str_eqb_eq in E; contradiction|reflexivity]. }
      exists VNone. split; [unfold VocabMutFacts.accepted; rewrite Hhad; now apply norm_none_ok|]. intros _.
      assert (Hpt : plain_type k n = false) by (unfold plain_type; destruct (str_eqb n (py "type")) eqn:E; [apply str_eqb_eq in E; contradiction|reflexivity]). destruct (property_set_prop k n Hn Hne Hpt) as (p & Hr & Hp).
      rewrite (peek_prop true k a n p Hp). unfold stored, key in *. rewrite Hp in Z2. rewrite (prop_keys true k n p Hp Hh), Z2. cbn [d_get].
      pose proof strict_rows as S. rewrite forallb_forall in S. destruct (row_in n p Hr) as [Hi Hnm]. specialize (S p Hi). rewrite Hnm, T1, orb_false_r in S. apply negb_true_iff in S. now rewrite S. }
  assert (Htype : exists w, accepted k (py "type") (had k b (py "type")) = Ok w /\ w = VStr (name_of k)).
  { pose proof (type_stored netloc_ok nd (fun _ x => create_link netloc_ok nd email true x) false k args b (fun _ => eq_refl) Rb) as Y. cbn [andb] in Y. unfold had. rewrite Y. exists (VStr (name_of k)). split; [|reflexivity].
    destruct k; try (vm_compute; reflexivity). }
  assert (Hnone : r1 = None). { destruct r1 as [e|]; [|reflexivity]. exfalso. destruct (H2 e eq_refl) as (_ & _ & n & Hn & Hx). destruct (str_dec n (py "type")) as [->|Ht]; [destruct Htype as (w & W & _); congruence|]. destruct (Hall n Hn Ht) as (w & W & _). congruence. }
  subst r1. destruct (H1 eq_refl) as [-> H]. exists b1. split; [exact Hb|]. split; [reflexivity|]. split.
  - intros n Hn Ht Hh. destruct (Hall n Hn Ht) as (w & W1 & W2). rewrite (W2 Hh). destruct (H n Hn) as [(w' & X & Y)|[X _]]; [|congruence]. assert (w' = w) as -> by congruence. now apply peek_set.
  - assert (Hto : own_property k (py "type")). { split; [|discriminate]. apply mem_str_in. clear. destruct k; vm_compute; reflexivity. }
    destruct Htype as (w & W & ->). destruct (H (py "type") Hto) as [(w' & X & Y)|[X _]]; [|congruence]. assert (w' = VStr (name_of k)) as -> by congruence. apply peek_set; [discriminate|exact Y].
Qed.
End C90.
Print Assumptions C90_unchanged.
Print Assumptions C90_converts.
Print Assumptions C90_again.
Print Assumptions C90_like_constructed.
Print Assumptions C90_lists.

(** ** C91. [ns_name x] is the namespace IRI of the class named x. [nearest ov c k]: k is the first of c and its ancestors, in resolution order, that is in [ov] (a class whose objects of models.py have been converted). *)
Section C91.
Variable prop_repr : cname -> pystr.
Notation namespace := (namespace prop_repr).
Notation link_ns_of := (link_ns_of prop_repr).
Definition nearest (ov : list cname) (c k : cname) : Prop := exists before after, class_mro c = before ++ k :: after /\ In k ov /\ forall x, In x before -> ~ In x ov.
(** str() of a property object is not the name of a class, and those of two properties differ *)
Hypothesis repr_names : forall c k, prop_repr c <> name_of k.
Hypothesis repr_two : prop_repr Object <> prop_repr Link.

Lemma among_in c l : among c l = true <-> In c l.
Proof. unfold among. split; [intros H; apply existsb_exists in H as (x & H1 & H2); apply class_eqb_eq in H2; now subst|intros H; apply existsb_exists; exists c; split; [exact H|now apply class_eqb_eq]]. Qed.
Lemma ns_inj a b : ns_name a = ns_name b -> a = b.
Proof. unfold ns_name. intros H. apply app_inv_head in H. exact (app_inv_head _ _ _ H). Qed.
Lemma find_nearest ov l : match find (fun k => among k ov) l with Some k => exists before after, l = before ++ k :: after /\ In k ov /\ forall x, In x before -> ~ In x ov | None => forall x, In x l -> ~ In x ov end.
Proof.
  induction l as [|x l IH]; cbn [find]; [intros x []|]. destruct (among x ov) eqn:E.
  - exists [], l. split; [reflexivity|]. split; [now apply among_in|intros y []].
  - assert (Hx : ~ In x ov) by (intros H; apply among_in in H; congruence). destruct (find (fun k => among k ov) l) as [k|].
    + destruct IH as (b & a & -> & H1 & H2). exists (x :: b), a. split; [reflexivity|]. split; [exact H1|]. intros y [<-|Hy]; auto.
    + intros y [<-|Hy]; auto.
Qed.
(** the namespace of the package's class c after conversions of the classes [ov]: that of the nearest of them among c and its ancestors; without one, its own (but for Object and Link, whose type has become a property) *)
Theorem C91_namespaces : forall ov c, (forall k, nearest ov c k -> namespace ov true c = ns_name (name_of k)) /\
  ((forall k, ~ nearest ov c k) -> c <> Object -> c <> Link -> namespace ov true c = ns_name (name_of c)) /\
  ((forall k, ~ nearest ov c k) -> c = Object \/ c = Link -> forall k, namespace ov true c <> ns_name (name_of k)).
Proof.
  intros ov c. unfold VocabMut.namespace. pose proof (find_nearest ov (class_mro c)) as F. destruct (find (fun k => among k ov) (class_mro c)) as [k|].
  - split; [|split; intros H; destruct (H k F)]. intros k' (b' & a' & H1 & H2 & H3). destruct F as (b & a & F1 & F2 & F3). rewrite F1 in H1. clear F1. f_equal. f_equal. revert b' H1 H3. induction b as [|x b IH]; intros [|x' b'] H1 H3; cbn in H1.
    + congruence.
    + exfalso. apply (H3 k); [left; congruence|exact F2].
    + exfalso. assert (x = k') as -> by congruence. apply (F3 k'); [now left|exact H2].
    + apply IH with (b' := b'); [intros y Hy; apply F3; now right|congruence|intros y Hy; apply H3; now right].
  - split; [intros k (b & a & H1 & H2 & _); destruct (F k); [rewrite H1; apply in_or_app; right; now left|exact H2]|]. split.
    + intros _ H1 H2. assert ((class_eqb c Object || class_eqb c Link)%bool = false) as ->; [|reflexivity]. apply orb_false_iff. split; destruct (class_eqb c _) eqn:E; try reflexivity; apply class_eqb_eq in E; contradiction.
    + intros _ H k X. assert ((class_eqb c Object || class_eqb c Link)%bool = true) as Y by (destruct H as [-> | ->]; reflexivity). rewrite Y in X. apply ns_inj in X. now apply repr_names in X.
Qed.
(** a converted class itself has the right namespace, and so has every class before any conversion (but Object and Link) *)
Theorem C91_itself : forall ov c, In c ov -> namespace ov true c = ns_name (name_of c).
Proof. intros ov c H. apply (proj1 (C91_namespaces ov c)). assert (exists after, class_mro c = c :: after) as (after & E) by (destruct c; eexists; reflexivity). exists [], after. split; [exact E|]. split; [exact H|intros x []]. Qed.
Theorem C91_at_first : forall c, c <> Object -> c <> Link -> namespace [] true c = ns_name (name_of c).
Proof. intros c H1 H2. apply (proj1 (proj2 (C91_namespaces [] c))); auto. intros k (b & a & _ & H & _). destruct H. Qed.
(** which links a property expands (by a request): before an object of models.Link has been converted, the package's Links only; afterwards also the links of models.py, and the package's Mentions unless a Mention of models.py has been converted *)
Lemma link_mro : class_mro Link = [Link]. Proof. reflexivity. Qed.
Lemma mention_mro : class_mro Mention = [Mention; Link]. Proof. reflexivity. Qed.
Lemma names_distinct : nodupb (map name_of all_classes) = true. Proof. vm_compute. reflexivity. Qed.
Lemma name_inj c k : name_of c = name_of k -> c = k.
Proof. apply nodup_map_eq with (1 := nodupb_spec _ names_distinct); apply all_classes_all. Qed.
Lemma link_below : forallb (fun c => Bool.eqb (among Link (class_mro c)) (class_eqb c Link || class_eqb c Mention)) all_classes = true. Proof. vm_compute. reflexivity. Qed.
Lemma below_link c : In Link (class_mro c) -> c = Link \/ c = Mention.
Proof. intros H. apply among_in in H. pose proof (by_class _ link_below c) as T. cbv beta in T. rewrite H in T. apply Bool.eqb_prop in T. symmetry in T. apply orb_true_iff in T as [T|T]; apply class_eqb_eq in T; auto. Qed.
Theorem C91_expanded_before : forall ov l c, ~ In Link ov -> (link_ns_of ov l c = true <-> l = true /\ c = Link).
Proof.
  intros ov l c H. unfold VocabMut.link_ns_of. rewrite str_eqb_eq. assert (E : namespace ov true Link = ns_name (prop_repr Link)). { unfold VocabMut.namespace. pose proof (find_nearest ov (class_mro Link)) as F. destruct (find _ _) as [k|]; [|reflexivity]. destruct F as (b & a & F1 & F2 & _). rewrite link_mro in F1. destruct b as [|x [|y b]]; try discriminate. cbn [app] in F1. assert (Link = k) as <- by congruence. contradiction. }
  split; [|intros [-> ->]; reflexivity]. intros X. rewrite E in X. destruct l.
  - split; [reflexivity|]. destruct (C91_namespaces ov c) as (N1 & N2 & _). unfold VocabMut.namespace in X. destruct (find _ _) as [k|]; [apply ns_inj in X; symmetry in X; now apply repr_names in X|]. apply ns_inj in X. destruct (class_eqb c Object) eqn:E1; [apply class_eqb_eq in E1; subst c; contradiction|]. destruct (class_eqb c Link) eqn:E2; [now apply class_eqb_eq|]. symmetry in X. now apply repr_names in X.
  - exfalso. unfold VocabMut.namespace in X. apply ns_inj in X. symmetry in X. now apply repr_names in X.
Qed.
Theorem C91_expanded_after : forall ov l c, In Link ov -> (link_ns_of ov l c = true <-> c = Link \/ (l = true /\ c = Mention /\ ~ In Mention ov)).
Proof.
  intros ov l c H. unfold VocabMut.link_ns_of. rewrite (C91_itself ov Link H), str_eqb_eq. split.
  - destruct l; [|intros X; apply ns_inj, name_inj in X; now left]. intros X. unfold VocabMut.namespace in X. pose proof (find_nearest ov (class_mro c)) as F. destruct (find _ _) as [k|].
    + apply ns_inj, name_inj in X. subst k. destruct F as (b & a & F1 & F2 & F3). destruct (below_link c) as [->| ->]; [rewrite F1; apply in_or_app; right; now left|now left|]. right. repeat split. rewrite mention_mro in F1. destruct b as [|x b]; [discriminate|]. cbn [app] in F1. assert (x = Mention) as -> by congruence. apply F3. now left.
    + apply ns_inj in X. destruct (class_eqb c Object || class_eqb c Link)%bool; [now apply repr_names in X|]. apply name_inj in X. now left.
  - intros [->|(-> & -> & Hm)]; [destruct l; [now apply C91_itself|reflexivity]|]. apply (proj1 (C91_namespaces ov Mention)). exists [Mention], []. split; [reflexivity|]. split; [exact H|]. intros x [<-|[]]. exact Hm.
Qed.
End C91.
Print Assumptions C91_namespaces.
Print Assumptions C91_itself.
Print Assumptions C91_at_first.
Print Assumptions C91_expanded_before.
Print Assumptions C91_expanded_after.

(** class_mro is Python's linearisation (PyClass.c3) of the bases in models.py *)
Definition class_nat (c : cname) : nat := N.to_nat (class_no c).
Theorem C91_resolution_order : forall c, c3 (map (fun b => map class_nat (class_mro b)) (bases_of c) ++ [map class_nat (bases_of c)]) = Some (map class_nat (List.tl (class_mro c))) /\ exists rest, class_mro c = c :: rest.
Proof. intros c. split; [destruct c; vm_compute; reflexivity|destruct c; eexists; reflexivity]. Qed.
Print Assumptions C91_resolution_order.

(** ** reads of an Announce of the package that holds objects of models.py; the outside state counts the requests *)
Definition repr2 (c : cname) : pystr := match c with Link => py "<property object at 0x2>" | _ => py "<property object at 0x1>" end.
Lemma repr2_names c k : repr2 c <> name_of k.
Proof. intros H. apply (f_equal (fun s => match s with x :: _ => N.eqb x 60 | [] => false end)) in H. assert (forall d, match repr2 d with x :: _ => N.eqb x 60 | [] => false end = true) as H1 by (intros []; reflexivity). assert (forall d, match name_of d with x :: _ => N.eqb x 60 | [] => false end = false) as H2 by (intros []; reflexivity). rewrite H1, H2 in H. discriminate. Qed.
Local Open Scope nat_scope.
Lemma repr2_two : repr2 Object <> repr2 Link. Proof. discriminate. Qed.
Notation get2 := (get_attr netloc2 ascii_nd email2 order2 nat nat (fun s _ => (S s, Err ValueError)) (fun s _ _ _ => (s, Err ValueError)) repr2).
Definition made (linked : bool) (c : cname) (args : dict value) : dict value := attrs_of (construct netloc2 ascii_nd email2 linked c args).
Definition announce (args : dict value) : dict value := made true Announce args.
Definition of_models (c : cname) (args : dict value) : value := VObj false c (made false c args).
(** what is left after the read: replaced namespaces, attributes, requests; and its value *)
Definition after_ov (r : (list cname * dict value * nat) * res value) : list cname := fst (fst (fst r)).
Definition after_attrs (r : (list cname * dict value * nat) * res value) : dict value := snd (fst (fst r)).
Definition value_of (r : (list cname * dict value * nat) * res value) : value := match snd r with Ok v => v | Err _ => VNone end.
(** two reads of the same property: the first raises, the second returns the object, half converted *)
Definition bad_note : dict value := Eval vm_compute in announce [(py "object", of_models Note [(py "published", VStr (py "yesterday"))])].
Definition bad_read := Eval vm_compute in get2 [] Announce bad_note (py "object") 0.
Theorem C90_raises_once_refuted : exists attrs b ov' attrs' b', peek true Announce attrs (py "object") = Some (VObj false Note b) /\
  get2 [] Announce attrs (py "object") 0 = ((ov', attrs', 0), Err ValueError) /\ get2 ov' Announce attrs' (py "object") 0 = ((ov', attrs', 0), Ok (VObj true Note b')).
Proof.
  exists bad_note, (attrs_of (Ok (held_by Announce bad_note (py "object")))), (after_ov bad_read), (after_attrs bad_read), (attrs_of (Ok (held_by Announce (after_attrs bad_read) (py "object")))). split; [|split]; vm_compute; reflexivity.
Qed.
Print Assumptions C90_raises_once_refuted.
(** an object's namespace need not be its class's: after reading a property that holds an Activity of models.py, the package's Announce has the namespace of Activity *)
Definition an_activity : dict value := Eval vm_compute in announce [(py "object", of_models Activity [])].
Definition activity_read := Eval vm_compute in get2 [] Announce an_activity (py "object") 0.
Theorem C91_own_namespace_refuted : exists attrs ov' attrs' o, get2 [] Announce attrs (py "__namespace__") 0 = (([], attrs, 0), Ok (VStr (ns_name (py "Announce")))) /\
  get2 [] Announce attrs (py "object") 0 = ((ov', attrs', 0), Ok o) /\ get2 ov' Announce attrs' (py "__namespace__") 0 = ((ov', attrs', 0), Ok (VStr (ns_name (py "Activity")))).
Proof. exists an_activity, (after_ov activity_read), (after_attrs activity_read), (value_of activity_read). split; [|split]; vm_compute; reflexivity. Qed.
Print Assumptions C91_own_namespace_refuted.
(** whether reading a property makes a request depends on what was read before: a Mention is not requested, until some Link of models.py has been read *)
Definition a_mention : dict value := Eval vm_compute in announce [(py "cc", VObj true Mention (made true Mention [(py "href", url "m")])); (py "actor", of_models Link [(py "href", url "l")])].
Definition actor_read := Eval vm_compute in get2 [] Announce a_mention (py "actor") 0.
Theorem C91_requests_refuted : exists attrs b ov' attrs' o, peek true Announce attrs (py "cc") = Some (VObj true Mention b) /\
  snd (fst (get2 [] Announce attrs (py "cc") 0)) = 0 /\ get2 [] Announce attrs (py "actor") 0 = ((ov', attrs', 0), Ok o) /\ snd (fst (get2 ov' Announce attrs' (py "cc") 0)) = 1.
Proof.
  exists a_mention, (attrs_of (Ok (held_by Announce a_mention (py "cc")))), (after_ov actor_read), (after_attrs actor_read), (value_of actor_read). split; [|split; [|split]]; vm_compute; reflexivity.
Qed.
Print Assumptions C91_requests_refuted.
Example C90_case : let a := announce [(py "object", of_models Note [(py "content", VStr (py "hello")); (py "published", VStr (py "2024-03-01T01:02:03Z")); (py "attributedTo", url "u")])] in
  (exists b, peek true Announce a (py "object") = Some (VObj false Note b)) /\ link_ns_of repr2 [] false Note = false /\ In (py "object") (property_set true Announce) /\
  match get2 [] Announce a (py "object") 0 with
  | ((ov, a', s), Ok (VObj true Note b)) => ov = [Note] /\ s = 0 /\ peek true Announce a' (py "object") = Some (VObj true Note b) /\ peek true Note b (py "content") = Some (VStr (py "hello")) /\
      match peek true Note b (py "published"), peek true Note b (py "attributedTo") with Some (VDatetime _), Some (VObj true Link _) => True | _, _ => False end
  | _ => False
  end.
Proof.
  intros a. split; [exists (made false Note [(py "content", VStr (py "hello")); (py "published", VStr (py "2024-03-01T01:02:03Z")); (py "attributedTo", url "u")]); vm_compute; reflexivity|]. split; [vm_compute; reflexivity|]. split; [apply mem_str_in; vm_compute; reflexivity|]. vm_compute. repeat split.
Qed.
Example C91_case : nearest [Activity; Link] Announce Activity /\ namespace repr2 [Activity; Link] true Announce = ns_name (py "Activity") /\ link_ns_of repr2 [Activity; Link] true Mention = true /\ link_ns_of repr2 [Activity] true Mention = false /\ link_ns_of repr2 [] false Link = false.
Proof. split; [exists [Announce], [Object]; split; [reflexivity|]; split; [now left|]; intros x [<-|[]] [H|[H|[]]]; discriminate|]. vm_compute. repeat split. Qed.
