From Coq Require Import String.
From Verif Require Import Base BaseFacts Dict DictFacts Duration DateTime Url Context JsonData JsonDataFacts VocabTables Vocab VocabFacts VocabStore VocabConstruct VocabLinks VocabMut VocabMutFacts PropsVocab PropsRoundTrip PropsConvert.
Open Scope list_scope.

(** ** C56, C74: the output names. The JSON-LD keywords (https://www.w3.org/TR/json-ld11/#keywords) are written with an @ for a leading a, unless the caller renames the property *)
Definition keywords : list string := ["base"; "container"; "context"; "direction"; "graph"; "id"; "import"; "included"; "index"; "json"; "language"; "list"; "nest"; "none"; "prefix"; "propagate"; "protected"; "reverse"; "set"; "type"; "value"; "version"; "vocab"]%string.
Lemma keymap_spec n : d_get n keymap = match find (fun k => str_eqb n (py "a" ++ py k)) keywords with Some k => Some (py "@" ++ py k) | None => None end.
Proof.
  unfold keymap. change ["base"; "container"; "context"; "direction"; "graph"; "id"; "import"; "included"; "index"; "json"; "language"; "list"; "nest"; "none"; "prefix"; "propagate"; "protected"; "reverse"; "set"; "type"; "value"; "version"; "vocab"]%string with keywords.
  induction keywords as [|k l IH]; [reflexivity|]. cbn [map d_get find]. change (97%N :: py k) with (py "a" ++ py k). change (64%N :: py k) with (py "@" ++ py k). destruct (str_eqb n (py "a" ++ py k)); [reflexivity|exact IH].
Qed.
Definition named (rename : dict pystr) (n k : pystr) : Prop :=
  match d_get n rename with
  | Some m => k = m
  | None => (exists w, In w keywords /\ n = py "a" ++ py w /\ k = py "@" ++ py w) \/ ((forall w, In w keywords -> n <> py "a" ++ py w) /\ k = n)
  end.
Lemma named_merge rename n : NoDup (d_keys rename) -> named rename n (match d_get n (d_merge keymap rename) with Some m => m | None => n end).
Proof.
  intros H. unfold named. rewrite d_get_merge. rewrite (last_of_nodup n rename H). destruct (d_get n rename) as [m|]; [reflexivity|]. rewrite keymap_spec. destruct (find (fun k => str_eqb n (py "a" ++ py k)) keywords) as [w|] eqn:F.
  - apply find_some in F as [F E]. apply str_eqb_eq in E. left. exists w. auto.
  - right. split; [|reflexivity]. intros w W X. pose proof (find_none _ _ F w W) as Y. cbn beta in Y. rewrite X, str_eqb_refl in Y. discriminate.
Qed.
Theorem C56_names : forall a n, NoDup (d_keys (a_rename a)) -> named (a_rename a) n (renamed a n).
Proof. intros a n H. unfold renamed. pose proof (named_merge (a_rename a) n H) as M. rewrite d_get_merge in M. destruct (last_of n (a_rename a)); exact M. Qed.
Print Assumptions C56_names.
Theorem C74_names : forall a n, NoDup (d_keys (v_rename a)) -> named (v_rename a) n (out_name a n).
Proof. intros a n H. exact (named_merge (v_rename a) n H). Qed.
Print Assumptions C74_names.

Section C90more.
Variable netloc_ok : pystr -> bool.
Variable nd : N -> option N.
Variable email : pystr -> res bool.
Variable props_order : bool -> cname -> list pystr.
Variables St J : Type.
Variable fetch : St -> value -> St * res J.
Variable form : St -> bool -> cname -> J -> St * res value.
Variable prop_repr : cname -> pystr.
Lemma convert_changed orig c names : forall ov attrs, convert_from netloc_ok nd email orig c names attrs = match change_from netloc_ok nd email orig c names ov attrs with (_, a, None) => Ok a | (_, _, Some e) => Err e end.
Proof.
  induction names as [|n r IH]; intros ov attrs; [reflexivity|]. cbn [convert_from change_from]. destruct (str_eqb n (py "__namespace__")); [apply IH|].
  destruct (assign _ _ _ _ _ _ _ _) as [a|e]; [apply IH|]. destruct e; try reflexivity. apply IH.
Qed.
(** reading a property outside and inside data() is the same operation: the two models agree, in what is requested and in the value or exception *)
Theorem C90_same_value : forall ov c attrs n s, let '((_, _, s'), r) := VocabMut.get_attr netloc_ok nd email props_order St J fetch form prop_repr ov c attrs n s in
  Vocab.read netloc_ok nd email props_order St J fetch form (link_ns_of prop_repr ov) (namespace prop_repr ov) false true c attrs n s = (s', r).
Proof.
  intros ov c attrs n s. unfold VocabMut.get_attr, Vocab.read. destruct (str_eqb n (py "__namespace__")); [reflexivity|]. destruct (prop_of true c n) as [p|]; [|reflexivity]. destruct (stored p attrs) as [v|]; [|reflexivity].
  assert (G : forall (itself : bool) (s1 : St) (w : value), let '((_, _, s'), r) := match (w, itself) with (VObj false k b, itself) => let '(ov', b', r) := change_class netloc_ok nd email props_order ov k b in ((ov', if itself then d_set (pd_get p) (VObj true k b') attrs else attrs, s1), match r with None => Ok (VObj true k b') | Some e => Err e end) | (w, _) => ((ov, attrs, s1), Ok w) end in
    (s1, wrap_get netloc_ok nd email props_order true w) = (s', r)).
  { intros itself s1 w. destruct w as [ | | | | | | | | | | |l k b| | ]; try reflexivity. destruct l; [reflexivity|]. unfold wrap_get, convert, change_class. rewrite (convert_changed b k (props_order true k) ov b). destruct (change_from netloc_ok nd email b k (props_order true k) ov b) as [[o1 b1] [e|]]; reflexivity. }
  destruct (pd_link p); cbn [andb]; [|exact (G true s v)]. unfold no_href, expand_get, expand.
  destruct v as [ | | | | | | | | | | |l k b| | ]; try reflexivity. destruct (link_ns_of prop_repr ov l k); cbn [andb]; [|exact (G true s _)]. destruct (peek l k b (py "href")) as [h|]; [|reflexivity].
  destruct (truthy h); [|exact (G true s _)]. destruct (fetch s h) as [s1 [j|e]]; [|exact (G true s1 _)]. destruct (form s1 l k j) as [s2 [o|e]]; [|exact (G true s2 _)]. destruct (truthy o); [exact (G false s2 o)|exact (G true s2 _)].
Qed.
Print Assumptions C90_same_value.
End C90more.
Example C56_names_case : named [(py "tag", py "tags")] (py "tag") (py "tags") /\ named [] (py "adirection") (py "@direction") /\ named [] (py "actor") (py "actor").
Proof.
  split; [reflexivity|]. split; [left; exists "direction"%string; split; [vm_compute; tauto|split; reflexivity]|right; split; [|reflexivity]].
  intros w H X. assert (K : forallb (fun w => negb (str_eqb (py "actor") (py "a" ++ py w))) keywords = true) by (vm_compute; reflexivity). rewrite forallb_forall in K. specialize (K w H). rewrite X, str_eqb_refl in K. discriminate.
Qed.
