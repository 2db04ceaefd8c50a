(** When the constructors of the vocabulary succeed, and the classes of models.py themselves. *)
From Coq Require Import String Lia.
From Verif Require Import Base BaseFacts Dict DictFacts Duration DateTime Url JsonData VocabTables Vocab VocabFacts VocabStore.
Open Scope list_scope.

(** the constructor arguments of the package's classes that are not assigned to a property at all *)
Definition ignored (c : cname) : list pystr :=
  map py ("__namespace__" :: "type" ::
  match c with
  | Link | Mention => ["id"]
  | Tombstone => ["formerType"]
  | Collection | CollectionPage => ["items"; "orderedItems"; "unorderedItems"]
  | OrderedCollection | OrderedCollectionPage => ["items"; "unorderedItems"]
  | _ => []
  end)%string.
(** a falsy totalItems or startIndex stands for 0 *)
Definition effective_arg (args : dict value) (n : pystr) : value :=
  if (str_eqb n (py "totalItems") || str_eqb n (py "startIndex")) && negb (truthy (arg args n)) then VInt 0 else arg args n.

Section Construct.
Variable netloc_ok : pystr -> bool.
Variable nd : N -> option N.
Notation norm := (norm netloc_ok nd).
Notation run_step := (run_step netloc_ok nd).
Notation run_steps := (run_steps netloc_ok nd).
Notation run_stages := (run_stages netloc_ok nd).
Variable co : pystr -> value -> res value.
Hypothesis co_none : forall n, co n VNone = Ok VNone.

Definition accept (l : bool) (c : cname) (n : pystr) (v : value) : res value := norm l c n v (co n v).
Definition is_special (n : pystr) : bool := str_eqb n (py "totalItems") || str_eqb n (py "startIndex").
Definition arg_names (c : cname) : list pystr := flat_map (fun s => flat_map (fun x => match x with SArg m => [py m] | _ => [] end) (snd s)) (stages c).
(** the tables: the arguments that are assigned, and the rest *)
Definition split_ok (c : cname) : bool :=
  forallb (fun n => mem_str n (ignored c) || match last_write n (stages c) with Some true => true | _ => is_special n end) (property_set true c)
  && forallb (fun n => negb (mem_str n (ignored c)) && negb (is_special n)) (arg_names c).
Lemma split_table : forallb split_ok all_classes = true. Proof. vm_compute. reflexivity. Qed.
Lemma split_last c n : In n (property_set true c) -> ~ In n (ignored c) -> last_write n (stages c) = Some true \/ is_special n = true.
Proof.
  intros H Hi. pose proof (by_class _ split_table c) as T. apply andb_true_iff in T as [T _]. rewrite forallb_forall in T. specialize (T n H). apply orb_true_iff in T as [T|T]; [apply mem_str_in in T; contradiction|]. destruct (last_write n (stages c)) as [[|]|]; auto.
Qed.
Lemma split_args c n : In n (arg_names c) -> ~ In n (ignored c) /\ is_special n = false.
Proof.
  intros H. pose proof (by_class _ split_table c) as T. apply andb_true_iff in T as [_ T]. rewrite forallb_forall in T. specialize (T n H). apply andb_true_iff in T as [T1 T2]. split; [|now apply negb_true_iff in T2]. intros Hc. apply mem_str_in in Hc. now rewrite Hc in T1.
Qed.
Lemma prop_in_set c n p : prop_of true c n = Some p -> In n (property_set true c).
Proof.
  unfold prop_of, property_set. destruct (str_eqb n (py "acontext")) eqn:E; [apply str_eqb_eq in E; intros _; now left|]. destruct (true && _ && _) eqn:E2; [|discriminate]. intros _. right. right. apply andb_true_iff in E2 as [E2 _]. cbn [andb] in E2. apply existsb_exists in E2 as (k & Hk & H). apply in_flat_map. exists k. split; [exact Hk|now apply mem_str_in].
Qed.
Lemma arg_restrict_cases names args n : arg (restrict names args) n = arg args n \/ arg (restrict names args) n = arg [] n.
Proof.
  destruct names as [ns|]; [|now left]. destruct (mem_str n (map py ns)) eqn:E; [left; now apply (arg_restrict (Some ns))|]. right. unfold arg, restrict. assert (H : d_get n (filter (fun p => mem_str (fst p) (map py ns)) args) = None); [|now rewrite H].
  induction args as [|[m v] args IH]; [reflexivity|]. cbn. destruct (mem_str m (map py ns)) eqn:E2; [|exact IH]. cbn. destruct (str_eqb n m) eqn:E3; [apply str_eqb_eq in E3; congruence|exact IH].
Qed.
Lemma accept_default c n : plain n = true -> exists w, accept true c n (arg [] n) = Ok w.
Proof.
  intros Hn. unfold accept, arg. cbn [d_get]. destruct (str_eqb n (py "acontext")) eqn:E.
  - apply str_eqb_eq in E. subst n. eexists. reflexivity.
  - exists VNone. apply norm_none_ok; [intros ->; discriminate|apply co_none].
Qed.
Lemma accept_plain c n v : plain n = true -> prop_of true c n = None -> accept true c n v = Ok v.
Proof. intros Hn Hp. unfold accept, VocabFacts.norm. destruct (str_eqb n (py "__namespace__")) eqn:E; [apply str_eqb_eq in E; subst n; discriminate|]. now rewrite Hp. Qed.
(** a step of a constructor fails only if the assignment of an argument would *)
Definition type_value (l : bool) (c : cname) : value := if l && (class_eqb c Object || class_eqb c Link) then VNone else VStr (name_of c).
Definition good (c : cname) (attrs : dict value) : Prop := peek true c attrs (py "type") = Some (type_value true c) /\ (is_collection c = true -> peek true c attrs (py "items") = Some VNone).
Definition bad_arg (c : cname) (args : dict value) (e : exn) : Prop := exists n, In n (property_set true c) /\ ~ In n (ignored c) /\ accept true c n (effective_arg args n) = Err e.
Lemma type_accept c : exists w, accept true c (py "type") (type_value true c) = Ok w.
Proof.
  unfold type_value. cbn [andb]. destruct (class_eqb c Object || class_eqb c Link) eqn:E.
  - exists VNone. apply norm_none_ok; [discriminate|apply co_none].
  - eexists. apply accept_plain; [reflexivity|]. apply plain_type_prop. left. unfold plain_type. now rewrite E.
Qed.
Lemma zero_accept c n : is_special n = true -> exists w, accept true c n (VInt 0) = Ok w.
Proof.
  intros Hn. destruct (prop_of true c n) as [p|] eqn:E.
  - assert (Hp : row n = Some p) by now apply prop_of_row in E. unfold accept, VocabFacts.norm. rewrite E. unfold is_special in Hn. apply orb_true_iff in Hn as [Hn|Hn]; apply str_eqb_eq in Hn; subst n; vm_compute in Hp; injection Hp as <-; eexists; reflexivity.
  - eexists. apply accept_plain; [|exact E]. unfold is_special in Hn. apply orb_true_iff in Hn as [Hn|Hn]; apply str_eqb_eq in Hn; subst n; reflexivity.
Qed.
Lemma items_prop c : is_collection c = true -> exists p, prop_of true c (py "items") = Some p /\ pd_get p = pd_set p /\ pd_strict p = false.
Proof.
  intros Hc. destruct (property_set_prop c (py "items")) as (p & Hr & Hp); [|discriminate|reflexivity|].
  - destruct c; try discriminate; apply mem_str_in; vm_compute; reflexivity.
  - exists p. split; [exact Hp|]. vm_compute in Hr. injection Hr as <-. split; reflexivity.
Qed.
(** every step keeps [type] and [items] *)
Definition keeps (c : cname) (x : step) : bool := plain (step_name x) && match x with SArg m => negb (str_eqb (py m) (py "type")) && negb (str_eqb (py m) (py "items")) | _ => true end.
Lemma step_good c args attrs x a : keeps c x = true -> good c attrs -> run_step co true c args attrs x = Ok a -> good c a.
Proof.
  intros Hk [Ht Hi] H. apply andb_true_iff in Hk as [Hk1 Hk2]. assert (Hr : run_steps co true c args [x] attrs = Ok a) by (cbn [Vocab.run_steps]; now rewrite H).
  assert (Hpl : forallb plain (step_names [x]) = true) by (cbn; now rewrite Hk1). split.
  - unfold type_value in *. cbn [andb] in *. destruct (class_eqb c Object || class_eqb c Link) eqn:E.
    + destruct (property_set_prop c (py "type")) as (p & Hrow & Hp).
      { apply orb_true_iff in E as [E|E]; apply class_eqb_eq in E; subst c; right; right; cbn; tauto. }
      { discriminate. } { unfold plain_type. now rewrite E. }
      rewrite (peek_prop _ _ attrs _ _ Hp) in Ht. rewrite (peek_prop _ _ a _ _ Hp). assert (pd_strict p = false /\ pd_get p = pd_set p) as [Hs Hg] by (vm_compute in Hrow; injection Hrow as <-; split; reflexivity).
      apply (steps_none netloc_ok nd co true c args (py "type") p [x] co_none Hp Hg Hs eq_refl Hpl) with (2 := Hr); [|exact Ht]. intros y [<-|[]] En. destruct x; cbn [step_name] in En; try discriminate; [|reflexivity]. rewrite En in Hk2. discriminate.
    + assert (Hp : prop_of true c (py "type") = None) by (apply plain_type_prop; left; unfold plain_type; now rewrite E).
      apply (steps_type netloc_ok nd co true c args [x] Hp Hpl) with (2 := Hr); [|exact Ht]. intros y [<-|[]] En. destruct x; cbn [step_name] in En; try discriminate; [|reflexivity]. rewrite En in Hk2. discriminate.
  - intros Hc. specialize (Hi Hc). destruct (items_prop c Hc) as (p & Hp & Hg & Hs). rewrite (peek_prop _ _ attrs _ _ Hp) in Hi. rewrite (peek_prop _ _ a _ _ Hp).
    apply (steps_none netloc_ok nd co true c args (py "items") p [x] co_none Hp Hg Hs eq_refl Hpl) with (2 := Hr); [|exact Hi]. intros y [<-|[]] En. destruct x; cbn [step_name] in En; try discriminate; [|reflexivity]. rewrite En in Hk2. now rewrite andb_false_r in Hk2.
Qed.
Lemma step_total c args0 names attrs x : let args := restrict names args0 in keeps c x = true -> good c attrs ->
  (x = STotal -> is_collection c = true /\ (arg args (py "totalItems") = arg args0 (py "totalItems") \/ truthy (arg args (py "totalItems")) = false) /\ In (py "totalItems") (property_set true c)) ->
  (x = SStart -> arg args (py "startIndex") = arg args0 (py "startIndex") /\ In (py "startIndex") (property_set true c)) ->
  (forall m, x = SArg m -> In (py m) (arg_names c)) ->
  (exists a, run_step co true c args attrs x = Ok a) \/ (exists e, run_step co true c args attrs x = Err e /\ bad_arg c args0 e).
Proof.
  intros args Hk [Ht Hi] Htot Hst Harg.
  assert (Hd : exists raw, step_raw true c args attrs x = Some raw /\ ((exists w, accept true c (step_name x) raw = Ok w) \/ (In (step_name x) (property_set true c) /\ ~ In (step_name x) (ignored c) /\ raw = effective_arg args0 (step_name x)))).
  { apply andb_true_iff in Hk as [Hk1 Hk2]. destruct x as [m| | | |]; cbn [step_raw step_name] in *.
    - exists (arg args (py m)). split; [reflexivity|]. destruct (split_args c (py m) (Harg m eq_refl)) as [H1 H2]. destruct (prop_of true c (py m)) as [p|] eqn:Ep; [|left; eexists; now apply accept_plain].
      destruct (arg_restrict_cases names args0 (py m)) as [E|E]; fold args in E; rewrite E; [|left; now apply accept_default]. right. split; [now apply (prop_in_set c _ p)|]. split; [exact H1|]. unfold effective_arg. unfold is_special in H2. rewrite H2. reflexivity.
    - rewrite Ht. eexists. split; [reflexivity|]. left. apply type_accept.
    - destruct (peek true c attrs (py "items")) as [v|] eqn:Ei.
      + exists v. split; [reflexivity|]. destruct (is_collection c) eqn:Ec; [specialize (Hi eq_refl); injection Hi as ->; left; exists VNone; apply norm_none_ok; [discriminate|apply co_none]|]. left. eexists. apply accept_plain; [reflexivity|].
        assert (T : forall k, is_collection k = true \/ prop_of true k (py "items") = None). { intros k. assert (T2 : forallb (fun k => is_collection k || negb (match prop_of true k (py "items") with Some _ => true | None => false end)) all_classes = true) by (vm_compute; reflexivity). pose proof (by_class _ T2 k) as T3. apply orb_true_iff in T3 as [T3|T3]; [now left|]. right. destruct (prop_of true k (py "items")); [discriminate|reflexivity]. }
        destruct (T c) as [T1|T1]; [congruence|exact T1].
      + exists (arg args (py "items")). split; [reflexivity|]. destruct (is_collection c) eqn:Ec; [specialize (Hi eq_refl); discriminate|]. left. eexists. apply accept_plain; [reflexivity|].
        assert (T2 : forallb (fun k => is_collection k || negb (match prop_of true k (py "items") with Some _ => true | None => false end)) all_classes = true) by (vm_compute; reflexivity). pose proof (by_class _ T2 c) as T3. cbv beta in T3. rewrite Ec in T3. cbn [orb] in T3. destruct (prop_of true c (py "items")); [discriminate|reflexivity].
    - destruct (Htot eq_refl) as (Hc & Ha & Hin). rewrite (Hi Hc). eexists. split; [reflexivity|]. change (size_or_0 VNone) with 0%Z. destruct Ha as [Ha|Ha].
      + rewrite Ha. right. split; [exact Hin|]. split; [|unfold effective_arg; cbn [str_eqb orb andb]; destruct (truthy (arg args0 (py "totalItems"))); reflexivity]. intros Hc2. apply mem_str_in in Hc2. destruct c; discriminate.
      + rewrite Ha. left. now apply zero_accept.
    - destruct (Hst eq_refl) as (Ha & Hin). eexists. split; [reflexivity|]. rewrite Ha. right. split; [exact Hin|]. split; [|unfold effective_arg; destruct (truthy (arg args0 (py "startIndex"))); reflexivity].
      intros Hc2. apply mem_str_in in Hc2. assert (T : forallb (fun k => negb (mem_str (py "startIndex") (ignored k))) all_classes = true) by (vm_compute; reflexivity). pose proof (by_class _ T c) as T1. cbv beta in T1. rewrite Hc2 in T1. discriminate. }
  destruct Hd as (raw & Hraw & Hd). rewrite run_step_raw, Hraw, set_attr_norm. destruct Hd as [[w Hw]|(H1 & H2 & ->)].
  - unfold accept in Hw. rewrite Hw. left. eexists. reflexivity.
  - destruct (norm true c (step_name x) (effective_arg args0 (step_name x)) (co (step_name x) (effective_arg args0 (step_name x)))) as [w|e] eqn:E; [left; eexists; reflexivity|]. right. exists e. split; [reflexivity|]. exists (step_name x). auto.
Qed.
Definition stage_ok (c : cname) (s : option (list string) * list step) : bool :=
  forallb (fun x => keeps c x && match x with
                                 | STotal => is_collection c && mem_str (py "totalItems") (property_set true c)
                                 | SStart => match fst s with None => mem_str (py "startIndex") (property_set true c) | Some _ => false end
                                 | _ => true end) (snd s).
Lemma stage_table : forallb (fun c => forallb (stage_ok c) (stages c)) all_classes = true. Proof. vm_compute. reflexivity. Qed.
Lemma steps_total c args0 names xs : stage_ok c (names, xs) = true -> (forall m, In (SArg m) xs -> In (py m) (arg_names c)) -> forall attrs, good c attrs ->
  (exists a, run_steps co true c (restrict names args0) xs attrs = Ok a /\ good c a) \/ (exists e, run_steps co true c (restrict names args0) xs attrs = Err e /\ bad_arg c args0 e).
Proof.
  unfold stage_ok. cbn [fst snd]. induction xs as [|x xs IH]; intros Hs Ha attrs Hg; cbn [Vocab.run_steps]; [left; eexists; split; [reflexivity|exact Hg]|]. cbn [forallb] in Hs. apply andb_true_iff in Hs as [Hx Hs]. apply andb_true_iff in Hx as [Hk Hx].
  destruct (step_total c args0 names attrs x Hk Hg) as [[a E]|(e & E & Hb)].
  - intros ->. apply andb_true_iff in Hx as [Hx1 Hx2]. split; [exact Hx1|]. split; [|now apply mem_str_in]. destruct (arg_restrict_cases names args0 (py "totalItems")) as [E|E]; [now left|right; now rewrite E].
  - intros ->. destruct names; [discriminate|]. split; [reflexivity|now apply mem_str_in].
  - intros m ->. apply Ha. now left.
  - rewrite E. apply IH; [exact Hs|intros m Hm; apply Ha; now right|]. exact (step_good c _ attrs x a Hk Hg E).
  - rewrite E. right. exists e. auto.
Qed.
Lemma stages_total_from c args0 st : forallb (stage_ok c) st = true -> (forall s m, In s st -> In (SArg m) (snd s) -> In (py m) (arg_names c)) -> forall attrs, good c attrs ->
  (exists a, run_stages co true c args0 st attrs = Ok a) \/ (exists e, run_stages co true c args0 st attrs = Err e /\ bad_arg c args0 e).
Proof.
  induction st as [|[names xs] st IH]; intros Hs Ha attrs Hg; cbn [Vocab.run_stages]; [left; eexists; reflexivity|]. cbn [forallb] in Hs. apply andb_true_iff in Hs as [Hx Hs].
  destruct (steps_total c args0 names xs Hx) with (attrs := attrs) as [(a & E & Hg2)|(e & E & Hb)]; [intros m Hm; apply (Ha (names, xs)); [now left|exact Hm]|exact Hg| |].
  - rewrite E. apply IH; [exact Hs|intros s m Hin; apply (Ha s); now right|exact Hg2].
  - rewrite E. right. exists e. auto.
Qed.
Lemma good_start c : good c [].
Proof.
  split.
  - unfold type_value. cbn [andb]. destruct (class_eqb c Object || class_eqb c Link) eqn:E.
    + apply orb_true_iff in E as [E|E]; apply class_eqb_eq in E; subst c; reflexivity.
    + unfold peek. rewrite plain_type_prop; [reflexivity|]. left. unfold plain_type. now rewrite E.
  - intros Hc. destruct (items_prop c Hc) as (p & Hp & _ & Hs). rewrite (peek_prop _ _ _ _ _ Hp). unfold stored. cbn [d_get]. now rewrite Hs.
Qed.
Lemma stages_total c args : (exists a, run_stages co true c args (stages c) [] = Ok a) \/ (exists e, run_stages co true c args (stages c) [] = Err e /\ bad_arg c args e).
Proof.
  apply stages_total_from; [exact (by_class _ stage_table c)| |apply good_start]. intros s m Hs Hm. unfold arg_names. apply in_flat_map. exists s. split; [exact Hs|]. apply in_flat_map. exists (SArg m). split; [exact Hm|now left].
Qed.
(** in a successful construction every argument was acceptable *)
Lemma special_accept c args a n : is_special n = true -> In n (property_set true c) -> run_stages co true c args (stages c) [] = Ok a -> exists w, accept true c n (effective_arg args n) = Ok w.
Proof.
  intros Hn Hin H. unfold is_special in Hn. apply orb_true_iff in Hn as [Hn|Hn]; apply str_eqb_eq in Hn; subst n.
  - assert (T : forallb (fun k => is_collection k || negb (mem_str (py "totalItems") (property_set true k))) all_classes = true) by (vm_compute; reflexivity). pose proof (by_class _ T c) as T1. cbv beta in T1. apply orb_true_iff in T1 as [Hc|T1]; [|apply mem_str_in in Hin; now rewrite Hin in T1].
    destruct (truthy (arg args (py "totalItems"))) eqn:Et; [|unfold effective_arg; rewrite Et; now apply zero_accept].
    assert (Ef : effective_arg args (py "totalItems") = arg args (py "totalItems")) by (unfold effective_arg; rewrite Et; reflexivity). rewrite Ef.
    assert (Hone : forall names xs ys attrs b, xs ++ STotal :: ys = snd (names, xs ++ STotal :: ys) -> steps_ok (xs ++ STotal :: ys) = true -> arg (restrict names args) (py "totalItems") = arg args (py "totalItems") -> run_steps co true c (restrict names args) (xs ++ STotal :: ys) attrs = Ok b -> exists w, accept true c (py "totalItems") (arg args (py "totalItems")) = Ok w).
    { intros names xs ys attrs b _ Hs Ha Hr. destruct (steps_last netloc_ok nd true c co _ xs STotal ys attrs b Hs Hr) as (a1 & raw & y & _ & H2 & H3 & _). cbn [step_raw step_name] in *. destruct (peek true c a1 (py "items")); [|discriminate]. rewrite Ha, Et in H2. injection H2 as <-. exists y. exact H3. }
    set (xs := object_steps ++ map SArg ["current"; "first"; "last"]%string ++ [SItems]) in *. pose proof (stages_fine c) as Hf.
    destruct c; try discriminate Hc.
    1-3: cbn [stages Vocab.run_stages] in H; match type of H with context [run_steps _ _ _ ?r ?l _] => destruct (run_steps co true _ r l []) as [b|e] eqn:E; [|discriminate] end; cbn [stages stages_ok forallb snd] in Hf; rewrite andb_true_r in Hf.
    + exact (Hone None xs [] [] b eq_refl Hf eq_refl E).
    + exact (Hone None xs [SArg "orderedItems"]%string [] b eq_refl Hf eq_refl E).
    + exact (Hone None xs (map SArg ["partOf"; "next"; "prev"]%string) [] b eq_refl Hf eq_refl E).
    + cbn [stages Vocab.run_stages] in H. set (n2 := object_params ++ _) in H. destruct (run_steps co true OrderedCollectionPage (restrict (Some ["orderedItems"%string]) args) _ []) as [a1|e] eqn:E1; [|discriminate].
      destruct (run_steps co true OrderedCollectionPage (restrict (Some n2) args) page_steps a1) as [a2|e] eqn:E2; [|discriminate]. refine (Hone (Some n2) xs (map SArg ["partOf"; "next"; "prev"]%string) a1 a2 eq_refl _ _ E2).
      * pose proof (stages_fine CollectionPage) as Hf2. cbn [stages stages_ok forallb snd] in Hf2. rewrite andb_true_r in Hf2. exact Hf2.
      * apply arg_restrict. reflexivity.
  - assert (T : forallb (fun k => class_eqb k OrderedCollectionPage || negb (mem_str (py "startIndex") (property_set true k))) all_classes = true) by (vm_compute; reflexivity). pose proof (by_class _ T c) as T1. cbv beta in T1. apply orb_true_iff in T1 as [Hc|T1]; [|apply mem_str_in in Hin; now rewrite Hin in T1]. apply class_eqb_eq in Hc. subst c.
    cbn [stages Vocab.run_stages] in H. set (n2 := object_params ++ _) in H. destruct (run_steps co true OrderedCollectionPage (restrict (Some ["orderedItems"%string]) args) _ []) as [a1|e] eqn:E1; [|discriminate].
    destruct (run_steps co true OrderedCollectionPage (restrict (Some n2) args) page_steps a1) as [a2|e] eqn:E2; [|discriminate]. destruct (run_steps co true OrderedCollectionPage (restrict None args) [SStart] a2) as [a3|e] eqn:E3; [|discriminate].
    destruct (steps_last netloc_ok nd true OrderedCollectionPage co args [] SStart [] a2 a3 eq_refl E3) as (a4 & raw & y & _ & H2 & H3 & H4). cbn [step_name step_raw] in *. exists y. unfold accept.
    assert (Hraw : raw = if truthy (arg args (py "startIndex")) then arg args (py "startIndex") else VInt 0) by congruence. rewrite Hraw in H3. clear Hraw H2.
    destruct (truthy (arg args (py "startIndex"))) eqn:Et.
    + assert (Ef : effective_arg args (py "startIndex") = arg args (py "startIndex")) by (unfold effective_arg; rewrite Et; reflexivity). rewrite Ef. exact H3.
    + assert (Ef : effective_arg args (py "startIndex") = VInt 0) by (unfold effective_arg; rewrite Et; reflexivity). rewrite Ef. exact H3.
Qed.
Lemma stages_accept c args a n : run_stages co true c args (stages c) [] = Ok a -> In n (property_set true c) -> ~ In n (ignored c) -> exists w, accept true c n (effective_arg args n) = Ok w.
Proof.
  intros H Hin Hi. destruct (is_special n) eqn:Hs; [now apply (special_accept c args a)|]. destruct (split_last c n Hin Hi) as [Hl|Hl]; [|congruence].
  assert (Hp : plain n = true).
  { destruct (property_set_prop c n Hin) as (p & Hr & _).
    - intros ->. apply Hi. now left.
    - destruct (str_eqb n (py "type")) eqn:E; [apply str_eqb_eq in E; subst n; destruct Hi; right; now left|]. unfold plain_type. now rewrite E.
    - pose proof (row_okn n p Hr) as T. unfold row_ok in T. repeat rewrite andb_true_iff in T. destruct T as [[[_ T] _] _]. apply row_in in Hr as [_ Hr]. now rewrite Hr in T. }
  destruct (last_write_arg netloc_ok nd true c n (stages c) Hp (stages_fine c) Hl co args [] a H) as (w & Hw & _). exists w. unfold accept, effective_arg. unfold is_special in Hs. rewrite Hs. exact Hw.
Qed.
(** ** the classes of models.py, without a package *)
Fixpoint items_first (xs : list step) : bool := match xs with [] | SItems :: _ => true | STotal :: _ => false | _ :: r => items_first r end.
Lemma unlinked_steps c args xs : forall attrs, forallb plain (step_names xs) = true -> peek false c attrs (py "items") <> None \/ items_first xs = true -> exists a, run_steps co false c args xs attrs = Ok a.
Proof.
  induction xs as [|x xs IH]; intros attrs Hx Hi; cbn [Vocab.run_steps]; [eexists; reflexivity|]. cbn in Hx. apply andb_true_iff in Hx as [Hx1 Hx2].
  assert (Hset : forall raw, exists y, norm false c (step_name x) raw (co (step_name x) raw) = Ok y).
  { intros raw. unfold VocabFacts.norm. destruct (str_eqb (step_name x) (py "__namespace__")) eqn:E; [apply str_eqb_eq in E; rewrite E in Hx1; discriminate|]. unfold prop_of. destruct (str_eqb (step_name x) (py "acontext")); cbn; eexists; reflexivity. }
  rewrite run_step_raw. assert (Hraw : exists raw, step_raw false c args attrs x = Some raw).
  { destruct x; try (eexists; reflexivity). cbn [step_raw]. destruct (peek false c attrs (py "items")) as [v|] eqn:Ep; [eexists; reflexivity|]. destruct Hi as [Hi|Hi]; [congruence|discriminate]. }
  destruct Hraw as [raw Hraw]. rewrite Hraw, set_attr_norm. destruct (Hset raw) as [y Hy]. rewrite Hy. apply IH; [exact Hx2|].
  assert (Hpk : forall b, peek false c b (py "items") = d_get (py "items") b) by (intros b; unfold peek; change (prop_of false c (py "items")) with (@None pdef); destruct (d_get (py "items") b); reflexivity).
  rewrite Hpk in *. destruct (str_dec (py "items") (key false c (step_name x))) as [E|E]; [left; rewrite <- E, d_get_set_same; discriminate|]. rewrite d_get_set_other by exact E. destruct Hi as [Hi|Hi]; [now left|]. right. destruct x; try exact Hi; [|discriminate]. destruct E. reflexivity.
Qed.
Lemma items_first_table : forallb (fun c => forallb (fun s => items_first (snd s)) (stages c)) all_classes = true. Proof. vm_compute. reflexivity. Qed.
Lemma unlinked_stages_from c args st : forall attrs, stages_ok st = true -> forallb (fun s => items_first (snd s)) st = true -> exists a, run_stages co false c args st attrs = Ok a.
Proof.
  induction st as [|[names xs] st IH]; intros attrs Hs Hi; cbn [Vocab.run_stages]; [eexists; reflexivity|]. cbn [stages_ok forallb snd] in Hs, Hi. apply andb_true_iff in Hs as [Hs1 Hs2]. apply andb_true_iff in Hi as [Hi1 Hi2]. apply andb_true_iff in Hs1 as [_ Hs1].
  destruct (unlinked_steps c (restrict names args) xs attrs Hs1 (or_intror Hi1)) as [a ->]. now apply IH.
Qed.
Lemma unlinked_stages c args : exists a, run_stages co false c args (stages c) [] = Ok a.
Proof. apply unlinked_stages_from; [apply stages_fine|exact (by_class _ items_first_table c)]. Qed.
(** [items] of a class of models.py, except the page, whose constructor does not pass them on *)
Lemma unlinked_items c args a : is_collection c = true -> c <> OrderedCollectionPage -> run_stages co false c args (stages c) [] = Ok a -> peek false c a (py "items") = Some (arg args (py "items")).
Proof.
  intros Hc Hp H. set (xs := object_steps ++ map SArg ["current"; "first"; "last"]%string).
  assert (Hone : forall ys b, steps_ok (xs ++ SItems :: ys) = true -> run_steps co false c args (xs ++ SItems :: ys) [] = Ok b -> peek false c b (py "items") = Some (arg args (py "items"))).
  { intros ys b Hs Hr. destruct (steps_last netloc_ok nd false c co args xs SItems ys [] b Hs Hr) as (a1 & raw & y & H1 & H2 & H3 & H4). cbn [step_name step_raw] in *. apply peek_set; [discriminate|]. rewrite H4. f_equal.
    assert (Hn : peek false c a1 (py "items") = None). { rewrite (steps_same_peek netloc_ok nd co false c args (py "items") xs [] a1); [reflexivity|reflexivity|discriminate|reflexivity| |exact H1]. intros Hin. apply mem_str_in in Hin. vm_compute in Hin. discriminate. }
    rewrite Hn in H2. apply (norm_plain netloc_ok nd false c (py "items")) in H3; [congruence|reflexivity]. }
  pose proof (stages_fine c) as Hf. destruct c; try discriminate Hc; [| | |congruence];
    cbn [stages Vocab.run_stages restrict] in H; match type of H with context [run_steps _ _ _ ?r ?l _] => destruct (run_steps co false _ r l []) as [b|e] eqn:E; [|discriminate] end; cbn [stages stages_ok forallb snd] in Hf; rewrite andb_true_r in Hf; injection H as <-.
  - exact (Hone [STotal] b Hf E).
  - exact (Hone [STotal; SArg "orderedItems"]%string b Hf E).
  - exact (Hone (STotal :: map SArg ["partOf"; "next"; "prev"]%string) b Hf E).
Qed.
Lemma unlinked_page_items args a : run_stages co false OrderedCollectionPage args (stages OrderedCollectionPage) [] = Ok a -> peek false OrderedCollectionPage a (py "items") = Some VNone.
Proof.
  cbn [stages Vocab.run_stages]. set (n2 := object_params ++ _). set (c := OrderedCollectionPage). intros H. set (xs := object_steps ++ map SArg ["current"; "first"; "last"]%string).
  destruct (run_steps co false c (restrict (Some ["orderedItems"%string]) args) _ []) as [a1|e] eqn:E1; [|discriminate]. destruct (run_steps co false c (restrict (Some n2) args) page_steps a1) as [a2|e] eqn:E2; [|discriminate]. destruct (run_steps co false c (restrict None args) [SStart] a2) as [a3|e] eqn:E3; [|discriminate]. injection H as <-.
  assert (Hone : forall names ys attrs b, steps_ok (xs ++ SItems :: ys) = true -> arg (restrict names args) (py "items") = VNone -> peek false c attrs (py "items") = None \/ peek false c attrs (py "items") = Some VNone -> run_steps co false c (restrict names args) (xs ++ SItems :: ys) attrs = Ok b -> peek false c b (py "items") = Some VNone).
  { intros names ys attrs b Hs Hn Hat Hr. destruct (steps_last netloc_ok nd false c co _ xs SItems ys attrs b Hs Hr) as (b1 & raw & y & H1 & H2 & H3 & H4). cbn [step_name step_raw] in *. apply peek_set; [discriminate|]. rewrite H4. f_equal.
    rewrite (steps_same_peek netloc_ok nd co false c (restrict names args) (py "items") xs attrs b1) in H2; [|reflexivity|discriminate|reflexivity| |exact H1]. 2: { intros Hin. apply mem_str_in in Hin. vm_compute in Hin. discriminate. }
    apply (norm_plain netloc_ok nd false c (py "items")) in H3; [|reflexivity]. rewrite Hn in H2. destruct Hat as [Hat|Hat]; rewrite Hat in H2; congruence. }
  assert (Hr : forall names, mem_str (py "items") (map py names) = false -> arg (restrict (Some names) args) (py "items") = VNone).
  { intros names Hm. unfold arg, restrict. assert (Hz : d_get (py "items") (filter (fun p => mem_str (fst p) (map py names)) args) = None); [|rewrite Hz; reflexivity]. clear - Hm. induction args as [|[m v] args IH]; [reflexivity|]. cbn [filter fst]. destruct (mem_str m (map py names)) eqn:E; [|exact IH]. cbn [d_get]. destruct (str_eqb (py "items") m) eqn:E2; [apply str_eqb_eq in E2; congruence|exact IH]. }
  rewrite (steps_same_peek netloc_ok nd co false c args (py "items") [SStart] a2 a3); [|reflexivity|discriminate|reflexivity|intros [Ei|[]]; discriminate|exact E3].
  refine (Hone (Some n2) (STotal :: map SArg ["partOf"; "next"; "prev"]%string) a1 a2 _ (Hr n2 eq_refl) _ E2).
  - vm_compute. reflexivity.
  - right. refine (Hone (Some ["orderedItems"%string]) (STotal :: map SArg ["partOf"; "next"; "prev"]%string ++ [SArg "orderedItems"%string]) [] a1 _ (Hr ["orderedItems"%string] eq_refl) (or_introl eq_refl) E1). vm_compute. reflexivity.
Qed.
End Construct.
