(** What the constructors and setters of the vocabulary store. *)
From Coq Require Import String Lia.
From Verif Require Import Base BaseFacts Dict DictFacts Duration DateTime Url JsonData VocabTables Vocab VocabFacts.
Open Scope list_scope.

Section Store.
Variable netloc_ok : pystr -> bool.
Variable nd : N -> option N.
Notation evaluate := (evaluate netloc_ok nd).
Notation norm := (norm netloc_ok nd).
Notation run_steps := (run_steps netloc_ok nd).
Notation run_stages := (run_stages netloc_ok nd).

(** ** validation returns the value it was given *)
Definition evaluate_eq ts f ks v : evaluate ts f ks v =
  if negb (isinstance v (effective ts f)) then Err ValueError
  else match v with
       | VList l | VTuple l | VSet l => match map_ok (evaluate (effective ts f) f ks) l with Ok ys => Ok (VList ys) | Err e => Err e end
       | _ => match run_checks netloc_ok nd ks v with Ok _ => Ok v | Err e => Err e end
       end.
Proof. destruct v; reflexivity. Defined.
Lemma isinstance_seq v ts : isinstance v ts = true -> match v with VTuple _ | VSet _ => False | _ => True end.
Proof. unfold isinstance. intros H. apply existsb_exists in H as (t & _ & H). destruct v; auto; destruct t; discriminate. Qed.
Lemma evaluate_id v : forall ts f ks w, evaluate ts f ks v = Ok w -> w = v.
Proof.
  induction v using value_tree_ind; intros ts f ks w; rewrite evaluate_eq; destruct (isinstance _ (effective ts f)) eqn:E; cbn [negb]; try discriminate; pose proof (isinstance_seq _ _ E) as Hs; try contradiction;
    try (destruct (run_checks netloc_ok nd ks _); [intros [= <-]; reflexivity|discriminate]).
  destruct (map_ok (evaluate (effective ts f) f ks) l) as [ys|e] eqn:E2; [|discriminate]. intros [= <-]. f_equal. apply map_ok_Forall2 in E2. clear E Hs. revert ys E2. induction H as [|x l Hx Hl IH]; intros ys E2; inversion E2; subst; [reflexivity|]. f_equal; [eapply Hx; eassumption|now apply IH].
Qed.
Lemma parse_none : parse_time nd VNone = Ok VNone. Proof. reflexivity. Qed.
Lemma evaluate_none ts f ks : isinstance VNone ts = true -> evaluate ts f ks VNone = Ok VNone.
Proof.
  intros H. rewrite evaluate_eq. assert (E : isinstance VNone (effective ts f) = true). { unfold effective. destruct (f && _); [exact H|]. unfold isinstance in *. rewrite existsb_app, H. reflexivity. }
  rewrite E. cbn [negb]. assert (Ec : run_checks netloc_ok nd ks VNone = Ok tt); [|now rewrite Ec]. induction ks as [|k ks IH]; [reflexivity|]. cbn. destruct k; cbn; exact IH.
Qed.

(** ** the table *)
Definition row (n : pystr) : option pdef := if str_eqb n (py "acontext") then Some acontext_def else find_pdef n.
Definition row_ok (p : pdef) : bool := negb (pd_link p && pd_parse p) && plain (pd_name p) && negb (pd_link p && negb (pd_checked p)) && (negb (pd_strict p) || str_eqb (pd_name p) (py "height")).
Lemma rows_ok : forallb row_ok (acontext_def :: properties_py) = true. Proof. vm_compute. reflexivity. Qed.
Lemma row_in n p : row n = Some p -> In p (acontext_def :: properties_py) /\ pd_name p = n.
Proof.
  unfold row. destruct (str_eqb n (py "acontext")) eqn:E; [intros [= <-]; apply str_eqb_eq in E; split; [now left|now rewrite E]|]. intros H. apply find_pdef_name in H as [H1 H2]. split; [now right|exact H1].
Qed.
Lemma row_okn n p : row n = Some p -> row_ok p = true.
Proof. intros H. apply row_in in H as [H _]. pose proof rows_ok as T. rewrite forallb_forall in T. now apply T. Qed.
Lemma prop_of_row l c n p : prop_of l c n = Some p -> row n = Some p.
Proof. unfold prop_of, row. destruct (str_eqb n (py "acontext")); [auto|]. destruct (l && _ && _); [auto|discriminate]. Qed.
Definition mapped_ok (c : cname) : bool := forallb (fun n => match find_pdef n with Some _ => negb (str_eqb n (py "__namespace__")) | None => false end) (mapped c).
Lemma mapped_table : forallb mapped_ok all_classes = true. Proof. vm_compute. reflexivity. Qed.
Lemma mapped_row c n : In n (mapped c) -> exists p, row n = Some p.
Proof.
  intros H. pose proof (by_class mapped_ok mapped_table c) as T. unfold mapped_ok in T. rewrite forallb_forall in T. specialize (T n H). unfold row. destruct (str_eqb n (py "acontext")); [eexists; reflexivity|]. destruct (find_pdef n) as [p|]; [eexists; reflexivity|discriminate].
Qed.
Lemma property_set_prop c n : In n (property_set true c) -> n <> py "__namespace__" -> plain_type c n = false -> exists p, row n = Some p /\ prop_of true c n = Some p.
Proof.
  intros H Hn Ht. destruct H as [<-|[<-|H]]; [exists acontext_def; split; reflexivity|congruence|]. apply in_flat_map in H as (k & Hk & H). destruct (mapped_row k n H) as [p Hp]. exists p. split; [exact Hp|]. unfold prop_of, row in *. destruct (str_eqb n (py "acontext")); [exact Hp|].
  rewrite Ht. assert (E : existsb (fun k => mem_str n (mapped k)) (ancestors c) = true); [|rewrite E; exact Hp]. apply existsb_exists. exists k. split; [exact Hk|]. now apply mem_str_in.
Qed.
(** what is stored for an attribute *)
Definition result_of (p : pdef) (raw : value) (co : res value) (v : value) : Prop :=
  if pd_link p then co = Ok v else if pd_parse p then parse_time nd raw = Ok v else v = raw.
Lemma norm_prop l c n p raw co v : prop_of l c n = Some p -> norm l c n raw co = Ok v -> result_of p raw co v.
Proof.
  intros Hp. pose proof (row_okn n p (prop_of_row l c n p Hp)) as T. unfold row_ok in T. repeat rewrite andb_true_iff in T. destruct T as [[[T1 _] _] _]. unfold VocabFacts.norm, result_of. destruct (str_eqb n (py "__namespace__")); [discriminate|]. rewrite Hp. destruct (pd_link p).
  - destruct (pd_parse p); [discriminate|]. destruct co as [w|e]; [|discriminate]. destruct (pd_checked p).
    + destruct (evaluate _ _ _ w) as [x|e] eqn:E; [|discriminate]. apply evaluate_id in E. subst x. auto.
    + auto.
  - destruct (pd_checked p).
    + destruct (evaluate _ _ _ raw) as [x|e] eqn:E; [|discriminate]. apply evaluate_id in E. subst x. destruct (pd_parse p); [auto|]. intros [= ->]. reflexivity.
    + destruct (pd_parse p); [auto|]. intros [= ->]. reflexivity.
Qed.
Lemma norm_plain l c n raw co v : prop_of l c n = None -> norm l c n raw co = Ok v -> v = raw.
Proof. intros Hp. unfold VocabFacts.norm. destruct (str_eqb n _); [discriminate|]. rewrite Hp. intros [= ->]. reflexivity. Qed.
Lemma norm_none l c n co v : co = Ok VNone -> norm l c n VNone co = Ok v -> v = VNone.
Proof.
  intros Hc H. destruct (prop_of l c n) as [p|] eqn:E; [|now apply norm_plain in H]. apply norm_prop with (1 := E) in H. unfold result_of in H. destruct (pd_link p); [congruence|]. destruct (pd_parse p); [|exact H]. rewrite parse_none in H. congruence.
Qed.
Lemma norm_none_ok l c n co : n <> py "__namespace__" -> co = Ok VNone -> norm l c n VNone co = Ok VNone.
Proof.
  intros Hn ->. unfold VocabFacts.norm. destruct (str_eqb n _) eqn:E; [apply str_eqb_eq in E; congruence|]. destruct (prop_of l c n) as [p|]; [|reflexivity].
  destruct (pd_link p); destruct (pd_checked p); try rewrite evaluate_none by (unfold isinstance; rewrite existsb_app; cbn; apply orb_true_r); destruct (pd_parse p); reflexivity.
Qed.

(** ** the stages of the classes *)
Lemma stages_table : forallb (fun c => stages_ok (stages c)) all_classes = true. Proof. vm_compute. reflexivity. Qed.
Lemma stages_fine c : stages_ok (stages c) = true. Proof. exact (by_class _ stages_table c). Qed.

Lemma peek_prop l c a n p : prop_of l c n = Some p -> peek l c a n = stored p a.
Proof. unfold peek. now intros ->. Qed.
Lemma peek_set l c a n v : n <> py "hreflang" -> d_get (key l c n) a = Some v -> peek l c a n = Some v.
Proof.
  intros Hn H. unfold peek, key, stored in *. destruct (prop_of l c n) as [p|] eqn:E; [|now rewrite H]. rewrite (prop_keys l c n p E Hn), H. reflexivity.
Qed.
(** the argument of an attribute that is assigned is what is stored *)
Lemma stored_arg co l c args a n : plain n = true -> n <> py "hreflang" -> last_write n (stages c) = Some true -> run_stages co l c args (stages c) [] = Ok a ->
  exists v, peek l c a n = Some v /\ match prop_of l c n with Some p => result_of p (arg args n) (co n (arg args n)) v | None => v = arg args n end.
Proof.
  intros Hp Hh Hl Hr. destruct (last_write_arg netloc_ok nd l c n (stages c) Hp (stages_fine c) Hl co args [] a Hr) as (v & Hv & Hg). exists v. split; [now apply peek_set|].
  destruct (prop_of l c n) as [p|] eqn:E; [now apply (norm_prop l c n)|]. now apply (norm_plain l c n _ _ _ E) in Hv.
Qed.
(** an attribute that reads None and is only assigned what it reads stays None *)
Definition self_step (x : step) : bool := match x with SType | SItems => true | _ => false end.
Lemma steps_none co l c args n p xs : (forall m, co m VNone = Ok VNone) -> prop_of l c n = Some p -> pd_get p = pd_set p -> pd_strict p = false -> plain n = true -> forallb plain (step_names xs) = true ->
  (forall x, In x xs -> step_name x = n -> self_step x = true) -> forall attrs a, run_steps co l c args xs attrs = Ok a -> stored p attrs = Some VNone -> stored p a = Some VNone.
Proof.
  intros Hco Hp Hk Hs Hn. induction xs as [|x xs IH]; intros Hx Hself attrs a; cbn [Vocab.run_steps]; [intros [= <-]; auto|]. cbn in Hx. apply andb_true_iff in Hx as [Hx1 Hx2].
  destruct (run_step netloc_ok nd co l c args attrs x) as [a1|e] eqn:E; [|discriminate]. intros E2 H0. apply (IH Hx2 (fun y H => Hself y (or_intror H)) a1 a E2). apply run_step_ok in E as (raw & y & H1 & H2 & ->).
  unfold stored in *. destruct (str_dec (step_name x) n) as [En|En].
  - specialize (Hself x (or_introl eq_refl) En). assert (raw = VNone).
    { destruct x; try discriminate; cbn [step_name] in En; subst n; cbn [step_raw] in H1; rewrite (peek_prop l c attrs _ p Hp) in H1; unfold stored in H1; rewrite H0 in H1; congruence. }
    subst raw. apply norm_none in H2; [|apply Hco]. subst y. unfold key. rewrite En, Hp, Hk, d_get_set_same. reflexivity.
  - rewrite d_get_set_other; [exact H0|]. intros Hc. apply En. symmetry. apply (key_inj l c); auto. unfold key at 1. now rewrite Hp, <- Hk.
Qed.
Lemma stages_none co l c args n p st : (forall m, co m VNone = Ok VNone) -> prop_of l c n = Some p -> pd_get p = pd_set p -> pd_strict p = false -> plain n = true -> stages_ok st = true ->
  forallb (fun s => forallb (fun x => negb (str_eqb (step_name x) n) || self_step x) (snd s)) st = true -> forall attrs a, run_stages co l c args st attrs = Ok a -> stored p attrs = Some VNone -> stored p a = Some VNone.
Proof.
  intros Hco Hp Hk Hs Hn. induction st as [|[names xs] st IH]; intros Ho Hf attrs a; cbn [Vocab.run_stages]; [intros [= <-]; auto|]. cbn in Ho, Hf. apply andb_true_iff in Ho as [Ho1 Ho2]. apply andb_true_iff in Hf as [Hf1 Hf2].
  destruct (run_steps co l c (restrict names args) xs attrs) as [a1|e] eqn:E; [|discriminate]. intros E2 H0. apply (IH Ho2 Hf2 a1 a E2). apply andb_true_iff in Ho1 as [_ Ho1].
  apply (steps_none co l c (restrict names args) n p xs Hco Hp Hk Hs Hn Ho1) with (2 := E); [|exact H0]. intros x Hin En. rewrite forallb_forall in Hf1. specialize (Hf1 x Hin). rewrite En, str_eqb_refl in Hf1. exact Hf1.
Qed.
(** a plain attribute that is only assigned what it reads keeps its value *)
Lemma plain_type_prop l c : plain_type c (py "type") = true \/ l = false -> prop_of l c (py "type") = None.
Proof. intros H. unfold prop_of. change (str_eqb (py "type") (py "acontext")) with false. cbn match. destruct H as [H| ->]; [|reflexivity]. rewrite H, andb_false_r. reflexivity. Qed.
Lemma steps_type co l c args xs : prop_of l c (py "type") = None -> forallb plain (step_names xs) = true -> (forall x, In x xs -> step_name x = py "type" -> x = SType) ->
  forall attrs a, run_steps co l c args xs attrs = Ok a -> peek l c attrs (py "type") = Some (VStr (name_of c)) -> peek l c a (py "type") = Some (VStr (name_of c)).
Proof.
  intros Hp. assert (Hpk : forall b, peek l c b (py "type") = match d_get (py "type") b with Some v => Some v | None => Some (VStr (name_of c)) end) by (intros b; unfold peek; rewrite Hp; reflexivity).
  induction xs as [|x xs IH]; intros Hx Hself attrs a; cbn [Vocab.run_steps]; [intros [= <-]; auto|]. cbn in Hx. apply andb_true_iff in Hx as [Hx1 Hx2].
  destruct (run_step netloc_ok nd co l c args attrs x) as [a1|e] eqn:E; [|discriminate]. intros E2 H0. apply (IH Hx2 (fun y H => Hself y (or_intror H)) a1 a E2). apply run_step_ok in E as (raw & y & H1 & H2 & ->).
  rewrite Hpk in H0 |- *. destruct (str_dec (step_name x) (py "type")) as [En|En].
  - assert (Ex : x = SType) by (apply Hself; [now left|exact En]). subst x. cbn [step_raw step_name] in *. rewrite Hpk, H0 in H1. injection H1 as <-. apply (norm_plain l c _ _ _ _ Hp) in H2. subst y. unfold key. rewrite Hp, d_get_set_same. reflexivity.
  - rewrite d_get_set_other; [exact H0|]. intros Hc. apply En. symmetry. apply (key_inj l c); auto. unfold key at 1. now rewrite Hp.
Qed.
Definition only_stype (st : list (option (list string) * list step)) : bool := forallb (fun s => forallb (fun x => match x with SArg m => negb (str_eqb (py m) (py "type")) | _ => true end) (snd s)) st.
Lemma only_stype_table : forallb (fun c => only_stype (stages c)) all_classes = true. Proof. vm_compute. reflexivity. Qed.
Lemma stages_type co l c args st : prop_of l c (py "type") = None -> stages_ok st = true -> only_stype st = true ->
  forall attrs a, run_stages co l c args st attrs = Ok a -> peek l c attrs (py "type") = Some (VStr (name_of c)) -> peek l c a (py "type") = Some (VStr (name_of c)).
Proof.
  intros Hp. induction st as [|[names xs] st IH]; intros Ho Hf attrs a; cbn [Vocab.run_stages]; [intros [= <-]; auto|]. cbn in Ho, Hf. apply andb_true_iff in Ho as [Ho1 Ho2]. apply andb_true_iff in Hf as [Hf1 Hf2].
  destruct (run_steps co l c (restrict names args) xs attrs) as [a1|e] eqn:E; [|discriminate]. intros E2 H0. apply (IH Ho2 Hf2 a1 a E2). apply andb_true_iff in Ho1 as [_ Ho1].
  apply (steps_type co l c (restrict names args) xs Hp Ho1) with (2 := E); [|exact H0]. intros x Hin En. rewrite forallb_forall in Hf1. specialize (Hf1 x Hin). destruct x; try discriminate; [|reflexivity]. cbn [step_name] in En. rewrite En, str_eqb_refl in Hf1. discriminate.
Qed.
Lemma type_stored co l c args a : (forall m, co m VNone = Ok VNone) -> run_stages co l c args (stages c) [] = Ok a ->
  peek l c a (py "type") = Some (if l && (class_eqb c Object || class_eqb c Link) then VNone else VStr (name_of c)).
Proof.
  intros Hco H. destruct (l && (class_eqb c Object || class_eqb c Link)) eqn:E.
  - apply andb_true_iff in E as [-> E]. destruct (property_set_prop c (py "type")) as (p & Hr & Hp).
    { apply orb_true_iff in E as [E|E]; apply class_eqb_eq in E; subst c; [right; right; cbn; tauto|right; right; cbn; tauto]. }
    { discriminate. } { unfold plain_type. now rewrite E. }
    rewrite (peek_prop _ _ _ _ _ Hp). assert (pd_strict p = false /\ pd_get p = pd_set p) as [Hs Hg].
    { change (row (py "type")) with (find_pdef (py "type")) in Hr. vm_compute in Hr. injection Hr as <-. split; reflexivity. }
    apply (stages_none co true c args (py "type") p (stages c) Hco Hp Hg Hs eq_refl (stages_fine c)) with (2 := H).
    + pose proof (by_class _ only_stype_table c) as T. unfold only_stype in T. rewrite forallb_forall in T |- *. intros s Hin. specialize (T s Hin). rewrite forallb_forall in T |- *. intros x Hx. specialize (T x Hx). destruct x; cbn [step_name self_step]; try reflexivity. now rewrite T.
    + unfold stored. cbn [d_get]. now rewrite Hs.
  - apply (stages_type co l c args (stages c)) with (4 := H); [|apply stages_fine|exact (by_class _ only_stype_table c)|].
    + apply plain_type_prop. apply andb_false_iff in E as [-> |E]; [now right|]. left. unfold plain_type. now rewrite E.
    + unfold peek. rewrite plain_type_prop; [reflexivity|]. apply andb_false_iff in E as [-> |E]; [now right|]. left. unfold plain_type. now rewrite E.
Qed.

(** ** totalItems and startIndex *)
Lemma steps_same_peek co l c args n xs attrs a : plain n = true -> n <> py "hreflang" -> forallb plain (step_names xs) = true -> ~ In n (step_names xs) -> run_steps co l c args xs attrs = Ok a -> peek l c a n = peek l c attrs n.
Proof.
  intros Hn Hh Hx Hin H. assert (E : d_get (key l c n) a = d_get (key l c n) attrs).
  { apply (run_steps_keep netloc_ok nd co l c args xs attrs a H). intros Hc. apply Hin. now apply (keys_in l c). }
  unfold peek, stored, key in *. destruct (prop_of l c n) as [p|] eqn:Ep; [rewrite (prop_keys l c n p Ep Hh)|]; now rewrite E.
Qed.
Definition total_value (t items : value) : value := if truthy t then t else VInt (size_or_0 items).
Lemma total_prop l c p : prop_of l c (py "totalItems") = Some p -> pd_link p = false /\ pd_parse p = false.
Proof. intros H. apply prop_of_row in H. vm_compute in H. injection H as <-. split; reflexivity. Qed.
Lemma unlinked_value l c n raw co v : (forall p, prop_of l c n = Some p -> pd_link p = false /\ pd_parse p = false) -> norm l c n raw co = Ok v -> v = raw.
Proof.
  intros Hp H. destruct (prop_of l c n) as [p|] eqn:E; [|now apply (norm_plain l c n) in H]. apply (norm_prop l c n p _ _ _ E) in H. unfold result_of in H. destruct (Hp p eq_refl) as [H1 H2]. now rewrite H1, H2 in H.
Qed.
Lemma total_steps co l c args xs ys attrs a : steps_ok (xs ++ STotal :: ys) = true -> ~ In (py "items") (step_names ys) -> run_steps co l c args (xs ++ STotal :: ys) attrs = Ok a ->
  exists v, peek l c a (py "items") = Some v /\ peek l c a (py "totalItems") = Some (total_value (arg args (py "totalItems")) v).
Proof.
  intros Hs Hi H. destruct (steps_last netloc_ok nd l c co args xs STotal ys attrs a Hs H) as (a1 & raw & y & H1 & H2 & H3 & H4). cbn [step_name step_raw] in *.
  destruct (peek l c a1 (py "items")) as [v|] eqn:Ev; [|discriminate]. injection H2 as <-. exists v. split.
  - rewrite <- Ev. rewrite run_steps_app, H1 in H. apply (steps_same_peek co l c args (py "items") (STotal :: ys)) with (5 := H); [reflexivity|discriminate| |].
    + apply andb_true_iff in Hs as [_ Hs]. unfold step_names in *. rewrite map_app, forallb_app in Hs. now apply andb_true_iff in Hs as [_ Hs].
    + intros [Hc|Hc]; [discriminate|contradiction].
  - apply peek_set; [discriminate|]. rewrite H4. f_equal. exact (unlinked_value l c (py "totalItems") _ _ _ (total_prop l c) H3).
Qed.
Definition is_collection (c : cname) : bool := match c with Collection | OrderedCollection | CollectionPage | OrderedCollectionPage => true | _ => false end.
Lemma total_stored co l c args a : is_collection c = true -> run_stages co l c args (stages c) [] = Ok a ->
  exists v, peek l c a (py "items") = Some v /\ peek l c a (py "totalItems") = Some (total_value (arg args (py "totalItems")) v).
Proof.
  intros Hc H. set (xs := object_steps ++ map SArg ["current"; "first"; "last"]%string ++ [SItems]).
  assert (Hrun : forall names ys, stages c = [(names, collection_steps ++ ys)] -> names = None -> ~ In (py "items") (step_names ys) -> exists v, peek l c a (py "items") = Some v /\ peek l c a (py "totalItems") = Some (total_value (arg args (py "totalItems")) v)).
  { intros names ys Es -> Hi. pose proof (stages_fine c) as Hf. rewrite Es in H, Hf. cbn [Vocab.run_stages restrict] in H. destruct (run_steps co l c args (collection_steps ++ ys) []) as [a1|e] eqn:E; [|discriminate]. injection H as ->.
    cbn [stages_ok forallb snd] in Hf. rewrite andb_true_r in Hf. change (collection_steps ++ ys) with (xs ++ STotal :: ys) in E, Hf. exact (total_steps co l c args xs ys [] a Hf Hi E). }
  destruct c; try discriminate.
  - apply (Hrun None []); [reflexivity|reflexivity|intros []].
  - apply (Hrun None [SArg "orderedItems"]%string); [reflexivity|reflexivity|]. intros [E|[]]. discriminate.
  - apply (Hrun None (map SArg ["partOf"; "next"; "prev"]%string)); [reflexivity|reflexivity|]. cbn. intros [E|[E|[E|[]]]]; discriminate.
  - clear Hrun. cbn [stages Vocab.run_stages] in H. set (n2 := object_params ++ _) in H. destruct (run_steps co l OrderedCollectionPage (restrict (Some ["orderedItems"%string]) args) _ []) as [a1|e] eqn:E1; [|discriminate].
    destruct (run_steps co l OrderedCollectionPage (restrict (Some n2) args) page_steps a1) as [a2|e] eqn:E2; [|discriminate]. destruct (run_steps co l OrderedCollectionPage (restrict None args) [SStart] a2) as [a3|e] eqn:E3; [|discriminate]. injection H as ->.
    destruct (total_steps co l OrderedCollectionPage (restrict (Some n2) args) xs (map SArg ["partOf"; "next"; "prev"]%string) a1 a2) as (v & H1 & H2).
    + pose proof (stages_fine CollectionPage) as Hf. cbn [stages stages_ok forallb snd] in Hf. rewrite andb_true_r in Hf. exact Hf.
    + cbn. intros [E|[E|[E|[]]]]; discriminate.
    + exact E2.
    + exists v. rewrite <- H1. split; [apply (steps_same_peek co l OrderedCollectionPage args (py "items") [SStart]) with (5 := E3); [reflexivity|discriminate|reflexivity|]; intros [E|[]]; discriminate|].
      rewrite arg_restrict in H2 by reflexivity. rewrite <- H2. apply (steps_same_peek co l OrderedCollectionPage args (py "totalItems") [SStart]) with (5 := E3); [reflexivity|discriminate|reflexivity|]. intros [E|[]]; discriminate.
Qed.
(** items of the package's collections *)
Definition items_self : bool := forallb (fun c => forallb (fun s => forallb (fun x => negb (str_eqb (step_name x) (py "items")) || self_step x) (snd s)) (stages c)) [Collection; OrderedCollection; CollectionPage; OrderedCollectionPage].
Lemma items_self_ok : items_self = true. Proof. vm_compute. reflexivity. Qed.
Lemma never_stored co c args a n p : (forall m, co m VNone = Ok VNone) -> prop_of true c n = Some p -> n <> py "hreflang" -> pd_strict p = false -> plain n = true ->
  forallb (fun s => forallb (fun x => negb (str_eqb (step_name x) n) || self_step x) (snd s)) (stages c) = true -> run_stages co true c args (stages c) [] = Ok a -> peek true c a n = Some VNone.
Proof.
  intros Hco Hp Hh Hs Hn Hf H. rewrite (peek_prop _ _ _ _ _ Hp). apply (stages_none co true c args n p (stages c) Hco Hp (prop_keys true c n p Hp Hh) Hs Hn (stages_fine c) Hf) with (1 := H). unfold stored. cbn [d_get]. now rewrite Hs.
Qed.
Lemma start_stored co l args a : run_stages co l OrderedCollectionPage args (stages OrderedCollectionPage) [] = Ok a ->
  peek l OrderedCollectionPage a (py "startIndex") = Some (if truthy (arg args (py "startIndex")) then arg args (py "startIndex") else VInt 0).
Proof.
  cbn [stages Vocab.run_stages]. set (n2 := object_params ++ _). destruct (run_steps co l OrderedCollectionPage (restrict (Some ["orderedItems"%string]) args) _ []) as [a1|e] eqn:E1; [|discriminate].
  destruct (run_steps co l OrderedCollectionPage (restrict (Some n2) args) page_steps a1) as [a2|e] eqn:E2; [|discriminate]. destruct (run_steps co l OrderedCollectionPage (restrict None args) [SStart] a2) as [a3|e] eqn:E3; [|discriminate]. intros [= ->].
  destruct (steps_last netloc_ok nd l OrderedCollectionPage co args [] SStart [] a2 a eq_refl E3) as (a4 & raw & y & _ & H2 & H3 & H4). cbn [step_name step_raw] in *. injection H2 as <-. apply peek_set; [discriminate|]. rewrite H4. f_equal.
  refine (unlinked_value l OrderedCollectionPage (py "startIndex") _ _ _ _ H3). intros p Hp. apply prop_of_row in Hp. vm_compute in Hp. injection Hp as <-. split; reflexivity.
Qed.
(** hreflang reads a storage nothing writes *)
Definition hreflang_table : bool := negb (mem_str (py "___hreflang___") (map pd_set (acontext_def :: properties_py))).
Lemma hreflang_free : hreflang_table = true. Proof. vm_compute. reflexivity. Qed.
Lemma hreflang_key l c n : plain n = true -> key l c n <> py "___hreflang___".
Proof.
  intros Hn. unfold key. destruct (prop_of l c n) as [p|] eqn:E.
  - intros Hc. pose proof hreflang_free as T. unfold hreflang_table in T. apply negb_true_iff in T. assert (Ht : mem_str (py "___hreflang___") (map pd_set (acontext_def :: properties_py)) = true); [|congruence]. apply mem_str_in. rewrite <- Hc. apply in_map. eapply prop_of_in, E.
  - intros ->. discriminate.
Qed.
Lemma stages_keep_raw co l c args k st : (forall n, plain n = true -> key l c n <> k) -> stages_ok st = true -> forall attrs a, run_stages co l c args st attrs = Ok a -> d_get k a = d_get k attrs.
Proof.
  intros Hk. induction st as [|[names xs] st IH]; intros Ho attrs a; cbn [Vocab.run_stages]; [intros [= <-]; auto|]. cbn in Ho. apply andb_true_iff in Ho as [Ho1 Ho2]. apply andb_true_iff in Ho1 as [_ Ho1].
  destruct (run_steps co l c (restrict names args) xs attrs) as [a1|e] eqn:E; [|discriminate]. intros E2. rewrite (IH Ho2 a1 a E2). apply (run_steps_keep netloc_ok nd co l c _ xs attrs a1 E). intros Hin. unfold keys in Hin. apply in_map_iff in Hin as (x & Ex & Hx).
  rewrite forallb_forall in Ho1. apply (Hk (step_name x)); [|exact Ex]. apply Ho1. now apply in_map.
Qed.
Lemma hreflang_stored co c args a : prop_of true c (py "hreflang") <> None -> run_stages co true c args (stages c) [] = Ok a -> peek true c a (py "hreflang") = Some VNone.
Proof.
  intros Hp H. destruct (prop_of true c (py "hreflang")) as [p|] eqn:E; [|congruence]. rewrite (peek_prop _ _ _ _ _ E). apply prop_of_row in E. vm_compute in E. injection E as <-. unfold stored. cbn [pd_get pd_strict].
  match goal with |- context [d_get ?k a] => change k with (py "___hreflang___") end. rewrite (stages_keep_raw co true c args (py "___hreflang___") (stages c) (hreflang_key true c) (stages_fine c) [] a H). reflexivity.
Qed.
End Store.
