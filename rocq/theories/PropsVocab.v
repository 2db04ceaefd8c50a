(** Property theorems C73-C76, C83: the ActivityStreams vocabulary.
    A value is Python data or an object [VObj linked class attributes]; [linked]: an instance of the package's class rather than of the class in models.py. [construct linked c args] calls the class with keyword arguments; [assign linked c attrs n v] is obj.n = v;
    [create_link] is Link.from_str's conversion; [peek linked c attrs n] is the value obj.n holds; [read json linked c attrs n s] is obj.n itself, in the JSON context or not, from the outside state [s]; [data] is obj.data(...).
    Outside the model, as parameters: [netloc_ok], [nd] (see C61-C63), validate_email [email], the request [fetch], the engine's from_json [form], whether an object's namespace is that of Link [link_ns], the iteration order of a class's properties [props_order], str() [show]. *)
From Coq Require Import String.
From Verif Require Import Base BaseFacts Dict DictFacts Duration DateTime Url UrlFacts JsonData VocabTables Vocab VocabFacts VocabStore VocabConstruct VocabLinks VocabRead VocabClean.
Open Scope list_scope.

(** ** Specifications *)
(** an account or e-mail address *)
Definition account netloc_ok (email : pystr -> res bool) (s : pystr) : Prop := validate_url netloc_ok s false = Ok false /\ email (if startswith (py "acct:") s then skipn 5 s else s) = Ok true.
(** n is a link-valued / a plain-valued property of c *)
Definition link_valued (c : cname) (n : pystr) : Prop := exists p, prop_of true c n = Some p /\ pd_link p = true.
(** what a property holds after being given a value: link-valued ones convert strings and dicts, times are parsed *)
Definition held netloc_ok nd email (n : pystr) (given v : value) : Prop :=
  match row n with
  | None => False
  | Some p => if pd_link p then create_link netloc_ok nd email true given = Ok v else if pd_parse p then parse_time nd given = Ok v else v = given
  end.
(** objects of the classes of models.py rather than the package's *)
Definition foreign (v : value) : Prop := exists k b, v = VObj false k b.

(** the classes whose constructor has no default for id *)
Definition id_required (c : cname) : Prop := c = Relationship \/ c = Place \/ c = Profile \/ c = Tombstone.
Lemma needs_id_spec c : needs_id c = true <-> id_required c.
Proof. unfold id_required. split; [destruct c; try discriminate; auto|intros [->|[->|[->| ->]]]; reflexivity]. Qed.
(** the length of a sized value, 0 for the others ([VOther _ (Some z)]: an object of a class outside the model with length z) *)
Definition count (v : value) (z : Z) : Prop :=
  match v with
  | VStr s => z = Z.of_nat (List.length s)
  | VList l | VTuple l | VSet l => z = Z.of_nat (List.length l)
  | VDict d => z = Z.of_nat (List.length d)
  | VOther _ (Some k) => z = k
  | _ => z = 0%Z
  end.
Lemma count_spec v : count v (size_or_0 v).
Proof. destruct v; try reflexivity. match goal with |- count (VOther _ ?z) _ => destruct z; reflexivity end. Qed.

Section C73.
Variable netloc_ok : pystr -> bool.
Variable nd : N -> option N.
Variable email : pystr -> res bool.
Notation create_link := (create_link netloc_ok nd email).
Notation construct := (construct netloc_ok nd email).
Notation assign := (assign netloc_ok nd email).
(** ** C73 *)
Theorem C73_strings : forall s, http_url netloc_ok false s \/ account netloc_ok email s -> exists attrs, create_link true (VStr s) = Ok (VObj true Link attrs) /\ peek true Link attrs (py "href") = Some (VStr s) /\
  (forall n, In n (map py ["rel"; "mediaType"; "name"; "hreflang"; "height"; "width"; "preview"]%string) -> peek true Link attrs n = Some VNone).
Proof.
  intros s H. destruct (string_link netloc_ok nd true s) as (a & H1 & H2 & H3). exists a. split; [|auto]. assert (Ht : link_text netloc_ok email s = Ok true). { apply link_text_true. destruct H as [H|H]; [left; now apply C63_lemma|now right]. }
  cbn [Vocab.create_link]. rewrite Ht. exact H1.
Qed.
Theorem C73_other_strings : forall s, ~ http_url netloc_ok false s -> ~ account netloc_ok email s -> create_link true (VStr s) = Ok (VStr s) \/
  (exists e, create_link true (VStr s) = Err e /\ (validate_url netloc_ok s false = Err e \/ email (if startswith (py "acct:") s then skipn 5 s else s) = Err e)).
Proof.
  intros s H1 H2. cbn [Vocab.create_link]. assert (Hn : link_text netloc_ok email s <> Ok true) by (intros H; apply link_text_true in H as [H|H]; [apply H1; now apply C63_lemma|now apply H2]).
  unfold link_text, validate_acct_or_email in *. destruct (validate_url netloc_ok s false) as [[|]|e]; [congruence| |right; eauto]. destruct (email _) as [[|]|e]; [congruence|now left|right; eauto].
Qed.
(** a dict with an href is the keyword arguments of a Link *)
Theorem C73_dicts : forall d s, d_get (py "href") d = Some (VStr s) -> http_url netloc_ok false s -> create_link true (VDict d) = construct true Link d /\
  (forall o, construct true Link d = Ok o -> exists attrs, o = VObj true Link attrs /\ peek true Link attrs (py "href") = Some (VStr s)).
Proof.
  intros d s Hd Hu0. pose proof (proj2 (C63_lemma netloc_ok s false) Hu0) as Hu. split.
  - apply dict_link. unfold link_dict. rewrite Hd. cbn [truthy]. destruct (str_eqb s []) eqn:E; cbn [negb]; [apply str_eqb_eq in E; subst s; destruct Hu0 as (sc & au & re & Hz & _); change (Url.clean []) with (@nil N) in Hz; destruct sc; discriminate|exact Hu].
  - intros o H. apply construct_with_ok in H as (a & H & -> & _). exists a. split; [reflexivity|]. assert (Hh : py "href" <> py "hreflang") by discriminate.
    destruct (stored_arg netloc_ok nd _ true Link d a (py "href") eq_refl Hh eq_refl H) as (v & Hv & Hr). rewrite Hv. f_equal. assert (Ha : arg d (py "href") = VStr s) by (unfold arg; now rewrite Hd). rewrite Ha in Hr. exact Hr.
Qed.
Theorem C73_other_dicts : forall d, match d_get (py "href") d with Some (VStr s) => ~ http_url netloc_ok false s | Some h => truthy h = false | None => True end ->
  create_link true (VDict d) = Ok (VDict d) \/ (exists s, d_get (py "href") d = Some (VStr s) /\ validate_url netloc_ok s false = Err ValueError /\ create_link true (VDict d) = Err ValueError).
Proof.
  intros d H. cbn [Vocab.create_link]. unfold link_dict. destruct (d_get (py "href") d) as [h|]; [|now left]. destruct h; try (left; rewrite H; reflexivity); try (left; reflexivity).
  cbn [truthy]. destruct (str_eqb s []); cbn [negb]; [now left|]. destruct (C63_result netloc_ok s false) as [E|[E|E]]; [destruct H; now apply C63_lemma| |]; rewrite E; [now left|]. right. eauto.
Qed.
(** an href that is neither false nor a string *)
Theorem C73_dict_bad_href : forall d h, d_get (py "href") d = Some h -> truthy h = true -> (forall s, h <> VStr s) -> create_link true (VDict d) = Err AttributeError.
Proof. intros d h Hd Ht Hs. cbn [Vocab.create_link]. unfold link_dict. rewrite Hd, Ht. destruct h; try reflexivity. destruct (Hs s eq_refl). Qed.
Theorem C73_sequences : forall v xs w, In v [VList xs; VTuple xs; VSet xs] -> (create_link true v = Ok w <-> exists ys, w = VList ys /\ Forall2 (fun x y => create_link true x = Ok y) xs ys).
Proof. intros v xs w. apply create_seq_ok. Qed.
Theorem C73_sequence_fails : forall v xs e, In v [VList xs; VTuple xs; VSet xs] -> create_link true v = Err e -> exists x, In x xs /\ create_link true x = Err e.
Proof. intros v xs e. apply create_seq_err. Qed.
Theorem C73_same_length : forall v xs w, In v [VList xs; VTuple xs; VSet xs] -> create_link true v = Ok w -> exists ys, w = VList ys /\ List.length ys = List.length xs.
Proof. intros v xs w Hv H. apply (create_seq_ok _ _ _ _ v xs w Hv) in H as (ys & -> & H). exists ys. split; [reflexivity|]. clear Hv; induction H; cbn; congruence. Qed.
Theorem C73_everything_else : forall v, match v with VStr _ | VDict _ | VList _ | VTuple _ | VSet _ => False | _ => True end -> create_link true v = Ok v.
Proof. intros []; try contradiction; reflexivity. Qed.
(** what the setters of the link-valued properties store *)
Theorem C73_setters : forall c a n v a2, link_valued c n -> assign true c a n v = Ok a2 -> exists w, create_link true v = Ok w /\ peek true c a2 n = Some w.
Proof.
  intros c a n v a2 (p & Hp & Hl) H. assert (Hn : n <> py "hreflang") by (intros ->; apply prop_of_row in Hp; vm_compute in Hp; injection Hp as <-; discriminate). destruct (assign_read netloc_ok nd email c a a2 n p v Hn Hp H) as (w & Hw & Hr). exists w. unfold result_of in Hr. rewrite Hl in Hr. auto.
Qed.
End C73.
Print Assumptions C73_strings.
Print Assumptions C73_other_strings.
Print Assumptions C73_dicts.
Print Assumptions C73_other_dicts.
Print Assumptions C73_dict_bad_href.
Print Assumptions C73_sequences.
Print Assumptions C73_sequence_fails.
Print Assumptions C73_same_length.
Print Assumptions C73_everything_else.
Print Assumptions C73_setters.
Example C73_case : exists a b, create_link (fun _ => true) (fun _ => None) (fun _ => Ok false) true (VTuple [VStr (py "http://a.b/c"); VStr (py "hello"); VDict [(py "href", VStr (py "https://x")); (py "name", VStr (py "X"))]; VInt 3; VSet []])
  = Ok (VList [VObj true Link a; VStr (py "hello"); VObj true Link b; VInt 3; VList []]) /\ d_get (py "___name___") b = Some (VStr (py "X")).
Proof. eexists. eexists. split; vm_compute; reflexivity. Qed.

Section C74.
Variable netloc_ok : pystr -> bool.
Variable nd : N -> option N.
Variable email : pystr -> res bool.
Variable props_order : bool -> cname -> list pystr.
Variables St J : Type.
Variable fetch : St -> value -> St * res J.
Variable form : St -> bool -> cname -> J -> St * res value.
Variable link_ns : bool -> cname -> bool.
Variable ns_text : bool -> cname -> pystr.
Variable show : value -> pystr.
Notation create_link := (create_link netloc_ok nd email).
Notation construct := (construct netloc_ok nd email).
Notation assign := (assign netloc_ok nd email).
Notation read := (read netloc_ok nd email props_order St J fetch form link_ns ns_text).
Notation data := (data netloc_ok nd email props_order St J fetch form link_ns ns_text show).
Notation wrap_get := (wrap_get netloc_ok nd email props_order).
(** the properties of a class, each once, in some order *)
Definition orders : Prop := forall l c, NoDup (props_order l c) /\ forall n, In n (props_order l c) <-> In n (property_set l c).

(** ** C74 *)
(** in the JSON context nothing is requested and the result does not depend on what is outside *)
Theorem C74_no_requests : forall fuel args linked c attrs, exists r, forall s, data fuel true args linked c attrs s = (s, r).
Proof. intros fuel args l c a. eexists. intros s. apply data_quiet. Qed.
Theorem C74_json_reads : forall linked c attrs n, exists r, forall s, read true linked c attrs n s = (s, r).
Proof. intros l c a n. eexists. intros s. apply read_json. Qed.
(** a link is read as its href there; a list of links element by element *)
Lemma link_valued_name c n : link_valued c n -> n <> py "__namespace__".
Proof. intros (p & Hp & _) ->. apply prop_of_row in Hp. vm_compute in Hp. discriminate. Qed.
Theorem C74_json_link : forall c attrs n k b h s, link_valued c n -> peek true c attrs n = Some (VObj true k b) -> subclass k Link = true -> peek true k b (py "href") = Some (VStr h) -> read true true c attrs n s = (s, Ok (VStr h)).
Proof.
  intros c a n k b h s Hlv Hs Hk Hh. pose proof (link_valued_name c n Hlv) as Hn. destruct Hlv as (p & Hp & Hl). rewrite (peek_prop _ _ _ _ _ Hp) in Hs. rewrite read_json. f_equal. unfold json_read. destruct (str_eqb n _) eqn:E; [apply str_eqb_eq in E; congruence|]. rewrite Hp, Hs, Hl. assert (Ej : json_value (pd_json p) (VObj true k b) = VObj true k b) by (destruct (pd_json p); reflexivity). rewrite Ej. cbn [href_only href_of]. rewrite Hk, Hh. reflexivity.
Qed.
Theorem C74_json_link_list : forall c attrs n l s, link_valued c n -> peek true c attrs n = Some (VList l) ->
  (forall x, In x l -> exists h, x = VStr h \/ (exists k b, x = VObj true k b /\ subclass k Link = true /\ peek true k b (py "href") = Some (VStr h))) ->
  exists hs, read true true c attrs n s = (s, Ok (VList (map VStr hs))) /\ Forall2 (fun x h => x = VStr h \/ exists k b, x = VObj true k b /\ peek true k b (py "href") = Some (VStr h)) l hs.
Proof.
  intros c a n l s Hlv Hs Hx. pose proof (link_valued_name c n Hlv) as Hn. destruct Hlv as (p & Hp & Hl). rewrite (peek_prop _ _ _ _ _ Hp) in Hs. destruct (json_links netloc_ok nd email props_order c a n p l Hp Hn Hl Hs Hx) as (hs & E & F). exists hs. rewrite read_json, E. auto.
Qed.
(** so that is what the data contains *)
Definition default_args : vargs := mkVargs (Names []) (Names []) [] false (fun _ => false).
Lemma default_names : forallb (fun c => forallb (fun n => str_eqb (out_name default_args n) n && negb (str_eqb n (py "acontext")) && negb (str_eqb n (py "@context"))) (mapped c)) all_classes = true. Proof. vm_compute. reflexivity. Qed.
Lemma default_out c n : In n (property_set true c) -> out_name default_args n = if str_eqb n (py "acontext") then py "@context" else n.
Proof.
  intros [<-|[<-|H]]; [reflexivity|reflexivity|]. apply in_flat_map in H as (k & _ & H). pose proof (by_class _ default_names k) as T. cbv beta in T. rewrite forallb_forall in T. specialize (T n H). repeat rewrite andb_true_iff in T. destruct T as [[T1 T2] _]. apply str_eqb_eq in T1. rewrite T1. apply negb_true_iff in T2. now rewrite T2.
Qed.
Lemma default_nodup c : orders -> NoDup (map (out_name default_args) (props_order true c)).
Proof.
  intros Ho. destruct (Ho true c) as [Hnd Hin]. assert (H : forall n, In n (props_order true c) -> In n (property_set true c)) by (intros n; apply Hin). clear Hin. induction (props_order true c) as [|n l IH]; [constructor|]. cbn [map]. apply NoDup_cons_iff in Hnd as [H1 H2]. constructor; [|apply IH; [exact H2|intros m Hm; apply H; now right]].
  intros Hc. apply in_map_iff in Hc as (m & E & Hm). assert (Hmc : forall x, In x (property_set true c) -> x <> py "@context").
  { intros x [<-|[<-|Hx]]; [discriminate|discriminate|]. apply in_flat_map in Hx as (k & _ & Hx). pose proof (by_class _ default_names k) as T. cbv beta in T. rewrite forallb_forall in T. specialize (T x Hx). repeat rewrite andb_true_iff in T. destruct T as [_ T]. intros ->. now rewrite str_eqb_refl in T. }
  pose proof (H n (or_introl eq_refl)) as Hn. pose proof (H m (or_intror Hm)) as Hm2. rewrite (default_out c n Hn), (default_out c m Hm2) in E. destruct (str_eqb n (py "acontext")) eqn:E1, (str_eqb m (py "acontext")) eqn:E2.
  - apply str_eqb_eq in E1, E2. subst. contradiction.
  - exact (Hmc m Hm2 E).
  - exact (Hmc n Hn (eq_sym E)).
  - subst. contradiction.
Qed.
Theorem C74_data_link : orders -> forall fuel c attrs n k b h s d, link_valued c n -> peek true c attrs n = Some (VObj true k b) -> subclass k Link = true -> peek true k b (py "href") = Some (VStr h) ->
  data (S fuel) true default_args true c attrs s = (s, Ok d) -> d_get n d = Some (JStr h).
Proof.
  intros Ho fuel c a n k b h s d Hlv Hs Hk Hh Hd. pose proof (C74_json_link c a n k b h s Hlv Hs Hk Hh) as Hr. rewrite read_json in Hr. apply pair_equal_spec in Hr as [_ Hr]. rewrite data_quiet in Hd. apply pair_equal_spec in Hd as [_ Hd]. destruct Hlv as (p & Hp & Hl). pose proof (prop_in_set c n p Hp) as Hin.
  pose proof (json_data_get netloc_ok nd email props_order link_ns ns_text show (fun l c => proj2 (Ho l c)) (S fuel) default_args true c a d n (VStr h) (default_nodup c Ho) Hin Hr Hd) as H. cbn in H. destruct H as (w & [= <-] & H). rewrite (default_out c n Hin) in H. destruct (str_eqb n (py "acontext")) eqn:E; [|exact H].
  apply str_eqb_eq in E. subst n. apply prop_of_row in Hp. vm_compute in Hp. injection Hp as <-. discriminate.
Qed.
(** otherwise reading a link with an href makes exactly one request, for that href, and yields what the engine makes of the answer, or the link itself *)
Theorem C74_one_request : forall c attrs n b h s, link_valued c n -> peek true c attrs n = Some (VObj true Link b) -> link_ns true Link = true -> peek true Link b (py "href") = Some h -> truthy h = true ->
  read false true c attrs n s = match fetch s h with
                                | (s1, Err _) => (s1, Ok (VObj true Link b))
                                | (s1, Ok j) => match form s1 true Link j with
                                                | (s2, Ok o) => (s2, if truthy o then wrap_get true o else Ok (VObj true Link b))
                                                | (s2, Err _) => (s2, Ok (VObj true Link b))
                                                end
                                end.
Proof. intros c a n b h s Hlv Hs Hns Hh Ht. pose proof (link_valued_name c n Hlv) as Hn. destruct Hlv as (p & Hp & Hl). rewrite (peek_prop _ _ _ _ _ Hp) in Hs. now apply expand_link with (p := p). Qed.
(** every other value, also a list of links, is returned as it is; objects of the classes of models.py are converted (see C81) *)
Theorem C74_no_request_otherwise : forall c attrs n v s, In n (property_set true c) -> n <> py "__namespace__" -> plain_type c n = false -> peek true c attrs n = Some v -> (forall l k b, v = VObj l k b -> link_ns l k = false) -> ~ foreign v -> read false true c attrs n s = (s, Ok v).
Proof.
  intros c a n v s Hin Hn Ht Hs Hv Hf. destruct (property_set_prop c n Hin Hn Ht) as (p & _ & Hp). rewrite (peek_prop _ _ _ _ _ Hp) in Hs. rewrite (read_quiet netloc_ok nd email props_order St J fetch form link_ns ns_text c a n p s v Hp Hn Hs); [|right; intros l k b E; left; exact (Hv l k b E)].
  destruct v; try reflexivity. destruct linked; [reflexivity|]. destruct Hf. exists c0, attrs. reflexivity.
Qed.
(** every object made by a constructor of the package, and then by assignments, from Python data and such objects can be serialised, given a recursion limit above its depth *)
Inductive made : value -> Prop :=
| made_data v : match v with VList _ | VTuple _ | VSet _ | VDict _ | VObj _ _ _ => False | _ => True end -> made v
| made_seq v xs : In v [VList xs; VTuple xs; VSet xs] -> Forall made xs -> made v
| made_dict d : Forall (fun p => made (snd p)) d -> made (VDict d)
| made_object c args o : Forall (fun p => made (snd p)) args -> construct true c args = Ok o -> made o
| made_assigned c a n v a2 : made (VObj true c a) -> made v -> assign true c a n v = Ok a2 -> made (VObj true c a2).
Section MadeInd.
Variable Q : value -> Prop.
Hypothesis Q1 : forall v, match v with VList _ | VTuple _ | VSet _ | VDict _ | VObj _ _ _ => False | _ => True end -> Q v.
Hypothesis Q2 : forall v xs, In v [VList xs; VTuple xs; VSet xs] -> Forall Q xs -> Q v.
Hypothesis Q3 : forall d, Forall (fun p => Q (snd p)) d -> Q (VDict d).
Hypothesis Q4 : forall c args o, Forall (fun p => Q (snd p)) args -> construct true c args = Ok o -> Q o.
Hypothesis Q5 : forall c a n v a2, Q (VObj true c a) -> Q v -> assign true c a n v = Ok a2 -> Q (VObj true c a2).
Fixpoint made_tree_ind (v : value) (m : made v) : Q v :=
  let lst := fix go (l : list value) (f : Forall made l) : Forall Q l := match f with Forall_nil _ => Forall_nil _ | Forall_cons x hx hl => Forall_cons x (made_tree_ind x hx) (go _ hl) end in
  let dct := fix go (l : list (pystr * value)) (f : Forall (fun p => made (snd p)) l) : Forall (fun p => Q (snd p)) l := match f with Forall_nil _ => Forall_nil _ | Forall_cons x hx hl => Forall_cons x (made_tree_ind (snd x) hx) (go _ hl) end in
  match m with
  | made_data v h => Q1 v h
  | made_seq v xs h f => Q2 v xs h (lst xs f)
  | made_dict d f => Q3 d (dct d f)
  | made_object c args o f h => Q4 c args o (dct args f) h
  | made_assigned c a n v a2 m1 m2 h => Q5 c a n v a2 (made_tree_ind _ m1) (made_tree_ind _ m2) h
  end.
End MadeInd.
Lemma made_is_clean v : made v -> clean v = true.
Proof.
  assert (Hd : forall d : dict value, Forall (fun p => clean (snd p) = true) d -> clean_attrs d = true) by (intros d H; unfold clean_attrs; rewrite forallb_forall; rewrite Forall_forall in H; exact H).
  intros H. induction H using made_tree_ind.
  - destruct v; try reflexivity; contradiction.
  - assert (E : forallb clean xs = true) by (rewrite forallb_forall; rewrite Forall_forall in H0; exact H0). destruct H as [<-|[<-|[<-|[]]]]; exact E.
  - exact (Hd d H).
  - exact (made_clean netloc_ok nd email c args o (Hd args H) H0).
  - eapply assign_clean; eassumption.
Qed.
Theorem C74_serialises : orders -> forall c attrs fuel args s, made (VObj true c attrs) -> (depth (VObj true c attrs) <= fuel)%nat -> exists d, data fuel true args true c attrs s = (s, Ok d).
Proof.
  intros Ho c a fuel args s Hm Hd. rewrite data_quiet. destruct (json_data_ok netloc_ok nd email props_order show (fun l c => proj2 (Ho l c)) fuel args c a (made_is_clean _ Hm) Hd) as [d E]. exists d. now rewrite E.
Qed.
End C74.
Print Assumptions C74_no_requests.
Print Assumptions C74_json_reads.
Print Assumptions C74_json_link.
Print Assumptions C74_json_link_list.
Print Assumptions C74_data_link.
Print Assumptions C74_one_request.
Print Assumptions C74_no_request_otherwise.
Print Assumptions C74_serialises.
(** a Note sent to a URL: an instance of the hypotheses *)
Definition some_order (l : bool) (c : cname) : list pystr := nodup str_dec (property_set l c).
Lemma some_order_ok : orders some_order.
Proof. intros l c. split; [apply NoDup_nodup|]. intros n. apply nodup_In. Qed.
Example C74_case : exists attrs, construct (fun _ => true) (fun _ => None) (fun _ => Ok false) true Note [(py "to", VStr (py "http://a/b")); (py "content", VStr (py "hi"))] = Ok (VObj true Note attrs) /\
  link_valued Note (py "to") /\ (exists b, peek true Note attrs (py "to") = Some (VObj true Link b) /\ peek true Link b (py "href") = Some (VStr (py "http://a/b"))) /\ made (fun _ => true) (fun _ => None) (fun _ => Ok false) (VObj true Note attrs).
Proof.
  eexists. split; [vm_compute; reflexivity|]. split; [eexists; split; [vm_compute; reflexivity|reflexivity]|]. split; [eexists; split; vm_compute; reflexivity|].
  apply (made_object _ _ _ Note [(py "to", VStr (py "http://a/b")); (py "content", VStr (py "hi"))]); [repeat constructor|vm_compute; reflexivity].
Qed.

Section C75.
Variable netloc_ok : pystr -> bool.
Variable nd : N -> option N.
Variable email : pystr -> res bool.
Notation create_link := (create_link netloc_ok nd email).
Notation construct := (construct netloc_ok nd email).
Notation assign := (assign netloc_ok nd email).
Notation held := (held netloc_ok nd email).

(** ** C75. [arg args n]: the argument n, or its default (None; for acontext the ActivityStreams namespace). [ignored c]: the arguments the constructor of c does not use. *)
Lemma name_of_property c n : In n (property_set true c) -> ~ In n (ignored c) -> plain n = true /\ plain_type c n = false /\ n <> py "__namespace__".
Proof.
  intros Hin Hi. assert (Hn : n <> py "__namespace__") by (intros ->; apply Hi; now left). assert (Ht : plain_type c n = false).
  { destruct (str_eqb n (py "type")) eqn:E; [apply str_eqb_eq in E; subst n; destruct Hi; right; now left|]. unfold plain_type. now rewrite E. }
  destruct (property_set_prop c n Hin Hn Ht) as (p & Hr & _). pose proof (row_okn n p Hr) as T. unfold row_ok in T. repeat rewrite andb_true_iff in T. destruct T as [[[_ T] _] _]. apply row_in in Hr as [_ Hr]. rewrite Hr in T. auto.
Qed.
Theorem C75_stored : forall c args a n, construct true c args = Ok (VObj true c a) -> In n (property_set true c) -> ~ In n (ignored c) -> ~ In n [py "hreflang"; py "totalItems"; py "startIndex"] ->
  exists v, peek true c a n = Some v /\ held n (arg args n) v.
Proof.
  intros c args a n H Hin Hi Hs. apply construct_with_ok in H as (a' & H & E & _). injection E as <-. destruct (name_of_property c n Hin Hi) as (Hp & Ht & Hn). destruct (property_set_prop c n Hin Hn Ht) as (p & Hr & Hpr).
  assert (Hl : last_write n (stages c) = Some true). { destruct (split_last c n Hin Hi) as [Hl|Hl]; [exact Hl|]. unfold is_special in Hl. apply orb_true_iff in Hl as [Hl|Hl]; apply str_eqb_eq in Hl; subst n; destruct Hs; cbn; auto. }
  assert (Hh : n <> py "hreflang") by (intros ->; apply Hs; now left). destruct (stored_arg netloc_ok nd _ true c args a n Hp Hh Hl H) as (v & Hv & Hres). exists v. split; [exact Hv|]. rewrite Hpr in Hres. unfold PropsVocab.held. rewrite Hr. exact Hres.
Qed.
(** the arguments that are lost: they never come back, whatever they were *)
Theorem C75_lost : forall c args a n, construct true c args = Ok (VObj true c a) -> In n (py "hreflang" :: ignored c) -> In n (property_set true c) -> n <> py "type" -> n <> py "__namespace__" -> peek true c a n = Some VNone.
Proof.
  intros c args a n H Hi Hin Ht Hn. apply construct_with_ok in H as (a' & H & E & _). injection E as <-.
  assert (Hpt : plain_type c n = false). { destruct (str_eqb n (py "type")) eqn:E; [apply str_eqb_eq in E; congruence|]. unfold plain_type. now rewrite E. }
  destruct (property_set_prop c n Hin Hn Hpt) as (p & Hr & Hp). destruct (str_dec n (py "hreflang")) as [-> |Hh]; [refine (hreflang_stored netloc_ok nd _ c args a _ H); congruence|].
  destruct Hi as [Hi|Hi]; [congruence|]. assert (T : forallb (fun k => forallb (fun m => str_eqb m (py "__namespace__") || str_eqb m (py "type") || negb (str_eqb m (py "height")) && plain m && forallb (fun s => forallb (fun x => negb (str_eqb (step_name x) m) || self_step x) (snd s)) (stages k)) (ignored k)) all_classes = true) by (vm_compute; reflexivity).
  pose proof (by_class _ T c) as T1. cbv beta in T1. clear T. rewrite forallb_forall in T1. specialize (T1 n Hi). repeat rewrite orb_true_iff in T1. repeat rewrite andb_true_iff in T1. destruct T1 as [[T1|T1]|[[T1 T2] T3]]; [apply str_eqb_eq in T1; congruence|apply str_eqb_eq in T1; congruence|].
  refine (never_stored netloc_ok nd _ c args a n p _ Hp Hh _ T2 T3 H); [reflexivity|]. pose proof (row_okn n p Hr) as Ho. unfold row_ok in Ho. repeat rewrite andb_true_iff in Ho. destruct Ho as [_ Ho]. apply row_in in Hr as [_ Hr]. rewrite Hr in Ho. destruct (pd_strict p); [|reflexivity]. cbn [negb orb] in Ho. now rewrite Ho in T1.
Qed.
(** which they are *)
Theorem C75_lost_names : forall c n, In n (py "hreflang" :: ignored c) /\ In n (property_set true c) /\ n <> py "type" /\ n <> py "__namespace__" <->
  In (c, n) [(Link, py "id"); (Link, py "hreflang"); (Mention, py "id"); (Mention, py "hreflang"); (Tombstone, py "formerType");
             (Collection, py "items"); (Collection, py "orderedItems"); (Collection, py "unorderedItems"); (CollectionPage, py "items"); (CollectionPage, py "orderedItems"); (CollectionPage, py "unorderedItems");
             (OrderedCollection, py "items"); (OrderedCollection, py "unorderedItems"); (OrderedCollectionPage, py "items"); (OrderedCollectionPage, py "unorderedItems")].
Proof.
  intros c n. split.
  - intros (Hi & Hp & Ht & Hn). apply mem_str_in in Hp. destruct Hi as [<-|Hi].
    + assert (Hc : has_prop c (py "hreflang") = true \/ has_prop c (py "hreflang") = false) by (destruct (has_prop c (py "hreflang")); auto). assert (T : forallb (fun k => negb (mem_str (py "hreflang") (property_set true k)) || class_eqb k Link || class_eqb k Mention) all_classes = true) by (vm_compute; reflexivity).
      pose proof (by_class _ T c) as T1. cbv beta in T1. rewrite Hp in T1. cbn [negb orb] in T1. apply orb_true_iff in T1 as [T1|T1]; apply class_eqb_eq in T1; subst c; cbn [In]; auto 20.
    + unfold ignored in Hi. cbn [map In] in Hi. destruct Hi as [Hi|[Hi|Hi]]; [congruence|congruence|]. destruct c; cbn [map In] in Hi; try contradiction; repeat (destruct Hi as [<-|Hi]; [cbn [In]; auto 20|]); contradiction.
  - intros H. assert (T : forall cs, In cs [(Link, py "id"); (Link, py "hreflang"); (Mention, py "id"); (Mention, py "hreflang"); (Tombstone, py "formerType");
             (Collection, py "items"); (Collection, py "orderedItems"); (Collection, py "unorderedItems"); (CollectionPage, py "items"); (CollectionPage, py "orderedItems"); (CollectionPage, py "unorderedItems");
             (OrderedCollection, py "items"); (OrderedCollection, py "unorderedItems"); (OrderedCollectionPage, py "items"); (OrderedCollectionPage, py "unorderedItems")] ->
      mem_str (snd cs) (py "hreflang" :: ignored (fst cs)) && mem_str (snd cs) (property_set true (fst cs)) && negb (str_eqb (snd cs) (py "type")) && negb (str_eqb (snd cs) (py "__namespace__")) = true) by (apply forallb_forall; vm_compute; reflexivity).
    specialize (T (c, n) H). cbn [fst snd] in T. repeat rewrite andb_true_iff in T. destruct T as [[[T1 T2] T3] T4]. apply mem_str_in in T1, T2. apply negb_true_iff in T3, T4. repeat split; auto; intros ->; [rewrite str_eqb_refl in T3; discriminate|rewrite str_eqb_refl in T4; discriminate].
Qed.
(** [type] is not taken from the arguments: an Object or Link of the package has type None, an instance of any other class, or of a class of models.py, its class's name *)
Theorem C75_type : forall linked c args a, construct linked c args = Ok (VObj linked c a) -> peek linked c a (py "type") = Some (if linked && (class_eqb c Object || class_eqb c Link) then VNone else VStr (name_of c)).
Proof. intros l c args a H. apply construct_with_ok in H as (a' & H & E & _). injection E as <-. apply type_stored with (2 := H). reflexivity. Qed.
Theorem C75_start_index : forall linked args a, construct linked OrderedCollectionPage args = Ok (VObj linked OrderedCollectionPage a) -> peek linked OrderedCollectionPage a (py "startIndex") = Some (if truthy (arg args (py "startIndex")) then arg args (py "startIndex") else VInt 0).
Proof. intros l args a H. apply construct_with_ok in H as (a' & H & E & _). injection E as <-. exact (start_stored netloc_ok nd _ l args a H). Qed.
(** a constructor of the package succeeds exactly if the argument of every property it uses could be assigned to that property; a falsy totalItems or startIndex counts as 0 *)
Theorem C75_succeeds : forall c args, (exists o, construct true c args = Ok o) <->
  d_mem (py "self") args = false /\ (id_required c -> d_mem (py "id") args = true) /\ (forall n, In n (property_set true c) -> ~ In n (ignored c) -> forall attrs, exists attrs', assign true c attrs n (effective_arg args n) = Ok attrs').
Proof.
  intros c args. rewrite <- needs_id_spec. split.
  - intros [o H]. apply construct_with_ok in H as (a & H & _ & H1 & H2). split; [exact H1|]. split; [exact H2|]. intros n Hin Hi attrs. destruct (stages_accept netloc_ok nd _ c args a n H Hin Hi) as [w Hw]. unfold accept in Hw. rewrite assign_norm, Hw. eexists. reflexivity.
  - intros (H1 & H2 & H3). unfold Vocab.construct, construct_with. rewrite H1. assert (E : needs_id c && negb (d_mem (py "id") args) = false) by (destruct (needs_id c); [rewrite H2 by reflexivity; reflexivity|reflexivity]). rewrite E.
    destruct (stages_total netloc_ok nd (fun _ x => create_link true x) (fun _ => eq_refl) c args) as [[a Ha]|(e & He & (n & Hin & Hi & Hb))]; [rewrite Ha; eexists; reflexivity|]. destruct (H3 n Hin Hi []) as [a Ha]. unfold accept in Hb. rewrite assign_norm, Hb in Ha. discriminate.
Qed.
(** otherwise it raises what one of those assignments would, or TypeError *)
Theorem C75_fails : forall c args e, construct true c args = Err e -> (e = TypeError /\ (d_mem (py "self") args = true \/ id_required c /\ d_mem (py "id") args = false)) \/
  (exists n, In n (property_set true c) /\ ~ In n (ignored c) /\ forall attrs, assign true c attrs n (effective_arg args n) = Err e).
Proof.
  intros c args e. rewrite <- needs_id_spec. unfold Vocab.construct, construct_with. destruct (d_mem (py "self") args); [intros [= <-]; left; auto|]. destruct (needs_id c); cbn [andb]; [destruct (d_mem (py "id") args); cbn [negb]; [|intros [= <-]; left; auto]|].
  all: destruct (stages_total netloc_ok nd (fun _ x => create_link true x) (fun _ => eq_refl) c args) as [[a Ha]|(e2 & He & (n & Hin & Hi & Hb))]; [rewrite Ha; discriminate|]; rewrite He; intros [= <-]; right; exists n; split; [exact Hin|]; split; [exact Hi|]; intros attrs; unfold accept in Hb; rewrite assign_norm, Hb; reflexivity.
Qed.
(** the classes of models.py: nothing is validated or converted; every argument is kept except type (above), totalItems (C76), startIndex and a page's items *)
Theorem C75_plain_classes : forall c args, d_mem (py "self") args = false -> (id_required c -> d_mem (py "id") args = true) -> exists a, construct false c args = Ok (VObj false c a) /\
  (forall n, In n (property_set true c) -> ~ In n (ignored c) -> ~ In n [py "totalItems"; py "startIndex"] -> peek false c a n = Some (arg args n)) /\
  (is_collection c = true -> peek false c a (py "items") = Some (if class_eqb c OrderedCollectionPage then VNone else arg args (py "items"))).
Proof.
  intros c args H1 H2. rewrite <- needs_id_spec in H2. unfold Vocab.construct. destruct (unlinked_stages netloc_ok nd (fun _ x => create_link true x) c args) as [a Ha]. exists a. split.
  - unfold construct_with. rewrite H1. assert (E : needs_id c && negb (d_mem (py "id") args) = false) by (destruct (needs_id c); [rewrite H2 by reflexivity; reflexivity|reflexivity]). now rewrite E, Ha.
  - split.
    + intros n Hin Hi Hs. destruct (name_of_property c n Hin Hi) as (Hp & Ht & Hn). assert (Hl : last_write n (stages c) = Some true). { destruct (split_last c n Hin Hi) as [Hl|Hl]; [exact Hl|]. unfold is_special in Hl. apply orb_true_iff in Hl as [Hl|Hl]; apply str_eqb_eq in Hl; subst n; destruct Hs; cbn; auto. }
      destruct (last_write_arg netloc_ok nd false c n (stages c) Hp (stages_fine c) Hl _ args [] a Ha) as (v & Hv & Hg). unfold peek. unfold key in Hg. destruct (prop_of false c n) as [p|] eqn:E.
      * assert (n = py "acontext") by (unfold prop_of in E; destruct (str_eqb n (py "acontext")) eqn:En; [now apply str_eqb_eq in En|discriminate]). subst n. cbn in E. injection E as <-. cbn in Hv. injection Hv as <-. unfold stored. cbn [pd_get acontext_def]. change (pd_set acontext_def) with (py "___acontext___") in Hg. now rewrite Hg.
      * rewrite Hg. f_equal. exact (norm_plain netloc_ok nd false c n _ _ _ E Hv).
    + intros Hc. destruct (class_eqb c OrderedCollectionPage) eqn:E; [apply class_eqb_eq in E; subst c; exact (unlinked_page_items netloc_ok nd _ args a Ha)|]. apply (unlinked_items netloc_ok nd _ c args a Hc) with (2 := Ha). intros ->. discriminate.
Qed.
(** an assignment stores the same as the constructor and changes no other attribute *)
Theorem C75_assignment : forall c a n v a2, assign true c a n v = Ok a2 -> In n (property_set true c) -> ~ In n (py "hreflang" :: ignored c) ->
  (exists w, peek true c a2 n = Some w /\ held n v w) /\ (forall m, In m (property_set true c) -> m <> n -> m <> py "__namespace__" -> peek true c a2 m = peek true c a m).
Proof.
  intros c a n v a2 H Hin Hi. destruct (name_of_property c n Hin (fun Hc => Hi (or_intror Hc))) as (Hp & Ht & Hn). destruct (property_set_prop c n Hin Hn Ht) as (p & Hr & Hpr). assert (Hh : n <> py "hreflang") by (intros ->; apply Hi; now left). split.
  - destruct (assign_read netloc_ok nd email c a a2 n p v Hh Hpr H) as (w & Hw & Hres). exists w. split; [exact Hw|]. unfold PropsVocab.held. rewrite Hr. exact Hres.
  - intros m Hm Hne Hm2. assert (Hpm : plain m = true).
    { destruct (plain_type c m) eqn:Etm; [unfold plain_type in Etm; apply andb_true_iff in Etm as [Etm _]; apply str_eqb_eq in Etm; now subst m|]. destruct (property_set_prop c m Hm Hm2 Etm) as (q & Hrq & _). pose proof (row_okn m q Hrq) as T. unfold row_ok in T. repeat rewrite andb_true_iff in T. destruct T as [[[_ T] _] _]. apply row_in in Hrq as [_ Hrq]. now rewrite Hrq in T. }
    exact (assign_other netloc_ok nd email true c a a2 n m v Hp Hpm Hne H).
Qed.

(** ** C76 *)
(** when a collection is made, totalItems is the given value, or the number of items the object holds at the end of the constructor *)
Theorem C76_construction : forall linked c args a, is_collection c = true -> construct linked c args = Ok (VObj linked c a) ->
  exists items z, peek linked c a (py "items") = Some items /\ count items z /\ peek linked c a (py "totalItems") = Some (if truthy (arg args (py "totalItems")) then arg args (py "totalItems") else VInt z).
Proof. intros l c args a Hc H. apply construct_with_ok in H as (a' & H & E & _). injection E as <-. destruct (total_stored netloc_ok nd _ l c args a Hc H) as (items & Hi & Ht). exists items, (size_or_0 items). split; [exact Hi|]. split; [apply count_spec|exact Ht]. Qed.
(** in the package's classes that number is always 0, because the items argument is lost *)
Theorem C76_package : forall c args a, is_collection c = true -> construct true c args = Ok (VObj true c a) -> peek true c a (py "totalItems") = Some (if truthy (arg args (py "totalItems")) then arg args (py "totalItems") else VInt 0).
Proof.
  intros c args a Hc H. destruct (C76_construction true c args a Hc H) as (items & z & Hi & Hz & Ht). rewrite Ht. assert (E : peek true c a (py "items") = Some VNone).
  { apply (C75_lost c args a (py "items") H); [| |discriminate|discriminate]; [right; destruct c; try discriminate Hc; apply mem_str_in; reflexivity|destruct c; try discriminate Hc; apply mem_str_in; vm_compute; reflexivity]. }
  rewrite E in Hi. injection Hi as <-. cbn in Hz. now subst z.
Qed.
(** in models.py's own classes it is the number of items given (a page loses them) *)
Theorem C76_plain_classes : forall c args a, is_collection c = true -> construct false c args = Ok (VObj false c a) ->
  exists z, count (if class_eqb c OrderedCollectionPage then VNone else arg args (py "items")) z /\ peek false c a (py "totalItems") = Some (if truthy (arg args (py "totalItems")) then arg args (py "totalItems") else VInt z).
Proof.
  intros c args a Hc H. destruct (C76_construction false c args a Hc H) as (items & z & Hi & Hz & Ht). exists z. rewrite Ht. pose proof H as H0. apply construct_with_ok in H0 as (a' & _ & _ & H1 & H2). rewrite needs_id_spec in H2. destruct (C75_plain_classes c args H1 H2) as (b & Hb & _ & Hit). rewrite H in Hb. injection Hb as <-. rewrite (Hit Hc) in Hi. injection Hi as <-. auto.
Qed.
(** it is never updated: assigning items (or anything else) later leaves it alone *)
Theorem C76_not_updated : forall c a n v a2, is_collection c = true -> assign true c a n v = Ok a2 -> plain n = true -> n <> py "totalItems" -> peek true c a2 (py "totalItems") = peek true c a (py "totalItems").
Proof. intros c a n v a2 Hc H Hp Hn. apply (assign_other netloc_ok nd email true c a a2 n (py "totalItems") v Hp eq_refl) with (2 := H). congruence. Qed.
Theorem C76_wrong_count_refuted : exists args a a2, construct true Collection args = Ok (VObj true Collection a) /\ peek true Collection a (py "totalItems") = Some (VInt 0) /\
  assign true Collection a (py "items") (VList [VObj true Note []; VObj true Note []]) = Ok a2 /\ peek true Collection a2 (py "items") = Some (VList [VObj true Note []; VObj true Note []]) /\ peek true Collection a2 (py "totalItems") = Some (VInt 0).
Proof. exists [(py "items", VList [VObj true Note []; VObj true Note []])]. eexists. eexists. repeat split; vm_compute; reflexivity. Qed.

(** ** C83 *)
(** properties documented as taking Objects that take them, and those that do not *)
Definition taking_objects : list pystr := map py ["attachment"; "attributedTo"; "actor"; "audience"; "bcc"; "bto"; "cc"; "generator"; "icon"; "image"; "inReplyTo"; "instrument"; "location"; "items"; "orderedItems"; "unorderedItems"; "oneOf"; "anyOf"; "closed"; "origin"; "object"]%string.
Definition refusing_objects : list pystr := map py ["preview"; "result"; "tag"; "target"; "to"; "subject"; "relationship"; "describes"; "formerType"]%string.
Lemma set_prop_row c n : In n (property_set true c) -> n <> py "__namespace__" -> n <> py "type" -> exists p, row n = Some p /\ prop_of true c n = Some p.
Proof. intros H Hn Ht. apply property_set_prop; auto. unfold plain_type. destruct (str_eqb n (py "type")) eqn:E; [apply str_eqb_eq in E; congruence|reflexivity]. Qed.
Theorem C83_taken : forall c n attrs l k b, In n (property_set true c) -> In n taking_objects -> subclass k Object = true -> exists attrs', assign true c attrs n (VObj l k b) = Ok attrs' /\ peek true c attrs' n = Some (VObj l k b).
Proof.
  intros c n attrs l k b Hin Ht Hk. assert (Hn : n <> py "__namespace__" /\ n <> py "type" /\ n <> py "hreflang"). { assert (T : forallb (fun n => negb (str_eqb n (py "__namespace__")) && negb (str_eqb n (py "type")) && negb (str_eqb n (py "hreflang"))) taking_objects = true) by (vm_compute; reflexivity). rewrite forallb_forall in T. specialize (T n Ht). repeat rewrite andb_true_iff in T. destruct T as [[T1 T2] T3]. repeat split; intros ->; [rewrite str_eqb_refl in T1|rewrite str_eqb_refl in T2|rewrite str_eqb_refl in T3]; discriminate. }
  destruct Hn as (Hn1 & Hn2 & Hn3). destruct (set_prop_row c n Hin Hn1 Hn2) as (p & Hr & Hp).
  assert (Hrow : pd_parse p = false /\ pd_checked p = true /\ pd_checks p = [] /\ existsb (fun t => match t with TyModel Object => true | _ => false end) (pd_types p) = true).
  { assert (T : forallb (fun n => match row n with Some p => negb (pd_parse p) && pd_checked p && (match pd_checks p with [] => true | _ => false end) && existsb (fun t => match t with TyModel Object => true | _ => false end) (pd_types p) | None => false end) taking_objects = true) by (vm_compute; reflexivity).
    rewrite forallb_forall in T. specialize (T n Ht). rewrite Hr in T. repeat rewrite andb_true_iff in T. destruct T as [[[T1 T2] T3] T4]. apply negb_true_iff in T1. destruct (pd_checks p); [auto|discriminate]. }
  destruct Hrow as (R1 & R2 & R3 & R4). assert (Ev : evaluate netloc_ok nd (pd_types p ++ [TyNone]) (pd_functional p) (pd_checks p) (VObj l k b) = Ok (VObj l k b)).
  { rewrite evaluate_eq, R3. assert (Ei : isinstance (VObj l k b) (effective (pd_types p ++ [TyNone]) (pd_functional p)) = true); [|rewrite Ei; reflexivity]. apply existsb_exists in R4 as (t & Ht1 & Ht2). unfold isinstance. apply existsb_exists. exists t. split; [unfold effective; destruct (pd_functional p && _); repeat (apply in_or_app; left); exact Ht1|]. destruct t as [| | | | | | | | | |[]]; try discriminate. exact Hk. }
  assert (Hnorm : VocabFacts.norm netloc_ok nd true c n (VObj l k b) (create_link true (VObj l k b)) = Ok (VObj l k b)).
  { unfold VocabFacts.norm. destruct (str_eqb n (py "__namespace__")) eqn:E; [apply str_eqb_eq in E; congruence|]. rewrite Hp. cbn [Vocab.create_link]. assert (Ec : (if pd_link p then Ok (VObj l k b) else Ok (VObj l k b)) = @Ok value (VObj l k b)) by (destruct (pd_link p); reflexivity). rewrite Ec, R2, Ev, R1. reflexivity. }
  rewrite assign_norm, Hnorm. eexists. split; [reflexivity|]. apply peek_set; [exact Hn3|apply d_get_set_same].
Qed.
Theorem C83_refused : forall c n attrs l k b, In n (property_set true c) -> In n refusing_objects -> subclass k Link = false -> assign true c attrs n (VObj l k b) = Err ValueError.
Proof.
  intros c n attrs l k b Hin Ht Hk. assert (Hn : n <> py "__namespace__" /\ n <> py "type"). { assert (T : forallb (fun n => negb (str_eqb n (py "__namespace__")) && negb (str_eqb n (py "type"))) refusing_objects = true) by (vm_compute; reflexivity). rewrite forallb_forall in T. specialize (T n Ht). repeat rewrite andb_true_iff in T. destruct T as [T1 T2]. split; intros ->; [rewrite str_eqb_refl in T1|rewrite str_eqb_refl in T2]; discriminate. }
  destruct Hn as (Hn1 & Hn2). destruct (set_prop_row c n Hin Hn1 Hn2) as (p & Hr & Hp).
  assert (Hrow : pd_checked p = true /\ forall t, In t (pd_types p ++ [TyNone] ++ [TyList]) -> isinst (VObj l k b) t = false).
  { assert (T : forallb (fun n => match row n with Some p => pd_checked p && forallb (fun t => match t with TyModel Link => true | TyModel _ => false | _ => true end) (pd_types p ++ [TyNone] ++ [TyList]) | None => false end) refusing_objects = true) by (vm_compute; reflexivity).
    rewrite forallb_forall in T. specialize (T n Ht). rewrite Hr in T. apply andb_true_iff in T as [T1 T2]. split; [exact T1|]. intros t Hin2. rewrite forallb_forall in T2. specialize (T2 t Hin2). destruct t as [| | | | | | | | | |[]]; try reflexivity; try discriminate. exact Hk. }
  destruct Hrow as (R1 & R2). rewrite assign_norm. unfold VocabFacts.norm. destruct (str_eqb n (py "__namespace__")) eqn:E; [apply str_eqb_eq in E; congruence|]. rewrite Hp. cbn [Vocab.create_link]. assert (Ec : (if pd_link p then Ok (VObj l k b) else Ok (VObj l k b)) = @Ok value (VObj l k b)) by (destruct (pd_link p); reflexivity). rewrite Ec, R1, evaluate_eq.
  assert (Ei : isinstance (VObj l k b) (effective (pd_types p ++ [TyNone]) (pd_functional p)) = false); [|rewrite Ei; reflexivity]. unfold isinstance. apply Bool.not_true_is_false. intros Hc. apply existsb_exists in Hc as (t & Ht1 & Ht2). rewrite R2 in Ht2; [discriminate|]. unfold effective in Ht1. destruct (pd_functional p && _).
  - apply in_app_or in Ht1 as [Ht1|Ht1]; apply in_or_app; [now left|right; apply in_or_app; now left].
  - rewrite <- app_assoc in Ht1. exact Ht1.
Qed.
(** so no constructor takes an Object for them either *)
Theorem C83_constructors : forall c args n l k b, In n (property_set true c) -> In n refusing_objects -> ~ In n (ignored c) -> subclass k Link = false -> d_get n args = Some (VObj l k b) -> forall o, construct true c args <> Ok o.
Proof.
  intros c args n l k b Hin Hr Hi Hk Ha o H. destruct (proj1 (C75_succeeds c args) (ex_intro _ o H)) as (_ & _ & H3). destruct (H3 n Hin Hi []) as [a Hs]. assert (E : effective_arg args n = VObj l k b). { unfold effective_arg, arg. rewrite Ha. cbn [truthy negb]. now rewrite andb_false_r. } rewrite E, (C83_refused c n [] l k b Hin Hr Hk) in Hs. discriminate.
Qed.
End C75.
Print Assumptions C75_stored.
Print Assumptions C75_lost.
Print Assumptions C75_lost_names.
Print Assumptions C75_type.
Print Assumptions C75_start_index.
Print Assumptions C75_succeeds.
Print Assumptions C75_fails.
Print Assumptions C75_plain_classes.
Print Assumptions C75_assignment.
Print Assumptions C76_construction.
Print Assumptions C76_package.
Print Assumptions C76_plain_classes.
Print Assumptions C76_not_updated.
Print Assumptions C76_wrong_count_refuted.
Print Assumptions C83_taken.
Print Assumptions C83_refused.
Print Assumptions C83_constructors.
Example C75_case : exists a, construct (fun _ => true) (fun _ => None) (fun _ => Ok false) true Create [(py "actor", VObj true Person []); (py "content", VList [VStr (py "x"); VStr (py "y")]); (py "unknown", VInt 3)] = Ok (VObj true Create a) /\
  In (py "actor") (property_set true Create) /\ ~ In (py "actor") (ignored Create) /\ peek true Create a (py "actor") = Some (VObj true Person []) /\ peek true Create a (py "content") = Some (VList [VStr (py "x"); VStr (py "y")]).
Proof. eexists. split; [vm_compute; reflexivity|]. split; [apply mem_str_in; vm_compute; reflexivity|]. split; [intros H; apply mem_str_in in H; vm_compute in H; discriminate|]. split; vm_compute; reflexivity. Qed.
Example C83_case : In (py "to") (property_set true Note) /\ In (py "to") refusing_objects /\ ~ In (py "to") (ignored Note) /\ subclass Person Link = false /\ subclass Person Object = true /\ In (py "cc") (property_set true Note) /\ In (py "cc") taking_objects.
Proof. repeat split; try (apply mem_str_in; vm_compute; reflexivity). intros H; apply mem_str_in in H; vm_compute in H; discriminate. Qed.
