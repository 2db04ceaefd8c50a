(** Property theorems C87: an object written as JSON and read back by the engine.
    [data … fuel true default_args true c attrs s0 = (s0, Ok d)]: obj.data() in the JSON context returned [d]. [loads t = Ok (document_of int_text d)]: the text [t] decodes to it (json.loads of json.dumps; [int_text] the text of an int, [num] the number of a text). [read_text … t s]: the engine's from_json of [t], from the outside state [s] (documents, network).
    [same], [portable] and [understands]: see RoundTripSpec.v. *)
From Coq Require Import String.
From Verif Require Import Base BaseFacts Dict DictFacts Package Intake IntakeFacts PropsIntake Duration DateTime DateTimeFacts DateTimeMore Url UrlFacts JsonData VocabTables Vocab VocabFacts VocabStore VocabConstruct VocabLinks VocabRead VocabClean PropsVocab RoundTrip RoundTripSpec RoundTripFacts RoundTripBack RoundTripLoss.
Open Scope list_scope.

Section C87.
Variable netloc_ok : pystr -> bool.
Variable nd : N -> option N.
Variable email : pystr -> res bool.
Variable props_order : bool -> cname -> list pystr.
Variables Out J : Type.
Variable fetch : Out -> value -> Out * res J.
Variable form : Out -> bool -> cname -> J -> Out * res value.
Variable link_ns : bool -> cname -> bool.
Variable ns_text : bool -> cname -> pystr.
Variable show : value -> pystr.
Variable int_text : Z -> pystr.
Variable num : pystr -> value.
Variable ctx : pystr.
Variable St : Type.
Variable expand : St -> pv -> St * res (list (option (list pystr))).
Variable registry : nsdict.
Variable loads : pystr -> res pv.
Notation data := (data netloc_ok nd email props_order Out J fetch form link_ns ns_text show).
Notation read_text := (read_text netloc_ok nd email props_order num St expand registry loads).
Notation portable := (portable netloc_ok nd email num ctx).
Notation no_link := (no_link netloc_ok nd email).
(** t is the JSON text of the object *)
Definition written (fuel : nat) (c : cname) (a : dict value) (t : pystr) : Prop := exists s0 d, data fuel true default_args true c a s0 = (s0, Ok d) /\ loads t = Ok (document_of int_text d).
(** the object has the context of the document and the type of its class *)
Definition typed (c : cname) (a : dict value) : Prop := c <> Object /\ c <> Link /\ peek true c a (py "acontext") = Some (VStr ctx) /\ peek true c a (py "type") = Some (VStr (name_of c)).

Theorem C87_round_trip : orders props_order -> ascii_ok nd -> (forall z, num (int_text z) = VInt z) -> ctx <> [] -> understands St expand registry number ctx ->
  forall fuel c a t s, portable (VObj true c a) -> written fuel c a t -> exists s' o, read_text t s = (s', Ok o) /\ same (VObj true c a) o.
Proof.
  intros H1 H2 H3 H4 H5 fuel c a t s P (s0 & d & Hd & Ht). rewrite data_quiet in Hd. apply pair_equal_spec in Hd as [_ Hd].
  exact (read_back netloc_ok nd email props_order show int_text num ctx St expand registry H2 H1 H3 H4 H5 loads fuel c a d t s P Hd Ht).
Qed.

(** ** what does not survive *)
Hypothesis Ho : orders props_order.
Hypothesis Hctx : ctx <> [].
Hypothesis Hexp : understands St expand registry number ctx.
Lemma written_text fuel c a t n v x : typed c a -> written fuel c a t -> In n (property_set true c) -> n <> py "acontext" -> json_read netloc_ok nd email props_order true c a n = Ok v -> is_none v = false ->
  (forall f w, json_handle netloc_ok nd email props_order show f v = Ok w -> w = JStr x) -> forall s s' r, read_text t s = (s', r) -> (exists e, r = Err e) \/ (exists args, r = construct netloc_ok nd email true c args /\ d_get n args = Some (VStr x)).
Proof.
  intros (T1 & T2 & T3 & T4) (s0 & d & Hd & Ht) Hn Hn2 Hr Hv Hw s s' r E. rewrite data_quiet in Hd. apply pair_equal_spec in Hd as [_ Hd].
  exact (text_back netloc_ok nd email props_order show int_text num ctx St expand registry loads Ho Hctx Hexp fuel c a d t n v x T1 T2 T3 T4 Hd Ht Hn Hn2 Hr Hv Hw s s' r E).
Qed.
Lemma text_handled x f w : json_handle netloc_ok nd email props_order show f (VStr x) = Ok w -> w = JStr x.
Proof. destruct f; [discriminate|]. cbn. congruence. Qed.
Lemma bool_handled b f w : json_handle netloc_ok nd email props_order show f (VBool b) = Ok w -> w = JStr (py (if b then "True" else "False")).
Proof. destruct f; [discriminate|]. cbn. congruence. Qed.
Lemma never c a fuel t n v x p : typed c a -> written fuel c a t -> In n (property_set true c) -> n <> py "acontext" -> json_read netloc_ok nd email props_order true c a n = Ok v -> is_none v = false ->
  (forall f w, json_handle netloc_ok nd email props_order show f v = Ok w -> w = JStr x) -> ~ In n (ignored c) -> ~ In n [py "totalItems"; py "startIndex"] -> prop_of true c n = Some p -> n <> py "__namespace__" -> pd_checked p = true -> pd_parse p = false ->
  (pd_link p = true -> no_link x) -> isinstance (VStr x) (effective (pd_types p ++ [TyNone]) (pd_functional p)) = false -> forall s, exists s' e, read_text t s = (s', Err e).
Proof.
  intros T W Hn Hn2 Hr Hv Hw Hi Hsp Hp Hns Hc Hpa Hl Hno s. destruct (read_text t s) as [s' r] eqn:E. exists s'. destruct (written_text fuel c a t n v x T W Hn Hn2 Hr Hv Hw s s' r E) as [[e ->]|(args & -> & Ha)]; [eauto|].
  destruct (construct netloc_ok nd email true c args) as [o|e] eqn:Ec; [|eauto]. destruct (refused_text netloc_ok nd email c n p x Hn Hi Hsp Hp Hns Hc Hpa Hl Hno args o Ha Ec).
Qed.
Lemma closed_read a v : peek true Question a (py "closed") = Some v -> json_read netloc_ok nd email props_order true Question a (py "closed") = match href_only (json_value JTime v) with Ok w => wrap_get netloc_ok nd email props_order true w | Err e => Err e end.
Proof.
  intros H. unfold json_read. change (str_eqb (py "closed") (py "__namespace__")) with false. cbv iota. destruct (prop_of true Question (py "closed")) as [p|] eqn:E; [|discriminate]. rewrite (peek_prop true Question a (py "closed") p E) in H.
  vm_compute in E. injection E as <-. cbv iota beta. rewrite H. reflexivity.
Qed.
Lemma closed_row : exists p, prop_of true Question (py "closed") = Some p /\ pd_checked p = true /\ pd_parse p = false /\ forall x, isinstance (VStr x) (effective (pd_types p ++ [TyNone]) (pd_functional p)) = false.
Proof. eexists. repeat split. Qed.
Lemma closed_name : In (py "closed") (property_set true Question) /\ ~ In (py "closed") (ignored Question).
Proof. split; [apply mem_str_in; vm_compute; reflexivity|]. intros H. apply mem_str_in in H. vm_compute in H. discriminate. Qed.
(** a Question that is closed (a bool or a date) can be written, but not be read again *)
Theorem C87_closed_bool : forall fuel a t b, typed Question a -> peek true Question a (py "closed") = Some (VBool b) -> written fuel Question a t -> no_link (py (if b then "True" else "False")) -> forall s, exists s' e, read_text t s = (s', Err e).
Proof.
  intros fuel a t b T Hp W Hl. destruct closed_row as (p & P1 & P2 & P3 & P4). destruct closed_name as [N1 N2].
  refine (never Question a fuel t (py "closed") (VBool b) _ p T W N1 _ (closed_read a _ Hp) eq_refl (bool_handled b) N2 _ P1 _ P2 P3 (fun _ => Hl) (P4 _)); try discriminate. intros [H|[H|[]]]; discriminate.
Qed.
Theorem C87_closed_time : forall fuel a t m, typed Question a -> peek true Question a (py "closed") = Some (VDatetime m) -> written fuel Question a t -> no_link (datetime_str m) -> forall s, exists s' e, read_text t s = (s', Err e).
Proof.
  intros fuel a t m T Hp W Hl. destruct closed_row as (p & P1 & P2 & P3 & P4). destruct closed_name as [N1 N2].
  refine (never Question a fuel t (py "closed") (VStr (datetime_str m)) _ p T W N1 _ (closed_read a _ Hp) eq_refl (text_handled _) N2 _ P1 _ P2 P3 (fun _ => Hl) (P4 _)); try discriminate. intros [H|[H|[]]]; discriminate.
Qed.
(** a Tombstone with the time of deletion likewise *)
Theorem C87_deleted : forall fuel a t m, typed Tombstone a -> peek true Tombstone a (py "deleted") = Some (VDatetime m) -> written fuel Tombstone a t -> forall s, exists s' e, read_text t s = (s', Err e).
Proof.
  intros fuel a t m T Hp W. assert (exists p, prop_of true Tombstone (py "deleted") = Some p /\ pd_checked p = true /\ pd_parse p = false /\ pd_link p = false /\ pd_json p = JTime /\ forall x, isinstance (VStr x) (effective (pd_types p ++ [TyNone]) (pd_functional p)) = false) as (p & P1 & P2 & P3 & P5 & P6 & P4) by (eexists; repeat split).
  assert (In (py "deleted") (property_set true Tombstone)) as N1 by (apply mem_str_in; vm_compute; reflexivity). assert (~ In (py "deleted") (ignored Tombstone)) as N2 by (intros H; apply mem_str_in in H; vm_compute in H; discriminate).
  refine (never Tombstone a fuel t (py "deleted") (VStr (datetime_str m)) _ p T W N1 _ _ eq_refl (text_handled _) N2 _ P1 _ P2 P3 _ (P4 _)); try discriminate; [|intros [H|[H|[]]]; discriminate|congruence].
  unfold json_read. change (str_eqb (py "deleted") (py "__namespace__")) with false. cbv iota. rewrite P1. rewrite (peek_prop true Tombstone a (py "deleted") p P1) in Hp. rewrite Hp, P5, P6. reflexivity.
Qed.
(** a duration comes back as a text *)
Theorem C87_duration : forall fuel c a t m s s' o, typed c a -> In (py "duration") (property_set true c) -> peek true c a (py "duration") = Some (VTimedelta m) -> written fuel c a t -> read_text t s = (s', Ok o) ->
  exists b, o = VObj true c b /\ peek true c b (py "duration") = Some (VStr (timedelta_str m)).
Proof.
  intros fuel c a t m s s' o T Hn Hp W E. assert (Hr : json_read netloc_ok nd email props_order true c a (py "duration") = Ok (VStr (timedelta_str m))).
  { destruct (set_prop_row c (py "duration") Hn ltac:(discriminate) ltac:(discriminate)) as (p & R & P). unfold json_read. change (str_eqb (py "duration") (py "__namespace__")) with false. cbv iota. rewrite (peek_prop true c a (py "duration") p P) in Hp. rewrite P. cbv iota beta. rewrite Hp. vm_compute in R. injection R as <-. reflexivity. }
  destruct (written_text fuel c a t (py "duration") _ _ T W Hn ltac:(discriminate) Hr eq_refl (text_handled _) s s' (Ok o) E) as [[e X]|(args & Ec & Ha)]; [discriminate|].
  symmetry in Ec. pose proof Ec as Ec2. apply construct_with_ok in Ec2 as (b & _ & -> & _). exists b. split; [reflexivity|].
  destruct (C75_stored netloc_ok nd email c args b (py "duration") Ec Hn) as (v & Hv & Hh); [destruct c; intros X; apply mem_str_in in X; vm_compute in X; discriminate|intros X; apply mem_str_in in X; vm_compute in X; discriminate|].
  rewrite Hv. f_equal. unfold held in Hh. assert (arg args (py "duration") = VStr (timedelta_str m)) as Ea by (unfold arg; now rewrite Ha). rewrite Ea in Hh. exact Hh.
Qed.
(** of a link (or Mention) only the href comes back *)
Theorem C87_links : forall fuel c a t n k b h s s' o, typed c a -> In n (property_set true c) -> ~ In n (ignored c) -> link_valued c n -> peek true c a n = Some (VObj true k b) -> subclass k Link = true -> peek true k b (py "href") = Some (VStr h) ->
  http_url netloc_ok false h -> written fuel c a t -> read_text t s = (s', Ok o) ->
  exists a' b', o = VObj true c a' /\ peek true c a' n = Some (VObj true Link b') /\ peek true Link b' (py "href") = Some (VStr h) /\ (forall m, In m (map py ["rel"; "mediaType"; "name"; "hreflang"; "height"; "width"; "preview"]%string) -> peek true Link b' m = Some VNone).
Proof.
  intros fuel c a t n k b h s s' o T Hn Hi Hlv Hp Hk Hh Hu W E. pose proof (link_valued_name c n Hlv) as Hns. pose proof Hlv as (p & P1 & P2).
  assert (Hrow : row n = Some p) by exact (prop_of_row true c n p P1).
  assert (Hna : n <> py "acontext") by (intros ->; cbn in P1; injection P1 as <-; discriminate P2).
  assert (Hr : json_read netloc_ok nd email props_order true c a n = Ok (VStr h)). { pose proof (C74_json_link netloc_ok nd email props_order Out J fetch form link_ns ns_text c a n k b h) as X. unfold json_read. destruct (str_eqb n (py "__namespace__")) eqn:En; [apply str_eqb_eq in En; contradiction|]. rewrite P1, P2. rewrite (peek_prop true c a n p P1) in Hp. rewrite Hp.
    assert (json_value (pd_json p) (VObj true k b) = VObj true k b) as -> by (destruct (pd_json p); reflexivity). cbn [href_only href_of]. rewrite Hk, Hh. reflexivity. }
  destruct (written_text fuel c a t n _ _ T W Hn Hna Hr eq_refl (text_handled _) s s' (Ok o) E) as [[e X]|(args & Ec & Ha)]; [discriminate|].
  symmetry in Ec. pose proof Ec as Ec2. apply construct_with_ok in Ec2 as (a' & _ & -> & _).
  destruct (C75_stored netloc_ok nd email c args a' n Ec Hn Hi) as (v & Hv & Hd).
  { intros [X|[X|[X|[]]]]; subst n; vm_compute in Hrow; injection Hrow as <-; discriminate P2. }
  unfold held in Hd. rewrite Hrow, P2 in Hd. assert (arg args n = VStr h) as Ea by (unfold arg; now rewrite Ha). rewrite Ea in Hd.
  destruct (C73_strings netloc_ok nd email h (or_introl Hu)) as (b' & B1 & B2 & B3). rewrite B1 in Hd. assert (VObj true Link b' = v) as <- by congruence. exists a', b'. auto.
Qed.
(** a plain Object has no type: the engine cannot read it, unless a default class is registered *)
Theorem C87_object : (forall s d, d_get (py "type") d = None -> exists s1 l, expand s (PDict d) = (s1, Ok l) /\ match l with [] | None :: _ => True | _ => False end) -> ns_get (Some []) registry = None -> ns_get (Some (py "default")) registry = None ->
  forall fuel a t s, peek true Object a (py "type") = Some VNone -> written fuel Object a t -> exists s', read_text t s = (s', Err AttributeError).
Proof.
  intros Hx R1 R2 fuel a t s Hty (s0 & d & Hd & Ht). rewrite data_quiet in Hd. apply pair_equal_spec in Hd as [_ Hd].
  assert (Hr : json_read netloc_ok nd email props_order true Object a (py "type") = Ok VNone).
  { unfold json_read. change (str_eqb (py "type") (py "__namespace__")) with false. cbv iota. destruct (prop_of true Object (py "type")) as [p|] eqn:E; [|discriminate]. rewrite (peek_prop true Object a (py "type") p E) in Hty. cbv iota beta. rewrite Hty. vm_compute in E. injection E as <-. reflexivity. }
  destruct (specials Object) as (_ & _ & _ & Sp4 & _). pose proof (data_entry netloc_ok nd email props_order show Ho fuel Object a d (py "type") VNone Sp4 ltac:(discriminate) Hr Hd) as H. cbn [is_none] in H.
  unfold RoundTrip.read_text, from_text. rewrite Ht. change (document_of int_text d) with (PDict (pvd int_text d)).
  assert (Hn : d_get (py "type") (document (pvd int_text d)) = None). { unfold document. destruct (match d_get (py "@context") (pvd int_text d) with Some c => Intake.truthy c | None => false end); [|rewrite d_get_set_other by discriminate]; now rewrite pvd_get, H. }
  destruct (Hx s _ Hn) as (s1 & l & E1 & El). exists s1. apply (C72_unregistered St value expand _ _ registry (pvd int_text d) s s1 l E1).
  - destruct l as [|[[|]|]]; auto.
  - assert (R3 : ns_get (@Some pystr []) registry = None) by exact R1. assert (X : class_of_type registry [] = None) by (unfold class_of_type; now rewrite R3). destruct l as [|[[|]|]]; try contradiction; exact X.
Qed.
End C87.
Print Assumptions C87_round_trip.
Print Assumptions C87_closed_bool.
Print Assumptions C87_closed_time.
Print Assumptions C87_deleted.
Print Assumptions C87_duration.
Print Assumptions C87_links.
Print Assumptions C87_object.

(** ** a concrete engine and object *)
From Coq Require Import DecimalString DecimalPos DecimalZ Ascii.
Definition ascii_nd (c : N) : option N := if ((48 <=? c) && (c <=? 57))%N then Some (c - 48)%N else None.
Lemma ascii_nd_ok : ascii_ok ascii_nd. Proof. intros c _. reflexivity. Qed.
(** ints in decimal; any other number's text stays a float's *)
Fixpoint text_of (s : pystr) : string := match s with [] => EmptyString | c :: r => String (ascii_of_N c) (text_of r) end.
Lemma text_of_py s : text_of (py s) = s.
Proof. induction s as [|c s IH]; [reflexivity|]. cbn. now rewrite IH, ascii_N_embedding. Qed.
Definition decimal (z : Z) : pystr := py (NilEmpty.string_of_int (Z.to_int z)).
Definition number_of (t : pystr) : value := match NilEmpty.int_of_string (text_of t) with Some i => VInt (Z.of_int i) | None => VFloat false t end.
Lemma number_decimal z : number_of (decimal z) = VInt z.
Proof. unfold number_of, decimal. now rewrite text_of_py, NilEmpty.isi, DecimalZ.of_to. Qed.
(** pyld with the ActivityStreams context: the type is the namespace followed by the name; the state counts the calls *)
Definition type_iri (n : pystr) : pystr := as_ns ++ py "#" ++ n.
Definition expand2 (s : nat) (v : pv) : nat * res (list (option (list pystr))) := (S s, Ok [match v with PDict d => match d_get (py "type") d with Some (PStr t) => Some [type_iri t] | _ => None end | _ => None end]).
Definition registry2 : nsdict := map (fun c => (Some (type_iri (name_of c)), number c)) all_classes.
Lemma understands2 : understands nat expand2 registry2 number as_ns.
Proof. intros s d c _ H _ _. exists (S s), (type_iri (name_of c)), [], []. unfold expand2. rewrite H. split; [reflexivity|]. destruct c; vm_compute; reflexivity. Qed.
Notation netloc2 := (fun _ : pystr => true).
Notation email2 := (fun _ : pystr => @Ok bool false).
Notation portable2 := (portable netloc2 ascii_nd email2 number_of as_ns).
Notation portable_at2 := (portable_at netloc2 ascii_nd email2 number_of as_ns).
Definition attrs_of (r : res value) : dict value := match r with Ok (VObj _ _ a) => a | _ => [] end.
Definition held_by (c : cname) (a : dict value) (n : pystr) : value := match peek true c a n with Some v => v | None => VNone end.
Lemma portable_when c a used : c <> Object -> subclass c Link = false -> forallb (fun n => str_eqb n (py "__namespace__") || match peek true c a n with Some _ => true | None => false end) (property_set true c) = true ->
  held_by c a (py "acontext") = VStr as_ns -> held_by c a (py "type") = VStr (name_of c) -> is_collection c = false -> forallb (fun n => mem_str n (py "__namespace__" :: py "acontext" :: py "type" :: used) || is_none (held_by c a n)) (property_set true c) = true ->
  forallb (fun n => negb (mem_str n (ignored c))) used = true -> (forall n p, In n used -> row n = Some p -> portable_at2 p (held_by c a n)) -> portable2 (VObj true c a).
Proof.
  intros H1 H2 H3 H4 H5 H6 H7 H8 H9. rewrite forallb_forall in H3, H7, H8. apply po_obj with (f := held_by c a); auto.
  - intros n Hn Hns. specialize (H3 n Hn). apply orb_true_iff in H3 as [H3|H3]; [apply str_eqb_eq in H3; contradiction|]. unfold held_by. now destruct (peek true c a n).
  - intros n Hi Hn Hns Ht. specialize (H7 n Hn). apply orb_true_iff in H7 as [H7|H7]; [|destruct (held_by c a n); try discriminate; reflexivity]. apply mem_str_in in H7. destruct H7 as [H|[H|[H|H]]]; [now subst n|subst n|now subst n|].
    + exfalso. destruct c; apply mem_str_in in Hi; vm_compute in Hi; discriminate.
    + specialize (H8 n H). apply mem_str_in in Hi. rewrite Hi in H8. discriminate.
  - intros n Hi Hn. exfalso. destruct (specials c) as (S1 & S2 & _). destruct Hi as [<-|[<-|[]]]; [apply S1 in Hn; congruence|apply S2 in Hn; subst c; discriminate].
  - intros n p Hn Hns Ha Ht Hr. specialize (H7 n Hn). apply orb_true_iff in H7 as [H7|H7].
    + apply mem_str_in in H7. destruct H7 as [H|[H|[H|H]]]; try (symmetry in H; contradiction). now apply H9.
    + destruct (held_by c a n); try discriminate. constructor.
Qed.
(** an activity: who, when, the Note it made, addressed to a list of two *)
Definition url (s : string) : value := VStr (py "https://example.org/" ++ py s).
Definition note : dict value := Eval vm_compute in attrs_of (construct netloc2 ascii_nd email2 true Note [(py "id", url "n"); (py "content", VStr (py "hello")); (py "attributedTo", url "u")]).
Definition create : dict value := Eval vm_compute in attrs_of (construct netloc2 ascii_nd email2 true Create [(py "id", url "c"); (py "actor", url "u"); (py "cc", VList [url "f"; url "g"]); (py "published", VStr (py "2024-03-01T01:02:03Z")); (py "object", VObj true Note note)]).
Example C87_case : portable2 (VObj true Create create) /\ (exists m, peek true Create create (py "published") = Some (VDatetime m)) /\ (exists b, peek true Create create (py "actor") = Some (VObj true Link b)) /\ peek true Create create (py "object") = Some (VObj true Note note).
Proof.
  assert (L : forall x b, http_url netloc2 false x -> (forall n, In n (property_set true Link) -> n <> py "__namespace__" -> peek true Link b n = Some (if str_eqb n (py "href") then VStr x else if str_eqb n (py "acontext") then VStr as_ns else VNone)) -> portable_ref netloc2 ascii_nd email2 number_of as_ns (VObj true Link b)) by (intros x b Hx Hb; apply pr_link; exists x; auto).
  assert (U : forall x, validate_url netloc2 x false = Ok true -> http_url netloc2 false x) by (intros x; apply C63_lemma).
  assert (N : portable2 (VObj true Note note)).
  { apply portable_when with (used := [py "id"; py "content"; py "attributedTo"]); try (vm_compute; reflexivity); try discriminate. intros n p [<-|[<-|[<-|[]]]] Hr; vm_compute in Hr; injection Hr as <-.
    - apply pa_data; [reflexivity|reflexivity| |vm_compute; reflexivity]. constructor.
    - apply pa_data; [reflexivity|reflexivity| |vm_compute; reflexivity]. constructor.
    - apply pa_ref; [reflexivity| |vm_compute; reflexivity]. apply (L (py "https://example.org/u")); [apply U; vm_compute; reflexivity|]. intros n Hn Hne. cbn in Hn. repeat (destruct Hn as [<-|Hn]; [first [vm_compute; reflexivity|exfalso; apply Hne; reflexivity]|]). destruct Hn. }
  split; [|split; [eexists; vm_compute; reflexivity|split; [eexists; vm_compute; reflexivity|vm_compute; reflexivity]]].
  apply portable_when with (used := [py "id"; py "actor"; py "cc"; py "published"; py "object"]); try (vm_compute; reflexivity); try discriminate. intros n p [<-|[<-|[<-|[<-|[<-|[]]]]]] Hr; vm_compute in Hr; injection Hr as <-.
  - apply pa_data; [reflexivity|reflexivity| |vm_compute; reflexivity]. constructor.
  - apply pa_ref; [reflexivity| |vm_compute; reflexivity]. apply (L (py "https://example.org/u")); [apply U; vm_compute; reflexivity|]. intros n Hn Hne. cbn in Hn. repeat (destruct Hn as [<-|Hn]; [first [vm_compute; reflexivity|exfalso; apply Hne; reflexivity]|]). destruct Hn.
  - match goal with |- RoundTripSpec.portable_at _ _ _ _ _ _ ?v => let w := eval vm_compute in v in change v with w end. apply pa_refs; [reflexivity| |vm_compute; reflexivity]. apply ps_cons; [apply (L (py "https://example.org/f"))|apply ps_cons; [apply (L (py "https://example.org/g"))|apply ps_nil]]; try (apply U; vm_compute; reflexivity); (intros n Hn Hne; cbn in Hn; repeat (destruct Hn as [<-|Hn]; [first [vm_compute; reflexivity|exfalso; apply Hne; reflexivity]|]); destruct Hn).
  - apply pa_time; [reflexivity| |vm_compute; discriminate|reflexivity|reflexivity]. clear. vm_compute. repeat split; intros; first [discriminate|exact I|intuition discriminate].
  - apply pa_ref; [reflexivity| |vm_compute; reflexivity]. apply pr_obj. exact N.
Qed.
(** the properties in some order *)
Fixpoint dedup (l : list pystr) : list pystr := match l with [] => [] | x :: r => if mem_str x r then dedup r else x :: dedup r end.
Lemma dedup_in l n : In n (dedup l) <-> In n l.
Proof. induction l as [|x l IH]; [reflexivity|]. cbn [dedup]. destruct (mem_str x l) eqn:E; cbn [In]; rewrite IH; [|reflexivity]. apply mem_str_in in E. split; [auto|]. now intros [<-|H]. Qed.
Lemma dedup_nodup l : NoDup (dedup l).
Proof. induction l as [|x l IH]; [constructor|]. cbn [dedup]. destruct (mem_str x l) eqn:E; [exact IH|]. constructor; [|exact IH]. rewrite dedup_in. intros H. apply mem_str_in in H. congruence. Qed.
Definition order2 (l : bool) (c : cname) : list pystr := dedup (property_set l c).
Lemma order2_ok : orders order2.
Proof. intros l c. split; [apply dedup_nodup|intros n; apply dedup_in]. Qed.
(** its JSON exists and is read back as the same object *)
Notation data2 := (data netloc2 ascii_nd email2 order2 nat nat (fun s _ => (s, Err ValueError)) (fun s _ _ _ => (s, Err ValueError)) (fun _ _ => true) (fun _ _ => []) (fun _ => [])).
Definition create_data : dict jval := Eval vm_compute in match data2 5%nat true default_args true Create create 0%nat with (_, Ok d) => d | _ => [] end.
Definition loads2 (t : pystr) : res pv := if str_eqb t (py "the text") then Ok (document_of decimal create_data) else Err ValueError.
Example C87_case_read : written netloc2 ascii_nd email2 order2 nat nat (fun s _ => (s, Err ValueError)) (fun s _ _ _ => (s, Err ValueError)) (fun _ _ => true) (fun _ _ => []) (fun _ => []) decimal loads2 5%nat Create create (py "the text") /\
  exists s' o, read_text netloc2 ascii_nd email2 order2 number_of nat expand2 registry2 loads2 (py "the text") 0%nat = (s', Ok o) /\ same (VObj true Create create) o.
Proof.
  assert (W : written netloc2 ascii_nd email2 order2 nat nat (fun s _ => (s, Err ValueError)) (fun s _ _ _ => (s, Err ValueError)) (fun _ _ => true) (fun _ _ => []) (fun _ => []) decimal loads2 5%nat Create create (py "the text")) by (exists 0%nat, create_data; split; [vm_compute; reflexivity|reflexivity]).
  split; [exact W|]. refine (C87_round_trip _ _ _ _ nat nat _ _ _ _ _ _ _ as_ns nat _ _ _ order2_ok ascii_nd_ok number_decimal _ understands2 5%nat Create create (py "the text") 0%nat (proj1 C87_case) W). discriminate.
Qed.
(** a Question closed by a bool, a Tombstone with its time, a Note with a duration and a Mention among its tags, a plain Object: all can be made; and the engine has no default class *)
Definition question : dict value := Eval vm_compute in attrs_of (construct netloc2 ascii_nd email2 true Question [(py "id", url "q"); (py "closed", VBool true)]).
Definition tombstone : dict value := Eval vm_compute in attrs_of (construct netloc2 ascii_nd email2 true Tombstone [(py "id", url "t"); (py "deleted", VDatetime (mkDt 2024 3 1 1 2 3 0 None))]).
Definition mention : dict value := Eval vm_compute in attrs_of (construct netloc2 ascii_nd email2 true Mention [(py "href", url "u"); (py "name", VStr (py "@u"))]).
Definition note2 : dict value := Eval vm_compute in attrs_of (construct netloc2 ascii_nd email2 true Note [(py "id", url "n"); (py "tag", VObj true Mention mention); (py "duration", VTimedelta (mkTd 1 2 0))]).
Definition object2 : dict value := Eval vm_compute in attrs_of (construct netloc2 ascii_nd email2 true Object [(py "id", url "o")]).
Example C87_case_losses :
  typed as_ns Question question /\ peek true Question question (py "closed") = Some (VBool true) /\ no_link netloc2 ascii_nd email2 (py "True") /\ (exists d, data2 3%nat true default_args true Question question 0%nat = (0%nat, Ok d)) /\
  typed as_ns Tombstone tombstone /\ peek true Tombstone tombstone (py "deleted") = Some (VDatetime (mkDt 2024 3 1 1 2 3 0 None)) /\ (exists d, data2 3%nat true default_args true Tombstone tombstone 0%nat = (0%nat, Ok d)) /\
  typed as_ns Note note2 /\ peek true Note note2 (py "duration") = Some (VTimedelta (mkTd 1 2 0)) /\ peek true Note note2 (py "tag") = Some (VObj true Mention mention) /\ peek true Mention mention (py "href") = Some (url "u") /\ peek true Mention mention (py "name") = Some (VStr (py "@u")) /\
  link_valued Note (py "tag") /\ ~ In (py "tag") (ignored Note) /\ (exists d, data2 3%nat true default_args true Note note2 0%nat = (0%nat, Ok d)) /\
  peek true Object object2 (py "type") = Some VNone /\ (exists d, data2 3%nat true default_args true Object object2 0%nat = (0%nat, Ok d)) /\
  ns_get (Some []) registry2 = None /\ ns_get (Some (py "default")) registry2 = None /\ (forall s d, d_get (py "type") d = None -> exists s1 l, expand2 s (PDict d) = (s1, Ok l) /\ match l with [] | None :: _ => True | _ => False end).
Proof.
  unfold typed. repeat (match goal with |- _ /\ _ => split end); try discriminate; try (vm_compute; reflexivity); try (eexists; vm_compute; reflexivity).
  - eexists. split; vm_compute; reflexivity.
  - intros H. apply mem_str_in in H. vm_compute in H. discriminate.
  - intros s d H. unfold expand2. rewrite H. eexists _, _. split; [reflexivity|exact I].
Qed.
