(** Further property theorems for C73-C75: which properties convert links and times, what [data] makes of times, and that only the outermost object has a context. See PropsVocab.v. *)
From Coq Require Import String.
From Verif Require Import Base BaseFacts Dict DictFacts Duration DateTime Url UrlFacts JsonData VocabTables Vocab VocabFacts VocabStore VocabConstruct VocabLinks VocabRead VocabClean PropsVocab PropsRoundTrip.
Open Scope list_scope.

(** ** the properties by name *)
Definition link_names : list pystr := map py
  ["attachment"; "attributedTo"; "actor"; "audience"; "bcc"; "bto"; "cc"; "current"; "first"; "generator"; "icon"; "image"; "inReplyTo"; "instrument"; "last"; "location";
   "items"; "orderedItems"; "unorderedItems"; "oneOf"; "anyOf"; "closed"; "origin"; "next"; "object"; "prev"; "preview"; "result"; "replies"; "tag"; "target"; "to"; "url"; "partOf"; "subject"]%string.
Definition parsed_names : list pystr := map py ["endTime"; "published"; "startTime"; "updated"]%string.
Definition time_names : list pystr := map py ["closed"; "deleted"; "endTime"; "published"; "startTime"; "updated"]%string.
Definition kind_eqb (a b : jkind) : bool := match a, b with JSame, JSame | JTime, JTime | JDuration, JDuration => true | _, _ => false end.
Definition kind_of_name (n : pystr) : jkind := if mem_str n time_names then JTime else if str_eqb n (py "duration") then JDuration else JSame.
Definition names_table (c : cname) : bool :=
  forallb (fun n => match prop_of true c n with
                    | Some p => Bool.eqb (pd_link p) (mem_str n link_names) && Bool.eqb (pd_parse p) (mem_str n parsed_names) && kind_eqb (pd_json p) (kind_of_name n)
                    | None => negb (mem_str n link_names) && negb (mem_str n time_names) && negb (str_eqb n (py "duration"))
                    end) (property_set true c).
Lemma names_tables : forallb names_table all_classes = true. Proof. vm_compute. reflexivity. Qed.
Lemma names_row c n : In n (property_set true c) -> match prop_of true c n with
  | Some p => pd_link p = mem_str n link_names /\ pd_parse p = mem_str n parsed_names /\ pd_json p = kind_of_name n
  | None => mem_str n link_names = false /\ mem_str n time_names = false /\ n <> py "duration" end.
Proof.
  intros Hn. pose proof (by_class _ names_tables c) as T. unfold names_table in T. rewrite forallb_forall in T. specialize (T n Hn). cbv beta in T.
  destruct (prop_of true c n) as [p|]; repeat rewrite andb_true_iff in T; destruct T as [[T1 T2] T3].
  - apply Bool.eqb_prop in T1, T2. split; [exact T1|]. split; [exact T2|]. destruct (pd_json p), (kind_of_name n); try discriminate; reflexivity.
  - apply negb_true_iff in T1, T2, T3. split; [exact T1|]. split; [exact T2|]. intros ->. now rewrite str_eqb_refl in T3.
Qed.
(** whose values are made into Links *)
Theorem C73_link_valued : forall c n, link_valued c n <-> In n (property_set true c) /\ In n link_names.
Proof.
  intros c n. rewrite <- (mem_str_in n link_names). split.
  - intros (p & Hp & Hl). pose proof (prop_in_set c n p Hp) as Hin. split; [exact Hin|]. pose proof (names_row c n Hin) as T. rewrite Hp in T. destruct T as (T & _). congruence.
  - intros [Hin Hm]. pose proof (names_row c n Hin) as T. destruct (prop_of true c n) as [p|] eqn:E; [|destruct T as [T _]; congruence]. exists p. split; [exact E|]. destruct T as (T & _). congruence.
Qed.
Print Assumptions C73_link_valued.

Section Serial.
Variable netloc_ok : pystr -> bool.
Variable nd : N -> option N.
Variable email : pystr -> res bool.
Variable props_order : bool -> cname -> list pystr.
Variables St J : Type.
Variable fetch : St -> value -> St * res J.
Variable form : St -> bool -> cname -> J -> St * res value.
Variable link_ns : bool -> cname -> bool.
Variable ns_text : bool -> cname -> pystr.
Variable show : value -> pystr.
Notation read := (read netloc_ok nd email props_order St J fetch form link_ns ns_text).
Notation data := (data netloc_ok nd email props_order St J fetch form link_ns ns_text show).
Notation json_read := (json_read netloc_ok nd email props_order).
Notation json_handle := (json_handle netloc_ok nd email props_order show).
Notation json_collect := (json_collect netloc_ok nd email props_order).
Notation orders := (orders props_order).

(** what is kept of an argument: links are converted, times parsed, everything else kept *)
Theorem C75_held : forall c n given v, In n (property_set true c) -> prop_of true c n <> None -> n <> py "acontext" -> (PropsVocab.held netloc_ok nd email n given v <->
  if mem_str n link_names then create_link netloc_ok nd email true given = Ok v else if mem_str n parsed_names then parse_time nd given = Ok v else v = given).
Proof.
  intros c n given v Hn Hp Hc. pose proof (names_row c n Hn) as T. destruct (prop_of true c n) as [p|] eqn:E; [|congruence]. destruct T as (T1 & T2 & _). unfold PropsVocab.held.
  rewrite (prop_of_row _ _ _ _ E). now rewrite T1, T2.
Qed.

(** ** JSON texts of times *)
Theorem C74_json_times : forall c attrs n d s, In n (property_set true c) -> In n time_names -> peek true c attrs n = Some (VDatetime d) -> read true true c attrs n s = (s, Ok (VStr (datetime_str d))).
Proof.
  intros c attrs n d s Hn Ht Hv. pose proof (names_row c n Hn) as T. apply mem_str_in in Ht. destruct (prop_of true c n) as [p|] eqn:E; [|destruct T as (_ & T & _); congruence].
  rewrite (peek_prop _ _ _ _ _ E) in Hv. rewrite read_json. f_equal. unfold VocabRead.json_read. destruct (str_eqb n (py "__namespace__")) eqn:En; [apply str_eqb_eq in En; subst n; discriminate|].
  rewrite E, Hv. destruct T as (_ & _ & T). unfold kind_of_name in T. rewrite Ht in T. rewrite T. cbn [json_value]. destruct (pd_link p); reflexivity.
Qed.
Theorem C74_json_duration : forall c attrs d s, In (py "duration") (property_set true c) -> peek true c attrs (py "duration") = Some (VTimedelta d) -> read true true c attrs (py "duration") s = (s, Ok (VStr (timedelta_str d))).
Proof.
  intros c attrs d s Hn Hv. pose proof (names_row c _ Hn) as T. destruct (prop_of true c (py "duration")) as [p|] eqn:E; [|destruct T as (_ & _ & T); congruence].
  rewrite (peek_prop _ _ _ _ _ E) in Hv. rewrite read_json. f_equal. unfold VocabRead.json_read. cbn [str_eqb]. change (str_eqb (py "duration") (py "__namespace__")) with false. cbv iota.
  rewrite E, Hv. destruct T as (T1 & _ & T). change (kind_of_name (py "duration")) with JDuration in T. change (mem_str (py "duration") link_names) with false in T1. rewrite T, T1. reflexivity.
Qed.
Theorem C74_data_times : orders -> forall fuel c attrs n d s r, In n (property_set true c) -> In n time_names -> peek true c attrs n = Some (VDatetime d) ->
  data (S fuel) true default_args true c attrs s = (s, Ok r) -> d_get n r = Some (JStr (datetime_str d)).
Proof.
  intros Ho fuel c attrs n d s r Hn Ht Hv Hd. pose proof (C74_json_times c attrs n d s Hn Ht Hv) as Hr. rewrite read_json in Hr. apply pair_equal_spec in Hr as [_ Hr]. rewrite data_quiet in Hd. apply pair_equal_spec in Hd as [_ Hd].
  pose proof (json_data_get netloc_ok nd email props_order link_ns ns_text show (fun l c => proj2 (Ho l c)) (S fuel) default_args true c attrs r n (VStr (datetime_str d)) (default_nodup _ c Ho) Hn Hr Hd) as H. cbn in H. destruct H as (w & [= <-] & H).
  rewrite (default_out c n Hn) in H. destruct (str_eqb n (py "acontext")) eqn:E; [|exact H]. apply str_eqb_eq in E. subst n. apply mem_str_in in Ht. discriminate.
Qed.

(** ** only the outermost object has a context *)
(** objects of the package, with no dict anywhere in their attributes *)
Fixpoint dictless (v : value) : bool :=
  match v with
  | VList l | VTuple l | VSet l => forallb dictless l
  | VDict _ => false
  | VObj l c a => l && forallb (fun p => dictless (snd p)) a
  | _ => true
  end.
(** no dict with the key @context *)
Fixpoint contextless (j : jval) : bool :=
  match j with
  | JList l | JTuple l | JSet l | JIter l => forallb contextless l
  | JDict d => forallb (fun p => negb (str_eqb (fst p) (py "@context")) && contextless (snd p)) d
  | _ => true
  end.
Lemma dictless_attr a n v : forallb (fun p : pystr * value => dictless (snd p)) a = true -> d_get n a = Some v -> dictless v = true.
Proof. intros H E. apply d_get_in_pair in E. rewrite forallb_forall in H. exact (H _ E). Qed.
Lemma dictless_peek l c a n v : forallb (fun p : pystr * value => dictless (snd p)) a = true -> peek l c a n = Some v -> dictless v = true.
Proof.
  intros H. unfold peek. destruct (prop_of l c n) as [p|].
  - unfold stored. destruct (d_get (pd_get p) a) as [w|] eqn:E; [intros [= <-]; eapply dictless_attr; eauto|]. destruct (pd_strict p); [discriminate|intros [= <-]; reflexivity].
  - destruct (d_get n a) as [w|] eqn:E; [intros [= <-]; eapply dictless_attr; eauto|]. destruct (str_eqb n (py "type")); [intros [= <-]; reflexivity|discriminate].
Qed.
Lemma dictless_href v w : dictless v = true -> href_of v = Ok w -> dictless w = true.
Proof.
  destruct v as [| | | | | | | | | | |l k a| |]; cbn [href_of]; try (intros H [= <-]; exact H). destruct (subclass k Link); [|intros H [= <-]; exact H]. cbn [dictless]. rewrite andb_true_iff. intros [_ H].
  destruct (peek l k a (py "href")) as [h|] eqn:E; intros [= <-]. eapply dictless_peek; eauto.
Qed.
Lemma dictless_json_read c a n w : dictless (VObj true c a) = true -> json_read true c a n = Ok w -> dictless w = true.
Proof.
  cbn [dictless]. cbn [andb]. intros H. unfold VocabRead.json_read. destruct (str_eqb n (py "__namespace__")); [intros [= <-]; reflexivity|]. destruct (prop_of true c n) as [p|] eqn:Ep.
  - destruct (stored p a) as [v|] eqn:Ev; [|discriminate]. assert (Hv : dictless v = true) by (apply (dictless_peek true c a n); [exact H|now rewrite (peek_prop _ _ _ _ _ Ep)]).
    assert (Hj : dictless (json_value (pd_json p) v) = true) by (destruct (pd_json p), v; try exact Hv; reflexivity). revert Hj. generalize (json_value (pd_json p) v). clear Hv Ev v. intros v Hv.
    assert (Hx : forall u, (if pd_link p then href_only else @Ok value) v = Ok u -> dictless u = true).
    { intros u. destruct (pd_link p); [|intros [= <-]; exact Hv]. unfold href_only. destruct v as [| | | | | | |l| | | | | |]; try (now apply dictless_href). destruct (map_ok href_of l) as [ys|e] eqn:E; [|discriminate]. intros [= <-]. cbn in Hv |- *.
      apply map_ok_Forall2 in E. apply forallb_forall. intros y Hy. rewrite forallb_forall in Hv. induction E as [|x y' xs ys' Hxy E IH]; [destruct Hy|]. destruct Hy as [<-|Hy]; [eapply dictless_href; [|exact Hxy]; apply Hv; now left|apply IH; [intros z Hz; apply Hv; now right|exact Hy]]. }
    destruct ((if pd_link p then href_only else @Ok value) v) as [u|e]; [|discriminate]. specialize (Hx u eq_refl). unfold wrap_get. destruct u as [| | | | | | | | | | |l k b| |]; try (intros [= <-]; exact Hx). destruct l; [intros [= <-]; exact Hx|discriminate Hx].
  - destruct (peek true c a n) as [v|] eqn:E; [|discriminate]. intros [= <-]. eapply dictless_peek; eauto.
Qed.
Definition nested_names (c : cname) : bool := forallb (fun n => negb (wanted nested n && str_eqb (out_name nested n) (py "@context"))) (property_set true c).
Lemma nested_tables : forallb nested_names all_classes = true. Proof. vm_compute. reflexivity. Qed.
Lemma collect_contextless (key_ok : pystr -> bool) h a c attrs names : dictless (VObj true c attrs) = true -> (forall n, In n names -> wanted a n = true -> key_ok (out_name a n) = true) -> (forall v w, dictless v = true -> h v = Ok w -> contextless w = true) ->
  forall acc d, forallb (fun p : pystr * jval => key_ok (fst p) && contextless (snd p)) acc = true -> json_collect h a true c attrs names acc = Ok d -> forallb (fun p : pystr * jval => key_ok (fst p) && contextless (snd p)) d = true.
Proof.
  intros Hd Hk Hh. induction names as [|n names IH]; intros acc d Hacc; cbn [VocabRead.json_collect]; [intros [= <-]; exact Hacc|].
  assert (Hk' : forall m, In m names -> wanted a m = true -> key_ok (out_name a m) = true) by (intros m Hm; apply Hk; now right). specialize (IH Hk').
  destruct (if v_none a then _ else _) as [c1|e]; [|discriminate]. destruct (negb (c1 && wanted a n)) eqn:Ew; [now apply IH|]. apply negb_false_iff, andb_true_iff in Ew as [_ Ew].
  destruct (json_read true c attrs n) as [v|e] eqn:Er; [|discriminate]. destruct (v_reject a v); [now apply IH|]. destruct (h v) as [w|e] eqn:Eh; [|discriminate]. apply IH.
  apply forallb_forall. intros [k j] Hin. assert (HN : (k = out_name a n /\ j = w) \/ In (k, j) acc).
  { clear -Hin. induction acc as [|[k' j'] acc IHa]; cbn in Hin; [destruct Hin as [[= <- <-]|[]]; auto|]. destruct (str_eqb (out_name a n) k') eqn:E; destruct Hin as [Hin|Hin].
    - injection Hin as <- <-. left. split; [apply str_eqb_eq in E; congruence|reflexivity].
    - right. now right.
    - right. now left.
    - destruct (IHa Hin) as [?|?]; [now left|right; now right]. }
  destruct HN as [[-> ->]|HN]; [|rewrite forallb_forall in Hacc; exact (Hacc _ HN)]. cbn [fst snd]. rewrite (Hk n (or_introl eq_refl) Ew). cbn [andb]. eapply Hh; [|exact Eh]. eapply dictless_json_read; eauto.
Qed.
Lemma filter_forallb {A} (f g : A -> bool) l : forallb f l = true -> forallb f (filter g l) = true.
Proof. intros H. apply forallb_forall. intros x Hx. apply filter_In in Hx as [Hx _]. rewrite forallb_forall in H. auto. Qed.
Lemma handle_contextless : orders -> forall fuel v j, dictless v = true -> json_handle fuel v = Ok j -> contextless j = true.
Proof.
  intros Ho. induction fuel as [|f IH]; intros v j Hd; [discriminate|]. assert (Hl : forall l ys, forallb dictless l = true -> map_ok (json_handle f) l = Ok ys -> forallb contextless ys = true).
  { intros l ys Hl E. apply map_ok_Forall2 in E. apply forallb_forall. intros y Hy. rewrite forallb_forall in Hl. induction E as [|x y' xs ys' Hxy E IHE]; [destruct Hy|]. destruct Hy as [<-|Hy]; [eapply IH; [|exact Hxy]; apply Hl; now left|apply IHE; [intros z Hz; apply Hl; now right|exact Hy]]. }
  destruct v as [| | | | | | |l|l|l|d|l c a| |]; cbn [VocabRead.json_handle].
  all: try (intros [= <-]; reflexivity).
  1,2,3: (destruct (map_ok (json_handle f) l) as [ys|e] eqn:E; [|discriminate]; intros [= <-]; cbn [contextless]; exact (Hl l ys Hd E)).
  - discriminate Hd.
  - assert (l = true) by (cbn [dictless] in Hd; apply andb_true_iff in Hd; tauto). subst l. destruct (json_collect (json_handle f) nested true c a (props_order true c) []) as [d|e] eqn:E; [|discriminate]. intros [= <-]. cbn [contextless]. apply filter_forallb.
    refine (collect_contextless (fun k => negb (str_eqb k (py "@context"))) (json_handle f) nested c a (props_order true c) Hd _ IH [] d eq_refl E).
    intros n Hn Hw. apply (Ho true c) in Hn. pose proof (by_class _ nested_tables c) as T. unfold nested_names in T. rewrite forallb_forall in T. specialize (T n Hn). cbv beta in T. rewrite Hw in T. exact T.
Qed.
Theorem C74_nested_contexts : orders -> forall fuel args c attrs s s' d, dictless (VObj true c attrs) = true -> data fuel true args true c attrs s = (s', Ok d) -> forall k j, In (k, j) d -> contextless j = true.
Proof.
  intros Ho fuel args c attrs s s' d Hd E k j Hin. rewrite data_quiet in E. apply pair_equal_spec in E as [_ E]. unfold json_data in E. destruct (json_collect (json_handle fuel) args true c attrs (props_order true c) []) as [d0|e] eqn:Ec; [|discriminate]. injection E as <-.
  pose proof (collect_contextless (fun _ => true) (json_handle fuel) args c attrs (props_order true c) Hd (fun _ _ _ => eq_refl) (handle_contextless Ho fuel) [] d0 eq_refl Ec) as H. unfold drop_nones in Hin. apply filter_In in Hin as [Hin _].
  rewrite forallb_forall in H. exact (H _ Hin).
Qed.
End Serial.
Print Assumptions C75_held.
Print Assumptions C74_json_times.
Print Assumptions C74_json_duration.
Print Assumptions C74_data_times.
Print Assumptions C74_nested_contexts.
(** PropsRoundTrip.v's Create with a date and a Note in it *)
Example C74_case_times : dictless (VObj true Create create) = true /\ data2 5%nat true default_args true Create create 0%nat = (0%nat, Ok create_data) /\
  (exists m, peek true Create create (py "published") = Some (VDatetime m)) /\ In (py "published") (property_set true Create) /\ (exists t, d_get (py "published") create_data = Some (JStr t)) /\
  d_get (py "@context") create_data = Some (JStr as_ns) /\ (exists nd, d_get (py "object") create_data = Some (JDict nd) /\ d_get (py "content") nd <> None /\ d_get (py "@context") nd = None).
Proof.
  split; [vm_compute; reflexivity|]. split; [vm_compute; reflexivity|]. split; [eexists; vm_compute; reflexivity|]. split; [apply mem_str_in; vm_compute; reflexivity|]. split; [eexists; vm_compute; reflexivity|]. split; [vm_compute; reflexivity|].
  eexists. split; [vm_compute; reflexivity|]. split; [vm_compute; discriminate|vm_compute; reflexivity].
Qed.
