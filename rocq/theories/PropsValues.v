(** Property theorems C89: which values each property of the vocabulary accepts. [assign true c attrs n v] is obj.n = v for an instance of the package's class c. *)
From Coq Require Import String Lia.
From Verif Require Import Base BaseFacts Dict DictFacts Duration DateTime Url JsonData VocabTables Vocab VocabFacts VocabStore VocabConstruct VocabLinks PropsVocab.
Open Scope list_scope.

(** ** Specification *)
(** the value, or a list of such values, nested lists included *)
Inductive many (P : value -> Prop) : value -> Prop :=
| many_one v : P v -> many P v
| many_list l : Forall (many P) l -> many P (VList l).
Definition none_or (P : value -> Prop) (v : value) : Prop := v = VNone \/ P v.
Definition a_text (v : value) : Prop := exists s, v = VStr s.
Definition a_dict (v : value) : Prop := exists d, v = VDict d.
Definition a_bool (v : value) : Prop := exists b, v = VBool b.
(** bool is a subclass of int *)
Definition an_int (v : value) : Prop := a_bool v \/ exists z, v = VInt z.
Definition a_float (v : value) : Prop := exists negative r, v = VFloat negative r.
Definition a_count (v : value) : Prop := a_bool v \/ exists z, v = VInt z /\ (0 <= z)%Z.
Definition a_nonnegative (v : value) : Prop := a_count v \/ exists r, v = VFloat false r.
Definition a_datetime (v : value) : Prop := exists d, v = VDatetime d.
Definition a_timedelta (v : value) : Prop := exists d, v = VTimedelta d.
(** an instance of the class k or of a subclass, of models.py or of the package *)
Definition an_instance (k : cname) (v : value) : Prop := exists linked c a, v = VObj linked c a /\ subclass c k = true.
(** the property class properties.Object, which shadows the model class *)
Definition a_property_object (v : value) : Prop := v = VPropObject.

(** the properties that take objects and links, in any number *)
Definition objects_and_links : list pystr := map py ["attachment"; "attributedTo"; "actor"; "audience"; "bcc"; "bto"; "cc"; "generator"; "icon"; "image"; "inReplyTo"; "instrument"; "location"; "items"; "orderedItems"; "unorderedItems"; "oneOf"; "anyOf"; "origin"; "object"]%string.

Section C89.
Variable netloc_ok : pystr -> bool.
Variable nd : N -> option N.
Variable email : pystr -> res bool.
Notation create_link := (create_link netloc_ok nd email).
Notation assign := (assign netloc_ok nd email).
Notation evaluate := (evaluate netloc_ok nd).
(** exactly the values in P are accepted, the others are refused with ValueError *)
Definition takes (names : list string) (P : value -> Prop) : Prop := forall c n attrs v, In n (map py names) -> In n (property_set true c) -> n <> py "type" \/ c = Object \/ c = Link ->
  ((exists attrs', assign true c attrs n v = Ok attrs') <-> P v) /\ (forall e, assign true c attrs n v = Err e -> e = ValueError).
(** the same after strings and dicts have been made links; an exception of that is passed on *)
Definition takes_linked (names : list pystr) (P : value -> Prop) : Prop := forall c n attrs v, In n names -> In n (property_set true c) ->
  (forall w, create_link true v = Ok w -> ((exists attrs', assign true c attrs n v = Ok attrs') <-> P w) /\ (forall e, assign true c attrs n v = Err e -> e = ValueError)) /\
  (forall e, create_link true v = Err e -> assign true c attrs n v = Err e).

Definition outcome (r : res value) (P : Prop) : Prop := ((exists w, r = Ok w) <-> P) /\ (forall e, r = Err e -> e = ValueError).
Lemma assign_outcome c attrs n v r P : norm netloc_ok nd true c n v (create_link true v) = r -> outcome r P -> ((exists attrs', assign true c attrs n v = Ok attrs') <-> P) /\ (forall e, assign true c attrs n v = Err e -> e = ValueError).
Proof.
  intros <- [H1 H2]. rewrite assign_norm. destruct (norm netloc_ok nd true c n v (create_link true v)) as [w|e].
  - split; [|discriminate]. split; [intros _; apply H1; eauto|eauto].
  - split; [|intros e' [= <-]; now apply H2]. split; [intros [a X]; discriminate|intros X; apply H1 in X as [w X]; discriminate].
Qed.
Lemma norm_row c n p v co : In n (property_set true c) -> n <> py "__namespace__" -> plain_type c n = false -> row n = Some p ->
  norm netloc_ok nd true c n v co = match (if pd_link p then co else Ok v) with Err e => Err e | Ok w => match (if pd_checked p then evaluate (pd_types p ++ [TyNone]) (pd_functional p) (pd_checks p) w else Ok w) with Err e => Err e | Ok x => if pd_parse p then parse_time nd x else Ok x end end.
Proof.
  intros Hn Hns Hpt Hr. destruct (property_set_prop c n Hn Hns Hpt) as (q & Hq & Hp). assert (q = p) as -> by congruence. unfold norm. destruct (str_eqb n (py "__namespace__")) eqn:E; [apply str_eqb_eq in E; contradiction|]. rewrite Hp. reflexivity.
Qed.
(** many values *)
Lemma many_outcome P ts : (forall v, isinstance v ts = true -> P v \/ exists l, v = VList l) /\ (forall v, P v -> isinstance v ts = true) -> (forall v l, P v -> v <> VList l /\ v <> VTuple l /\ v <> VSet l) -> forall v, outcome (evaluate ts false [] v) (many P v).
Proof.
  intros Hts Hp v. revert ts Hts. induction v using value_tree_ind; intros ts Hts.
  all: assert (Heff : forall v, isinstance v (effective ts false) = true <-> P v \/ exists l, v = VList l) by
    (intros w; unfold effective; cbn [andb]; unfold isinstance; rewrite existsb_app, orb_true_iff; fold (isinstance w ts); cbn [existsb orb]; split;
     [intros [X|X]; [now apply Hts|]; destruct w; try discriminate X; eauto|intros [X|[l0 ->]]; [left; now apply Hts|right; reflexivity]]).
  all: rewrite evaluate_eq.
  all: try (destruct (isinstance _ (effective ts false)) eqn:E; cbn [negb run_checks];
    [apply Heff in E as [E|[l0 E]]; [split; [split; [intros _; now apply many_one|eauto]|discriminate]|discriminate E]
    |split; [split; [intros [w X]; discriminate|intros X; exfalso; inversion X as [? Pv|]; subst; assert (isinstance _ (effective ts false) = true) as Y by (apply Heff; left; exact Pv); congruence]|congruence]]).
  - (* lists *)
    assert (isinstance (VList l) (effective ts false) = true) as -> by (apply Heff; eauto). cbn [negb].
    assert (G : (exists ys, map_ok (evaluate (effective ts false) false []) l = Ok ys) <-> Forall (many P) l).
    { clear - H Heff. induction H as [|x l Hx H IH]; [split; [constructor|eexists; reflexivity]|]. rewrite map_ok_cons. destruct (Hx (effective ts false) (conj (fun v => proj1 (Heff v)) (fun v X => proj2 (Heff v) (or_introl X)))) as [[X1 X2] _]. destruct (evaluate (effective ts false) false [] x) as [y|e].
      - destruct (map_ok (evaluate (effective ts false) false []) l) as [ys|e].
        + split; [intros _; constructor; [apply X1; eauto|apply IH; eauto]|eauto].
        + split; [intros [z Z]; discriminate|]. intros F. apply Forall_inv_tail in F. apply IH in F as [z Z]. discriminate.
      - split; [intros [z Z]; discriminate|]. intros F. apply Forall_inv in F. apply X2 in F as [z Z]. discriminate. }
    assert (Ge : forall e, map_ok (evaluate (effective ts false) false []) l = Err e -> e = ValueError).
    { clear - H Heff. induction H as [|x l Hx H IH]; [discriminate|]. rewrite map_ok_cons. destruct (Hx (effective ts false) (conj (fun v => proj1 (Heff v)) (fun v X => proj2 (Heff v) (or_introl X)))) as [_ X]. destruct (evaluate (effective ts false) false [] x) as [y|e]; [|intros e' [= <-]; now apply X].
      destruct (map_ok (evaluate (effective ts false) false []) l) as [ys|e]; [discriminate|]. intros e' [= <-]. now apply IH. }
    destruct (map_ok (evaluate (effective ts false) false []) l) as [ys|e].
    + split; [|discriminate]. split; [intros _; apply many_list, G; eauto|eauto].
    + split; [|intros e' [= <-]; now apply Ge]. split; [intros [w X]; discriminate|]. intros X. inversion X as [v Pv|? F]; subst; [exfalso; destruct (Hp _ l Pv) as (Z & _); now destruct Z|]. apply G in F as [z Z]. discriminate.
  - destruct (isinstance (VTuple l) (effective ts false)) eqn:E; cbn [negb]; [apply Heff in E as [E|[l0 E]]; [|discriminate]; destruct (Hp _ l E) as (_ & Z & _); now destruct Z|].
    split; [split; [intros [w X]; discriminate|intros X; exfalso; inversion X as [? Pv|]; subst; destruct (Hp _ l Pv) as (_ & Z & _); now destruct Z]|congruence].
  - destruct (isinstance (VSet l) (effective ts false)) eqn:E; cbn [negb]; [apply Heff in E as [E|[l0 E]]; [|discriminate]; destruct (Hp _ l E) as (_ & _ & Z); now destruct Z|].
    split; [split; [intros [w X]; discriminate|intros X; exfalso; inversion X as [? Pv|]; subst; destruct (Hp _ l Pv) as (_ & _ & Z); now destruct Z]|congruence].
Qed.

(** a row with one value of the given types *)
Lemma one_row c n v p : In n (property_set true c) -> n <> py "__namespace__" -> plain_type c n = false -> row n = Some p -> pd_link p = false -> pd_checked p = true -> pd_parse p = false ->
  norm netloc_ok nd true c n v (create_link true v) = evaluate (pd_types p ++ [TyNone]) (pd_functional p) (pd_checks p) v.
Proof. intros H1 H2 H3 H4 H5 H6 H7. rewrite (norm_row c n p v _ H1 H2 H3 H4), H5, H6, H7. destruct (evaluate _ _ _ v); reflexivity. Qed.
Lemma linked_row c n v w p : In n (property_set true c) -> n <> py "__namespace__" -> plain_type c n = false -> row n = Some p -> pd_link p = true -> pd_checked p = true -> pd_parse p = false -> create_link true v = Ok w ->
  norm netloc_ok nd true c n v (create_link true v) = evaluate (pd_types p ++ [TyNone]) (pd_functional p) (pd_checks p) w.
Proof. intros H1 H2 H3 H4 H5 H6 H7 H8. rewrite (norm_row c n p v _ H1 H2 H3 H4), H5, H6, H7, H8. destruct (evaluate _ _ _ w); reflexivity. Qed.
Definition shape_is (ts : list ty) (functional : bool) (ks : list check) (link parse : bool) (n : pystr) : Prop := exists p, row n = Some p /\ pd_link p = link /\ pd_checked p = true /\ pd_parse p = parse /\ pd_types p = ts /\ pd_functional p = functional /\ pd_checks p = ks.
Lemma plain_outcome names ts functional ks P : Forall (fun n => shape_is ts functional ks false false n /\ n <> py "__namespace__") (map py names) -> (forall v, outcome (evaluate (ts ++ [TyNone]) functional ks v) (P v)) -> takes names P.
Proof.
  intros F H c n attrs v Hn Hin Ht. rewrite Forall_forall in F. destruct (F n Hn) as ((p & R & R1 & R2 & R3 & R4 & R5 & R6) & Hns).
  assert (Hpt : plain_type c n = false) by (unfold plain_type; destruct (str_eqb n (py "type")) eqn:E; [apply str_eqb_eq in E; destruct Ht as [Ht|[-> | ->]]; [contradiction|reflexivity|reflexivity]|reflexivity]).
  apply assign_outcome with (1 := one_row c n v p Hin Hns Hpt R R1 R2 R3). rewrite R4, R5, R6. apply H.
Qed.
Lemma linked_outcome names ts functional ks P : Forall (fun n => shape_is ts functional ks true false n /\ n <> py "__namespace__" /\ n <> py "type") names -> (forall v, outcome (evaluate (ts ++ [TyNone]) functional ks v) (P v)) -> takes_linked names P.
Proof.
  intros F H c n attrs v Hn Hin. rewrite Forall_forall in F. destruct (F n Hn) as ((p & R & R1 & R2 & R3 & R4 & R5 & R6) & Hns & Ht).
  assert (Hpt : plain_type c n = false) by (unfold plain_type; destruct (str_eqb n (py "type")) eqn:E; [apply str_eqb_eq in E; contradiction|reflexivity]). split.
  - intros w Hw. apply assign_outcome with (1 := linked_row c n v w p Hin Hns Hpt R R1 R2 R3 Hw). rewrite R4, R5, R6. apply H.
  - intros e He. rewrite assign_norm, (norm_row c n p v _ Hin Hns Hpt R), R1, He. reflexivity.
Qed.
Local Arguments subclass : simpl never.
Ltac rows := repeat constructor; try discriminate; eexists; repeat split.
Ltac spec := unfold none_or, a_nonnegative, a_count, an_int, a_bool, a_text, a_dict, a_float, a_datetime, a_timedelta, an_instance, a_property_object in *.
Ltac refute := let H := fresh in intros H; spec; decompose [or ex and] H; clear H; first [congruence|match goal with E : VInt _ = VInt _ |- _ => injection E as E end; lia].
Ltac one_value := intros v; destruct v; cbn;
  try match goal with |- context [Z.ltb ?z 0] => let E := fresh in destruct (Z.ltb z 0) eqn:E; [apply Z.ltb_lt in E|apply Z.ltb_ge in E] end; try match goal with |- context [VFloat ?b _] => destruct b end; repeat match goal with |- context [subclass ?c ?k] => let E := fresh in destruct (subclass c k) eqn:E end; cbn;
  (split; [split; [intros [w X]; first [discriminate X|spec; eauto 12]|first [refute|intros _; eexists; reflexivity]]|congruence]).
(** lists allowed: the types of the elements *)
Ltac many_values := apply many_outcome; [split; [intros v; destruct v; cbn; try discriminate; intros X; repeat match goal with Y : _ || _ = true |- _ => apply orb_true_iff in Y as [Y|Y] end; try discriminate; spec; eauto 14
                                               |intros v H; spec; decompose [or ex and] H; subst; cbn; repeat match goal with Y : subclass _ _ = true |- _ => rewrite Y end; rewrite ?orb_true_r; auto]
                                        |intros v l H; spec; decompose [or ex and] H; subst; repeat split; discriminate].

Theorem C89_one_text : takes ["href"; "hreflang"; "mediaType"; "units"]%string (none_or a_text).
Proof. apply plain_outcome with (ts := [TyStr]) (functional := true) (ks := []); [rows|]. one_value. Qed.
Theorem C89_many_texts : takes ["content"; "rel"; "summary"; "type"]%string (many (none_or a_text)).
Proof. apply plain_outcome with (ts := [TyStr]) (functional := false) (ks := []); [rows|]. many_values. Qed.
Theorem C89_name : takes ["name"]%string (many (none_or (fun v => a_text v \/ a_dict v))).
Proof. apply plain_outcome with (ts := [TyStr; TyDict]) (functional := false) (ks := []); [rows|]. many_values. Qed.
Theorem C89_counts : takes ["height"; "width"; "startIndex"; "totalItems"]%string (none_or a_count).
Proof. apply plain_outcome with (ts := [TyInt]) (functional := true) (ks := [CkNonneg]); [rows|]. one_value. Qed.
Theorem C89_radius : takes ["radius"]%string (none_or a_nonnegative).
Proof. apply plain_outcome with (ts := [TyFloat; TyInt]) (functional := true) (ks := [CkNonneg]); [rows|]. one_value. Qed.
Theorem C89_numbers : takes ["accuracy"; "altitude"; "latitude"; "longitude"]%string (none_or (fun v => an_int v \/ a_float v)).
Proof. apply plain_outcome with (ts := [TyFloat; TyInt]) (functional := true) (ks := []); [rows|]. one_value. Qed.
Theorem C89_duration : takes ["duration"]%string (none_or (fun v => a_timedelta v \/ a_text v)).
Proof. apply plain_outcome with (ts := [TyTimedelta; TyStr]) (functional := true) (ks := []); [rows|]. one_value. Qed.
Theorem C89_deleted : takes ["deleted"]%string (none_or a_datetime).
Proof. apply plain_outcome with (ts := [TyDatetime]) (functional := true) (ks := [CkTime]); [rows|]. one_value. Qed.
(** an id is a text for which validate_url does not raise; that it may say it is no URL does not matter *)
Theorem C89_id : takes ["id"]%string (none_or (fun v => exists s, v = VStr s /\ validate_url netloc_ok s false <> Err ValueError)).
Proof.
  apply plain_outcome with (ts := [TyStr]) (functional := true) (ks := [CkUrl]); [rows|]. intros v. destruct v; try (split; [cbn; split; [intros [w X]; first [discriminate X|left; reflexivity]|first [refute|intros _; eexists; reflexivity]]|cbn; congruence]).
  assert (E : evaluate ([TyStr] ++ [TyNone]) true [CkUrl] (VStr s) = match validate_url netloc_ok s false with Ok _ => Ok (VStr s) | Err e => Err e end) by (cbn; destruct (validate_url netloc_ok s false); reflexivity). rewrite E.
  destruct (UrlFacts.C63_result netloc_ok s false) as [R|[R|R]]; rewrite R; (split; [split|]); try discriminate; try (intros [w X]; discriminate X); try (intros _; eexists; reflexivity); try (intros _; right; exists s; split; [reflexivity|congruence]); try congruence.
  intros [X|(s' & X & Y)]; [discriminate|]. assert (s' = s) as -> by congruence. now destruct Y.
Qed.
(** properties.Object shadows models.Object in these *)
Theorem C89_relationship : takes ["relationship"]%string (many (none_or (fun v => a_property_object v \/ a_text v))).
Proof. apply plain_outcome with (ts := [TyPropObject; TyStr]) (functional := false) (ks := []); [rows|]. many_values. Qed.
Theorem C89_describes : takes ["describes"]%string (none_or a_property_object).
Proof. apply plain_outcome with (ts := [TyPropObject]) (functional := true) (ks := []); [rows|]. one_value. Qed.
Theorem C89_former_type : takes ["formerType"]%string (many (none_or a_property_object)).
Proof. apply plain_outcome with (ts := [TyPropObject]) (functional := false) (ks := []); [rows|]. many_values. Qed.
(** links and objects *)
Theorem C89_objects : takes_linked objects_and_links (many (none_or (fun v => an_instance Object v \/ an_instance Link v))).
Proof. apply linked_outcome with (ts := [TyModel Object; TyModel Link]) (functional := false) (ks := []); [rows|]. many_values. Qed.
Theorem C89_pages : takes_linked (map py ["current"; "first"; "last"; "next"; "prev"]%string) (none_or (fun v => an_instance CollectionPage v \/ an_instance Link v)).
Proof. apply linked_outcome with (ts := [TyModel CollectionPage; TyModel Link]) (functional := true) (ks := []); [rows|]. one_value. Qed.
Theorem C89_replies : takes_linked [py "replies"] (none_or (an_instance Collection)).
Proof. apply linked_outcome with (ts := [TyModel Collection]) (functional := true) (ks := []); [rows|]. one_value. Qed.
Theorem C89_part_of : takes_linked [py "partOf"] (none_or (fun v => an_instance Collection v \/ an_instance Link v)).
Proof. apply linked_outcome with (ts := [TyModel Collection; TyModel Link]) (functional := true) (ks := []); [rows|]. one_value. Qed.
Theorem C89_url : takes_linked [py "url"] (many (none_or (fun v => an_instance Link v \/ a_text v))).
Proof. apply linked_outcome with (ts := [TyModel Link; TyStr]) (functional := false) (ks := []); [rows|]. many_values. Qed.
Theorem C89_closed : takes_linked [py "closed"] (many (none_or (fun v => an_instance Object v \/ an_instance Link v \/ a_datetime v \/ a_bool v))).
Proof. apply linked_outcome with (ts := [TyModel Object; TyModel Link; TyDatetime; TyBool]) (functional := false) (ks := []); [rows|]. many_values. Qed.
Theorem C89_shadowed : takes_linked (map py ["preview"; "result"; "target"; "to"]%string) (many (none_or (fun v => a_property_object v \/ an_instance Link v))).
Proof. apply linked_outcome with (ts := [TyPropObject; TyModel Link]) (functional := false) (ks := []); [rows|]. many_values. Qed.
Theorem C89_tag : takes_linked [py "tag"] (many (none_or (fun v => a_property_object v \/ an_instance Link v \/ a_dict v))).
Proof. apply linked_outcome with (ts := [TyPropObject; TyModel Link; TyDict]) (functional := false) (ks := []); [rows|]. many_values. Qed.
Theorem C89_subject : takes_linked [py "subject"] (none_or (fun v => a_property_object v \/ an_instance Link v)).
Proof. apply linked_outcome with (ts := [TyPropObject; TyModel Link]) (functional := true) (ks := []); [rows|]. one_value. Qed.
(** times: None, a datetime, or a text that passes the validation and the parser (C62 says which) *)
Theorem C89_times : forall c n attrs v, In n (map py ["endTime"; "published"; "startTime"; "updated"]%string) -> In n (property_set true c) ->
  (exists attrs', assign true c attrs n v = Ok attrs') <-> none_or (fun v => a_datetime v \/ exists s, v = VStr s /\ is_activity_datetime nd (DStr s) = Ok tt /\ exists d, parse_activitystream_datetime nd (DStr s) = Ok d) v.
Proof.
  intros c n attrs v Hn Hin. assert (S : shape_is [TyDatetime; TyStr] true [CkTime] false true n /\ n <> py "__namespace__" /\ n <> py "type") by (destruct Hn as [<-|[<-|[<-|[<-|[]]]]]; repeat split; try discriminate; eexists; repeat split).
  destruct S as ((p & R & R1 & R2 & R3 & R4 & R5 & R6) & Hns & Ht). assert (Hpt : plain_type c n = false) by (unfold plain_type; destruct (str_eqb n (py "type")) eqn:E; [apply str_eqb_eq in E; contradiction|reflexivity]).
  assert (En : norm netloc_ok nd true c n v (create_link true v) = match evaluate [TyDatetime; TyStr; TyNone] true [CkTime] v with Err e => Err e | Ok x => parse_time nd x end) by (rewrite (norm_row c n p v _ Hin Hns Hpt R), R1, R2, R3, R4, R5, R6; reflexivity).
  rewrite assign_norm, En. clear. destruct v; try (cbn; split; [intros [w X]; first [discriminate X|spec; eauto 6]|first [refute|intros _; eexists; reflexivity]]).
  assert (E : evaluate [TyDatetime; TyStr; TyNone] true [CkTime] (VStr s) = match is_activity_datetime nd (DStr s) with Ok _ => Ok (VStr s) | Err e => Err e end) by (rewrite evaluate_eq; change (isinstance (VStr s) (effective [TyDatetime; TyStr; TyNone] true)) with true; cbn [negb run_checks run_check dval_of]; destruct (is_activity_datetime nd (DStr s)); reflexivity). rewrite E.
  destruct (is_activity_datetime nd (DStr s)) as [[]|e] eqn:Ea.
  - unfold parse_time. cbn [dval_of]. destruct (parse_activitystream_datetime nd (DStr s)) as [[| | |]|e] eqn:Ep; (split; [intros [w X]; first [discriminate X|right; right; exists s; rewrite Ea, Ep; eauto]|]); try (intros _; eexists; reflexivity).
    intros [X|[[d X]|(s' & X & _ & d & Y)]]; try discriminate. assert (s' = s) as -> by congruence. rewrite Ep in Y. discriminate.
  - split; [intros [w X]; discriminate X|]. intros [X|[[d X]|(s' & X & Y & _)]]; try discriminate. assert (s' = s) as -> by congruence. rewrite Ea in Y. discriminate.
Qed.
(** @context: anything *)
Theorem C89_context : forall c attrs v, exists attrs', assign true c attrs (py "acontext") v = Ok attrs'.
Proof. intros c attrs v. rewrite assign_norm. unfold norm. change (str_eqb (py "acontext") (py "__namespace__")) with false. cbv iota. change (prop_of true c (py "acontext")) with (Some acontext_def). cbn. eauto. Qed.
(** nothing else is a property *)
Theorem C89_all : forall c n, In n (property_set true c) -> n = py "__namespace__" \/ n = py "acontext" \/ In n objects_and_links \/
  In n (map py ["href"; "hreflang"; "mediaType"; "units"; "content"; "rel"; "summary"; "type"; "name"; "height"; "width"; "startIndex"; "totalItems"; "radius"; "accuracy"; "altitude"; "latitude"; "longitude"; "duration"; "deleted"; "id"; "relationship"; "describes"; "formerType";
                "current"; "first"; "last"; "next"; "prev"; "replies"; "partOf"; "url"; "closed"; "preview"; "result"; "target"; "to"; "tag"; "subject"; "endTime"; "published"; "startTime"; "updated"]%string).
Proof.
  assert (T : forallb (fun c => forallb (fun n => mem_str n (py "__namespace__" :: py "acontext" :: objects_and_links ++ map py ["href"; "hreflang"; "mediaType"; "units"; "content"; "rel"; "summary"; "type"; "name"; "height"; "width"; "startIndex"; "totalItems"; "radius"; "accuracy"; "altitude"; "latitude"; "longitude"; "duration"; "deleted"; "id"; "relationship"; "describes"; "formerType";
                "current"; "first"; "last"; "next"; "prev"; "replies"; "partOf"; "url"; "closed"; "preview"; "result"; "target"; "to"; "tag"; "subject"; "endTime"; "published"; "startTime"; "updated"]%string)) (property_set true c)) all_classes = true) by (vm_compute; reflexivity).
  intros c n Hn. pose proof (by_class _ T c) as Tc. cbv beta in Tc. rewrite forallb_forall in Tc. specialize (Tc n Hn). apply mem_str_in in Tc. destruct Tc as [H|[H|H]]; auto. apply in_app_iff in H as [H|H]; auto.
Qed.
End C89.
Print Assumptions C89_one_text.
Print Assumptions C89_many_texts.
Print Assumptions C89_name.
Print Assumptions C89_counts.
Print Assumptions C89_radius.
Print Assumptions C89_numbers.
Print Assumptions C89_duration.
Print Assumptions C89_deleted.
Print Assumptions C89_id.
Print Assumptions C89_relationship.
Print Assumptions C89_describes.
Print Assumptions C89_former_type.
Print Assumptions C89_objects.
Print Assumptions C89_pages.
Print Assumptions C89_replies.
Print Assumptions C89_part_of.
Print Assumptions C89_url.
Print Assumptions C89_closed.
Print Assumptions C89_shadowed.
Print Assumptions C89_tag.
Print Assumptions C89_subject.
Print Assumptions C89_times.
Print Assumptions C89_context.
Print Assumptions C89_all.
(** a Place: a radius of 0 is accepted, a negative one refused; a list of two texts as its content *)
Example C89_case : In (py "radius") (property_set true Place) /\ (exists a, Vocab.assign (fun _ => true) (fun _ => None) (fun _ => Ok false) true Place [] (py "radius") (VInt 0) = Ok a) /\ Vocab.assign (fun _ => true) (fun _ => None) (fun _ => Ok false) true Place [] (py "radius") (VInt (-1)) = Err ValueError /\
  many (none_or a_text) (VList [VStr (py "a"); VList [VStr (py "b")]]) /\ In (py "actor") (property_set true Create) /\ In (py "actor") objects_and_links.
Proof.
  split; [apply mem_str_in; vm_compute; reflexivity|]. split; [eexists; vm_compute; reflexivity|]. split; [vm_compute; reflexivity|]. split; [|split; apply mem_str_in; vm_compute; reflexivity].
  apply many_list. constructor; [apply many_one; right; eexists; reflexivity|]. constructor; [|constructor]. apply many_list. constructor; [apply many_one; right; eexists; reflexivity|constructor].
Qed.
