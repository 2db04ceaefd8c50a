(** Reading and serialising: no requests in the JSON context; when it succeeds and what it contains. *)
From Coq Require Import String Lia.
From Verif Require Import Base BaseFacts Dict DictFacts Duration DateTime Url JsonData VocabTables Vocab VocabFacts VocabStore VocabConstruct VocabLinks.
Open Scope nat_scope.
Open Scope list_scope.

Section Read.
Variable netloc_ok : pystr -> bool.
Variable nd : N -> option N.
Variable email : pystr -> res bool.
Variable props_order : bool -> cname -> list pystr.
Variables St J : Type.
Variable fetch : St -> value -> St * res J.
Variable form : St -> bool -> cname -> J -> St * res value.
Variable link_ns : bool -> cname -> bool.
Variable ns_text : bool -> cname -> pystr.
Variable show : value -> pystr.
Notation read := (read netloc_ok nd email props_order St J fetch form link_ns ns_text).
Notation expand := (expand St J fetch form link_ns).
Notation collect := (collect netloc_ok nd email props_order St J fetch form link_ns ns_text).
Notation data_with := (data_with netloc_ok nd email props_order St J fetch form link_ns ns_text).
Notation handle := (handle netloc_ok nd email props_order St J fetch form link_ns ns_text show).
Notation data := (data netloc_ok nd email props_order St J fetch form link_ns ns_text show).
Notation map_st := (map_st St).
Notation wrap_get := (wrap_get netloc_ok nd email props_order).

(** ** no request *)
(** the value read in the JSON context *)
Definition json_read (linked : bool) (c : cname) (attrs : dict value) (n : pystr) : res value :=
  if str_eqb n (py "__namespace__") then Ok VNone
  else match prop_of linked c n with
       | None => match peek linked c attrs n with Some v => Ok v | None => Err AttributeError end
       | Some p => match stored p attrs with
                   | None => Err AttributeError
                   | Some v => match (if pd_link p then href_only else @Ok value) (json_value (pd_json p) v) with Ok w => wrap_get linked w | Err e => Err e end
                   end
       end.
Lemma read_json l c a n s : read true l c a n s = (s, json_read l c a n).
Proof. unfold Vocab.read, json_read. destruct (str_eqb n _); [reflexivity|]. destruct (prop_of l c n) as [p|]; [|reflexivity]. destruct (stored p a); reflexivity. Qed.
Lemma map_st_cons {A B} (f : A -> St -> St * res B) x l s : map_st f (x :: l) s = match f x s with (s1, Err e) => (s1, Err e) | (s1, Ok y) => match map_st f l s1 with (s2, Err e) => (s2, Err e) | (s2, Ok ys) => (s2, Ok (y :: ys)) end end.
Proof. reflexivity. Qed.
Lemma map_st_quiet {A B} (f : A -> St -> St * res B) (g : A -> res B) l : (forall x, In x l -> forall s, f x s = (s, g x)) -> forall s, map_st f l s = (s, map_ok g l).
Proof.
  induction l as [|x l IH]; intros H s; [reflexivity|]. rewrite map_st_cons, map_ok_cons, (H x (or_introl eq_refl)). destruct (g x) as [y|e]; [|reflexivity]. rewrite IH by (intros z Hz; apply H; now right). destruct (map_ok g l); reflexivity.
Qed.
(** collecting the properties in the JSON context, without the outside state *)
Fixpoint json_collect (h : value -> res jval) (a : vargs) (l : bool) (c : cname) (attrs : dict value) (names : list pystr) (acc : dict jval) : res (dict jval) :=
  match names with
  | [] => Ok acc
  | n :: r =>
      match (if v_none a then Ok true else match json_read l c attrs n with Ok v => Ok (negb (is_none v)) | Err e => Err e end) with
      | Err e => Err e
      | Ok c1 => if negb (c1 && wanted a n) then json_collect h a l c attrs r acc
                 else match json_read l c attrs n with
                      | Err e => Err e
                      | Ok v => if v_reject a v then json_collect h a l c attrs r acc else match h v with Err e => Err e | Ok w => json_collect h a l c attrs r (d_set (out_name a n) w acc) end
                      end
      end
  end.
Lemma collect_quiet (h : value -> St -> St * res jval) g a l c attrs names : (forall v s, h v s = (s, g v)) -> forall s acc, collect h true a l c attrs names s acc = (s, json_collect g a l c attrs names acc).
Proof.
  intros Hh. induction names as [|n r IH]; intros s acc; [reflexivity|]. cbn [Vocab.collect json_collect]. rewrite read_json.
  assert (E : (if v_none a then (s, Ok true) else match (s, json_read l c attrs n) with (s1, Ok v) => (s1, Ok (negb (is_none v))) | (s1, Err e) => (s1, Err e) end) = (s, if v_none a then Ok true else match json_read l c attrs n with Ok v => Ok (negb (is_none v)) | Err e => Err e end)) by (destruct (v_none a); [reflexivity|]; destruct (json_read l c attrs n); reflexivity).
  rewrite E. clear E. destruct (if v_none a then Ok true else _) as [c1|e]; [|reflexivity]. destruct (negb (c1 && wanted a n)); [apply IH|]. rewrite ?read_json. destruct (json_read l c attrs n) as [v|e] eqn:Er; [|reflexivity]. destruct (v_reject a v); [apply IH|]. rewrite ?read_json, ?Er, Hh. destruct (g v); [apply IH|reflexivity].
Qed.
Fixpoint json_handle (fuel : nat) (v : value) : res jval :=
  match fuel with
  | O => Err RecursionError
  | S f =>
      match v with
      | VObj l c a => match json_collect (json_handle f) nested l c a (props_order l c) [] with Ok d => Ok (JDict (drop_nones nested d)) | Err e => Err e end
      | VStr x => Ok (JStr x) | VInt z => Ok (JInt z) | VFloat _ r => Ok (JFloat r)
      | VList l | VTuple l | VSet l => match map_ok (json_handle f) l with Ok ys => Ok (JList ys) | Err e => Err e end
      | VDict d => match map_ok (fun p => match json_handle f (snd p) with Ok w => Ok (fst p, w) | Err e => Err e end) d with Ok ys => Ok (JDict ys) | Err e => Err e end
      | VNone => Ok (JStr (py "None"))
      | VBool b => Ok (JStr (py (if b then "True" else "False")))
      | _ => Ok (JStr (show v))
      end
  end.
Lemma handle_quiet fuel : forall v s, handle fuel v s = (s, json_handle fuel v).
Proof.
  induction fuel as [|f IH]; intros v s; [reflexivity|]. destruct v; try reflexivity; cbn [Vocab.handle json_handle].
  - rewrite (map_st_quiet _ (json_handle f)) by (intros; apply IH). destruct (map_ok (json_handle f) l); reflexivity.
  - rewrite (map_st_quiet _ (json_handle f)) by (intros; apply IH). destruct (map_ok (json_handle f) l); reflexivity.
  - rewrite (map_st_quiet _ (json_handle f)) by (intros; apply IH). destruct (map_ok (json_handle f) l); reflexivity.
  - rewrite (map_st_quiet _ (fun p => match json_handle f (snd p) with Ok w => Ok (fst p, w) | Err e => Err e end)); [destruct (map_ok _ d); reflexivity|]. intros p _ s0. rewrite IH. destruct (json_handle f (snd p)); reflexivity.
  - unfold Vocab.data_with. rewrite (collect_quiet _ (json_handle f)) by (intros; apply IH). destruct (json_collect (json_handle f) nested linked c attrs (props_order linked c) []); reflexivity.
Qed.
Definition json_data (fuel : nat) (a : vargs) (l : bool) (c : cname) (attrs : dict value) : res (dict jval) :=
  match json_collect (json_handle fuel) a l c attrs (props_order l c) [] with Ok d => Ok (drop_nones a d) | Err e => Err e end.
Lemma data_quiet fuel a l c attrs s : data fuel true a l c attrs s = (s, json_data fuel a l c attrs).
Proof. unfold Vocab.data, Vocab.data_with, json_data. rewrite (collect_quiet _ (json_handle fuel)) by (intros; apply handle_quiet). destruct (json_collect _ _ _ _ _ _ _); reflexivity. Qed.

(** ** the links *)
Lemma json_link c a n p k b h : prop_of true c n = Some p -> n <> py "__namespace__" -> pd_link p = true -> pd_json p <> JDuration -> stored p a = Some (VObj true k b) -> subclass k Link = true -> peek true k b (py "href") = Some (VStr h) -> json_read true c a n = Ok (VStr h).
Proof.
  intros Hp Hn Hl Hj Hs Hk Hh. unfold json_read. destruct (str_eqb n _) eqn:E; [apply str_eqb_eq in E; congruence|]. rewrite Hp, Hs, Hl. assert (Ej : json_value (pd_json p) (VObj true k b) = VObj true k b) by (destruct (pd_json p); reflexivity). rewrite Ej. cbn [href_only href_of]. rewrite Hk, Hh. reflexivity.
Qed.
Lemma json_links c a n p l : prop_of true c n = Some p -> n <> py "__namespace__" -> pd_link p = true -> stored p a = Some (VList l) ->
  (forall x, In x l -> exists h, x = VStr h \/ (exists k b, x = VObj true k b /\ subclass k Link = true /\ peek true k b (py "href") = Some (VStr h))) ->
  exists hs, json_read true c a n = Ok (VList (map VStr hs)) /\ Forall2 (fun x h => x = VStr h \/ exists k b, x = VObj true k b /\ peek true k b (py "href") = Some (VStr h)) l hs.
Proof.
  intros Hp Hn Hl Hs Hx. assert (Hm : exists hs, map_ok href_of l = Ok (map VStr hs) /\ Forall2 (fun x h => x = VStr h \/ exists k b, x = VObj true k b /\ peek true k b (py "href") = Some (VStr h)) l hs).
  { clear Hs. induction l as [|x l IH]; [exists []; split; [reflexivity|constructor]|]. destruct (Hx x (or_introl eq_refl)) as (h & Hh). destruct IH as (hs & E & F); [intros y Hy; apply Hx; now right|]. exists (h :: hs). rewrite map_ok_cons, E. cbn [map]. destruct Hh as [-> |(k & b & -> & Hk & Hh)].
    - split; [reflexivity|]. constructor; [now left|exact F].
    - cbn [href_of]. rewrite Hk, Hh. split; [reflexivity|]. constructor; [right; exists k, b; auto|exact F]. }
  destruct Hm as (hs & E & F). exists hs. split; [|exact F]. unfold json_read. destruct (str_eqb n _) eqn:En; [apply str_eqb_eq in En; congruence|]. rewrite Hp, Hs, Hl. assert (Ej : json_value (pd_json p) (VList l) = VList l) by (destruct (pd_json p); reflexivity). rewrite Ej. cbn [href_only]. rewrite E. reflexivity.
Qed.
(** reading a link otherwise: one request, and what it answered *)
Lemma expand_link c a n p s b h : prop_of true c n = Some p -> n <> py "__namespace__" -> pd_link p = true -> stored p a = Some (VObj true Link b) -> link_ns true Link = true -> peek true Link b (py "href") = Some h -> truthy h = true ->
  read false true c a n s = match fetch s h with
                            | (s1, Err _) => (s1, Ok (VObj true Link b))
                            | (s1, Ok j) => match form s1 true Link j with
                                            | (s2, Ok o) => (s2, if truthy o then wrap_get true o else Ok (VObj true Link b))
                                            | (s2, Err _) => (s2, Ok (VObj true Link b))
                                            end
                            end.
Proof.
  intros Hp Hn Hl Hs Hns Hh Ht. unfold Vocab.read. destruct (str_eqb n _) eqn:En; [apply str_eqb_eq in En; congruence|]. rewrite Hp, Hs, Hl. cbn [Vocab.expand]. rewrite Hns, Hh, Ht. destruct (fetch s h) as [s1 [j|e]]; [|reflexivity]. destruct (form s1 true Link j) as [s2 [o|e]]; [|reflexivity]. destruct (truthy o); reflexivity.
Qed.
Lemma read_quiet c a n p s v : prop_of true c n = Some p -> n <> py "__namespace__" -> stored p a = Some v -> pd_link p = false \/ (forall l k b, v = VObj l k b -> link_ns l k = false \/ (forall h, peek l k b (py "href") = Some h -> truthy h = false) /\ peek l k b (py "href") <> None) -> read false true c a n s = (s, wrap_get true v).
Proof.
  intros Hp Hn Hs Hq. unfold Vocab.read. destruct (str_eqb n _) eqn:En; [apply str_eqb_eq in En; congruence|]. rewrite Hp, Hs. destruct (pd_link p); [|reflexivity]. destruct Hq as [Hq|Hq]; [discriminate|]. destruct v; try reflexivity. cbn [Vocab.expand]. destruct (Hq linked c0 attrs eq_refl) as [H|[H1 H2]]; [rewrite H; reflexivity|].
  destruct (link_ns linked c0); [|reflexivity]. destruct (peek linked c0 attrs (py "href")) as [h|] eqn:Eh; [|congruence]. rewrite (H1 h eq_refl). reflexivity.
Qed.

(** ** objects built by the package *)
Definition maxl {A} (f : A -> nat) := fix go (l : list A) : nat := match l with [] => 0 | x :: r => Nat.max (f x) (go r) end.
Fixpoint depth (v : value) : nat :=
  match v with
  | VList l | VTuple l | VSet l => S (maxl depth l)
  | VDict d => S (maxl (fun p => depth (snd p)) d)
  | VObj _ _ a => S (maxl (fun p => depth (snd p)) a)
  | _ => 0
  end.
(** every object in it is an instance of a class of the package, and links have the attribute that is read without a default *)
Fixpoint clean (v : value) : bool :=
  match v with
  | VList l | VTuple l | VSet l => forallb clean l
  | VDict d => forallb (fun p => clean (snd p)) d
  | VObj l c a => l && (negb (subclass c Link) || d_mem (py "_Height__height") a) && forallb (fun p => clean (snd p)) a
  | _ => true
  end.
Lemma maxl_in {A} (f : A -> nat) l x : In x l -> f x <= maxl f l.
Proof. induction l as [|y l IH]; [intros []|]. intros [-> |H]; cbn; [lia|]. specialize (IH H). fold (maxl f l). lia. Qed.
Lemma maxl_le {A} (f : A -> nat) l k : (forall x, In x l -> f x <= k) -> maxl f l <= k.
Proof. induction l as [|y l IH]; intros H; cbn; [lia|]. fold (maxl f l). pose proof (H y (or_introl eq_refl)). pose proof (IH (fun x Hx => H x (or_intror Hx))). lia. Qed.
Lemma d_get_in_pair {A} n (d : dict A) v : d_get n d = Some v -> In (n, v) d.
Proof. induction d as [|[m w] d IH]; [discriminate|]. cbn [d_get]. destruct (str_eqb n m) eqn:E; [intros [= <-]; apply str_eqb_eq in E; subst; now left|]. intros H. right. now apply IH. Qed.
Lemma clean_attr a n v : forallb (fun p : pystr * value => clean (snd p)) a = true -> d_get n a = Some v -> clean v = true /\ depth v <= maxl (fun p => depth (snd p)) a.
Proof. intros H E. apply d_get_in_pair in E. rewrite forallb_forall in H. split; [exact (H _ E)|]. exact (maxl_in (fun p : pystr * value => depth (snd p)) a (n, v) E). Qed.
(** tables: which classes have the properties [height] and [href] *)
Definition has_prop (c : cname) (n : pystr) : bool := match prop_of true c n with Some _ => true | None => false end.
Lemma link_props : forallb (fun c => Bool.eqb (has_prop c (py "height")) (subclass c Link) && Bool.eqb (has_prop c (py "href")) (subclass c Link)) all_classes = true. Proof. vm_compute. reflexivity. Qed.
Lemma height_classes c : has_prop c (py "height") = subclass c Link /\ has_prop c (py "href") = subclass c Link.
Proof. pose proof (by_class _ link_props c) as T. cbv beta in T. apply andb_true_iff in T as [T1 T2]. apply Bool.eqb_prop in T1, T2. auto. Qed.
Lemma stored_clean c a n p : clean (VObj true c a) = true -> prop_of true c n = Some p -> exists v, stored p a = Some v /\ clean v = true /\ depth v <= maxl (fun p => depth (snd p)) a.
Proof.
  intros Hc Hp. cbn [clean] in Hc. apply andb_true_iff in Hc as [Hc1 Hc2]. cbn [andb] in Hc1. unfold stored. destruct (d_get (pd_get p) a) as [v|] eqn:E; [exists v; split; [reflexivity|]; now apply (clean_attr a (pd_get p))|].
  destruct (pd_strict p) eqn:Es; [|exists VNone; split; [reflexivity|split; [reflexivity|cbn; lia]]]. exfalso.
  pose proof (prop_of_row true c n p Hp) as Hr. pose proof (row_okn n p Hr) as T. unfold row_ok in T. repeat rewrite andb_true_iff in T. destruct T as [_ T]. rewrite Es in T. cbn [negb orb] in T. apply str_eqb_eq in T. apply row_in in Hr as Hn. destruct Hn as [_ Hn]. rewrite T in Hn. subst n.
  destruct (height_classes c) as [H1 _]. unfold has_prop in H1. rewrite Hp in H1. rewrite <- H1 in Hc1. cbn [negb orb] in Hc1. vm_compute in Hr. injection Hr as <-. cbn [pd_get] in E. match type of E with d_get ?k a = None => change k with (py "_Height__height") in E end. unfold d_mem in Hc1. rewrite E in Hc1. discriminate.
Qed.
Lemma href_clean v : clean v = true -> exists w, href_of v = Ok w /\ clean w = true /\ depth w <= depth v.
Proof.
  intros Hv. destruct v; try (eexists; split; [reflexivity|split; [exact Hv|lia]]). cbn [href_of]. destruct (subclass c Link) eqn:E; [|eexists; split; [reflexivity|split; [exact Hv|lia]]].
  assert (linked = true) by (cbn [clean] in Hv; destruct linked; [reflexivity|discriminate]). subst linked. destruct (height_classes c) as [_ H]. rewrite E in H. unfold has_prop in H. destruct (prop_of true c (py "href")) as [p|] eqn:Ep; [|discriminate].
  destruct (stored_clean c attrs (py "href") p Hv Ep) as (w & Hw & H1 & H2). rewrite (peek_prop _ _ _ _ _ Ep), Hw. exists w. split; [reflexivity|]. split; [exact H1|]. cbn [depth]. lia.
Qed.
Lemma href_only_clean v : clean v = true -> exists w, href_only v = Ok w /\ clean w = true /\ depth w <= depth v.
Proof.
  intros Hv. destruct v; try exact (href_clean _ Hv). cbn [href_only]. assert (Hm : exists ys, map_ok href_of l = Ok ys /\ forallb clean ys = true /\ maxl depth ys <= maxl depth l).
  { cbn [clean] in Hv. induction l as [|x l IH]; [exists []; auto|]. cbn [forallb] in Hv. apply andb_true_iff in Hv as [H1 H2]. destruct (href_clean x H1) as (w & E1 & C1 & D1). destruct (IH H2) as (ys & E2 & C2 & D2). exists (w :: ys). rewrite map_ok_cons, E1, E2. split; [reflexivity|]. cbn [forallb]. rewrite C1, C2. split; [reflexivity|]. cbn. fold (maxl depth ys) (maxl depth l). lia. }
  destruct Hm as (ys & E & C & D). rewrite E. exists (VList ys). split; [reflexivity|]. split; [exact C|]. cbn [depth]. lia.
Qed.
Lemma json_value_clean k v : clean v = true -> clean (json_value k v) = true /\ depth (json_value k v) <= depth v.
Proof. intros H. destruct k, v; cbn [json_value]; split; auto; cbn; lia. Qed.
Lemma json_read_clean c a n : clean (VObj true c a) = true -> In n (property_set true c) -> exists w, json_read true c a n = Ok w /\ clean w = true /\ depth w < depth (VObj true c a).
Proof.
  intros Hc Hn. unfold json_read. destruct (str_eqb n (py "__namespace__")) eqn:En; [exists VNone; split; [reflexivity|split; [reflexivity|cbn; lia]]|].
  assert (Hne : n <> py "__namespace__") by (intros ->; now rewrite str_eqb_refl in En). destruct (plain_type c n) eqn:Et.
  - unfold plain_type in Et. apply andb_true_iff in Et as [Et1 Et2]. apply str_eqb_eq in Et1. subst n. assert (Hp : prop_of true c (py "type") = None) by (apply plain_type_prop; left; unfold plain_type; now rewrite Et2). rewrite Hp. unfold peek. rewrite Hp.
    destruct (d_get (py "type") a) as [v|] eqn:E; [|eexists; split; [reflexivity|split; [reflexivity|cbn; lia]]]. exists v. split; [reflexivity|]. cbn [clean] in Hc. apply andb_true_iff in Hc as [_ Hc]. destruct (clean_attr a _ v Hc E). split; [assumption|cbn [depth]; lia].
  - destruct (property_set_prop c n Hn Hne Et) as (p & _ & Hp). rewrite Hp. destruct (stored_clean c a n p Hc Hp) as (v & Hv & C & D). rewrite Hv. destruct (json_value_clean (pd_json p) v C) as [C1 D1].
    assert (Hh : exists w, (if pd_link p then href_only else @Ok value) (json_value (pd_json p) v) = Ok w /\ clean w = true /\ depth w <= depth v).
    { destruct (pd_link p); [|exists (json_value (pd_json p) v); auto]. destruct (href_only_clean _ C1) as (w & E & C2 & D2). exists w. split; [exact E|]. split; [exact C2|lia]. }
    destruct Hh as (w & E & C2 & D2). rewrite E. exists w. split; [|split; [exact C2|cbn [depth]; lia]]. destruct w; try reflexivity. destruct linked; [reflexivity|discriminate].
Qed.
Hypothesis order_ok : forall l c n, In n (props_order l c) <-> In n (property_set l c).
Lemma json_collect_ok h a c attrs names : clean (VObj true c attrs) = true -> (forall n, In n names -> In n (property_set true c)) -> (forall v, clean v = true -> depth v < depth (VObj true c attrs) -> exists w, h v = Ok w) -> forall acc, exists d, json_collect h a true c attrs names acc = Ok d.
Proof.
  intros Hc. induction names as [|n r IH]; intros Hn Hh acc; cbn [json_collect]; [eexists; reflexivity|]. destruct (json_read_clean c attrs n Hc (Hn n (or_introl eq_refl))) as (v & E & C & D). rewrite E. specialize (IH (fun m Hm => Hn m (or_intror Hm)) Hh).
  destruct (if v_none a then Ok true else Ok (negb (is_none v))) as [c1|e] eqn:E1; [|destruct (v_none a); discriminate]. destruct (negb (c1 && wanted a n)); [apply IH|]. destruct (v_reject a v); [apply IH|]. destruct (Hh v C D) as [w ->]. apply IH.
Qed.
Lemma map_ok_all {A B} (f : A -> res B) l : (forall x, In x l -> exists y, f x = Ok y) -> exists ys, map_ok f l = Ok ys.
Proof. intros H. destruct (map_ok_cases f l) as [Hk|(x & e & Hin & E & _)]; [exact Hk|]. destruct (H x Hin) as [y Hy]. congruence. Qed.
Lemma json_handle_ok fuel : forall v, clean v = true -> depth v < fuel -> exists w, json_handle fuel v = Ok w.
Proof.
  induction fuel as [|f IH]; intros v Hc Hd; [lia|].
  assert (Hlist : forall l, forallb clean l = true -> maxl depth l < f -> exists ys, map_ok (json_handle f) l = Ok ys).
  { intros l Hl Hm. apply map_ok_all. intros x Hx. rewrite forallb_forall in Hl. apply IH; [now apply Hl|]. pose proof (maxl_in depth l x Hx). lia. }
  destruct v; cbn [json_handle depth clean] in *; try (eexists; reflexivity).
  - destruct (Hlist l Hc) as [ys ->]; [lia|eexists; reflexivity].
  - destruct (Hlist l Hc) as [ys ->]; [lia|eexists; reflexivity].
  - destruct (Hlist l Hc) as [ys ->]; [lia|eexists; reflexivity].
  - destruct (map_ok_all (fun p => match json_handle f (snd p) with Ok w => Ok (fst p, w) | Err e => Err e end) d) as [ys ->]; [|eexists; reflexivity]. intros x Hx. rewrite forallb_forall in Hc. destruct (IH (snd x)) as [w ->]; [now apply Hc| |eexists; reflexivity]. pose proof (maxl_in (fun p : pystr * value => depth (snd p)) d x Hx). cbn beta in *. lia.
  - assert (linked = true) by (destruct linked; [reflexivity|discriminate]). subst linked. destruct (json_collect_ok (json_handle f) nested c attrs (props_order true c)) with (acc := @nil (pystr * jval)) as [d Ed]; [exact Hc|intros n Hn; now apply order_ok| |rewrite Ed; eexists; reflexivity].
    intros v Cv Dv. apply IH; [exact Cv|]. cbn [depth] in Dv. lia.
Qed.
Lemma json_data_ok fuel a c attrs : clean (VObj true c attrs) = true -> depth (VObj true c attrs) <= fuel -> exists d, json_data fuel a true c attrs = Ok d.
Proof.
  intros Hc Hd. unfold json_data. destruct (json_collect_ok (json_handle fuel) a c attrs (props_order true c)) with (acc := @nil (pystr * jval)) as [d Ed]; [exact Hc|intros n Hn; now apply order_ok| |rewrite Ed; eexists; reflexivity].
  intros v Cv Dv. apply json_handle_ok; [exact Cv|lia].
Qed.
(** ** what the data contains *)
Lemma json_handle_some fuel v w : json_handle fuel v = Ok w -> is_jnone w = false.
Proof.
  destruct fuel as [|f]; [discriminate|]. destruct v; cbn [json_handle]; try (intros [= <-]; reflexivity).
  1-3: destruct (map_ok (json_handle f) l); [intros [= <-]; reflexivity|discriminate].
  - destruct (map_ok _ d); [intros [= <-]; reflexivity|discriminate].
  - destruct (json_collect _ _ _ _ _ _ _); [intros [= <-]; reflexivity|discriminate].
Qed.
Definition kept (a : vargs) (n : pystr) (v : value) : bool := (v_none a || negb (is_none v)) && wanted a n && negb (v_reject a v).
Lemma json_collect_keep h a l c attrs names k : ~ In k (map (out_name a) names) -> forall acc d, json_collect h a l c attrs names acc = Ok d -> d_get k d = d_get k acc.
Proof.
  induction names as [|n r IH]; intros Hk acc d; cbn [json_collect]; [intros [= <-]; reflexivity|]. cbn [map In] in Hk. destruct (if v_none a then Ok true else _) as [c1|e]; [|discriminate]. destruct (negb (c1 && wanted a n)); [apply IH; tauto|]. destruct (json_read l c attrs n) as [v|e]; [|discriminate]. destruct (v_reject a v); [apply IH; tauto|]. destruct (h v) as [w|e]; [|discriminate].
  intros H. rewrite (IH (fun Hc => Hk (or_intror Hc)) _ _ H). apply d_get_set_other. intros ->. apply Hk. now left.
Qed.
Lemma json_collect_get h a l c attrs names n v : NoDup (map (out_name a) names) -> In n names -> json_read l c attrs n = Ok v -> forall acc d, json_collect h a l c attrs names acc = Ok d ->
  if kept a n v then exists w, h v = Ok w /\ d_get (out_name a n) d = Some w else d_get (out_name a n) d = d_get (out_name a n) acc.
Proof.
  induction names as [|m r IH]; intros Hnd Hin Hv acc d; [contradiction|]. cbn [map] in Hnd. apply NoDup_cons_iff in Hnd as [Hnd1 Hnd2]. cbn [json_collect]. destruct (str_dec m n) as [-> |Hne].
  - rewrite Hv. assert (E : (if v_none a then Ok true else Ok (negb (is_none v))) = Ok (v_none a || negb (is_none v))) by (destruct (v_none a); reflexivity). rewrite E. unfold kept. destruct ((v_none a || negb (is_none v)) && wanted a n) eqn:Ek; cbn [negb andb]; [|intros H; now apply json_collect_keep with (2 := H)].
    destruct (v_reject a v); cbn [negb]; [intros H; now apply json_collect_keep with (2 := H)|]. destruct (h v) as [w|e]; [|discriminate]. intros H. exists w. split; [reflexivity|]. rewrite (json_collect_keep h a l c attrs r _ Hnd1 _ _ H). apply d_get_set_same.
  - destruct Hin as [Hin|Hin]; [congruence|]. destruct (if v_none a then Ok true else _) as [c1|e]; [|discriminate]. destruct (negb (c1 && wanted a m)); [now apply IH|]. destruct (json_read l c attrs m) as [v2|e]; [|discriminate]. destruct (v_reject a v2); [now apply IH|]. destruct (h v2) as [w|e]; [|discriminate].
    intros H. specialize (IH Hnd2 Hin Hv _ _ H). destruct (kept a n v); [exact IH|]. rewrite IH. apply d_get_set_other. intros Hc. apply Hnd1. rewrite <- Hc. now apply in_map.
Qed.
Lemma json_collect_somes h a l c attrs names : (forall v w, h v = Ok w -> is_jnone w = false) -> forall acc d, forallb (fun p : pystr * jval => negb (is_jnone (snd p))) acc = true -> json_collect h a l c attrs names acc = Ok d -> forallb (fun p : pystr * jval => negb (is_jnone (snd p))) d = true.
Proof.
  intros Hh. induction names as [|n r IH]; intros acc d Ha; cbn [json_collect]; [intros [= <-]; exact Ha|]. destruct (if v_none a then Ok true else _) as [c1|e]; [|discriminate]. destruct (negb (c1 && wanted a n)); [now apply IH|]. destruct (json_read l c attrs n) as [v|e]; [|discriminate]. destruct (v_reject a v); [now apply IH|]. destruct (h v) as [w|e] eqn:E; [|discriminate]. apply IH.
  apply Hh in E. clear - Ha E. induction acc as [|[k x] acc IH]; cbn; [now rewrite E|]. cbn in Ha. apply andb_true_iff in Ha as [H1 H2]. destruct (str_eqb _ k); cbn; [now rewrite E|]. now rewrite H1, IH.
Qed.
Lemma drop_nones_id a d : forallb (fun p : pystr * jval => negb (is_jnone (snd p))) d = true -> drop_nones a d = d.
Proof. intros H. unfold drop_nones. induction d as [|p d IH]; [reflexivity|]. cbn in *. apply andb_true_iff in H as [H1 H2]. rewrite H1, orb_true_r. f_equal. now apply IH. Qed.
Lemma json_data_get fuel a l c attrs d n v : NoDup (map (out_name a) (props_order l c)) -> In n (property_set l c) -> json_read l c attrs n = Ok v -> json_data fuel a l c attrs = Ok d ->
  if kept a n v then exists w, json_handle fuel v = Ok w /\ d_get (out_name a n) d = Some w else d_get (out_name a n) d = None.
Proof.
  intros Hnd Hn Hv. unfold json_data. destruct (json_collect _ _ _ _ _ _ _) as [d0|e] eqn:E; [|discriminate]. rewrite drop_nones_id by (apply (json_collect_somes _ _ _ _ _ _ (json_handle_some fuel)) with (2 := E); reflexivity). intros [= <-].
  exact (json_collect_get _ a l c attrs _ n v Hnd (proj2 (order_ok l c n) Hn) Hv [] d0 E).
Qed.
End Read.
