(** Property theorems C71, C72, C82: reading JSON.
    [unpack … v context s] is _unpack_objects(v, context), [from_value] is from_json of a dict, [from_text] of a string, [engine_get] is engine[...]. Each gets the outside state [s] and returns the new one and a value or exception.
    The behaviour of pyld's expand, of json.loads and of the classes' constructors is arbitrary: parameters. [registry]: the engine's class registry; [properties c]: c.__get_properties__().
    Results: [ORaw v] the value itself, [OList], [ODict], [OObj o] an object that a constructor returned. *)
From Coq Require Import String.
From Verif Require Import Base BaseFacts Dict DictFacts Package PackageInit Intake IntakeFacts.
Open Scope list_scope.

(** ** C71 *)
(** the form of the result: scalars unchanged; iterables as lists, element by element; dicts as dicts with the same keys in the same order, as objects, or as None; anything else as None *)
Inductive unpacked {Obj} : pv -> out Obj -> Prop :=
| u_none : unpacked PNone (ORaw PNone)
| u_bool b : unpacked (PBool b) (ORaw (PBool b))
| u_number r : unpacked (PNum r) (ORaw (PNum r))
| u_str s : unpacked (PStr s) (ORaw (PStr s))
| u_list l os : Forall2 unpacked l os -> unpacked (PIter l) (OList os)
| u_dict d o : Forall2 (fun p q => fst q = fst p /\ unpacked (snd p) (snd q)) d o -> unpacked (PDict d) (ODict o)
| u_object d o : unpacked (PDict d) (OObj o)
| u_unknown d : unpacked (PDict d) (ORaw PNone)
| u_other n : unpacked (POther n) (ORaw PNone).
Theorem C71_form : forall St Obj expand construct properties registry v context (s s' : St) (o : out Obj), unpack St Obj expand construct properties registry v context s = (s', Ok o) -> unpacked v o.
Proof.
  intros St Obj expand construct properties registry v context s s' o E. apply unpack_shape in E. clear - E. revert o E. induction v using pv_tree_ind; intros o E; inversion E; subst; try constructor; try contradiction.
  - rewrite Forall_forall in H. match goal with H2 : Forall2 _ d _ |- _ => rename H2 into F end. clear E. induction F as [|p q d' o' [F1 F2] F IH]; constructor; [split; [exact F1|apply H; [now left|exact F2]]|apply IH; intros x Hx; apply H; now right].
  - rewrite Forall_forall in H. match goal with H2 : Forall2 _ l _ |- _ => rename H2 into F end. clear E. induction F as [|p q d' o' F2 F IH]; constructor; [apply H; [now left|exact F2]|apply IH; intros x Hx; apply H; now right].
Qed.
Print Assumptions C71_form.
(** which of these a dict becomes. [cv]: the dict with the context added unless it has one. No property is called "@context". *)
Definition first_type (l : list (option (list pystr))) : pystr := match l with Some (t :: _) :: _ => t | _ => [] end.
Definition class_of_type (registry : nsdict) (t : pystr) : option nat := match ns_get (Some t) registry with Some c => Some c | None => ns_get (Some (py "default")) registry end.
Theorem C71_dict : forall St Obj expand construct properties registry d context (s : St), NoDup (d_keys d) -> (forall c names, properties c = Some names -> ~ In (py "@context") names) ->
  exists cv, (forall k, d_get k cv = if str_eqb k (py "@context") then match d_get k d with Some v => Some v | None => Some context end else d_get k d) /\
  forall s' (r : res (out Obj)), unpack St Obj expand construct properties registry (PDict d) context s = (s', r) ->
  let (s1, r1) := expand s (PDict cv) in
  match r1 with
  | Err e => r = Err e
  | Ok [] | Ok (None :: _) => (* no @type *) match r with Ok o => exists os, o = ODict os /\ map fst os = map fst d | Err e => exists k v a b, In (k, v) d /\ unpack St Obj expand construct properties registry v context a = (b, Err e) end
  | Ok (Some _ :: _) =>
      let (s2, r2) := expand s1 (PDict cv) in
      match r2 with
      | Err e => r = Err e
      | Ok l => match l with
                | Some [] :: _ => r = Err IndexError
                | _ => match class_of_type registry (first_type l) with
                       | None => r = Ok (ORaw PNone) /\ s' = s2
                       | Some _ => (s', r) = match from_value St Obj expand construct properties registry (PDict cv) s2 with (s3, Ok o) => (s3, Ok (OObj o)) | (s3, Err e) => (s3, Err e) end
                       end
                end
      end
  end.
Proof.
  intros St Obj expand construct properties registry d context s Hd Hp. exists (with_context context d). split; [intros k; now apply with_context_get|]. intros s' r. rewrite (unpack_dict St Obj expand construct properties registry d context s Hd Hp).
  destruct (expand s (PDict (with_context context d))) as [s1 [l|e]]; [|intros [= _ <-]; reflexivity].
  assert (Hun : forall s' r, (match unpack_entries St Obj (fun x => unpack St Obj expand construct properties registry x context) d s1 with (s2, Err e) => (s2, Err e) | (s2, Ok o) => (s2, Ok (ODict o)) end) = (s', r) ->
    match r with Ok o => exists os, o = ODict os /\ map fst os = map fst d | Err e => exists k v a b, In (k, v) d /\ unpack St Obj expand construct properties registry v context a = (b, Err e) end).
  { clear. intros s' r. destruct (unpack_entries _ _ _ d s1) as [s2 [os|e]] eqn:E; intros [= _ <-].
    - exists os. split; [reflexivity|]. apply unpack_entries_ok in E. induction E as [|p q l m [H _] E IH]; [reflexivity|]. cbn. now rewrite H, IH.
    - now apply unpack_entries_err in E. }
  destruct l as [|[ts|] l]; cbn [untyped]; [apply Hun| |apply Hun]. clear Hun.
  assert (Hcl : forall t : pystr, ns_get (match ns_get (Some t) registry with Some _ => Some t | None => Some (py "default") end) registry = class_of_type registry t).
  { intros t. unfold class_of_type. destruct (ns_get (Some t) registry) eqn:E; [exact E|reflexivity]. }
  unfold get_object_class. destruct (expand s1 (PDict (with_context context d))) as [s2 [m|e]]; [|intros [= _ <-]; reflexivity].
  assert (Hend : forall t, match class_of_type registry t with Some _ => match from_value St Obj expand construct properties registry (PDict (with_context context d)) s2 with (s3, Err e) => (s3, Err e) | (s3, Ok o) => (s3, Ok (OObj o)) end | None => (s2, Ok (ORaw PNone)) end = (s', r) ->
    match class_of_type registry t with
    | None => r = Ok (ORaw PNone) /\ s' = s2
    | Some _ => (s', r) = match from_value St Obj expand construct properties registry (PDict (with_context context d)) s2 with (s3, Ok o) => (s3, Ok (OObj o)) | (s3, Err e) => (s3, Err e) end
    end).
  { intros t. destruct (class_of_type registry t) as [c|]; intros E; [rewrite <- E|apply pair_equal_spec in E as [<- <-]; auto]. destruct (from_value St Obj expand construct properties registry (PDict (with_context context d)) s2) as [s3 [o|e]]; reflexivity. }
  destruct m as [|[[|t tl]|] m]; cbn [first_type]; try (intros [= _ <-]; reflexivity); rewrite Hcl; apply Hend.
Qed.
Print Assumptions C71_dict.
(** when expanding and constructing never fail, unpacking never fails: [ex] the (stable) expansion, no empty type lists, registered classes have properties, no "@context" that is falsy *)
Theorem C71_total : forall St Obj expand construct properties registry (ex : pv -> list (option (list pystr))),
  (forall (s : St) v, exists s', expand s v = (s', Ok (ex v))) -> (forall v t, ex v <> Some [] :: t) -> (forall x c, ns_get x registry = Some c -> properties c <> None) -> (forall s c a, exists s' (o : Obj), construct s c a = (s', Ok o)) ->
  forall v context s, truthy context = true -> contexts_set v -> exists s' o, unpack St Obj expand construct properties registry v context s = (s', Ok o).
Proof. intros St Obj expand construct properties registry ex H1 H2 H3 H4 v context s. exact (unpack_total St Obj expand construct properties registry ex H1 H2 H3 H4 v context s). Qed.
Print Assumptions C71_total.

Lemma class_looked_up : forall St expand registry data (s s1 : St) l, expand s data = (s1, Ok l) -> match l with Some [] :: _ => False | _ => True end -> get_object_class St expand registry s data = (s1, Ok (class_of_type registry (first_type l))).
Proof.
  intros St expand registry data s s1 l E Hne. unfold get_object_class. rewrite E.
  assert (Hcl : forall t : pystr, ns_get (match ns_get (Some t) registry with Some _ => Some t | None => Some (py "default") end) registry = class_of_type registry t).
  { intros t. unfold class_of_type. destruct (ns_get (Some t) registry) eqn:E1; [exact E1|reflexivity]. }
  destruct l as [|[[|t ts]|] l]; [| destruct Hne| |]; cbn [first_type]; now rewrite Hcl.
Qed.
(** ** C72 *)
(** the data that is expanded: "@context" is the default one unless the document has a true one *)
Definition document (d : dict pv) : dict pv := if match d_get (py "@context") d with Some c => truthy c | None => false end then d else d_set (py "@context") default_context d.
Definition context_of (d : dict pv) : pv := match d_get (py "@context") d with Some c => c | None => default_context end.
Theorem C72_constructor_call : forall St Obj expand construct properties registry d (s s1 : St) l c names s' (r : res Obj),
  expand s (PDict (document d)) = (s1, Ok l) -> match l with Some [] :: _ => False | _ => True end -> class_of_type registry (first_type l) = Some c -> properties c = Some names -> NoDup names ->
  from_value St Obj expand construct properties registry (PDict d) s = (s', r) ->
  (* either unpacking the value of a property raised, and the constructor was not called *)
  (exists k v a b e, In k names /\ d_get k d = Some v /\ unpack St Obj expand construct properties registry v (context_of d) a = (b, Err e) /\ r = Err e) \/
  (* or the constructor was called with exactly the properties and acontext *)
  (exists s2 args, construct s2 c args = (s', r) /\ NoDup (map fst args) /\ (forall k, In k (map fst args) <-> In k names \/ k = py "acontext") /\ d_get (py "acontext") args = Some (ORaw (context_of d)) /\
    forall k, In k names -> k <> py "acontext" ->
      match d_get k d with
      | None => d_get k args = Some (ORaw PNone)
      | Some v => exists o a b, d_get k args = Some o /\ unpack St Obj expand construct properties registry v (context_of d) a = (b, Ok o)
      end).
Proof.
  intros St Obj expand construct properties registry d s s1 l c names s' r E1 Hne Hc Hp Hn. cbn [from_value]. unfold from_dict. fold (document d). fold (context_of d). cbv zeta. rewrite (class_looked_up St expand registry _ s s1 l E1 Hne), Hc.
  rewrite Hp. destruct (fill St Obj (fun k => match d_get k d with Some x => Some (unpack St Obj expand construct properties registry x) | None => None end) (context_of d) names s1 []) as [s2 [args|e]] eqn:Ef.
  - intros E. right. exists s2, (d_set (py "acontext") (ORaw (context_of d)) args). split; [exact E|]. destruct (fill_ok St Obj _ _ names s1 s2 [] args Hn (fun k _ => eq_refl) Ef) as (A & B & C). cbn [app] in A.
    split; [apply d_set_nodup; rewrite A; exact Hn|]. split.
    { intros k. pose proof (d_keys_set (py "acontext") (ORaw (context_of d)) args) as Hk. unfold d_keys in Hk, A. cbn in A. rewrite Hk. unfold d_mem. destruct (d_get (py "acontext") args) as [x|] eqn:Ex.
      - rewrite A. split; [auto|]. intros [H|H]; [exact H|]. rewrite H, <- A. apply d_get_in. congruence.
      - rewrite in_app_iff, A. cbn [In]. intuition. }
    split; [apply d_get_set_same|]. intros k Hk Hka. rewrite d_get_set_other by exact Hka. destruct (C k Hk) as (o & H1 & H2). destruct (d_get k d) as [v|]; [|now rewrite H1, H2]. destruct H2 as (a & b & H2). exists o, a, b. auto.
  - intros [= _ <-]. left. apply fill_err in Ef as (k & f & a & b & H1 & H2 & H3). destruct (d_get k d) as [v|] eqn:Ev; [|discriminate]. injection H2 as <-. exists k, v, a, b, e. auto.
Qed.
Print Assumptions C72_constructor_call.
(** keys of the document that are no properties have no influence but through the expansion *)
Theorem C72_unknown_keys_ignored : forall St Obj expand construct properties registry d1 d2 (s : St),
  expand s (PDict (document d1)) = expand s (PDict (document d2)) -> d_get (py "@context") d1 = d_get (py "@context") d2 -> (forall c names k, properties c = Some names -> In k names -> d_get k d1 = d_get k d2) ->
  from_value St Obj expand construct properties registry (PDict d1) s = from_value St Obj expand construct properties registry (PDict d2) s.
Proof.
  intros St Obj expand construct properties registry d1 d2 s E Hc Hk. cbn [from_value]. unfold from_dict. fold (document d1) (document d2). fold (context_of d1) (context_of d2). cbv zeta. unfold get_object_class. rewrite E.
  assert (context_of d1 = context_of d2) as -> by (unfold context_of; now rewrite Hc). destruct (expand s (PDict (document d2))) as [s1 [l|e]]; [|reflexivity].
  destruct (match l with [] | None :: _ => Ok [] | Some [] :: _ => Err IndexError | Some (t :: _) :: _ => Ok t end) as [t|e]; [|reflexivity]. destruct (ns_get _ registry) as [c|]; [|reflexivity]. destruct (properties c) as [names|] eqn:En; [|reflexivity].
  rewrite (fill_ext St Obj _ (fun k => match d_get k d2 with Some x => Some (unpack St Obj expand construct properties registry x) | None => None end)); [reflexivity|]. intros k Hn. now rewrite (Hk c names k En Hn).
Qed.
Print Assumptions C72_unknown_keys_ignored.
(** a type that is not registered, without a class registered as "default": AttributeError; so it is for data that is not a dict *)
Theorem C72_unregistered : forall St Obj expand construct properties registry d (s s1 : St) l,
  expand s (PDict (document d)) = (s1, Ok l) -> match l with Some [] :: _ => False | _ => True end -> class_of_type registry (first_type l) = None ->
  from_value St Obj expand construct properties registry (PDict d) s = (s1, Err AttributeError).
Proof.
  intros St Obj expand construct properties registry d s s1 l E1 Hne Hc. cbn [from_value]. unfold from_dict. fold (document d). cbv zeta. now rewrite (class_looked_up St expand registry _ s s1 l E1 Hne), Hc.
Qed.
Print Assumptions C72_unregistered.
Theorem C72_not_a_dict : forall St Obj expand construct properties registry v (s : St), match v with PDict _ => False | _ => True end -> from_value St Obj expand construct properties registry v s = (s, Err AttributeError).
Proof. intros St Obj expand construct properties registry v s H. destruct v; try reflexivity. destruct H. Qed.
Print Assumptions C72_not_a_dict.
(** the expansion fails: its exception is passed on *)
Theorem C72_expansion_fails : forall St Obj expand construct properties registry d (s s1 : St) e, expand s (PDict (document d)) = (s1, Err e) -> from_value St Obj expand construct properties registry (PDict d) s = (s1, Err e).
Proof. intros St Obj expand construct properties registry d s s1 e E. cbn [from_value]. unfold from_dict. fold (document d). cbv zeta. unfold get_object_class. now rewrite E. Qed.
Print Assumptions C72_expansion_fails.

(** the document that is expanded: the dict itself when its "@context" is there and not empty, otherwise the dict with the default in its place. Empty are exactly these *)
Inductive empty_value : pv -> Prop :=
| e_none : empty_value PNone
| e_false : empty_value (PBool false)
| e_zero r : In r [py "0"; py "0.0"; py "-0.0"] -> empty_value (PNum r)
| e_str : empty_value (PStr [])
| e_dict : empty_value (PDict [])
| e_iter : empty_value (PIter []).
Theorem C72_what_is_expanded : forall St Obj expand construct properties registry d (s : St), exists doc,
  (forall k, k <> py "@context" -> d_get k doc = d_get k d) /\
  (forall c, d_get (py "@context") d = Some c -> ~ empty_value c -> doc = d) /\
  ((forall c, d_get (py "@context") d = Some c -> empty_value c) -> d_get (py "@context") doc = Some default_context) /\
  (forall s1 e, expand s (PDict doc) = (s1, Err e) -> from_value St Obj expand construct properties registry (PDict d) s = (s1, Err e)) /\
  (forall s1 ts, expand s (PDict doc) = (s1, Ok (Some [] :: ts)) -> from_value St Obj expand construct properties registry (PDict d) s = (s1, Err IndexError)).
Proof.
  intros St Obj expand construct properties registry d s. exists (document d).
  assert (Ht : forall c, truthy c = true <-> ~ empty_value c).
  { intros c. split.
    - intros H N. destruct N as [| |r Hr| | |]; try discriminate H. cbn [truthy] in H. apply Bool.negb_true_iff in H. destruct Hr as [<-|[<-|[<-|[]]]]; discriminate H.
    - intros H. destruct c as [|[]|r|t|[|p l]|[|x l]|n]; try reflexivity; try (exfalso; apply H; constructor; fail).
      + cbn [truthy]. apply Bool.negb_true_iff. destruct (mem_str r _) eqn:E; [|reflexivity]. exfalso. apply H. constructor. now apply mem_str_In.
      + cbn [truthy]. apply Bool.negb_true_iff. destruct (str_eqb t []) eqn:E; [|reflexivity]. exfalso. apply H. apply str_eqb_eq in E. subst. constructor. }
  split. { intros k Hk. unfold document. destruct (match d_get (py "@context") d with Some c => truthy c | None => false end); [reflexivity|]. now apply d_get_set_other. }
  split. { intros c Hc Hn. unfold document. rewrite Hc. now rewrite (proj2 (Ht c) Hn). }
  split. { intros H. unfold document. destruct (d_get (py "@context") d) as [c|] eqn:Ec; [|apply d_get_set_same].
    destruct (truthy c) eqn:Et; [|apply d_get_set_same]. exfalso. apply Ht in Et. apply Et. now apply H. }
  split; intros s1 x E; cbn [from_value]; unfold from_dict; fold (document d); cbv zeta; unfold get_object_class; now rewrite E.
Qed.
Print Assumptions C72_what_is_expanded.
Example C72_what_is_expanded_case : empty_value (PIter []) /\ ~ empty_value (PIter [PNone]) /\ ~ empty_value (PNum (py "1")).
Proof. split; [constructor|]. split; intros H; inversion H; subst. match goal with K : In _ _ |- _ => destruct K as [K|[K|[K|[]]]]; discriminate K end. Qed.

(** a concrete engine: class 0 "Note" with properties id and content, class 1 "Person" with name; expansion takes the dict's "type"; the state counts expansions *)
Definition ex1 (v : pv) : list (option (list pystr)) := match v with PDict d => match d_get (py "type") d with Some (PStr t) => [Some [py "as#" ++ t]] | _ => [None] end | _ => [] end.
Definition expand1 (s : nat) (v : pv) : nat * res (list (option (list pystr))) := (S s, Ok (ex1 v)).
Definition construct1 (s : nat) (c : nat) (args : list (pystr * out (nat * list pystr))) : nat * res (nat * list pystr) := (s, Ok (c, map fst args)).
Definition properties1 (c : nat) : option (list pystr) := match c with 0 => Some [py "id"; py "content"] | _ => Some [py "name"] end.
Definition registry1 : nsdict := [(Some (py "as#Note"), 0); (Some (py "as#Person"), 1)].
Definition person : pv := PDict [(py "type", PStr (py "Person")); (py "name", PStr (py "Al"))].
Example C71_case : unpack nat _ expand1 construct1 properties1 registry1 (PIter [PNone; PBool true; PNum (py "3"); PStr (py "x"); person; PDict [(py "type", PStr (py "Alien"))]; PDict [(py "k", person)]; POther 3]) default_context 0
  = (9, Ok (OList [ORaw PNone; ORaw (PBool true); ORaw (PNum (py "3")); ORaw (PStr (py "x")); OObj (1, [py "name"; py "acontext"]); ORaw PNone; ODict [(py "k", OObj (1, [py "name"; py "acontext"]))]; ORaw PNone])).
Proof. vm_compute. reflexivity. Qed.
Example C71_total_case : (forall s v, exists s', expand1 s v = (s', Ok (ex1 v))) /\ (forall v t, ex1 v <> Some [] :: t) /\ (forall x c, ns_get x registry1 = Some c -> properties1 c <> None) /\ (forall s c a, exists s' o, construct1 s c a = (s', Ok o)) /\ truthy default_context = true /\ contexts_set person.
Proof.
  split; [intros; eexists; reflexivity|]. split. { intros v t. destruct v; try discriminate. unfold ex1. destruct (d_get (py "type") d) as [[]|]; intros [=]. }
  split; [intros x [|c] _; discriminate|]. split; [intros; do 2 eexists; reflexivity|]. split; [reflexivity|]. cbn. split; [intros c [H|[H|[]]]; discriminate|auto].
Qed.
Example C72_case : from_value nat _ expand1 construct1 properties1 registry1 (PDict [(py "type", PStr (py "Note")); (py "id", PStr (py "1")); (py "other", PNone)]) 0 = (1, Ok (0, [py "id"; py "content"; py "acontext"])) /\
  from_value nat _ expand1 construct1 properties1 registry1 (PDict [(py "type", PStr (py "Alien"))]) 0 = (1, Err AttributeError).
Proof. vm_compute. auto. Qed.

(** ** C82: engine[...] *)
Theorem C82_one_text : forall St Obj expand construct properties registry loads t (s : St), engine_get St Obj expand construct properties registry loads (KStr t) s =
  match loads t with
  | Err e => (s, Err e)
  | Ok v => match from_value St Obj expand construct properties registry v s with (s1, Ok o) => (s1, Ok (EOne Obj o)) | (s1, Err e) => (s1, Err e) end
  end.
Proof. intros. cbn [engine_get]. unfold from_text. destruct (loads t) as [v|e]; [|reflexivity]. destruct (from_value St Obj expand construct properties registry v s) as [s1 [o|e]]; reflexivity. Qed.
Print Assumptions C82_one_text.
(** a sequence: TypeError and nothing done if an element is no string; otherwise one object per text, in order, each read after the previous ones; the first exception stops it *)
Inductive reads {St Obj} (read : pystr -> St -> St * res Obj) : St -> list pystr -> St -> res (list Obj) -> Prop :=
| r_nil s : reads read s [] s (Ok [])
| r_err s t ts s1 e : read t s = (s1, Err e) -> reads read s (t :: ts) s1 (Err e)
| r_cons s t ts s1 o s2 r : read t s = (s1, Ok o) -> reads read s1 ts s2 r -> reads read s (t :: ts) s2 (match r with Ok os => Ok (o :: os) | Err e => Err e end).
Theorem C82_many_texts : forall St Obj expand construct properties registry loads l (s s' : St) r, engine_get St Obj expand construct properties registry loads (KSeq l) s = (s', r) ->
  (In None l /\ r = Err TypeError /\ s' = s) \/
  (exists ts r', l = map Some ts /\ reads (from_text St Obj expand construct properties registry loads) s ts s' r' /\ r = match r' with Ok os => Ok (EMany Obj os) | Err e => Err e end /\ (forall os, r' = Ok os -> List.length os = List.length l)).
Proof.
  intros St Obj expand construct properties registry loads l s s' r. cbn [engine_get]. destruct (existsb (fun x => match x with None => true | Some _ => false end) l) eqn:Ex.
  - intros [= <- <-]. left. apply existsb_exists in Ex as ([x|] & H1 & H2); [discriminate|]. auto.
  - intros E. right. set (ts := flat_map (fun x => match x with Some t => [t] | None => [] end) l) in *. assert (Hl : l = map Some ts). { unfold ts. clear - Ex. induction l as [|[x|] l IH]; [reflexivity| |discriminate]. cbn in *. f_equal. now apply IH. } clearbody ts. subst l. clear Ex.
    assert (G : forall ts s s1 r1, from_texts St Obj expand construct properties registry loads ts s = (s1, r1) -> reads (from_text St Obj expand construct properties registry loads) s ts s1 r1 /\ (forall os, r1 = Ok os -> List.length os = List.length ts)).
    { clear. induction ts as [|t ts IH]; intros s s1 r1; cbn [from_texts]; [intros [= <- <-]; split; [constructor|intros os [= <-]; reflexivity]|].
      destruct (from_text St Obj expand construct properties registry loads t s) as [s2 [o|e]] eqn:E1; [|intros [= <- <-]; split; [now apply r_err|discriminate]].
      destruct (from_texts St Obj expand construct properties registry loads ts s2) as [s3 r3] eqn:E2. destruct (IH s2 s3 r3 E2) as [H1 H2]. intros E. pose proof (r_cons _ s t ts s2 o s3 r3 E1 H1) as H. destruct r3 as [os|e]; injection E as <- <-; (split; [exact H|]); [|discriminate]. intros x [= <-]. cbn. f_equal. now apply H2. }
    destruct (from_texts St Obj expand construct properties registry loads ts s) as [s1 r1] eqn:E1. destruct (G ts s s1 r1 E1) as [H1 H2]. exists ts, r1. split; [reflexivity|]. rewrite map_length. destruct r1 as [os|e]; injection E as <- <-; auto.
Qed.
Print Assumptions C82_many_texts.
Theorem C82_anything_else : forall St Obj expand construct properties registry loads (s : St), engine_get St Obj expand construct properties registry loads KOther s = (s, Err TypeError).
Proof. reflexivity. Qed.
Print Assumptions C82_anything_else.
Example C82_case : engine_get nat _ expand1 construct1 properties1 registry1 (fun _ => Ok person) (KSeq [Some (py "a"); Some (py "b")]) 0 = (2, Ok (EMany _ [(1, [py "name"; py "acontext"]); (1, [py "name"; py "acontext"])])).
Proof. vm_compute. reflexivity. Qed.
