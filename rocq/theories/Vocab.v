(** activitystreams/models.py and properties.py: constructors, attributes, links, serialisation.
    An object is a class, whether it is the package's clone of it ([linked]) or the class of models.py itself, and its attributes.
    Simplifications: objects are trees without identity; the keys of dicts are strings; the bookkeeping attributes [__properties__] and [__context__] are left out;
    constructors get keyword arguments only. *)
From Coq Require Import String.
From Verif Require Import Base Dict Duration DateTime Url JsonData VocabTables.
Open Scope list_scope.

Inductive value : Type :=
| VNone | VBool (b : bool) | VInt (z : Z) | VFloat (negative : bool) (repr : pystr) | VStr (s : pystr)
| VDatetime (d : datetime) | VTimedelta (d : timedelta)
| VList (l : list value) | VTuple (l : list value) | VSet (l : list value)
| VDict (d : list (pystr * value))
| VObj (linked : bool) (c : cname) (attrs : list (pystr * value))
| VPropObject                           (* an instance of the property class properties.Object *)
| VOther (n : N) (len : option Z).      (* any other object; its len() if it has one *)
(** bool(v) *)
Definition truthy (v : value) : bool :=
  match v with
  | VNone => false | VBool b => b | VInt z => negb (Z.eqb z 0) | VFloat _ r => negb (mem_str r [py "0.0"; py "-0.0"]) | VStr s => negb (str_eqb s [])
  | VTimedelta d => negb (Z.eqb (td_days d) 0 && Z.eqb (td_seconds d) 0 && Z.eqb (td_micros d) 0)
  | VList [] | VTuple [] | VSet [] | VDict [] => false
  | VOther _ (Some z) => negb (Z.eqb z 0)
  | _ => true
  end.
(** len(v) if isinstance(v, Sized) else 0 *)
Definition size_or_0 (v : value) : Z :=
  match v with
  | VStr s => Z.of_nat (List.length s) | VList l | VTuple l | VSet l => Z.of_nat (List.length l) | VDict d => Z.of_nat (List.length d)
  | VOther _ (Some z) => z | _ => 0%Z
  end.
(** models.py:19 *)
Definition as_ns : pystr := py "https://www.w3.org/ns/activitystreams".

(** ** which attributes are properties *)
Definition find_pdef (n : pystr) : option pdef := find (fun p => str_eqb n (pd_name p)) properties_py.
(** A property is linked to the class or to an ancestor (package.py:104-131, C68). Every class but Object and Link has its own plain attribute [type], copied to its clone, in front of the property. *)
Definition plain_type (c : cname) (n : pystr) : bool := str_eqb n (py "type") && negb (class_eqb c Object || class_eqb c Link).
Definition prop_of (linked : bool) (c : cname) (n : pystr) : option pdef :=
  if str_eqb n (py "acontext") then Some acontext_def
  else if linked && existsb (fun k => mem_str n (mapped k)) (ancestors c) && negb (plain_type c n) then find_pdef n
  else None.
(** base.py:318-330: the names in [__properties__], as a set *)
Definition property_set (linked : bool) (c : cname) : list pystr := py "acontext" :: py "__namespace__" :: (if linked then flat_map mapped (ancestors c) else []).

Section Vocab.
(** see Url.v and DateTime.v *)
Variable netloc_ok : pystr -> bool.
Variable nd : N -> option N.
(** validate_email.validate_email *)
Variable email : pystr -> res bool.

(** ** jsonld/tools/type.py (see Validate.v) for these values *)
Definition isinst (v : value) (t : ty) : bool :=
  match t, v with
  | TyNone, VNone | TyStr, VStr _ | TyInt, VInt _ | TyInt, VBool _ | TyFloat, VFloat _ _ | TyBool, VBool _ | TyDict, VDict _ | TyDatetime, VDatetime _ | TyTimedelta, VTimedelta _ | TyList, VList _ | TyPropObject, VPropObject => true
  | TyModel k, VObj _ c _ => subclass c k
  | _, _ => false
  end.
Definition isinstance (v : value) (ts : list ty) : bool := existsb (isinst v) ts.
Definition is_tylist (t : ty) : bool := match t with TyList => true | _ => false end.
(** type.py:9 *)
Definition effective (ts : list ty) (functional : bool) : list ty := if functional && negb (existsb is_tylist ts) then ts else ts ++ [TyList].
(** url.py:33-61 (its result is ignored here), datetime.py:22-30, number.py:1-6 as validators *)
Definition dval_of (v : value) : dval := match v with VNone => DNone | VDatetime d => DDate d | VStr s => DStr s | _ => DOther end.
Definition run_check (k : check) (v : value) : res unit :=
  match k with
  | CkUrl => match v with VNone => Ok tt | VStr s => match validate_url netloc_ok s false with Ok _ => Ok tt | Err e => Err e end | _ => Err AttributeError end
  | CkTime => is_activity_datetime nd (dval_of v)
  | CkNonneg => match v with
                | VNone => Ok tt
                | VInt z => if Z.ltb z 0 then Err ValueError else Ok tt
                | VBool _ => Ok tt
                | VFloat negative _ => if negative then Err ValueError else Ok tt
                | _ => Err TypeError
                end
  end.
Fixpoint run_checks (ks : list check) (v : value) : res unit := match ks with [] => Ok tt | k :: r => match run_check k v with Ok _ => run_checks r v | Err e => Err e end end.
Definition map_ok {A B} (f : A -> res B) := fix go (l : list A) : res (list B) :=
  match l with [] => Ok [] | x :: l' => match f x with Err e => Err e | Ok y => match go l' with Err e => Err e | Ok ys => Ok (y :: ys) end end end.
(** type.py:5-25 [evaluate_value] *)
Fixpoint evaluate (ts : list ty) (functional : bool) (ks : list check) (v : value) {struct v} : res value :=
  let ts := effective ts functional in
  if negb (isinstance v ts) then Err ValueError
  else match v with
       | VList l | VTuple l | VSet l => match map_ok (evaluate ts functional ks) l with Ok ys => Ok (VList ys) | Err e => Err e end
       | _ => match run_checks ks v with Ok _ => Ok v | Err e => Err e end
       end.
(** datetime.py:33-43 *)
Definition parse_time (v : value) : res value :=
  match parse_activitystream_datetime nd (dval_of v) with
  | Ok (DDate d) => Ok (VDatetime d) | Ok DNone => Ok VNone | Ok (DStr s) => Ok (VStr s) | Ok DOther => Ok v | Err e => Err e
  end.

(** ** attributes *)
(** obj.n = raw. [co]: what Link.from_str makes of the value (models.py:238-241). [__namespace__] has no setter (base.py:183-190). *)
Definition set_attr (linked : bool) (c : cname) (attrs : dict value) (n : pystr) (raw : value) (co : res value) : res (dict value) :=
  if str_eqb n (py "__namespace__") then Err AttributeError
  else match prop_of linked c n with
       | None => Ok (d_set n raw attrs)
       | Some p =>
           match (if pd_link p then co else Ok raw) with
           | Err e => Err e
           | Ok v => match (if pd_checked p then evaluate (pd_types p ++ [TyNone]) (pd_functional p) (pd_checks p) v else Ok v) with
                     | Err e => Err e
                     | Ok w => match (if pd_parse p then parse_time w else Ok w) with
                               | Err e => Err e
                               | Ok x => Ok (d_set (pd_set p) x attrs)
                               end
                     end
           end
       end.
(** what the getter finds: getattr(self, '___n___', None), or self.__n *)
Definition stored (p : pdef) (attrs : dict value) : option value :=
  match d_get (pd_get p) attrs with Some v => Some v | None => if pd_strict p then None else Some VNone end.
(** getattr(obj, n) before any link is expanded; None: AttributeError *)
Definition peek (linked : bool) (c : cname) (attrs : dict value) (n : pystr) : option value :=
  match prop_of linked c n with
  | Some p => stored p attrs
  | None => match d_get n attrs with Some v => Some v | None => if str_eqb n (py "type") then Some (VStr (name_of c)) else None end
  end.

(** ** constructors (models.py): the assignments in their order *)
Inductive step :=
| SArg (n : string)     (* self.n = n *)
| SType                 (* self.type = getattr(self, 'type', type) *)
| SItems                (* self.items = getattr(self, 'items', items) *)
| STotal                (* models.py:359-361 *)
| SStart.               (* models.py:478 *)
(** jsonld.py:26-28, models.py:56-84 *)
Definition object_steps : list step :=
  SArg "acontext" :: SArg "id" :: SType :: map SArg ["attachment"; "attributedTo"; "audience"; "content"; "context"; "name"; "endTime"; "generator"; "icon"; "image"; "inReplyTo"; "location"; "preview"; "published"; "replies"; "startTime"; "summary"; "tag"; "updated"; "url"; "to"; "bto"; "cc"; "bcc"; "mediaType"; "duration"]%string.
(** models.py:111-122 *)
Definition link_steps : list step := SArg "acontext" :: map SArg ["href"; "rel"; "mediaType"; "name"; "hreflang"; "height"; "width"; "preview"; "context"]%string ++ [SType].
(** models.py:257-285, 296-317: IntransitiveActivity passes everything on *)
Definition activity_steps : list step := object_steps ++ map SArg ["actor"; "object"; "target"; "result"; "origin"; "instrument"]%string.
(** models.py:330-362, 377-399, 410-435, 446-478, 729-754 *)
Definition collection_steps : list step := object_steps ++ map SArg ["current"; "first"; "last"]%string ++ [SItems; STotal].
Definition page_steps : list step := collection_steps ++ map SArg ["partOf"; "next"; "prev"]%string.
Definition question_steps : list step := activity_steps ++ map SArg ["oneOf"; "anyOf"; "closed"]%string.
(** a constructor as stages: the arguments that are passed on (None: all of them) and the assignments made with them.
    [super()] in OrderedCollection.__init__ is CollectionPage for an OrderedCollectionPage, which calls OrderedCollection.__init__ with [orderedItems] only and CollectionPage.__init__ without [items] (models.py:456-478). *)
Definition object_params : list string :=
  ["id"; "type"; "attachment"; "attributedTo"; "audience"; "content"; "context"; "name"; "endTime"; "generator"; "icon"; "image"; "inReplyTo"; "location"; "preview"; "published"; "replies"; "startTime"; "summary"; "tag"; "updated"; "url"; "to"; "bto"; "cc"; "bcc"; "mediaType"; "duration"; "acontext"]%string.
Definition stages (c : cname) : list (option (list string) * list step) :=
  match c with
  | Link | Mention => [(None, link_steps)]
  | Collection => [(None, collection_steps)]
  | OrderedCollection => [(None, collection_steps ++ [SArg "orderedItems"])]
  | CollectionPage => [(None, page_steps)]
  | OrderedCollectionPage => [(Some ["orderedItems"]%string, page_steps ++ [SArg "orderedItems"]);
                              (Some (object_params ++ ["totalItems"; "current"; "first"; "last"; "partOf"; "next"; "prev"]%string), page_steps);
                              (None, [SStart])]
  | Question => [(None, question_steps)]
  | Relationship => [(None, object_steps ++ map SArg ["subject"; "object"; "relationship"]%string)]                                     (* 816-821 *)
  | Place => [(None, object_steps ++ map SArg ["accuracy"; "altitude"; "latitude"; "longitude"; "radius"; "units"]%string)]             (* 888-896 *)
  | Profile => [(None, object_steps ++ map SArg ["describes"]%string)]                                                                  (* 907-909 *)
  | Tombstone => [(None, object_steps ++ map SArg ["former_type"; "deleted"]%string)]                                                   (* 920-923 *)
  | _ => [(None, if subclass c Activity then activity_steps else object_steps)]
  end.
(** these have no default for [id] *)
Definition needs_id (c : cname) : bool := match c with Relationship | Place | Profile | Tombstone => true | _ => false end.
Definition arg (args : dict value) (n : pystr) : value := match d_get n args with Some v => v | None => if str_eqb n (py "acontext") then VStr as_ns else VNone end.
(** [co n v]: what Link.from_str makes of the value v of parameter n *)
Definition run_step (co : pystr -> value -> res value) (linked : bool) (c : cname) (args attrs : dict value) (x : step) : res (dict value) :=
  let set n raw := set_attr linked c attrs n raw (co n raw) in
  match x with
  | SArg n => set (py n) (arg args (py n))
  | SType => set (py "type") (match peek linked c attrs (py "type") with Some v => v | None => arg args (py "type") end)
  | SItems => set (py "items") (match peek linked c attrs (py "items") with Some v => v | None => arg args (py "items") end)
  | STotal => match peek linked c attrs (py "items") with
              | None => Err AttributeError
              | Some v => set (py "totalItems") (if truthy (arg args (py "totalItems")) then arg args (py "totalItems") else VInt (size_or_0 v))
              end
  | SStart => set (py "startIndex") (if truthy (arg args (py "startIndex")) then arg args (py "startIndex") else VInt 0)
  end.
Fixpoint run_steps (co : pystr -> value -> res value) (linked : bool) (c : cname) (args : dict value) (xs : list step) (attrs : dict value) : res (dict value) :=
  match xs with [] => Ok attrs | x :: r => match run_step co linked c args attrs x with Err e => Err e | Ok a => run_steps co linked c args r a end end.
Definition restrict (names : option (list string)) (args : dict value) : dict value :=
  match names with None => args | Some l => filter (fun p => mem_str (fst p) (map py l)) args end.
Fixpoint run_stages (co : pystr -> value -> res value) (linked : bool) (c : cname) (args : dict value) (l : list (option (list string) * list step)) (attrs : dict value) : res (dict value) :=
  match l with [] => Ok attrs | (names, xs) :: r => match run_steps co linked c (restrict names args) xs attrs with Err e => Err e | Ok a => run_stages co linked c args r a end end.
(** calling the class with the keyword arguments [args] *)
Definition construct_with (co : pystr -> value -> res value) (linked : bool) (c : cname) (args : dict value) : res value :=
  if d_mem (py "self") args then Err TypeError
  else if needs_id c && negb (d_mem (py "id") args) then Err TypeError
  else match run_stages co linked c args (stages c) [] with Err e => Err e | Ok a => Ok (VObj linked c a) end.

(** ** Link.from_str (models.py:209-243); [linked]: whether the link class is the package's *)
(** url.py:64-75 *)
Definition validate_acct_or_email (s : pystr) : res bool := email (if startswith (py "acct:") s then skipn 5 s else s).
Definition link_text (s : pystr) : res bool := match validate_url netloc_ok s false with Err e => Err e | Ok true => Ok true | Ok false => validate_acct_or_email s end.
(** models.py:230-231 *)
Definition link_dict (d : dict value) : res bool :=
  match d_get (py "href") d with
  | None => Ok false
  | Some h => if truthy h then match h with VStr s => validate_url netloc_ok s false | _ => Err AttributeError end else Ok false
  end.
(** models.py:224-236 [create_link] *)
Fixpoint create_link (linked : bool) (v : value) {struct v} : res value :=
  match v with
  | VStr s => match link_text s with
              | Err e => Err e
              | Ok true => construct_with (fun _ x => Ok x) linked Link [(py "href", v)]
              | Ok false => Ok v
              end
  | VDict d => match link_dict d with
               | Err e => Err e
               | Ok true => let subs := map (fun p => (fst p, create_link linked (snd p))) d in
                            construct_with (fun n x => match d_get n subs with Some r => r | None => Ok x end) linked Link d
               | Ok false => Ok v
               end
  | VList l | VTuple l | VSet l => match map_ok (create_link linked) l with Err e => Err e | Ok ys => Ok (VList ys) end
  | _ => Ok v
  end.
(** constructing an object: the setters convert with the package's Link *)
Definition construct (linked : bool) (c : cname) (args : dict value) : res value := construct_with (fun _ x => create_link true x) linked c args.
(** obj.n = v *)
Definition assign (linked : bool) (c : cname) (attrs : dict value) (n : pystr) (v : value) : res (dict value) := set_attr linked c attrs n v (create_link true v).

(** ** reading *)
(** [__properties__] of a class, in the order of the set *)
Variable props_order : bool -> cname -> list pystr.
(** kamino.py:103-125 [change_class] of an instance of a class of models.py. (Not modelled here: assigning [__namespace__] in that context replaces the class's [__get_namespace__].) *)
Fixpoint convert_from (orig : dict value) (c : cname) (names : list pystr) (attrs : dict value) : res (dict value) :=
  match names with
  | [] => Ok attrs
  | n :: r => if str_eqb n (py "__namespace__") then convert_from orig c r attrs
              else match assign true c attrs n (match peek false c orig n with Some v => v | None => VNone end) with
                   | Ok a => convert_from orig c r a
                   | Err AttributeError => convert_from orig c r attrs
                   | Err e => Err e
                   end
  end.
Definition convert (c : cname) (attrs : dict value) : res value := match convert_from attrs c (props_order true c) attrs with Ok a => Ok (VObj true c a) | Err e => Err e end.
(** kamino.py:147-153 the wrapper of the package's getters *)
Definition wrap_get (linked : bool) (v : value) : res value := match v with VObj false c a => if linked then convert c a else Ok v | _ => Ok v end.
(** models.py:187-206 [href_only] *)
Definition href_of (v : value) : res value :=
  match v with VObj l c a => if subclass c Link then match peek l c a (py "href") with Some h => Ok h | None => Err AttributeError end else Ok v | _ => Ok v end.
Definition href_only (v : value) : res value := match v with VList l => match map_ok href_of l with Ok ys => Ok (VList ys) | Err e => Err e end | _ => href_of v end.
(** the JSON getters of closed, endTime, …, duration *)
Definition json_value (k : jkind) (v : value) : value :=
  match k, v with JTime, VDatetime d => VStr (datetime_str d) | JDuration, VTimedelta d => VStr (timedelta_str d) | _, _ => v end.

(** everything outside; requests.get and decoding the response; the engine's from_json (data.__class__.__jsonld_engine__) *)
Variables St J : Type.
Variable fetch : St -> value -> St * res J.
Variable form : St -> bool -> cname -> J -> St * res value.
(** [data.__namespace__ == cls.__get_namespace__()] for the package's Link class and an instance of the given class *)
Variable link_ns : bool -> cname -> bool.
(** models.py:124-185 [Link.get], [Link.expand]; exceptions of the request and of from_json are caught *)
Definition expand (s : St) (v : value) : St * res value :=
  match v with
  | VObj l c a =>
      if link_ns l c
      then match peek l c a (py "href") with
           | None => (s, Err AttributeError)
           | Some h => if truthy h
                       then match fetch s h with
                            | (s1, Err _) => (s1, Ok v)
                            | (s1, Ok j) => match form s1 l c j with (s2, Ok o) => (s2, Ok (if truthy o then o else v)) | (s2, Err _) => (s2, Ok v) end
                            end
                       else (s, Ok v)
           end
      else (s, Ok v)
  | _ => (s, Ok v)
  end.
(** str of the namespace of a class *)
Variable ns_text : bool -> cname -> pystr.
(** getattr(obj, n), in the JSON context or not *)
Definition read (json linked : bool) (c : cname) (attrs : dict value) (n : pystr) (s : St) : St * res value :=
  if str_eqb n (py "__namespace__") then (s, Ok (if json then VNone else VStr (ns_text linked c)))
  else match prop_of linked c n with
       | None => (s, match peek linked c attrs n with Some v => Ok v | None => Err AttributeError end)
       | Some p =>
           match stored p attrs with
           | None => (s, Err AttributeError)
           | Some v =>
               let (s1, r) := if json then (s, (if pd_link p then href_only else @Ok value) (json_value (pd_json p) v)) else if pd_link p then expand s v else (s, Ok v) in
               (s1, match r with Ok w => wrap_get linked w | Err e => Err e end)
           end
       end.

(** ** jsonld.py:45-101 [data] (see JsonData.v), reading the properties as above. [fuel] is the recursion depth (RecursionError). [show]: str(v) *)
Variable show : value -> pystr.
Record vargs := mkVargs { v_include : sel; v_exclude : sel; v_rename : dict pystr; v_none : bool; v_reject : value -> bool }.
Definition nested : vargs := mkVargs (Names []) (Sub (py "acontext")) [] false (fun _ => false).
Definition is_none (v : value) : bool := match v with VNone => true | _ => false end.
Definition out_name (a : vargs) (n : pystr) : pystr := match d_get n (d_merge keymap (v_rename a)) with Some m => m | None => n end.
Definition wanted (a : vargs) (n : pystr) : bool := (negb (sel_truthy (v_include a)) || sel_mem n (v_include a)) && negb (sel_truthy (v_exclude a) && sel_mem n (v_exclude a)).
(** jsonld.py:85-95: up to three reads per property *)
Fixpoint collect (handle : value -> St -> St * res jval) (json : bool) (a : vargs) (linked : bool) (c : cname) (attrs : dict value) (names : list pystr) (s : St) (acc : dict jval) : St * res (dict jval) :=
  match names with
  | [] => (s, Ok acc)
  | n :: r =>
      match (if v_none a then (s, Ok true) else match read json linked c attrs n s with (s1, Ok v) => (s1, Ok (negb (is_none v))) | (s1, Err e) => (s1, Err e) end) with
      | (s1, Err e) => (s1, Err e)
      | (s1, Ok c1) =>
          if negb (c1 && wanted a n) then collect handle json a linked c attrs r s1 acc
          else match read json linked c attrs n s1 with
               | (s2, Err e) => (s2, Err e)
               | (s2, Ok v) =>
                   if v_reject a v then collect handle json a linked c attrs r s2 acc
                   else match read json linked c attrs n s2 with
                        | (s3, Err AttributeError) => match handle VNone s3 with (s4, Err e) => (s4, Err e) | (s4, Ok w) => collect handle json a linked c attrs r s4 (d_set (out_name a n) w acc) end
                        | (s3, Err e) => (s3, Err e)
                        | (s3, Ok v) => match handle v s3 with (s4, Err e) => (s4, Err e) | (s4, Ok w) => collect handle json a linked c attrs r s4 (d_set (out_name a n) w acc) end
                        end
               end
      end
  end.
Definition drop_nones (a : vargs) (d : dict jval) : dict jval := filter (fun p => v_none a || negb (is_jnone (snd p))) d.
Definition map_st {A B} (f : A -> St -> St * res B) := fix go (l : list A) (s : St) : St * res (list B) :=
  match l with [] => (s, Ok []) | x :: r => match f x s with (s1, Err e) => (s1, Err e) | (s1, Ok y) => match go r s1 with (s2, Err e) => (s2, Err e) | (s2, Ok ys) => (s2, Ok (y :: ys)) end end end.
Definition data_with (handle : value -> St -> St * res jval) (json : bool) (a : vargs) (linked : bool) (c : cname) (attrs : dict value) (s : St) : St * res (dict jval) :=
  match collect handle json a linked c attrs (props_order linked c) s [] with (s1, Ok d) => (s1, Ok (drop_nones a d)) | (s1, Err e) => (s1, Err e) end.
Fixpoint handle (fuel : nat) (v : value) (s : St) : St * res jval :=
  match fuel with
  | O => (s, Err RecursionError)
  | S f =>
      match v with
      | VObj l c a => match data_with (handle f) true nested l c a s with (s1, Ok d) => (s1, Ok (JDict d)) | (s1, Err e) => (s1, Err e) end
      | VStr x => (s, Ok (JStr x)) | VInt z => (s, Ok (JInt z)) | VFloat _ r => (s, Ok (JFloat r))
      | VList l | VTuple l | VSet l => match map_st (handle f) l s with (s1, Ok ys) => (s1, Ok (JList ys)) | (s1, Err e) => (s1, Err e) end
      | VDict d => match map_st (fun p s => match handle f (snd p) s with (s1, Ok w) => (s1, Ok (fst p, w)) | (s1, Err e) => (s1, Err e) end) d s with (s1, Ok ys) => (s1, Ok (JDict ys)) | (s1, Err e) => (s1, Err e) end
      | VNone => (s, Ok (JStr (py "None")))
      | VBool b => (s, Ok (JStr (py (if b then "True" else "False"))))
      | _ => (s, Ok (JStr (show v)))
      end
  end.
(** obj.data(include, exclude, rename=…, include_none, reject_values): [json] is context == JSON_DATA_CONTEXT, the default *)
Definition data (fuel : nat) (json : bool) (a : vargs) (linked : bool) (c : cname) (attrs : dict value) (s : St) : St * res (dict jval) := data_with (handle fuel) json a linked c attrs s.
End Vocab.
