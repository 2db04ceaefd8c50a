(** jsonld/engine/json_input.py [PropertyJsonIntake] and jsonld_engine.py [JsonLdEngine.__getitem__] *)
From Coq Require Import String.
From Verif Require Import Base Dict Package.
Open Scope list_scope.

(** what can occur in the data. Simplification: the keys of dicts are strings; the data is a finite tree. *)
Inductive pv : Type :=
| PNone | PBool (b : bool) | PNum (repr : pystr) | PStr (s : pystr)
| PDict (d : list (pystr * pv))
| PIter (l : list pv)          (* any other iterable (list, tuple, set, …): what iterating it yields *)
| POther (n : N).              (* anything else *)
(** bool(v); a number by its text: 0 and 0.0 are false *)
Definition truthy (v : pv) : bool :=
  match v with
  | PNone => false | PBool b => b | PNum r => negb (mem_str r [py "0"; py "0.0"; py "-0.0"]) | PStr s => negb (str_eqb s []) | PDict d => match d with [] => false | _ => true end
  | PIter l => match l with [] => false | _ => true end | POther _ => true
  end.
(** utils.py:36 *)
Definition default_context : pv := PStr (py "http://www.w3.org/ns/activitystreams#").

Section Intake.
(** [St]: everything outside (network, document cache, objects made so far). [Obj]: the objects that constructors return. *)
Variables St Obj : Type.
Inductive out : Type :=
| ORaw (v : pv)                (* the value itself *)
| OList (l : list out) | ODict (d : list (pystr * out)) | OObj (o : Obj).
(** pyld's [expand]: of each element of the resulting list only ["@type"] is used (None: absent; otherwise a list of strings) *)
Variable expand : St -> pv -> St * res (list (option (list pystr))).
(** calling the class with keyword arguments *)
Variable construct : St -> nat -> list (pystr * out) -> St * res Obj.
(** cls.__get_properties__() (None: the class has no such method) *)
Variable properties : nat -> option (list pystr).
(** the class registry *)
Variable registry : nsdict.

(** json_input.py:39-67 [_get_object_class]: the ValueError is constructed but not raised *)
Definition get_object_class (s : St) (data : pv) : St * res (option nat) :=
  match expand s data with
  | (s1, Err e) => (s1, Err e)
  | (s1, Ok l) =>
      match (match l with [] | None :: _ => Ok [] | Some [] :: _ => Err IndexError | Some (t :: _) :: _ => Ok t end) with
      | Err e => (s1, Err e)
      | Ok t => (s1, Ok (ns_get (match ns_get (Some t) registry with Some _ => Some t | None => Some (py "default") end) registry))
      end
  end.
(** json_input.py:86 [len(type) < 1 or type[0].get('@type', None) is None] *)
Definition untyped (l : list (option (list pystr))) : bool := match l with [] | None :: _ => true | _ => false end.
(** json_input.py:115-118: the class's properties in order; [sub k] unpacks [data[k]] (None: no such key) *)
Fixpoint fill (sub : pystr -> option (pv -> St -> St * res out)) (context : pv) (names : list pystr) (s : St) (acc : dict out) : St * res (dict out) :=
  match names with
  | [] => (s, Ok acc)
  | k :: r =>
      match (match sub k with None => (s, Ok (ORaw PNone)) | Some f => f context s end) with
      | (s1, Err e) => (s1, Err e)
      | (s1, Ok o) => fill sub context r s1 (d_set k o acc)
      end
  end.
(** json_input.py:108-120 [from_json] after the conversion to a dict. (Simplified: a property called "@context" would read the context; such a name is no identifier.) *)
Definition from_dict (sub : pystr -> option (pv -> St -> St * res out)) (data : dict pv) (s : St) : St * res Obj :=
  let context := match d_get (py "@context") data with Some c => c | None => default_context end in
  let data' := if match d_get (py "@context") data with Some c => truthy c | None => false end then data else d_set (py "@context") default_context data in
  match get_object_class s (PDict data') with
  | (s1, Err e) => (s1, Err e)
  | (s1, Ok None) => (s1, Err AttributeError)
  | (s1, Ok (Some c)) =>
      match properties c with
      | None => (s1, Err AttributeError)
      | Some names => match fill sub context names s1 [] with
                      | (s2, Err e) => (s2, Err e)
                      | (s2, Ok args) => construct s2 c (d_set (py "acontext") (ORaw context) args)
                      end
      end
  end.
(** json_input.py:69-99 [_unpack_objects] *)
Definition unpack_items (f : pv -> St -> St * res out) := fix go (l : list pv) (s : St) : St * res (list out) :=
  match l with [] => (s, Ok []) | x :: r => match f x s with (s1, Err e) => (s1, Err e) | (s1, Ok o) => match go r s1 with (s2, Err e) => (s2, Err e) | (s2, Ok os) => (s2, Ok (o :: os)) end end end.
Definition unpack_entries (f : pv -> St -> St * res out) := fix go (l : list (pystr * pv)) (s : St) : St * res (list (pystr * out)) :=
  match l with [] => (s, Ok []) | (k, x) :: r => match f x s with (s1, Err e) => (s1, Err e) | (s1, Ok o) => match go r s1 with (s2, Err e) => (s2, Err e) | (s2, Ok os) => (s2, Ok ((k, o) :: os)) end end end.
(** json_input.py:82 [{'@context': context, **data}] *)
Definition with_context (context : pv) (d : dict pv) : dict pv := d_merge [(py "@context", context)] d.
Fixpoint unpack (v : pv) (context : pv) (s : St) {struct v} : St * res out :=
  match v with
  | PNone | PBool _ | PNum _ | PStr _ => (s, Ok (ORaw v))
  | PDict d =>
      let cv := with_context context d in
      match expand s (PDict cv) with
      | (s1, Err e) => (s1, Err e)
      | (s1, Ok l) =>
          if untyped l
          then match unpack_entries (fun x => unpack x context) d s1 with (s2, Err e) => (s2, Err e) | (s2, Ok o) => (s2, Ok (ODict o)) end
          else match get_object_class s1 (PDict cv) with
               | (s2, Err e) => (s2, Err e)
               | (s2, Ok None) => (s2, Ok (ORaw PNone))
               | (s2, Ok (Some _)) =>
                   let subs := map (fun p => (fst p, unpack (snd p))) d in
                   match from_dict (fun k => d_get k subs) cv s2 with (s3, Err e) => (s3, Err e) | (s3, Ok o) => (s3, Ok (OObj o)) end
               end
      end
  | PIter l => match unpack_items (fun x => unpack x context) l s with (s2, Err e) => (s2, Err e) | (s2, Ok os) => (s2, Ok (OList os)) end
  | POther _ => (s, Ok (ORaw PNone))
  end.
(** json_input.py:101-120 [from_json] of a value that is not a string: only a dict has both [copy] and [get] *)
Definition from_value (v : pv) (s : St) : St * res Obj :=
  match v with PDict d => from_dict (fun k => match d_get k d with Some x => Some (unpack x) | None => None end) d s | _ => (s, Err AttributeError) end.
(** json.loads: the value, or JSONDecodeError (a ValueError) *)
Variable loads : pystr -> res pv.
Definition from_text (t : pystr) (s : St) : St * res Obj := match loads t with Err e => (s, Err e) | Ok v => from_value v s end.
(** jsonld_engine.py:73-89 [__getitem__]: a string, a list or tuple of strings ([None]: an element that is no string), anything else *)
Inductive ekey := KStr (t : pystr) | KSeq (l : list (option pystr)) | KOther.
Inductive eres := EOne (o : Obj) | EMany (l : list Obj).
Fixpoint from_texts (l : list pystr) (s : St) : St * res (list Obj) :=
  match l with [] => (s, Ok []) | t :: r => match from_text t s with (s1, Err e) => (s1, Err e) | (s1, Ok o) => match from_texts r s1 with (s2, Err e) => (s2, Err e) | (s2, Ok os) => (s2, Ok (o :: os)) end end end.
Definition engine_get (k : ekey) (s : St) : St * res eres :=
  match k with
  | KStr t => match from_text t s with (s1, Err e) => (s1, Err e) | (s1, Ok o) => (s1, Ok (EOne o)) end
  | KSeq l => if existsb (fun x => match x with None => true | Some _ => false end) l then (s, Err TypeError)
              else match from_texts (flat_map (fun x => match x with Some t => [t] | None => [] end) l) s with (s1, Err e) => (s1, Err e) | (s1, Ok os) => (s1, Ok (EMany os)) end
  | KOther => (s, Err TypeError)
  end.
End Intake.
Arguments ORaw {Obj}. Arguments OList {Obj}. Arguments ODict {Obj}. Arguments OObj {Obj}.
