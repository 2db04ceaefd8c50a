(** jsonld/package.py [JsonLdPackage], with the parts of jsonld/base.py it uses *)
From Coq Require Import String.
From Verif Require Import Base Dict PyClass Kamino.
Open Scope list_scope.

Section Package.
Variables P V : Type.
Notation world := (world P V).
Notation attr := (attr P V).
Variable wrap_prop : P -> P.
Variable wrap_call : V -> V.
(** the package itself, as an attribute value; None as an attribute value *)
Variables package_ref none_ref : V.
(** str(v) for a class attribute that is not a string, found on the given class: the repr of a property contains the address of the object *)
Variable show : nat -> attr -> pystr.

(** the class of the MRO whose attribute [getattr(cls, name)] is *)
Fixpoint find_owner (w : world) (m : list nat) (name : pystr) : option (nat * attr) :=
  match m with [] => None | c :: m' => match d_get name (c_attrs (get_cls w c)) with Some v => Some (c, v) | None => find_owner w m' name end end.
(** cls.__get_namespace__(): base.py:196-200, activitystreams/models.py:42-45, activitystreams/properties.py:29-32.
    (Any other callable stored under that name is outside the model: TypeError.) *)
Definition get_namespace (w : world) (c : nat) : world * res (option pystr) :=
  match lookup w c (py "__get_namespace__") with
  | None => (w, Err AttributeError)
  | Some (ANs NsNone) => (w, Ok None)
  | Some (ANs (NsType prefix)) =>
      match find_owner w (mro w c) (py "type") with
      | None => (w, Err AttributeError)
      | Some (_, AStr s) => (w, Ok (Some (prefix ++ py "#" ++ s)))
      | Some (o, v) => (w, Ok (Some (prefix ++ py "#" ++ show o v)))
      end
  | Some (ANs (NsProp prefix)) =>
      match lookup w c (py "__get_property_name__") with
      | None => (w, Err AttributeError)
      | Some _ => match get_property_name P V w c with
                  | (w1, Err e) => (w1, Err e)
                  | (w1, Ok name) => (w1, Ok (Some (prefix ++ py "#dfn-" ++ name)))
                  end
      end
  | Some _ => (w, Err TypeError)
  end.
(** [[cls.__get_namespace__() for cls in cs]] *)
Fixpoint get_namespaces (w : world) (cs : list nat) : world * res (list (option pystr)) :=
  match cs with
  | [] => (w, Ok [])
  | c :: r => match get_namespace w c with
              | (w1, Err e) => (w1, Err e)
              | (w1, Ok n) => match get_namespaces w1 r with (w2, Err e) => (w2, Err e) | (w2, Ok l) => (w2, Ok (n :: l)) end
              end
  end.
(** base.py:273-292 [JsonProperty.__get_registration__()]: the property's functions, cached on the class; None if the class has no such attribute.
    (Simplified: an attribute that is not a property is taken to be truthy.) *)
Definition get_registration (w : world) (c : nat) : world * res (option P) :=
  match get_property_name P V w c with
  | (w1, Err e) => (w1, Err e)
  | (w1, Ok name) =>
      match lookup w1 c (py "__registration__") with
      | Some (AReg p) => (w1, Ok (Some p))
      | Some _ => (w1, Ok None)
      | None => match lookup w1 c name with
                | None => (set_attr w1 c (py "__registration__") (AOther none_ref), Ok None)
                | Some (AProp p) => (set_attr w1 c (py "__registration__") (AReg p), Ok (Some p))
                | Some _ => (w1, Err AttributeError)
                end
      end
  end.
(** package.py:104-117, 133-136 [link_property] and [update_property_link]: [property( *None )] raises TypeError *)
Definition link_property (w : world) (prop obj : nat) : world * res unit :=
  match lookup w prop (py "__get_property_name__") with
  | None => (w, Err AttributeError)
  | Some _ =>
    match get_property_name P V w prop with
    | (w1, Err e) => (w1, Err e)
    | (w1, Ok name) => match get_registration w1 prop with
                       | (w2, Err e) => (w2, Err e)
                       | (w2, Ok None) => (w2, Err TypeError)
                       | (w2, Ok (Some p)) => (set_attr w2 obj name (AProp p), Ok tt)
                       end
    end
  end.
(** package.py:138-140 [remove_property_link]: delattr on the class itself *)
Definition del_attr (w : world) (c : nat) (name : pystr) : world :=
  let k := get_cls w c in PyClass.set_nth c (mkCls (c_name k) (c_bases k) (c_mro k) (d_del name (c_attrs k))) w.
Definition remove_property_link (w : world) (name : pystr) (obj : nat) : world * res unit :=
  match d_get name (c_attrs (get_cls w obj)) with None => (w, Err AttributeError) | Some _ => (del_attr w obj name, Ok tt) end.

(** a dict from namespaces (or None) to classes *)
Definition ns_eqb (a b : option pystr) : bool := match a, b with Some x, Some y => str_eqb x y | None, None => true | _, _ => false end.
Definition nsdict := list (option pystr * nat).
Fixpoint ns_get (n : option pystr) (d : nsdict) : option nat := match d with [] => None | (k, c) :: d' => if ns_eqb n k then Some c else ns_get n d' end.
Fixpoint ns_set (n : option pystr) (c : nat) (d : nsdict) : nsdict :=
  match d with [] => [(n, c)] | (k, x) :: d' => if ns_eqb n k then (k, c) :: d' else (k, x) :: ns_set n c d' end.
Definition ns_of (l : list (option pystr * nat)) : nsdict := fold_left (fun d x => ns_set (fst x) (snd x) d) l [].

Record package := mkPackage { p_namespace : pystr; p_object_ref : ref; p_property_ref : ref; p_ref : nsdict; p_mapping : option (list (pystr * list pystr)) }.
Definition p_objects (p : package) : list nat := map snd (p_object_ref p).
Definition p_properties (p : package) : list nat := map snd (p_property_ref p).
(** package.py:142-147 [__getitem__]: a string, or a sequence whose elements are strings ([Some]) or not ([None]) *)
Definition pkg_get (p : package) (name : pystr) : option nat := ns_get (Some name) (p_ref p).
Definition pkg_get_all (p : package) (keys : list (option pystr)) : res (list (option nat)) :=
  if existsb (fun k => match k with None => true | _ => false end) keys then Err ValueError
  else Ok (map (fun k => match k with Some s => pkg_get p s | None => None end) keys).
(** package.py:119-131 [link_properties] *)
Fixpoint link_names (w : world) (d : nsdict) (names : list pystr) (obj : nat) : world * res unit :=
  match names with
  | [] => (w, Ok tt)
  | n :: r => match ns_get (Some n) d with
              | None => (w, Err ValueError)
              | Some q => match link_property w q obj with (w1, Err e) => (w1, Err e) | (w1, Ok _) => link_names w1 d r obj end
              end
  end.
Definition link_properties (w : world) (d : nsdict) (names : list pystr) (obj_name : pystr) : world * res unit :=
  match ns_get (Some obj_name) d with None => (w, Err ValueError) | Some obj => link_names w d names obj end.
(** package.py:99-102 *)
Fixpoint link_mapping (w : world) (d : nsdict) (m : list (pystr * list pystr)) : world * res unit :=
  match m with
  | [] => (w, Ok tt)
  | (o, names) :: r => match link_properties w d names o with (w1, Err e) => (w1, Err e) | (w1, Ok _) => link_mapping w1 d r end
  end.
Fixpoint refresh_all (w : world) (objs : list nat) : world * res unit :=
  match objs with
  | [] => (w, Ok tt)
  | c :: r => if has P V w c "__get_properties__" then refresh_all (fst (get_properties P V w c)) r else (w, Err AttributeError)
  end.
Definition perform_mapping (w : world) (d : nsdict) (objs : list nat) (m : option (list (pystr * list pystr))) : world * res unit :=
  match m with
  | None => (w, Err AttributeError)                      (* None.items() *)
  | Some m => match link_mapping w d m with (w1, Err e) => (w1, Err e) | (w1, Ok _) => refresh_all w1 objs end
  end.
(** package.py:24-43 [__init__]. [ns]: None for an argument that is not a string. [objects], [properties]: sequences of classes. *)
Definition package_init (w : world) (ns : option pystr) (objects properties : list nat) (mapping : option (list (pystr * list pystr))) : world * res package :=
  match ns with
  | None => (w, Err TypeError)
  | Some s =>
    match clone_classes P V wrap_prop wrap_call package_ref w objects with
    | (w1, Err e) => (w1, Err e)
    | (w1, Ok oref) =>
      match get_namespaces w1 (map snd oref) with
      | (w2, Err e) => (w2, Err e)
      | (w2, Ok _) =>
        match clone_classes P V wrap_prop wrap_call package_ref w2 properties with
        | (w3, Err e) => (w3, Err e)
        | (w3, Ok pref) =>
          match get_namespaces w3 (map snd pref) with
          | (w4, Err e) => (w4, Err e)
          | (w4, Ok _) =>
            match get_namespaces w4 (map snd oref ++ map snd pref) with
            | (w5, Err e) => (w5, Err e)
            | (w5, Ok nss) =>
              let d := ns_of (combine nss (map snd oref ++ map snd pref)) in
              match perform_mapping w5 d (map snd oref) mapping with
              | (w6, Err e) => (w6, Err e)
              | (w6, Ok _) => (w6, Ok (mkPackage s oref pref d mapping))
              end
            end
          end
        end
      end
    end
  end.

(** package.py:45-92: the attributes [namespace], [objects] and [properties] as assignments see them *)
Record settable := mkSettable { s_namespace : option pystr; s_objects : list nat; s_properties : list nat }.
Inductive assignment := SetNamespace (v : option pystr) | SetObjects (l : list nat) | SetProperties (l : list nat).
Definition assign (w : world) (s : settable) (a : assignment) : world * res settable :=
  match a with
  | SetNamespace v =>
      match s_namespace s with
      | Some (_ :: _) => (w, Err AttributeError)
      | _ => match v with None => (w, Err TypeError) | Some n => (w, Ok (mkSettable (Some n) (s_objects s) (s_properties s))) end
      end
  | SetObjects l =>
      match s_objects s with
      | _ :: _ => (w, Err AttributeError)
      | [] => match get_namespaces w l with (w1, Err e) => (w1, Err e) | (w1, Ok _) => (w1, Ok (mkSettable (s_namespace s) l (s_properties s))) end
      end
  | SetProperties l =>
      match s_properties s with
      | _ :: _ => (w, Err AttributeError)
      | [] => match get_namespaces w l with (w1, Err e) => (w1, Err e) | (w1, Ok _) => (w1, Ok (mkSettable (s_namespace s) (s_objects s) l)) end
      end
  end.
(** a sequence of assignments, each of whose exceptions is caught *)
Fixpoint assign_all (w : world) (s : settable) (l : list assignment) : world * settable * list (option exn) :=
  match l with
  | [] => (w, s, [])
  | a :: r => match assign w s a with
              | (w1, Err e) => let '(w2, s2, es) := assign_all w1 s r in (w2, s2, Some e :: es)
              | (w1, Ok s1) => let '(w2, s2, es) := assign_all w1 s1 r in (w2, s2, None :: es)
              end
  end.
Definition settable_of (p : package) : settable := mkSettable (Some (p_namespace p)) (p_objects p) (p_properties p).

(** package.py:153-175 [__add__] and [__sub__]; [None]: the operand is not a package *)
Definition keep_others (cs : list nat) (nss removed : list (option pystr)) : list nat :=
  map snd (filter (fun x => negb (existsb (ns_eqb (fst x)) removed)) (combine nss cs)).
Definition pkg_combine (w : world) (self : package) (other_objs self_objs other_props self_props : list nat) (combine_with : list nat -> list nat -> list nat) : world * res package :=
  match get_namespaces w other_objs with
  | (w1, Err e) => (w1, Err e)
  | (w1, Ok removed) =>
    match get_namespaces w1 self_objs with
    | (w2, Err e) => (w2, Err e)
    | (w2, Ok nss) =>
      match get_namespaces w2 other_props with
      | (w3, Err e) => (w3, Err e)
      | (w3, Ok removed_p) =>
        match get_namespaces w3 self_props with
        | (w4, Err e) => (w4, Err e)
        | (w4, Ok nss_p) =>
          package_init w4 (Some (p_namespace self)) (combine_with (keep_others self_objs nss removed) other_objs) (combine_with (keep_others self_props nss_p removed_p) other_props) None
        end
      end
    end
  end.
Definition pkg_add (w : world) (self : package) (other : option package) : world * res package :=
  match other with
  | None => (w, Err TypeError)
  | Some o => pkg_combine w self (p_objects o) (p_objects self) (p_properties o) (p_properties self) (fun kept new => kept ++ new)
  end.
(** package.py:171-172: the remaining properties are chosen among those of [other] *)
Definition pkg_sub (w : world) (self : package) (other : option package) : world * res package :=
  match other with
  | None => (w, Err TypeError)
  | Some o => pkg_combine w self (p_objects o) (p_objects self) (p_properties o) (p_properties o) (fun kept _ => kept)
  end.
End Package.
Arguments mkPackage _ _ _ _ _ : assert.
