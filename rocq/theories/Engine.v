(** jsonld/engine/jsonld_engine.py [JsonLdEngine]: construction, registry, combination *)
From Coq Require Import String.
From Verif Require Import Base Dict PyClass Kamino Package.
Open Scope list_scope.

Section Engine.
Variables P V : Type.
Notation world := (world P V).
Notation attr := (attr P V).
Variable show : nat -> attr -> pystr.
(** the engine itself, as an attribute value *)
Variable engine_ref : V.

(** what a caller can pass as [packages]: a package, a tuple or list, anything else that has no attribute [objects] *)
Inductive earg := EPackage (p : package) | ETuple (l : list earg) | EOther.
Record engine := mkEngine { e_packages : list earg; e_package : package; e_registry : nsdict; e_attrs : list (pystr * nat) }.

(** jsonld_engine.py:57-69 [register_class] *)
Definition register_class (w : world) (r : nsdict) (name : option pystr) (c : nat) : world * nsdict * res unit :=
  match ns_get name r with
  | Some _ => (w, r, Err ValueError)
  | None => (set_attr w c (py "__jsonld_engine__") (AOther engine_ref), ns_set name c r, Ok tt)
  end.
(** jsonld_engine.py:41-45: the first class of every namespace; the namespace is computed once for the test and again for the registration *)
Fixpoint register_all (w : world) (r : nsdict) (cs : list nat) : world * nsdict * res unit :=
  match cs with
  | [] => (w, r, Ok tt)
  | c :: cs' =>
      match get_namespace P V show w c with
      | (w1, Err e) => (w1, r, Err e)
      | (w1, Ok n) =>
        match ns_get n r with
        | Some _ => register_all w1 r cs'
        | None => match get_namespace P V show w1 c with
                  | (w2, Err e) => (w2, r, Err e)
                  | (w2, Ok n') => match register_class w2 r n' c with
                                   | (w3, r3, Err e) => (w3, r3, Err e)
                                   | (w3, r3, Ok _) => register_all w3 r3 cs'
                                   end
                  end
        end
      end
  end.
(** jsonld_engine.py:47-54: attributes named after the classes; the names of the engine's read-only properties cannot be assigned.
    (Simplified: a class named like an attribute that the engine uses itself would replace it.) *)
Definition read_only (n : pystr) : bool := mem_str n [py "packages"; py "class_registry"; py "property_registry"].
Fixpoint set_class_attrs (w : world) (r : nsdict) (attrs : list (pystr * nat)) : res (list (pystr * nat)) :=
  match r with
  | [] => Ok attrs
  | (_, c) :: r' => if read_only (c_name (get_cls w c)) then Err AttributeError else set_class_attrs w r' (d_set (c_name (get_cls w c)) c attrs)
  end.
(** jsonld_engine.py:16-34: [packages is not Iterable] compares with the class Iterable, so every argument becomes the only element of a tuple *)
Definition engine_init (w : world) (packages : earg) : world * res engine :=
  let ps := [packages] in
  match packages with
  | ETuple _ | EOther => (w, Err AttributeError)
  | EPackage p =>
      match register_all w [] (p_objects p) with
      | (w1, _, Err e) => (w1, Err e)
      | (w1, r, Ok _) => match set_class_attrs w1 r [] with Err e => (w1, Err e) | Ok attrs => (w1, Ok (mkEngine ps p r attrs)) end
      end
  end.
(** jsonld_engine.py:91-111 [__add__] and [__sub__]: a tuple and a package cannot be added, and nothing can be subtracted from a tuple *)
Inductive operand := OPackage (p : package) | OEngine (e : engine) | OOther.
Definition engine_add (w : world) (self : engine) (other : operand) : world * res engine :=
  match other with
  | OPackage _ => (w, Err TypeError)
  | OEngine o => engine_init w (ETuple (e_packages self ++ e_packages o))
  | OOther => (w, Err TypeError)
  end.
Definition engine_sub (w : world) (self : engine) (other : operand) : world * res engine := (w, Err TypeError).
End Engine.
