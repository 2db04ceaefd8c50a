(** jsonld/kamino.py [change_class] and the package's getters, with what they change: the object that is read is converted in place, and the
    namespaces of classes are replaced. Only plain reads (outside [data()]) are modelled here; sharing of objects is not (see Vocab.v). *)
From Coq Require Import String.
From Verif Require Import Base Dict Duration DateTime Url JsonData VocabTables Vocab.
Open Scope list_scope.

(** the classes of models.py among cls.mro(), in order; one class has two bases (models.py:438) *)
Definition class_mro (c : cname) : list cname :=
  match c with OrderedCollectionPage => [OrderedCollectionPage; OrderedCollection; CollectionPage; Collection; Object] | _ => ancestors c end.
Definition among (c : cname) (l : list cname) : bool := existsb (class_eqb c) l.
Definition ns_name (s : pystr) : pystr := as_ns ++ py "#" ++ s.

Section Mut.
Variable netloc_ok : pystr -> bool.
Variable nd : N -> option N.
Variable email : pystr -> res bool.
Variable props_order : bool -> cname -> list pystr.
Variables St J : Type.
Variable fetch : St -> value -> St * res J.
Variable form : St -> bool -> cname -> J -> St * res value.
(** str() of the property that is the [type] of the package's Object and Link *)
Variable prop_repr : cname -> pystr.
(** models.py:43-45, 100-102 [__get_namespace__], of a class of models.py or ([linked]) the package's; [ov]: the package's classes whose
    [__get_namespace__] has been replaced (base.py:187-190), each time by one that returns the namespace of the class in models.py *)
Definition namespace (ov : list cname) (linked : bool) (c : cname) : pystr :=
  if linked
  then match find (fun k => among k ov) (class_mro c) with
       | Some k => ns_name (name_of k)
       | None => ns_name (if class_eqb c Object || class_eqb c Link then prop_repr c else name_of c)
       end
  else ns_name (name_of c).
(** models.py:135 *)
Definition link_ns_of (ov : list cname) (l : bool) (c : cname) : bool := str_eqb (namespace ov l c) (namespace ov true Link).

(** kamino.py:103-125 [change_class] from line 117 on: what is set before an exception stays set *)
Fixpoint change_from (orig : dict value) (c : cname) (names : list pystr) (ov : list cname) (attrs : dict value) : list cname * dict value * option exn :=
  match names with
  | [] => (ov, attrs, None)
  | n :: r => if str_eqb n (py "__namespace__") then change_from orig c r (c :: ov) attrs
              else match assign netloc_ok nd email true c attrs n (match peek false c orig n with Some v => v | None => VNone end) with
                   | Ok a => change_from orig c r ov a
                   | Err AttributeError => change_from orig c r ov attrs
                   | Err e => (ov, attrs, Some e)
                   end
  end.
Definition change_class (ov : list cname) (c : cname) (attrs : dict value) : list cname * dict value * option exn := change_from attrs c (props_order true c) ov attrs.
(** models.py:182-185: what the getter that expands links returns, and whether that is the stored object itself *)
Definition expand_get (ov : list cname) (s : St) (v : value) : St * (value * bool) :=
  match v with
  | VObj l c a =>
      if link_ns_of ov l c
      then match peek l c a (py "href") with
           | None => (s, (v, true))
           | Some h => if truthy h
                       then match fetch s h with
                            | (s1, Err _) => (s1, (v, true))
                            | (s1, Ok j) => match form s1 l c j with (s2, Ok o) => (s2, if truthy o then (o, false) else (v, true)) | (s2, Err _) => (s2, (v, true)) end
                            end
                       else (s, (v, true))
           end
      else (s, (v, true))
  | _ => (s, (v, true))
  end.
(** models.py:145: [data.href] of a link without the attribute *)
Definition no_href (ov : list cname) (v : value) : bool :=
  match v with VObj l c a => link_ns_of ov l c && match peek l c a (py "href") with None => true | Some _ => false end | _ => false end.
(** obj.n for an instance of the package's class c: the replaced namespaces, the object's attributes and the outside world afterwards, and the value or exception *)
Definition get_attr (ov : list cname) (c : cname) (attrs : dict value) (n : pystr) (s : St) : (list cname * dict value * St) * res value :=
  if str_eqb n (py "__namespace__") then ((ov, attrs, s), Ok (VStr (namespace ov true c)))
  else match prop_of true c n with
       | None => ((ov, attrs, s), match peek true c attrs n with Some v => Ok v | None => Err AttributeError end)
       | Some p =>
           match stored p attrs with
           | None => ((ov, attrs, s), Err AttributeError)
           | Some v =>
               if pd_link p && no_href ov v then ((ov, attrs, s), Err AttributeError)
               else let (s1, wb) := if pd_link p then expand_get ov s v else (s, (v, true)) in
                    match wb with
                    | (VObj false k b, itself) =>
                        let '(ov', b', r) := change_class ov k b in
                        ((ov', if itself then d_set (pd_get p) (VObj true k b') attrs else attrs, s1), match r with None => Ok (VObj true k b') | Some e => Err e end)
                    | (w, _) => ((ov, attrs, s1), Ok w)
                    end
           end
       end.
End Mut.
