(** Specification of C87: when two objects are the same, and which objects survive being written as JSON and read back. *)
From Coq Require Import String.
From Verif Require Import Base Dict Package Intake Duration DateTime DateTimeMore Url UrlFacts JsonData VocabTables Vocab VocabStore VocabConstruct PropsVocab.
Open Scope list_scope.

(** same data; same class and, under every property of the class, the same value *)
Inductive same : value -> value -> Prop :=
| same_eq v : same v v
| same_list l m : same_all l m -> same (VList l) (VList m)
| same_obj c a b (f g : pystr -> value) :
    (forall n, In n (property_set true c) -> n <> py "__namespace__" -> peek true c a n = Some (f n) /\ peek true c b n = Some (g n) /\ same (f n) (g n)) ->
    same (VObj true c a) (VObj true c b)
with same_all : list value -> list value -> Prop :=
| same_nil : same_all [] []
| same_cons x y l m : same x y -> same_all l m -> same_all (x :: l) (y :: m).

Section Portable.
Variable netloc_ok : pystr -> bool.
Variable nd : N -> option N.
Variable email : pystr -> res bool.
Variable num : pystr -> value.
(** the JSON-LD context of the document *)
Variable ctx : pystr.

(** a property's validator accepts the value as it is *)
Definition accepted (p : pdef) (v : value) : Prop := evaluate netloc_ok nd (pd_types p ++ [TyNone]) (pd_functional p) (pd_checks p) v = Ok v.
(** a Link with an href (URL, account or e-mail address) and nothing else *)
Definition plain_link (a : dict value) : Prop := exists s, (http_url netloc_ok false s \/ account netloc_ok email s) /\
  forall n, In n (property_set true Link) -> n <> py "__namespace__" ->
    peek true Link a n = Some (if str_eqb n (py "href") then VStr s else if str_eqb n (py "acontext") then VStr as_ns else VNone).
(** a text that Link.from_str leaves alone *)
Definition no_link (s : pystr) : Prop := create_link netloc_ok nd email true (VStr s) = Ok (VStr s).

Inductive portable : value -> Prop :=
| po_str s : portable (VStr s)
| po_int z : portable (VInt z)
| po_float n r : num r = VFloat n r -> portable (VFloat n r)
| po_list l : all_portable l -> portable (VList l)
(** an object of a class other than Object, Link and Mention, in the document's context, with nothing in the properties that its constructor ignores *)
| po_obj c a (f : pystr -> value) : c <> Object -> subclass c Link = false ->
    (forall n, In n (property_set true c) -> n <> py "__namespace__" -> peek true c a n = Some (f n)) ->
    f (py "acontext") = VStr ctx -> f (py "type") = VStr (name_of c) ->
    (forall n, In n (ignored c) -> In n (property_set true c) -> n <> py "__namespace__" -> n <> py "type" -> f n = VNone) ->
    (forall n, In n [py "totalItems"; py "startIndex"] -> In n (property_set true c) -> f n <> VNone) ->
    (forall n p, In n (property_set true c) -> n <> py "__namespace__" -> n <> py "acontext" -> n <> py "type" -> row n = Some p -> portable_at p (f n)) ->
    portable (VObj true c a)
with all_portable : list value -> Prop :=
| po_nil : all_portable []
| po_cons x l : portable x -> all_portable l -> all_portable (x :: l)
(** a value of the property [p] *)
with portable_at : pdef -> value -> Prop :=
| pa_none p : portable_at p VNone
| pa_time p d : pd_parse p = true -> valid_datetime d -> (1000 <= dt_year d)%Z -> dt_micro d = 0%Z -> dt_offset d = None -> portable_at p (VDatetime d)
| pa_data p v : pd_link p = false -> pd_parse p = false -> portable v -> accepted p v -> portable_at p v
| pa_ref p v : pd_link p = true -> portable_ref v -> accepted p v -> portable_at p v
| pa_refs p l : pd_link p = true -> portable_refs l -> accepted p (VList l) -> portable_at p (VList l)
(** a value of a link-valued property, or an element of the list that is one *)
with portable_ref : value -> Prop :=
| pr_link a : plain_link a -> portable_ref (VObj true Link a)
| pr_text s : no_link s -> portable_ref (VStr s)
| pr_obj c a : portable (VObj true c a) -> portable_ref (VObj true c a)
with portable_refs : list value -> Prop :=
| ps_nil : portable_refs []
| ps_cons x l : portable_ref x -> portable_refs l -> portable_refs (x :: l).
End Portable.

(** pyld and the registry understand the documents of the package: with the context [ctx] and the name of a class as type, the expanded type is one under which the class is registered *)
Definition understands (St : Type) (expand : St -> pv -> St * res (list (option (list pystr)))) (registry : nsdict) (number : cname -> nat) (ctx : pystr) : Prop :=
  forall s d c, d_get (py "@context") d = Some (PStr ctx) -> d_get (py "type") d = Some (PStr (name_of c)) -> c <> Object -> c <> Link ->
  exists s' t ts rest, expand s (PDict d) = (s', Ok (Some (t :: ts) :: rest)) /\ ns_get (Some t) registry = Some (number c).
