(** The properties of a class and what may happen to classes, apart from the code *)
From Coq Require Import String.
From Verif Require Import Base Dict PyClass Kamino PropCache.
Open Scope list_scope.
Section Spec.
Variables P V : Type.
Notation world := (world P V).
(** the value of an attribute in a class's own [__dict__] *)
Definition own_attr (w : world) (c : nat) (n : pystr) : option (attr P V) := d_get n (c_attrs (get_cls w c)).
(** [n] is a property defined by the class or inherited: some class of its MRO defines a property of that name *)
Definition is_property (w : world) (c : nat) (n : pystr) : Prop := exists a p, In a (mro w c) /\ own_attr w a n = Some (AProp p).
(** the names of the properties of a class, each once *)
Definition exactly (w : world) (c : nat) (l : list pystr) : Prop := NoDup l /\ forall n, In n l <-> is_property w c n.
(** nobody else touches [__properties__] *)
Definition allowed (w : world) (e : event P V) : Prop :=
  match e with
  | Ask _ _ r c => (c < List.length w)%nat
  | NewClass _ _ name bs attrs => bs <> [] /\ (forall b, In b bs -> (b < List.length w)%nat) /\ NoDup (d_keys attrs) /\ ~ In (py "__properties__") (d_keys attrs)
  | LinkProp _ _ c n p => (c < List.length w)%nat /\ n <> py "__properties__"
  end.
Fixpoint all_allowed (w : world) (l : list (event P V)) : Prop :=
  match l with [] => True | e :: l' => allowed w e /\ all_allowed (happen P V w e) l' end.
End Spec.
