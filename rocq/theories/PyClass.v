(** Python classes as the cloning code sees them: bases, method resolution order, own attributes. *)
From Coq Require Import String.
From Verif Require Import Base Dict.
Open Scope list_scope.

(** ** C3 linearisation (CPython Objects/typeobject.c, mro_implementation and pmerge) *)
Definition mem (x : nat) (l : list nat) : bool := existsb (Nat.eqb x) l.
Definition in_tail (x : nat) (l : list nat) : bool := match l with [] => false | _ :: t => mem x t end.
(** the head of the first list that is in no tail *)
Definition good (all : list (list nat)) (x : nat) : bool := forallb (fun l => negb (in_tail x l)) all.
Fixpoint first_good (all todo : list (list nat)) : option nat :=
  match todo with
  | [] => None
  | [] :: r => first_good all r
  | (h :: _) :: r => if good all h then Some h else first_good all r
  end.
Definition drop_head (x : nat) (l : list nat) : list nat := match l with h :: t => if Nat.eqb h x then t else l | [] => [] end.
Definition is_nil {A} (l : list A) : bool := match l with [] => true | _ => false end.
(** None: "Cannot create a consistent method resolution order". Every round removes an element, so [total] rounds are enough. *)
Fixpoint merge (fuel : nat) (ls : list (list nat)) : option (list nat) :=
  if forallb is_nil ls then Some []
  else match fuel with
       | O => None
       | S fuel' => match first_good ls ls with
                    | None => None
                    | Some x => match merge fuel' (map (drop_head x) ls) with Some r => Some (x :: r) | None => None end
                    end
       end.
Definition total (ls : list (list nat)) : nat := List.length (List.concat ls).
Definition c3 (ls : list (list nat)) : option (list nat) := merge (total ls) ls.

(** ** classes *)
Section Classes.
Variable P : Type.     (* what a property consists of: its getter, setter and deleter *)
Variable V : Type.     (* any other value *)
(** how a class computes its namespace: [__get_namespace__] is a classmethod *)
Inductive nskind :=
| NsNone                       (* base.py:196-200: None *)
| NsType (prefix : pystr)      (* activitystreams/models.py:42-45: f'{prefix}#{cls.type}' *)
| NsProp (prefix : pystr).     (* activitystreams/properties.py:29-32: f'{prefix}#dfn-{cls.__get_property_name__()}' *)
(** a value in a class's [__dict__] *)
Inductive attr :=
| AProp (p : P)                (* a property *)
| ACall (v : V)                (* a callable, e.g. a function *)
| AStr (s : pystr)
| ANames (l : list pystr)      (* a tuple of strings: [__properties__] *)
| AReg (p : P)                 (* a property's functions as a tuple: [__registration__] *)
| ANs (k : nskind)
| AOther (v : V).
Record cls := mkCls { c_name : pystr; c_bases : list nat; c_mro : list nat; c_attrs : dict attr }.
(** all classes, numbered in the order of their creation *)
Definition world := list cls.
Definition get_cls (w : world) (c : nat) : cls := nth c w (mkCls [] [] [] []).
(** cls.__bases__ *)
Definition bases (w : world) (c : nat) : list nat := c_bases (get_cls w c).
(** cls.mro() *)
Definition mro (w : world) (c : nat) : list nat := c_mro (get_cls w c).
(** [c in cls.mro()] *)
Definition in_mro (w : world) (cl c : nat) : bool := mem c (mro w cl).
Fixpoint set_nth {A} (n : nat) (x : A) (l : list A) : list A :=
  match l, n with [], _ => [] | _ :: l', O => x :: l' | y :: l', S n' => y :: set_nth n' x l' end.
(** setattr(cls, name, v) *)
Definition set_attr (w : world) (c : nat) (name : pystr) (v : attr) : world :=
  let k := get_cls w c in set_nth c (mkCls (c_name k) (c_bases k) (c_mro k) (d_set name v (c_attrs k))) w.
(** getattr(cls, name): the first class of the MRO that has it *)
Fixpoint find_attr (w : world) (m : list nat) (name : pystr) : option attr :=
  match m with [] => None | c :: m' => match d_get name (c_attrs (get_cls w c)) with Some v => Some v | None => find_attr w m' name end end.
Definition lookup (w : world) (c : nat) (name : pystr) : option attr := find_attr w (mro w c) name.
Fixpoint has_dup (l : list nat) : bool := match l with [] => false | x :: l' => mem x l' || has_dup l' end.
(** type(name, bases, attrs): TypeError if a base is repeated or the bases' orders conflict *)
Definition new_class (w : world) (name : pystr) (bs : list nat) (attrs : dict attr) : res (world * nat) :=
  if has_dup bs then Err TypeError
  else match c3 (map (mro w) bs ++ [bs]) with
       | None => Err TypeError
       | Some m => Ok (w ++ [mkCls name bs (List.length w :: m) attrs], List.length w)
       end.
(** the class [object] *)
Definition object_world (attrs : dict attr) : world := [mkCls (py "object") [] [0%nat] attrs].
End Classes.
Arguments AProp {P V}. Arguments ACall {P V}. Arguments AStr {P V}. Arguments ANames {P V}. Arguments AReg {P V}. Arguments ANs {P V}. Arguments AOther {P V}.
Arguments mkCls {P V}. Arguments c_name {P V}. Arguments c_bases {P V}. Arguments bases {P V}. Arguments c_mro {P V}. Arguments c_attrs {P V}. Arguments get_cls {P V}. Arguments mro {P V}. Arguments in_mro {P V}.
Arguments set_attr {P V}. Arguments find_attr {P V}. Arguments lookup {P V}. Arguments new_class {P V}. Arguments object_world {P V}.
