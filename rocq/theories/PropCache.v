(** jsonld/base.py:318-330 [PropertyAwareObject.__get_properties__(refresh)] and histories of calls to it *)
From Coq Require Import String.
From Verif Require Import Base Dict PyClass Kamino.
Open Scope list_scope.

Section Cache.
Variables P V : Type.
Notation world := (world P V).
(** base.py:318-330: [hasattr] also finds the list of an ancestor. (Only this method binds [__properties__] on a class, to a tuple of names.) *)
Definition ask (refresh : bool) (w : world) (c : nat) : world * list pystr :=
  match (if refresh then None else lookup w c (py "__properties__")) with
  | Some (ANames l) => (w, l)
  | _ => get_properties P V w c
  end.
(** What may happen to the classes: a call for a class (base.py:302, json_input.py:120 without refresh; package.py:97, kamino.py:116,170 with), a new class (any class statement),
    a property linked to a class (package.py:111-112). *)
Inductive event :=
| Ask (refresh : bool) (c : nat)
| NewClass (name : pystr) (bases : list nat) (attrs : dict (attr P V))
| LinkProp (c : nat) (name : pystr) (p : P).
Definition happen (w : world) (e : event) : world :=
  match e with
  | Ask r c => fst (ask r w c)
  | NewClass name bs attrs => match new_class w name bs attrs with Ok (w', _) => w' | Err _ => w end
  | LinkProp c name p => set_attr w c name (AProp p)
  end.
Definition history (w : world) (l : list event) : world := fold_left happen l w.
End Cache.
