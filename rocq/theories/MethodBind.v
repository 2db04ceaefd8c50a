(** What calling a method of a cloned class does (jsonld/kamino.py:127-140): [wrap_callables] replaces every callable in the class's [__dict__] by a plain function, and a plain function binds
    the instance it is looked up on. *)
From Coq Require Import String.
From Verif Require Import Base Dict PyClass Kamino.
Open Scope list_scope.
Set Implicit Arguments.

Section Methods.
(** values, and the state functions may change *)
Variables A S : Type.
(** the code of a function: with these arguments, in this state *)
Variable code : nat -> list A -> S -> S * res A.
(** kamino.py:131-134: an instance of a class of the package's originals becomes one of the clone, in place; any other value passes (C90) *)
Variable convert : A -> S -> S * res A.
(** the class, as a value *)
Variable class_of : nat -> A.
(** A value in a class's [__dict__] that is no property. [Fun f]: a function; [Static f]: a [staticmethod] (callable from Python 3.10 on, which the code needs for its [dict | ...] annotations);
    [Callee f]: any other callable, e.g. a nested class or an object with [__call__]; [Wrapped m]: the function [wrap_return] made from [m];
    [ClassM f]: a [classmethod], which is not itself callable; [Datum]: not callable either. *)
Inductive member := Fun (f : nat) | Static (f : nat) | Callee (f : nat) | Wrapped (m : member) | ClassM (f : nat) | Datum.
Definition callable (m : member) : bool := match m with ClassM _ | Datum => false | _ => true end.
Definition then_convert (x : S * res A) : S * res A := match x with (s, Ok v) => convert v s | (s, Err e) => (s, Err e) end.
(** calling the value itself; kamino.py:130-134 [wrap_return] *)
Fixpoint direct (m : member) (args : list A) (s : S) : S * res A :=
  match m with
  | Fun f | Static f | Callee f => code f args s
  | Wrapped m => then_convert (direct m args s)
  | ClassM _ | Datum => (s, Err TypeError)
  end.
(** calling it as an attribute: [inst.name( )] with [inst] of class [k], or [k.name( )] (Python's descriptors) *)
Definition bound_call (k : nat) (inst : option A) (m : member) (args : list A) (s : S) : S * res A :=
  match m with
  | Fun _ | Wrapped _ => direct m (match inst with Some x => x :: args | None => args end) s
  | Static _ | Callee _ => direct m args s
  | ClassM f => code f (class_of k :: args) s
  | Datum => (s, Err TypeError)
  end.
(** the member an attribute is. Simplification: [__get_namespace__], a classmethod, is not called this way (ANs) *)
Definition member_of {P} (a : attr P member) : member := match a with ACall m | AOther m => m | _ => Datum end.
(** the instance has no attribute of that name of its own *)
Definition method_call {P} (w : world P member) (k : nat) (inst : option A) (n : pystr) (args : list A) (s : S) : S * res A :=
  match lookup w k n with None => (s, Err AttributeError) | Some a => bound_call k inst (member_of a) args s end.
End Methods.
Arguments then_convert {A S}.
(** [callable(method)] sorts the members of every class's [__dict__] as Kamino.v does *)
Definition callables_marked {P} (w : world P member) : Prop :=
  forall c n a, d_get n (c_attrs (get_cls w c)) = Some a -> match a with ACall m => callable m = true | AOther m => callable m = false | _ => True end.
