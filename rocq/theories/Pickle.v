(** What can be stored in a database: ZODB pickles the objects when a transaction commits (citrine/storage/transaction.py:30-38). pickle writes an instance as a reference
    to its class - the class's [__module__] and name - with its attributes, and raises PicklingError if importing that module and taking that name does not give the very class
    (pickle.py [save_global]). The classes are those of PyClass.v, the clones those jsonld/kamino.py:88-101 makes. *)
From Coq Require Import String.
From Verif Require Import Base Dict PyClass JsonData.
Open Scope list_scope.

Section Pickle.
Variables P V : Type.
Notation world := (world P V).
(** what [import m; m.name] gives: a class or something else *)
Definition modules := pystr -> pystr -> option nat.
(** pickle.py [save_global] of a class. Every class has a [__module__] of its own. *)
Definition class_pickles (w : world) (ms : modules) (c : nat) : bool :=
  match lookup w c (py "__module__") with
  | Some (AStr m) => match ms m (c_name (get_cls w c)) with Some d => Nat.eqb d c | None => false end
  | _ => false
  end.
(** values as pickle sees them: texts, numbers, None; what it always refuses (functions, generators, locks ...); lists, tuples, dicts; instances *)
Inductive stored := SPlain | SNever | SSeq (l : list stored) | SInst (c : nat) (attrs : list (pystr * stored)).
Fixpoint pickles (w : world) (ms : modules) (x : stored) : bool :=
  match x with
  | SPlain => true
  | SNever => false
  | SSeq l => forallb (pickles w ms) l
  | SInst c attrs => class_pickles w ms c && forallb (fun p => pickles w ms (snd p)) attrs
  end.
End Pickle.
(** what jsonld.py:34-97 [data] gives, as a value to store *)
Fixpoint of_json (v : jval) : stored :=
  match v with
  | JList l | JTuple l | JSet l => SSeq (map of_json l)
  | JDict d => SSeq (map (fun p => of_json (snd p)) d)
  | JNone | JBool _ | JInt _ | JFloat _ | JStr _ => SPlain
  | JIter _ | JOther _ | JObj _ => SNever                 (* taken as refused: they do not occur in what [data] gives (C57) *)
  end.
