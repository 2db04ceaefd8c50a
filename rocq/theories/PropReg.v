(** Which property a JsonProperty subclass registers. jsonld/base.py:228-285, and jsonld/package.py:99-111 which uses it. *)
From Verif Require Import Base Dict.
From Coq Require Import String.
Open Scope list_scope.
Set Implicit Arguments.
Section PropReg.
(** [A]: the getter, setter, deleter and docstring of a property. [mro c]: the classes that attribute lookup on the class [c] goes through, [c] first (fixed). *)
Variables (A : Type) (mro : nat -> list nat).

(** what a class body or a later assignment binds to a name: a property, or something else, which is true or false *)
Inductive entry := EProp (a : A) | EOther (truthy : bool).
(** the dicts of the classes: their attributes (in order), and the two cached ones, [__property_name__] and [__registration__]
    (base.py:270, 280-284: the latter may be None). Simplification: programs do not assign these two themselves. *)
Record jworld := mkJ { j_own : nat -> dict entry; j_name : nat -> option pystr; j_reg : nat -> option (option A) }.
Definition upd {X} (f : nat -> X) (c : nat) (x : X) : nat -> X := fun d => if Nat.eqb d c then x else f d.
(** attribute lookup on a class: the first class of its order that has the attribute *)
Fixpoint nearest {X} (f : nat -> option X) (l : list nat) : option X :=
  match l with [] => None | c :: l' => match f c with Some x => Some x | None => nearest f l' end end.
(** base.py:261-262 the names in the class's own dict that are bound to properties *)
Definition own_props (d : dict entry) : list pystr := map fst (filter (fun p => match snd p with EProp _ => true | EOther _ => false end) d).
(** base.py:253-271 [__get_property_name__] *)
Definition ask_name (refresh : bool) (c : nat) (w : jworld) : jworld * res pystr :=
  match (if refresh then None else nearest (j_name w) (mro c)) with
  | Some n => (w, Ok n)
  | None => match own_props (j_own w c) with
            | [n] => (mkJ (j_own w) (upd (j_name w) c (Some n)) (j_reg w), Ok n)
            | _ => (w, Err ValueError)
            end
  end.
(** base.py:273-285 [__get_registration__]. line 282 reads fget of whatever the attribute is: a true value that is no property has none *)
Definition ask_reg (refresh : bool) (c : nat) (w : jworld) : jworld * res (option A) :=
  let step1 := if refresh then ask_name true c w
               else match nearest (j_name w) (mro c) with Some n => (w, Ok n) | None => ask_name true c w end in
  match step1 with
  | (w1, Err e) => (w1, Err e)
  | (w1, Ok _) =>
      match (if refresh then None else nearest (j_reg w1) (mro c)) with
      | Some r => (w1, Ok r)
      | None =>
          match nearest (j_name w1) (mro c) with
          | None => (w1, Err AttributeError)
          | Some n =>
              let keep r := (mkJ (j_own w1) (j_name w1) (upd (j_reg w1) c (Some r)), Ok r) in
              match nearest (fun d => d_get n (j_own w1 d)) (mro c) with
              | Some (EProp a) => keep (Some a)
              | Some (EOther true) => (w1, Err AttributeError)
              | Some (EOther false) | None => keep None
              end
          end
      end
  end.
(** package.py:109-111 [link_property]: [property( *None )] raises TypeError *)
Definition ask_link (c : nat) (w : jworld) : jworld * res (pystr * A) :=
  match ask_name false c w with
  | (w1, Err e) => (w1, Err e)
  | (w1, Ok n) => match ask_reg false c w1 with
                  | (w2, Err e) => (w2, Err e)
                  | (w2, Ok None) => (w2, Err TypeError)
                  | (w2, Ok (Some a)) => (w2, Ok (n, a))
                  end
  end.
(** What programs do: ask, link (or make an instance, base.py:240-242: the same two questions), and change classes with setattr and delattr *)
Inductive jop := JName (refresh : bool) (c : nat) | JReg (refresh : bool) (c : nat) | JLink (c : nat) | JNew (c : nat)
  | JSet (c : nat) (n : pystr) (e : entry) | JDel (c : nat) (n : pystr).
Inductive jout := OName (r : res pystr) | OReg (r : res (option A)) | OLink (r : res (pystr * A)) | ONew (r : res (pystr * option A)) | ONone (r : res unit).
Definition j_step (o : jop) (w : jworld) : jworld * jout :=
  match o with
  | JName f c => let (w1, r) := ask_name f c w in (w1, OName r)
  | JReg f c => let (w1, r) := ask_reg f c w in (w1, OReg r)
  | JLink c => let (w1, r) := ask_link c w in (w1, OLink r)
  | JNew c => match ask_name false c w with
              | (w1, Err e) => (w1, ONew (Err e))
              | (w1, Ok n) => let (w2, r) := ask_reg false c w1 in (w2, ONew (rbind r (fun a => Ok (n, a))))
              end
  | JSet c n e => (mkJ (upd (j_own w) c (d_set n e (j_own w c))) (j_name w) (j_reg w), ONone (Ok tt))
  | JDel c n => if d_mem n (j_own w c) then (mkJ (upd (j_own w) c (d_del n (j_own w c))) (j_name w) (j_reg w), ONone (Ok tt))
                else (w, ONone (Err AttributeError))
  end.
Fixpoint j_run (ops : list jop) (w : jworld) : jworld * list jout :=
  match ops with [] => (w, []) | o :: ops' => let (w1, r) := j_step o w in let (w2, rs) := j_run ops' w1 in (w2, r :: rs) end.
(** the classes as their bodies define them, nobody asked yet *)
Definition unasked (own : nat -> dict entry) : jworld := mkJ own (fun _ => None) (fun _ => None).
End PropReg.
Arguments EOther {A}.
Arguments JName {A}.
Arguments JReg {A}.
Arguments JLink {A}.
Arguments JNew {A}.
Arguments JDel {A}.
Arguments OName {A}.
Arguments ONone {A}.

(** Instances. base.py:240-251: [__getattr__] is what Python falls back to when the ordinary lookup raises AttributeError.
    [ordinary a]: what [object.__getattribute__] gives for the attribute [a] of one instance (a property of the class may raise anything); [dict_]: the instance's own attributes. *)
Section Instance.
Variables (X : Type) (ordinary : pystr -> res X) (dict_ : dict X).
(** [__registration__] is always present once [__init__] has run, so line 245-247 are not reached; a class that skips [__init__] is not modelled *)
Definition inst_getattr (a : pystr) : res X :=
  match ordinary a with
  | Err AttributeError => match d_get a dict_ with None => Err ValueError | Some x => Ok x end
  | r => r
  end.
(** the builtins hasattr(p, a) and getattr(p, a, default) *)
Definition inst_hasattr (a : pystr) : res bool := match inst_getattr a with Ok _ => Ok true | Err AttributeError => Ok false | Err e => Err e end.
Definition inst_getattr_default (a : pystr) (default : X) : res X := match inst_getattr a with Err AttributeError => Ok default | r => r end.
End Instance.
