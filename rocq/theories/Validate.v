(** jsonld/tools/type.py [evaluate_value], [SetterValidator]; jsonld/tools/number.py [is_nonnegative] *)
From Verif Require Import Base.
Set Implicit Arguments.

(** classes that can be in [types]: the three containers, [object], or any other class (by number) *)
Inductive pytype := TList | TTuple | TSet | TObject | TClass (n : N).
Definition none_type : pytype := TClass 0.
(** values: a leaf is an object that is no list, tuple or set: the numbers of the classes it is an instance of (subclasses included),
    and which object it is. [None] is an instance of class 0 only. *)
Inductive pv := Leaf (classes : list N) (ident : N) | VL (l : list pv) | VT (l : list pv) | VS (l : list pv).
Definition pv_none : pv := Leaf [0%N] 0.
(** isinstance(v, t), isinstance(v, tuple(types)) *)
Definition isinst (v : pv) (t : pytype) : bool :=
  match t, v with
  | TObject, _ | TList, VL _ | TTuple, VT _ | TSet, VS _ => true
  | TClass n, Leaf cs _ => existsb (N.eqb n) cs
  | _, _ => false
  end.
Definition isinstance (v : pv) (types : list pytype) : bool := existsb (isinst v) types.
Definition is_tlist (t : pytype) : bool := match t with TList => true | _ => false end.
(** type.py:9 *)
Definition effective (types : list pytype) (functional : bool) : list pytype :=
  if functional && negb (existsb is_tlist types) then types else types ++ [TList].
(** type.py:21-24 the extra validators, run in order on a leaf; what they return is ignored *)
Definition validator := N -> list N -> res unit.
Fixpoint run_all (additional : list validator) (cs : list N) (i : N) : res unit :=
  match additional with [] => Ok tt | f :: l => match f i cs with Ok _ => run_all l cs i | Err e => Err e end end.
(** type.py:5-25 [evaluate_value]. In the recursive calls [types] is already the extended set, so [effective] adds nothing new. *)
Definition map_ok {A B} (f : A -> res B) := fix go (l : list A) : res (list B) :=
  match l with [] => Ok [] | x :: l' => match f x with Err e => Err e | Ok y => match go l' with Err e => Err e | Ok ys => Ok (y :: ys) end end end.
Fixpoint evaluate (types : list pytype) (functional : bool) (additional : list validator) (v : pv) {struct v} : res pv :=
  let types := effective types functional in
  if negb (isinstance v types) then Err ValueError
  else match v with
       | VL l | VT l | VS l => match map_ok (evaluate types functional additional) l with Ok ys => Ok (VL ys) | Err e => Err e end
       | Leaf cs i => match run_all additional cs i with Ok _ => Ok v | Err e => Err e end
       end.
(** type.py:36-45 [SetterValidator.__init__] *)
Definition validator_types (types : list pytype) (none_allowed : bool) : list pytype := if none_allowed then types ++ [none_type] else types.
(** type.py:47-56 the setter that [check] wraps around [set_prop] *)
Definition checked_set {O : Type} (types : list pytype) (functional none_allowed : bool) (additional : list validator)
    (set_prop : O -> pv -> O * res unit) (o : O) (v : pv) : O * res unit :=
  match evaluate (validator_types types none_allowed) functional additional v with
  | Ok w => set_prop o w
  | Err e => (o, Err e)
  end.
(** number.py:1-6 as a validator: [num i] is the sign of object [i] if it is a number ([None] otherwise: [<] raises TypeError) *)
Definition is_nonnegative (num : N -> option Z) (i : N) (cs : list N) : res unit :=
  if existsb (N.eqb 0) cs then Ok tt
  else match num i with None => Err TypeError | Some z => if Z.ltb z 0 then Err ValueError else Ok tt end.
