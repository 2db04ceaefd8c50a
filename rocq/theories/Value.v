(** Python values as far as the storage layer can observe them: truthiness, [==], [<]. *)
From Verif Require Import Base.
Set Implicit Arguments.

(** Stored objects. [VObj n t] is any object without ordering, with identity [n] and truth value [t]
    (e.g. an empty list is [VObj _ false]); equality on it is identity. *)
Inductive pyval : Type :=
| VNone
| VBool (b : bool)
| VInt (z : Z)
| VStr (s : pystr)
| VObj (n : N) (truth : bool).

(** Python's [bool(v)]. *)
Definition truthy (v : pyval) : bool :=
  match v with
  | VNone => false
  | VBool b => b
  | VInt z => negb (Z.eqb z 0)
  | VStr s => match s with [] => false | _ => true end
  | VObj _ t => t
  end.

Definition is_none (v : pyval) : bool := match v with VNone => true | _ => false end.

Definition zbool (b : bool) : Z := if b then 1%Z else 0%Z.

(** Python's ordering of two values: [None] stands for TypeError ("not supported between"). *)
Definition val_compare (v w : pyval) : option comparison :=
  match v, w with
  | VBool a, VBool b => Some (Z.compare (zbool a) (zbool b))
  | VBool a, VInt b => Some (Z.compare (zbool a) b)
  | VInt a, VBool b => Some (Z.compare a (zbool b))
  | VInt a, VInt b => Some (Z.compare a b)
  | VStr a, VStr b => Some (str_compare a b)
  | _, _ => None
  end.

(** Python's [v == w]. *)
Definition val_eqb (v w : pyval) : bool :=
  match v, w with
  | VNone, VNone => true
  | VObj a _, VObj b _ => N.eqb a b
  | _, _ => match val_compare v w with Some Eq => true | _ => false end
  end.
