(** Python dicts with string keys: association lists in insertion order. Shared by several models. *)
From Verif Require Import Base.
Set Implicit Arguments.

Definition dict (A : Type) := list (pystr * A).
(** [d.get(k)], [d[k] = v] (in place, or appended), [del d[k]] *)
Fixpoint d_get {A} (k : pystr) (d : dict A) : option A :=
  match d with [] => None | (j, v) :: d' => if str_eqb k j then Some v else d_get k d' end.
Fixpoint d_set {A} (k : pystr) (v : A) (d : dict A) : dict A :=
  match d with [] => [(k, v)] | (j, w) :: d' => if str_eqb k j then (j, v) :: d' else (j, w) :: d_set k v d' end.
Fixpoint d_del {A} (k : pystr) (d : dict A) : dict A :=
  match d with [] => [] | (j, w) :: d' => if str_eqb k j then d' else (j, w) :: d_del k d' end.
Definition d_keys {A} (d : dict A) : list pystr := map fst d.
Definition d_mem {A} (k : pystr) (d : dict A) : bool := match d_get k d with Some _ => true | None => false end.
(** [d1 | d2] and [{k: v for k, v in l}] *)
Definition d_merge {A} (d1 d2 : dict A) : dict A := fold_left (fun d p => d_set (fst p) (snd p) d) d2 d1.
Definition d_of {A} (l : list (pystr * A)) : dict A := d_merge [] l.
