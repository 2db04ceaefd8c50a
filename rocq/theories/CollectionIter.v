(** activitystreams/models.py:363-367 [Collection.__iter__], which replaces the iteration over the properties (base.py:305-307) *)
From Coq Require Import String.
From Verif Require Import Base Dict ObjectRead.
Open Scope list_scope.

Section Iter.
(** [St]: whatever reading the property may change; [V]: the values *)
Variables St V : Type.
(** what [self.items] can be: None, a list or tuple, one object (always truthy) *)
Inductive items := NoItems | Items (l : list V) | OneItem (v : V).
(** iterating that one object: what it yields and its exception. For an object that is no collection these are pairs of a name and a value. *)
Variable walk : V -> St -> St * list V * option exn.
Definition empty (x : items) : bool := match x with NoItems | Items [] => true | _ => false end.
(** what is yielded ([None]: the value None) and the exception; the property is read twice. The consumer's own changes between two steps are not modelled. *)
Definition coll_iter (get : St -> St * res items) (s : St) : St * list (option V) * option exn :=
  match get s with
  | (s1, Err e) => (s1, [], Some e)
  | (s1, Ok x) =>
      let first := if empty x then [None] else [] in
      match get s1 with
      | (s2, Err e) => (s2, first, Some e)
      | (s2, Ok NoItems) => (s2, first, Some TypeError)
      | (s2, Ok (Items l)) => (s2, first ++ map Some l, None)
      | (s2, Ok (OneItem v)) => let '(s3, l, e) := walk v s2 in (s3, first ++ map Some l, e)
      end
  end.
End Iter.
