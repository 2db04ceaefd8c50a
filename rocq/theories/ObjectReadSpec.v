(** What indexing an object means, apart from the code *)
From Coq Require Import String.
From Verif Require Import Base Dict ObjectRead.
Open Scope list_scope.
Section Spec.
Variables St V : Type.
(** the named properties are read one after the other, each once, up to the first that raises: the state afterwards, the pairs read, the exception *)
Inductive reads (o : props St V) : list pystr -> St -> St -> list (pystr * V) -> option exn -> Prop :=
| r_done s : reads o [] s s [] None
| r_raise n g ns s s' e : In (n, g) o -> g s = (s', Err e) -> reads o (n :: ns) s s' [] (Some e)
| r_value n g ns s s1 v s' l e : In (n, g) o -> g s = (s1, Ok v) -> reads o ns s1 s' l e -> reads o (n :: ns) s s' ((n, v) :: l) e.
(** the last value read for a name *)
Definition last_read (l : list (pystr * V)) (n : pystr) (v : V) : Prop := exists a b, l = a ++ (n, v) :: b /\ ~ In n (map fst b).
(** the names in the order of their first occurrence *)
Inductive firsts : list pystr -> list pystr -> Prop :=
| f_nil : firsts [] []
| f_new l r n : firsts l r -> ~ In n l -> firsts (l ++ [n]) (r ++ [n])
| f_old l r n : firsts l r -> In n l -> firsts (l ++ [n]) r.
End Spec.
Arguments reads {St V}. Arguments last_read {V}.
