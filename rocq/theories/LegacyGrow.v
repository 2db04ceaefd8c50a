(** citrine/persistence.py:96-170: programs that use a [DbContainer] and also expand it *)
From Verif Require Import Base Value Dict Legacy.
Open Scope Z_scope.
Open Scope list_scope.
Set Implicit Arguments.

(** a call of read, write, delete, has (127-159) or expand_size (117-125) *)
Inductive gop := GCall (o : lop) | GExpand (m : Z).
Definition g_step (o : gop) (c : dbc) : dbc * res lout :=
  match o with
  | GCall l => l_step l c
  | GExpand m => let (c1, r) := expand_size m c in (c1, rbind r (fun _ => Ok LNone))
  end.
(** calls one after another, each exception caught *)
Fixpoint g_run (ops : list gop) (c : dbc) : dbc * list (res lout) :=
  match ops with
  | [] => (c, [])
  | o :: ops' => let (c1, r) := g_step o c in let (c2, rs) := g_run ops' c1 in (c2, r :: rs)
  end.
