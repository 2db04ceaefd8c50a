(** Walking over a view of a group ([for key in group.keys():]) while the program changes the group. citrine/storage/group.py:36-66 ([GroupView], [GroupKeys], [GroupValues], [GroupItems]), 372-377, 405-410, 438-443. *)
From Verif Require Import Base Value BTree Collection Group.
Open Scope list_scope.
Set Implicit Arguments.

(** where the generator [GroupView.__iter__] is: not begun; [j] items of the [i]-th collection were given; ended *)
Inductive place := Begin | At (i j : nat) | Ended.
(** group.py:48-51: the first item of the first collection, from the [i]-th on, that has one; [f]: [GroupKeys.fn], [GroupValues.fn] or [GroupItems.fn] *)
Fixpoint first_of {A} (f : collection -> list A) (cs : list collection) (i : nat) : place * option A :=
  match cs with
  | [] => (Ended, None)
  | c :: cs' => match f c with x :: _ => (At i 1, Some x) | [] => first_of f cs' (S i) end
  end.
(** [next(walk)]: [None] is StopIteration. The collections are read when they are reached; within a collection BTrees gives the items by position *)
Definition next_of {A} (f : collection -> list A) (g : group) (p : place) : place * option A :=
  match p with
  | Begin => first_of f g 0
  | Ended => (Ended, None)
  | At i j => match nth_error g i with
              | Some c => match nth_error (f c) j with Some x => (At i (S j), Some x) | None => first_of f (skipn (S i) g) (S i) end
              | None => (Ended, None)
              end
  end.
(** the keys of the collection that the walk is in; BTrees leaves open what a walk does after these change *)
Definition keys_here (g : group) (p : place) : list pystr :=
  match p with At i _ => match nth_error g i with Some c => c_keys c | None => [] end | _ => [] end.
Fixpoint keys_eqb (a b : list pystr) : bool :=
  match a, b with [], [] => true | x :: a', y :: b' => str_eqb x y && keys_eqb a' b' | _, _ => false end.
(** what the program does, and what it sees *)
Inductive wstep := Next | Do (o : mop).
Inductive wout (A : Type) := Gave (x : option A) | Did (r : mout).
Arguments Did {A} r.
(** [None]: an operation changed the keys of the collection the walk is in *)
Fixpoint w_walk {A} (f : collection -> list A) (steps : list wstep) (g : group) (p : place) : option (list (wout A) * group * place) :=
  match steps with
  | [] => Some ([], g, p)
  | Next :: steps' => let (p1, x) := next_of f g p in
      match w_walk f steps' g p1 with Some (os, g', p') => Some (Gave x :: os, g', p') | None => None end
  | Do o :: steps' => let (g1, r) := g_step g o in
      if keys_eqb (keys_here g p) (keys_here g1 p) then
        match w_walk f steps' g1 p with Some (os, g', p') => Some (Did r :: os, g', p') | None => None end
      else None
  end.
(** the items given, in order *)
Definition given {A} (os : list (wout A)) : list A := flat_map (fun o => match o with Gave (Some x) => [x] | _ => [] end) os.
