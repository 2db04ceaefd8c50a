(** jsonld/base.py:295-316 [PropertyAwareObject]: iterating and indexing an object *)
From Coq Require Import String.
From Verif Require Import Base Dict.
Open Scope list_scope.

Section Read.
(** [St]: whatever reading a property may change; [V]: the values *)
Variables St V : Type.
(** base.py:301-303 the names in [self.__properties__] (in their order, distinct), each with [getattr(self, name)] *)
Definition getter := St -> St * res V.
Definition props := list (pystr * getter).
(** getattr(self, name) of a property *)
Definition read (o : props) (n : pystr) (s : St) : St * res V :=
  match d_get n o with Some g => g s | None => (s, Err AttributeError) end.

(** base.py:305-307 [__iter__]: the pairs yielded before the first getter that raises, and its exception. The consumer's own changes between two steps are not modelled. *)
Fixpoint iterate (o : props) (s : St) : St * list (pystr * V) * option exn :=
  match o with
  | [] => (s, [], None)
  | (n, g) :: o' =>
      match g s with
      | (s1, Err e) => (s1, [], Some e)
      | (s1, Ok v) => let '(s2, l, e) := iterate o' s1 in (s2, (n, v) :: l, e)
      end
  end.

(** an element of the index: a str, or anything else (equal to no str) *)
Inductive key := KStr (s : pystr) | KOther (n : N).
(** the index: a str; a list, tuple, set; an iterator (it can be walked once); anything that cannot be iterated *)
Inductive index := One (s : pystr) | Many (l : list key) | Once (l : list key) | NoIter.
Definition known (o : props) (k : key) : bool := match k with KStr s => mem_str s (map fst o) | KOther _ => false end.
Definition is_str (k : key) : bool := match k with KStr _ => true | KOther _ => false end.
(** base.py:311: [any] stops after the first unknown key; what an iterator has left *)
Fixpoint after_unknown (o : props) (l : list key) : option (list key) :=
  match l with [] => None | k :: r => if known o k then after_unknown o r else Some r end.
(** base.py:312-315: [str.join] raises TypeError if a key to be reported is no str *)
Definition complain (o : props) (l : list key) : exn :=
  if forallb is_str (filter (fun k => negb (known o k)) l) then KeyError else TypeError.
(** base.py:316: the dict comprehension *)
Fixpoint collect (o : props) (l : list key) (acc : dict V) (s : St) : St * res (dict V) :=
  match l with
  | [] => (s, Ok acc)
  | KOther _ :: _ => (s, Err TypeError)                  (* not reached: every key is known *)
  | KStr n :: r => match read o n s with (s1, Err e) => (s1, Err e) | (s1, Ok v) => collect o r (d_set n v acc) s1 end
  end.
(** base.py:309-316 [__getitem__] *)
Definition getitem (o : props) (i : index) (s : St) : St * res (dict V) :=
  match i with
  | One n => let l := [KStr n] in match after_unknown o l with Some _ => (s, Err (complain o l)) | None => collect o l [] s end
  | Many l => match after_unknown o l with Some _ => (s, Err (complain o l)) | None => collect o l [] s end
  | Once l => match after_unknown o l with Some rest => (s, Err (complain o rest)) | None => collect o [] [] s end
  | NoIter => (s, Err TypeError)
  end.
End Read.
