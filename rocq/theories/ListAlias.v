(** jsonld/tools/type.py:5-55 [SetterValidator] and the setters it guards, with lists as the mutable objects they are: what an object shares with its callers. *)
From Coq Require Import String.
From Verif Require Import Base.
Open Scope list_scope.
Set Implicit Arguments.

Section Alias.
(** what is not a list: texts, numbers, None, objects *)
Variable L : Type.
(** a value: not a list, or a list object. The list objects are numbered in the order of their making. *)
Inductive lval := Leaf (l : L) | Ref (r : nat).
Definition lheap := list (list lval).
(** A property. [Checked lists leaf]: guarded by a [SetterValidator]; [lists]: lists are among the allowed types (type.py:8-9); [leaf l]: the value stored for the leaf [l]
    (after [Link.from_str], models.py:209-243, where the setter has it), or what checking it raises (type.py:10-14, 21-24). Simplification: [Link.from_str] is applied leaf by leaf, so if several
    leaves are refused the exception may be another.
    [Raw]: a setter without it (jsonld.py:43-45 [acontext]). *)
Inductive kind := Checked (lists : bool) (leaf : L -> res L) | Raw.
(** type.py:5-25 [evaluate_value]; a new list is made for every list met, after its elements. None: the recursion limit is met (RecursionError).
    Simplification: tuples and sets, which no property of the vocabulary allows, are leaves. *)
Definition eval_list (ev : lheap -> lval -> lheap * option (res lval)) := fix go (h : lheap) (vs : list lval) : lheap * option (res (list lval)) :=
  match vs with
  | [] => (h, Some (Ok []))
  | v :: vs' => match ev h v with
                | (h1, Some (Ok v1)) => match go h1 vs' with
                                        | (h2, Some (Ok l)) => (h2, Some (Ok (v1 :: l)))
                                        | x => x
                                        end
                | (h1, Some (Err e)) => (h1, Some (Err e))
                | (h1, None) => (h1, None)
                end
  end.
Fixpoint eval (limit : nat) (lists : bool) (leaf : L -> res L) (h : lheap) (v : lval) : lheap * option (res lval) :=
  match limit with
  | O => (h, None)
  | S limit =>
      match v with
      | Leaf l => (h, Some (match leaf l with Err e => Err e | Ok l' => Ok (Leaf l') end))
      | Ref r => if lists
                 then match eval_list (eval limit lists leaf) h (match nth_error h r with Some vs => vs | None => [] end) with
                      | (h1, Some (Ok vs)) => (h1 ++ [vs], Some (Ok (Ref (List.length h1))))
                      | (h1, Some (Err e)) => (h1, Some (Err e))
                      | (h1, None) => (h1, None)
                      end
                 else (h, Some (Err ValueError))
      end
  end.

(** What callers do. [OMake]: make a list; [OChange]: change a list in place (its contents become these); [OItems]: look into a list;
    [OSet p v]: assign to the property [p] (of some object); [OGet p]: read it. *)
Inductive lop := OMake (vs : list lval) | OChange (r : nat) (vs : list lval) | OItems (r : nat) | OSet (p : nat) (v : lval) | OGet (p : nat).
Inductive lout := RVal (v : lval) | RItems (vs : list lval) | RDone | RErr (e : exn) | RRecursion.
(** the lists, and what each property holds *)
Record lstate := mkL { l_heap : lheap; l_slot : nat -> lval }.
Variable limit : nat.
Variable kinds : nat -> kind.
Variable none : L.
Fixpoint replace (r : nat) (vs : list lval) (h : lheap) : lheap :=
  match h, r with [], _ => [] | _ :: h', O => vs :: h' | x :: h', S r => x :: replace r vs h' end.
Definition store (st : lstate) (h : lheap) (p : nat) (v : lval) : lstate := mkL h (fun q => if Nat.eqb q p then v else l_slot st q).
(** [OSet]: type.py:47-53, then the setter stores the result (e.g. activitystreams/properties.py:98-102); [OGet]: the stored value itself (e.g. properties.py:90-92),
    which [Link.expand] (models.py:181-183) passes through for a list *)
Definition refs (v : lval) : list nat := match v with Leaf _ => [] | Ref r => [r] end.
Definition op_refs (o : lop) : list nat :=
  match o with OMake vs => flat_map refs vs | OChange r vs => r :: flat_map refs vs | OItems r => [r] | OSet _ v => refs v | OGet _ => [] end.
Definition l_do (st : lstate) (o : lop) : lstate * lout :=
  match o with
  | OMake vs => (mkL (l_heap st ++ [vs]) (l_slot st), RVal (Ref (List.length (l_heap st))))
  | OChange r vs => (mkL (replace r vs (l_heap st)) (l_slot st), RDone)
  | OItems r => (st, match nth_error (l_heap st) r with Some vs => RItems vs | None => RErr TypeError end)
  | OGet p => (st, RVal (l_slot st p))
  | OSet p v => match kinds p with
                | Raw => (store st (l_heap st) p v, RDone)
                | Checked lists leaf => match eval limit lists leaf (l_heap st) v with
                                        | (h, Some (Ok v')) => (store st h p v', RDone)
                                        | (h, Some (Err e)) => (mkL h (l_slot st), RErr e)
                                        | (h, None) => (mkL h (l_slot st), RRecursion)
                                        end
                end
  end.
(** a caller cannot mention a list that does not exist: such an operation is nothing *)
Definition l_step (st : lstate) (o : lop) : lstate * lout :=
  if forallb (fun r => Nat.ltb r (List.length (l_heap st))) (op_refs o) then l_do st o else (st, RErr TypeError).
(** all properties are None at first; the results in order *)
Definition l_run (ops : list lop) : lstate * list lout :=
  fold_left (fun x o => let (st, y) := l_step (fst x) o in (st, snd x ++ [y])) ops (mkL [] (fun _ => Leaf none), []).
End Alias.
Arguments Leaf {L}. Arguments Ref {L}. Arguments Raw {L}.
Arguments OGet {L}. Arguments OItems {L}. Arguments RDone {L}. Arguments RErr {L}. Arguments RRecursion {L}.
