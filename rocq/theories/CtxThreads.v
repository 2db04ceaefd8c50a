(** jsonld/base.py:203-225 [JsonContextAwareManager] of an object that several threads use. Nothing locks the manager, so the threads interleave
    inside [__call__] and [__exit__] as well. *)
From Coq Require Import String.
From Verif Require Import Base Context.
Open Scope list_scope.

(** what a thread does with the object: look at a property (the getter depends on the context in force), or
    [with obj.switch_context(c): body] - which is also what [obj.data()] and the conversion of classes do (jsonld.py:80, kamino.py:133, 151) *)
Inductive blk := Look | Block (c : ctx) (body : list blk).
(** The steps of a thread. base.py:214-217 [__call__]: [self.__stack.append(self.context)] loads the context and appends it, then the context is assigned;
    base.py:223-225 [__exit__]: the stack is popped (None is taken if it is empty), then the context is assigned. [Enter], [Leave]: the same without interruption.
    The [active] flag, which nothing reads, is left out. A look is marked with the context of the innermost block of the same thread around it, if any. *)
Inductive instr := ILook (own : option ctx) | ILoad | IAppend | ISet (c : ctx) | IPop | IAssign | IEnter (c : ctx) | ILeave.
(** [fine]: whether the threads may interleave inside [__call__] and [__exit__] *)
Definition code_of (f : blk -> list instr) : list blk -> list instr := fix go (p : list blk) := match p with [] => [] | b :: p' => f b ++ go p' end.
Fixpoint code1 (fine : bool) (own : option ctx) (b : blk) : list instr :=
  match b with
  | Look => [ILook own]
  | Block c body => (if fine then [ILoad; IAppend; ISet c] else [IEnter c]) ++ code_of (code1 fine (Some c)) body ++ (if fine then [IPop; IAssign] else [ILeave])
  end.
Definition code (fine : bool) (p : list blk) : list instr := code_of (code1 fine None) p.
(** a thread: the value it has loaded or popped, the steps it has still to make, what it saw (the latest first): for every look its mark and the context in force *)
Record cthread := mkC { c_reg : ctx; c_code : list instr; c_seen : list (option ctx * ctx) }.
(** the manager's stack and context, and the threads *)
Record cstate := mkCs { cs_stack : list ctx; cs_context : ctx; cs_threads : list cthread }.
(** one step of a thread *)
Definition c_step (t : cthread) (stack : list ctx) (context : ctx) : cthread * list ctx * ctx :=
  match c_code t with
  | [] => (t, stack, context)
  | i :: rest =>
      match i with
      | ILook own => (mkC (c_reg t) rest ((own, context) :: c_seen t), stack, context)
      | ILoad => (mkC context rest (c_seen t), stack, context)
      | IAppend => (mkC (c_reg t) rest (c_seen t), c_reg t :: stack, context)
      | ISet c => (mkC (c_reg t) rest (c_seen t), stack, c)
      | IPop => (mkC (match stack with [] => None | c :: _ => c end) rest (c_seen t), tl stack, context)
      | IAssign => (mkC (c_reg t) rest (c_seen t), stack, c_reg t)
      | IEnter c => (mkC (c_reg t) rest (c_seen t), context :: stack, c)
      | ILeave => (mkC (c_reg t) rest (c_seen t), tl stack, match stack with [] => None | c :: _ => c end)
      end
  end.
Fixpoint put_nth {A} (i : nat) (x : A) (l : list A) : list A :=
  match l, i with [], _ => [] | _ :: l', O => x :: l' | y :: l', S i => y :: put_nth i x l' end.
Definition cs_step (st : cstate) (i : nat) : cstate :=
  match nth_error (cs_threads st) i with
  | None => st
  | Some t => let '(t', stack, context) := c_step t (cs_stack st) (cs_context st) in mkCs stack context (put_nth i t' (cs_threads st))
  end.
(** a schedule: which thread makes the next step *)
Definition cs_run (sched : list nat) (st : cstate) : cstate := fold_left cs_step sched st.
(** the threads start with an object in context [c0] (nothing is read from [c_reg] before it is set) *)
Definition cs_start (fine : bool) (stack : list ctx) (c0 : ctx) (progs : list (list blk)) : cstate :=
  mkCs stack c0 (map (fun p => mkC c0 (code fine p) []) progs).
