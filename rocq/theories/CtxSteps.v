(** jsonld/base.py:203-225: threads that switch the context of the same object, their programs with exceptions (CtxThreads.v: without; here on the manager of Context.v) *)
From Verif Require Import Base Context.
Open Scope list_scope.
Set Implicit Arguments.

(** What one thread does between two points where others may run. base.py:215 [APush] reads self.context and appends it, 216 [ASet]; 220 [AEnter]; 224 [APop] the expression (None, or pop()), [APut] the assignment of its value; 225 [AOff].
    [ACall], [AExit]: the whole of [__call__] with [__enter__], and of [__exit__], when nothing can run in between. [ALook i]: reading the context; [i] is the context of the innermost with-block around it, if any. *)
Inductive act := APush | ASet (c : ctx) | AEnter | APop | APut | AOff | ACall (c : ctx) | AExit | ALook (i : option ctx).
(** a thread: what it still has to do, and the value popped last *)
Record thr := mkThr { todo : list act; reg : ctx }.
(** observed: the context of the block around, and the context read *)
Definition seen := (option ctx * ctx)%type.
Definition act_do (a : act) (m : mgr) (g : ctx) : mgr * ctx * list seen :=
  match a with
  | APush => (mkMgr (m_context m :: m_stack m) (m_context m) (m_active m), g, [])
  | ASet c => (mkMgr (m_stack m) c (m_active m), g, [])
  | AEnter => (mgr_enter m, g, [])
  | APop => match m_stack m with [] => (m, None, []) | c :: s => (mkMgr s (m_context m) (m_active m), c, []) end
  | APut => (mkMgr (m_stack m) g (m_active m), g, [])
  | AOff => (mkMgr (m_stack m) (m_context m) false, g, [])
  | ACall c => (mgr_enter (mgr_call c m), g, [])
  | AExit => (mgr_exit m, g, [])
  | ALook i => (m, g, [(i, m_context m)])
  end.
(** what a program of with-blocks (Context.v) does, step by step; the flag tells that an exception is pending, with which the exits still run. [lock]: calls and exits are indivisible *)
Section Compile.
Variable lock : bool.
Definition entering (c : ctx) : list act := if lock then [ACall c] else [APush; ASet c; AEnter].
Definition leaving : list act := if lock then [AExit] else [APop; APut; AOff].
Definition c_seq (f : wstmt -> list act * bool) := fix go (p : list wstmt) : list act * bool :=
  match p with
  | [] => ([], false)
  | x :: p' => match f x with
               | (l, true) => (l, true)
               | (l, false) => let (l2, e) := go p' in (l ++ l2, e)
               end
  end.
Fixpoint c_stmt (i : option ctx) (x : wstmt) : list act * bool :=
  match x with
  | See => ([ALook i], false)
  | Throw _ => ([], true)
  | With c body => let (l, e) := c_seq (c_stmt (Some c)) body in (entering c ++ l ++ leaving, e)
  | Catch body => let (l, _) := c_seq (c_stmt i) body in (l, false)
  end.
Definition thread_of (p : list wstmt) : thr := mkThr (fst (c_seq (c_stmt None) p)) None.
End Compile.
(** thread number [i] does its next step; nothing if it has none *)
Definition tick (i : nat) (w : mgr * list thr * list seen) : mgr * list thr * list seen :=
  let '(m, ts, o) := w in
  match nth_error ts i with
  | Some (mkThr (a :: r) g) => let '(m1, g1, o1) := act_do a m g in (m1, firstn i ts ++ mkThr r g1 :: skipn (Datatypes.S i) ts, o ++ o1)
  | _ => w
  end.
Definition ticks (schedule : list nat) (w : mgr * list thr * list seen) : mgr * list thr * list seen := fold_left (fun w i => tick i w) schedule w.
(** the programs [ps], each in its own thread, on an object whose manager is [m] *)
Definition at_start (lock : bool) (ps : list (list wstmt)) (m : mgr) : mgr * list thr * list seen := (m, map (thread_of lock) ps, []).
