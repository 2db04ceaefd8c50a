(** jsonld/base.py: contextual properties and the context manager *)
From Verif Require Import Base.
Set Implicit Arguments.

(** a context: None, or an identifier *)
Definition ctx := option pystr.
Definition ctx_eqb (a b : ctx) : bool :=
  match a, b with None, None => true | Some x, Some y => str_eqb x y | _, _ => false end.

Section Property.
(** an owner object, the values properties take, and how to find the owner's current context
    (base.py:49-53 [get_context]; an owner without manager has context None) *)
Variables (Ow V : Type) (context_of : Ow -> ctx).
(** registered functions: they may change the owner and may raise *)
Inductive fn : Type :=
| GetFn (f : Ow -> Ow * res V) | SetFn (f : Ow -> V -> Ow * res unit) | DelFn (f : Ow -> Ow * res unit)
| NoFn.                                                  (* base.py:22-32 the NO_GETTER/NO_SETTER/NO_DELETER methods *)
(** a dict from contexts to functions *)
Definition table := list (ctx * fn).
Fixpoint t_get (c : ctx) (t : table) : option fn :=
  match t with [] => None | (d, f) :: t' => if ctx_eqb c d then Some f else t_get c t' end.
Fixpoint t_set (c : ctx) (f : fn) (t : table) : table :=
  match t with [] => [(c, f)] | (d, g) :: t' => if ctx_eqb c d then (d, f) :: t' else (d, g) :: t_set c f t' end.
(** dicts are mutable objects: a store of them, and a property holding three references *)
Definition store := list table.
Record prop := mkProp { p_get : nat; p_set : nat; p_del : nat }.
Definition cell (s : store) (a : nat) : table := nth a s [].
Fixpoint put_cell (a : nat) (t : table) (s : store) : store :=
  match s, a with [] , _ => [] | _ :: s', O => t :: s' | x :: s', S a' => x :: put_cell a' t s' end.
Definition alloc (t : table) (s : store) : store * nat := (s ++ [t], length s).

(** base.py:34-47 [__init__] *)
Definition new_prop (fget fset fdel : fn) (s : store) : store * prop :=
  let (s1, g) := alloc [(None, fget)] s in
  let (s2, w) := alloc [(None, fset)] s1 in
  let (s3, d) := alloc [(None, fdel)] s2 in
  (s3, mkProp g w d).
(** base.py:158-163 [__copy__]: three dict copies *)
Definition copy_prop (p : prop) (s : store) : store * prop :=
  let (s0, _) := new_prop NoFn NoFn NoFn s in
  let (s1, g) := alloc (cell s0 (p_get p)) s0 in
  let (s2, w) := alloc (cell s1 (p_set p)) s1 in
  let (s3, d) := alloc (cell s2 (p_del p)) s2 in
  (s3, mkProp g w d).
(** base.py:89-120 [setter], [getter], [deleter] *)
Inductive slot := Getting | Setting | Deleting.
Definition ref (k : slot) (p : prop) : nat := match k with Getting => p_get p | Setting => p_set p | Deleting => p_del p end.
Definition decorate (k : slot) (f : fn) (p : prop) (s : store) : store * prop :=
  let (s1, q) := copy_prop p s in
  (put_cell (ref k q) (t_set None f (cell s1 (ref k q))) s1, q).
(** base.py:122-156 [setter_context], [getter_context], [deleter_context]: change [p] itself and return it *)
Definition decorate_context (k : slot) (c : ctx) (f : fn) (p : prop) (s : store) : store * prop :=
  (put_cell (ref k p) (t_set c f (cell s (ref k p))) s, p).

(** base.py:55-87: the function that [__fget], [__fset], [__fdel] pick *)
Definition pick (k : slot) (p : prop) (s : store) (c : ctx) : fn :=
  let t := cell s (ref k p) in
  let c' := match t_get c t with Some _ => c | None => None end in
  match t_get c' t with Some f => f | None => NoFn end.
(** reading, assigning and deleting the attribute *)
Definition read_attr (s : store) (p : prop) (o : Ow) : Ow * res V :=
  match pick Getting p s (context_of o) with GetFn f => f o | NoFn => (o, Err AttributeError) | _ => (o, Err TypeError) end.
Definition assign_attr (s : store) (p : prop) (o : Ow) (v : V) : Ow * res unit :=
  match pick Setting p s (context_of o) with SetFn f => f o v | NoFn => (o, Err AttributeError) | _ => (o, Err TypeError) end.
Definition delete_attr (s : store) (p : prop) (o : Ow) : Ow * res unit :=
  match pick Deleting p s (context_of o) with DelFn f => f o | NoFn => (o, Err AttributeError) | _ => (o, Err TypeError) end.

(** sequences of decorator uses on the properties created so far (numbered in order of creation) *)
Inductive dop :=
| DNew (fget fset fdel : fn)
| DCopy (k : slot) (f : fn) (p : nat)               (* p.getter(f) etc. *)
| DContext (k : slot) (c : ctx) (f : fn) (p : nat). (* p.getter_context(c)(f) etc. *)
Definition world := (store * list prop)%type.
Definition d_step (o : dop) (w : world) : world :=
  let (s, ps) := w in
  match o with
  | DNew g t d => let (s1, q) := new_prop g t d s in (s1, ps ++ [q])
  | DCopy k f i => match nth_error ps i with
                   | Some p => let (s1, q) := decorate k f p s in (s1, ps ++ [q])
                   | None => w
                   end
  | DContext k c f i => match nth_error ps i with
                        | Some p => let (s1, _) := decorate_context k c f p s in (s1, ps)
                        | None => w
                        end
  end.
Definition d_run (ops : list dop) (w : world) : world := fold_left (fun w o => d_step o w) ops w.
End Property.

(** ** base.py:203-225 [JsonContextAwareManager] *)
Record mgr := mkMgr { m_stack : list ctx; m_context : ctx; m_active : bool }.
Definition mgr_new : mgr := mkMgr [] None false.
(** base.py:214-217 [__call__], 219-221 [__enter__], 223-225 [__exit__]; base.py:332-334 [switch_context] is [__call__] *)
Definition mgr_call (c : ctx) (m : mgr) : mgr := mkMgr (m_context m :: m_stack m) c (m_active m).
Definition mgr_enter (m : mgr) : mgr := mkMgr (m_stack m) (m_context m) true.
Definition mgr_exit (m : mgr) : mgr :=
  match m_stack m with [] => mkMgr [] None false | c :: s => mkMgr s c false end.
(** programs around [with obj.switch_context(c):] blocks. [See] observes the current context. *)
Inductive wstmt :=
| See | Throw (e : exn) | With (c : ctx) (body : list wstmt) | Catch (body : list wstmt).
Definition wout := (mgr * list ctx * option exn)%type.      (* manager, contexts observed, pending exception *)
Definition w_seq (f : wstmt -> mgr -> wout) := fix go (p : list wstmt) (m : mgr) : wout :=
  match p with
  | [] => (m, [], None)
  | x :: p' => match f x m with
               | (m1, seen, Some e) => (m1, seen, Some e)
               | (m1, seen, None) => let '(m2, seen2, e) := go p' m1 in (m2, seen ++ seen2, e)
               end
  end.
Fixpoint w_stmt (x : wstmt) (m : mgr) : wout :=
  match x with
  | See => (m, [m_context m], None)
  | Throw e => (m, [], Some e)
  | With c body => let '(m1, seen, e) := w_seq w_stmt body (mgr_enter (mgr_call c m)) in (mgr_exit m1, seen, e)
  | Catch body => let '(m1, seen, _) := w_seq w_stmt body m in (m1, seen, None)
  end.
Definition w_run (p : list wstmt) (m : mgr) : wout := w_seq w_stmt p m.
