(** jsonld/jsonld.py [PropertyJsonLD.data] *)
From Verif Require Import Base Dict Context.
From Coq Require Import String.
Open Scope list_scope.
Set Implicit Arguments.

(** Python values a property can have. Simplifications: dict keys are strings; objects form finite trees (a cyclic object graph makes
    Python raise RecursionError); a getter gives the same result each time it is called in the same context. *)
Inductive jval : Type :=
| JNone | JBool (b : bool) | JInt (z : Z) | JFloat (repr : pystr) | JStr (s : pystr)
| JList (l : list jval) | JTuple (l : list jval) | JSet (l : list jval)
| JDict (d : list (pystr * jval))
| JIter (l : list jval)                            (* any other iterable: what iterating it yields *)
| JOther (str : pystr)                             (* anything else: its str() *)
| JObj (props : list (pystr * (ctx -> res jval))). (* a PropertyJsonLD: the names in [__properties__], in their order, with their getters *)

(** utils.py:6 *)
Definition json_context : ctx := Some (py "_JSONLD_OUTPUT_CONTEXT_").
(** utils.py:9-33 [JSON_LD_KEYMAP] *)
Definition keymap : dict pystr :=
  map (fun n => (97%N :: py n, 64%N :: py n))
    ["base"; "container"; "context"; "direction"; "graph"; "id"; "import"; "included"; "index"; "json"; "language"; "list"; "nest"; "none";
     "prefix"; "propagate"; "protected"; "reverse"; "set"; "type"; "value"; "version"; "vocab"]%string.

(** an [include] / [exclude] argument: a collection of names, or a string ([prop in s] is then a substring test) *)
Inductive sel := Names (l : list pystr) | Sub (s : pystr).
Definition sel_truthy (x : sel) : bool := match x with Names [] | Sub [] => false | _ => true end.
Definition sel_mem (n : pystr) (x : sel) : bool := match x with Names l => mem_str n l | Sub s => is_substr n s end.
(** the arguments of [data]; [a_reject v] is [v in reject_values]; [transforms] is never used by the code *)
Record dargs := mkArgs { a_include : sel; a_exclude : sel; a_rename : dict pystr; a_none : bool; a_reject : jval -> bool; a_context : ctx }.
(** jsonld.py:58 the arguments for nested objects *)
Definition nested_args : dargs := mkArgs (Names []) (Sub (py "acontext")) [] false (fun _ => false) json_context.

Definition is_jnone (v : jval) : bool := match v with JNone => true | _ => false end.
(** jsonld.py:84, 87 the output key *)
Definition out_key (a : dargs) (n : pystr) : pystr := match d_get n (d_merge keymap (a_rename a)) with Some m => m | None => n end.
(** jsonld.py:90-95, with the short-circuits of [and]/[or] *)
Definition selected (a : dargs) (n : pystr) (g : res jval) : res bool :=
  match (if a_none a then Ok true else match g with Ok v => Ok (negb (is_jnone v)) | Err e => Err e end) with
  | Err e => Err e
  | Ok c1 => if negb (c1 && (negb (sel_truthy (a_include a)) || sel_mem n (a_include a)) && negb (sel_truthy (a_exclude a) && sel_mem n (a_exclude a)))
             then Ok false
             else match g with Ok v => Ok (negb (a_reject a v)) | Err e => Err e end
  end.
(** jsonld.py:85-95 the dict comprehension: output keys with handled values, in order; later duplicates of a key win.
    [handle] is the method [__handler]. *)
Definition collect (handle : jval -> res jval) (a : dargs) := fix go (props : list (pystr * (ctx -> res jval))) (acc : dict jval) : res (dict jval) :=
  match props with
  | [] => Ok acc
  | (n, get) :: rest =>
      match selected a n (get (a_context a)) with
      | Err e => Err e
      | Ok false => go rest acc
      | Ok true => match (match get (a_context a) with Ok v => handle v | Err e => Err e end) with
                   | Err e => Err e
                   | Ok w => go rest (d_set (out_key a n) w acc)
                   end
      end
  end.
(** jsonld.py:100-101 the second None filter *)
Definition drop_none (a : dargs) (d : dict jval) : dict jval := filter (fun p => a_none a || negb (is_jnone (snd p))) d.

(** jsonld.py:45-63 [__handler] and its table of functions; [type(value)] is compared exactly, so a bool is not an int *)
Definition map_res {A B} (f : A -> res B) := fix go (l : list A) : res (list B) :=
  match l with [] => Ok [] | x :: l' => match f x with Err e => Err e | Ok y => match go l' with Err e => Err e | Ok ys => Ok (y :: ys) end end end.
Fixpoint handle (v : jval) : res jval :=
  match v with
  | JObj props => match collect handle nested_args props [] with Ok d => Ok (JDict (drop_none nested_args d)) | Err e => Err e end
  | JStr s => Ok (JStr s) | JInt z => Ok (JInt z) | JFloat r => Ok (JFloat r)
  | JList l | JTuple l | JSet l | JIter l => match map_res handle l with Ok ys => Ok (JList ys) | Err e => Err e end
  | JDict d => match map_res (fun p => match handle (snd p) with Ok w => Ok (fst p, w) | Err e => Err e end) d with Ok ys => Ok (JDict ys) | Err e => Err e end
  | JNone => Ok (JStr (py "None"))
  | JBool b => Ok (JStr (py (if b then "True" else "False")))
  | JOther s => Ok (JStr s)
  end.
(** jsonld.py:66-101 [data]: what it returns, given the object's properties *)
Definition data (a : dargs) (props : list (pystr * (ctx -> res jval))) : res (dict jval) :=
  match collect handle a props [] with Ok d => Ok (drop_none a d) | Err e => Err e end.

(** ... and what it does to the object's context manager: [with self.switch_context(context)] around the comprehension, the context
    in force being the one the getters see *)
Definition with_context (a : dargs) (c : ctx) : dargs := mkArgs (a_include a) (a_exclude a) (a_rename a) (a_none a) (a_reject a) c.
Definition data_call (m : mgr) (a : dargs) (props : list (pystr * (ctx -> res jval))) : mgr * res (dict jval) :=
  let m1 := mgr_enter (mgr_call (a_context a) m) in
  let r := collect handle (with_context a (m_context m1)) props [] in
  (mgr_exit m1, match r with Ok d => Ok (drop_none a d) | Err e => Err e end).
