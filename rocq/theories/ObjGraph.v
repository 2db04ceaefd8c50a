(** jsonld/jsonld.py [PropertyJsonLD.data] on object graphs: objects that are shared, or that lead back to themselves.
    JsonData models [data] on trees of values; here objects live in a heap and are mentioned by number. *)
From Verif Require Import Base Dict Context JsonData.
From Coq Require Import String.
Open Scope list_scope.
Set Implicit Arguments.

(** values that are neither objects nor containers: jsonld.py:46-48, 63 *)
Inductive leaf : Type := LNone | LBool (b : bool) | LInt (z : Z) | LFloat (repr : pystr) | LStr (s : pystr) | LOther (str : pystr).
Definition leaf_val (x : leaf) : jval :=
  match x with LNone => JNone | LBool b => JBool b | LInt z => JInt z | LFloat r => JFloat r | LStr s => JStr s | LOther s => JOther s end.
(** the values a property can have: [HVal x] one of these, [HSeq] any sequence or other iterable
    (jsonld.py:49-51, 61-62), [HDict] a dict, [HRef o] the object numbered [o] *)
Inductive hval : Type := HVal (x : leaf) | HSeq (l : list hval) | HDict (d : list (pystr * hval)) | HRef (o : nat).
Definition hprops := list (pystr * (ctx -> res hval)).
(** the properties of every object, in the order of [__properties__], with their getters (jsonld.py:86-87) *)
Definition heap := nat -> hprops.
(** the arguments of [data] (jsonld.py:66-68), as in JsonData, with [h_reject v] for [v in reject_values] *)
Record hargs := mkHArgs { h_include : sel; h_exclude : sel; h_rename : dict pystr; h_none : bool; h_reject : hval -> bool; h_context : ctx }.
(** jsonld.py:58 [value.data(exclude='acontext')] *)
Definition h_nested : hargs := mkHArgs (Names []) (Sub (py "acontext")) [] false (fun _ => false) json_context.
(** the context manager of every object (contextualproperty.py, [switch_context]) *)
Definition managers := nat -> mgr.
Definition set_mgr (ms : managers) (o : nat) (m : mgr) : managers := fun x => if Nat.eqb x o then m else ms x.
(** what a call does: it returns or raises ([Done]), or the recursion limit is reached ([Deep]: RecursionError).
    Simplification: the limit counts nested calls of [__handler] / [data]; the frames the context manager, the getters and the
    comprehensions need are not counted, so a call that was entered can also leave its [with] block. *)
Inductive outcome (A : Type) := Done (r : res A) | Deep.
Arguments Done {A} r.
Arguments Deep {A}.

Definition is_hnone (v : hval) : bool := match v with HVal LNone => true | _ => false end.
(** jsonld.py:90-95 *)
Definition h_selected (a : hargs) (n : pystr) (g : res hval) : res bool :=
  match (if h_none a then Ok true else match g with Ok v => Ok (negb (is_hnone v)) | Err e => Err e end) with
  | Err e => Err e
  | Ok c1 => if negb (c1 && (negb (sel_truthy (h_include a)) || sel_mem n (h_include a)) && negb (sel_truthy (h_exclude a) && sel_mem n (h_exclude a)))
             then Ok false
             else match g with Ok v => Ok (negb (h_reject a v)) | Err e => Err e end
  end.
(** jsonld.py:83, 87 *)
Definition h_key (a : hargs) (n : pystr) : pystr := match d_get n (d_merge keymap (h_rename a)) with Some m => m | None => n end.

Definition step (A : Type) := managers -> managers * outcome A.
(** jsonld.py:85-95 the dict comprehension. The context in force is read from the object's manager each time a getter runs. *)
Definition h_collect (handler : hval -> step jval) (a : hargs) (o : nat) :=
  fix go (props : hprops) (acc : dict jval) (ms : managers) : managers * outcome (dict jval) :=
  match props with
  | [] => (ms, Done (Ok acc))
  | (n, get) :: rest =>
      match h_selected a n (get (m_context (ms o))) with
      | Err e => (ms, Done (Err e))
      | Ok false => go rest acc ms
      | Ok true => match get (m_context (ms o)) with
                   | Err e => (ms, Done (Err e))
                   | Ok v => match handler v ms with
                             | (ms', Done (Ok w)) => go rest (d_set (h_key a n) w acc) ms'
                             | (ms', Done (Err e)) => (ms', Done (Err e))
                             | (ms', Deep) => (ms', Deep)
                             end
                   end
      end
  end.
(** jsonld.py:100-101 *)
Definition h_drop_none (a : hargs) (d : dict jval) : dict jval := filter (fun p => h_none a || negb (is_jnone (snd p))) d.
(** jsonld.py:80-101 [with self.switch_context(context)] around the comprehension; the block is left in every case *)
Definition h_with (handler : hval -> step jval) (H : heap) (a : hargs) (o : nat) : step (dict jval) := fun ms =>
  let (ms', r) := h_collect handler a o (H o) [] (set_mgr ms o (mgr_enter (mgr_call (h_context a) (ms o)))) in
  (set_mgr ms' o (mgr_exit (ms' o)), match r with Done (Ok d) => Done (Ok (h_drop_none a d)) | _ => r end).
(** jsonld.py:49-53 [[fn(item) for item in val]] and [{key: fn(item) for key, item in val.items()}] *)
Definition h_map {A B} (f : A -> step B) := fix go (l : list A) (ms : managers) : managers * outcome (list B) :=
  match l with
  | [] => (ms, Done (Ok []))
  | x :: l' => match f x ms with
               | (ms1, Done (Ok y)) => match go l' ms1 with (ms2, Done (Ok ys)) => (ms2, Done (Ok (y :: ys))) | r => r end
               | (ms1, Done (Err e)) => (ms1, Done (Err e))
               | (ms1, Deep) => (ms1, Deep)
               end
  end.
Definition h_wrap {A B} (f : A -> B) (r : managers * outcome A) : managers * outcome B :=
  match r with (ms, Done (Ok x)) => (ms, Done (Ok (f x))) | (ms, Done (Err e)) => (ms, Done (Err e)) | (ms, Deep) => (ms, Deep) end.
(** jsonld.py:56-63 [__handler], with at most [n] calls inside each other *)
Fixpoint h_handle (H : heap) (n : nat) (v : hval) : step jval := fun ms =>
  match n with
  | O => (ms, Deep)
  | S n => match v with
           | HVal x => (ms, Done (handle (leaf_val x)))
           | HSeq l => h_wrap JList (h_map (h_handle H n) l ms)
           | HDict d => h_wrap JDict (h_map (fun p ms => h_wrap (fun w => (fst p, w)) (h_handle H n (snd p) ms)) d ms)
           | HRef o => h_wrap JDict (h_with (h_handle H n) H h_nested o ms)
           end
  end.
(** jsonld.py:66-101 [o.data(...)] *)
Definition h_data (H : heap) (n : nat) (a : hargs) (o : nat) : step (dict jval) := h_with (h_handle H n) H a o.
