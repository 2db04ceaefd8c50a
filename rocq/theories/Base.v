(** Shared vocabulary of the models: Python exceptions as values, Python strings. *)
From Coq Require Export List Bool Arith ZArith NArith Lia.
From Coq Require Import String Ascii.
Export ListNotations.
Set Implicit Arguments.

(** Exceptions are modelled by their class only (messages are not modelled). *)
Inductive exn : Type :=
| KeyError | ValueError | TypeError | AttributeError | IndexError
| ZeroDivisionError | OverflowError | StopIteration | UnicodeEncodeError
| NotImplementedError | ImportError | ModuleNotFoundError
| FileNotFoundError | FileExistsError | OSErrorNotEmpty | IOError | NotADirectoryError
| CollectionCapacityError        (* citrine/storage/collection.py:22-25 *)
| GroupCapacityError             (* citrine/storage/group.py:30-33 *)
| ObjectOverwriteError           (* citrine/exceptions.py:41-48 *)
| IncompatibleDatabaseError      (* citrine/exceptions.py:34-39 *)
| IncompatibleMethodError        (* citrine/exceptions.py:5-21 *)
| TransactionFailedError         (* of the transaction package *)
| ConflictError                  (* of ZODB.POSException: another transaction changed the same data *)
| ExceptionGroup | UnboundLocalError
| IsADirectoryError | SystemExit
| JsonLdError
| RecursionError
| OutOfModel                     (* not a Python exception: the model ran out of fuel *)
| UserError (n : N).             (* any exception raised by caller-supplied code *)

(** Result of a call: a value or a raised exception. *)
Inductive res (A : Type) : Type := Ok (a : A) | Err (e : exn).
Arguments Ok {A} a.
Arguments Err {A} e.

Definition is_ok {A} (r : res A) : bool := match r with Ok _ => true | Err _ => false end.
Definition rbind {A B} (r : res A) (f : A -> res B) : res B :=
  match r with Ok a => f a | Err e => Err e end.

(** [mapM f l]: a Python list comprehension [[f(x) for x in l]] whose body may raise. *)
Fixpoint mapM {A B} (f : A -> res B) (l : list A) : res (list B) :=
  match l with
  | [] => Ok []
  | x :: xs => match f x with
               | Err e => Err e
               | Ok y => match mapM f xs with Err e => Err e | Ok ys => Ok (y :: ys) end
               end
  end.

(** A Python [str] is a sequence of code points. *)
Definition pystr := list N.

Fixpoint py (s : string) : pystr :=
  match s with
  | EmptyString => []
  | String c s' => N_of_ascii c :: py s'
  end.

(** Python's [<], [==] on [str]: lexicographic by code point. *)
Fixpoint str_compare (a b : pystr) : comparison :=
  match a, b with
  | [], [] => Eq
  | [], _ :: _ => Lt
  | _ :: _, [] => Gt
  | x :: a', y :: b' => match N.compare x y with Eq => str_compare a' b' | c => c end
  end.
Definition str_eqb (a b : pystr) : bool := match str_compare a b with Eq => true | _ => false end.
Definition str_ltb (a b : pystr) : bool := match str_compare a b with Lt => true | _ => false end.
Definition str_leb (a b : pystr) : bool := match str_compare a b with Gt => false | _ => true end.

(** [s.startswith(p)] *)
Fixpoint startswith (p s : pystr) : bool :=
  match p, s with
  | [], _ => true
  | x :: p', y :: s' => N.eqb x y && startswith p' s'
  | _, [] => false
  end.
(** [p in s] for strings: substring test. *)
Fixpoint is_substr (p s : pystr) : bool :=
  startswith p s || match s with [] => false | _ :: s' => is_substr p s' end.

Definition mem_str (x : pystr) (l : list pystr) : bool := existsb (str_eqb x) l.

(** ** UTF-8, [str.encode()] *)
Definition utf8_char (c : N) : option (list N) :=
  (if c <? 128 then Some [c]
   else if c <? 2048 then Some [192 + c / 64; 128 + c mod 64]
   else if (55296 <=? c) && (c <=? 57343) then None            (* lone surrogate *)
   else if c <? 65536 then Some [224 + c / 4096; 128 + (c / 64) mod 64; 128 + c mod 64]
   else if c <? 1114112 then
     Some [240 + c / 262144; 128 + (c / 4096) mod 64; 128 + (c / 64) mod 64; 128 + c mod 64]
   else None)%N.     (* not a Python code point: such strings do not exist *)

Fixpoint encode (s : pystr) : res (list N) :=
  match s with
  | [] => Ok []
  | c :: s' => match utf8_char c with
               | None => Err UnicodeEncodeError
               | Some bs => match encode s' with Ok r => Ok (bs ++ r) | Err e => Err e end
               end
  end.

(** [int.from_bytes(bs, 'big')] *)
Definition from_bytes (bs : list N) : N := fold_left (fun acc b => acc * 256 + b)%N bs 0%N.
