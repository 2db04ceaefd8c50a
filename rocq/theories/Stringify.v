(** jsonld/engine/utils.py:63-124: [stringify_timedelta], [stringify_datetime], [stringify], [stringify_iterable], [stringify_dict] *)
From Coq Require Import String.
From Verif Require Import Base Duration DateTime.
Set Implicit Arguments.
Open Scope list_scope.

(** A Python value by its exact class, which is what the table utils.py:99-105, 123-124 is searched for. [XOther r] is an object of any other class (None, a bool,
    a subclass of one of these, a library object ...): [r] is what [str()] gives for it, or raises. A float is a token. An object that contains itself is not a
    value here (Python raises RecursionError). A set is the list of its elements in iteration order. *)
Inductive sval :=
| XStr (s : pystr) | XInt (z : Z) | XFloat (f : N)
| XDate (d : datetime) | XDelta (d : timedelta)
| XList (l : list sval) | XTuple (l : list sval) | XSet (l : list sval)
| XDict (l : list (sval * sval))
| XOther (r : res pystr).

(** Two keys of a dict made below: texts, numbers (the numbers among the keys of a dict are already different from each other) *)
Definition same_key (a b : sval) : bool :=
  match a, b with
  | XStr s, XStr t => str_eqb s t
  | XInt x, XInt y => Z.eqb x y
  | XFloat x, XFloat y => N.eqb x y
  | _, _ => false
  end.
(** the hash of a key: a list or dict has none *)
Definition hashable (a : sval) : bool := match a with XStr _ | XInt _ | XFloat _ => true | _ => false end.
(** [d[k] = v]: an existing key keeps its place (and the key object) *)
Fixpoint put (k v : sval) (d : list (sval * sval)) : list (sval * sval) :=
  match d with
  | [] => [(k, v)]
  | (k', v') :: d' => if same_key k' k then (k', v) :: d' else (k', v') :: put k v d'
  end.

(** utils.py:108-120. utils.py:63-86 is the text of datetime.py:46-68 again ([timedelta_str]) and utils.py:89-95 that of datetime.py:71-80 ([datetime_str]);
    [str], [int], [float] of an object of exactly that class is the object *)
Fixpoint stringify (x : sval) : res sval :=
  let each := fix each (l : list sval) : res (list sval) :=                (* utils.py:112-114 *)
    match l with
    | [] => Ok []
    | y :: l' => rbind (stringify y) (fun y1 => rbind (each l') (fun l1 => Ok (y1 :: l1)))
    end in
  let pairs := fix pairs (l : list (sval * sval)) (d : list (sval * sval)) : res (list (sval * sval)) :=      (* utils.py:117-120 *)
    match l with
    | [] => Ok d
    | (k, v) :: l' => rbind (stringify k) (fun k1 => rbind (stringify v) (fun v1 =>
                        if hashable k1 then pairs l' (put k1 v1 d) else Err TypeError))
    end in
  match x with
  | XStr s => Ok (XStr s)
  | XInt z => Ok (XInt z)
  | XFloat f => Ok (XFloat f)
  | XDate d => Ok (XStr (datetime_str d))
  | XDelta d => Ok (XStr (timedelta_str d))
  | XList l | XTuple l | XSet l => rbind (each l) (fun l1 => Ok (XList l1))
  | XDict l => rbind (pairs l []) (fun d => Ok (XDict d))
  | XOther r => rbind r (fun s => Ok (XStr s))
  end.
