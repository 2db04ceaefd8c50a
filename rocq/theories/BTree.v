(** BTrees.OOBTree.BTree (third-party) as a finite map sorted by key. Only its documented mapping
    behaviour is modelled (keys are [str]); this file is part of the trusted base. *)
From Verif Require Import Base Value.
Set Implicit Arguments.

Section Tree.
Variable V : Type.
Definition tree := list (pystr * V).

Fixpoint bt_get (k : pystr) (t : tree) : option V :=
  match t with
  | [] => None
  | (k', v) :: t' => if str_eqb k k' then Some v else bt_get k t'
  end.
Definition bt_has (k : pystr) (t : tree) : bool := match bt_get k t with Some _ => true | None => false end.

(** [tree[k] = v] *)
Fixpoint bt_set (k : pystr) (v : V) (t : tree) : tree :=
  match t with
  | [] => [(k, v)]
  | (k', v') :: t' => match str_compare k k' with
                      | Lt => (k, v) :: (k', v') :: t'
                      | Eq => (k, v) :: t'
                      | Gt => (k', v') :: bt_set k v t'
                      end
  end.
Fixpoint bt_del (k : pystr) (t : tree) : tree :=
  match t with
  | [] => []
  | (k', v') :: t' => if str_eqb k k' then t' else (k', v') :: bt_del k t'
  end.
(** [tree.insert(k, v)]: 1 and store if absent, 0 and keep the old value if present. *)
Definition bt_insert (k : pystr) (v : V) (t : tree) : tree * Z :=
  if bt_has k t then (t, 0%Z) else (bt_set k v t, 1%Z).
(** [tree.update(d)] *)
Definition bt_update (d : list (pystr * V)) (t : tree) : tree :=
  fold_left (fun acc kv => bt_set (fst kv) (snd kv) acc) d t.
Definition bt_keys (t : tree) : list pystr := map fst t.
Definition bt_values (t : tree) : list V := map snd t.

(** A bound argument that is [None] means "no bound". *)
Definition in_lo (lo : option pystr) (k : pystr) : bool :=
  match lo with None => true | Some m => str_leb m k end.
Definition in_hi (hi : option pystr) (k : pystr) : bool :=
  match hi with None => true | Some m => str_leb k m end.
Definition bt_range (lo hi : option pystr) (t : tree) : list (pystr * V) :=
  filter (fun kv => in_lo lo (fst kv) && in_hi hi (fst kv)) t.
(** [tree.minKey(min)] / [tree.maxKey(max)]: ValueError when nothing satisfies the bound. *)
Definition bt_minkey (lo : option pystr) (t : tree) : res pystr :=
  match bt_range lo None t with [] => Err ValueError | (k, _) :: _ => Ok k end.
Definition bt_maxkey (hi : option pystr) (t : tree) : res pystr :=
  match rev (bt_range None hi t) with [] => Err ValueError | (k, _) :: _ => Ok k end.
(** [tree.popitem()]: removes the smallest key; KeyError when empty. *)
Definition bt_popitem (t : tree) : tree * res (pystr * V) :=
  match t with [] => (t, Err KeyError) | kv :: t' => (t', Ok kv) end.
End Tree.

(** ** [tree.byValue(min)] on Python values.
    The C implementation compares with [None] as the smallest value, then sorts the (value, key)
    pairs with [list.sort] (which raises TypeError on incomparable values) and reverses. *)
Definition cmp_none_least (v w : pyval) : option comparison :=
  match v, w with
  | VNone, VNone => Some Eq
  | VNone, _ => Some Lt
  | _, VNone => Some Gt
  | _, _ => if val_eqb v w then Some Eq else val_compare v w
  end.
(** comparison of (value, key) tuples: first component by [==], else by [<] *)
Definition pair_compare (p q : pyval * pystr) : option comparison :=
  if val_eqb (fst p) (fst q) then Some (str_compare (snd p) (snd q))
  else val_compare (fst p) (fst q).
Fixpoint insert_desc (p : pyval * pystr) (l : list (pyval * pystr)) : list (pyval * pystr) :=
  match l with
  | [] => [p]
  | q :: l' => match pair_compare p q with
               | Some Lt => q :: insert_desc p l'
               | _ => p :: l
               end
  end.
Definition all_comparable (l : list (pyval * pystr)) : bool :=
  forallb (fun p => forallb (fun q => match pair_compare p q with None => false | _ => true end) l) l.
(** [sorted(l, reverse=True)] on (value, key) tuples with distinct keys. A comparison sort has to
    compare neighbours of the result, so it raises TypeError iff some pair is incomparable. *)
Definition sorted_desc (l : list (pyval * pystr)) : res (list (pyval * pystr)) :=
  if all_comparable l then Ok (fold_right insert_desc [] l) else Err TypeError.

Definition ge_min (mn v : pyval) : res bool :=
  match cmp_none_least v mn with
  | None => Err TypeError
  | Some Lt => Ok false
  | Some _ => Ok true
  end.
Fixpoint filterM (f : pystr * pyval -> res bool) (t : list (pystr * pyval))
  : res (list (pystr * pyval)) :=
  match t with
  | [] => Ok []
  | kv :: t' => match f kv with
                | Err e => Err e
                | Ok b => match filterM f t' with
                          | Err e => Err e
                          | Ok r => Ok (if b then kv :: r else r)
                          end
                end
  end.
Definition bt_byvalue (mn : pyval) (t : tree pyval) : res (list (pyval * pystr)) :=
  match filterM (fun kv => ge_min mn (snd kv)) t with
  | Err e => Err e
  | Ok l => sorted_desc (map (fun kv => (snd kv, fst kv)) l)
  end.
