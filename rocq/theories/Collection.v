(** citrine/storage/collection.py *)
From Verif Require Import Base Value BTree Float53 Utils.
Open Scope Z_scope.

(** collection.py:80-134 [Collection] with its [CollectionMeta] (35-77): uuid, max_size, strict flag and
    the BTree. Simplification: uuids are numbers; [uuid4()] is supplied by the caller of the model. *)
Record collection := mkC {
  c_uuid : N;
  c_max : Z;
  c_strict : bool;
  c_tree : tree pyval
}.

Definition c_with_tree (c : collection) (t : tree pyval) : collection :=
  mkC (c_uuid c) (c_max c) (c_strict c) t.
(** collection.py:115-117, strict setter *)
Definition c_set_strict (b : bool) (c : collection) : collection :=
  mkC (c_uuid c) (c_max c) b (c_tree c).

(** collection.py:123-132 [__init__]: [max_size if max_size else DEFAULT_COLLECTION_SIZE]
    ([None] and 0 are falsy) *)
Definition new_collection (uuid : N) (max_size : option Z) (strict : bool) : collection :=
  mkC uuid
      (match max_size with
       | None => DEFAULT_COLLECTION_SIZE
       | Some z => if z =? 0 then DEFAULT_COLLECTION_SIZE else z
       end)
      strict [].

(** collection.py:53-56 [size] *)
Definition c_size (c : collection) : Z := Z.of_nat (length (bt_keys (c_tree c))).
(** collection.py:58-61 [usage], as the binary64 value of [size / max_size] (max_size > 0) *)
Definition c_usage (c : collection) : Z := f_div (c_size c) (c_max c).
(** collection.py:63-70 [status]: [max(v for v in LEVELS if v <= ceil(usage * 100))];
    [max] of an empty sequence raises ValueError (only possible for a negative max_size). *)
Definition LEVELS : list Z := [0; 60; 70; 80; 90].
Definition ceil_percent (size mx : Z) : Z :=
  if 0 <? mx then f_ceil (f_mul_const (f_div size mx) 100 1)
  else - f_trunc (f_mul_const (f_div size (- mx)) 100 1).
Definition zmax_list (d : Z) (l : list Z) : Z := fold_left Z.max l d.
Definition status_of (size mx : Z) : res Z :=
  match filter (fun v => v <=? ceil_percent size mx) LEVELS with
  | [] => Err ValueError
  | v :: r => Ok (zmax_list v r)
  end.
Definition c_status (c : collection) : res Z := status_of (c_size c) (c_max c).

(** collection.py:134-140 [get] *)
Definition c_get (k : pystr) (dflt : pyval) (c : collection) : pyval :=
  match bt_get k (c_tree c) with Some v => v | None => dflt end.
(** collection.py:281-287 [has_key] *)
Definition c_has_key (k : pystr) (c : collection) : bool := bt_has k (c_tree c).

(** collection.py:142-154 [insert] *)
Definition c_insert (k : pystr) (v : pyval) (c : collection) : collection * res Z :=
  if (c_max c <=? c_size c) && c_strict c then (c, Err CollectionCapacityError)
  else let (t, r) := bt_insert k v (c_tree c) in (c_with_tree c t, Ok r).

(** collection.py:156-168 [update]; [d] is a Python dict (keys distinct) *)
Definition c_new_keys (d : list (pystr * pyval)) (c : collection) : list pystr :=
  filter (fun k => negb (mem_str k (bt_keys (c_tree c)))) (map fst d).
Definition c_update (d : list (pystr * pyval)) (c : collection) : collection * res unit :=
  if (c_max c <? c_size c + Z.of_nat (length (c_new_keys d c))) && c_strict c
  then (c, Err CollectionCapacityError)
  else (c_with_tree c (bt_update d (c_tree c)), Ok tt).

(** collection.py:170-179 [pop] *)
Definition c_pop (k : pystr) (dflt : pyval) (c : collection) : collection * res pyval :=
  if negb (mem_str k (bt_keys (c_tree c))) && is_none dflt then (c, Err KeyError)
  else match bt_get k (c_tree c) with
       | Some v => (c_with_tree c (bt_del k (c_tree c)), Ok v)
       | None => (c, Ok dflt)
       end.
(** collection.py:181-186 [popitem] *)
Definition c_popitem (c : collection) : collection * res (pystr * pyval) :=
  let (t, r) := bt_popitem (c_tree c) in (c_with_tree c t, r).
(** collection.py:188-196 [setdefault]: no capacity check *)
Definition c_setdefault (k : pystr) (v : pyval) (c : collection) : collection * res pyval :=
  match bt_get k (c_tree c) with
  | Some w => (c, Ok w)
  | None => (c_with_tree c (bt_set k v (c_tree c)), Ok v)
  end.
(** collection.py:198-202 [clear] *)
Definition c_clear (c : collection) : collection := c_with_tree c [].

(** collection.py:204-209, 221-226, 238-243 [keys], [values], [items] *)
Definition c_keys (c : collection) : list pystr := bt_keys (c_tree c).
Definition c_values (c : collection) : list pyval := bt_values (c_tree c).
Definition c_items (c : collection) : list (pystr * pyval) := c_tree c.
(** collection.py:245-253 [iteritems], 211-219 [iterkeys], 228-236 [itervalues] *)
Definition c_iteritems (lo hi : option pystr) (c : collection) : list (pystr * pyval) :=
  bt_range lo hi (c_tree c).
Definition c_iterkeys (lo hi : option pystr) (c : collection) : list pystr :=
  map fst (c_iteritems lo hi c).
Definition c_itervalues (lo hi : option pystr) (c : collection) : list pyval :=
  map snd (bt_range lo hi (c_tree c)).
(** collection.py:255-261 [byValue] *)
Definition c_byvalue (mn : pyval) (c : collection) : res (list (pyval * pystr)) :=
  bt_byvalue mn (c_tree c).
(** collection.py:263-270 [maxKey], 272-279 [minKey] *)
Definition c_maxkey (hi : option pystr) (c : collection) : res pystr := bt_maxkey hi (c_tree c).
Definition c_minkey (lo : option pystr) (c : collection) : res pystr := bt_minkey lo (c_tree c).

(** ** Operation histories *)
Inductive mop :=
| Insert (k : pystr) (v : pyval)
| Update (d : list (pystr * pyval))
| Pop (k : pystr) (dflt : pyval)
| Popitem
| Setdefault (k : pystr) (v : pyval)
| Clear.
Inductive mout :=
| OInt (z : Z) | OVal (v : pyval) | OPair (k : pystr) (v : pyval) | ONone | ORaise (e : exn).
Definition out {A} (f : A -> mout) (r : res A) : mout := match r with Ok a => f a | Err e => ORaise e end.

Definition c_step (c : collection) (o : mop) : collection * mout :=
  match o with
  | Insert k v => let (c', r) := c_insert k v c in (c', out OInt r)
  | Update d => let (c', r) := c_update d c in (c', out (fun _ => ONone) r)
  | Pop k dflt => let (c', r) := c_pop k dflt c in (c', out OVal r)
  | Popitem => let (c', r) := c_popitem c in (c', out (fun kv => OPair (fst kv) (snd kv)) r)
  | Setdefault k v => let (c', r) := c_setdefault k v c in (c', out OVal r)
  | Clear => (c_clear c, ONone)
  end.
Definition c_run (ops : list mop) (c : collection) : collection :=
  fold_left (fun c o => fst (c_step c o)) ops c.
