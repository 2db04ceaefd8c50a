(** citrine/storage/group.py *)
From Verif Require Import Base Value BTree Float53 Utils Collection.
Open Scope Z_scope.
Set Implicit Arguments.

(** group.py:119-221 [Group]: the tuple of its collections ([GroupMeta], 69-116, holds the same
    collection objects). *)
Definition group := list collection.

Definition zsum (l : list Z) : Z := fold_right Z.add 0 l.

(** group.py:15-16 [get_group_index]: [int.from_bytes(id.encode()) % num_collections] *)
Definition get_group_index (id : pystr) (num : nat) : res nat :=
  match encode id with
  | Err e => Err e
  | Ok bs => match num with
             | O => Err ZeroDivisionError
             | S _ => Ok (N.to_nat (N.modulo (from_bytes bs) (N.of_nat num)))
             end
  end.

(** group.py:132-137/75-77 [size], 139-144/79-81 [max_size] *)
Definition g_size (g : group) : Z := zsum (map c_size g).
Definition g_max (g : group) : Z := zsum (map c_max g).
(** group.py:83-85 [max_collection_size]; [max] of nothing raises ValueError *)
Definition g_max_collection_size (g : group) : res Z :=
  match map c_max g with [] => Err ValueError | m :: r => Ok (zmax_list m r) end.
(** group.py:105-112 [status] *)
Definition g_status (g : group) : res Z :=
  match mapM c_status g with
  | Err e => Err e
  | Ok [] => Err ValueError
  | Ok (m :: r) => Ok (zmax_list m r)
  end.
(** group.py:203-205 [strict] getter *)
Definition g_strict (g : group) : bool := forallb c_strict g.
(** group.py:207-212 [strict] setter *)
Definition g_set_strict (v : pyval) (g : group) : group * res unit :=
  match v with
  | VBool b => (map (c_set_strict b) g, Ok tt)
  | _ => (g, Err TypeError)
  end.
(** group.py:214-221 [__init__]. Simplification: when it raises, the collections passed in are
    unchanged and no group exists. *)
Fixpoint uuids_nodup (l : list N) : bool :=
  match l with [] => true | x :: r => negb (existsb (N.eqb x) r) && uuids_nodup r end.
Definition group_init (cs : list collection) (strict : pyval) : res group :=
  if uuids_nodup (map c_uuid cs) then
    match g_set_strict strict cs with (g, Ok _) => Ok g | (_, Err e) => Err e end
  else Err KeyError.

(** group.py:223-292 [new]. [u0]: the [uuid4()] calls return [u0, u0+1, ...] (trusted: distinct).
    A key of [custom] is an int or something else. [strict] is only passed to collections whose flag
    [Group.__init__] then overwrites with False. Result: the group and the caller's [custom] dict
    as the call leaves it. *)
Inductive ckey := CInt (z : Z) | COther (n : N).
Definition ckey_int (k : ckey) : option Z := match k with CInt z => Some z | COther _ => None end.
Definition is_cint (k : ckey) : bool := match k with CInt _ => true | COther _ => false end.
Definition new_collections (u0 : N) (strict : bool) (sizes : list Z) : list collection :=
  map (fun p => new_collection (u0 + N.of_nat (fst p))%N (Some (snd p)) strict)
      (combine (seq 0 (length sizes)) sizes).
Fixpoint ins_key (p : Z * Z) (l : list (Z * Z)) : list (Z * Z) :=
  match l with
  | [] => [p]
  | q :: l' => if fst p <=? fst q then p :: l else q :: ins_key p l'
  end.
(** [sorted(custom.items())] for distinct integer keys *)
Definition sort_keys (l : list (Z * Z)) : list (Z * Z) := fold_right ins_key [] l.
Definition cints (custom : list (ckey * Z)) : list (Z * Z) :=
  flat_map (fun p => match fst p with CInt z => [(z, snd p)] | COther _ => [] end) custom.
Definition group_new (u0 : N) (size : option Z) (mcs : Z) (strict : bool)
    (custom : list (ckey * Z)) : res group * list (ckey * Z) :=
  let size_falsy := match size with None => true | Some z => z =? 0 end in
  match custom with
  | [] =>
      (if size_falsy then Err ValueError
       else if mcs <=? 0 then Err ValueError
       else group_init (new_collections u0 false
                          (repeat mcs (match size with Some z => Z.to_nat z | None => O end)))
                       (VBool false), custom)
  | _ =>
      if negb (forallb (fun p => is_cint (fst p)) custom) then (Err KeyError, custom)
      else
        let keys := map fst (cints custom) in
        let mx := zmax_list (hd 0 keys) keys in
        let size' := if size_falsy then mx else match size with Some z => z | None => mx end in
        if negb (size' =? 0) && (size' <? mx) then (Err KeyError, custom)
        else
          let gaps := filter (fun k => negb (existsb (Z.eqb k) keys)) (zrange 0 size') in
          let custom' := custom ++ map (fun k => (CInt k, mcs)) gaps in
          if existsb (fun p => snd p <=? 0) custom' then (Err ValueError, custom')
          else (group_init (new_collections u0 strict (map snd (sort_keys (cints custom'))))
                           (VBool false), custom')
  end.

(** [self.___collections___[i] = c'] seen from the outside: collection [i] was mutated *)
Fixpoint set_nth {A} (i : nat) (x : A) (l : list A) : list A :=
  match l, i with
  | [], _ => []
  | _ :: r, O => x :: r
  | y :: r, S i' => y :: set_nth i' x r
  end.
(** group.py:19-27 [groupfn]: run a Collection method on the collection the key routes to *)
Definition groupfn {A} (key : pystr) (f : collection -> collection * res A) (g : group)
  : group * res A :=
  match get_group_index key (length g) with
  | Err e => (g, Err e)
  | Ok i => match nth_error g i with
            | None => (g, Err IndexError)
            | Some c => let (c', r) := f c in (set_nth i c' g, r)
            end
  end.

(** group.py:36-66 views, 372-377 [keys], 405-410 [values], 438-443 [items] *)
Definition g_keys (g : group) : list pystr := flat_map c_keys g.
Definition g_values (g : group) : list pyval := flat_map c_values g.
Definition g_items (g : group) : list (pystr * pyval) := flat_map c_items g.

(** group.py:294-301 [get] *)
Definition g_get (key : pystr) (dflt : pyval) (g : group) : res pyval :=
  snd (groupfn key (fun c => (c, Ok (c_get key dflt c))) g).
(** group.py:510-517 [has_key] *)
Definition g_has_key (key : pystr) (g : group) : res bool :=
  snd (groupfn key (fun c => (c, Ok (c_has_key key c))) g).
(** group.py:303-316 [insert]: the index is computed first (groupfn), then the capacity check *)
Definition g_insert (key : pystr) (v : pyval) (g : group) : group * res Z :=
  match get_group_index key (length g) with
  | Err e => (g, Err e)
  | Ok _ =>
      if (g_max g <=? g_size g) && negb (mem_str key (g_keys g)) && g_strict g
      then (g, Err GroupCapacityError)
      else groupfn key (c_insert key v) g
  end.
(** group.py:318-336 [update]: capacity check; split [d] by index; update the collections with a
    non-empty share in index order, stopping at the first that raises *)
Definition share (d : list (pystr * pyval)) (n i : nat) : list (pystr * pyval) :=
  filter (fun kv => match get_group_index (fst kv) n with Ok j => Nat.eqb j i | Err _ => false end) d.
Fixpoint update_from (d : list (pystr * pyval)) (n i : nat) (g : group) : group * res unit :=
  match g with
  | [] => ([], Ok tt)
  | c :: g' =>
      match share d n i with
      | [] => let (g2, r) := update_from d n (S i) g' in (c :: g2, r)
      | s => match c_update s c with
             | (c', Err e) => (c' :: g', Err e)
             | (c', Ok _) => let (g2, r) := update_from d n (S i) g' in (c' :: g2, r)
             end
      end
  end.
Definition g_update (d : list (pystr * pyval)) (g : group) : group * res unit :=
  let new_keys := filter (fun k => negb (mem_str k (g_keys g))) (map fst d) in
  if (g_max g <? Z.of_nat (length new_keys) + g_size g) && g_strict g
  then (g, Err GroupCapacityError)
  else match mapM (fun kv => get_group_index (fst kv) (length g)) d with
       | Err e => (g, Err e)
       | Ok _ => update_from d (length g) 0 g
       end.
(** group.py:338-346 [pop], 355-364 [setdefault] *)
Definition g_pop (key : pystr) (dflt : pyval) (g : group) : group * res pyval :=
  groupfn key (c_pop key dflt) g.
Definition g_setdefault (key : pystr) (v : pyval) (g : group) : group * res pyval :=
  groupfn key (c_setdefault key v) g.
(** group.py:366-370 [clear] *)
Definition g_clear (g : group) : group := map c_clear g.

(** Python [min]/[max] over an iterable of strings (ValueError if empty) *)
Definition str_min (l : list pystr) : res pystr :=
  match l with
  | [] => Err ValueError
  | x :: r => Ok (fold_left (fun m y => if str_ltb y m then y else m) r x)
  end.
Definition str_max (l : list pystr) : res pystr :=
  match l with
  | [] => Err ValueError
  | x :: r => Ok (fold_left (fun m y => if str_ltb m y then y else m) r x)
  end.
(** group.py:490-498 [maxKey], 500-508 [minKey]: a collection without a key in bounds raises
    ValueError inside the generator *)
Definition g_maxkey (hi : option pystr) (g : group) : res pystr :=
  rbind (mapM (c_maxkey hi) g) str_max.
Definition g_minkey (lo : option pystr) (g : group) : res pystr :=
  rbind (mapM (c_minkey lo) g) str_min.
(** group.py:348-353 [popitem] *)
Definition g_popitem (g : group) : group * res (pystr * pyval) :=
  match g_minkey None g with
  | Err e => (g, Err e)
  | Ok k => match g_pop k VNone g with
            | (g', Ok v) => (g', Ok (k, v))
            | (g', Err e) => (g', Err e)
            end
  end.

(** ** k-way merges (generators). What a generator yields, and the exception that ends it, if any. *)
Definition gen (A : Type) := (list A * option exn)%type.

(** One slot per collection: its entry in [vals] ([None] when exhausted - or when the stored value is
    None) and what its generator still has. *)
Definition slot (A : Type) := (option A * list A)%type.
Section Merge.
  Variable A : Type.
  Variable norm : A -> option A.        (* the element as it sits in [vals]; None = Python None *)
  Variable truth : A -> bool.
  Variable cmp : A -> A -> option comparison.
  Variable eqb : A -> A -> bool.
  (** [next(gen)] into the slot *)
  Definition refill (l : list A) : slot A :=
    match l with [] => (None, []) | x :: r => (norm x, r) end.
  (** [any(vals)] *)
  Definition any_slot (s : list (slot A)) : bool :=
    existsb (fun p => match fst p with Some x => truth x | None => false end) s.
  (** [minimum(v for v in vals if v is not None)] *)
  Fixpoint min_from (m : A) (l : list A) : res A :=
    match l with
    | [] => Ok m
    | y :: r => match cmp y m with
                | None => Err TypeError
                | Some Lt => min_from y r
                | Some _ => min_from m r
                end
    end.
  Definition some_of (s : list (slot A)) : list A :=
    flat_map (fun p => match fst p with Some x => [x] | None => [] end) s.
  Definition min_slot (s : list (slot A)) : res A :=
    match some_of s with [] => Err ValueError | x :: r => min_from x r end.
  (** [vals[vals.index(v)] = next(gens[vals.index(v)])] (or None) *)
  Fixpoint advance (v : A) (s : list (slot A)) : list (slot A) :=
    match s with
    | [] => []
    | (Some x, r) :: s' => if eqb x v then refill r :: s' else (Some x, r) :: advance v s'
    | p :: s' => p :: advance v s'
    end.
  Fixpoint merge (fuel : nat) (s : list (slot A)) : gen A :=
    match fuel with
    | O => ([], Some OutOfModel)
    | S fuel' =>
        if any_slot s then
          match min_slot s with
          | Err e => ([], Some e)
          | Ok v => let (l, e) := merge fuel' (advance v s) in (v :: l, e)
          end
        else ([], None)
    end.
  Definition merge_all (ls : list (list A)) : gen A :=
    merge (S (length (concat ls))) (map refill ls).
End Merge.

(** group.py:379-403 [iterkeys] *)
Definition g_iterkeys (lo hi : option pystr) (g : group) : gen pystr :=
  merge_all (fun k => Some k) (fun k => match k with [] => false | _ => true end)
            (fun a b => Some (str_compare a b)) str_eqb (map (c_iterkeys lo hi) g).
(** group.py:412-436 [itervalues] *)
Definition g_itervalues (lo hi : option pystr) (g : group) : gen pyval :=
  merge_all (fun v => if is_none v then None else Some v) truthy val_compare val_eqb
            (map (c_itervalues lo hi) g).

(** group.py:445-475 [iteritems]: [keys] and [gens] as slots, plus the dict [items] *)
Definition islot := (option pystr * list (pystr * pyval))%type.
Definition irefill (l : list (pystr * pyval)) : islot :=
  match l with [] => (None, []) | (k, _) :: r => (Some k, r) end.
Definition first_item (l : list (pystr * pyval)) : list (pystr * pyval) :=
  match l with [] => [] | x :: _ => [x] end.
Definition key_slots (s : list islot) : list (slot pystr) := map (fun p => (fst p, [])) s.
(** returns the new slots and the item fetched, if any *)
Fixpoint iadvance (k : pystr) (s : list islot) : list islot * list (pystr * pyval) :=
  match s with
  | [] => ([], [])
  | (Some x, r) :: s' =>
      if str_eqb x k then (irefill r :: s', first_item r)
      else let (s2, it) := iadvance k s' in ((Some x, r) :: s2, it)
  | p :: s' => let (s2, it) := iadvance k s' in (p :: s2, it)
  end.
Fixpoint imerge (fuel : nat) (s : list islot) (items : tree pyval) : gen (pystr * pyval) :=
  match fuel with
  | O => ([], Some OutOfModel)
  | S fuel' =>
      if any_slot (fun k => match k with [] => false | _ => true end) (key_slots s) then
        match min_slot (fun a b => Some (str_compare a b)) (key_slots s) with
        | Err e => ([], Some e)
        | Ok k =>
            let (s', it) := iadvance k s in
            let items' := bt_update it items in
            match bt_get k items' with
            | None => ([], Some KeyError)          (* items.pop(next_key) *)
            | Some v => let (l, e) := imerge fuel' s' (bt_del k items') in ((k, v) :: l, e)
            end
        end
      else ([], None)
  end.
Definition g_iteritems (lo hi : option pystr) (g : group) : gen (pystr * pyval) :=
  let ls := map (c_iteritems lo hi) g in
  imerge (S (length (concat ls))) (map irefill ls) (bt_update (flat_map first_item ls) []).

(** group.py:477-488 [byValue] *)
Definition g_byvalue (mn : pyval) (g : group) : res (list (pyval * pystr)) :=
  rbind (mapM (c_byvalue mn) g) (fun ls => sorted_desc (concat ls)).

(** ** Operation histories *)
Definition g_step (g : group) (o : mop) : group * mout :=
  match o with
  | Insert k v => let (g', r) := g_insert k v g in (g', out OInt r)
  | Update d => let (g', r) := g_update d g in (g', out (fun _ => ONone) r)
  | Pop k dflt => let (g', r) := g_pop k dflt g in (g', out OVal r)
  | Popitem => let (g', r) := g_popitem g in (g', out (fun kv => OPair (fst kv) (snd kv)) r)
  | Setdefault k v => let (g', r) := g_setdefault k v g in (g', out OVal r)
  | Clear => (g_clear g, ONone)
  end.
Definition g_run (ops : list mop) (g : group) : group := fold_left (fun g o => fst (g_step g o)) ops g.
