(** citrine/storage/container.py, without a transaction manager (see ContainerTx.v for the other half) *)
From Verif Require Import Base Value BTree Float53 Utils Collection Group.
Open Scope Z_scope.
Set Implicit Arguments.

(** container.py:169-192 [Container]. Groups are objects with identity: [k_heap] holds every group in
    memory, [k_groups] is the ordered tuple [___groups___] and [k_primary] is [___primary___], both as
    indices into the heap (two entries may be the same object). [Group] defines no [__eq__], so
    [in] compares identities. *)
Record container := mkK { k_heap : list group; k_groups : list nat; k_primary : nat }.
Definition grp (k : container) (i : nat) : group := nth i (k_heap k) [].
Definition set_grp (i : nat) (g : group) (k : container) : container :=
  mkK (set_nth i g (k_heap k)) (k_groups k) (k_primary k).
Definition with_groups (gs : list nat) (k : container) : container := mkK (k_heap k) gs (k_primary k).
Definition k_prim (k : container) : group := grp k (k_primary k).

(** container.py:158-166 [strict] *)
Definition k_strict (k : container) : bool := g_strict (k_prim k).
Definition k_set_strict (v : pyval) (k : container) : container * res unit :=
  match v with
  | VBool _ => let (g, r) := g_set_strict v (k_prim k) in (set_grp (k_primary k) g k, r)
  | _ => (k, Err TypeError)
  end.
(** container.py:176-192 [__init__] *)
Definition container_init (heap : list group) (primary : nat) (groups : list nat) (strict : pyval) : res container :=
  let gs := if existsb (Nat.eqb primary) groups then groups else primary :: groups in
  match k_set_strict strict (mkK heap gs primary) with
  | (k, Ok _) => Ok k
  | (_, Err e) => Err e
  end.
(** container.py:194-218 [new]; [u0] numbers the collections' uuids *)
Definition sized_group (u0 : N) (capacity mcs : Z) (strict : bool) : res group :=
  match number_of_collections capacity mcs with
  | Err e => Err e
  | Ok size =>
      let mcs' := if size * capacity <? mcs then size * capacity else mcs in
      fst (group_new u0 (Some size) mcs' strict [])
  end.
Definition container_new (u0 : N) (capacity mcs : Z) (strict : bool) : res container :=
  match sized_group u0 capacity mcs strict with
  | Err e => Err e
  | Ok g => container_init [g] 0 [] (VBool strict)
  end.
(** container.py:33-73 [ContainerMeta] *)
Definition k_size (k : container) : Z := zsum (map (fun i => g_size (grp k i)) (k_groups k)).
Definition k_max (k : container) : Z := zsum (map (fun i => g_max (grp k i)) (k_groups k)).
Definition k_capacity (k : container) : Z := g_max (k_prim k).
Definition k_used (k : container) : Z := g_size (k_prim k).

(** container.py:351-358 [has] *)
Definition count_true (l : list bool) : Z := zsum (map zbool l).
Definition k_has (id : pystr) (k : container) : res Z :=
  match mapM (fun i => g_has_key id (grp k i)) (k_groups k) with
  | Err e => Err e
  | Ok bs => Ok (count_true bs)
  end.
(** container.py:360-370 [read] *)
Fixpoint read_from (id : pystr) (dflt : pyval) (gs : list group) : res pyval :=
  match gs with
  | [] => Ok dflt
  | g :: gs' => match g_get id VNone g with
                | Err e => Err e
                | Ok v => if truthy v then Ok v else read_from id dflt gs'
                end
  end.
Definition k_read (id : pystr) (dflt : pyval) (k : container) : res pyval :=
  read_from id dflt (map (grp k) (k_groups k)).
(** container.py:372-380 [write]: [Some z] is the int returned by [insert], [None] is Python's None *)
Definition k_write (id : pystr) (v : pyval) (k : container) : container * res (option Z) :=
  match g_insert id v (k_prim k) with
  | (g, Err e) => (set_grp (k_primary k) g k, Err e)
  | (g, Ok z) =>
      if z =? 0 then
        match g_update [(id, v)] g with
        | (g', Err e) => (set_grp (k_primary k) g' k, Err e)
        | (g', Ok _) => (set_grp (k_primary k) g' k, Ok None)
        end
      else (set_grp (k_primary k) g k, Ok (Some z))
  end.
(** container.py:382-388 [delete]: for each group, [if self.has(id)] is evaluated on the current state *)
Fixpoint delete_from (id : pystr) (gs : list nat) (k : container) : container * res (list pyval) :=
  match gs with
  | [] => (k, Ok [])
  | i :: gs' =>
      match k_has id k with
      | Err e => (k, Err e)
      | Ok n =>
          if n =? 0 then delete_from id gs' k
          else match g_pop id VNone (grp k i) with
               | (g, Err e) => (set_grp i g k, Err e)
               | (g, Ok v) => match delete_from id gs' (set_grp i g k) with
                              | (k', Ok vs) => (k', Ok (v :: vs))
                              | (k', Err e) => (k', Err e)
                              end
               end
      end
  end.
Definition k_delete (id : pystr) (k : container) : container * res (list pyval) := delete_from id (k_groups k) k.

(** container.py:324-327: [self.primary.insert(key, group.pop(key))] or [... group.get(key))];
    the argument is evaluated before the call *)
Definition move (transfer : bool) (i : nat) (key : pystr) (k : container) : container * res unit :=
  let (k1, r) :=
    if transfer then let (g, r) := g_pop key VNone (grp k i) in (set_grp i g k, r)
    else (k, g_get key VNone (grp k i)) in
  match r with
  | Err e => (k1, Err e)
  | Ok v => match g_insert key v (k_prim k1) with
            | (g, Err e) => (set_grp (k_primary k1) g k1, Err e)
            | (g, Ok _) => (set_grp (k_primary k1) g k1, Ok tt)
            end
  end.
(** container.py:332-333 / 337-338, the inner loop over [list(group.keys())] *)
Fixpoint move_keys (transfer : bool) (i : nat) (keys : list pystr) (k : container) : container * res unit :=
  match keys with
  | [] => (k, Ok tt)
  | key :: keys' => match move transfer i key k with
                    | (k1, Ok _) => move_keys transfer i keys' k1
                    | (k1, Err e) => (k1, Err e)
                    end
  end.
(** container.py:336-338, the outer loop *)
Fixpoint move_groups (transfer : bool) (src : list nat) (k : container) : container * res unit :=
  match src with
  | [] => (k, Ok tt)
  | i :: src' => match move_keys transfer i (g_keys (grp k i)) k with
                 | (k1, Ok _) => move_groups transfer src' k1
                 | (k1, Err e) => (k1, Err e)
                 end
  end.
(** container.py:302-349 [condense] with [transaction_manager=None]; the result lists the discarded groups *)
Definition condense (transfer : bool) (k : container) : container * res (list nat) :=
  match move_groups transfer (tl (k_groups k)) k with
  | (k1, Err e) => (k1, Err e)
  | (k1, Ok _) =>
      if transfer then
        match k_groups k1 with
        | [] => (k1, Err IndexError)
        | p :: rest => (with_groups [p] k1, Ok rest)
        end
      else (k1, Ok [])
  end.
(** container.py:279-287: a new group becomes the primary and the first of the groups *)
Definition push_primary (g : group) (k : container) : container :=
  mkK (k_heap k ++ [g]) (length (k_heap k) :: k_groups k) (length (k_heap k)).
(** container.py:220-300 [resize] with [transaction_manager=None] *)
Definition resize (u0 : N) (capacity mcs : Z) (condense_all transfer : bool) (k : container)
  : container * res (list nat) :=
  match sized_group u0 capacity mcs (k_strict k) with
  | Err e => (k, Err e)
  | Ok g =>
      let k1 := push_primary g k in
      if condense_all then condense transfer k1
      else
        let secondaries := skipn 2 (k_groups k1) in
        let (k2, r) := condense transfer (with_groups (firstn 2 (k_groups k1)) k1) in
        match r with
        | Err e => (k2, Err e)
        | Ok removed => (with_groups (k_groups k2 ++ secondaries) k2, Ok removed)
        end
  end.

(** ** Operation histories *)
Inductive kop :=
| KWrite (id : pystr) (v : pyval)
| KDelete (id : pystr)
| KCondense (transfer : bool)
| KResize (u0 : N) (capacity mcs : Z) (condense_all transfer : bool)
| KStrict (v : pyval).
Definition k_step (k : container) (o : kop) : container :=
  match o with
  | KWrite id v => fst (k_write id v k)
  | KDelete id => fst (k_delete id k)
  | KCondense t => fst (condense t k)
  | KResize u c m a t => fst (resize u c m a t k)
  | KStrict v => fst (k_set_strict v k)
  end.
Definition k_run (ops : list kop) (k : container) : container := fold_left k_step ops k.
