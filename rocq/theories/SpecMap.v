(** Specification of a mapping, independent of the model: what each call must do to a partial
    function from ids to values, and what it must return. Used to state the refinement theorems. *)
From Verif Require Import Base BaseFacts Value Collection.

Definition amap := pystr -> option pyval.
Definition empty_map : amap := fun _ => None.
Definition same (m m' : amap) : Prop := forall k, m' k = m k.
(** [m'] is [m] with [k] bound to [v] / with [k] removed; all other ids unchanged *)
Definition bound (m : amap) (k : pystr) (v : pyval) (m' : amap) : Prop :=
  m' k = Some v /\ forall j, j <> k -> m' j = m j.
Definition removed (m : amap) (k : pystr) (m' : amap) : Prop :=
  m' k = None /\ forall j, j <> k -> m' j = m j.
(** [m'] is [m] overridden by the dictionary [d] *)
Definition overridden (m : amap) (d : list (pystr * pyval)) (m' : amap) : Prop :=
  forall k, (forall v, In (k, v) d -> m' k = Some v) /\ (~ In k (map fst d) -> m' k = m k).
Definition least_key (m : amap) (k : pystr) : Prop :=
  m k <> None /\ forall j, m j <> None -> sle k j.

(** [has_size m n]: exactly [n] ids are bound *)
Definition has_size (m : amap) (n : Z) : Prop :=
  exists l, NoDup l /\ (forall k, In k l <-> m k <> None) /\ n = Z.of_nat (length l).

(** A call that returns normally. *)
Inductive ok_step (m : amap) : mop -> amap -> mout -> Prop :=
| ok_insert_new k v m' : m k = None -> bound m k v m' -> ok_step m (Insert k v) m' (OInt 1)
| ok_insert_old k v w m' : m k = Some w -> same m m' -> ok_step m (Insert k v) m' (OInt 0)
| ok_update d m' : overridden m d m' -> ok_step m (Update d) m' ONone
| ok_pop_hit k dflt v m' : m k = Some v -> removed m k m' -> ok_step m (Pop k dflt) m' (OVal v)
| ok_pop_default k dflt m' : m k = None -> dflt <> VNone -> same m m' ->
    ok_step m (Pop k dflt) m' (OVal dflt)
| ok_popitem k v m' : m k = Some v -> least_key m k -> removed m k m' ->
    ok_step m Popitem m' (OPair k v)
| ok_setdefault_old k v w m' : m k = Some w -> same m m' -> ok_step m (Setdefault k v) m' (OVal w)
| ok_setdefault_new k v m' : m k = None -> bound m k v m' -> ok_step m (Setdefault k v) m' (OVal v)
| ok_clear m' : same empty_map m' -> ok_step m Clear m' ONone.

(** dictionaries passed to [update] have distinct keys, as every Python dict does *)
Definition wf_op (o : mop) : Prop := match o with Update d => NoDup (map fst d) | _ => True end.
