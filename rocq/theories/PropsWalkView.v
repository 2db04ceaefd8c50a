(** C134: changing a group while walking over a view of it. *)
From Coq Require Import String Sorting.Sorted.
From Verif Require Import Base BaseFacts Value BTree BTreeFacts Collection SpecMap CollectionFacts Group RoutingFacts GroupFacts StorageThms PropsStorage PropsContainer WalkView WalkViewFacts.
Open Scope nat_scope.
Open Scope list_scope.

(** Reading aid. A program walks over [group.items()] ([keys()], [values()]) and operates on the group between the steps: [steps] is a list of [Next] ([next(walk)]) and [Do o] (an operation). [w_walk c_items steps g Begin] is what
    it sees, the group and the place then; it is [None] when an operation adds to or removes from the very collection that the walk is in, where BTrees leaves open what happens. [given os]: the items the walk gave.
    [moments steps g]: the group at the beginning and after each operation. *)
(** no id is given twice, even if it is removed and stored again meanwhile; the ids come collection by collection, ascending in each *)
Theorem C134_once : forall g steps os g' p, g_reachable g -> Forall wf_step steps -> w_walk c_items steps g Begin = Some (os, g', p) ->
  NoDup (map fst (given os)) /\
  StronglySorted (fun a b => exists i j, get_group_index a (length g) = Ok i /\ get_group_index b (length g) = Ok j /\ (i < j \/ i = j /\ str_compare a b = Lt)) (map fst (given os)).
Proof. intros g steps os g' p R F E. destruct (g_reachable_wf R) as [W L]. exact (walk_once W L F E). Qed.
Print Assumptions C134_once.
(** a walk that came to its end gave every id that was in the group all the time *)
Theorem C134_all : forall g steps os g' p, g_reachable g -> Forall wf_step steps -> w_walk c_items steps g Begin = Some (os, g', p) -> In (Gave None) os ->
  forall id, (forall m, In m (moments steps g) -> g_abs m id <> None) -> In id (map fst (given os)).
Proof. intros g steps os g' p R F E. destruct (g_reachable_wf R) as [W L]. exact (walk_all W L F E). Qed.
Print Assumptions C134_all.
(** what the walk gives is in the group, with that value, when it gives it *)
Theorem C134_now : forall g steps os g' p id v, g_reachable g -> Forall wf_step steps -> w_walk c_items (steps ++ [Next]) g Begin = Some (os ++ [Gave (Some (id, v))], g', p) -> g_abs g' id = Some v.
Proof. intros g steps os g' p id v R F E. destruct (g_reachable_wf R) as [W L]. exact (@walk_now g steps os g' p id v W L F E). Qed.
Print Assumptions C134_now.
(** so an id that was never there is never given *)
Theorem C134_held : forall g steps os g' p id v, g_reachable g -> Forall wf_step steps -> w_walk c_items steps g Begin = Some (os, g', p) -> In (id, v) (given os) ->
  exists m, In m (moments steps g) /\ g_abs m id = Some v.
Proof. intros g steps os g' p id v R F E. destruct (g_reachable_wf R) as [W L]. exact (@walk_held steps g Begin [] os g' p id v W L F eq_refl E). Qed.
Print Assumptions C134_held.
(** keys() and values() give the keys and values of what items() gives *)
Theorem C134_views : forall g steps, w_walk c_keys steps g Begin = match w_walk c_items steps g Begin with Some (os, g', p) => Some (map (wmap fst) os, g', p) | None => None end /\
  w_walk c_values steps g Begin = match w_walk c_items steps g Begin with Some (os, g', p) => Some (map (wmap snd) os, g', p) | None => None end.
Proof. intros g steps. split; apply walk_map. Qed.
Print Assumptions C134_views.
(** without operations the walk gives the items of the group, and goes on giving nothing *)
Theorem C134_quiet : forall g n, exists os p, w_walk c_items (repeat Next n) g Begin = Some (os, g, p) /\ given os = firstn n (g_items g).
Proof. intros g n. exact (quiet_walk c_items n g Begin). Qed.
Print Assumptions C134_quiet.
(** a walk is disturbed by an operation exactly when this adds or removes an id of the collection that the walk is in: reading, overwriting, refused operations and operations on other collections never disturb it *)
Theorem C134_disturbed : forall g p o, g_reachable g -> wf_op o -> let g' := fst (g_step g o) in
  (w_walk c_items [Do o] g p = None <->
   exists i j id, p = At i j /\ get_group_index id (length g) = Ok i /\ ((g_abs g id = None /\ g_abs g' id <> None) \/ (g_abs g id <> None /\ g_abs g' id = None))).
Proof. intros g p o R WO. destruct (g_reachable_wf R) as [W L]. exact (@disturbed g p o W L WO). Qed.
Print Assumptions C134_disturbed.
(** three collections: c is in the first, a and d in the second, b in the third. During the walk d is overwritten, b removed, e stored in time and i, which belongs to the first, too late *)
Definition ex_start : group := g_run [Insert (py "a") (VInt 1); Insert (py "d") (VInt 4); Insert (py "b") (VInt 2); Insert (py "c") (VInt 3)] (ex_g false 5 5 5).
Definition ex_steps : list wstep := [Next; Next; Do (Update [(py "d", VInt 44)]); Do (Pop (py "b") VNone); Do (Insert (py "e") (VInt 5)); Do (Insert (py "i") (VInt 9)); Next; Next; Next].
Example C134_case : g_reachable ex_start /\ Forall wf_step ex_steps /\
  (exists g' p, w_walk c_items ex_steps ex_start Begin =
    Some ([Gave (Some (py "c", VInt 3)); Gave (Some (py "a", VInt 1)); Did ONone; Did (OVal (VInt 2)); Did (OInt 1); Did (OInt 1); Gave (Some (py "d", VInt 44)); Gave (Some (py "e", VInt 5)); Gave None], g', p)) /\
  w_walk c_items [Next; Do (Pop (py "c") VNone)] ex_start Begin = None.
Proof.
  split; [|split; [|split]].
  - exists (ex_g false 5 5 5), [Insert (py "a") (VInt 1); Insert (py "d") (VInt 4); Insert (py "b") (VInt 2); Insert (py "c") (VInt 3)]. split; [repeat constructor|]. split; [cbn; lia|]. split; [repeat constructor|reflexivity].
  - repeat constructor; cbn; intuition discriminate.
  - eexists _, _. vm_compute. reflexivity.
  - vm_compute. reflexivity.
Qed.
