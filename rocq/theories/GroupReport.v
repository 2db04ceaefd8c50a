(** citrine/storage/group.py: the usage report of a group *)
From Verif Require Import Base Value BTree Float53 Utils Collection Group Account.
Open Scope Z_scope.

(** group.py:92-95 and 153-158 [collection_usage]: collection -> usage. A collection is identified by its uuid (the dict's keys are the collection objects, which
    compare by identity); dividing by a max_size of 0 raises ZeroDivisionError. *)
Definition g_collection_usage (g : group) : res (list (N * Z)) :=
  mapM (fun c => if c_max c =? 0 then Err ZeroDivisionError else Ok (c_uuid c, c_usage c)) g.
Definition zmin_list (d : Z) (l : list Z) : Z := fold_left Z.min l d.
(** group.py:97-99, 101-103 and 160-179 [highest_collection_usage], [lowest_collection_usage]: max and min of nothing raise ValueError *)
Definition g_highest_usage (g : group) : res Z :=
  match g_collection_usage g with Err e => Err e | Ok l => match map snd l with [] => Err ValueError | m :: r => Ok (zmax_list m r) end end.
Definition g_lowest_usage (g : group) : res Z :=
  match g_collection_usage g with Err e => Err e | Ok l => match map snd l with [] => Err ValueError | m :: r => Ok (zmin_list m r) end end.
