(** citrine/storage/group.py and container.py: the reporting properties (usage and status) *)
From Verif Require Import Base Value BTree Float53 Utils Collection Group Container.
Open Scope Z_scope.

(** group.py:87-90 [usage]: [self.size / self.max_size], a binary64 (in units of 2^-1074, see Float53.v) *)
Definition g_usage (g : group) : res Z :=
  if g_max g =? 0 then Err ZeroDivisionError else Ok (f_div (g_size g) (g_max g)).
(** container.py:57-62 and 124-130 [usage]: the primary group's *)
Definition k_usage (k : container) : res Z := g_usage (k_prim k).
(** container.py:64-69 and 132-138 [status]: the primary group's *)
Definition k_status (k : container) : res Z := g_status (k_prim k).
