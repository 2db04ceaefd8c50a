(** Property theorems C96: the usage report of a group. Usages are binary64 numbers in units of 2^-1074 ([scale] is 1.0). *)
From Coq Require Import String Lia.
From Verif Require Import Base Value BTree Float53 Float53Facts Utils Collection Group GroupCapFacts StorageThms PropsStorage Account GroupReport GroupReportFacts.
Import ListNotations.
Open Scope list_scope.
Open Scope Z_scope.

(** lowest, overall and highest usage: the overall usage of a group lies between the lowest and the highest of its collections *)
Theorem C96_between : forall g, Forall (fun c => 1 <= c_max c) g -> g <> [] ->
  exists lo u hi, g_lowest_usage g = Ok lo /\ g_usage g = Ok u /\ g_highest_usage g = Ok hi /\ 0 <= lo /\ lo <= u <= hi /\
    (forall c, In c g -> lo <= c_usage c <= hi) /\ (exists c, In c g /\ c_usage c = lo) /\ (exists c, In c g /\ c_usage c = hi).
Proof. exact report. Qed.
Print Assumptions C96_between.
(** the usage is at most 1.0 while the group holds no more than its max_size, and at least 1.0 from there on *)
Theorem C96_full : forall g, Forall (fun c => 1 <= c_max c) g -> g <> [] ->
  exists u, g_usage g = Ok u /\ (g_size g <= g_max g -> u <= scale) /\ (g_max g <= g_size g -> scale <= u).
Proof. exact usage_full. Qed.
Print Assumptions C96_full.
(** collection_usage has each collection's own usage, in the order of the collections *)
Theorem C96_each_collection : forall g, Forall (fun c => 1 <= c_max c) g -> exists l, g_collection_usage g = Ok l /\ Forall2 (fun c e => fst e = c_uuid c /\ snd e = c_usage c) g l.
Proof. intros g L. eexists. split; [exact (usages g L)|]. clear L. induction g; cbn [map]; constructor; auto. Qed.
Print Assumptions C96_each_collection.
(** max_collection_size: the largest max_size among the collections *)
Theorem C96_largest_collection : forall g, (g = [] -> g_max_collection_size g = Err ValueError) /\
  (g <> [] -> exists m, g_max_collection_size g = Ok m /\ (exists c, In c g /\ c_max c = m) /\ forall c, In c g -> c_max c <= m).
Proof. exact largest. Qed.
Print Assumptions C96_largest_collection.
(** no operation changes the limits *)
Theorem C96_limits_constant : forall ops g, g_max (g_run ops g) = g_max g /\ g_max_collection_size (g_run ops g) = g_max_collection_size g.
Proof.
  assert (M : forall ops g, map c_max (g_run ops g) = map c_max g).
  { induction ops as [|o ops IH]; intros g; [reflexivity|]. change (g_run (o :: ops) g) with (g_run ops (fst (g_step g o))). rewrite IH. apply g_step_meta. }
  intros ops g. unfold g_max, g_max_collection_size. now rewrite M.
Qed.
Print Assumptions C96_limits_constant.
(** a group of no collections reports errors *)
Theorem C96_no_collections : g_lowest_usage [] = Err ValueError /\ g_highest_usage [] = Err ValueError /\ g_usage [] = Err ZeroDivisionError /\ g_max_collection_size [] = Err ValueError /\ g_status [] = Err ValueError.
Proof. exact nothing. Qed.
Print Assumptions C96_no_collections.

(** three collections of different limits holding three objects *)
Definition ex_used : group := g_run ex_ops (ex_g false 2 4 8).
Example C96_case : Forall (fun c => 1 <= c_max c) ex_used /\ ex_used <> [] /\ g_max_collection_size ex_used = Ok 8 /\ g_max ex_used = 14 /\ map c_size ex_used = [1; 2; 0] /\
  map c_usage ex_used = [Z.div scale 2; Z.div scale 2; 0].
Proof.
  Transparent scale. assert (M : map c_max ex_used = [2; 4; 8]) by (vm_compute; reflexivity).
  split; [|split; [|split; [vm_compute; reflexivity|split; [vm_compute; reflexivity|split; vm_compute; reflexivity]]]].
  - assert (F : Forall (fun m => 1 <= m) (map c_max ex_used)) by (rewrite M; repeat constructor; discriminate). revert F. generalize ex_used. intros g. induction g as [|c g IH]; cbn [map]; intros F; inversion F; constructor; auto.
  - intros E. rewrite E in M. discriminate M.
Qed.
