(** C28, C29: condensing again. *)
From Coq Require Import String.
From Verif Require Import Base BaseFacts Value BTree Collection SpecMap Group RoutingFacts GroupFacts GroupNewFacts StorageThms PropsStorage Container ContainerFacts CondenseFacts ResizeFacts ContainerThms CondenseAgain PropsContainer.
Open Scope Z_scope.
Open Scope list_scope.

(** after condense(transfer=True) condensing again, with or without transfer, does nothing and returns [] *)
Theorem C28_again : forall t k, k_reachable k -> relaxed (k_prim k) -> let k1 := fst (condense true k) in condense t k1 = (k1, Ok []).
Proof. intros t k R X k1. destruct (C28_lemma R X) as (k' & E & G & P & _). unfold k1. rewrite E. cbn [fst]. apply condense_single. now rewrite G, P. Qed.
Print Assumptions C28_again.
(** so it does on any container with a single group, strict or not *)
Theorem C28_single_group : forall t k, k_groups k = [k_primary k] -> condense t k = (k, Ok []).
Proof. exact condense_single. Qed.
Print Assumptions C28_single_group.
(** after condense(transfer=False) doing so again leaves what every group holds *)
Theorem C29_again : forall k, k_reachable k -> relaxed (k_prim k) -> let k1 := fst (condense false k) in let k2 := fst (condense false k1) in
  snd (condense false k1) = Ok [] /\ k_groups k2 = k_groups k1 /\ k_primary k2 = k_primary k1 /\ forall j id, g_abs (grp k2 j) id = g_abs (grp k1 j) id.
Proof. exact condense_twice. Qed.
Print Assumptions C29_again.
(** and condense(transfer=True) after it leaves a single group that holds what was held at first *)
Theorem C29_then_transfer : forall k, k_reachable k -> relaxed (k_prim k) -> let k1 := fst (condense false k) in let k2 := fst (condense true k1) in
  k_groups k2 = [k_primary k] /\ forall id, g_abs (grp k2 (k_primary k)) id = held k id.
Proof.
  intros k R X k1 k2. destruct (C29_lemma R X) as (k' & E & G & P & A & B & H & _). assert (E1 : k1 = k') by (unfold k1; now rewrite E).
  destruct (C28_lemma (reachable_condense false R) (@relaxed_condense k X)) as (k'' & E' & G' & P' & A' & _). fold k1 in E', G', P', A'. assert (E2 : k2 = k'') by (unfold k2; now rewrite E'). rewrite E2. rewrite E1 in *. rewrite P in *. split; [exact G'|].
  intros id. rewrite <- H, <- A'. unfold k_prim. now rewrite P'.
Qed.
Print Assumptions C29_then_transfer.
Example C29_again_case : k_reachable (ex_k false) /\ relaxed (k_prim (ex_k false)) /\ length (k_groups (ex_k false)) = 3%nat /\ g_size (k_prim (fst (condense false (fst (condense false (ex_k false)))))) = 3.
Proof. split; [apply ex_k_reach|]. split; [repeat constructor|]. vm_compute. auto. Qed.
