(** Property theorem C92: what a container reports about itself. *)
From Coq Require Import String.
From Verif Require Import Base BaseFacts Value BTree Float53 Utils Collection SpecMap Group RoutingFacts GroupFacts GroupNewFacts StorageThms PropsStorage
  Container ContainerFacts CondenseFacts ResizeFacts ContainerThms PropsContainer Account AccountFacts LimitsFacts.
Open Scope Z_scope.
Open Scope list_scope.

(** ** C92 *)
(** [size] counts an object once for each group holding it; it is the number of distinct ids exactly when no id is held twice. *)
Theorem C92_size : forall k, k_reachable k ->
  exists ids, NoDup ids /\ (forall id, In id ids -> encodable id) /\
    (forall id, encodable id -> (In id ids <-> k_has id k <> Ok 0)) /\
    (exists ns, Forall2 (fun id n => k_has id k = Ok n) ids ns /\ k_size k = fold_right Z.add 0 ns) /\
    Z.of_nat (length ids) <= k_size k /\
    (k_size k = Z.of_nat (length ids) <-> forall id, encodable id -> k_has id k = Ok 0 \/ k_has id k = Ok 1).
Proof. exact size_spec. Qed.
Print Assumptions C92_size.
Theorem C92_used : forall k, k_reachable k -> 0 <= k_used k <= k_size k.
Proof. exact used_le_size. Qed.
Print Assumptions C92_used.
Theorem C92_write : forall k id v, k_reachable k ->
  let k' := fst (k_write id v k) in
  match snd (k_write id v k) with
  | Ok (Some z) => z = 1 /\ k_size k' = k_size k + 1 /\ k_used k' = k_used k + 1
  | _ => k_size k' = k_size k /\ k_used k' = k_used k
  end.
Proof. exact write_size. Qed.
Print Assumptions C92_write.
Theorem C92_delete : forall k id vs, k_reachable k -> encodable id -> snd (k_delete id k) = Ok vs ->
  k_size (fst (k_delete id k)) = k_size k - Z.of_nat (length vs) /\ k_has id k = Ok (Z.of_nat (length vs)) /\ k_has id (fst (k_delete id k)) = Ok 0.
Proof. exact delete_size. Qed.
Print Assumptions C92_delete.
Theorem C92_condense : forall k ids, k_reachable k -> relaxed (k_prim k) -> NoDup ids -> (forall id, In id ids <-> encodable id /\ k_has id k <> Ok 0) ->
  exists k', condense true k = (k', Ok (tl (k_groups k))) /\ k_size k' = Z.of_nat (length ids) /\ k_used k' = k_size k'.
Proof. exact condense_size. Qed.
Print Assumptions C92_condense.
(** The status is the fullest collection's: it never understates the container's overall usage ... *)
Theorem C92_status : forall k, k_reachable k -> Forall (fun c => c_size c <= 2 ^ 40 /\ 1 <= c_max c <= 2 ^ 40) (k_prim k) ->
  exists s, k_status k = Ok s /\ In s [0; 60; 70; 80; 90] /\
    (forall L, In L [60; 70; 80; 90] -> (L <= s <-> exists c, In c (k_prim k) /\ (L - 1) * c_max c < 100 * c_size c)) /\
    (forall L, In L [60; 70; 80; 90] -> (L - 1) * k_capacity k < 100 * k_used k -> L <= s).
Proof. exact status_overall. Qed.
Print Assumptions C92_status.
(** [max_size] is the sum of the limits of all collections of all groups, [capacity] of those of the primary; storing and deleting change neither, whatever comes of them; neither does a condense change the capacity,
    and one that succeeds in transferring everything leaves the container with the capacity as its limit *)
Theorem C92_limits : forall k, k_reachable k ->
  k_max k = fold_right Z.add 0 (map c_max (flat_map (grp k) (k_groups k))) /\ k_capacity k = fold_right Z.add 0 (map c_max (k_prim k)) /\
  (forall id v, k_max (fst (k_write id v k)) = k_max k /\ k_capacity (fst (k_write id v k)) = k_capacity k) /\
  (forall id, k_max (fst (k_delete id k)) = k_max k /\ k_capacity (fst (k_delete id k)) = k_capacity k) /\
  (forall transfer, k_capacity (fst (condense transfer k)) = k_capacity k /\
     k_max (fst (condense transfer k)) = match snd (condense transfer k) with Ok _ => if transfer then k_capacity k else k_max k | Err _ => k_max k end).
Proof.
  intros k R. split; [apply max_all|]. split; [reflexivity|]. split; [intros id v; apply same_max, write_limits|]. split; [intros id; apply same_max, delete_limits|]. intros tr. now apply condense_max.
Qed.
Print Assumptions C92_limits.
(** a resize adds the new primary's limit, and takes away those of the groups it empties *)
Theorem C92_limits_resize : forall u0 cap mcs condense_all transfer k, k_reachable k -> sizable cap mcs ->
  exists k', resize u0 cap mcs condense_all transfer k = (k', Ok (resized_removed condense_all transfer (k_groups k))) /\
    k_max k' = k_capacity k' + (if transfer then if condense_all then 0 else k_max k - k_capacity k else k_max k).
Proof. exact resize_max. Qed.
Print Assumptions C92_limits_resize.
(** the usage is the primary's: at most 1.0 while it holds no more than its capacity and at least 1.0 from there on, and between the usages of its emptiest and fullest collection *)
Theorem C92_usage : forall k, Forall (fun c => 1 <= c_max c) (k_prim k) -> k_prim k <> [] ->
  exists u, k_usage k = Ok u /\ 0 <= u /\ (k_used k <= k_capacity k -> u <= scale) /\ (k_capacity k <= k_used k -> scale <= u) /\
    (exists c, In c (k_prim k) /\ c_usage c <= u) /\ (exists c, In c (k_prim k) /\ u <= c_usage c).
Proof. exact usage_of_primary. Qed.
Print Assumptions C92_usage.
Example C92_limits_case : k_reachable (ex_k false) /\ k_max (ex_k false) = 21 /\ k_capacity (ex_k false) = 3 /\ sizable 4 2 /\ k_prim (ex_k false) <> [].
Proof. split; [apply ex_k_reach|]. split; [vm_compute; reflexivity|]. split; [vm_compute; reflexivity|]. split; [apply sizable_small; lia|]. intros E. discriminate (f_equal (@List.length _) E). Qed.
Example C92_case : k_reachable (ex_k false) /\ Forall (fun c => c_size c <= 2 ^ 40 /\ 1 <= c_max c <= 2 ^ 40) (k_prim (ex_k false)) /\
  k_size (ex_k false) = 6 /\ k_used (ex_k false) = 1 /\ k_capacity (ex_k false) = 3 /\
  snd (k_delete (py "a") (ex_k false)) = Ok [VInt 1; VInt 2; VInt 3] /\ snd (k_write (py "c") (VInt 5) (ex_k false)) = Ok (Some 1).
Proof.
  split; [apply ex_k_reach|]. split; [|repeat split; vm_compute; reflexivity].
  assert (B : 2 ^ 40 = 1099511627776) by reflexivity. rewrite B.
  assert (Y : forallb (fun c => (c_size c <=? 1099511627776) && ((1 <=? c_max c) && (c_max c <=? 1099511627776)))%bool (k_prim (ex_k false)) = true) by (vm_compute; reflexivity).
  apply Forall_forall. intros c H. apply (proj1 (forallb_forall _ _) Y) in H. clear -H.
  apply andb_prop in H. destruct H as (H1 & H2). apply andb_prop in H2. destruct H2 as (H2 & H3). apply Z.leb_le in H1, H2, H3. auto.
Qed.
(** ... but it can overstate it: one full collection is enough. *)
Theorem C92_status_overstates_refuted : exists k, k_reachable k /\ k_status k = Ok 90 /\ 100 * k_used k < 34 * k_capacity k.
Proof.
  exists (ex_k false). destruct C92_case as (R & F & _ & U & C & _). split; [exact R|]. rewrite U, C. split; [|lia].
  destruct (C92_status _ R F) as (s & -> & I & H & _). f_equal.
  assert (X : 90 <= s).
  { apply H; [cbn; tauto|]. assert (Y : existsb (fun c => (90 - 1) * c_max c <? 100 * c_size c) (k_prim (ex_k false)) = true) by now vm_compute.
    apply existsb_exists in Y. destruct Y as (c & Y1 & Y2). apply Z.ltb_lt in Y2. eauto. }
  cbn [In] in I. lia.
Qed.
Print Assumptions C92_status_overstates_refuted.
