(** Property theorems C23-C34: Container. *)
From Coq Require Import String.
From Verif Require Import Base BaseFacts Value BTree Float53 Utils Collection SpecMap Group RoutingFacts GroupFacts GroupNewFacts StorageThms PropsStorage
  Container ContainerFacts CondenseFacts ResizeFacts ContainerThms ContainerTx ContainerTxFacts.
Open Scope Z_scope.
Open Scope list_scope.

(** Specification vocabulary used below:
    [g_abs (grp k i)] is the map stored in the i-th group object, [k_groups k] the ordered group list, [maps k] their maps in that order,
    [first_truthy id ms r] says r is the first truthy value found for id scanning ms, [holders id ms] counts the maps holding id,
    [held k id] is the value of the first group that holds id, [relaxed g] says no collection of g is strict. *)

(** ** C23 *)
Theorem C23_new : forall u0 cap mcs strict, sizable cap mcs ->
  exists (k : container) (n m : Z), container_new u0 cap mcs strict = Ok k /\ k_groups k = [k_primary k] /\ k_ok k /\ (forall id, held k id = None) /\
    map c_max (k_prim k) = repeat m (Z.to_nat n) /\ 0 < n /\ 0 < m /\ Forall (fun c => c_strict c = strict) (k_prim k) /\ g_fresh (k_prim k) /\
    k_capacity k = n * m /\ cap <= n * m.
Proof. exact container_new_spec. Qed.
Print Assumptions C23_new.
Theorem C23_capacity_zero : forall u0 mcs strict, 1 <= mcs <= 2 ^ 53 -> container_new u0 0 mcs strict = Err ValueError.
Proof. exact container_new_zero. Qed.
Print Assumptions C23_capacity_zero.
Example C23_case : sizable 100000 5000 /\ sizable 1 1 /\ sizable (2 ^ 53 - 1) 5000.
Proof. unfold sizable. change (2 ^ 53) with 9007199254740992. change (2 ^ 52) with 4503599627370496. lia. Qed.

(** ** a container with three groups used in the examples: "a" in all three, "d" only in the last, "b" falsy in the second *)
Definition ex_heap (s0 : bool) : list group :=
  [g_run [Insert (py "a") (VInt 1)] (ex_g s0 1 1 1);
   g_run [Insert (py "a") (VInt 2); Insert (py "b") (VInt 0)] (ex_g false 1 1 1);
   g_run [Insert (py "a") (VInt 3); Insert (py "b") (VInt 7); Insert (py "d") (VInt 4)] (ex_g false 5 5 5)].
Definition ex_k (strict : bool) : container := mkK (map (fun g => g) (match ex_heap false with g :: r => map (c_set_strict strict) g :: r | [] => [] end)) [0; 1; 2]%nat 0.
Lemma ex_k_start strict : k_start (ex_k strict).
Proof.
  exists (ex_heap false), 0%nat, [1; 2]%nat, strict. split; [reflexivity|]. split; [repeat constructor; simpl; intuition discriminate|].
  split; [left; simpl; intuition discriminate|]. intros i H. assert (I : i = 0%nat \/ i = 1%nat \/ i = 2%nat) by (simpl in H; intuition).
  assert (F : forall g0 ops, g_fresh g0 -> (0 < length g0)%nat -> Forall wf_op ops -> g_reachable (g_run ops g0)) by (intros; eexists _, _; eauto).
  destruct I as [->|[->| ->]]; (split; [simpl; lia|]); apply F; try (simpl; lia); repeat constructor.
Qed.
Lemma ex_k_reach strict : k_reachable (ex_k strict).
Proof. exists (ex_k strict), []. split; [apply ex_k_start|]. split; [constructor|reflexivity]. Qed.

(** ** C24 *)
Theorem C24_read_your_writes : forall k id v r, k_reachable k -> snd (k_write id v k) = Ok r ->
  (forall j d, j <> id -> k_read j d (fst (k_write id v k)) = k_read j d k /\ k_has j (fst (k_write id v k)) = k_has j k) /\
  (exists n, k_has id (fst (k_write id v k)) = Ok n /\ 1 <= n) /\
  (truthy v = true -> forall d, k_read id d (fst (k_write id v k)) = Ok v) /\
  (truthy v = false -> forall d, exists r, first_truthy id (tl (maps k)) r /\
      k_read id d (fst (k_write id v k)) = Ok (match r with Some w => w | None => d end)).
Proof. exact C24_lemma. Qed.
Print Assumptions C24_read_your_writes.
Example C24_case : snd (k_write (py "c") (VInt 5) (ex_k false)) = Ok (Some 1) /\ snd (k_write (py "a") (VInt 0) (ex_k false)) = Ok None /\
  k_read (py "c") VNone (fst (k_write (py "c") (VInt 5) (ex_k false))) = Ok (VInt 5) /\
  k_read (py "a") VNone (fst (k_write (py "a") (VInt 0) (ex_k false))) = Ok (VInt 2).
Proof. vm_compute. auto. Qed.
(** the primary must be first in the list: otherwise a write may not be read back *)
Lemma ex_heap_good i : In i [0; 1; 2]%nat -> (i < 3)%nat /\ g_reachable (nth i (ex_heap false) []).
Proof.
  intros H.
  assert (F : forall g0 ops, g_fresh g0 -> (0 < length g0)%nat -> Forall wf_op ops -> g_reachable (g_run ops g0)) by (intros; eexists _, _; eauto).
  destruct H as [<-|[<-|[<-|[]]]]; (split; [simpl; lia|]); apply F; try (simpl; lia); repeat constructor.
Qed.
Theorem C24_primary_not_first_refuted : exists k id v d, k_ok k /\ (exists r, snd (k_write id v k) = Ok r) /\ truthy v = true /\ k_read id d (fst (k_write id v k)) <> Ok v.
Proof.
  exists (mkK (ex_heap false) [1; 0]%nat 0), (py "a"), (VInt 9), VNone. split; [|split; [exists None; reflexivity|split; [reflexivity|vm_compute; discriminate]]].
  split; [repeat constructor; simpl; intuition discriminate|]. split; [simpl; auto|]. intros i I.
  destruct (ex_heap_good i) as [L G]; [simpl in *; tauto|]. split; [exact L|]. apply g_reachable_wf in G. exact G.
Qed.
Print Assumptions C24_primary_not_first_refuted.

(** ** C25 *)
Theorem C25_read_precedence : forall k id d, k_reachable k -> encodable id ->
  (exists r, first_truthy id (maps k) r /\ k_read id d k = Ok (match r with Some v => v | None => d end)) /\
  k_has id k = Ok (holders id (maps k)) /\
  (Forall (fun m => m id = None) (maps k) -> k_read id d k = Ok d /\ k_has id k = Ok 0).
Proof. exact C25_lemma. Qed.
Print Assumptions C25_read_precedence.
Example C25_case : k_read (py "a") VNone (ex_k false) = Ok (VInt 1) /\ k_has (py "a") (ex_k false) = Ok 3 /\
  k_read (py "b") VNone (ex_k false) = Ok (VInt 7) /\ k_has (py "b") (ex_k false) = Ok 2 /\ k_read (py "z") (VInt 6) (ex_k false) = Ok (VInt 6).
Proof. vm_compute. auto 10. Qed.

(** ** C26 *)
Theorem C26_write_outcome : forall k id v, k_reachable k ->
  exists p', write_result (k_prim k) id v (snd (k_write id v k)) p' /\ k_prim (fst (k_write id v k)) = p' /\
    k_groups (fst (k_write id v k)) = k_groups k /\ k_primary (fst (k_write id v k)) = k_primary k /\
    (forall j, j <> k_primary k -> grp (fst (k_write id v k)) j = grp k j) /\
    (forall e, snd (k_write id v k) = Err e -> fst (k_write id v k) = k).
Proof. exact C26_lemma. Qed.
Print Assumptions C26_write_outcome.
Theorem C26_full_strict_collection_refuses_even_overwriting : forall k id v i c, k_reachable k ->
  get_group_index id (length (k_prim k)) = Ok i -> nth_error (k_prim k) i = Some c -> c_strict c = true -> c_max c <= c_size c ->
  exists e, snd (k_write id v k) = Err e /\ fst (k_write id v k) = k.
Proof. exact C26_full_refuses. Qed.
Print Assumptions C26_full_strict_collection_refuses_even_overwriting.
Example C26_case : snd (k_write (py "a") (VInt 8) (ex_k true)) = Err CollectionCapacityError /\ snd (k_write (py "a") (VInt 8) (ex_k false)) = Ok None.
Proof. vm_compute. auto. Qed.

(** ** C27 *)
Theorem C27_delete : forall k id, k_reachable k -> encodable id ->
  exists A B, holding_prefix k id (k_groups k) A B /\
    ((forall i, In i B -> ~ holds_id k id i) -> exists k' vs, k_delete id k = (k', Ok vs) /\ taken_out k k' id A /\ values_at k id A vs /\ k_has id k' = Ok 0) /\
    ((exists j, In j B /\ holds_id k id j) -> exists k', k_delete id k = (k', Err KeyError) /\ taken_out k k' id A).
Proof. exact C27_lemma. Qed.
Print Assumptions C27_delete.
Theorem C27_delete_missing : forall k id, k_reachable k -> encodable id -> (forall i, In i (k_groups k) -> ~ holds_id k id i) -> k_delete id k = (k, Ok []).
Proof. exact C27_missing. Qed.
Print Assumptions C27_delete_missing.
Example C27_case : snd (k_delete (py "a") (ex_k false)) = Ok [VInt 1; VInt 2; VInt 3] /\ snd (k_delete (py "b") (ex_k false)) = Err KeyError /\
  snd (k_delete (py "q") (ex_k false)) = Ok [].
Proof. vm_compute. auto. Qed.

(** ** C28 *)
Theorem C28_condense_preserves_reads : forall k, k_reachable k -> relaxed (k_prim k) ->
  exists k', condense true k = (k', Ok (tl (k_groups k))) /\ k_groups k' = [k_primary k] /\ k_primary k' = k_primary k /\
    (forall id, g_abs (k_prim k') id = held k id) /\ (forall id, held k' id = held k id) /\
    (forall id d, encodable id -> not_falsy k id -> k_read id d k' = k_read id d k) /\
    (forall j id, In j (tl (k_groups k)) -> g_abs (grp k' j) id = None) /\ (forall j, In j (tl (k_groups k)) -> g_size (grp k' j) = 0).
Proof. exact C28_lemma. Qed.
Print Assumptions C28_condense_preserves_reads.
(** with a falsy first value, what is read does change *)
Theorem C28_falsy_value_hides_after_condense_refuted : exists k id v, k_reachable k /\ relaxed (k_prim k) /\
  k_read id VNone k = Ok v /\ truthy v = true /\ k_read id VNone (fst (condense true k)) = Ok VNone.
Proof. exists (ex_k false), (py "b"), (VInt 7). split; [apply ex_k_reach|]. split; [repeat constructor|]. vm_compute. auto. Qed.
Print Assumptions C28_falsy_value_hides_after_condense_refuted.
Example C28_case : k_reachable (ex_k false) /\ relaxed (k_prim (ex_k false)) /\ snd (condense true (ex_k false)) = Ok [1; 2]%nat /\
  g_items (k_prim (fst (condense true (ex_k false)))) <> [] /\ k_read (py "d") VNone (fst (condense true (ex_k false))) = Ok (VInt 4).
Proof. split; [apply ex_k_reach|]. split; [repeat constructor|]. vm_compute. repeat split; auto; discriminate. Qed.

(** ** C29 *)
Theorem C29_condense_copies : forall k, k_reachable k -> relaxed (k_prim k) ->
  exists k', condense false k = (k', Ok []) /\ k_groups k' = k_groups k /\ k_primary k' = k_primary k /\
    (forall id, g_abs (k_prim k') id = held k id) /\ (forall j, j <> k_primary k -> grp k' j = grp k j) /\
    (forall id, held k' id = held k id) /\ (forall id d, encodable id -> not_falsy k id -> k_read id d k' = k_read id d k).
Proof. exact C29_lemma. Qed.
Print Assumptions C29_condense_copies.
Example C29_case : g_size (k_prim (fst (condense false (ex_k false)))) = 3 /\ k_has (py "a") (fst (condense false (ex_k false))) = Ok 3.
Proof. vm_compute. auto. Qed.

(** ** C30 *)
Theorem C30_refused_condense_loses_one_object : forall k k' e, k_reachable k -> condense true k = (k', Err e) ->
  exists i key v, In i (tl (k_groups k)) /\ g_abs (grp k i) key = Some v /\ g_abs (grp k' i) key = None /\
    k_groups k' = k_groups k /\ snd (g_insert key v (k_prim k')) = Err e /\
    (forall id, id <> key -> held k' id = held k id) /\
    ((forall j, In j (k_groups k) -> j <> i -> g_abs (grp k j) key = None) ->
       k_has key k' = Ok 0 /\ forall d, k_read key d k' = Ok d).
Proof. exact C30_lemma. Qed.
Print Assumptions C30_refused_condense_loses_one_object.
Theorem C30_copying_condense_never_loses : forall k k' e, k_reachable k -> condense false k = (k', Err e) -> forall id, held k' id = held k id.
Proof. exact C30_copy_never_loses. Qed.
Print Assumptions C30_copying_condense_never_loses.
(** primary: "a" in a full strict collection; the other group: "d", which routes to the same collection *)
Definition ex_strict : container :=
  mkK [g_run [Insert (py "a") (VInt 1)] (ex_g true 1 1 1); g_run [Insert (py "d") (VInt 4)] (ex_g false 5 5 5)] [0; 1]%nat 0.
Lemma ex_strict_reach : k_reachable ex_strict.
Proof.
  exists ex_strict, []. split; [|split; [constructor|reflexivity]]. exists (k_heap ex_strict), 0%nat, [0; 1]%nat, true. split; [reflexivity|].
  split; [repeat constructor; simpl; intuition discriminate|]. split; [right; eexists; reflexivity|]. intros i H.
  assert (I : i = 0%nat \/ i = 1%nat) by (simpl in H; intuition).
  assert (F : forall g0 ops, g_fresh g0 -> (0 < length g0)%nat -> Forall wf_op ops -> g_reachable (g_run ops g0)) by (intros; eexists _, _; eauto).
  destruct I as [->| ->]; (split; [simpl; lia|]); apply F; try (simpl; lia); repeat constructor.
Qed.
Example C30_case : k_reachable ex_strict /\ snd (condense true ex_strict) = Err CollectionCapacityError /\
  k_has (py "d") ex_strict = Ok 1 /\ k_has (py "d") (fst (condense true ex_strict)) = Ok 0.
Proof. split; [apply ex_strict_reach|]. vm_compute. auto. Qed.

(** ** C31 *)
Theorem C31_condense_is_crash_safe : forall b1 b2 transfer k t' r, k_reachable k -> condense_tx b1 b2 transfer (on_disk k) = (t', r) ->
  (forall d, In d (durable t') -> keeps k d) /\ (forall e, r = Err e -> t_work t' = t_saved t') /\ keeps k (t_work t') /\
  (forall l, r = Ok l -> t_work t' = t_saved t' /\ (forall id, g_abs (k_prim (t_work t')) id = held k id) /\
     l = (if transfer then tl (k_groups k) else []) /\ k_groups (t_work t') = (if transfer then [k_primary k] else k_groups k)).
Proof. exact C31_lemma. Qed.
Print Assumptions C31_condense_is_crash_safe.
Theorem C31_one_commit_per_object : forall b1 b2 transfer k, always_commits b1 -> always_commits b2 ->
  linked (small_step transfer) (durable (fst (condense_tx b1 b2 transfer (on_disk k)))).
Proof. exact C31_commits. Qed.
Print Assumptions C31_one_commit_per_object.
(** with a transaction object that can commit once only, condense stops after the first object *)
Theorem C31_single_use_transaction_stops_after_one : forall b1 b2 e transfer k, k_reachable k -> relaxed (k_prim k) -> one_shot e b1 -> (2 <= to_move k)%nat ->
  exists t' i key, condense_tx b1 b2 transfer (on_disk k) = (t', Err e) /\ In i (tl (k_groups k)) /\ In key (g_keys (grp k i)) /\
    t_work t' = fst (move transfer i key k) /\ durable t' = [fst (move transfer i key k); k].
Proof. exact C31_one_shot_lemma. Qed.
Print Assumptions C31_single_use_transaction_stops_after_one.
Example C31_case : always_commits (fun _ => CCommit) /\ to_move (ex_k false) = 5%nat /\
  length (durable (fst (condense_tx (fun _ => CCommit) (fun _ => CCommit) true (on_disk (ex_k false))))) = 9%nat /\
  snd (condense_tx (fun n => match n with O => CCommit | S _ => CRaise AttributeError end) (fun _ => CCommit) true (on_disk (ex_k false))) = Err AttributeError /\
  snd (condense_tx (fun _ => CCommit) (fun _ => CCommit) true (on_disk ex_strict)) = Err CollectionCapacityError /\
  k_has (py "d") (t_work (fst (condense_tx (fun _ => CCommit) (fun _ => CCommit) true (on_disk ex_strict)))) = Ok 1.
Proof. split; [intros n; reflexivity|]. vm_compute. auto 10. Qed.

(** ** C32 *)
Theorem C32_resize : forall u0 cap mcs condense_all transfer k, k_reachable k -> sizable cap mcs ->
  exists k', resize u0 cap mcs condense_all transfer k = (k', Ok (resized_removed condense_all transfer (k_groups k))) /\
    cap <= k_capacity k' /\ ~ In (k_primary k') (k_groups k) /\
    k_groups k' = resized_groups condense_all transfer (k_primary k') (k_groups k) /\
    (forall id, held k' id = held k id) /\
    (forall id, encodable id -> exists n n', k_has id k = Ok n /\ k_has id k' = Ok n' /\ (0 < n' <-> 0 < n)) /\
    (forall id d, encodable id -> not_falsy k id -> k_read id d k' = k_read id d k) /\
    (forall j, In j (tl (k_groups k')) -> transfer = false \/ condense_all = false -> grp k' j = grp k j) /\
    (forall j id, In j (resized_removed condense_all transfer (k_groups k)) -> g_abs (grp k' j) id = None).
Proof. exact C32_lemma. Qed.
Print Assumptions C32_resize.
Example C32_case : k_reachable (ex_k false) /\ sizable 4 2 /\ resized_groups false true 3 (k_groups (ex_k false)) = [3; 1; 2]%nat /\
  not_falsy (ex_k false) (py "a").
Proof.
  split; [apply ex_k_reach|]. split; [apply sizable_small; lia|]. split; [reflexivity|]. intros v H. vm_compute in H. injection H as <-. reflexivity.
Qed.

(** ** C33 *)
Theorem C33_resize_drops_strictness : forall u0 cap mcs condense_all transfer k, k_reachable k -> sizable cap mcs ->
  k_strict (fst (resize u0 cap mcs condense_all transfer k)) = false.
Proof. exact C33_lemma. Qed.
Print Assumptions C33_resize_drops_strictness.
Example C33_case : k_reachable (ex_k true) /\ k_strict (ex_k true) = true /\ sizable 1000 10.
Proof. split; [apply ex_k_reach|]. split; [reflexivity|]. apply sizable_small; lia. Qed.

(** ** C34 *)
Theorem C34_resize_in_a_transaction_drops_secondaries : forall b0 b1 b2 u0 cap mcs k first rest,
  k_reachable k -> sizable cap mcs -> never_raises b0 -> never_raises b1 -> never_raises b2 -> k_groups k = first :: rest ->
  exists t', resize_tx b0 b1 b2 u0 cap mcs false true (on_disk k) = (t', Ok (k_groups k)) /\
    k_groups (t_saved t') = [k_primary (t_saved t')] /\ (forall id, held (t_saved t') id = g_abs (grp k first) id) /\
    (forall id, encodable id -> g_abs (grp k first) id = None -> k_has id (t_saved t') = Ok 0) /\
    k_groups (t_work t') = k_primary (t_saved t') :: rest /\ (forall id, held (t_work t') id = held k id).
Proof. exact C34_lemma. Qed.
Print Assumptions C34_resize_in_a_transaction_drops_secondaries.
(** without transfer nothing is lost on disk, but the working group list names the other groups twice *)
Theorem C34_resize_in_a_transaction_without_transfer : forall b0 b1 b2 u0 cap mcs k first rest,
  k_reachable k -> sizable cap mcs -> never_raises b0 -> never_raises b1 -> never_raises b2 -> k_groups k = first :: rest ->
  exists t', resize_tx b0 b1 b2 u0 cap mcs false false (on_disk k) = (t', Ok []) /\
    k_groups (t_saved t') = k_primary (t_saved t') :: k_groups k /\ (forall id, held (t_saved t') id = held k id) /\
    k_groups (t_work t') = k_groups (t_saved t') ++ rest.
Proof. exact C34_copy. Qed.
Print Assumptions C34_resize_in_a_transaction_without_transfer.
(** an object in the container before, durably gone after a resize that returned normally *)
Example C34_case : exists t', resize_tx (fun _ => CCommit) (fun _ => CCommit) (fun _ => CCommit) 9 4 2 false true (on_disk (ex_k false)) = (t', Ok [0; 1; 2]%nat) /\
  k_has (py "d") (ex_k false) = Ok 1 /\ k_has (py "d") (t_saved t') = Ok 0.
Proof.
  destruct (@C34_resize_in_a_transaction_drops_secondaries (fun _ => CCommit) (fun _ => CCommit) (fun _ => CCommit) 9 4 2 (ex_k false) 0%nat [1; 2]%nat)
    as (t' & E & _ & _ & H & _); try (intros n e; discriminate); try reflexivity; [apply ex_k_reach|apply sizable_small; lia|].
  exists t'. split; [exact E|]. split; [reflexivity|]. apply H; [|reflexivity]. apply Forall_forall; intros c [<-|[]]; vm_compute; intuition discriminate.
Qed.
