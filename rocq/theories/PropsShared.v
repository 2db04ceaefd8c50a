(** Property theorems C110, C111: connections sharing a transaction manager; deleting through a connection. *)
From Coq Require Import String.
From Verif Require Import Base BaseFacts Value BTree Collection SpecMap Group RoutingFacts GroupFacts GroupNewFacts StorageThms PropsStorage
  Container ContainerFacts CondenseFacts ResizeFacts ContainerThms PropsContainer Txn TxnFacts Connection ConnectionFacts PropsConnection Multi PropsMulti Shared SharedFacts SharedMove.
Open Scope Z_scope.
Open Scope list_scope.

(** ** C110: several databases, one connection each, all opened with one transaction manager.
    [h : shared A] is the manager with the connections; [s_saved h i] is what database [i] has committed, [s_work h i]
    what its connection has in memory, [s_history h] the joint committed states, newest first, [s_auto h] the
    manager's autocommit, [h_flag h i] what [conn_i.autocommit] reads. [SBlock (Some i) body k] is [with conn_i: body]
    followed by [k], [SBlock None body k] is [with tm: body]; [sflat body]: the body makes calls on any of the
    connections; [salone cs body s] runs it on the states [s] without transactions. [b n]: the n-th commit's failure. *)
Theorem C110_block_commits_everywhere : forall (A C R : Type) (cs : calls A C R) b who body (h : shared A) k a,
  sflat body -> salone cs body (s_saved h) = (k, Ok a) -> b (n_calls (h_tx h)) = None ->
  exists h', srun cs b (SBlock who body SDone) h = (h', Ok a) /\ s_work h' = k /\ s_history h' = k :: s_history h /\ s_auto h' = true.
Proof. intros A C R cs b who body h k a F D B. destruct (block_ok cs b who h F D B) as (h' & H1 & H2 & H3 & H4 & _). eauto 6. Qed.
Print Assumptions C110_block_commits_everywhere.
Theorem C110_exception_undoes_everywhere : forall (A C R : Type) (cs : calls A C R) b who body (h : shared A) k e,
  sflat body -> salone cs body (s_saved h) = (k, Err e) ->
  exists h', srun cs b (SBlock who body SDone) h = (h', Err e) /\ s_work h' = s_saved h /\ s_history h' = s_history h /\ s_auto h' = true.
Proof. intros A C R cs b who body h k e F D. destruct (block_raises cs b who h F D) as (h' & H1 & H2 & H3 & H4 & _). eauto 6. Qed.
Print Assumptions C110_exception_undoes_everywhere.
(** a refused commit undoes everything; after [with tm:] (not after [with conn:]) the manager's autocommit stays off *)
Theorem C110_refused_commit_undoes_everywhere : forall (A C R : Type) (cs : calls A C R) b who body (h : shared A) k a e,
  sflat body -> salone cs body (s_saved h) = (k, Ok a) -> b (n_calls (h_tx h)) = Some e ->
  exists h', srun cs b (SBlock who body SDone) h = (h', Err e) /\ s_work h' = s_saved h /\ s_history h' = s_history h /\
    s_auto h' = match who with Some _ => true | None => false end.
Proof. intros A C R cs b who body h k a e F D B. exact (block_refused cs b who h F D B). Qed.
Print Assumptions C110_refused_commit_undoes_everywhere.
(** [with conn_i, conn_j: body] is one block *)
Theorem C110_two_with_items : forall (A C R : Type) (cs : calls A C R) b w1 w2 body (h : shared A) k,
  sflat body ->
  (forall a, salone cs body (s_saved h) = (k, Ok a) -> b (n_calls (h_tx h)) = None -> b (S (n_calls (h_tx h))) = None ->
   exists h', srun cs b (SBlock w1 (SBlock w2 body SDone) SDone) h = (h', Ok a) /\ s_work h' = k /\ s_saved h' = k /\ s_auto h' = true /\
     exists l, s_history h' = l ++ s_history h /\ forall d, In d l -> d = k) /\
  (forall e, salone cs body (s_saved h) = (k, Err e) ->
   exists h', srun cs b (SBlock w1 (SBlock w2 body SDone) SDone) h = (h', Err e) /\ s_work h' = s_saved h /\ s_history h' = s_history h /\ s_auto h' = true).
Proof. intros A C R cs b w1 w2 body h k F. split; [intros a D B1 B2; exact (two_blocks_ok cs b w1 w2 h F D B1 B2)|intros e D; exact (two_blocks_raise cs b w1 w2 h F D)]. Qed.
Print Assumptions C110_two_with_items.
(** an autocommitted call commits its own database only, and discards what the other connections had pending *)
Theorem C110_autocommitted_call : forall (A C R : Type) (cs : calls A C R) b i cmd (h : shared A), s_auto h = true -> is_read cs cmd = false ->
  exists h' r, srun cs b (SDo i cmd SDone) h = (h', r) /\ h_flag h' = h_flag h /\
    (forall j, j <> i -> s_saved h' j = s_saved h j) /\ s_work h' = s_saved h' /\
    ((exists a x, r = Ok a /\ sem cs cmd (s_saved h i) = (x, Ok a) /\ s_saved h' i = x /\ s_history h' = s_saved h' :: s_history h) \/
     (exists e, r = Err e /\ s_saved h' i = s_saved h i /\ s_history h' = s_history h)).
Proof. exact @auto_call. Qed.
Print Assumptions C110_autocommitted_call.
(** assigning [conn_i.autocommit] decides for all the connections, though [conn_j.autocommit] reads as before;
    leaving a [with conn_i:] block turns autocommit on for all *)
Theorem C110_autocommit_is_shared : forall (A C R : Type) (cs : calls A C R) b i (h : shared A),
  (forall v, exists h', s_set i (VBool v) h = (h', Ok tt) /\ s_auto h' = v /\ (forall j, j <> i -> h_flag h' j = h_flag h j) /\ h_flag h' i = VBool v /\
     s_work h' = s_work h /\ s_history h' = s_history h) /\
  (forall v, (forall a, v <> VBool a) -> s_set i v h = (h, Err TypeError)) /\
  (forall j cmd, s_auto h = false -> s_history (fst (srun cs b (SDo j cmd SDone) h)) = s_history h /\ s_auto (fst (srun cs b (SDo j cmd SDone) h)) = false) /\
  (forall body, let h' := fst (srun cs b (SBlock (Some i) body SDone) h) in s_auto h' = true /\ h_flag h' i = VBool true).
Proof.
  intros A C R cs b i h. split; [|split; [|split]].
  - intros v. eexists. split; [reflexivity|]. cbn. unfold upd_at. rewrite Nat.eqb_refl. repeat split; auto. intros j Hj. now apply Nat.eqb_neq in Hj as ->.
  - intros v Hv. destruct v as [|x| | |]; try reflexivity. destruct (Hv x). reflexivity.
  - intros j cmd Hoff. exact (off_call cs b j cmd h Hoff).
  - intros body. cbn [srun]. destruct (srun cs b body (s_enter h)) as [h1 r]. unfold s_exit, tm_exit. cbn [s_set fst h_tx h_flag].
    destruct r as [a|e]; [|cbn; unfold upd_at; rewrite Nat.eqb_refl; auto]. destruct (tm_commit b (set_auto true (h_tx h1))) as [c [u|e]] eqn:E.
    + cbn. unfold upd_at. rewrite Nat.eqb_refl. auto.
    + cbn. unfold upd_at, s_auto. cbn. rewrite Nat.eqb_refl. split; [|reflexivity]. unfold tm_commit in E. cbn in E.
      destruct (n_failed (h_tx h1)); [now inversion E|]. destruct (b (n_calls (h_tx h1))); now inversion E.
Qed.
Print Assumptions C110_autocommit_is_shared.
(** moving an object from database [i] to database [j] in a block: it ends in [j] or everything is as it was *)
Theorem C110_move : forall b who i j id (h : shared container) v, i <> j ->
  k_reachable (s_saved h i) -> k_reachable (s_saved h j) -> held (s_saved h i) id = Some v -> truthy v = true ->
  exists h' r, srun conn_calls b (SBlock who (move_body i j id) SDone) h = (h', r) /\ s_work h' = s_saved h' /\
    ((r = Ok (RVal (VInt 1)) /\ held (s_saved h j) id = None /\ held (s_saved h' i) id = None /\ held (s_saved h' j) id = Some v /\
       (forall n x, x <> id -> held (s_saved h' n) x = held (s_saved h n) x)) \/
     (exists e, r = Err e /\ s_saved h' = s_saved h)).
Proof. exact move_lemma. Qed.
Print Assumptions C110_move.
(** A crash during the commit: each database has its old or its new state; with one changed database all is old or all
    is new. [crash_states saved work order]: the databases of [order] are finished one after the other. *)
Theorem C110_crash_during_commit : forall (A : Type) (saved work : nat -> A) order, 
  (forall d, In d (crash_states saved work order) -> forall i, d i = saved i \/ (d i = work i /\ In i order)) /\
  (forall i d, order = [i] -> (forall j, j <> i -> work j = saved j) -> In d (crash_states saved work order) -> (forall j, d j = saved j) \/ (forall j, d j = work j)).
Proof. intros A saved work order. split; [intros d; now apply crash_each|intros i d -> H D; exact (crash_one D H)]. Qed.
Print Assumptions C110_crash_during_commit.

Definition ex_two : nat -> container := fun i => if Nat.eqb i 0 then fst (k_write (py "x") (VInt 5) k4) else k4.
Definition ex_h : shared container := mkSh (mkConn ex_two ex_two [] true VNone false 0) (fun _ => VBool true).
Lemma ex_two_reach i : k_reachable (ex_two i).
Proof.
  unfold ex_two. destruct (Nat.eqb i 0); [|apply k4_reach]. assert (fst (k_write (py "x") (VInt 5) k4) = k_step k4 (KWrite (py "x") (VInt 5))) as -> by reflexivity.
  apply reach_step; [apply k4_reach|exact Logic.I].
Qed.
(** the move between two databases is not crash-safe: between the two finishing steps the object is nowhere *)
Theorem C110_crash_safe_move_refuted : exists (h : shared container) id v h', k_reachable (s_saved h 0%nat) /\ k_reachable (s_saved h 1%nat) /\
  held (s_saved h 0%nat) id = Some v /\ srun conn_calls all_ok (SBlock None (move_body 0 1 id) SDone) h = (h', Ok (RVal (VInt 1))) /\ held (s_saved h' 1%nat) id = Some v /\
  exists d, In d (crash_states (s_saved h) (s_saved h') [0; 1]%nat) /\ forall i, (i < 2)%nat -> held (d i) id = None.
Proof.
  eexists ex_h, (py "x"), (VInt 5), _. split; [apply ex_two_reach|]. split; [apply ex_two_reach|]. split; [vm_compute; reflexivity|].
  assert (E : srun conn_calls all_ok (SBlock None (move_body 0 1 (py "x")) SDone) ex_h = (fst (srun conn_calls all_ok (SBlock None (move_body 0 1 (py "x")) SDone) ex_h), Ok (RVal (VInt 1)))).
  { rewrite (surjective_pairing (srun _ _ _ _)) at 1. apply (f_equal2 pair eq_refl). vm_compute. reflexivity. }
  split; [exact E|]. split; [vm_compute; reflexivity|].
  eexists. split; [right; left; reflexivity|]. intros i Hi. destruct i as [|[|i]]; [vm_compute; reflexivity|vm_compute; reflexivity|lia].
Qed.
Print Assumptions C110_crash_safe_move_refuted.
Example C110_case : sflat (move_body 0 1 (py "x")) /\ snd (salone conn_calls (move_body 0 1 (py "x")) (s_saved ex_h)) = Ok (RVal (VInt 1)) /\
  held (s_saved ex_h 0) (py "x") = Some (VInt 5) /\ s_auto ex_h = true /\
  k_has (py "x") (s_saved (fst (srun conn_calls all_ok (SBlock (Some 1%nat) (move_body 0 1 (py "x")) SDone) ex_h)) 1) = Ok 1 /\
  (* moving back and forth fails the second time: the object is not there *)
  snd (srun conn_calls all_ok (SBlock None (move_body 0 1 (py "x")) (fun _ => SBlock (Some 0%nat) (move_body 1 0 (py "x")) (fun _ => SDo 1 (CItem (IStr (py "x"))) SDone))) ex_h) = Err KeyError /\
  (* conn_0.autocommit = False; conn_1.create pending; conn_0.autocommit = True; conn_0.create: the first create is gone *)
  (let h := fst (srun conn_calls all_ok (SSet 0 (VBool false) (fun _ => SDo 1 (CCreate (py "y") (VInt 1)) (fun _ => SSet 0 (VBool true) (fun _ => SDo 0 (CCreate (py "z") (VInt 1)) SDone)))) ex_h) in
   k_has (py "y") (s_work h 1%nat) = Ok 0 /\ k_has (py "z") (s_saved h 0%nat) = Ok 1).
Proof. split; [apply move_flat|]. vm_compute. auto 10. Qed.

(** ** C111: [seen c] is the state the call works on: the committed one with autocommit on, else the working one.
    [holding_prefix k id (k_groups k) A B]: the groups up to the first that does not hold [id], and the rest. *)
Theorem C111_delete : forall b (c : conn container) id, k_reachable (seen c) -> encodable id -> (n_auto c = true \/ n_failed c = false) -> b (n_calls c) = None ->
  exists A B, holding_prefix (seen c) id (k_groups (seen c)) A B /\
    ((forall i, In i B -> ~ holds_id (seen c) id i) ->
       exists c' vs, exec conn_calls b (CDelete id) c = (c', Ok (RTuple vs)) /\ values_at (seen c) id A vs /\ taken_out (seen c) (n_work c') id A /\
         k_has id (n_work c') = Ok 0 /\ history c' = if n_auto c then n_work c' :: history c else history c) /\
    ((exists j, In j B /\ holds_id (seen c) id j) ->
       exists c', exec conn_calls b (CDelete id) c = (c', Err KeyError) /\ history c' = history c /\
         if n_auto c then n_work c' = n_saved c else taken_out (seen c) (n_work c') id A).
Proof. exact delete_lemma. Qed.
Print Assumptions C111_delete.
(** the KeyError caught inside a block: the block commits the half-finished deletion, and the id reads what the
    remaining groups hold *)
Theorem C111_caught_in_a_block : forall b (c : conn container) id A B, k_reachable (n_saved c) -> encodable id -> b (n_calls c) = None ->
  holding_prefix (n_saved c) id (k_groups (n_saved c)) A B -> (exists j, In j B /\ holds_id (n_saved c) id j) ->
  exists c', run conn_calls b (Block (caught_delete id) Done) c = (c', Ok (RVal VNone)) /\ taken_out (n_saved c) (n_saved c') id A /\ n_work c' = n_saved c' /\
    held (n_saved c') id = first_held id (map (fun i => g_abs (grp (n_saved c) i)) B).
Proof. exact caught_lemma. Qed.
Print Assumptions C111_caught_in_a_block.
(** "a" is in all three groups; "d", after an update, in the first and the last *)
Definition ex_d : conn container := fst (exec conn_calls all_ok (CUpdate (py "d") (VInt 8)) ex_c).
Example C111_case : k_reachable (seen ex_c) /\ encodable (py "a") /\ n_auto ex_c = true /\ all_ok (n_calls ex_c) = None /\
  snd (exec conn_calls all_ok (CDelete (py "a")) ex_c) = Ok (RTuple [VInt 1; VInt 2; VInt 3]) /\
  snd (exec conn_calls all_ok (CDelete (py "d")) ex_d) = Err KeyError /\
  k_read (py "d") VNone (n_saved (fst (exec conn_calls all_ok (CDelete (py "d")) ex_d))) = Ok (VInt 8) /\
  k_read (py "d") VNone (n_saved (fst (run conn_calls all_ok (Block (caught_delete (py "d")) Done) ex_d))) = Ok (VInt 4).
Proof.
  split; [apply ex_k_reach|]. split; [apply Forall_forall; intros ch [<-|[]]; vm_compute; intuition discriminate|]. split; [reflexivity|]. split; [reflexivity|]. vm_compute. auto 10.
Qed.
Example C111_case_block : exists A B, k_reachable (n_saved ex_d) /\ encodable (py "d") /\ holding_prefix (n_saved ex_d) (py "d") (k_groups (n_saved ex_d)) A B /\ A <> [] /\
  exists j, In j B /\ holds_id (n_saved ex_d) (py "d") j.
Proof.
  exists [0%nat], [1; 2]%nat. split.
  { assert (n_saved ex_d = k_step (ex_k false) (KWrite (py "d") (VInt 8))) as -> by (vm_compute; reflexivity). apply reach_step; [apply ex_k_reach|exact Logic.I]. }
  split; [apply Forall_forall; intros ch [<-|[]]; vm_compute; intuition discriminate|]. split.
  { change (k_groups (n_saved ex_d)) with [0; 1; 2]%nat. apply hp_more; [vm_compute; discriminate|]. apply hp_stop. vm_compute. intros H. now apply H. }
  split; [discriminate|]. exists 2%nat. split; [simpl; auto|]. vm_compute. discriminate.
Qed.
