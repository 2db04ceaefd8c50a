(** Lemmas about [conn.strict] *)
From Verif Require Import Base BaseFacts Value BTree Collection SpecMap Group GroupFacts GroupCapFacts StorageThms
  Container ContainerFacts ContainerThms Txn TxnFacts Connection ConnectionFacts ConnHistory ConnStrict.

Definition flags (k : container) : list bool := map c_strict (k_prim k).
Lemma strict_flags k : k_strict k = forallb (fun b => b) (flags k).
Proof. apply g_strict_map. Qed.
Lemma delete_meta id gs : forall k, k_ok k -> incl gs (k_groups k) -> flags (fst (delete_from id gs k)) = flags k.
Proof.
  induction gs as [|i gs IH]; intros k K I; [reflexivity|]. cbn [delete_from]. destruct (k_has id k) as [n|e]; [|reflexivity].
  assert (I' : incl gs (k_groups k)) by (intros x Hx; apply I; now right). destruct (Z.eqb n 0); [now apply IH|].
  assert (Hi : In i (k_groups k)) by (apply I; now left). pose proof K as (_ & _ & ALL). destruct (ALL _ Hi) as (LT & GG).
  pose proof (g_pop_step (grp k i) id VNone) as PS. pose proof (proj2 (g_step_meta (grp k i) (Pop id VNone))) as M. rewrite PS in M. cbn [fst] in M.
  assert (GO : good_group (fst (g_pop id VNone (grp k i)))).
  { destruct (g_step_spec (grp k i) (Pop id VNone) (proj1 GG) (proj2 GG)) as (W & L & _); [exact Logic.I|]. rewrite PS in W, L. cbn [fst] in W, L. split; [exact W|]. rewrite L. apply GG. }
  destruct (g_pop id VNone (grp k i)) as [g r] eqn:GP. cbn [fst] in M, GO.
  assert (S : flags (set_grp i g k) = flags k).
  { unfold flags, k_prim. cbn [set_grp k_primary]. destruct (Nat.eq_dec i (k_primary k)) as [-> |D]; [rewrite grp_set_same by auto; exact M|now rewrite grp_set_other by auto]. }
  destruct r as [v|e]; [|exact S]. specialize (IH (set_grp i g k) (@set_grp_ok _ _ _ K Hi GO) I').
  destruct (delete_from id gs (set_grp i g k)) as [k' [vs|e]]; cbn [fst] in *; congruence.
Qed.
Lemma sem_meta cmd k : k_ok k -> flags (fst (conn_sem cmd k)) = flags k.
Proof.
  intros K. destruct cmd as [id v|id v|id|id d|i]; cbn [conn_sem]; try reflexivity.
  - unfold do_create. destruct (k_has id k) as [n|]; [|reflexivity]. destruct (Z.eqb n 0); [|reflexivity]. pose proof (k_write_meta id v K) as M. unfold flags.
    destruct (k_write id v k) as [k1 [[z|]|]]; exact M.
  - unfold do_update. destruct (k_read id VNone k) as [p|]; [|reflexivity]. pose proof (k_write_meta id v K) as M. unfold flags.
    destruct (k_write id v k) as [k1 [?|?]]; exact M.
  - unfold do_delete. pose proof (@delete_meta id (k_groups k) k K (incl_refl _)) as M. unfold k_delete.
    destruct (delete_from id (k_groups k) k) as [k1 [?|?]]; exact M.
Qed.
Lemma direct_meta body : flat body -> forall k, k_reachable k -> flags (fst (direct conn_calls body k)) = flags k.
Proof.
  induction 1 as [r|cmd next _ IH]; intros k R; cbn [direct]; [reflexivity|]. cbn [is_read sem conn_calls] in *.
  rewrite IH.
  - destruct (conn_is_read cmd); [reflexivity|]. apply sem_meta. apply (k_reachable_ok R).
  - destruct (conn_is_read cmd); [exact R|]. now apply sem_reach.
Qed.
Lemma set_strict_ok v k : k_ok k -> exists k', k_set_strict (VBool v) k = (k', Ok tt) /\ k_strict k' = v.
Proof.
  intros (_ & I & ALL). destruct (ALL _ I) as (LT & _ & LG). unfold k_set_strict, g_set_strict. eexists. split; [reflexivity|].
  unfold k_strict, k_prim. cbn [set_grp k_primary]. rewrite grp_set_same by auto. unfold g_strict. change (grp k (k_primary k)) with (k_prim k) in *.
  destruct v.
  - apply forallb_forall. intros c H. apply in_map_iff in H. destruct H as (d & <- & _). reflexivity.
  - destruct (k_prim k) as [|c g]; [cbn in LG; lia|]. reflexivity.
Qed.
Lemma set_strict_conn v c : k_reachable (n_work c) -> n_failed c = false ->
  exists k, k_set_strict (VBool v) (n_work c) = (k, Ok tt) /\ conn_set_strict (VBool v) c = (put k c, Ok tt) /\ k_strict k = v.
Proof.
  intros R F. destruct (@set_strict_ok v _ (proj1 (k_reachable_ok R))) as (k & E & S). exists k. split; auto. split; auto. unfold conn_set_strict. now rewrite F, E.
Qed.
Lemma set_strict_hidden v c : exists k, n_saved (fst (conn_set_strict v c)) = n_saved c /\ fst (conn_set_strict v c) = put k c.
Proof.
  assert (Q : c = put (n_work c) c) by now destruct c.
  unfold conn_set_strict. destruct v; try (exists (n_work c); split; [reflexivity|exact Q]).
  destruct (n_failed c); [exists (n_work c); split; [reflexivity|exact Q]|]. destruct (k_set_strict (VBool b) (n_work c)) as [k r]. exists k. auto.
Qed.
Lemma enter_put {S} (k : S) c : tm_enter (put k c) = tm_enter c.
Proof. reflexivity. Qed.
Lemma lost_call b v cmd c : n_auto c = true -> conn_is_read cmd = false ->
  exec conn_calls b cmd (fst (conn_set_strict v c)) = exec conn_calls b cmd c.
Proof.
  intros A M. destruct (set_strict_hidden v c) as (k & _ & ->). unfold exec. cbn [is_read conn_calls]. rewrite M. unfold autocommitted. cbn [n_auto put]. rewrite A.
  now rewrite enter_put.
Qed.
Lemma lost_block b v body next c : run conn_calls b (Block body next) (fst (conn_set_strict v c)) = run conn_calls b (Block body next) c.
Proof. destruct (set_strict_hidden v c) as (k & _ & ->). reflexivity. Qed.
Lemma lost_reopen v f c : reopen f (fst (conn_set_strict v c)) = reopen f c.
Proof. destruct (set_strict_hidden v c) as (k & _ & ->). reflexivity. Qed.
Lemma set_strict_reach v k : k_reachable k -> k_reachable (fst (k_set_strict v k)).
Proof. intros R. apply (@reach_step k (KStrict v) R). exact I. Qed.
Lemma kept_block b v body c k' a : k_reachable (n_saved c) -> flat body ->
  direct conn_calls body (fst (k_set_strict (VBool v) (n_saved c))) = (k', Ok a) -> b (n_calls c) = None ->
  exists c1 c2 c3, conn_set_strict (VBool v) (conn_enter c) = (c1, Ok tt) /\ run conn_calls b body c1 = (c2, Ok a) /\ conn_exit b (Ok a) c2 = (c3, Ok a) /\
    n_saved c3 = k' /\ n_work c3 = k' /\ history c3 = k' :: history c /\ k_strict k' = v.
Proof.
  intros R F D B. destruct (@set_strict_conn v (conn_enter c)) as (k & E & S & V); [exact R|reflexivity|].
  cbn [conn_enter tm_enter tm_abort set_auto n_work] in E. rewrite E in D. cbn [fst] in D.
  exists (put k (conn_enter c)). exists (put k' (conn_enter c)).
  assert (RU : run conn_calls b body (put k (conn_enter c)) = (put k' (conn_enter c), Ok a)).
  { rewrite (@flat_run _ _ _ conn_calls b _ F) by reflexivity. cbn [n_work put]. rewrite D. reflexivity. }
  assert (RK : k_reachable k) by (pose proof (@set_strict_reach (VBool v) _ R) as X; now rewrite E in X).
  assert (SV : k_strict k' = v).
  { pose proof (@direct_meta body F k RK) as M. rewrite D in M. cbn [fst] in M. rewrite strict_flags, M, <- strict_flags. exact V. }
  unfold conn_exit, tm_exit, tm_commit. cbn [fst set_autocommit n_failed conn_enter tm_enter tm_abort set_auto put n_calls]. rewrite B.
  eexists. split; [exact S|]. split; [exact RU|]. split; [reflexivity|]. cbn. auto.
Qed.
