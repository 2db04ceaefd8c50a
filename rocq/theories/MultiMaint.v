(** Which groups the container consists of, when several connections work on it *)
From Verif Require Import Base BaseFacts Value BTree Collection Group Container ContainerFacts Txn Connection Multi MultiFacts MultiSem MultiLin MultiHist MultiBlocks MultiLog MultiSound.
Set Implicit Arguments.

(** the groups of the container, and its primary group *)
Definition layout (k : container) : list nat * nat := (k_groups k, k_primary k).

(** the body of a block: anything by others, calls and container methods by the connection itself *)
Definition in_work (i : nat) (e : event) : Prop := event_conn e <> i \/ (exists c, e = EStart i c) \/ (exists o, e = EDirect i o).
(** what the connection's own part of the body makes of a state *)
Definition own_work (i : nat) (body : list event) (k : container) : container :=
  fold_left (fun k e => match e with
                        | EStart j c => if Nat.eqb j i then fst (conn_sem c k) else k
                        | EDirect j o => if Nat.eqb j i then k_step k o else k
                        | _ => k
                        end) body k.

Lemma inside_direct w i b m o : o_conn w i = inside b m -> o_conn (fst (step w (EDirect i o))) i = inside b (k_step m o).
Proof. intro V. cbn [step]. rewrite V. cbn [w_call inside w_auto w_failed w_work w_base]. cbn. now rewrite upd_same. Qed.
Lemma inside_work i body : forall w b m, o_conn w i = inside b m -> Forall (in_work i) body ->
  o_conn (run_events body w) i = inside b (own_work i body m).
Proof.
  induction body as [|e body IH]; intros w b m V F; [exact V|]. inversion F as [|? ? E F2]; subst. cbn [run_events fold_left].
  fold (run_events body (fst (step w e))). destruct E as [E|[(c & ->)|(o & ->)]].
  - rewrite (IH _ b m); [|now rewrite step_other|auto]. f_equal. unfold own_work. cbn [fold_left].
    destruct e as [j c|j ok|j|j rs ok|j o|j|j x]; auto; cbn in E; now rewrite (proj2 (Nat.eqb_neq _ _)) by auto.
  - destruct (@inside_call w i b m c V) as (V2 & _). rewrite (IH _ _ _ V2 F2). f_equal. unfold own_work at 2. cbn [fold_left]. now rewrite Nat.eqb_refl.
  - rewrite (IH _ _ _ (@inside_direct w i b m o V) F2). f_equal. unfold own_work at 2. cbn [fold_left]. now rewrite Nat.eqb_refl.
Qed.

Lemma merge_layout b m t r : merge b m t = Some r ->
  (layout m = layout b -> layout r = layout t) /\ (layout m <> layout b -> layout t = layout b /\ layout r = layout m).
Proof.
  unfold merge, merge3. destruct (merge_lists merge_group (k_heap b) (k_heap m) (k_heap t)) as [h|]; [|discriminate].
  fold (layout b) (layout m) (layout t). destruct (top_dec (layout m) (layout b)) as [E|E].
  - unfold layout at 1. intro H. injection H as <-. split; [reflexivity|congruence].
  - destruct (top_dec (layout t) (layout b)) as [F|F]; [|discriminate]. unfold layout at 1. intro H. injection H as <-. split; [congruence|]. split; [auto|reflexivity].
Qed.
Lemma merge_both_none b m t : layout m <> layout b -> layout t <> layout b -> merge b m t = None.
Proof.
  intros M T. destruct (merge b m t) as [r|] eqn:E; auto. destruct (@merge_layout _ _ _ _ E) as (_ & H). destruct (H M). congruence.
Qed.

Lemma work_view w i body : w_call (o_conn w i) = None -> Forall (in_work i) body ->
  o_conn (run_events (EEnter i :: body) w) i = inside (o_now w) (own_work i body (o_now w)).
Proof. intros C F. cbn [run_events fold_left]. fold (run_events body (fst (step w (EEnter i)))). apply inside_work; auto. now apply entered. Qed.

Lemma maintenance_commit w0 i body ok : w_call (o_conn w0 i) = None -> Forall (in_work i) body ->
  let before := o_now w0 in
  let mine := own_work i body before in
  let w1 := run_events (EEnter i :: body) w0 in
  let others := o_now w1 in
  let result := o_now (fst (step w1 (EExit i None ok))) in
  let answer := snd (step w1 (EExit i None ok)) in
  (answer = Some (Ok (RVal VNone)) /\
     (layout mine = layout before -> layout result = layout others) /\
     (layout mine <> layout before -> layout others = layout before /\ layout result = layout mine))
  \/ (answer = Some (Err ConflictError) /\ result = others).
Proof.
  intros C F before mine w1 others result answer. pose proof (@work_view w0 i body C F) as V. fold w1 before mine in V.
  subst result answer. subst others. clearbody mine before w1. cbn [step]. rewrite V. cbn [w_call inside w_failed]. unfold try_commit, inside. cbn [w_base w_work].
  destruct ok; [|right; cbn; auto]. destruct (merge before mine (o_now w1)) as [r|] eqn:E; [|right; cbn; auto].
  left. cbn. split; [reflexivity|]. now apply merge_layout.
Qed.
Lemma maintenance_conflict w0 i body ok : w_call (o_conn w0 i) = None -> Forall (in_work i) body ->
  let before := o_now w0 in
  let mine := own_work i body before in
  let w1 := run_events (EEnter i :: body) w0 in
  layout mine <> layout before -> layout (o_now w1) <> layout before ->
  snd (step w1 (EExit i None ok)) = Some (Err ConflictError) /\ o_now (fst (step w1 (EExit i None ok))) = o_now w1.
Proof.
  intros C F before mine w1 M O. pose proof (@work_view w0 i body C F) as V. fold w1 before mine in V.
  clearbody mine before w1. cbn [step]. rewrite V. cbn [w_call inside w_failed]. unfold try_commit, inside. cbn [w_base w_work].
  rewrite (@merge_both_none _ _ _ M O). destruct ok; cbn; auto.
Qed.

(** a call on one item never changes the groups *)
Lemma write_layout id v k : layout (fst (k_write id v k)) = layout k.
Proof. unfold k_write. destruct (g_insert id v (k_prim k)) as [g [n|e]]; [|reflexivity]. destruct (Z.eqb n 0); [|reflexivity]. destruct (g_update [(id, v)] g) as [g' [u|e]]; reflexivity. Qed.
Lemma delete_layout id gs : forall k, layout (fst (delete_from id gs k)) = layout k.
Proof.
  induction gs as [|i gs IH]; intro k; cbn [delete_from]; auto. destruct (k_has id k) as [n|e]; [|reflexivity]. destruct (Z.eqb n 0); [apply IH|].
  destruct (g_pop id VNone (grp k i)) as [g [v|e]]; [|reflexivity]. specialize (IH (set_grp i g k)). destruct (delete_from id gs (set_grp i g k)) as [k1 [vs|e]]; exact IH.
Qed.
Lemma sem_layout c k : layout (fst (conn_sem c k)) = layout k.
Proof.
  destruct c as [id v|id v|id|id d|i]; cbn [conn_sem]; auto.
  - unfold do_create. destruct (k_has id k); auto. destruct (Z.eqb a 0); auto. pose proof (write_layout id v k) as W.
    destruct (k_write id v k) as [k1 [[z|]|e]]; exact W.
  - unfold do_update. destruct (k_read id VNone k); auto. pose proof (write_layout id v k) as W. destruct (k_write id v k) as [k1 [r|e]]; exact W.
  - unfold do_delete, k_delete. pose proof (delete_layout id (k_groups k) k) as W. destruct (delete_from id (k_groups k) k) as [k1 [r|e]]; exact W.
Qed.
Definition calm (v : view) : Prop := w_call v <> None -> layout (w_work v) = layout (w_base v).
Lemma calm_step w e i : (forall j, calm (o_conn w j)) -> calm (o_conn (fst (step w e)) i).
Proof.
  intro A.
  assert (U : forall j v, calm v -> calm (upd j v (o_conn w) i)) by (intros j v Q; unfold upd; destruct (Nat.eqb i j); [exact Q|apply A]).
  assert (Q : forall b m a f, calm (mkView b m a f None)) by (intros b m a f H; now elim H).
  destruct e as [j c|j ok|j|j rs ok|j o|j|j x]; cbn [step].
  - destruct (w_call (o_conn w j)); [apply A|]. destruct (conn_is_read c); [apply A|]. destruct (w_auto (o_conn w j)).
    + pose proof (sem_layout c (o_now w)) as L. destruct (conn_sem c (o_now w)) as [k r]. apply U. intros _. exact L.
    + destruct (w_failed (o_conn w j)); [apply A|]. destruct (conn_sem c (w_work (o_conn w j))) as [k r]. apply U, Q.
  - destruct (w_call (o_conn w j)) as [[[c [a|e]] s]|]; [|apply U, Q|apply A]. destruct (try_commit ok (o_conn w j) (o_now w)); apply U, Q.
  - destruct (w_call (o_conn w j)); [apply A|apply U, Q].
  - destruct (w_call (o_conn w j)); [apply A|]. destruct rs; [apply U, Q|]. destruct (w_failed (o_conn w j)); [apply U, Q|].
    destruct (try_commit ok (o_conn w j) (o_now w)); apply U, Q.
  - destruct (w_call (o_conn w j)); [apply A|]. destruct (w_failed (o_conn w j)); [apply A|]. apply U, Q.
  - destruct (w_call (o_conn w j)); [apply A|apply U, Q].
  - destruct (w_call (o_conn w j)); [apply A|apply U, Q].
Qed.
Lemma calm_run evs : forall w, (forall j, calm (o_conn w j)) -> forall j, calm (o_conn (run_events evs w) j).
Proof.
  induction evs as [|e evs IH]; intros w A; [exact A|]. cbn [run_events fold_left]. fold (run_events evs (fst (step w e))). apply IH. intro j. now apply calm_step.
Qed.
(** the end of a call leaves the groups as they were committed then *)
Lemma calls_keep_layout k evs i ok : let w := run_events evs (start_world k) in layout (o_now (fst (step w (EFinish i ok)))) = layout (o_now w).
Proof.
  intro w. assert (A : calm (o_conn w i)) by (apply calm_run; intros j H; now elim H).
  cbn [step]. destruct (w_call (o_conn w i)) as [[[c [a|e]] s]|] eqn:C; auto.
  destruct (try_commit ok (o_conn w i) (o_now w)) as [n|] eqn:T; auto. cbn. unfold try_commit in T. destruct ok; [|discriminate].
  apply (proj1 (@merge_layout _ _ _ _ T)). apply A. rewrite C. discriminate.
Qed.
