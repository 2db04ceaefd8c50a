(** C120, threads whose programs also raise and catch exceptions, on the manager of Context.v with its active flag (PropsCtxThreads.v: without). *)
From Coq Require Import String.
From Verif Require Import Base BaseFacts Context CtxSteps CtxStepsFacts.
Open Scope list_scope.

(** Reading aid. Programs (Context.v): [With c body] is "with obj.switch_context(c): body", [See] reads the context, [Throw], [Catch]. [at_start lock ps m]: an object whose context manager is [m], and the programs [ps], each in its own thread;
    [ticks schedule] lets thread [i] do a step for each [i] of the schedule. With [lock = false] a step is one read or write of the manager's attributes; with [lock = true] entering a block and leaving it are one step each.
    Observations: the context of the innermost block around (None: no block), and the context read. [finished]: all threads have ended. *)
(** after whatever steps: the contexts saved before are still there, and the context, also every context observed, is None, the first one, or one of some block; at the end nothing else is left on the stack *)
Theorem C120_exceptions_any_schedule : forall lock ps m schedule, let '(m', ts, o) := ticks schedule (at_start lock ps m) in
  let possible c := c = None \/ c = m_context m \/ blocks_of c ps in
  (exists top, m_stack m' = top ++ m_stack m) /\ possible (m_context m') /\ Forall (fun x => possible (snd x)) o /\ (finished (m', ts, o) -> m_stack m' = m_stack m).
Proof. exact all_steps. Qed.
Print Assumptions C120_exceptions_any_schedule.
(** when entering and leaving are indivisible, the context at the end is the one at the start, whatever the schedule and whatever exceptions *)
Theorem C120_exceptions_restored : forall ps m schedule, let '(m', ts, o) := ticks schedule (at_start true ps m) in finished (m', ts, o) -> m_stack m' = m_stack m /\ m_context m' = m_context m.
Proof. intros ps m schedule. pose proof (@locked_steps ps m schedule (fun _ => True) (fun _ _ => I)) as H. destruct (ticks schedule (at_start true ps m)) as [[m' ts] o]. exact (proj1 H). Qed.
Print Assumptions C120_exceptions_restored.
(** and if all blocks are for the same context (as when several threads turn the object into JSON), everything read inside a block is read in this context *)
Theorem C120_exceptions_same : forall ps m schedule c, (forall d, blocks_of d ps -> d = c) -> let '(m', ts, o) := ticks schedule (at_start true ps m) in forall d x, In (Some d, x) o -> d = c /\ x = c.
Proof. intros ps m schedule c H. pose proof (@locked_steps ps m schedule (fun d => d = c) H) as K. destruct (ticks schedule (at_start true ps m)) as [[m' ts] o]. exact (proj2 K). Qed.
Print Assumptions C120_exceptions_same.
(** a single thread: as the program says (C55) *)
Theorem C120_exceptions_one_thread : forall lock p m, exists n o g, ticks (repeat 0%nat n) (at_start lock [p] m) = (fst (fst (w_run p m)), [mkThr [] g], o) /\ map snd o = snd (fst (w_run p m)).
Proof. exact alone. Qed.
Print Assumptions C120_exceptions_one_thread.

Definition json : ctx := Some (py "json").
Definition other : ctx := Some (py "other").
Definition to_json : list wstmt := [See; With json [See]; See].
(** two threads with indivisible blocks, overlapping: thread 1 enters before thread 0 leaves *)
Example C120_exceptions_case : let w := ticks [0; 0; 1; 1; 0; 1; 0; 0; 1; 1]%nat (at_start true [to_json; to_json] mgr_new) in finished w /\ (forall d, blocks_of d [to_json; to_json] -> d = json) /\
  w = (mgr_new, [mkThr [] None; mkThr [] None], [(None, None); (None, json); (Some json, json); (Some json, json); (None, json); (None, None)]).
Proof.
  cbv zeta. split; [|split; [|vm_compute; reflexivity]].
  - vm_compute. intros t [<-|[<-|[]]]; reflexivity.
  - intros d (p & x & Hp & Hx & B). assert (p = to_json) as -> by (destruct Hp as [E|[E|[]]]; now symmetry). destruct Hx as [<-|[<-|[<-|[]]]]; inversion B; subst; [reflexivity|]. match goal with H : In _ [See] |- _ => destruct H as [<-|[]] end. match goal with H : block_of _ See |- _ => inversion H end.
Qed.
(** false of the code, whose steps are not indivisible: that the context is restored at the end (two threads that turn an object into JSON can leave it in the JSON context for good), and that a block reads its own context, even if all are for the same *)
Theorem C120_exceptions_refuted : ~ (forall ps m schedule, let '(m', ts, o) := ticks schedule (at_start false ps m) in finished (m', ts, o) -> m_context m' = m_context m) /\
  ~ (forall ps m schedule c, (forall d, blocks_of d ps -> d = c) -> let '(m', ts, o) := ticks schedule (at_start false ps m) in forall d x, In (Some d, x) o -> x = c).
Proof.
  split; intros H.
  - specialize (H [[With json []]; [With json []]] mgr_new [0; 0; 0; 1; 1; 1; 0; 1; 1; 0; 0; 1]%nat). vm_compute in H. assert (F : forall t, mkThr [] json = t \/ mkThr [] None = t \/ False -> todo t = []) by (intros t [<-|[<-|[]]]; reflexivity). vm_compute in F. specialize (H F). discriminate H.
  - specialize (H [[With json []]; [With json [See]]] mgr_new [0; 0; 0; 0; 1; 1; 1; 0; 1]%nat json). assert (B : forall d, blocks_of d [[With json []]; [With json [See]]] -> d = json).
    { intros d (p & x & Hp & Hx & B). destruct Hp as [<-|[<-|[]]]; destruct Hx as [<-|[]]; inversion B; subst; try reflexivity; match goal with K : In _ _ |- _ => destruct K as [<-|[]] || destruct K end. match goal with K : block_of _ See |- _ => inversion K end. }
    specialize (H B). vm_compute in H. specialize (H _ _ (or_introl eq_refl)). discriminate H.
Qed.
Print Assumptions C120_exceptions_refuted.
(** and even with indivisible steps: that a block reads its own context when others are for another one, and that no context is seen outside blocks *)
Theorem C120_exceptions_shared_refuted : ~ (forall ps schedule, let '(m', ts, o) := ticks schedule (at_start true ps mgr_new) in forall d x, In (Some d, x) o -> x = d) /\
  ~ (forall ps schedule, let '(m', ts, o) := ticks schedule (at_start true ps mgr_new) in forall x, In (None, x) o -> x = None).
Proof.
  split; intros H.
  - specialize (H [[With json [See]]; [With other []]] [0; 1; 0]%nat). vm_compute in H. specialize (H _ _ (or_introl eq_refl)). discriminate H.
  - specialize (H [[With json []]; [See]] [0; 1]%nat). vm_compute in H. specialize (H _ (or_introl eq_refl)). discriminate H.
Qed.
Print Assumptions C120_exceptions_shared_refuted.
