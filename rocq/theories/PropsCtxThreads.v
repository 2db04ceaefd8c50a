(** C120: an object whose context several threads switch (jsonld/base.py:203-225). *)
From Coq Require Import String.
From Verif Require Import Base Context CtxThreads CtxThreadsFacts.
Open Scope list_scope.

(** Whatever the threads' programs and the schedule, interrupted inside the manager's methods ([fine]) or not: the object is always in its first context or in that of some block,
    so is every look, nothing of what was on the stack is lost, and when all threads have finished the stack is as it was. *)
Theorem C120_stack fine s0 c0 progs sched : let st := cs_run sched (cs_start fine s0 c0 progs) in
  let known c := c = c0 \/ exists p, In p progs /\ block_ctx p c in
  known (cs_context st) /\ (forall t o c, In t (cs_threads st) -> In (o, c) (c_seen t) -> known c) /\ (finished st -> cs_stack st = s0) /\ exists extra, cs_stack st = extra ++ s0.
Proof. exact (C120_stack_lemma fine s0 c0 progs sched). Qed.
Print Assumptions C120_stack.

(** Every thread makes the looks of its program in order, each once. *)
Theorem C120_looks fine s0 c0 progs sched i p t : let st := cs_run sched (cs_start fine s0 c0 progs) in
  nth_error progs i = Some p -> nth_error (cs_threads st) i = Some t ->
  exists rest, map fst (rev (c_seen t)) ++ rest = looks p /\ (c_code t = [] -> rest = []).
Proof. exact (C120_looks_lemma fine s0 c0 progs sched i p t). Qed.
Print Assumptions C120_looks.

(** One thread sees at every moment the context of the innermost block around the look, or the object's, and leaves the object as it found it. *)
Theorem C120_one_thread fine s0 c0 p sched : let st := cs_run sched (cs_start fine s0 c0 [p]) in
  (forall t o x, In t (cs_threads st) -> In (o, x) (c_seen t) -> x = scoped_ctx c0 o) /\ (finished st -> cs_context st = c0 /\ cs_stack st = s0).
Proof. exact (C120_one_thread_lemma fine s0 c0 p sched). Qed.
Print Assumptions C120_one_thread.

(** If no thread is interrupted inside the manager's methods, the object is in its first context again when all have finished, whatever the blocks and however they overlap. *)
Theorem C120_restored s0 c0 progs sched : let st := cs_run sched (cs_start false s0 c0 progs) in finished st -> cs_context st = c0 /\ cs_stack st = s0.
Proof. exact (C120_restored_lemma s0 c0 progs sched). Qed.
Print Assumptions C120_restored.

(** If moreover all blocks are for the same context (threads that only call [data()], say), a look inside a block sees that context;
    a look outside any block sees the object's context or the one of the blocks. *)
Theorem C120_same c c0 s0 progs sched : (forall p d, In p progs -> block_ctx p d -> d = c) ->
  forall t o x, In t (cs_threads (cs_run sched (cs_start false s0 c0 progs))) -> In (o, x) (c_seen t) -> match o with Some d => x = d | None => x = c0 \/ x = c end.
Proof. exact (C120_same_lemma c c0 s0 progs sched). Qed.
Print Assumptions C120_same.

(** ** Refuted *)
Definition ja : ctx := Some (py "json").
Definition cl : ctx := Some (py "class-change").
Definition is_done (st : cstate) : bool := forallb (fun t => match c_code t with [] => true | _ => false end) (cs_threads st).
Lemma is_done_finished st : is_done st = true -> finished st.
Proof. intros H t I. unfold is_done in H. rewrite forallb_forall in H. specialize (H t I). now destruct (c_code t). Qed.

(** Claim: two threads that each serialise the object leave it usable. With an interruption between the pop and the assignment in [__exit__] the object
    stays in the JSON context for good: every later look outside any block sees it. *)
Theorem C120_left_in_json_refuted : ~ (forall progs sched, let st := cs_run sched (cs_start true [] None progs) in finished st -> cs_context st = None).
Proof.
  intro H. specialize (H [[Block ja [Look]]; [Block ja [Look]]] [0; 0; 0; 0; 1; 1; 1; 1; 0; 1; 1; 0]). cbv zeta in H.
  assert (F : cs_context (cs_run [0; 0; 0; 0; 1; 1; 1; 1; 0; 1; 1; 0] (cs_start true [] None [[Block ja [Look]]; [Block ja [Look]]])) = None) by (apply H, is_done_finished; reflexivity).
  discriminate F.
Qed.
Print Assumptions C120_left_in_json_refuted.

(** Claim: inside a block a thread sees the context of its block. Even without interruption of the methods another thread's block replaces it. *)
Theorem C120_inside_refuted : ~ (forall progs sched t d x, In t (cs_threads (cs_run sched (cs_start false [] None progs))) -> In (Some d, x) (c_seen t) -> x = d).
Proof.
  intro H. specialize (H [[Block ja [Look]]; [Block cl []]] [0; 1; 0] (mkC None [ILeave] [(Some ja, cl)]) ja cl (or_introl eq_refl) (or_introl eq_refl)). discriminate H.
Qed.
Print Assumptions C120_inside_refuted.

(** Claim: a thread that switches no context sees the object's. While another thread serialises the object it sees the JSON values. *)
Theorem C120_outside_refuted : ~ (forall progs sched t x, In t (cs_threads (cs_run sched (cs_start false [] None progs))) -> In (None, x) (c_seen t) -> x = None).
Proof.
  intro H. specialize (H [[Block ja [Look]]; [Look]] [0; 1] (mkC None [] [(None, ja)]) ja (or_intror (or_introl eq_refl)) (or_introl eq_refl)). discriminate H.
Qed.
Print Assumptions C120_outside_refuted.

(** ** Examples *)
Definition nest : list blk := [Look; Block ja [Look; Block cl [Look]; Look]; Look].
(** one thread, two nested blocks, interruptible *)
Example C120_one_ex : let st := cs_run (repeat 0 15) (cs_start true [] None [nest]) in
  is_done st = true /\ map (fun t => rev (c_seen t)) (cs_threads st) = [[(None, None); (Some ja, ja); (Some cl, cl); (Some ja, ja); (None, None)]] /\ cs_context st = None.
Proof. split; [reflexivity|]. split; reflexivity. Qed.
(** two threads with overlapping blocks, not interrupted inside the methods: the context is restored *)
Example C120_restored_ex : let st := cs_run [0; 0; 1; 0; 1; 0; 1; 0; 0; 0; 0; 1; 1; 0; 1; 1; 1; 1; 1] (cs_start false [] None [nest; nest]) in
  finished st /\ cs_context st = None /\ cs_stack st = [].
Proof. split; [apply is_done_finished; reflexivity|]. split; reflexivity. Qed.
(** two threads that serialise: each sees the JSON context in its block *)
Example C120_same_ex : (forall p d, In p [[Block ja [Look]]; [Look; Block ja [Look]]] -> block_ctx p d -> d = ja) /\
  map c_seen (cs_threads (cs_run [0; 1; 1; 0; 0; 1; 1] (cs_start false [] None [[Block ja [Look]]; [Look; Block ja [Look]]]))) = [[(Some ja, ja)]; [(Some ja, ja); (None, ja)]].
Proof.
  split; [|reflexivity]. intros p d [<-|[<-|[]]] B; repeat match goal with H : block_ctx _ _ |- _ => inversion H; clear H; subst end; reflexivity.
Qed.
