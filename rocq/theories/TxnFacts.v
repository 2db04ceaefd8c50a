(** Facts about transactions, for any stored state and any calls *)
From Verif Require Import Base Value Txn.
Set Implicit Arguments.

(** ** Specification vocabulary *)
(** a block body without a nested block and without assignments to [autocommit] *)
Inductive flat {C R} : prog C R -> Prop :=
| flat_done r : flat (Done r)
| flat_do c k : (forall r, flat (k r)) -> flat (Do c k).
(** the same body run directly on a state, no transaction anywhere *)
Fixpoint direct {S C R} (cs : calls S C R) (p : prog C R) (k : S) : S * res R :=
  match p with
  | Done r => (k, r)
  | Do cmd next => direct cs (next (snd (sem cs cmd k))) (if is_read cs cmd then k else fst (sem cs cmd k))
  | SetAuto _ _ | Block _ _ => (k, Err OutOfModel)
  end.
(** [visits p c c']: running [p] from [c], the connection is at some moment in state [c'] *)
Inductive visits {S C R} (cs : calls S C R) (b : nat -> option exn) : prog C R -> conn S -> conn S -> Prop :=
| v_here p c : visits cs b p c c
| v_do cmd next c c' : visits cs b (next (snd (exec cs b cmd c))) (fst (exec cs b cmd c)) c' -> visits cs b (Do cmd next) c c'
| v_auto v next c c' : visits cs b (next (snd (set_autocommit v c))) (fst (set_autocommit v c)) c' -> visits cs b (SetAuto v next) c c'
| v_inside body next c c' : visits cs b body (conn_enter c) c' -> visits cs b (Block body next) c c'
| v_after body next c c1 r1 c2 r2 c' : run cs b body (conn_enter c) = (c1, r1) -> conn_exit b r1 c1 = (c2, r2) ->
    visits cs b (next r2) c2 c' -> visits cs b (Block body next) c c'.
(** every commit of [b] succeeds *)
Definition commits (b : nat -> option exn) : Prop := forall n, b n = None.

Section Facts.
Context {S C R : Type} (cs : calls S C R) (b : nat -> option exn).
Implicit Types (c : conn S) (p : prog C R).

Lemma put_same c : put (n_work c) c = c.
Proof. destruct c; reflexivity. Qed.

Lemma exec_off cmd c : n_auto c = false -> exec cs b cmd c = perform cs cmd c.
Proof. intros H. unfold exec, autocommitted. rewrite H. destruct (is_read cs cmd); reflexivity. Qed.

Lemma flat_run p : flat p -> forall c, n_auto c = false -> n_failed c = false ->
  run cs b p c = (put (fst (direct cs p (n_work c))) c, snd (direct cs p (n_work c))).
Proof.
  induction 1 as [r|cmd k _ IH]; intros c A F; simpl.
  - now rewrite put_same.
  - rewrite exec_off by auto. unfold perform. rewrite F. destruct (is_read cs cmd).
    + simpl. rewrite IH; auto.
    + destruct (sem cs cmd (n_work c)) as [k' r] eqn:E. simpl. rewrite IH; auto.
Qed.

Lemma flat_visits p : flat p -> forall c c', n_auto c = false -> visits cs b p c c' -> history c' = history c /\ n_auto c' = false.
Proof.
  induction 1 as [r|cmd k _ IH]; intros c c' A V; inversion V as [| ? ? ? ? V1 | | |]; subst; auto.
  rewrite exec_off in V1 by auto. apply IH in V1.
  - destruct V1 as [V1 V2]. split; auto. rewrite V1. unfold perform. destruct (is_read cs cmd); auto. destruct (n_failed c); auto. destruct (sem cs cmd (n_work c)); auto.
  - unfold perform. destruct (is_read cs cmd); auto. destruct (n_failed c); auto. destruct (sem cs cmd (n_work c)); auto.
Qed.

(** ** C35 *)
Lemma C35_lemma cmd c : n_auto c = true -> is_read cs cmd = false ->
  (exists a c', exec cs b cmd c = (c', Ok a) /\ sem cs cmd (n_saved c) = (n_saved c', Ok a) /\ n_work c' = n_saved c' /\ history c' = n_saved c' :: history c) \/
  (exists e c', exec cs b cmd c = (c', Err e) /\ n_work c' = n_saved c /\ history c' = history c).
Proof.
  intros A D. unfold exec, autocommitted. rewrite A, D. unfold perform. rewrite D. simpl.
  destruct (sem cs cmd (n_saved c)) as [k [a|e]] eqn:E; simpl.
  - unfold tm_commit. simpl. destruct (b (n_calls c)) as [e|] eqn:B.
    + right. exists e. eexists. split; [reflexivity|]. auto.
    + left. exists a. eexists. split; [reflexivity|]. simpl. auto.
  - right. exists e. eexists. split; [reflexivity|]. auto.
Qed.
Lemma C35_no_failure cmd c : commits b -> n_auto c = true -> is_read cs cmd = false ->
  forall e, snd (exec cs b cmd c) = Err e <-> snd (sem cs cmd (n_saved c)) = Err e.
Proof.
  intros HB A D e. unfold exec, autocommitted. rewrite A, D. unfold perform. rewrite D. simpl.
  destruct (sem cs cmd (n_saved c)) as [k [a|e']] eqn:E; simpl.
  - unfold tm_commit. simpl. rewrite HB. simpl. tauto.
  - tauto.
Qed.

(** ** C36 *)
Lemma C36_during body c c' : flat body -> visits cs b body (conn_enter c) c' -> history c' = history c.
Proof. intros F V. apply (flat_visits F) in V; auto. destruct V as [V _]. rewrite V. reflexivity. Qed.
Lemma C36_lemma body c k a : flat body -> direct cs body (n_saved c) = (k, Ok a) -> b (n_calls c) = None ->
  exists c', run cs b (Block body Done) c = (c', Ok a) /\ n_work c' = k /\ history c' = k :: history c.
Proof.
  intros F D B. simpl. rewrite (flat_run F) by auto. simpl. rewrite D. simpl. unfold tm_commit. simpl. rewrite B. simpl. eexists. split; [reflexivity|]. auto.
Qed.
Lemma C36_raises body c k e : flat body -> direct cs body (n_saved c) = (k, Err e) ->
  exists c', run cs b (Block body Done) c = (c', Err e) /\ n_work c' = n_saved c /\ history c' = history c.
Proof.
  intros F D. simpl. rewrite (flat_run F) by auto. simpl. rewrite D. simpl. eexists. split; [reflexivity|]. auto.
Qed.
Lemma C36_commit_fails body c k a e : flat body -> direct cs body (n_saved c) = (k, Ok a) -> b (n_calls c) = Some e ->
  exists c', run cs b (Block body Done) c = (c', Err e) /\ n_work c' = n_saved c /\ history c' = history c.
Proof.
  intros F D B. simpl. rewrite (flat_run F) by auto. simpl. rewrite D. simpl. unfold tm_commit. simpl. rewrite B. simpl. eexists. split; [reflexivity|]. auto.
Qed.

(** ** C37 *)
Lemma conn_exit_auto {A} (r : res A) c : n_auto (fst (conn_exit b r c)) = true /\ n_flag (fst (conn_exit b r c)) = VBool true.
Proof.
  unfold conn_exit, tm_exit. destruct r; simpl; auto. unfold tm_commit. simpl. destruct (n_failed c); simpl; auto. destruct (b (n_calls c)); simpl; auto.
Qed.
Lemma C37_lemma body c : n_auto (fst (run cs b (Block body Done) c)) = true /\ n_flag (fst (run cs b (Block body Done) c)) = VBool true.
Proof.
  simpl. destruct (run cs b body (conn_enter c)) as [c1 r]. pose proof (conn_exit_auto r c1) as H. destruct (conn_exit b r c1) as [c2 r2]. exact H.
Qed.
Lemma C37_setter v c :
  (forall a, v = VBool a -> exists c', set_autocommit v c = (c', Ok tt) /\ n_auto c' = a /\ n_flag c' = v /\ n_work c' = n_work c /\ history c' = history c) /\
  ((forall a, v <> VBool a) -> set_autocommit v c = (c, Err TypeError)).
Proof.
  split.
  - intros a ->. eexists. split; [reflexivity|]. auto.
  - intros H. destruct v; auto. exfalso. eapply H; eauto.
Qed.

(** ** C38 *)
Lemma C38_discards body next x c : run cs b (Block body next) (put x c) = run cs b (Block body next) c.
Proof. reflexivity. Qed.
Lemma C38_lemma body next c : exists c' r, run cs b (Block body Done) c = (c', r) /\ n_auto c' = true /\ run cs b (Block body next) c = run cs b (next r) c'.
Proof.
  pose proof (C37_lemma body c) as [H _]. simpl in *. destruct (run cs b body (conn_enter c)) as [c1 r]. destruct (conn_exit b r c1) as [c2 r2]. eauto.
Qed.
(** nothing a program does removes a committed state *)
Lemma exec_grows cmd c : exists l, history (fst (exec cs b cmd c)) = l ++ history c.
Proof.
  destruct (is_read cs cmd) eqn:D; [|destruct (n_auto c) eqn:A].
  - exists []. unfold exec, perform. rewrite D. reflexivity.
  - destruct (C35_lemma cmd c A D) as [(a & c' & E & _ & _ & H)|(e & c' & E & _ & H)]; rewrite E; simpl.
    + exists [n_saved c']. exact H.
    + exists []. exact H.
  - exists []. rewrite exec_off by auto. unfold perform. rewrite D. destruct (n_failed c); auto. destruct (sem cs cmd (n_work c)); auto.
Qed.
Lemma exit_grows {A} (r : res A) c : exists l, history (fst (conn_exit b r c)) = l ++ history c.
Proof.
  unfold conn_exit, tm_exit. destruct r; simpl; [|exists []; reflexivity]. unfold tm_commit. simpl. destruct (n_failed c); [exists []; reflexivity|].
  destruct (b (n_calls c)); [exists []; reflexivity|]. eexists [_]. reflexivity.
Qed.
Lemma run_grows p : forall c, exists l, history (fst (run cs b p c)) = l ++ history c.
Proof.
  induction p as [r|cmd k IH|v k IH|body IHb k IH]; intros c; simpl.
  - exists []. reflexivity.
  - destruct (exec_grows cmd c) as [l E]. destruct (exec cs b cmd c) as [c1 r]. destruct (IH r c1) as [l' E']. exists (l' ++ l). rewrite E', <- app_assoc. simpl in E. now rewrite E.
  - assert (E : history (fst (set_autocommit v c)) = history c) by (destruct v; reflexivity).
    destruct (set_autocommit v c) as [c1 r]. destruct (IH r c1) as [l' E']. exists l'. rewrite E'. simpl in E. now rewrite E.
  - destruct (IHb (conn_enter c)) as [l E]. destruct (run cs b body (conn_enter c)) as [c1 r]. destruct (exit_grows r c1) as [l2 E2].
    destruct (conn_exit b r c1) as [c2 r2]. destruct (IH r2 c2) as [l3 E3]. exists (l3 ++ l2 ++ l). rewrite E3. simpl in *. rewrite E2, E. now rewrite <- !app_assoc.
Qed.

(** ** a failed commit leaves autocommit off *)
Lemma failed_commit cmd c a e : n_auto c = true -> is_read cs cmd = false -> snd (sem cs cmd (n_saved c)) = Ok a -> b (n_calls c) = Some e ->
  exists c', exec cs b cmd c = (c', Err e) /\ n_auto c' = false /\ n_failed c' = true /\ n_flag c' = n_flag c.
Proof.
  intros A D HS B. unfold exec, autocommitted. rewrite A, D. unfold perform. rewrite D. simpl. destruct (sem cs cmd (n_saved c)) as [k r]. simpl in HS. subst r.
  simpl. unfold tm_commit. simpl. rewrite B. eexists. split; [reflexivity|]. auto.
Qed.
Lemma stuck_after_failure p c : flat p -> n_auto c = false -> n_failed c = true -> fst (run cs b p c) = c.
Proof.
  induction 1 as [r|cmd k _ IH]; intros A F; simpl; auto. rewrite exec_off by auto. unfold perform. rewrite F. destruct (is_read cs cmd); auto.
Qed.
Lemma stuck_raises cmd c : n_auto c = false -> n_failed c = true -> is_read cs cmd = false -> exec cs b cmd c = (c, Err TransactionFailedError).
Proof. intros A F D. rewrite exec_off by auto. unfold perform. now rewrite F, D. Qed.
End Facts.
