(** Facts about connections sharing a transaction manager *)
From Verif Require Import Base Value Txn TxnFacts Shared.
Set Implicit Arguments.

(** ** Specification vocabulary *)
(** a body that only makes calls, on whatever connections *)
Inductive sflat {C R} : sprog C R -> Prop :=
| sf_done r : sflat (SDone r)
| sf_do i c k : (forall r, sflat (k r)) -> sflat (SDo i c k).
(** such a body run on the databases themselves, no transaction anywhere *)
Fixpoint salone {A C R} (cs : calls A C R) (p : sprog C R) (s : nat -> A) : (nat -> A) * res R :=
  match p with
  | SDone r => (s, r)
  | SDo i cmd k => let (x, r) := sem cs cmd (s i) in
                   salone cs (k r) (if is_read cs cmd then s else fun j => if Nat.eqb j i then x else s j)
  | SSet _ _ _ | SBlock _ _ _ => (s, Err OutOfModel)
  end.
(** the databases a body calls, whatever the results *)
Inductive calls_db {C R} (i : nat) : sprog C R -> Prop :=
| cd_here c k : calls_db i (SDo i c k)
| cd_do j c k r : calls_db i (k r) -> calls_db i (SDo j c k)
| cd_set j v k r : calls_db i (k r) -> calls_db i (SSet j v k)
| cd_in w body k : calls_db i body -> calls_db i (SBlock w body k)
| cd_after w body k r : calls_db i (k r) -> calls_db i (SBlock w body k).

(** what is committed, what is in memory, the autocommit flag that decides *)
Definition s_saved {A} (h : shared A) : nat -> A := n_saved (h_tx h).
Definition s_work {A} (h : shared A) : nat -> A := n_work (h_tx h).
Definition s_history {A} (h : shared A) : list (nat -> A) := history (h_tx h).
Definition s_auto {A} (h : shared A) : bool := n_auto (h_tx h).

Section Facts.
Context {A C R : Type} (cs : calls A C R) (b : nat -> option exn).
Implicit Types (h : shared A) (p : sprog C R).
Notation JC := (joint_calls cs).

Lemma joint_sem i cmd s : sem JC (i, cmd) s = (upd_at i (fst (sem cs cmd (s i))) s, snd (sem cs cmd (s i))).
Proof. simpl. destruct (sem cs cmd (s i)); reflexivity. Qed.

Lemma sflat_run p : sflat p -> forall h, s_auto h = false -> n_failed (h_tx h) = false ->
  srun cs b p h = (mkSh (put (fst (salone cs p (s_work h))) (h_tx h)) (h_flag h), snd (salone cs p (s_work h))).
Proof.
  unfold s_auto, s_work. induction 1 as [r|i cmd k _ IH]; intros h HA HF.
  - simpl. rewrite put_same. destruct h; reflexivity.
  - cbn [srun salone]. rewrite (exec_off JC b (i, cmd) (h_tx h) HA). unfold perform. change (is_read JC (i, cmd)) with (is_read cs cmd). rewrite HF.
    rewrite joint_sem. destruct (sem cs cmd (n_work (h_tx h) i)) as [x r] eqn:E. cbn [fst snd].
    destruct (is_read cs cmd); rewrite IH by auto; reflexivity.
Qed.

Lemma enter_off h : s_auto (s_enter h) = false /\ n_failed (h_tx (s_enter h)) = false /\ s_work (s_enter h) = s_saved h /\ s_history (s_enter h) = s_history h /\ h_flag (s_enter h) = h_flag h.
Proof. repeat split. Qed.

Definition after_flags (who : option nat) (f : nat -> pyval) : nat -> pyval := match who with Some i => upd_at i (VBool true) f | None => f end.

Lemma block_ok who body h k a : sflat body -> salone cs body (s_saved h) = (k, Ok a) -> b (n_calls (h_tx h)) = None ->
  exists h', srun cs b (SBlock who body SDone) h = (h', Ok a) /\ s_work h' = k /\ s_history h' = k :: s_history h /\ s_auto h' = true /\
             h_flag h' = after_flags who (h_flag h) /\ n_calls (h_tx h') = S (n_calls (h_tx h)) /\ n_failed (h_tx h') = false.
Proof.
  intros F D B. cbn [srun]. rewrite (sflat_run F) by reflexivity. change (s_work (s_enter h)) with (s_saved h). rewrite D. cbn [fst snd].
  unfold s_exit. destruct who as [i|]; cbn [s_set fst h_tx h_flag]; unfold tm_exit, tm_commit; cbn -[history]; rewrite B; cbn; eexists; (split; [reflexivity|]); cbn; auto 10.
Qed.
Lemma block_raises who body h k e : sflat body -> salone cs body (s_saved h) = (k, Err e) ->
  exists h', srun cs b (SBlock who body SDone) h = (h', Err e) /\ s_work h' = s_saved h /\ s_history h' = s_history h /\ s_auto h' = true /\
             h_flag h' = after_flags who (h_flag h) /\ n_calls (h_tx h') = n_calls (h_tx h) /\ n_failed (h_tx h') = false.
Proof.
  intros F D. cbn [srun]. rewrite (sflat_run F) by reflexivity. change (s_work (s_enter h)) with (s_saved h). rewrite D. cbn [fst snd].
  unfold s_exit. destruct who as [i|]; cbn [s_set fst h_tx h_flag]; unfold tm_exit; cbn; eexists; (split; [reflexivity|]); cbn; auto 10.
Qed.
Lemma block_refused who body h k a e : sflat body -> salone cs body (s_saved h) = (k, Ok a) -> b (n_calls (h_tx h)) = Some e ->
  exists h', srun cs b (SBlock who body SDone) h = (h', Err e) /\ s_work h' = s_saved h /\ s_history h' = s_history h /\
             s_auto h' = (match who with Some _ => true | None => false end).
Proof.
  intros F D B. cbn [srun]. rewrite (sflat_run F) by reflexivity. change (s_work (s_enter h)) with (s_saved h). rewrite D. cbn [fst snd].
  unfold s_exit. destruct who as [i|]; cbn [s_set fst h_tx h_flag]; unfold tm_exit, tm_commit; cbn -[history]; rewrite B; cbn; eexists; (split; [reflexivity|]); cbn; auto 10.
Qed.

(** what a flat body does not call it does not change *)
Lemma salone_other p i : sflat p -> ~ calls_db i p -> forall s, fst (salone cs p s) i = s i.
Proof.
  induction 1 as [r|j cmd k _ IH]; intros N s; [reflexivity|]. cbn [salone]. destruct (sem cs cmd (s j)) as [x r].
  assert (Hij : i <> j) by (intros ->; apply N; constructor).
  rewrite IH by (intros X; apply N; econstructor; eauto). destruct (is_read cs cmd); [reflexivity|]. now apply Nat.eqb_neq in Hij as ->.
Qed.

(** ** an autocommitted call *)
Lemma auto_call i cmd h : s_auto h = true -> is_read cs cmd = false ->
  exists h' r, srun cs b (SDo i cmd SDone) h = (h', r) /\ h_flag h' = h_flag h /\
    (forall j, j <> i -> s_saved h' j = s_saved h j) /\ s_work h' = s_saved h' /\
    ((exists a x, r = Ok a /\ sem cs cmd (s_saved h i) = (x, Ok a) /\ s_saved h' i = x /\ s_history h' = s_saved h' :: s_history h) \/
     (exists e, r = Err e /\ s_saved h' i = s_saved h i /\ s_history h' = s_history h)).
Proof.
  unfold s_auto, s_saved, s_work, s_history. intros HA HR. cbn [srun].
  destruct (C35_lemma JC b (i, cmd) (h_tx h) HA HR) as [(a & c' & E & S1 & W & H)|(e & c' & E & W & H)]; rewrite E; cbn [srun].
  - exists (mkSh c' (h_flag h)), (Ok a). rewrite joint_sem in S1. destruct (sem cs cmd (n_saved (h_tx h) i)) as [x r0] eqn:E0. cbn [fst snd] in S1. injection S1 as S1 S2. subst r0.
    cbn [h_tx h_flag]. repeat split; auto.
    + intros j Hj. rewrite <- S1. unfold upd_at. now apply Nat.eqb_neq in Hj as ->.
    + left. exists a, x. repeat split; auto. rewrite <- S1. unfold upd_at. now rewrite Nat.eqb_refl.
  - exists (mkSh c' (h_flag h)), (Err e). cbn [h_tx h_flag]. unfold history in H. assert (Hs : n_saved c' = n_saved (h_tx h)) by congruence.
    repeat split; auto; try (intros; now rewrite Hs).
    right. exists e. rewrite Hs. auto.
Qed.
(** a call with autocommit off commits nothing, on any database *)
Lemma off_call i cmd h : s_auto h = false -> s_history (fst (srun cs b (SDo i cmd SDone) h)) = s_history h /\ s_auto (fst (srun cs b (SDo i cmd SDone) h)) = false.
Proof.
  unfold s_auto, s_history. intros HA. cbn [srun]. rewrite (exec_off JC b (i, cmd) (h_tx h) HA). unfold perform.
  destruct (is_read JC (i, cmd)); [auto|]. destruct (n_failed (h_tx h)); [auto|]. destruct (sem JC (i, cmd) (n_work (h_tx h))); auto.
Qed.

(** [with conn_i, conn_j: body] *)
Lemma two_blocks_ok w1 w2 body h k a : sflat body -> salone cs body (s_saved h) = (k, Ok a) -> b (n_calls (h_tx h)) = None -> b (S (n_calls (h_tx h))) = None ->
  exists h', srun cs b (SBlock w1 (SBlock w2 body SDone) SDone) h = (h', Ok a) /\ s_work h' = k /\ s_saved h' = k /\ s_auto h' = true /\
    (exists l, s_history h' = l ++ s_history h /\ forall d, In d l -> d = k).
Proof.
  intros F D B1 B2. destruct (@block_ok w2 body (s_enter h) k a F D B1) as (h1 & E & W & H & AU & _ & NC & NF).
  change (srun cs b (SBlock w1 (SBlock w2 body SDone) SDone) h) with
    (let (h1, r) := srun cs b (SBlock w2 body SDone) (s_enter h) in let (h2, r2) := s_exit b w1 r h1 in (h2, r2)).
  rewrite E. unfold s_exit. unfold s_work, s_history in *. change (n_calls (h_tx (s_enter h))) with (n_calls (h_tx h)) in NC. change (history (h_tx (s_enter h))) with (history (h_tx h)) in H.
  destruct w1 as [i|]; cbn [s_set fst h_tx h_flag]; unfold tm_exit, tm_commit; cbn -[history]; rewrite NF, NC, B2; cbn -[history]; eexists; (split; [reflexivity|]);
    unfold s_saved, s_work, s_auto, s_history; cbn -[history]; (split; [exact W|]); (split; [exact W|]); (split; [reflexivity|]).
  - exists [k; k]. split; [|intros d [Hd|[Hd|[]]]; auto]. unfold history at 1. cbn. rewrite W. unfold history in H |- *. cbn in *. now rewrite H.
  - exists [k; k]. split; [|intros d [Hd|[Hd|[]]]; auto]. unfold history at 1. cbn. rewrite W. unfold history in H |- *. cbn in *. now rewrite H.
Qed.
Lemma two_blocks_raise w1 w2 body h k e : sflat body -> salone cs body (s_saved h) = (k, Err e) ->
  exists h', srun cs b (SBlock w1 (SBlock w2 body SDone) SDone) h = (h', Err e) /\ s_work h' = s_saved h /\ s_history h' = s_history h /\ s_auto h' = true.
Proof.
  intros F D. destruct (@block_raises w2 body (s_enter h) k e F D) as (h1 & E & W & H & AU & _ & NC & NF).
  change (srun cs b (SBlock w1 (SBlock w2 body SDone) SDone) h) with
    (let (h1, r) := srun cs b (SBlock w2 body SDone) (s_enter h) in let (h2, r2) := s_exit b w1 r h1 in (h2, r2)).
  rewrite E. unfold s_exit. unfold s_work, s_history, s_saved, s_auto in *. change (history (h_tx (s_enter h))) with (history (h_tx h)) in H.
  assert (Hs : n_saved (h_tx h1) = n_saved (h_tx h)) by (unfold history in H; congruence).
  destruct w1 as [i|]; cbn [s_set fst h_tx h_flag]; unfold tm_exit; cbn -[history]; eexists; (split; [reflexivity|]); cbn -[history]; (split; [exact Hs|]); (split; [exact H|reflexivity]).
Qed.

(** ** crashes *)
Lemma crash_each (saved work : nat -> A) order d : In d (crash_states saved work order) -> forall i, d i = saved i \/ (d i = work i /\ In i order).
Proof.
  unfold crash_states. intros H i. apply in_map_iff in H as (n & <- & _). unfold crash_state. destruct (existsb (Nat.eqb i) (firstn n order)) eqn:E; [right|now left].
  split; [reflexivity|]. apply existsb_exists in E as (j & J & Ej). apply Nat.eqb_eq in Ej as <-. rewrite <- (firstn_skipn n order). apply in_or_app. now left.
Qed.
Lemma crash_one (saved work : nat -> A) i d : In d (crash_states saved work [i]) -> (forall j, j <> i -> work j = saved j) -> (forall j, d j = saved j) \/ (forall j, d j = work j).
Proof.
  unfold crash_states. simpl. intros [<- |[<- |[]]] H; [left; reflexivity|right]. intros j. unfold crash_state. simpl. destruct (Nat.eqb j i) eqn:E; [reflexivity|]. apply Nat.eqb_neq in E. symmetry. now apply H.
Qed.
Lemma crash_last (saved work : nat -> A) order : (forall i, work i <> saved i -> In i order) ->
  exists d, In d (crash_states saved work order) /\ (forall i, (work i = saved i \/ work i <> saved i) -> d i = work i).
Proof.
  intros H. exists (crash_state saved work (firstn (List.length order) order)). split.
  - unfold crash_states. apply (in_map (fun n => crash_state saved work (firstn n order))). apply in_seq. lia.
  - intros i D. rewrite firstn_all. unfold crash_state. destruct (existsb (Nat.eqb i) order) eqn:E; [reflexivity|]. destruct D as [D|D]; [now symmetry|].
    apply H in D. assert (existsb (Nat.eqb i) order = true) by (apply existsb_exists; exists i; split; [exact D|apply Nat.eqb_refl]). congruence.
Qed.
End Facts.
