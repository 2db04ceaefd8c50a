(** What the log of a schedule records; one connection alone *)
From Verif Require Import Base BaseFacts Value BTree BTreeFacts Collection CollectionFacts Group RoutingFacts GroupFacts Container ContainerFacts Txn Connection Multi MultiFacts MultiSem MultiLin MultiHist MultiBlocks.
Set Implicit Arguments.

Lemma run_snoc evs e w : run_events (evs ++ [e]) w = fst (step (run_events evs w) e).
Proof. unfold run_events. now rewrite fold_left_app. Qed.
Lemma step_clock w e : o_clock (fst (step w e)) = S (o_clock w).
Proof.
  destruct e as [j c|j ok|j|j rs ok|j o|j|j b]; cbn [step].
  - destruct (w_call (o_conn w j)); auto. destruct (conn_is_read c); auto. destruct (w_auto (o_conn w j)); [destruct (conn_sem c (o_now w)); cbn; auto|].
    destruct (w_failed (o_conn w j)); auto. destruct (conn_sem c (w_work (o_conn w j))); cbn; auto.
  - destruct (w_call (o_conn w j)) as [[[c [a|x]] s]|]; auto; cbn; auto. destruct (try_commit ok (o_conn w j) (o_now w)); cbn; auto.
  - destruct (w_call (o_conn w j)); cbn; auto.
  - destruct (w_call (o_conn w j)); auto. destruct rs; cbn; auto. destruct (w_failed (o_conn w j)); cbn; auto. destruct (try_commit ok (o_conn w j) (o_now w)); cbn; auto.
  - destruct (w_call (o_conn w j)); auto. destruct (w_failed (o_conn w j)); cbn; auto.
  - destruct (w_call (o_conn w j)); cbn; auto.
  - destruct (w_call (o_conn w j)); cbn; auto.
Qed.
Lemma run_clock evs : forall w, o_clock (run_events evs w) = (o_clock w + length evs)%nat.
Proof.
  induction evs as [|e evs IH]; intro w; cbn [run_events fold_left length]; [lia|]. fold (run_events evs (fst (step w e))). rewrite IH, step_clock. lia.
Qed.
(** one step: what it logs and which calls it leaves in progress *)
Lemma step_log w e :
  (exists i ok c r r0 s, e = EFinish i ok /\ w_call (o_conn w i) = Some (c, r0, s) /\ snd (step w e) = Some r /\
     o_log (fst (step w e)) = mkF i c r s (o_clock w) :: o_log w /\ forall j, w_call (o_conn (fst (step w e)) j) = if Nat.eqb j i then None else w_call (o_conn w j)) \/
  (o_log (fst (step w e)) = o_log w /\ (forall i ok, e = EFinish i ok -> snd (step w e) = None) /\
     forall j x, w_call (o_conn (fst (step w e)) j) = Some x -> w_call (o_conn w j) = Some x \/ exists c r, x = (c, r, o_clock w) /\ e = EStart j c).
Proof.
  assert (U : forall j v f x i, w_call (upd j v f i) = Some x -> w_call v = None -> w_call (f i) = Some x).
  { intros j v f x i. unfold upd. destruct (Nat.eqb i j); [congruence|auto]. }
  destruct e as [j c|j ok|j|j rs ok|j o|j|j b].
  2: { cbn [step]. destruct (w_call (o_conn w j)) as [[[c [a|x]] s]|] eqn:C.
       - left. destruct (try_commit ok (o_conn w j) (o_now w)); cbn; eexists j, ok, c, _, _, s; repeat (split; [eauto|]); intro i; unfold upd; destruct (Nat.eqb i j); reflexivity.
       - left. cbn. eexists j, ok, c, _, _, s; repeat (split; [eauto|]); intro i; unfold upd; destruct (Nat.eqb i j); reflexivity.
       - right. cbn. split; auto. }
  all: right; (split; [|split; [intros i ok' X; discriminate|]]); cbn [step].
  - destruct (w_call (o_conn w j)); auto. destruct (conn_is_read c); auto. destruct (w_auto (o_conn w j)); [destruct (conn_sem c (o_now w)); cbn; auto|].
    destruct (w_failed (o_conn w j)); auto. destruct (conn_sem c (w_work (o_conn w j))); cbn; auto.
  - intros i x. destruct (w_call (o_conn w j)); auto. destruct (conn_is_read c); auto. destruct (w_auto (o_conn w j)).
    + destruct (conn_sem c (o_now w)) as [m r]. cbn. unfold upd. destruct (Nat.eqb_spec i j) as [-> |]; auto. cbn. intro X. injection X as <-. right. eauto.
    + destruct (w_failed (o_conn w j)); auto. destruct (conn_sem c (w_work (o_conn w j))). cbn. left. eapply U; eauto.
  - destruct (w_call (o_conn w j)); cbn; auto.
  - intros i x. destruct (w_call (o_conn w j)); cbn; auto. left. eapply U; eauto.
  - destruct (w_call (o_conn w j)); auto. destruct rs; cbn; auto. destruct (w_failed (o_conn w j)); cbn; auto. destruct (try_commit ok (o_conn w j) (o_now w)); cbn; auto.
  - intros i x. destruct (w_call (o_conn w j)); auto. destruct rs; cbn; [left; eapply U; eauto|]. destruct (w_failed (o_conn w j)); cbn; [left; eapply U; eauto|].
    destruct (try_commit ok (o_conn w j) (o_now w)); cbn; left; eapply U; eauto.
  - destruct (w_call (o_conn w j)); auto. destruct (w_failed (o_conn w j)); cbn; auto.
  - intros i x. destruct (w_call (o_conn w j)); auto. destruct (w_failed (o_conn w j)); cbn; auto. left. eapply U; eauto.
  - destruct (w_call (o_conn w j)); cbn; auto.
  - intros i x. destruct (w_call (o_conn w j)); cbn; auto. left. eapply U; eauto.
  - destruct (w_call (o_conn w j)); cbn; auto.
  - intros i x. destruct (w_call (o_conn w j)); cbn; auto. left. eapply U; eauto.
Qed.

Lemma nth_error_snoc {A} (l : list A) x j : nth_error (l ++ [x]) j = if Nat.eqb j (length l) then Some x else nth_error l j.
Proof.
  destruct (Nat.eqb_spec j (length l)) as [-> |D]; [rewrite nth_error_app2, Nat.sub_diag by lia; reflexivity|].
  destruct (Nat.lt_ge_cases j (length l)); [now rewrite nth_error_app1|]. rewrite (proj2 (nth_error_None _ _)) by (rewrite app_length; cbn; lia).
  symmetry. apply nth_error_None. lia.
Qed.
(** the log is what the callers saw: a record for every [EFinish] that ended a call *)
Lemma log_spec k evs f : In f (o_log (run_events evs (start_world k))) <->
  (exists ok, nth_error evs (f_end f) = Some (EFinish (f_conn f) ok) /\
     snd (step (run_events (firstn (f_end f) evs) (start_world k)) (EFinish (f_conn f) ok)) = Some (f_res f)) /\
  (exists r0, w_call (o_conn (run_events (firstn (f_end f) evs) (start_world k)) (f_conn f)) = Some (f_cmd f, r0, f_start f)).
Proof.
  revert f. induction evs as [|e evs IH] using rev_ind; intro f.
  - cbn. split; [tauto|]. intros ((ok & X & _) & _). destruct (f_end f); discriminate.
  - rewrite run_snoc. pose proof (run_clock evs (start_world k)) as CL. cbn in CL. set (w := run_events evs (start_world k)) in *.
    rewrite nth_error_snoc. destruct (step_log w e) as [(i & ok & c & r & r0 & s & -> & C & S & L & _)|(L & N & _)]; rewrite L.
    + cbn [In]. destruct (Nat.eqb_spec (f_end f) (length evs)) as [E|E].
      * rewrite E, firstn_app, Nat.sub_diag, firstn_all. cbn [firstn]. rewrite app_nil_r. fold w. split.
        -- intros [<-|X]; [cbn in *; eauto|]. apply IH in X as ((ok2 & X & _) & _). rewrite E in X.
           assert (length evs < length evs)%nat by (apply nth_error_Some; congruence). lia.
        -- intros ((ok2 & X & Y) & r1 & Z). left. injection X as X1 X2. subst ok2. rewrite <- X1 in *. rewrite S in Y. rewrite C in Z. destruct f; cbn in *. congruence.
      * rewrite IH. split.
        -- intros [<-|((ok2 & X & Y) & Z)]; [cbn in E; lia|]. assert (f_end f < length evs)%nat by (apply nth_error_Some; congruence).
           rewrite firstn_app. replace (f_end f - length evs)%nat with O by lia. cbn [firstn]. rewrite app_nil_r. eauto.
        -- intros ((ok2 & X & Y) & Z). assert (f_end f < length evs)%nat by (apply nth_error_Some; congruence).
           rewrite firstn_app in Y, Z. replace (f_end f - length evs)%nat with O in Y, Z by lia. cbn [firstn] in Y, Z. rewrite app_nil_r in Y, Z. eauto.
    + rewrite IH. destruct (Nat.eqb_spec (f_end f) (length evs)) as [E|E].
      * rewrite E, firstn_app, Nat.sub_diag, firstn_all. cbn [firstn]. rewrite app_nil_r. fold w. split.
        -- intros ((ok2 & X & _) & _). assert (length evs < length evs)%nat by (apply nth_error_Some; congruence). lia.
        -- intros ((ok2 & X & Y) & _). injection X as ->. rewrite (N _ _ eq_refl) in Y. discriminate.
      * split.
        -- intros ((ok2 & X & Y) & Z). assert (f_end f < length evs)%nat by (apply nth_error_Some; congruence).
           rewrite firstn_app. replace (f_end f - length evs)%nat with O by lia. cbn [firstn]. rewrite app_nil_r. eauto.
        -- intros ((ok2 & X & Y) & Z). assert (f_end f < length evs)%nat by (apply nth_error_Some; congruence).
           rewrite firstn_app in Y, Z. replace (f_end f - length evs)%nat with O in Y, Z by lia. cbn [firstn] in Y, Z. rewrite app_nil_r in Y, Z. eauto.
Qed.
(** a call in progress was started where it says *)
Lemma call_spec k evs i c r s : w_call (o_conn (run_events evs (start_world k)) i) = Some (c, r, s) -> nth_error evs s = Some (EStart i c).
Proof.
  revert i c r s. induction evs as [|e evs IH] using rev_ind; intros i c r s; [discriminate|]. rewrite run_snoc, nth_error_snoc.
  pose proof (run_clock evs (start_world k)) as CL. cbn in CL. set (w := run_events evs (start_world k)) in *.
  assert (B : w_call (o_conn w i) = Some (c, r, s) -> (if Nat.eqb s (length evs) then Some e else nth_error evs s) = Some (EStart i c)).
  { intro X. apply IH in X. assert (s < length evs)%nat by (apply nth_error_Some; congruence). now rewrite (proj2 (Nat.eqb_neq _ _)) by lia. }
  destruct (step_log w e) as [(j & ok & c2 & r2 & r0 & s2 & E & C & S & L & H)|(L & N & H)].
  - rewrite H. destruct (Nat.eqb i j); [discriminate|exact B].
  - intro X. destruct (H _ _ X) as [Y|(c2 & r2 & Y & ->)]; auto. injection Y as <- <- ->. now rewrite CL, Nat.eqb_refl.
Qed.
Lemma log_calls k evs f : In f (o_log (run_events evs (start_world k))) <->
  (exists ok, nth_error evs (f_end f) = Some (EFinish (f_conn f) ok) /\
     snd (step (run_events (firstn (f_end f) evs) (start_world k)) (EFinish (f_conn f) ok)) = Some (f_res f)) /\
  (exists r0, w_call (o_conn (run_events (firstn (f_end f) evs) (start_world k)) (f_conn f)) = Some (f_cmd f, r0, f_start f)) /\
  (f_start f < f_end f)%nat /\ nth_error evs (f_start f) = Some (EStart (f_conn f) (f_cmd f)).
Proof.
  rewrite log_spec. split; [|tauto]. intros (A & r0 & B). split; auto. split; eauto. apply call_spec in B.
  assert (L : (f_start f < length (firstn (f_end f) evs))%nat) by (apply nth_error_Some; congruence). rewrite firstn_length in L. split; [lia|].
  rewrite <- B. rewrite <- (firstn_skipn (f_end f) evs) at 1. rewrite nth_error_app1; auto. rewrite firstn_length. lia.
Qed.

(** ** One connection alone *)
Lemma merge_tree_alone b m : bt_wf b -> bt_wf m -> merge_tree b m b = Some m.
Proof.
  intros B M. destruct (@merge_tree_total b m b B M B) as (r & R); auto. rewrite R. f_equal.
  destruct (@merge_tree_spec b m b r B M B R) as (W & H). apply bt_ext; auto. intro key. destruct (H key) as (H1 & H2).
  destruct (cell_dec (bt_get key m) (bt_get key b)) as [E|E]; [rewrite H1; congruence|now apply H2].
Qed.
Lemma merge_lists_alone {A} (f : A -> A -> A -> option A) : forall bs ms, length ms = length bs ->
  (forall j x y, nth_error bs j = Some x -> nth_error ms j = Some y -> f x y x = Some y) -> merge_lists f bs ms bs = Some ms.
Proof.
  induction bs as [|b bs IH]; intros [|m ms] L H; try discriminate; auto. cbn. fold (merge_lists f). rewrite (H O b m eq_refl eq_refl), IH; auto.
  intros j. exact (H (S j)).
Qed.
Lemma merge_alone b m : solo b -> solo m -> alike b m -> merge b m b = Some m.
Proof.
  intros B M A. rewrite (merge_shape B M B A (alike_refl b)). pose proof (solo_prim B) as (_ & WB & _). pose proof (solo_prim M) as (_ & WM & _).
  assert (E : merge_group (k_prim b) (k_prim m) (k_prim b) = Some (k_prim m)).
  { apply merge_lists_alone; [now apply alike_length|]. intros j x y X Y. unfold merge_collection. pose proof A as (_ & _ & _ & _ & D).
    pose proof (f_equal (fun l => nth_error l j) D) as D2. cbn beta in D2. rewrite !nth_error_map, X, Y in D2. cbn in D2. unfold dims in D2. injection D2 as D3 D4 D5.
    rewrite D5, merge3_same, merge_tree_alone; [|exact (proj1 (WB _ _ X))|exact (proj1 (WM _ _ Y))]. rewrite <- D3, <- D4, <- D5. now destruct y. }
  rewrite E. cbn. f_equal. pose proof (alike_heap B A) as H. destruct A as (G & P & _). unfold set_grp. rewrite <- H, <- G, <- P. now destruct m.
Qed.
(** connection [i] of [w] is in the state the one-connection model describes by [c] *)
Definition agree (w : world) (i : nat) (c : conn container) : Prop :=
  o_now w = n_saved c /\ o_conn w i = mkView (n_saved c) (n_work c) (n_auto c) (n_failed c) None.
Definition answers (ok : bool) : nat -> option exn := fun _ => if ok then None else Some ConflictError.
Lemma alone_call w i c cmd ok : plain (n_saved c) -> agree w i c ->
  let (c2, r) := exec conn_calls (answers ok) cmd c in
  let (w1, o1) := step w (EStart i cmd) in let (w2, o2) := step w1 (EFinish i ok) in
  agree w2 i c2 /\ ((o1 = Some r /\ o2 = None) \/ (o1 = None /\ o2 = Some r)).
Proof.
  intros P (N & V). unfold exec. cbn [is_read conn_calls sem]. destruct (conn_is_read cmd) eqn:R.
  - unfold perform. cbn [is_read conn_calls sem]. rewrite R. cbn [step]. rewrite V. cbn [w_call w_work]. rewrite R. cbn [step tick o_conn]. rewrite V. cbn.
    split; [split; auto|]. left; auto.
  - unfold autocommitted, perform. cbn [is_read conn_calls sem]. rewrite R. cbn [step]. rewrite V. cbn [w_call w_work w_auto w_failed w_base]. rewrite R. destruct (n_auto c) eqn:A.
    + cbn [tm_enter set_auto tm_abort n_failed n_work]. rewrite N. destruct (conn_sem cmd (n_saved c)) as [m r] eqn:S.
      destruct (cmd_cases cmd) as [X|(id & C)]; [congruence|]. destruct (@sem_keeps _ cmd id P C) as (PM & AM). rewrite S in PM, AM. cbn in PM, AM.
      cbn [step set_view o_conn]. rewrite upd_same. cbn [w_call]. destruct r as [a|x].
      * unfold try_commit. cbn [w_base w_work set_view o_now]. rewrite N. destruct ok.
        -- rewrite (merge_alone (proj1 P) (proj1 PM) AM). cbn. unfold agree. cbn. rewrite upd_same. auto.
        -- cbn. unfold agree. cbn. rewrite upd_same. auto.
      * cbn. unfold agree. cbn. rewrite upd_same. rewrite N. auto.
    + destruct (n_failed c) eqn:F.
      * cbn [step tick o_conn]. rewrite V. cbn. unfold agree. cbn. rewrite V, A, F. split; auto.
      * destruct (conn_sem cmd (n_work c)) as [m r]. cbn. rewrite upd_same. cbn. unfold agree. cbn. rewrite upd_same, A, F. auto.
Qed.
Lemma alone_enter w i c : agree w i c -> agree (fst (step w (EEnter i))) i (conn_enter c).
Proof. intros (N & V). cbn [step]. rewrite V. cbn. unfold agree. cbn. rewrite upd_same, N. auto. Qed.
Lemma alone_exit w i c (r : res cres) ok : plain (n_saved c) -> plain (n_work c) -> alike (n_saved c) (n_work c) -> agree w i c ->
  let (c2, r2) := conn_exit (answers ok) r c in
  let (w2, o2) := step w (EExit i (match r with Ok _ => None | Err e => Some e end) ok) in
  agree w2 i c2 /\ o2 = Some (match r2 with Ok _ => Ok (RVal VNone) | Err e => Err e end).
Proof.
  intros P PW A (N & V). unfold conn_exit, tm_exit. cbn [set_autocommit fst]. cbn [step]. rewrite V. cbn [w_call w_failed]. destruct r as [a|x].
  - unfold tm_commit. cbn [n_failed n_calls n_work n_saved]. destruct (n_failed c) eqn:F.
    + cbn. unfold agree. cbn. rewrite upd_same, N. auto.
    + unfold try_commit. cbn [w_base w_work]. unfold answers. destruct ok.
      * rewrite N, (merge_alone (proj1 P) (proj1 PW) A). cbn. unfold agree. cbn. rewrite upd_same. auto.
      * cbn. unfold agree. cbn. rewrite upd_same, N. auto.
  - cbn. unfold agree. cbn. rewrite upd_same, N. auto.
Qed.

(** ** After a refused commit *)
(** connection [i] leaves its autocommit flag alone and opens no [with] block *)
Definition just_calls (i : nat) (e : event) : Prop := event_conn e <> i \/ match e with EStart _ _ | EFinish _ _ | EAbort _ => True | _ => False end.
Definition muted (i : nat) (w : world) : Prop := w_call (o_conn w i) = None /\ w_auto (o_conn w i) = false.
Lemma muted_step i w e : muted i w -> just_calls i e -> muted i (fst (step w e)) /\ (event_conn e = i -> o_now (fst (step w e)) = o_now w).
Proof.
  intros (C & A) J. destruct (Nat.eq_dec (event_conn e) i) as [E|E].
  - destruct J as [J|J]; [contradiction|]. destruct e as [j c|j ok|j|j rs ok|j o|j|j b]; try contradiction; cbn in E; subst j; cbn [step]; rewrite C.
    + destruct (conn_is_read c); [split; auto; now split|]. rewrite A. destruct (w_failed (o_conn w i)); [split; auto; now split|].
      destruct (conn_sem c (w_work (o_conn w i))). cbn. unfold muted. cbn. rewrite upd_same. auto.
    + split; auto. now split.
    + rewrite A. cbn. unfold muted. cbn. rewrite upd_same. auto.
  - split; [|contradiction]. unfold muted. now rewrite step_other.
Qed.
Lemma muted_run i evs : forall w, muted i w -> Forall (just_calls i) evs -> muted i (run_events evs w).
Proof. induction evs as [|e evs IH]; intros w M F; auto. inversion F; subst. apply IH; auto. now apply muted_step. Qed.
Lemma after_refusal w i ok c a s pre e : w_call (o_conn w i) = Some (c, Ok a, s) -> snd (step w (EFinish i ok)) = Some (Err ConflictError) ->
  Forall (just_calls i) (pre ++ [e]) -> event_conn e = i ->
  let w1 := run_events pre (fst (step w (EFinish i ok))) in o_now (fst (step w1 e)) = o_now w1.
Proof.
  intros C S F E w1. assert (M : muted i (fst (step w (EFinish i ok)))).
  { cbn [step] in S |- *. rewrite C in *.
    destruct (try_commit ok (o_conn w i) (o_now w)); [discriminate|]. cbn. unfold muted. cbn. rewrite upd_same. auto. }
  apply Forall_app in F as (F1 & F2). inversion F2; subst. apply muted_step with (i := event_conn e); auto. now apply muted_run.
Qed.
Lemma failed_raises w i ok c a s d : w_call (o_conn w i) = Some (c, Ok a, s) -> snd (step w (EFinish i ok)) = Some (Err ConflictError) -> conn_is_read d = false ->
  snd (step (fst (step w (EFinish i ok))) (EStart i d)) = Some (Err TransactionFailedError).
Proof.
  intros C S R. assert (V : exists b m, o_conn (fst (step w (EFinish i ok))) i = mkView b m false true None).
  { cbn [step] in S |- *. rewrite C in *. destruct (try_commit ok (o_conn w i) (o_now w)); [discriminate|]. cbn. rewrite upd_same. eauto. }
  destruct V as (b & m & V). cbn [step] in V |- *. rewrite V. cbn. now rewrite R.
Qed.
