(** The linearization of a schedule *)
From Verif Require Import Base BaseFacts Value BTree Collection Group Container ContainerFacts Txn Connection Multi MultiFacts MultiSem MultiLin.
From Coq Require Import Sorting.Permutation Sorting.Sorted.
Set Implicit Arguments.

(** an entry: the time of its effect, the call, whether the call has ended *)
Definition entry := (nat * finished * bool)%type.
Definition e_time (e : entry) := fst (fst e).
Definition e_call (e : entry) := snd (fst e).
Definition e_ended (e : entry) := snd e.
Definition e_cmd (e : entry) := f_cmd (e_call e).
Definition mutator (c : ccmd) : Prop := exists id, cmd_id c = Some id.

Fixpoint after (k : container) (l : list entry) : container :=
  match l with [] => k | e :: l' => after (fst (conn_sem (e_cmd e) k)) l' end.
(** running the entries gives their results; those not ended change nothing *)
Fixpoint replay (k : container) (l : list entry) : Prop :=
  match l with
  | [] => True
  | e :: l' => mutator (e_cmd e) /\ snd (conn_sem (e_cmd e) k) = f_res (e_call e) /\
               (e_ended e = false -> fst (conn_sem (e_cmd e) k) = k) /\ replay (fst (conn_sem (e_cmd e) k)) l'
  end.
Lemma after_app l1 : forall k l2, after k (l1 ++ l2) = after (after k l1) l2.
Proof. induction l1; cbn; auto. Qed.
Lemma replay_app l1 : forall k l2, replay k (l1 ++ l2) <-> replay k l1 /\ replay (after k l1) l2.
Proof. induction l1 as [|e l IH]; cbn; intros k l2; [tauto|]. rewrite IH. tauto. Qed.
Lemma replay_drop l1 e l2 k : e_ended e = false -> replay k (l1 ++ e :: l2) -> replay k (l1 ++ l2) /\ after k (l1 ++ l2) = after k (l1 ++ e :: l2).
Proof.
  intros O R. rewrite replay_app in R. destruct R as (R1 & _ & _ & R3 & R4). rewrite replay_app, !after_app. cbn. rewrite (R3 O) in R4 |- *. auto.
Qed.
Lemma replay_swap l1 e e' l2 k : e_cmd e = e_cmd e' -> f_res (e_call e) = f_res (e_call e') -> e_ended e' = true ->
  replay k (l1 ++ e :: l2) -> replay k (l1 ++ e' :: l2) /\ after k (l1 ++ e' :: l2) = after k (l1 ++ e :: l2).
Proof.
  intros C F O. rewrite !replay_app, !after_app. cbn. rewrite C, F, O. intros (R1 & R2 & R3 & R4 & R5). split; auto. repeat split; auto. discriminate.
Qed.

Definition earlier (a b : entry) : Prop := (e_time a < e_time b)%nat.
Definition accepted (f : finished) : bool := match f_res f with Err ConflictError => false | _ => true end.
Definition ended_calls (l : list entry) : list finished := map e_call (filter e_ended l).

Record inv (k : container) (w : world) (l : list entry) : Prop := {
  i_plain : plain (o_now w);
  i_alike : alike k (o_now w);
  i_calls : forall i c r s, w_call (o_conn w i) = Some (c, r, s) ->
      (s < o_clock w)%nat /\ mutator c /\ plain (w_base (o_conn w i)) /\ alike k (w_base (o_conn w i)) /\
      conn_sem c (w_base (o_conn w i)) = (w_work (o_conn w i), r);
  i_replay : replay k l;
  i_after : after k l = o_now w;
  i_sorted : StronglySorted earlier l;
  i_clock : Forall (fun e => (e_time e < o_clock w)%nat) l;
  i_log : Permutation (ended_calls l) (filter accepted (o_log w));
  i_within : forall e, In e l -> e_ended e = true -> (f_start (e_call e) <= e_time e <= f_end (e_call e))%nat;
  i_open : forall e, In e l -> e_ended e = false -> f_start (e_call e) = e_time e /\
      w_call (o_conn w (f_conn (e_call e))) = Some (e_cmd e, f_res (e_call e), e_time e) /\
      w_work (o_conn w (f_conn (e_call e))) = w_base (o_conn w (f_conn (e_call e)));
  i_idle : forall i c r s, w_call (o_conn w i) = Some (c, r, s) -> w_work (o_conn w i) = w_base (o_conn w i) ->
      exists e, In e l /\ e_ended e = false /\ e_time e = s /\ f_conn (e_call e) = i
}.

Lemma sorted_app_mid l1 e e' (l2 : list entry) : e_time e = e_time e' -> StronglySorted earlier (l1 ++ e :: l2) -> StronglySorted earlier (l1 ++ e' :: l2).
Proof.
  intro T. induction l1 as [|a l1 IH]; cbn; intro H; inversion H; subst; constructor; auto.
  - eapply Forall_impl; [|eassumption]. unfold earlier. intros; lia.
  - apply Forall_app in H3 as [F1 F2]. inversion F2; subst. apply Forall_app. split; auto. constructor; auto. unfold earlier in *. lia.
Qed.
Lemma sorted_drop l1 e (l2 : list entry) : StronglySorted earlier (l1 ++ e :: l2) -> StronglySorted earlier (l1 ++ l2).
Proof.
  induction l1 as [|a l1 IH]; cbn; intro H; inversion H; subst; auto. constructor; auto.
  apply Forall_app in H3 as [F1 F2]. inversion F2; subst. now apply Forall_app.
Qed.
Lemma sorted_append (l : list entry) e : StronglySorted earlier l -> Forall (fun a => (e_time a < e_time e)%nat) l -> StronglySorted earlier (l ++ [e]).
Proof.
  induction l as [|a l IH]; cbn; intros H F; [repeat constructor|]. inversion H; subst. inversion F; subst. constructor; auto.
  apply Forall_app. split; auto.
Qed.
Lemma sorted_apart l1 e (l2 : list entry) x : StronglySorted earlier (l1 ++ e :: l2) -> In x (l1 ++ l2) -> e_time x <> e_time e.
Proof.
  induction l1 as [|a l1 IH]; cbn; intros H I; inversion H; subst.
  - rewrite Forall_forall in H3. specialize (H3 _ I). unfold earlier in H3. lia.
  - destruct I as [-> |I]; [|now apply IH]. apply Forall_app in H3 as [_ F]. inversion F; subst. unfold earlier in H3. lia.
Qed.
Lemma in_mid {A} (x e : A) l1 l2 : In x (l1 ++ e :: l2) <-> x = e \/ In x (l1 ++ l2).
Proof. rewrite !in_app_iff. cbn. intuition auto. Qed.

(** the events of a client that commits single calls *)
Definition single (e : event) : Prop :=
  match e with EStart _ _ | EFinish _ _ | EAbort _ | EAuto _ _ => True | _ => False end.

Lemma cmd_cases c : conn_is_read c = true \/ mutator c.
Proof. destruct c; cbn; auto; right; unfold mutator; cbn; eauto. Qed.

Lemma inv_start k : plain k -> inv k (start_world k) [].
Proof.
  intro P. constructor; cbn; auto; try (intros; discriminate); try (now constructor); try (intros e []).
Qed.
(** steps that leave the calls in progress alone *)
Lemma inv_other k w l i v : inv k w l -> w_call (o_conn w i) = None -> w_call v = None -> inv k (set_view i v w) l.
Proof.
  intros I C V. destruct I. constructor; cbn [o_now o_conn o_clock o_log set_view]; auto.
  - intros j c r s J. unfold upd in *. destruct (Nat.eqb j i); [congruence|]. destruct (i_calls0 _ _ _ _ J) as (A & B & D). split; [lia|auto].
  - eapply Forall_impl; [|eassumption]. cbn. intros; lia.
  - intros e E O. destruct (i_open0 e E O) as (A & B & B2). assert (X : f_conn (e_call e) <> i) by (intro X; rewrite X in B; congruence).
    unfold upd. rewrite (proj2 (Nat.eqb_neq _ _) X). auto.
  - intros j c r s J W. unfold upd in *. destruct (Nat.eqb j i) eqn:X; [congruence|]. eauto.
Qed.
Lemma inv_tick k w l : inv k w l -> inv k (tick w) l.
Proof.
  intros I. destruct I. constructor; cbn [o_now o_conn o_clock o_log tick]; auto.
  - intros j c r s J. destruct (i_calls0 _ _ _ _ J) as (A & B & D). split; [lia|auto].
  - eapply Forall_impl; [|eassumption]. cbn. intros; lia.
Qed.

Lemma sem_pair c k m r : conn_sem c k = (m, r) -> fst (conn_sem c k) = m /\ snd (conn_sem c k) = r.
Proof. intros ->. auto. Qed.

Lemma inv_begin k w l i c : inv k w l -> w_call (o_conn w i) = None -> mutator c ->
  exists l', inv k (set_view i (mkView (o_now w) (fst (conn_sem c (o_now w))) false false (Some (c, snd (conn_sem c (o_now w)), o_clock w))) w) l'.
Proof.
  intros I N (id & C). pose proof (i_plain I) as P. destruct (@sem_same_dec _ _ _ P C) as [S|S].
  - exists (l ++ [(o_clock w, mkF i c (snd (conn_sem c (o_now w))) (o_clock w) 0, false)]). destruct I.
    constructor; cbn [o_now o_conn o_clock o_log set_view]; auto.
    + intros j c2 r s J. unfold upd in *. destruct (Nat.eqb_spec j i) as [-> |D].
      * cbn in J. injection J as <- <- <-. cbn. split; [lia|split; [exists id; auto|split; [auto|split; [auto|now destruct (conn_sem c (o_now w))]]]].
      * destruct (i_calls0 _ _ _ _ J) as (A & B & E). split; [lia|auto].
    + apply replay_app. split; auto. rewrite i_after0. cbn. repeat split; auto. exists id; auto.
    + rewrite after_app, i_after0. cbn. auto.
    + apply sorted_append; auto.
    + apply Forall_app. split; [eapply Forall_impl; [|eassumption]; cbn; intros; lia|]. constructor; auto.
    + unfold ended_calls. rewrite filter_app. cbn. rewrite app_nil_r. auto.
    + intros e E O. apply in_app_or in E as [E|[<-|[]]]; [auto|discriminate].
    + intros e E O. apply in_app_or in E as [E|[<-|[]]].
      * destruct (i_open0 e E O) as (A & B & B2). assert (X : f_conn (e_call e) <> i) by (intro X; rewrite X in B; congruence).
    unfold upd. rewrite (proj2 (Nat.eqb_neq _ _) X). auto.
      * cbn. unfold upd. rewrite Nat.eqb_refl. cbn. auto.
    + intros j c2 r s J W. unfold upd in *. destruct (Nat.eqb_spec j i) as [-> |D].
      * cbn in J. injection J as <- <- <-. eexists. split; [apply in_or_app; right; now left|]. cbn. auto.
      * destruct (i_idle0 _ _ _ _ J W) as (e & E & R). exists e. split; auto. apply in_or_app. now left.
  - exists l. destruct I. constructor; cbn [o_now o_conn o_clock o_log set_view]; auto.
    + intros j c2 r s J. unfold upd in *. destruct (Nat.eqb_spec j i) as [-> |D].
      * cbn in J. injection J as <- <- <-. cbn. split; [lia|split; [exists id; auto|split; [auto|split; [auto|now destruct (conn_sem c (o_now w))]]]].
      * destruct (i_calls0 _ _ _ _ J) as (A & B & E). split; [lia|auto].
    + eapply Forall_impl; [|eassumption]. cbn. intros; lia.
    + intros e E O. destruct (i_open0 e E O) as (A & B & B2). assert (X : f_conn (e_call e) <> i) by (intro X; rewrite X in B; congruence).
    unfold upd. rewrite (proj2 (Nat.eqb_neq _ _) X). auto.
    + intros j c2 r s J W. unfold upd in *. destruct (Nat.eqb_spec j i) as [-> |D]; [cbn in W; contradiction|eauto].
Qed.

(** the end of a call without effect: its entry is closed (or removed, if the storage refused) *)
Lemma inv_end_idle k w l i v c r r2 s : inv k w l -> w_call (o_conn w i) = Some (c, r, s) -> w_work (o_conn w i) = w_base (o_conn w i) ->
  w_call v = None -> (r2 = r /\ r <> Err ConflictError \/ r2 = Err ConflictError) -> exists l', inv k (finish i (o_now w) v c r2 s w) l'.
Proof.
  intros I C W V R2. destruct (@i_idle _ _ _ I _ _ _ _ C W) as (e & E & O & T & F). destruct (i_open I e E O) as (FS & FC & _). rewrite F, C in FC. injection FC as FC1 FC2 _.
  apply in_split in E as (l1 & l2 & ->).
  assert (AP : forall x, In x (l1 ++ l2) -> e_ended x = false -> f_conn (e_call x) <> i).
  { intros x X XO XI. destruct (i_open I x) as (_ & XC & _); auto; [apply in_mid; auto|]. rewrite XI, C in XC. injection XC as _ _ XT.
    apply (@sorted_apart l1 e l2 x); auto; [exact (i_sorted I)|congruence]. }
  destruct R2 as [(-> & NC)| ->].
  - set (e' := (s, mkF i c r s (o_clock w), true) : entry).
    destruct (@replay_swap l1 e e' l2 k) as (RP & AF); auto; [exact (i_replay I)|].
    exists (l1 ++ e' :: l2). destruct I. constructor; cbn [o_now o_conn o_clock o_log finish]; auto.
    + intros j c2 r2 s2 J. unfold upd in *. destruct (Nat.eqb_spec j i) as [-> |D]; [congruence|].
      destruct (i_calls0 _ _ _ _ J) as (A & B & X). split; [lia|auto].
    + congruence.
    + apply sorted_app_mid with (e := e); auto.
    + apply Forall_app in i_clock0 as [F1 F2]. inversion F2; subst. apply Forall_app. split; [eapply Forall_impl; [|exact F1]; cbn; intros; lia|].
      constructor; [cbn; lia|eapply Forall_impl; [|eassumption]; cbn; intros; lia].
    + cbn [filter accepted f_res]. assert (AC : match r with Err ConflictError => false | _ => true end = true).
      { destruct r as [|x]; auto. destruct x; auto; congruence. }
      unfold accepted at 1. cbn [f_res]. rewrite AC. unfold ended_calls in *. rewrite filter_app, map_app in *. cbn in *. rewrite O in i_log0.
      apply Permutation_sym, Permutation_cons_app, Permutation_sym. auto.
    + intros x X XO. apply in_mid in X as [-> |X]; [|apply i_within0; auto; apply in_mid; auto].
      destruct (i_calls0 _ _ _ _ C) as (A & _). cbn. lia.
    + intros x X XO. apply in_mid in X as [-> |X]; [discriminate|]. destruct (i_open0 x) as (A & B & B2); auto; [apply in_mid; auto|].
      unfold upd. rewrite (proj2 (Nat.eqb_neq _ _)) by (apply AP; auto). auto.
    + intros j c2 r2 s2 J W2. unfold upd in *. destruct (Nat.eqb_spec j i) as [-> |D]; [congruence|].
      destruct (i_idle0 _ _ _ _ J W2) as (x & X & XO & XT & XF). exists x. split; auto. apply in_mid in X as [-> |X]; [congruence|]. apply in_mid. auto.
  - destruct (@replay_drop l1 e l2 k O (i_replay I)) as (RP & AF). exists (l1 ++ l2). destruct I. constructor; cbn [o_now o_conn o_clock o_log finish]; auto.
    + intros j c2 r2 s2 J. unfold upd in *. destruct (Nat.eqb_spec j i) as [-> |D]; [congruence|].
      destruct (i_calls0 _ _ _ _ J) as (A & B & X). split; [lia|auto].
    + congruence.
    + eapply sorted_drop; eauto.
    + apply Forall_app in i_clock0 as [F1 F2]. inversion F2; subst. apply Forall_app. split; [eapply Forall_impl; [|exact F1]; cbn; intros; lia|].
      eapply Forall_impl; [|eassumption]; cbn; intros; lia.
    + cbn. unfold ended_calls in *. rewrite filter_app, map_app in *. cbn in *. rewrite O in i_log0. auto.
    + intros x X XO. apply i_within0; auto. apply in_mid. auto.
    + intros x X XO. destruct (i_open0 x) as (A & B & B2); auto; [apply in_mid; auto|]. unfold upd. rewrite (proj2 (Nat.eqb_neq _ _)) by (apply AP; auto). auto.
    + intros j c2 r2 s2 J W2. unfold upd in *. destruct (Nat.eqb_spec j i) as [-> |D]; [congruence|].
      destruct (i_idle0 _ _ _ _ J W2) as (x & X & XO & XT & XF). exists x. split; auto. apply in_mid in X as [-> |X]; [congruence|auto].
Qed.

(** the end of a call that changed something: committed now, or refused *)
Lemma inv_busy k w l i c r s : inv k w l -> w_call (o_conn w i) = Some (c, r, s) -> w_work (o_conn w i) <> w_base (o_conn w i) ->
  forall e, In e l -> e_ended e = false -> f_conn (e_call e) <> i.
Proof. intros I C W e E O F. destruct (i_open I e E O) as (_ & _ & X). rewrite F in X. contradiction. Qed.
Lemma inv_end_busy k w l i v c a s n : inv k w l -> w_call (o_conn w i) = Some (c, Ok a, s) -> w_work (o_conn w i) <> w_base (o_conn w i) ->
  merge (w_base (o_conn w i)) (w_work (o_conn w i)) (o_now w) = Some n ->
  w_call v = None -> inv k (finish i n v c (Ok a) s w) (l ++ [(o_clock w, mkF i c (Ok a) s (o_clock w), true)]).
Proof.
  intros I C W M V. pose proof (@inv_busy _ _ _ _ _ _ _ I C W) as B. destruct (@i_calls _ _ _ I _ _ _ _ C) as (S & (id & CI) & PB & AB & SE).
  assert (X : conn_sem c (o_now w) = (n, Ok a)).
  { pose proof (@commit_changed (w_base (o_conn w i)) (o_now w) c id n) as Q. rewrite SE in Q. cbn in Q. apply Q; auto.
    - exact (i_plain I).
    - apply alike_trans with (b := k); [now apply alike_sym|exact (i_alike I)]. }
  destruct (@sem_keeps (o_now w) c id) as (PN & AN); auto; [exact (i_plain I)|]. rewrite X in PN, AN. cbn in PN, AN.
  destruct I. constructor; cbn [o_now o_conn o_clock o_log finish]; auto.
  - now apply alike_trans with (b := o_now w).
  - intros j c2 r2 s2 J. unfold upd in *. destruct (Nat.eqb_spec j i) as [-> |D]; [congruence|].
    destruct (i_calls0 _ _ _ _ J) as (A & Y & Z). split; [lia|auto].
  - apply replay_app. split; auto. rewrite i_after0. cbn. unfold e_cmd, e_call. cbn. rewrite X. cbn.
    split; [exists id; auto|split; [auto|split; [discriminate|auto]]].
  - rewrite after_app, i_after0. cbn. unfold e_cmd, e_call. cbn. now rewrite X.
  - apply sorted_append; auto.
  - apply Forall_app. split; [eapply Forall_impl; [|eassumption]; cbn; intros; lia|]. constructor; auto.
  - unfold ended_calls in *. rewrite filter_app, map_app. cbn. apply Permutation_sym, Permutation_cons_app, Permutation_sym. now rewrite app_nil_r.
  - intros e E O. apply in_app_or in E as [E|[<-|[]]]; [auto|]. cbn. lia.
  - intros e E O. apply in_app_or in E as [E|[<-|[]]]; [|discriminate]. destruct (i_open0 e E O) as (A & Y & Z).
    unfold upd. rewrite (proj2 (Nat.eqb_neq _ _)) by (now apply B). auto.
  - intros j c2 r2 s2 J W2. unfold upd in *. destruct (Nat.eqb_spec j i) as [-> |D]; [congruence|].
    destruct (i_idle0 _ _ _ _ J W2) as (x & E & R). exists x. split; auto. apply in_or_app. now left.
Qed.
Lemma inv_refused k w l i v c r s : inv k w l -> w_call (o_conn w i) = Some (c, r, s) -> w_work (o_conn w i) <> w_base (o_conn w i) ->
  w_call v = None -> inv k (finish i (o_now w) v c (Err ConflictError) s w) l.
Proof.
  intros I C W V. pose proof (@inv_busy _ _ _ _ _ _ _ I C W) as B. destruct I. constructor; cbn [o_now o_conn o_clock o_log finish]; auto.
  - intros j c2 r2 s2 J. unfold upd in *. destruct (Nat.eqb_spec j i) as [-> |D]; [congruence|].
    destruct (i_calls0 _ _ _ _ J) as (A & Y & Z). split; [lia|auto].
  - eapply Forall_impl; [|eassumption]; cbn; intros; lia.
  - intros e E O. destruct (i_open0 e E O) as (A & Y & Z). unfold upd. rewrite (proj2 (Nat.eqb_neq _ _)) by (now apply B). auto.
  - intros j c2 r2 s2 J W2. unfold upd in *. destruct (Nat.eqb_spec j i) as [-> |D]; [congruence|]. eauto.
Qed.

Lemma inv_step k w l e : inv k w l -> single e -> exists l', inv k (fst (step w e)) l'.
Proof.
  intros I E. destruct e as [i c|i ok|i|i rs ok|i o|i|i b]; cbn in E; try contradiction; cbn [step].
  - destruct (w_call (o_conn w i)) as [x|] eqn:C; cbn [fst]; [exists l; now apply inv_tick|].
    destruct (conn_is_read c) eqn:R; [exists l; now apply inv_tick|]. destruct (w_auto (o_conn w i)).
    + destruct (cmd_cases c) as [X|M]; [congruence|]. destruct (@inv_begin _ _ _ _ _ I C M) as (l' & L). exists l'.
      destruct (conn_sem c (o_now w)) as [m r]. exact L.
    + destruct (w_failed (o_conn w i)); cbn [fst]; [exists l; now apply inv_tick|]. destruct (conn_sem c (w_work (o_conn w i))) as [m r].
      exists l. now apply inv_other.
  - destruct (w_call (o_conn w i)) as [[[c r] s]|] eqn:C; cbn [fst]; [|exists l; now apply inv_tick].
    destruct (@i_calls _ _ _ I _ _ _ _ C) as (S & (id & CI) & PB & AB & SE). destruct (@sem_pair _ _ _ _ SE) as (SE1 & SE2).
    destruct r as [a|x].
    + destruct (@sem_same_dec _ _ _ PB CI) as [D|D]; rewrite SE1 in D.
      * unfold try_commit. rewrite D. rewrite (@merge_same (w_base (o_conn w i)) (o_now w)); [|apply PB|apply (i_plain I)|].
        2: { apply alike_trans with (b := k); [now apply alike_sym|exact (i_alike I)]. }
        destruct ok; cbn [fst]; eapply inv_end_idle; eauto. left. split; [auto|discriminate].
      * destruct (try_commit ok (o_conn w i) (o_now w)) as [n|] eqn:T; cbn [fst].
        -- eexists. apply (@inv_end_busy k w l i (fresh n true) c a s n); auto. unfold try_commit in T. destruct ok; [auto|discriminate].
        -- eexists. apply (@inv_refused k w l i _ c (Ok a) s); auto.
    + destruct (@sem_err _ _ _ x PB CI SE2) as (D & NC). rewrite SE1 in D. cbn [fst]. eapply inv_end_idle; eauto.
      left. split; [auto|congruence].
  - destruct (w_call (o_conn w i)) as [x|] eqn:C; cbn [fst]; exists l; [now apply inv_tick|now apply inv_other].
  - destruct (w_call (o_conn w i)) as [x|] eqn:C; cbn [fst]; exists l; [now apply inv_tick|now apply inv_other].
Qed.
Lemma inv_run k evs : forall w l, inv k w l -> Forall single evs -> exists l', inv k (run_events evs w) l'.
Proof.
  induction evs as [|e evs IH]; intros w l I F; [now exists l|]. inversion F; subst. destruct (@inv_step _ _ _ _ I H1) as (l' & L).
  exact (IH _ _ L H2).
Qed.

(** the entries of ended calls alone *)
Lemma replay_ended k l : replay k l ->
  replay k (filter e_ended l) /\ after k (filter e_ended l) = after k l.
Proof.
  revert k. induction l as [|e l IH]; intros k R; [auto|]. cbn in R. destruct R as (M & R1 & R2 & R3). cbn. destruct (e_ended e) eqn:E; cbn.
  - destruct (IH _ R3) as (A & B). rewrite E. repeat split; auto.
  - rewrite (R2 eq_refl) in R3 |- *. now apply IH.
Qed.
Lemma atomically_plain k c id : plain k -> cmd_id c = Some id -> atomically c k = conn_sem c k.
Proof.
  intros P C. unfold atomically. destruct (conn_sem c k) as [m [a|e]] eqn:E; auto.
  destruct (@sem_pair _ _ _ _ E) as (E1 & E2). destruct (@sem_err _ _ _ e P C E2) as (X & _). congruence.
Qed.
Lemma serial_replay l : forall k, plain k -> replay k l -> serial (map e_cmd l) k = (after k l, map (fun e => f_res (e_call e)) l).
Proof.
  induction l as [|e l IH]; intros k P R; [reflexivity|]. cbn in R. destruct R as ((id & C) & R1 & _ & R3). cbn [map serial after].
  rewrite (@atomically_plain k _ id) by auto. destruct (conn_sem (e_cmd e) k) as [m r] eqn:E. cbn in *.
  destruct (@sem_keeps k _ id P C) as (PM & _). rewrite E in PM. cbn in PM. rewrite (IH m PM R3). cbn. congruence.
Qed.
Lemma sorted_filter (f : entry -> bool) l : StronglySorted earlier l -> StronglySorted earlier (filter f l).
Proof.
  induction l as [|e l IH]; intro S; [constructor|]. inversion S; subst. cbn. destruct (f e); [constructor|]; auto.
  rewrite Forall_forall in *. intros x X. apply filter_In in X as [X _]. auto.
Qed.
Lemma sorted_map (l : list entry) : StronglySorted earlier l -> StronglySorted (fun a b : nat * finished => (fst a < fst b)%nat) (map fst l).
Proof.
  induction 1 as [|e l S IH F]; constructor; auto. rewrite Forall_forall in *. intros x X. apply in_map_iff in X as (y & <- & Y). exact (F _ Y).
Qed.
Theorem linearizable k evs : k_ok k -> k_groups k = [k_primary k] -> Forall (fun c => c_strict c = false) (k_prim k) -> Forall single evs ->
  exists order : list (nat * finished),
    Permutation (map snd order) (filter accepted (o_log (run_events evs (start_world k)))) /\
    StronglySorted (fun a b => (fst a < fst b)%nat) order /\
    Forall (fun p => (f_start (snd p) <= fst p <= f_end (snd p))%nat) order /\
    serial (map (fun p => f_cmd (snd p)) order) k = (o_now (run_events evs (start_world k)), map (fun p => f_res (snd p)) order).
Proof.
  intros K G R F. assert (P : plain k) by (split; [split; auto|auto]).
  destruct (@inv_run _ _ _ _ (inv_start P) F) as (l & I). exists (map fst (filter e_ended l)).
  destruct (@replay_ended k l (i_replay I)) as (R1 & R2). split; [|split; [|split]].
  - rewrite map_map. exact (i_log I).
  - apply sorted_map, sorted_filter. exact (i_sorted I).
  - rewrite Forall_forall. intros x X. apply in_map_iff in X as (e & <- & X). apply filter_In in X as [X Y]. exact (i_within I e X Y).
  - rewrite !map_map. pose proof (@serial_replay (filter e_ended l) _ P R1) as S. rewrite R2, (i_after I) in S. exact S.
Qed.
