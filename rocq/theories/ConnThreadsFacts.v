(** Facts about one connection used by several threads. *)
From Coq Require Import Lia.
From Verif Require Import Base Value Txn ConnThreads.
Set Implicit Arguments.

Section Facts.
Context {S C R : Type} (cs : calls S C R) (touches : C -> S -> bool).
Hypothesis untouched : forall cmd s, is_read cs cmd = false -> touches cmd s = false -> fst (sem cs cmd s) = s.
Notation step := (t_step cs touches).
Notation run := (t_run cs touches).
(** ** Specification *)
Definition who (e : tevent C R) : nat := match e with TCall t _ _ | TSet t _ | TEnter t | TExit t _ _ => t end.
(** the connection as thread [t] would know it if it were alone *)
Definition agree (t : nat) (w : tconn S) (c : conn S) : Prop :=
  n_work c = t_work w /\ n_saved c = t_saved w /\ n_auto c = t_auto w t /\ n_failed c = t_failed w t /\ n_flag c = t_flag w.
(** what the calls among the events do, one after the other, and their results *)
Fixpoint effects (evs : list (tevent C R)) (s : S) : S :=
  match evs with [] => s | TCall _ cmd _ :: l => effects l (if is_read cs cmd then s else fst (sem cs cmd s)) | _ :: l => effects l s end.
Fixpoint results (evs : list (tevent C R)) (s : S) : list (res R) :=
  match evs with [] => [] | TCall _ cmd _ :: l => snd (sem cs cmd s) :: results l (if is_read cs cmd then s else fst (sem cs cmd s)) | _ :: l => results l s end.
Definition call_results (l : list (tout R)) : list (res R) := flat_map (fun o => match o with OCall r => [r] | _ => [] end) l.

(** ** Nothing pending if no transaction is joined *)
Definition settled (w : tconn S) : Prop := t_join w = None -> t_work w = t_saved w.
Lemma mine_spec t (w : tconn S) : mine t w = true <-> t_join w = Some t.
Proof. unfold mine. destruct (t_join w) as [u|]; [|split; discriminate]. split; [intro E; apply Nat.eqb_eq in E; congruence|intros [= ->]; apply Nat.eqb_refl]. Qed.
Lemma settled_abort t w : settled w -> settled (t_abort t w).
Proof. unfold t_abort, settled. intro H. destruct (mine t w); cbn; auto. Qed.
Lemma settled_commit t f w : settled w -> settled (fst (t_commit t f w)).
Proof. unfold t_commit, settled. intro H. destruct (t_failed w t); [exact H|]. destruct (mine t w); [|exact H]. destruct f; cbn; auto. Qed.
Lemma settled_leave {A} t f (r : res A) w : settled w -> settled (fst (t_leave t f r w)).
Proof.
  intro H. destruct r; cbn; [|apply (settled_abort t H)]. assert (X := settled_commit t f H). destruct (t_commit t f w) as [w1 [u|e]]; exact X.
Qed.
Lemma settled_perform t cmd w : settled w -> settled (fst (t_perform cs touches t cmd w)).
Proof.
  intro H. unfold t_perform. destruct (is_read cs cmd) eqn:Rd; [exact H|]. destruct (t_join w) as [u|] eqn:J.
  - destruct (sem cs cmd (t_work w)). intro X. discriminate X.
  - destruct (t_failed w t); [exact H|]. assert (U := @untouched cmd (t_work w) Rd). destruct (sem cs cmd (t_work w)) as [k r]. cbn in *. destruct (touches cmd (t_work w)); intro X; cbn in *; [discriminate X|]. rewrite U by reflexivity. exact (H J).
Qed.
Lemma settled_step e w : settled w -> settled (fst (step e w)).
Proof.
  intro H. destruct e as [t cmd f|t v|t|t r f]; cbn [t_step].
  - assert (X : settled (fst (t_exec cs touches t cmd f w))); [|destruct (t_exec cs touches t cmd f w); exact X].
    unfold t_exec. destruct (is_read cs cmd); [now apply settled_perform|]. destruct (t_auto w t); [|now apply settled_perform].
    assert (X := settled_perform t cmd (w:=t_enter t w)). destruct (t_perform cs touches t cmd (t_enter t w)) as [w1 r]. apply settled_leave. apply X. exact (settled_abort t H).
  - unfold t_set. destruct v; exact H.
  - exact (settled_abort t H).
  - assert (X := settled_leave t f r (w:=fst (t_set t (VBool true) w)) H). destruct (t_leave t f r (fst (t_set t (VBool true) w))). exact X.
Qed.
Lemma settled_run evs : forall w, settled w -> settled (fst (run evs w)).
Proof.
  induction evs as [|e evs IH]; intros w H; cbn; [exact H|]. assert (X := settled_step e H). destruct (step e w) as [w1 o]. specialize (IH w1 X). destruct (run evs w1). exact IH.
Qed.
Lemma run_app a b w : run (a ++ b) w = let (w1, l1) := run a w in let (w2, l2) := run b w1 in (w2, l1 ++ l2).
Proof.
  revert w. induction a as [|e a IH]; intro w; cbn; [now destruct (run b w)|]. destruct (step e w) as [w1 o]. rewrite IH. destruct (run a w1) as [w2 l]. destruct (run b w2). reflexivity.
Qed.

(** ** Others, while thread [t] has the connection *)
Lemma other_mine t u (w : tconn S) : t_join w = Some t -> u <> t -> mine u w = false.
Proof. intros J N. destruct (mine u w) eqn:E; [|reflexivity]. apply mine_spec in E. congruence. Qed.
Lemma other_abort t u (w : tconn S) : t_join w = Some t -> u <> t -> let w' := t_abort u w in
  t_work w' = t_work w /\ t_saved w' = t_saved w /\ t_join w' = Some t /\ t_auto w' = t_auto w /\ t_failed w' = upd_t u false (t_failed w).
Proof. intros J N. unfold t_abort. rewrite (@other_mine _ _ _ J N). cbn. auto. Qed.
Lemma other_leave {A} t u f (r : res A) (w : tconn S) : t_join w = Some t -> u <> t -> let w' := fst (t_leave u f r w) in
  t_work w' = t_work w /\ t_saved w' = t_saved w /\ t_join w' = Some t /\ t_failed w' t = t_failed w t /\ (t_failed w u = false -> snd (t_leave u f r w) = r).
Proof.
  intros J N. unfold t_leave, t_commit, t_abort. rewrite (@other_mine _ _ _ J N). destruct r as [a|e]; cbn [fst snd].
  - destruct (t_failed w u); cbn; auto. repeat (split; [solve [auto]|]). discriminate.
  - cbn. unfold upd_t. destruct (Nat.eqb_spec t u); [congruence|auto].
Qed.
Lemma other_step t e w : t_join w = Some t -> who e <> t -> let (w', o) := step e w in
  t_saved w' = t_saved w /\ t_join w' = Some t /\ t_failed w' t = t_failed w t /\ t_work w' = effects [e] (t_work w) /\ call_results [o] = results [e] (t_work w).
Proof.
  intros J N. destruct e as [u cmd f|u v|u|u r f]; cbn [who] in N; cbn [t_step effects results].
  - unfold t_exec. destruct (is_read cs cmd) eqn:Rd; [unfold t_perform; rewrite Rd; cbn; auto|].
    assert (Pf : forall w0, t_join w0 = Some t -> t_perform cs touches u cmd w0 = (let (k, r) := sem cs cmd (t_work w0) in (mkT k (t_saved w0) (Some t) (t_auto w0) (t_failed w0) (t_flag w0), r))).
    { intros w0 J0. unfold t_perform. rewrite Rd, J0. reflexivity. }
    destruct (t_auto w u).
    + destruct (@other_abort _ _ _ J N) as (A1 & A2 & A3 & A4 & A5). assert (Je : t_join (t_enter u w) = Some t) by exact A3. rewrite (Pf _ Je).
      change (t_work (t_enter u w)) with (t_work (t_abort u w)). rewrite A1. destruct (sem cs cmd (t_work w)) as [k r]. cbn [fst snd].
      match goal with |- let (_, _) := (let (_, _) := t_leave u f r ?w1 in _) in _ => set (x := w1) end. assert (Jx : t_join x = Some t) by reflexivity.
      destruct (@other_leave _ t u f r _ Jx N) as (L1 & L2 & L3 & L4 & L5). destruct (t_leave u f r x) as [w' r']. cbn [fst snd] in *.
      assert (Fx : t_failed x u = false) by (unfold x; cbn; change (t_failed (t_enter u w)) with (t_failed (t_abort u w)); rewrite A5; unfold upd_t; now rewrite Nat.eqb_refl).
      rewrite (L5 Fx). split; [rewrite L2; exact A2|]. split; [exact L3|]. split; [|split; [exact L1|reflexivity]].
      rewrite L4. unfold x. cbn. change (t_failed (t_enter u w)) with (t_failed (t_abort u w)). rewrite A5. unfold upd_t. destruct (Nat.eqb_spec t u); [congruence|reflexivity].
    + rewrite (Pf _ J). destruct (sem cs cmd (t_work w)) as [k r]. cbn. auto.
  - unfold t_set. destruct v; cbn; auto.
  - destruct (@other_abort _ _ _ J N) as (A1 & A2 & A3 & A4 & A5). unfold t_enter. cbn. rewrite A1, A2, A3, A5. unfold upd_t. destruct (Nat.eqb_spec t u); [congruence|auto].
  - assert (Js : t_join (fst (t_set u (VBool true) w)) = Some t) by exact J. destruct (@other_leave _ t u f r _ Js N) as (L1 & L2 & L3 & L4 & _).
    destruct (t_leave u f r (fst (t_set u (VBool true) w))) as [w' r']. cbn [fst] in *. cbn. auto.
Qed.
Lemma others t evs : forall w, t_join w = Some t -> Forall (fun e => who e <> t) evs -> let (w', l) := run evs w in
  t_saved w' = t_saved w /\ t_join w' = Some t /\ t_failed w' t = t_failed w t /\ t_work w' = effects evs (t_work w) /\ call_results l = results evs (t_work w).
Proof.
  induction evs as [|e evs IH]; intros w J F; cbn [t_run]; [cbn; auto|]. inversion F; subst. assert (X := @other_step t e w J ltac:(assumption)). destruct (step e w) as [w1 o]. destruct X as (X1 & X2 & X3 & X4 & X5).
  specialize (IH w1 X2 ltac:(assumption)). destruct (run evs w1) as [w2 l]. destruct IH as (Y1 & Y2 & Y3 & Y4 & Y5).
  split; [congruence|]. split; [exact Y2|]. split; [congruence|]. rewrite Y4, X4. split; [destruct e; reflexivity|].
  change (call_results (o :: l)) with (call_results ([o] ++ l)). unfold call_results in *. rewrite flat_map_app, X5, Y5, X4. destruct e; reflexivity.
Qed.
(** [C124_captured] *)
Lemma C124_captured_lemma t w evs : t_join w = Some t -> Forall (fun e => who e <> t) evs -> t_failed w t = false ->
  let (w', l) := run evs w in t_saved w' = t_saved w /\ t_join w' = Some t /\ t_work w' = effects evs (t_work w) /\ call_results l = results evs (t_work w) /\
  (forall r, let w2 := fst (step (TExit t (Ok r) None) w') in t_saved w2 = effects evs (t_work w) /\ t_join w2 = None) /\
  (forall e f, let w2 := fst (step (TExit t (Err e) f) w') in t_saved w2 = t_saved w /\ t_work w2 = t_saved w /\ t_join w2 = None) /\
  (forall r e, let w2 := fst (step (TExit t (Ok r) (Some e)) w') in t_saved w2 = t_saved w /\ t_work w2 = t_saved w /\ t_join w2 = None).
Proof.
  intros J F Nf. assert (X := @others t evs w J F). destruct (run evs w) as [w' l]. destruct X as (X1 & X2 & X3 & X4 & X5). split; [exact X1|]. split; [exact X2|]. split; [exact X4|]. split; [exact X5|].
  assert (M : forall a, mine t (fst (t_set t (VBool a) w')) = true) by (intro a; apply mine_spec; exact X2).
  assert (Nf' : forall a, t_failed (fst (t_set t (VBool a) w')) t = false) by (intro a; cbn; congruence).
  split; [|split].
  - intro r. cbn [t_step]. unfold t_leave, t_commit. rewrite Nf', M. cbn. auto.
  - intros e f. cbn [t_step]. unfold t_leave, t_abort. rewrite M. cbn. auto.
  - intros r e. cbn [t_step]. unfold t_leave, t_commit. rewrite Nf', M. cbn. auto.
Qed.

(** ** A thread that finds the connection free, or its own *)
Lemma agree_abort t w c : settled w -> (t_join w = None \/ t_join w = Some t) -> agree t w c -> agree t (t_abort t w) (tm_abort c) /\ t_join (t_abort t w) = None.
Proof.
  intros H J (A1 & A2 & A3 & A4 & A5). assert (F : upd_t t false (t_failed w) t = false) by (unfold upd_t; now rewrite Nat.eqb_refl). unfold t_abort. destruct (mine t w) eqn:M.
  - unfold agree. cbn. repeat split; auto; congruence.
  - destruct J as [J|J]; [|apply mine_spec in J; congruence]. unfold agree. cbn. rewrite (H J). repeat split; auto; congruence.
Qed.
(** what the commit has to write decides whether the failure counts *)
Lemma agree_leave {T} t fail (r : res T) w c : settled w -> (t_join w = None \/ t_join w = Some t) -> agree t w c -> exists b, (b = None \/ b = fail) /\ (t_join w = Some t -> b = fail) /\
  (let (w', r') := t_leave t fail r w in let (c', r2) := tm_exit (fun _ => b) r c in agree t w' c' /\ r' = r2 /\ (t_join w' = None \/ t_join w' = Some t)).
Proof.
  intros H J A. assert (J' := J). exists (if mine t w then fail else None). split; [destruct (mine t w); auto|]. split; [intro X; apply mine_spec in X; now rewrite X|].
  destruct r as [a|e]; cbn [t_leave tm_exit].
  - unfold t_commit, tm_commit. destruct A as (A1 & A2 & A3 & A4 & A5). rewrite A4. destruct (t_failed w t) eqn:F.
    + split; [unfold agree; rewrite F; auto|]. auto.
    + assert (Ut : forall x g, upd_t t x g t = x :> bool) by (intros x g; unfold upd_t; now rewrite Nat.eqb_refl). destruct (mine t w) eqn:M.
      * destruct fail as [e|]; cbn; unfold agree; cbn; rewrite ?Ut; repeat split; auto.
      * destruct J as [J|J]; [|apply mine_spec in J; congruence]. cbn. unfold agree. cbn. rewrite Ut, A1, (H J). repeat split; auto. 
  - destruct (agree_abort H J A) as [(B1 & B2 & B3 & B4 & B5) Jn]. split; [|split; [reflexivity|left; exact Jn]]. unfold agree. cbn. unfold upd_t. rewrite Nat.eqb_refl. auto.
Qed.
Lemma agree_perform t cmd w c : settled w -> (t_join w = None \/ t_join w = Some t) -> (t_join w = Some t -> t_failed w t = false) -> agree t w c ->
  let (w', r) := t_perform cs touches t cmd w in let (c', r2) := perform cs cmd c in agree t w' c' /\ r = r2 /\ (t_join w' = None \/ t_join w' = Some t) /\ (t_join w' = Some t -> t_failed w' t = false).
Proof.
  intros H J Nf A. assert (A0 := A). destruct A as (A1 & A2 & A3 & A4 & A5). unfold t_perform, perform. rewrite A1, A4. destruct (is_read cs cmd); [auto|].
  destruct (t_join w) as [u|] eqn:Ej.
  - destruct J as [J|J]; [discriminate|]. injection J as ->. rewrite (Nf eq_refl). destruct (sem cs cmd (t_work w)) as [k r]. unfold agree. cbn. rewrite ?A2, ?A3, ?A4, ?A5, ?(Nf eq_refl). auto 10.
  - destruct (t_failed w t) eqn:F.
    + split; [exact A0|]. rewrite Ej. split; [reflexivity|]. split; [auto|discriminate].
    + destruct (sem cs cmd (t_work w)) as [k r]. unfold agree. cbn. rewrite F. split; [auto|]. split; [reflexivity|]. destruct (touches cmd (t_work w)); auto.
Qed.
(** the thread that has the connection has a live transaction *)
Definition sane (w : tconn S) : Prop := forall t, t_join w = Some t -> t_failed w t = false.
(** a connection as threads can have left it *)
Definition reachable (w : tconn S) : Prop := exists k flag evs, w = fst (run evs (t_open k flag)).
Lemma upd_t_same {B} t (x : B) f : upd_t t x f t = x.
Proof. unfold upd_t. now rewrite Nat.eqb_refl. Qed.
Lemma upd_t_other {B} t u (x : B) f : u <> t -> upd_t t x f u = f u.
Proof. unfold upd_t. intro N. destruct (Nat.eqb_spec u t); [contradiction|reflexivity]. Qed.
Lemma sane_abort t w : sane w -> sane (t_abort t w).
Proof.
  unfold t_abort, sane. intro H. destruct (mine t w) eqn:M; cbn; [discriminate|]. intros u J. destruct (Nat.eq_dec u t) as [->|N]; [apply upd_t_same|rewrite upd_t_other by exact N; exact (H u J)].
Qed.
Lemma sane_commit t f w : sane w -> sane (fst (t_commit t f w)).
Proof. unfold t_commit, sane. intro H. destruct (t_failed w t); [exact H|]. destruct (mine t w); [|exact H]. destruct f; cbn; discriminate. Qed.
Lemma sane_leave {A} t f (r : res A) w : sane w -> sane (fst (t_leave t f r w)).
Proof.
  intro H. destruct r; cbn; [|apply (sane_abort t H)]. assert (X := sane_commit t f H). destruct (t_commit t f w) as [w1 [u|e]]; exact X.
Qed.
Lemma sane_perform t cmd w : sane w -> sane (fst (t_perform cs touches t cmd w)).
Proof.
  intro H. unfold t_perform. destruct (is_read cs cmd) eqn:Rd; [exact H|]. destruct (t_join w) as [u|] eqn:J.
  - destruct (sem cs cmd (t_work w)). intros v [= <-]. exact (H u J).
  - destruct (t_failed w t) eqn:F; [exact H|]. destruct (sem cs cmd (t_work w)) as [k r]. destruct (touches cmd (t_work w)); intros v X; cbn in *; [injection X as <-; exact F|discriminate X].
Qed.
Lemma sane_step e w : sane w -> sane (fst (step e w)).
Proof.
  intro H. destruct e as [t cmd f|t v|t|t r f]; cbn [t_step].
  - assert (X : sane (fst (t_exec cs touches t cmd f w))); [|destruct (t_exec cs touches t cmd f w); exact X].
    unfold t_exec. destruct (is_read cs cmd); [now apply sane_perform|]. destruct (t_auto w t); [|now apply sane_perform].
    assert (X := sane_perform t cmd (w:=t_enter t w)). destruct (t_perform cs touches t cmd (t_enter t w)) as [w1 r]. apply sane_leave. apply X. exact (sane_abort t H).
  - unfold t_set. destruct v; exact H.
  - exact (sane_abort t H).
  - assert (X := sane_leave t f r (w:=fst (t_set t (VBool true) w)) H). destruct (t_leave t f r (fst (t_set t (VBool true) w))). exact X.
Qed.
Lemma sane_run evs : forall w, sane w -> sane (fst (run evs w)).
Proof.
  induction evs as [|e evs IH]; intros w H; cbn; [exact H|]. assert (X := sane_step e H). destruct (step e w) as [w1 o]. specialize (IH w1 X). destruct (run evs w1). exact IH.
Qed.
Lemma reach_settled w : reachable w -> settled w.
Proof. intros (k & fl & evs & ->). apply settled_run. intro. reflexivity. Qed.
Lemma reach_sane w : reachable w -> sane w.
Proof. intros (k & fl & evs & ->). apply sane_run. intros t X. discriminate X. Qed.
(** what the event of a thread does in Txn.v, where the connection belongs to one thread *)
Definition one_step (b : nat -> option exn) (e : tevent C R) (c : conn S) : conn S * tout R :=
  match e with
  | TCall _ cmd _ => let (c1, r) := exec cs b cmd c in (c1, OCall r)
  | TSet _ v => let (c1, r) := set_autocommit v c in (c1, OSet r)
  | TEnter _ => (conn_enter c, OEnter)
  | TExit _ r _ => let (c1, r1) := conn_exit b r c in (c1, OExit r1)
  end.
Definition fails (e : tevent C R) : option exn := match e with TCall _ _ f | TExit _ _ f => f | _ => None end.
Lemma enter_agree t w c : settled w -> (t_join w = None \/ t_join w = Some t) -> agree t w c -> agree t (t_enter t w) (tm_enter c) /\ t_join (t_enter t w) = None.
Proof.
  intros H J A. destruct (agree_abort H J A) as [(B1 & B2 & B3 & B4 & B5) Jn]. split; [|exact Jn]. unfold agree. cbn. rewrite upd_t_same. auto.
Qed.
Lemma own_step t e w c : settled w -> sane w -> (t_join w = None \/ t_join w = Some t) -> agree t w c -> who e = t ->
  exists b, (b = None \/ b = fails e) /\ (let (w', o) := step e w in let (c', o') := one_step (fun _ => b) e c in agree t w' c' /\ o = o' /\ (t_join w' = None \/ t_join w' = Some t)).
Proof.
  intros H Sn J A W. destruct e as [u cmd f|u v|u|u r f]; cbn [who] in W; subst u; cbn [t_step one_step fails].
  - unfold t_exec, exec, autocommitted. assert (A0 := A). destruct A as (A1 & A2 & A3 & A4 & A5).
    assert (Pf := agree_perform cmd H J (Sn t) A0). destruct (is_read cs cmd) eqn:Rd.
    + exists None. split; [auto|]. destruct (t_perform cs touches t cmd w) as [w' r]. destruct (perform cs cmd c) as [c' r2]. destruct Pf as (P1 & -> & P2 & _). auto.
    + rewrite A3. destruct (t_auto w t).
      * destruct (enter_agree H J A0) as [E1 E2]. assert (He : settled (t_enter t w)) by exact (settled_abort t H).
        assert (Q := agree_perform cmd He (or_introl E2) ltac:(intro X; rewrite E2 in X; discriminate X) E1).
        assert (Hp := settled_perform t cmd He). destruct (t_perform cs touches t cmd (t_enter t w)) as [w1 r]. destruct (perform cs cmd (tm_enter c)) as [c1 r2]. destruct Q as (Q1 & -> & Q2 & Q3). cbn [fst] in Hp.
        destruct (agree_leave f r2 Hp Q2 Q1) as (b & B1 & _ & B2). exists b. split; [exact B1|]. destruct (t_leave t f r2 w1) as [w' r']. destruct (tm_exit (fun _ => b) r2 c1) as [c' r'']. destruct B2 as (X1 & -> & X2). auto.
      * exists None. split; [auto|]. destruct (t_perform cs touches t cmd w) as [w' r]. destruct (perform cs cmd c) as [c' r2]. destruct Pf as (P1 & -> & P2 & _). auto.
  - exists None. split; [auto|]. destruct A as (A1 & A2 & A3 & A4 & A5). unfold t_set, set_autocommit, agree. destruct v; cbn; rewrite ?upd_t_same; auto 10.
  - exists None. split; [auto|]. destruct (enter_agree H J A) as [E1 E2]. auto.
  - unfold conn_exit. assert (A' : agree t (fst (t_set t (VBool true) w)) (fst (set_autocommit (VBool true) c))).
    { destruct A as (A1 & A2 & A3 & A4 & A5). unfold agree. cbn. rewrite upd_t_same. auto. }
    assert (H' : settled (fst (t_set t (VBool true) w))) by exact H. assert (J' : t_join (fst (t_set t (VBool true) w)) = None \/ t_join (fst (t_set t (VBool true) w)) = Some t) by exact J.
    destruct (agree_leave f r H' J' A') as (b & B1 & _ & B2). exists b. split; [exact B1|].
    destruct (t_leave t f r (fst (t_set t (VBool true) w))) as [w' r']. destruct (tm_exit (fun _ => b) r (fst (set_autocommit (VBool true) c))) as [c' r'']. destruct B2 as (X1 & -> & X2). auto.
Qed.

(** ** What is saved changes only when the thread that has the connection, or finds it free, ends a transaction *)
Lemma saved_abort t (w : tconn S) : t_saved (t_abort t w) = t_saved w.
Proof. unfold t_abort. destruct (mine t w); reflexivity. Qed.
Lemma saved_perform t cmd w : t_saved (fst (t_perform cs touches t cmd w)) = t_saved w.
Proof.
  unfold t_perform. destruct (is_read cs cmd); [reflexivity|]. destruct (t_join w); [destruct (sem cs cmd (t_work w)); reflexivity|].
  destruct (t_failed w t); [reflexivity|]. destruct (sem cs cmd (t_work w)); reflexivity.
Qed.
Lemma saved_leave {A} t f (r : res A) (w : tconn S) : t_saved (fst (t_leave t f r w)) = t_saved w \/ (t_saved (fst (t_leave t f r w)) = t_work w /\ t_join w = Some t /\ f = None /\ exists a, r = Ok a).
Proof.
  destruct r as [a|e]; cbn; [|left; apply saved_abort]. unfold t_commit. destruct (t_failed w t); [auto|]. destruct (mine t w) eqn:M; [|auto]. destruct f as [e|]; cbn; [auto|]. right. apply mine_spec in M. eauto.
Qed.
Lemma perform_join t cmd w u : t_join (fst (t_perform cs touches t cmd w)) = Some u -> t_join w = Some u \/ (t_join w = None /\ u = t).
Proof.
  unfold t_perform. destruct (is_read cs cmd); [auto|]. destruct (t_join w) as [v|] eqn:J; [destruct (sem cs cmd (t_work w)); auto|].
  destruct (t_failed w t); [intro X; cbn in X; congruence|]. destruct (sem cs cmd (t_work w)). cbn. destruct (touches cmd (t_work w)); intro X; [injection X as <-; auto|discriminate X].
Qed.
Lemma abort_join t (w : tconn S) u : t_join (t_abort t w) = Some u -> t_join w = Some u.
Proof. unfold t_abort. destruct (mine t w); cbn; [discriminate|auto]. Qed.
Lemma abort_join_none t (w : tconn S) : t_join w = Some t -> t_join (t_abort t w) = None.
Proof. intro J. apply mine_spec in J. unfold t_abort. now rewrite J. Qed.
Lemma abort_work t (w : tconn S) : settled w -> t_join w = None \/ t_join w = Some t -> t_work (t_abort t w) = t_saved w.
Proof. intros H [J|J]; unfold t_abort; [|apply mine_spec in J; rewrite J; reflexivity]. unfold mine. rewrite J. exact (H J). Qed.
Lemma saved_step e w : settled w -> t_saved (fst (step e w)) <> t_saved w -> (t_join w = None \/ t_join w = Some (who e)) /\ fails e = None /\
  match e with
  | TCall t cmd _ => is_read cs cmd = false /\ t_auto w t = true /\ (exists a, snd (step e w) = OCall (Ok a) /\ snd (sem cs cmd (t_saved w)) = Ok a) /\ t_saved (fst (step e w)) = fst (sem cs cmd (t_saved w))
  | TExit t r _ => t_join w = Some t /\ (exists a, r = Ok a) /\ t_saved (fst (step e w)) = t_work w
  | _ => False
  end.
Proof.
  intro H. destruct e as [t cmd f|t v|t|t r f]; cbn [t_step who fails].
  - unfold t_exec. destruct (is_read cs cmd) eqn:Rd; [unfold t_perform; rewrite Rd; cbn; contradiction|]. destruct (t_auto w t) eqn:Au.
    + assert (Sp := saved_perform t cmd (t_enter t w)). change (t_saved (t_enter t w)) with (t_saved (t_abort t w)) in Sp. rewrite saved_abort in Sp.
      assert (Jp := perform_join t cmd (t_enter t w)). change (t_join (t_enter t w)) with (t_join (t_abort t w)) in Jp.
      assert (Wp : t_join w = None \/ t_join w = Some t -> t_failed (t_abort t w) t = false -> t_perform cs touches t cmd (t_enter t w) = (let (k, r) := sem cs cmd (t_saved w) in (mkT k (t_saved w) (if touches cmd (t_saved w) then Some t else None) (t_auto (t_enter t w)) (t_failed (t_enter t w)) (t_flag w), r))).
      { intros J F. assert (Jn : t_join (t_enter t w) = None) by (change (t_join (t_abort t w) = None); destruct J as [J|J]; [unfold t_abort, mine; now rewrite J|exact (abort_join_none _ J)]).
        unfold t_perform. rewrite Rd, Jn. change (t_failed (t_enter t w) t) with (t_failed (t_abort t w) t). rewrite F. change (t_work (t_enter t w)) with (t_work (t_abort t w)). rewrite (abort_work H J).
        change (t_saved (t_enter t w)) with (t_saved (t_abort t w)). rewrite saved_abort. assert (Fl : t_flag (t_enter t w) = t_flag w) by (unfold t_enter, t_abort; destruct (mine t w); reflexivity). rewrite Fl. reflexivity. }
      destruct (t_perform cs touches t cmd (t_enter t w)) as [w1 r] eqn:Ep. try rewrite Ep in Sp, Jp, Wp. cbn [fst] in Sp, Jp. intro D.
      destruct (saved_leave t f r w1) as [E|(E & J1 & -> & a & ->)]; [exfalso; apply D; destruct (t_leave t f r w1); cbn in *; congruence|].
      assert (J : t_join w = None \/ t_join w = Some t).
      { destruct (Jp t J1) as [X|[X _]]; [right; exact (abort_join _ _ X)|]. unfold t_abort in X. destruct (mine t w) eqn:M; [right; now apply mine_spec|left; exact X]. }
      assert (F : t_failed (t_abort t w) t = false) by (unfold t_abort; destruct (mine t w); cbn; apply upd_t_same). assert (Wf := Wp J F). revert Wf. destruct (sem cs cmd (t_saved w)) as [k r0]. intro Wf. injection Wf as -> <-.
      split; [exact J|]. split; [reflexivity|]. split; [reflexivity|]. split; [reflexivity|]. split.
      * exists a. cbn [fst snd]. split; [|reflexivity]. revert D. cbn [t_leave]. unfold t_commit. cbn [t_failed]. change (t_failed (t_enter t w) t) with (t_failed (t_abort t w) t). rewrite F. cbn in J1. unfold mine. cbn [t_join]. rewrite J1, Nat.eqb_refl. reflexivity.
      * cbn [fst]. destruct (t_leave t None (Ok a) _) as [w2 r2]. exact E.
    + assert (Sp := saved_perform t cmd w). destruct (t_perform cs touches t cmd w). contradiction.
  - destruct v; cbn; contradiction.
  - cbn. rewrite saved_abort. contradiction.
  - intro D. destruct (saved_leave t f r (fst (t_set t (VBool true) w))) as [E|(E & J1 & -> & a & ->)].
    + exfalso. apply D. destruct (t_leave t f r _); exact E.
    + split; [right; exact J1|]. split; [reflexivity|]. split; [exact J1|]. split; [eauto|]. destruct (t_leave t None (Ok a) _); exact E.
Qed.

(** ** One block at a time *)
(** an autocommitted call by thread [t], or a whole block of thread [t] with these calls in it, whose body ends in [r] *)
Inductive sect := SCall (t : nat) (cmd : C) | SBlock (t : nat) (cmds : list C) (r : res R).
Definition sect_events (x : sect) : list (tevent C R) :=
  match x with SCall t cmd => [TCall t cmd None] | SBlock t cmds r => TEnter t :: map (fun cmd => TCall t cmd None) cmds ++ [TExit t r None] end.
(** the call on a stored state: a read changes nothing *)
Definition does (cmd : C) (s : S) : S := if is_read cs cmd then s else fst (sem cs cmd s).
Definition sect_state (x : sect) (s : S) : S :=
  match x with
  | SCall _ cmd => match snd (sem cs cmd s) with Ok _ => does cmd s | Err _ => s end
  | SBlock _ cmds (Ok _) => fold_left (fun s cmd => does cmd s) cmds s
  | SBlock _ _ (Err _) => s
  end.
Fixpoint block_results (cmds : list C) (s : S) : list (res R) := match cmds with [] => [] | cmd :: l => snd (sem cs cmd s) :: block_results l (does cmd s) end.
Definition sect_results (x : sect) (s : S) : list (res R) := match x with SCall _ cmd => [snd (sem cs cmd s)] | SBlock _ cmds _ => block_results cmds s end.
Fixpoint serial (l : list sect) (s : S) : S * list (res R) :=
  match l with [] => (s, []) | x :: l' => let (s', o) := serial l' (sect_state x s) in (s', sect_results x s ++ o) end.
(** no thread is in a block *)
Definition quiet (w : tconn S) : Prop := t_join w = None /\ t_work w = t_saved w /\ forall t, t_auto w t = true /\ t_failed w t = false.
Definition inside (t : nat) (w : tconn S) : Prop := settled w /\ (t_join w = None \/ t_join w = Some t) /\ (forall u, t_failed w u = false) /\ t_auto w t = false /\ (forall u, u <> t -> t_auto w u = true).
Lemma quiet_enter t w : quiet w -> inside t (t_enter t w) /\ t_work (t_enter t w) = t_saved w /\ t_saved (t_enter t w) = t_saved w.
Proof.
  intros (J & W & A). unfold t_enter, t_abort. assert (M : mine t w = false) by (unfold mine; now rewrite J). rewrite M. cbn. split; [|auto]. unfold inside, settled. cbn. split; [auto|]. split; [auto|].
  split; [intro u; unfold upd_t; destruct (Nat.eqb u t); [reflexivity|apply A]|]. split; [apply upd_t_same|]. intros u N. rewrite upd_t_other by exact N. apply A.
Qed.
Lemma inside_perform t cmd w : inside t w -> let (w1, r) := t_perform cs touches t cmd w in inside t w1 /\ t_work w1 = does cmd (t_work w) /\ t_saved w1 = t_saved w /\ r = snd (sem cs cmd (t_work w)).
Proof.
  intros (H & J & F & A & O). assert (Hp := settled_perform t cmd H). revert Hp. unfold t_perform, does. destruct (is_read cs cmd) eqn:Rd; [intros _; unfold inside; auto 10|].
  destruct (t_join w) as [u|] eqn:Ej; [destruct J as [J|J]; [discriminate|]; injection J as ->|rewrite (F t)]; destruct (sem cs cmd (t_work w)) as [k r]; cbn [fst snd]; intro Hp; unfold inside; cbn.
  - auto 10.
  - split; [|auto]. split; [exact Hp|]. split; [destruct (touches cmd (t_work w)); auto|auto].
Qed.
Lemma inside_leave {A} t (r : res A) w : inside t w -> let (w1, r1) := t_leave t None r w in quiet w1 /\ t_saved w1 = (match r with Ok _ => t_work w | Err _ => t_saved w end) /\ r1 = r.
Proof.
  intros (H & J & F & Au & O). assert (Q : forall u, upd_t t true (t_auto w) u = true) by (intro u; destruct (Nat.eq_dec u t) as [->|N]; [apply upd_t_same|rewrite upd_t_other by exact N; auto]).
  destruct r as [a|e]; cbn [t_leave].
  - unfold t_commit. rewrite (F t). destruct (mine t w) eqn:M; cbn.
    + unfold quiet. cbn. auto 10.
    + destruct J as [J|J]; [|apply mine_spec in J; congruence]. unfold quiet. cbn. assert (X := H J). auto 10.
  - assert (Jn : t_join (t_abort t w) = None) by (destruct J as [J|J]; [unfold t_abort, mine; now rewrite J|exact (abort_join_none _ J)]).
    assert (Wk := abort_work H J). split; [|split; [apply saved_abort|reflexivity]]. unfold quiet. cbn. split; [exact Jn|]. rewrite saved_abort. split; [exact Wk|].
    intro u. unfold t_abort. destruct (mine t w); cbn; (split; [apply Q|]); unfold upd_t; destruct (Nat.eqb u t); auto.
Qed.
Lemma inside_run t cmds : forall w, inside t w -> let (w1, o) := run (map (fun cmd => TCall t cmd None) cmds) w in
  inside t w1 /\ t_work w1 = fold_left (fun s cmd => does cmd s) cmds (t_work w) /\ t_saved w1 = t_saved w /\ call_results o = block_results cmds (t_work w).
Proof.
  induction cmds as [|cmd cmds IH]; intros w I; cbn [map t_run]; [cbn; auto|]. cbn [t_step].
  assert (E : t_exec cs touches t cmd None w = t_perform cs touches t cmd w) by (unfold t_exec; destruct I as (_ & _ & _ & A & _); rewrite A; destruct (is_read cs cmd); reflexivity).
  rewrite E. assert (X := inside_perform cmd I). destruct (t_perform cs touches t cmd w) as [w1 r]. destruct X as (X1 & X2 & X3 & X4). specialize (IH w1 X1). destruct (run _ w1) as [w2 o]. destruct IH as (Y1 & Y2 & Y3 & Y4).
  split; [exact Y1|]. cbn [fold_left block_results]. rewrite <- X2. split; [exact Y2|]. split; [congruence|]. cbn. rewrite X4. f_equal. exact Y4.
Qed.
Lemma sect_run x w : quiet w -> let (w1, o) := run (sect_events x) w in quiet w1 /\ t_saved w1 = sect_state x (t_saved w) /\ call_results o = sect_results x (t_saved w).
Proof.
  intro Q. destruct x as [t cmd|t cmds r]; cbn [sect_events].
  - cbn [t_run t_step]. unfold t_exec. destruct Q as (J & W & A) eqn:EQ. destruct (is_read cs cmd) eqn:Rd.
    + unfold t_perform. rewrite Rd. cbn [sect_state sect_results]. unfold does. rewrite Rd, W. split; [exact Q|]. split; [destruct (snd _); reflexivity|reflexivity].
    + rewrite (proj1 (A t)). destruct (quiet_enter t Q) as (I & E1 & E2). assert (X := inside_perform cmd I). destruct (t_perform cs touches t cmd (t_enter t w)) as [w1 r]. destruct X as (X1 & X2 & X3 & X4).
      assert (Y := inside_leave r X1). destruct (t_leave t None r w1) as [w2 r2]. destruct Y as (Y1 & Y2 & ->). split; [exact Y1|]. cbn [sect_state sect_results]. rewrite E1 in X2, X4. rewrite E2 in X3. subst r. split; [|reflexivity].
      rewrite Y2. destruct (snd (sem cs cmd (t_saved w))); congruence.
  - cbn [t_run t_step]. destruct (quiet_enter t Q) as (I & E1 & E2). rewrite run_app. assert (X := inside_run cmds I). destruct (run (map _ cmds) (t_enter t w)) as [w1 o]. destruct X as (X1 & X2 & X3 & X4).
    cbn [t_run t_step t_set fst].
    assert (I2 : inside t (mkT (t_work w1) (t_saved w1) (t_join w1) (upd_t t false (upd_t t true (t_auto w1))) (t_failed w1) (VBool true))).
    { destruct X1 as (H & J & F & Au & O). unfold inside. cbn. split; [exact H|]. split; [exact J|]. split; [exact F|]. split; [apply upd_t_same|]. intros u N. rewrite !upd_t_other by exact N. auto. }
    assert (Y : let (w2, r1) := t_leave t None r (mkT (t_work w1) (t_saved w1) (t_join w1) (upd_t t true (t_auto w1)) (t_failed w1) (VBool true)) in quiet w2 /\ t_saved w2 = (match r with Ok _ => t_work w1 | Err _ => t_saved w1 end) /\ r1 = r).
    { destruct X1 as (H & J & F & Au & O). set (w1' := mkT (t_work w1) (t_saved w1) (t_join w1) (upd_t t true (t_auto w1)) (t_failed w1) (VBool true)).
      assert (Qa : forall u, upd_t t true (upd_t t true (t_auto w1)) u = true) by (intro u; destruct (Nat.eq_dec u t) as [->|N]; [apply upd_t_same|rewrite !upd_t_other by exact N; auto]).
      destruct r as [a|e]; cbn [t_leave].
      - unfold t_commit. cbn [t_failed w1']. rewrite (F t). destruct (mine t w1') eqn:M; cbn.
        + unfold quiet. cbn. auto 10.
        + destruct J as [J|J]; [|exfalso; assert (Z : t_join w1' = Some t) by exact J; apply mine_spec in Z; congruence]. assert (Z := H J). unfold quiet. cbn. auto 10.
      - assert (H' : settled w1') by exact H. assert (J' : t_join w1' = None \/ t_join w1' = Some t) by exact J.
        assert (Jn : t_join (t_abort t w1') = None) by (destruct J' as [J'|J']; [unfold t_abort, mine; now rewrite J'|exact (abort_join_none _ J')]).
        assert (Wk := abort_work H' J'). split; [|split; [change (t_saved (t_abort t w1') = t_saved w1'); apply saved_abort|reflexivity]]. unfold quiet. cbn. split; [exact Jn|]. rewrite saved_abort. split; [exact Wk|].
        intro u. unfold t_abort. destruct (mine t w1'); cbn; (split; [apply Qa|]); unfold upd_t; destruct (Nat.eqb u t); auto. }
    destruct (t_leave t None r _) as [w2 r1]. destruct Y as (Y1 & Y2 & ->). split; [exact Y1|]. rewrite Y2, X2, X3, E1, E2. split; [destruct r; reflexivity|].
    rewrite E1 in X4. unfold call_results in *. cbn. rewrite flat_map_app, X4. cbn. now rewrite app_nil_r.
Qed.
Lemma C124_serial_lemma l : forall w, quiet w -> let (w1, o) := run (flat_map sect_events l) w in quiet w1 /\ (t_saved w1, call_results o) = serial l (t_saved w).
Proof.
  induction l as [|x l IH]; intros w Q; cbn [flat_map serial]; [cbn; auto|]. rewrite run_app. assert (X := sect_run x Q). destruct (run (sect_events x) w) as [w1 o]. destruct X as (X1 & X2 & X3).
  specialize (IH w1 X1). destruct (run (flat_map sect_events l) w1) as [w2 o2]. destruct IH as [Y1 Y2]. split; [exact Y1|]. rewrite <- X2. destruct (serial l (t_saved w1)) as [s' o']. injection Y2 as <- <-.
  unfold call_results. rewrite flat_map_app. unfold call_results in X3. rewrite X3. reflexivity.
Qed.
End Facts.
