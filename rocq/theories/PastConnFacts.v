(** Facts about connections to the past (PastConn.v) *)
From Verif Require Import Base Value Container Txn Connection Db PastConn.
From Coq Require Import Sorting.Sorted.
Open Scope list_scope.
Set Implicit Arguments.

(** [r] is the root that the last transaction with an id accepted by [ok] left *)
Definition left_by (ok : N -> bool) (l : log) (r : root) : Prop :=
  exists l1 t l2, l = l1 ++ (t, r) :: l2 /\ ok t = true /\ forall t' r', In (t', r') l2 -> ok t' = false.
Lemma newest_spec ok l : match newest ok l with Some r => left_by ok l r | None => forall t r, In (t, r) l -> ok t = false end.
Proof.
  induction l as [|[t r] l IH]; cbn; [contradiction|]. destruct (newest ok l) as [x|].
  - destruct IH as (l1 & t1 & l2 & -> & Ht & Hl). exists ((t, r) :: l1), t1, l2. auto.
  - destruct (ok t) eqn:E.
    + exists [], t, l. split; [reflexivity|]. split; [exact E|exact IH].
    + intros t1 r1 [[= -> ->]|H]; [exact E|eauto].
Qed.
Lemma left_by_fun ok l r r' : left_by ok l r -> left_by ok l r' -> r = r'.
Proof.
  intros (l1 & t & l2 & -> & Ht & Hl) (m1 & u & m2 & E & Hu & Hm). revert m1 E. induction l1 as [|x l1 IH]; intros [|y m1] E; cbn in E.
  - injection E as -> -> ->. reflexivity.
  - injection E as <- ->. rewrite (Hl u r') in Hu; [discriminate|]. apply in_or_app. right. now left.
  - injection E as -> <-. rewrite (Hm t r) in Ht; [discriminate|]. apply in_or_app. right. now left.
  - injection E as <- E. eauto.
Qed.
Lemma newest_left ok l r : newest ok l = Some r <-> left_by ok l r.
Proof.
  pose proof (newest_spec ok l) as H. destruct (newest ok l) as [x|].
  - split; [now intros [= <-]|]. intros H'. f_equal. eapply left_by_fun; eauto.
  - split; [discriminate|]. intros (l1 & t & l2 & -> & Ht & _). rewrite (H t r) in Ht; [discriminate|]. apply in_or_app. right. now left.
Qed.
Lemma newest_none ok l : newest ok l = None <-> forall t r, In (t, r) l -> ok t = false.
Proof.
  pose proof (newest_spec ok l) as H. destruct (newest ok l) as [x|]; [|split; auto]. split; [discriminate|]. intros H'. destruct H as (l1 & t & l2 & -> & Ht & _).
  rewrite (H' t x) in Ht; [discriminate|]. apply in_or_app. right. now left.
Qed.
(** the accepted times *)
Definition accepts (at_ before : option N) : N -> bool := match at_, before with Some t, _ => fun u => N.leb u t | None, Some t => fun u => N.ltb u t | None, None => fun _ => true end.
(** the specification of [open] *)
Inductive opens_past (at_ before : option N) (l : log) : res (bool * conn container) -> Prop :=
| op_both : at_ <> None -> before <> None -> opens_past at_ before l (Err ValueError)
| op_future_at t : at_ = Some t -> before = None -> (last_tid l < t)%N -> opens_past at_ before l (Err ValueError)
| op_future_before t : at_ = None -> before = Some t -> (last_tid l + 1 < t)%N -> opens_past at_ before l (Err ValueError)
| op_nothing : (at_ = None \/ before = None) -> (forall t, at_ = Some t -> (t <= last_tid l)%N) -> (forall t, before = Some t -> (t <= last_tid l + 1)%N) ->
    (forall t r, In (t, r) l -> accepts at_ before t = false) -> opens_past at_ before l (Err KeyError)
| op_no_container r : (at_ = None \/ before = None) -> (forall t, at_ = Some t -> (t <= last_tid l)%N) -> (forall t, before = Some t -> (t <= last_tid l + 1)%N) ->
    left_by (accepts at_ before) l r -> rt_container r = None -> opens_past at_ before l (Err IncompatibleDatabaseError)
| op_open r k : (at_ = None \/ before = None) -> (forall t, at_ = Some t -> (t <= last_tid l)%N) -> (forall t, before = Some t -> (t <= last_tid l + 1)%N) ->
    left_by (accepts at_ before) l r -> rt_container r = Some k ->
    opens_past at_ before l (Ok (match at_, before with None, None => false | _, _ => true end, mkConn k k [] true (VBool true) false O)).
Lemma newest_ext f g l : (forall t, f t = g t) -> newest f l = newest g l.
Proof. intros H. induction l as [|[t r] l IH]; cbn; [reflexivity|]. now rewrite IH, H. Qed.
Lemma open_at_opens at_ before l : opens_past at_ before l (open_at at_ before l).
Proof.
  unfold open_at, wanted_time.
  assert (forall ok w, (forall t, ok t = accepts at_ before t) -> (at_ = None \/ before = None) -> (forall t, at_ = Some t -> (t <= last_tid l)%N) -> (forall t, before = Some t -> (t <= last_tid l + 1)%N) ->
    w = match at_, before with None, None => false | _, _ => true end ->
    opens_past at_ before l (match newest ok l with None => Err POSKeyError | Some r => match connect (rt_container r) true (VBool true) with Err e => Err e | Ok c => Ok (w, c) end end)) as H.
  { intros ok w Hok Hone Ha Hb ->. rewrite (newest_ext _ _ l Hok). destruct (newest (accepts at_ before) l) as [r|] eqn:E.
    - apply newest_left in E. destruct (rt_container r) as [k|] eqn:Ek; cbn [connect]; [now apply op_open with (r := r)|now apply op_no_container with (r := r)].
    - rewrite newest_none in E. now apply op_nothing. }
  destruct at_ as [t|], before as [u|].
  - apply op_both; discriminate.
  - destruct (N.ltb_spec (N.succ (last_tid l)) (N.succ t)) as [Hl|Hl]; [apply op_future_at with (t := t); auto; lia|].
    apply (H (fun x => N.ltb x (N.succ t)) true); auto.
    + intros x. cbn. destruct (N.ltb_spec x (N.succ t)), (N.leb_spec x t); auto; lia.
    + intros x [= <-]. lia.
    + discriminate.
  - destruct (N.ltb_spec (N.succ (last_tid l)) u) as [Hl|Hl]; [apply op_future_before with (t := u); auto; lia|].
    apply (H (fun x => N.ltb x u) true); auto; [discriminate|]. intros x [= <-]. lia.
  - apply (H (fun _ => true) false); auto; discriminate.
Qed.
Lemma opens_past_fun at_ before l x y : opens_past at_ before l x -> opens_past at_ before l y -> x = y.
Proof.
  assert (forall r r', left_by (accepts at_ before) l r -> left_by (accepts at_ before) l r' -> r = r') as F by (intros; eapply left_by_fun; eauto).
  assert (forall r, left_by (accepts at_ before) l r -> (forall t r, In (t, r) l -> accepts at_ before t = false) -> False) as G.
  { intros r (l1 & t & l2 & -> & Ht & _) H. rewrite (H t r) in Ht; [discriminate|]. apply in_or_app. right. now left. }
  intros H H'. destruct H, H'; subst; try reflexivity; try congruence;
    try (exfalso; match goal with Hx : _ = None \/ _ = None |- _ => destruct Hx; congruence end);
    try (exfalso; match goal with A : forall t, Some ?u = Some t -> (t <= _)%N, B : (_ < ?u)%N |- _ => specialize (A u eq_refl); lia end);
    try (exfalso; eapply G; eauto; fail);
    match goal with A : left_by _ l ?r, B : left_by _ l ?r' |- _ => pose proof (F _ _ A B); subst; congruence end.
Qed.
Lemma C131_open_lemma at_ before l x : open_at at_ before l = x <-> opens_past at_ before l x.
Proof. split; [intros <-; apply open_at_opens|intros H; eapply opens_past_fun; [apply open_at_opens|exact H]]. Qed.

(** later transactions do not matter *)
Lemma last_in (l : list N) d : l <> [] -> In (last l d) l.
Proof. induction l as [|x [|y l] IH]; intros H; [contradiction|now left|]. right. apply IH. discriminate. Qed.
Lemma last_app (l l' : list N) d : last (l ++ l') d = match l' with [] => last l d | _ => last l' d end.
Proof. destruct l' as [|y l']; [now rewrite app_nil_r|]. induction l as [|x l IH]; [reflexivity|]. cbn [app]. rewrite <- IH. destruct (l ++ y :: l') eqn:E; [now destruct l|reflexivity]. Qed.
Lemma newest_app ok l l' : (forall t r, In (t, r) l' -> ok t = false) -> newest ok (l ++ l') = newest ok l.
Proof.
  intros H. induction l as [|[t r] l IH]; cbn; [now apply newest_none|]. now rewrite IH.
Qed.
Lemma C131_later_lemma t l l' : (t <= last_tid l)%N -> (forall t' r, In (t', r) l' -> (last_tid l < t')%N) -> open_at (Some t) None (l ++ l') = open_at (Some t) None l.
Proof.
  intros Ht Hl. unfold open_at, wanted_time.
  assert (last_tid l <= last_tid (l ++ l'))%N as Hm.
  { unfold last_tid. rewrite map_app, last_app. destruct l' as [|[u r] l']; [reflexivity|]. cbn [map].
    pose proof (last_in (l := map fst ((u, r) :: l')) 0%N ltac:(discriminate)) as Hi. apply in_map_iff in Hi as ([v r'] & Hv & Hi). apply Hl in Hi.
    cbn [fst] in Hv. rewrite Hv in Hi. cbn [map fst] in *. fold (last_tid l). lia. }
  destruct (N.ltb_spec (N.succ (last_tid (l ++ l'))) (N.succ t)); [lia|]. destruct (N.ltb_spec (N.succ (last_tid l)) (N.succ t)); [lia|].
  rewrite newest_app; [reflexivity|]. intros t' r Hi. apply Hl in Hi. apply N.ltb_ge. lia.
Qed.

Open Scope nat_scope.
Open Scope list_scope.
Section Past.
Variables (St C R : Type) (cs : calls St C R) (registers : C -> St -> bool) (readonly : exn) (s0 : St).
Hypothesis honest : forall cmd s, registers cmd s = false -> fst (sem cs cmd s) = s.
Notation p_run := (p_run cs registers readonly).
Notation p_exec := (p_exec cs registers readonly).
(** a connection to the committed state [s0]; what is not registered as changed is unchanged *)
Definition at_past (p : past St) : Prop := n_saved (fst p) = s0 /\ (snd p = false -> n_work (fst p) = s0).
(** nothing but [s0] was committed between [p] and [p'] *)
Definition kept (p p' : past St) : Prop := at_past p' /\ exists k, n_past (fst p') = repeat s0 k ++ n_past (fst p).
Lemma kept_refl p : at_past p -> kept p p.
Proof. split; [assumption|now exists 0]. Qed.
Lemma kept_trans p q r : kept p q -> kept q r -> kept p r.
Proof. intros [_ [k E]] [H [j E']]. split; [exact H|]. exists (j + k). now rewrite repeat_app, <- app_assoc, <- E. Qed.
Lemma enter_kept p : at_past p -> kept p (p_enter p).
Proof. intros [H _]. split; [split; [exact H|now intros _]|now exists 0]. Qed.
Lemma exit_kept A (r : res A) p : at_past p -> kept p (fst (p_exit readonly r p)).
Proof.
  intros [H Hc]. destruct p as [c d]. cbn [fst snd] in *. unfold p_exit. destruct r as [v|e].
  - unfold p_commit, tm_commit. cbn [fst snd]. destruct (n_failed c); cbn [fst]; [split; [now split|now exists 0]|].
    destruct d; cbn [fst snd]; unfold kept, at_past; cbn [fst snd n_work n_saved n_past set_auto]; unfold history.
    + rewrite H. split; [now split|now exists 0].
    + rewrite (Hc eq_refl), H. split; [now split|now exists 1].
  - split; [split; [exact H|now intros _]|now exists 0].
Qed.
Lemma perform_kept cmd p : at_past p -> kept p (fst (p_perform cs registers cmd p)).
Proof.
  intros [H Hc]. destruct p as [c d]. cbn [fst snd] in *. unfold p_perform, perform. cbn [fst snd]. destruct (is_read cs cmd); cbn [negb andb fst].
  - rewrite Bool.orb_false_r. split; [now split|now exists 0].
  - destruct (n_failed c); cbn [negb andb fst]; [rewrite Bool.orb_false_r; split; [now split|now exists 0]|].
    destruct (sem cs cmd (n_work c)) as [k r] eqn:E. cbn [fst]. split; [|now exists 0]. split; [exact H|]. cbn [fst snd put n_work].
    intros Hf. apply Bool.orb_false_iff in Hf as [-> Hr]. pose proof (honest Hr) as E'. rewrite E in E'. cbn in E'. rewrite E'. now apply Hc.
Qed.
Lemma exec_kept cmd p : at_past p -> kept p (fst (p_exec cmd p)).
Proof.
  intros H. unfold PastConn.p_exec. destruct (is_read cs cmd); [now apply perform_kept|]. destruct (n_auto (fst p)); [|now apply perform_kept].
  pose proof (enter_kept H) as H1. pose proof (@perform_kept cmd (p_enter p) (proj1 H1)) as H2. destruct (p_perform cs registers cmd (p_enter p)) as [p1 r]; cbn [fst] in H2.
  eapply kept_trans; [exact H1|]. eapply kept_trans; [exact H2|]. apply exit_kept. apply H2.
Qed.
Lemma C131_kept_lemma g : forall p, at_past p -> kept p (fst (p_run g p)).
Proof.
  induction g as [r|cmd k IH|v k IH|body IHb k IH]; intros p H; cbn [PastConn.p_run].
  - now apply kept_refl.
  - pose proof (exec_kept cmd H) as H1. destruct (p_exec cmd p) as [p1 r]; cbn [fst] in H1. eapply kept_trans; [exact H1|]. apply IH, H1.
  - destruct p as [c d]. cbn [fst snd].
    assert (kept (c, d) (fst (set_autocommit v c), d)) as H1 by (destruct v; try (now apply kept_refl); split; [exact H|now exists 0]).
    destruct (set_autocommit v c) as [c1 r]; cbn [fst] in H1. eapply kept_trans; [exact H1|]. apply IH, H1.
  - pose proof (enter_kept H) as H1. pose proof (IHb _ (proj1 H1)) as H2. destruct (p_run body (p_enter p)) as [[c1 d1] r]; cbn [fst snd] in *.
    assert (kept (c1, d1) (fst (set_autocommit (VBool true) c1), d1)) as H3 by (split; [apply H2|now exists 0]).
    pose proof (@exit_kept R r _ (proj1 H3)) as H4. destruct (p_exit readonly r (fst (set_autocommit (VBool true) c1), d1)) as [p2 r2]; cbn [fst] in H4.
    eapply kept_trans; [exact H1|]. eapply kept_trans; [exact H2|]. eapply kept_trans; [exact H3|]. eapply kept_trans; [exact H4|]. apply IH, H4.
Qed.

(** programs that only read *)
Fixpoint only_reads (g : prog C R) : Prop :=
  match g with
  | Done _ => True
  | Do cmd k => is_read cs cmd = true /\ forall r, only_reads (k r)
  | SetAuto v k => forall r, only_reads (k r)
  | Block body k => only_reads body /\ forall r, only_reads (k r)
  end.
Lemma exit_clean A (r : res A) (c : conn St) : p_exit readonly r (c, false) = let (c1, r1) := tm_exit (fun _ => None) r c in ((c1, false), r1).
Proof. destruct r as [v|e]; [|reflexivity]. unfold p_exit, tm_exit, p_commit, tm_commit. cbn [fst snd]. destruct (n_failed c); reflexivity. Qed.
Lemma C131_reads_lemma g : only_reads g -> forall c, p_run g (c, false) = let (c1, r) := run cs (fun _ => None) g c in ((c1, false), r).
Proof.
  induction g as [r|cmd k IH|v k IH|body IHb k IH]; cbn [only_reads]; intros Hg c; cbn [PastConn.p_run run].
  - reflexivity.
  - destruct Hg as [Hr Hk]. unfold PastConn.p_exec, exec, p_perform, perform. rewrite Hr. cbn [negb andb orb fst snd]. apply IH, Hk.
  - cbn [fst snd]. destruct (set_autocommit v c) as [c1 r]. apply IH, Hg.
  - destruct Hg as [Hb Hk]. unfold p_enter, p_abort. cbn [fst]. rewrite (IHb Hb). unfold conn_enter, tm_enter. destruct (run cs (fun _ => None) body (set_auto false (tm_abort c))) as [c1 r].
    cbn [fst snd]. rewrite exit_clean. unfold conn_exit. destruct (tm_exit (fun _ => None) r (fst (set_autocommit (VBool true) c1))) as [c2 r2]. apply IH, Hk.
Qed.

(** one call outside a block *)
Lemma C131_call_lemma cmd p : at_past p -> is_read cs cmd = false -> n_auto (fst p) = true ->
  let '((c, d), r) := p_exec cmd p in n_work c = s0 /\ n_saved c = s0 /\ d = false /\
    match snd (sem cs cmd s0) with
    | Err e => r = Err e /\ n_auto c = true /\ n_failed c = false
    | Ok v => if registers cmd s0 then r = Err readonly /\ n_auto c = false /\ n_failed c = true else r = Ok v /\ n_auto c = true /\ n_failed c = false
    end.
Proof.
  intros [H _] Hr Ha. destruct p as [c d]. cbn [fst snd] in *. unfold PastConn.p_exec. rewrite Hr. cbn [fst]. rewrite Ha. unfold p_perform, perform, p_enter, p_abort. rewrite Hr. cbn.
  rewrite H. destruct (sem cs cmd s0) as [k [v|e]] eqn:E; cbn; [|auto 10]. unfold p_commit, tm_commit; cbn. destruct (registers cmd s0) eqn:Eg; cbn; [auto 10|].
  pose proof (honest Eg) as E'. rewrite E in E'. cbn in E'. subst. auto 10.
Qed.

(** a block whose body makes calls only (no nested block, no assignment to autocommit) *)
Fixpoint calls_only (g : prog C R) : Prop := match g with Done _ => True | Do _ k => forall r, calls_only (k r) | _ => False end.
Lemma body_same b g : calls_only g -> forall c d, n_auto c = false ->
  fst (fst (p_run g (c, d))) = fst (run cs b g c) /\ snd (p_run g (c, d)) = snd (run cs b g c) /\ n_auto (fst (run cs b g c)) = false.
Proof.
  induction g as [r|cmd k IH| |]; cbn [calls_only]; intros Hg c d Ha; try contradiction; cbn [PastConn.p_run run]; [auto|].
  unfold PastConn.p_exec, exec, autocommitted. cbn [fst]. rewrite Ha.
  replace (if is_read cs cmd then p_perform cs registers cmd (c, d) else p_perform cs registers cmd (c, d)) with (p_perform cs registers cmd (c, d)) by now destruct (is_read cs cmd).
  replace (if is_read cs cmd then perform cs cmd c else perform cs cmd c) with (perform cs cmd c) by now destruct (is_read cs cmd).
  unfold p_perform. cbn [fst snd]. assert (n_auto (fst (perform cs cmd c)) = false) as Ha1.
  { unfold perform. destruct (is_read cs cmd); [exact Ha|]. destruct (n_failed c); [exact Ha|]. now destruct (sem cs cmd (n_work c)). }
  destruct (perform cs cmd c) as [c1 r]. apply IH; auto.
Qed.
Lemma C131_block_lemma b body k p : at_past p -> calls_only body ->
  let (c1, r) := run cs b body (conn_enter (fst p)) in
  exists p2 r2, p_run (Block body k) p = p_run (k r2) p2 /\ n_work (fst p2) = s0 /\ n_saved (fst p2) = s0 /\
    match r with
    | Err e => r2 = Err e /\ n_auto (fst p2) = true /\ n_failed (fst p2) = false
    | Ok v => (r2 = Ok v /\ n_work c1 = s0 /\ n_auto (fst p2) = true /\ n_failed (fst p2) = false) \/ (r2 = Err readonly /\ n_auto (fst p2) = true /\ n_failed (fst p2) = true)
    end.
Proof.
  intros H Hb. cbn [PastConn.p_run]. pose proof (enter_kept H) as [H1 _].
  destruct (@body_same b body Hb (set_auto false (tm_abort (fst p))) false eq_refl) as (E1 & E2 & _).
  assert (n_failed (fst (run cs b body (conn_enter (fst p)))) = false) as Hf.
  { unfold conn_enter, tm_enter. assert (forall g c, calls_only g -> n_auto c = false -> n_failed c = false -> n_failed (fst (run cs b g c)) = false) as G; [|now apply G].
    clear. induction g as [r|cmd k IH| |]; cbn [calls_only]; intros c Hg Ha Hf; try contradiction; cbn [run]; [exact Hf|].
    assert (exec cs b cmd c = perform cs cmd c) as -> by (unfold exec, autocommitted; rewrite Ha; now destruct (is_read cs cmd)).
    unfold perform. destruct (is_read cs cmd); [now apply IH|]. rewrite Hf. destruct (sem cs cmd (n_work c)). now apply IH. }
  pose proof (C131_kept_lemma body H1) as [[Hs Hc] _]. unfold p_enter, p_abort in *. cbn [fst snd] in *. unfold conn_enter, tm_enter in *.
  destruct (run cs b body (set_auto false (tm_abort (fst p)))) as [c1 r]. destruct (p_run body (set_auto false (tm_abort (fst p)), false)) as [[c1' d] r']; cbn [fst snd] in *. subst c1' r'.
  destruct r as [v|e]; unfold p_exit, p_commit, tm_commit; cbn [fst snd set_autocommit n_failed].
  - rewrite Hf. destruct d; cbn [fst snd].
    + eexists _, _. split; [reflexivity|]. cbn. auto 10.
    + eexists _, _. split; [reflexivity|]. cbn. rewrite (Hc eq_refl). auto 10.
  - eexists _, _. split; [reflexivity|]. cbn. auto 10.
Qed.
End Past.
