(** Connections from the pool behave as new ones, except for what [conn.autocommit] reports *)
From Verif Require Import Base BaseFacts Value BTree Collection SpecMap Group RoutingFacts GroupFacts GroupCapFacts GroupNewFacts StorageThms
  Container ContainerFacts CondenseFacts ResizeFacts ContainerThms Txn TxnFacts Connection ConnectionFacts ConnHistory Db DbFacts GroupRead GroupReadFacts Session SessionFacts Pool.
Open Scope list_scope.
Set Implicit Arguments.

(** ** Specification *)
(** the same program for the specification of C126 ([session]); reading the attribute is no operation of it *)
Definition as_hops (o : pop) : list hop :=
  match o with PCall c => [HCall c] | PAuto a => [HAuto a] | PEnter => [HEnter] | PExit r => [HExit r] | PAsk => [] | PAgain => [HReopen (VBool true)] end.
(** what it shows: results of calls and ends of blocks *)
Definition as_souts (o : pout) : list sout := match o with OCall r => [SCall r] | OExit r => [SExit r] | _ => [] end.
Definition good_pop (o : pop) : Prop := match o with PCall c => good_call c | _ => True end.

(** What [conn.autocommit] reports. [tells f idle t f']: a connection whose attribute is [f], with [idle] in the pool, reports [f'] after the operations and their results [t] *)
Inductive tells : pyval -> list pyval -> list (pop * pout) -> pyval -> Prop :=
| te_now f idle : tells f idle [] f
| te_assigned f idle a x t f' : tells (VBool a) idle t f' -> tells f idle ((PAuto a, x) :: t) f'
| te_block f idle r x t f' : tells (VBool true) idle t f' -> tells f idle ((PExit r, x) :: t) f'
| te_same f idle o x t f' : (exists cmd, o = PCall cmd) \/ o = PEnter \/ o = PAsk -> tells f idle t f' -> tells f idle ((o, x) :: t) f'
| te_closed f idle t f' : tells f idle t f' -> tells f idle ((PAgain, OClose (Ok tt)) :: t) f'
| te_refused f g idle e t f' : tells g idle t f' -> tells f (g :: idle) ((PAgain, OClose (Err e)) :: t) f'
| te_refused_new f e t f' : tells (VBool true) [] t f' -> tells f [] ((PAgain, OClose (Err e)) :: t) f'.

(** ** Proofs *)
Section Facts.
Variables (busy : exn) (registers : ccmd -> container -> bool).
Notation p_run := (p_run busy registers).
Notation p_step := (p_step busy registers).

(** the connection does what it does without a pool *)
Lemma step_conn b o p : exists hs, s_hops b hs (p_conn p) = (p_conn (fst (p_step b o p)), as_souts (snd (p_step b o p))) /\
  Forall2 (fun h h' => h = h' \/ exists f, h = HReopen f /\ h' = HReopen (VBool true)) hs (as_hops o).
Proof.
  destruct o as [cmd|a| |r| |]; cbn [Pool.p_step as_hops].
  - exists [HCall cmd]. unfold p_call. cbn [s_hops s_hop]. destruct (exec conn_calls b cmd (p_conn p)) as [c1 r]. split; [reflexivity|]. constructor; [now left|constructor].
  - exists [HAuto a]. split; [reflexivity|]. constructor; [now left|constructor].
  - exists [HEnter]. split; [reflexivity|]. constructor; [now left|constructor].
  - exists [HExit r]. unfold p_exit. cbn [s_hops s_hop]. destruct (conn_exit b _ (p_conn p)) as [c1 x]. split; [reflexivity|]. constructor; [now left|constructor].
  - exists []. split; [reflexivity|constructor].
  - unfold p_again. destruct (p_dirty p); [destruct (p_idle p) as [|g rest]|]; cbn; eexists [HReopen _]; (split; [reflexivity|]); (constructor; [right; eexists; split; reflexivity|constructor]).
Qed.
Lemma s_hops_app b hs hs' c : s_hops b (hs ++ hs') c = let (c1, r) := s_hops b hs c in let (c2, r') := s_hops b hs' c1 in (c2, r ++ r').
Proof.
  revert c. induction hs as [|h hs IH]; intros c; cbn [app s_hops]; [now destruct (s_hops b hs' c)|].
  destruct (s_hop b h c) as [c1 r]. rewrite IH. destruct (s_hops b hs c1) as [c2 r1]. destruct (s_hops b hs' c2) as [c3 r2]. now rewrite app_assoc.
Qed.
Lemma run_conn b ops : forall p, exists hs, s_hops b hs (p_conn p) = (p_conn (fst (p_run b ops p)), flat_map as_souts (snd (p_run b ops p))) /\
  Forall2 (fun h h' => h = h' \/ exists f, h = HReopen f /\ h' = HReopen (VBool true)) hs (flat_map as_hops ops).
Proof.
  induction ops as [|o ops IH]; intros p; cbn [Pool.p_run flat_map]; [exists []; split; [reflexivity|constructor]|].
  destruct (@step_conn b o p) as (hs & E & F). destruct (p_step b o p) as [p1 r]; cbn [fst snd] in *. destruct (IH p1) as (hs' & E' & F'). destruct (p_run b ops p1) as [p2 rs]; cbn [fst snd flat_map] in *.
  exists (hs ++ hs'). rewrite s_hops_app, E, E'. split; [reflexivity|]. now apply Forall2_app.
Qed.
Lemma session_flags b n w s a f hs os n' m : session b n w s a f hs os n' m -> forall hs', Forall2 (fun h h' => h = h' \/ exists f, h = HReopen f /\ h' = HReopen (VBool true)) hs hs' -> session b n w s a f hs' os n' m.
Proof.
  induction 1; intros hs' F; inversion F as [|? h' ? hs1 Hh F1]; subst; clear F; try (destruct Hh as [<-|(g & Eg & ->)]; [|try discriminate Eg]); [now apply se_end|..]; try (econstructor; eauto; fail).
Qed.
Lemma good_flat ops : Forall good_pop ops -> Forall good_hop (flat_map as_hops ops).
Proof. induction 1 as [|o ops G _ IH]; [constructor|]. cbn [flat_map]. apply Forall_app. split; [|exact IH]. destruct o; repeat (apply Forall_cons; [exact G || exact I|]); constructor. Qed.
Lemma good_hops hs hs' : Forall2 (fun h h' => h = h' \/ exists f, h = HReopen f /\ h' = HReopen (VBool true)) hs hs' -> Forall good_hop hs' -> Forall good_hop hs.
Proof.
  induction 1 as [|h h' hs hs' Hh F IH]; intros G; [constructor|]. apply Forall_cons_iff in G. destruct G as [G1 G2]. constructor; [|now apply IH].
  destruct Hh as [-> |(f & -> & _)]; [exact G1|exact I].
Qed.
(** a session through the pool is a session on a map *)
Lemma C132_session_lemma b u0 cap mcs k ops p outs : sizable cap mcs -> container_new u0 cap mcs false = Ok k -> Forall good_pop ops -> p_run b ops (p_first k) = (p, outs) ->
  session b 0 empty_map empty_map true false (flat_map as_hops ops) (flat_map as_souts outs) (n_calls (p_conn p)) (held (n_saved (p_conn p))).
Proof.
  intros SZ E G R. destruct (@fresh_one _ _ _ _ SZ E) as [GK HN]. destruct (@run_conn b ops (p_first k)) as (hs & Es & F). rewrite R in Es. cbn [fst snd p_first p_conn] in Es.
  apply session_flags with (hs := hs); [|exact F]. assert (Forall good_hop hs) as GH by (eapply good_hops; [exact F|now apply good_flat]).
  destruct (s_hops_spec b (mkConn k k [] true (VBool true) false O) GK GK (fun X => False_ind _ (Bool.diff_false_true X)) GH Es) as [S _].
  eapply session_ext; [exact S| |]; intro j; cbn; unfold empty_map; now rewrite ?HN.
Qed.

(** *** what the attribute reports *)
Lemma exec_flag b cmd (c : conn container) : n_flag (fst (exec conn_calls b cmd c)) = n_flag c.
Proof.
  unfold exec, autocommitted, perform. destruct (is_read conn_calls cmd); [reflexivity|]. destruct (n_auto c); [|destruct (n_failed c); [reflexivity|]; now destruct (sem conn_calls cmd (n_work c))].
  cbn [tm_enter set_auto tm_abort n_failed n_work]. destruct (sem conn_calls cmd (n_saved c)) as [k1 [r|e]]; unfold tm_exit, tm_commit; cbn; [|reflexivity]. now destruct (b (n_calls c)).
Qed.
Lemma exit_flag {A} b (r : res A) (c : conn container) : n_flag (fst (conn_exit b r c)) = VBool true.
Proof. unfold conn_exit, tm_exit, tm_commit. cbn. destruct r; [|reflexivity]. destruct (n_failed c); cbn; [reflexivity|]. now destruct (b (n_calls c)). Qed.
Lemma call_idle b cmd p : p_idle (fst (p_call registers b cmd p)) = p_idle p /\ n_flag (p_conn (fst (p_call registers b cmd p))) = n_flag (p_conn p).
Proof. unfold p_call. pose proof (exec_flag b cmd (p_conn p)). destruct (exec conn_calls b cmd (p_conn p)). now split. Qed.
Lemma exit_idle b r p : p_idle (fst (p_exit b r p)) = p_idle p /\ n_flag (p_conn (fst (p_exit b r p))) = VBool true.
Proof. unfold p_exit. pose proof (exit_flag b (if r then Err (UserError 0) else Ok tt) (p_conn p)). destruct (conn_exit b _ (p_conn p)). now split. Qed.
Lemma C132_tells_lemma b ops : forall p p' outs, p_run b ops p = (p', outs) -> tells (n_flag (p_conn p)) (p_idle p) (combine ops outs) (n_flag (p_conn p')).
Proof.
  induction ops as [|o ops IH]; intros p p' outs R; cbn [Pool.p_run] in R; [injection R as <- <-; constructor|].
  destruct (p_step b o p) as [p1 r] eqn:E. destruct (p_run b ops p1) as [p2 rs] eqn:R1. injection R as <- <-. cbn [combine]. specialize (IH _ _ _ R1).
  destruct o as [cmd|a| |x| |]; cbn [Pool.p_step] in E.
  - destruct (call_idle b cmd p) as [H1 H2]. destruct (p_call registers b cmd p). injection E as <- <-. cbn [fst] in *. apply te_same; [left; now eexists|]. now rewrite <- H1, <- H2.
  - injection E as <- <-. now apply te_assigned.
  - injection E as <- <-. apply te_same; [auto|exact IH].
  - destruct (exit_idle b x p) as [H1 H2]. destruct (p_exit b x p). injection E as <- <-. cbn [fst] in *. apply te_block. now rewrite <- H1, <- H2.
  - injection E as <- <-. apply te_same; [auto|exact IH].
  - unfold p_again in E. destruct (p_dirty p); [destruct (p_idle p) as [|g rest]|]; injection E as <- <-; cbn in IH |- *; [now apply te_refused_new|now apply te_refused|now apply te_closed].
Qed.
Lemma C132_tells_one f idle t f1 : tells f idle t f1 -> forall f2, tells f idle t f2 -> f1 = f2.
Proof.
  induction 1 as [f idle|f idle a x t f' H IH|f idle r x t f' H IH|f idle o x t f' Ho H IH|f idle t f' H IH|f g idle e t f' H IH|f e t f' H IH]; intros f2 H2; inversion H2; subst; auto;
    try (match goal with K : (exists cmd, _ = PCall cmd) \/ _ |- _ => destruct K as [[? K]|[K|K]]; discriminate K end).
Qed.
(** the attribute is what PAsk shows *)
Lemma run_ask b ops p : p_run b (ops ++ [PAsk]) p = let (p1, outs) := p_run b ops p in (p1, outs ++ [OAsk (n_flag (p_conn p1))]).
Proof.
  revert p. induction ops as [|o ops IH]; intros p; cbn [app Pool.p_run]; [reflexivity|]. destruct (p_step b o p) as [p1 r]. rewrite IH. now destruct (p_run b ops p1).
Qed.
Lemma run_snoc b ops o p : p_run b (ops ++ [o]) p = let (p1, outs) := p_run b ops p in let (p2, r) := p_step b o p1 in (p2, outs ++ [r]).
Proof.
  revert p. induction ops as [|o' ops IH]; intros p; cbn [app Pool.p_run]; [now destruct (p_step b o p)|]. destruct (p_step b o' p) as [p1 r]. rewrite IH. destruct (p_run b ops p1) as [p2 rs].
  now destruct (p_step b o p2).
Qed.

(** *** closing *)
(** the program changed an object in a transaction that has not ended: with autocommit off it called a mutator that changed one, and has not entered or left a block, closed, or called a mutator with autocommit on since *)
Definition after b ops p := fst (p_run b ops p).
Definition unfinished b ops p : Prop := exists pre cmd post, ops = pre ++ PCall cmd :: post /\ conn_is_read cmd = false /\ n_auto (p_conn (after b pre p)) = false /\ n_failed (p_conn (after b pre p)) = false /\
  registers cmd (n_work (p_conn (after b pre p))) = true /\
  forall mid o rest, post = mid ++ o :: rest -> o <> PEnter /\ (forall r, o <> PExit r) /\ o <> PAgain /\
    forall cmd', o = PCall cmd' -> conn_is_read cmd' = false -> n_auto (p_conn (after b (pre ++ PCall cmd :: mid) p)) = false.
Lemma after_snoc b ops o p : after b (ops ++ [o]) p = fst (p_step b o (after b ops p)).
Proof. unfold after. rewrite run_snoc. destruct (p_run b ops p) as [p1 outs]. cbn [fst]. now destruct (p_step b o p1). Qed.
Lemma unfinished_snoc b ops o p : unfinished b (ops ++ [o]) p <->
  (exists cmd, o = PCall cmd /\ conn_is_read cmd = false /\ n_auto (p_conn (after b ops p)) = false /\ n_failed (p_conn (after b ops p)) = false /\ registers cmd (n_work (p_conn (after b ops p))) = true) \/
  (unfinished b ops p /\ o <> PEnter /\ (forall r, o <> PExit r) /\ o <> PAgain /\ forall cmd, o = PCall cmd -> conn_is_read cmd = false -> n_auto (p_conn (after b ops p)) = false).
Proof.
  split.
  - intros (pre & cmd & post & E & H1 & H2 & H3 & H4 & H5). induction post as [|x post _] using rev_ind.
    + apply app_inj_tail in E. destruct E as [-> ->]. left. now exists cmd.
    + rewrite app_comm_cons, app_assoc in E. apply app_inj_tail in E. destruct E as [-> ->]. right. destruct (H5 post x [] eq_refl) as (A & B & C & D).
      split; [|repeat (split; [assumption|]); exact D]. exists pre, cmd, post. repeat (split; [assumption || reflexivity|]). intros mid o' rest ->. apply (H5 mid o' (rest ++ [x])). now rewrite <- app_assoc.
  - intros [(cmd & -> & H1 & H2 & H3 & H4)|((pre & cmd & post & -> & H1 & H2 & H3 & H4 & H5) & A & B & C & D)].
    + exists ops, cmd, []. repeat (split; [assumption || reflexivity|]). intros mid o rest E. destruct mid; discriminate E.
    + exists pre, cmd, (post ++ [o]). split; [now rewrite <- app_assoc|]. repeat (split; [assumption|]). intros mid o' rest E. destruct (@exists_last _ (o' :: rest) ltac:(discriminate)) as (l & z & El).
      rewrite El, app_assoc in E. apply app_inj_tail in E. destruct E as [E ->]. destruct l as [|y l]; [cbn in El; injection El as -> ->; rewrite app_nil_r in E; subst mid; repeat (split; [assumption|]); exact D|].
      cbn in El. injection El as <- ->. now apply (H5 mid o' l).
Qed.
Lemma C132_dirty_lemma b ops p : p_dirty p = false -> (p_dirty (after b ops p) = true <-> unfinished b ops p).
Proof.
  intros Hp. induction ops as [|o ops IH] using rev_ind.
  { unfold after. cbn. rewrite Hp. split; [discriminate|]. intros (pre & cmd & post & E & _). destruct pre; discriminate E. }
  rewrite unfinished_snoc, after_snoc. set (q := after b ops p) in *. clearbody q. rewrite <- IH. clear IH Hp.
  destruct o as [cmd|a| |x| |]; cbn [Pool.p_step].
  - unfold p_call. destruct (exec conn_calls b cmd (p_conn q)) as [c1 r]. cbn [fst p_dirty]. destruct (conn_is_read cmd) eqn:D.
    + split; [intros H; right; split; [exact H|]|intros [(cmd' & E & H & _)|[H _]]; [injection E as <-; congruence|exact H]].
      split; [discriminate|]. split; [discriminate|]. split; [discriminate|]. intros cmd' E. injection E as <-. congruence.
    + destruct (n_auto (p_conn q)) eqn:A.
      * split; [discriminate|]. intros [(cmd' & _ & _ & X & _)|(_ & _ & _ & _ & X)]; [discriminate X|]. discriminate (X cmd eq_refl D).
      * rewrite Bool.orb_true_iff, Bool.andb_true_iff, Bool.negb_true_iff. split.
        -- intros [H|[H1 H2]]; [right|left; exists cmd; auto]. split; [exact H|]. split; [discriminate|]. split; [discriminate|]. split; [discriminate|]. auto.
        -- intros [(cmd' & E & _ & _ & H1 & H2)|[H _]]; [injection E as <-|]; auto.
  - cbn [fst p_dirty]. split; [intros H; right; split; [exact H|]|intros [(cmd & E & _)|[H _]]; [discriminate E|exact H]]. split; [discriminate|]. split; [discriminate|]. split; [discriminate|]. discriminate.
  - cbn [fst p_dirty]. split; [discriminate|]. intros [(cmd & E & _)|(_ & H & _)]; [discriminate E|]. now contradiction H.
  - unfold p_exit. destruct (conn_exit b _ (p_conn q)). cbn [fst p_dirty]. split; [discriminate|]. intros [(cmd & E & _)|(_ & _ & H & _)]; [discriminate E|]. now contradiction (H x).
  - cbn [fst]. split; [intros H; right; split; [exact H|]|intros [(cmd & E & _)|[H _]]; [discriminate E|exact H]]. split; [discriminate|]. split; [discriminate|]. split; [discriminate|]. discriminate.
  - unfold p_again. assert (forall (x : bool) l r, p_dirty (fst (match l with flag :: rest => (mkPooled (reopen flag (p_conn q)) false rest, r) | [] => (mkPooled (reopen (VBool true) (p_conn q)) false [], r : res unit) end)) = false) as X by (intros _ [|f l] r; reflexivity).
    destruct (p_dirty q); [destruct (p_idle q)|]; cbn [fst p_dirty]; (split; [discriminate|]); (intros [(cmd & E & _)|(_ & _ & _ & H & _)]; [discriminate E|now contradiction H]).
Qed.
(** nothing is lost silently: if nothing was changed, the working state is the committed one *)
Definition settled (p : pooled) : Prop := (p_dirty p = false -> n_work (p_conn p) = n_saved (p_conn p)) /\ (n_failed (p_conn p) = true -> n_work (p_conn p) = n_saved (p_conn p)).
Hypothesis honest : forall cmd k, registers cmd k = false -> fst (conn_sem cmd k) = k.
Lemma settled_step b o p : settled p -> settled (fst (p_step b o p)).
Proof.
  intros [H1 H2]. destruct o as [cmd|a| |x| |]; cbn [Pool.p_step].
  - unfold p_call, exec, autocommitted, perform. cbn [is_read sem conn_calls]. destruct (conn_is_read cmd) eqn:D; [now split|]. destruct (n_auto (p_conn p)) eqn:A.
    + cbn [tm_enter set_auto tm_abort n_failed n_work]. destruct (conn_sem cmd (n_saved (p_conn p))) as [k1 [r|e]]; unfold tm_exit, tm_commit; cbn; [destruct (b (n_calls (p_conn p)))|]; now split.
    + destruct (n_failed (p_conn p)) eqn:F; [cbn; rewrite Bool.orb_false_r; split; cbn; auto|]. pose proof (@honest cmd (n_work (p_conn p))) as Hh. destruct (conn_sem cmd (n_work (p_conn p))) as [k1 r]. cbn [fst] in Hh.
      split; cbn; [|congruence]. rewrite Bool.orb_false_iff. intros [X Y]. rewrite (Hh Y). now apply H1.
  - split; [exact H1|exact H2].
  - now split.
  - unfold p_exit, conn_exit, tm_exit, tm_commit. destruct x; cbn; [now split|]. destruct (n_failed (p_conn p)) eqn:F; cbn; [split; cbn; auto|]. destruct (b (n_calls (p_conn p))); now split.
  - now split.
  - unfold p_again. destruct (p_dirty p); [destruct (p_idle p)|]; now split.
Qed.
Lemma settled_run b ops : forall p, settled p -> settled (after b ops p).
Proof.
  induction ops as [|o ops IH] using rev_ind; intros p H; [exact H|]. rewrite after_snoc. apply settled_step. now apply IH.
Qed.
Lemma again_out b p : snd (p_step b PAgain p) = OClose (if p_dirty p then Err busy else Ok tt).
Proof. cbn. unfold p_again. destruct (p_dirty p); [now destruct (p_idle p)|reflexivity]. Qed.
Lemma again_work b p : n_work (p_conn (fst (p_step b PAgain p))) = n_saved (p_conn p) /\ n_saved (p_conn (fst (p_step b PAgain p))) = n_saved (p_conn p).
Proof. cbn. unfold p_again. destruct (p_dirty p); [destruct (p_idle p)|]; now split. Qed.
Lemma C132_close_lemma b ops k : let q := after b ops (p_first k) in
  (snd (p_step b PAgain q) = OClose (Err busy) <-> unfinished b ops (p_first k)) /\ (snd (p_step b PAgain q) = OClose (Ok tt) <-> ~ unfinished b ops (p_first k)) /\
  n_work (p_conn (after b (ops ++ [PAgain]) (p_first k))) = n_saved (p_conn q) /\ (snd (p_step b PAgain q) = OClose (Ok tt) -> n_work (p_conn q) = n_saved (p_conn q)).
Proof.
  intros q. pose proof (@C132_dirty_lemma b ops (p_first k) eq_refl) as D. fold q in D. rewrite again_out, after_snoc. destruct (@again_work b q) as [W _]. fold q. rewrite W.
  assert (settled q) as [H1 _] by (apply settled_run; now split). destruct (p_dirty q).
  - split; [split; [intros _; now apply D|reflexivity]|]. split; [split; [discriminate|intros X; contradiction X; now apply D]|]. split; [reflexivity|discriminate].
  - split; [split; [discriminate|intros X; apply D in X; discriminate X]|]. split; [split; [intros _ X; apply D in X; discriminate X|reflexivity]|]. split; [reflexivity|auto].
Qed.
End Facts.
(** programs that leave autocommit on and use no blocks can always close *)
Lemma C132_plain_lemma busy registers b ops : forall p, (forall o, In o ops -> o <> PAuto false /\ o <> PEnter) -> p_dirty p = false -> (n_auto (p_conn p) = true \/ n_failed (p_conn p) = true) ->
  forall r, In (OClose r) (snd (p_run busy registers b ops p)) -> r = Ok tt.
Proof.
  induction ops as [|o ops IH]; intros p H D A r; cbn [p_run]; [intros []|]. destruct (H o (or_introl eq_refl)) as [N1 N2].
  assert (p_dirty (fst (p_step busy registers b o p)) = false /\ (n_auto (p_conn (fst (p_step busy registers b o p))) = true \/ n_failed (p_conn (fst (p_step busy registers b o p))) = true) /\
    forall r, snd (p_step busy registers b o p) = OClose r -> r = Ok tt) as (D' & A' & O').
  { destruct o as [cmd|a| |x| |]; cbn [p_step]; [| | contradiction | | |].
    - unfold p_call, exec, autocommitted, perform. cbn [is_read sem conn_calls]. destruct (conn_is_read cmd); [split; [exact D|split; [exact A|discriminate]]|]. destruct (n_auto (p_conn p)) eqn:Au.
      + cbn [tm_enter set_auto tm_abort n_failed n_work]. destruct (conn_sem cmd (n_saved (p_conn p))) as [k1 [v|e]]; unfold tm_exit, tm_commit; cbn; [destruct (b (n_calls (p_conn p)))|]; cbn; (split; [reflexivity|]); (split; [auto|discriminate]).
      + destruct A as [A|A]; [discriminate A|]. rewrite A. cbn. rewrite D, Au, A. split; [reflexivity|]. split; [now right|discriminate].
    - destruct a; [|contradiction N1; reflexivity]. cbn. split; [exact D|]. split; [now left|discriminate].
    - unfold p_exit, conn_exit, tm_exit, tm_commit. destruct x; cbn; [split; [reflexivity|split; [now left|discriminate]]|]. destruct (n_failed (p_conn p)) eqn:F; cbn; [split; [reflexivity|split; [now left|discriminate]]|].
      destruct (b (n_calls (p_conn p))); cbn; (split; [reflexivity|split; [now left|discriminate]]).
    - split; [exact D|]. split; [exact A|discriminate].
    - unfold p_again. rewrite D. cbn. split; [reflexivity|]. split; [now left|]. intros r' E. now injection E as <-. }
  destruct (p_step busy registers b o p) as [p1 x]; cbn [fst snd] in *. specialize (IH p1 (fun o' Ho => H o' (or_intror Ho)) D' A' r). destruct (p_run busy registers b ops p1) as [p2 rs]; cbn [snd] in *.
  intros [E|E]; auto.
Qed.
