(** Threads that switch the context of the same object *)
From Verif Require Import Base BaseFacts Context CtxSteps.
Open Scope list_scope.
Set Implicit Arguments.

(** ** Specification *)
(** [c] is the context of a with-block of the program *)
Inductive block_of (c : ctx) : wstmt -> Prop :=
| bo_here body : block_of c (With c body)
| bo_with d body x : In x body -> block_of c x -> block_of c (With d body)
| bo_catch body x : In x body -> block_of c x -> block_of c (Catch body).
Definition blocks_of (c : ctx) (ps : list (list wstmt)) : Prop := exists p x, In p ps /\ In x p /\ block_of c x.
Definition finished (w : mgr * list thr * list seen) : Prop := forall t, In t (snd (fst w)) -> todo t = [].

(** ** Proof *)
(** the blocks open after some steps; None: an exit without a block, or a look inside of none *)
Fixpoint bal (l : list act) (n : nat) : option nat :=
  match l with
  | [] => Some n
  | a :: r => match a with
              | APush | ACall _ => bal r (Datatypes.S n)
              | APop | AExit => match n with 0 => None | Datatypes.S k => bal r k end
              | ALook (Some _) => match n with 0 => None | _ => bal r n end
              | _ => bal r n
              end
  end.
Lemma bal_app l r n k : bal l n = Some k -> bal (l ++ r) n = bal r k.
Proof.
  revert n. induction l as [|a l IH]; intros n E; cbn [bal app] in *; [now injection E as ->|].
  destruct a as [| | | | | | | |[c|]]; try (now apply IH); destruct n; try discriminate E; now apply IH.
Qed.
Definition names (P : ctx -> Prop) (a : act) : Prop := match a with ASet c | ACall c | ALook (Some c) => P c | _ => True end.
Definition kind (lock : bool) (a : act) : Prop := match a with APush | ASet _ | AEnter | APop | APut | AOff => lock = false | ACall _ | AExit => lock = true | ALook _ => True end.
Section W.
Variables (lock : bool) (P : ctx -> Prop).
Lemma wstmt_ind2 (Q : wstmt -> Prop) : Q See -> (forall e, Q (Throw e)) -> (forall c b, Forall Q b -> Q (With c b)) -> (forall b, Forall Q b -> Q (Catch b)) -> forall x, Q x.
Proof.
  intros H1 H2 H3 H4. fix rec 1. intros [|e|c b|b]; [exact H1|apply H2|apply H3|apply H4]; induction b as [|y b IHb]; constructor; auto.
Qed.
Definition fine (i : option ctx) (l : list act) : Prop := (forall n, (i = None \/ (0 < n)%nat) -> bal l n = Some n) /\ Forall (names P) l /\ Forall (kind lock) l.
Lemma fine_app i l r : fine i l -> fine i r -> fine i (l ++ r).
Proof. intros (A & B & C) (D & E & F). split; [|split; apply Forall_app; auto]. intros n H. rewrite (bal_app l r n (A n H)). now apply D. Qed.
Lemma c_seq_fine i p : (forall c, i = Some c -> P c) -> Forall (fun x => (forall c, block_of c x -> P c) -> forall i, (forall c, i = Some c -> P c) -> fine i (fst (c_stmt lock i x))) p -> (forall x c, In x p -> block_of c x -> P c) ->
  fine i (fst (c_seq (c_stmt lock i) p)).
Proof.
  intros Hi F. induction F as [|x p F1 F IH]; intros H; cbn [c_seq]; [split; [reflexivity|split; constructor]|].
  assert (X : fine i (fst (c_stmt lock i x))) by (apply F1; [intros c; apply H; now left|exact Hi]). destruct (c_stmt lock i x) as [l [|]]; [exact X|].
  assert (Y : fine i (fst (c_seq (c_stmt lock i) p))) by (apply IH; intros y c Hy; apply H; now right). destruct (c_seq (c_stmt lock i) p) as [l2 e]. cbn [fst] in *. now apply fine_app.
Qed.
Lemma c_stmt_fine x : (forall c, block_of c x -> P c) -> forall i, (forall c, i = Some c -> P c) -> fine i (fst (c_stmt lock i x)).
Proof.
  induction x as [|e|c b IH|b IH] using wstmt_ind2; intros H i Hi; cbn [c_stmt].
  - split; [|split; [constructor; [destruct i as [c|]; cbn; auto|constructor]|constructor; [exact I|constructor]]]. intros n Hn. cbn [fst bal]. destruct i as [c|]; [|reflexivity]. destruct n; [destruct Hn as [E|E]; [discriminate E|lia]|reflexivity].
  - split; [reflexivity|split; constructor].
  - assert (Hc : P c) by (apply H; constructor). pose proof (@c_seq_fine (Some c) b) as Y. destruct (c_seq (c_stmt lock (Some c)) b) as [l e]. cbn [fst] in *.
    assert (F : fine (Some c) l). { apply Y; [intros d E; injection E as <-; exact Hc|exact IH|]. intros y d Iy By. apply H. econstructor; eassumption. } destruct F as (A & B & C). clear Y IH.
    split; [|split].
    + intros n _. specialize (A (Datatypes.S n) (or_intror (Nat.lt_0_succ n))). unfold entering, leaving. destruct lock; cbn [app bal]; rewrite (bal_app l _ _ A); reflexivity.
    + unfold entering, leaving. destruct lock; cbn [app]; repeat apply Forall_cons; try exact I; try exact Hc; apply Forall_app; split; auto; repeat apply Forall_cons; try exact I; constructor.
    + unfold entering, leaving. destruct lock; cbn [app]; repeat apply Forall_cons; try reflexivity; apply Forall_app; split; auto; repeat apply Forall_cons; try reflexivity; constructor.
  - pose proof (@c_seq_fine i b Hi IH) as Y. destruct (c_seq (c_stmt lock i) b) as [l e]. cbn [fst] in *. apply Y. intros y d Iy By. apply H. econstructor; eassumption.
Qed.
Lemma thread_fine p : (forall x c, In x p -> block_of c x -> P c) -> fine None (todo (thread_of lock p)).
Proof. intros H. unfold thread_of. cbn [todo]. apply c_seq_fine; [intros c E; discriminate E|apply Forall_forall; intros x _ Hx i Hi; now apply c_stmt_fine|exact H]. Qed.
End W.
(** what holds after any schedule *)
Definition open_blocks (ts : list thr) (hs : list nat) : Prop := Forall2 (fun t h => bal (todo t) h = Some 0%nat) ts hs.
Lemma sum_app a b : list_sum (a ++ b) = (list_sum a + list_sum b)%nat.
Proof. induction a as [|x a IH]; cbn; [reflexivity|]. unfold list_sum in *. lia. Qed.
Lemma split_nth {A} (l : list A) i x : nth_error l i = Some x -> l = firstn i l ++ x :: skipn (Datatypes.S i) l.
Proof. intros H. apply nth_error_split in H. destruct H as (a & b & -> & <-). rewrite firstn_app, firstn_all, Nat.sub_diag. cbn [firstn]. rewrite app_nil_r. f_equal. f_equal. rewrite skipn_app, skipn_all2 by lia. replace (Datatypes.S (length a) - length a)%nat with 1%nat by lia. reflexivity. Qed.
Section R.
Variables (P : ctx -> Prop) (s0 : list ctx).
(** step by step *)
Definition inv (w : mgr * list thr * list seen) : Prop := let '(m, ts, o) := w in
  exists hs top, open_blocks ts hs /\ m_stack m = top ++ s0 /\ length top = list_sum hs /\ P (m_context m) /\ Forall P top /\ Forall (fun t => P (reg t) /\ Forall (names P) (todo t)) ts /\ Forall (fun x => P (snd x)) o.
Lemma inv_tick i w : P None -> inv w -> inv (tick i w).
Proof.
  intros PN. destruct w as [[m ts] o]. intros (hs & top & HB & HS & HL & HC & HT & HF & HO). unfold tick. destruct (nth_error ts i) as [[[|a r] g]|] eqn:E; try (exists hs, top; auto 10; fail).
  apply split_nth in E. set (t1 := firstn i ts) in *. set (t2 := skipn (Datatypes.S i) ts) in *. clearbody t1 t2. subst ts.
  apply Forall2_app_inv_l in HB. destruct HB as (h1 & h2' & B1 & B2 & ->). inversion B2 as [|x h l h2 Bh B2' E1 E2]; subst. cbn [todo] in Bh. rewrite sum_app in HL. cbn [list_sum fold_right] in HL.
  apply Forall_app in HF. destruct HF as [F1 F2]. apply Forall_cons_iff in F2. destruct F2 as [[Fr Fn] F2]. cbn [reg todo] in Fr, Fn. apply Forall_cons_iff in Fn. destruct Fn as [Fa Fn].
  assert (GO : forall m1 g1 o1 h' top', bal r h' = Some 0%nat -> m_stack m1 = top' ++ s0 -> length top' = (list_sum h1 + (h' + list_sum h2))%nat -> P (m_context m1) -> Forall P top' -> P g1 -> Forall (fun x => P (snd x)) o1 ->
    inv (m1, t1 ++ mkThr r g1 :: t2, o ++ o1)).
  { intros m1 g1 o1 h' top' G1 G2 G3 G4 G5 G6 G7. exists (h1 ++ h' :: h2), top'. split; [apply Forall2_app; [exact B1|constructor; [exact G1|exact B2']]|]. split; [exact G2|]. split; [rewrite sum_app; exact G3|]. split; [exact G4|]. split; [exact G5|].
    split; [apply Forall_app; split; [exact F1|constructor; [split; assumption|exact F2]]|apply Forall_app; auto]. }
  fold (list_sum h2) in HL.
  destruct a as [|c| | | | |c| |[c|]]; cbn [act_do bal names] in *.
  - apply GO with (h' := Datatypes.S h) (top' := m_context m :: top); cbn; auto; [now rewrite HS|lia].
  - apply GO with (h' := h) (top' := top); cbn; auto.
  - apply GO with (h' := h) (top' := top); cbn; auto.
  - destruct h as [|h]; [discriminate Bh|]. destruct top as [|c top]; [cbn in HL; lia|]. rewrite HS. cbn [app]. apply Forall_cons_iff in HT. destruct HT as [HT1 HT2]. apply GO with (h' := h) (top' := top); cbn in *; auto. lia.
  - apply GO with (h' := h) (top' := top); cbn; auto.
  - apply GO with (h' := h) (top' := top); cbn; auto.
  - apply GO with (h' := Datatypes.S h) (top' := m_context m :: top); cbn; auto; [now rewrite HS|lia].
  - destruct h as [|h]; [discriminate Bh|]. destruct top as [|c top]; [cbn in HL; lia|]. apply Forall_cons_iff in HT. destruct HT as [HT1 HT2]. unfold mgr_exit. rewrite HS. cbn [app]. apply GO with (h' := h) (top' := top); cbn in *; auto. lia.
  - destruct h as [|h]; [discriminate Bh|]. apply GO with (h' := Datatypes.S h) (top' := top); cbn; auto.
  - apply GO with (h' := h) (top' := top); cbn; auto.
Qed.
(** with indivisible calls and exits *)
Variable c0 : ctx.
Definition linv (w : mgr * list thr * list seen) : Prop := let '(m, ts, o) := w in
  exists hs top, open_blocks ts hs /\ m_context m :: m_stack m = top ++ c0 :: s0 /\ length top = list_sum hs /\ Forall P top /\ Forall (fun t => Forall (names P) (todo t) /\ Forall (kind true) (todo t)) ts /\
    Forall (fun x => match fst x with Some d => P d /\ P (snd x) | None => True end) o.
Lemma linv_tick i w : linv w -> linv (tick i w).
Proof.
  destruct w as [[m ts] o]. intros (hs & top & HB & HS & HL & HT & HF & HO). unfold tick. destruct (nth_error ts i) as [[[|a r] g]|] eqn:E; try (exists hs, top; auto 10; fail).
  apply split_nth in E. set (t1 := firstn i ts) in *. set (t2 := skipn (Datatypes.S i) ts) in *. clearbody t1 t2. subst ts.
  apply Forall2_app_inv_l in HB. destruct HB as (h1 & h2' & B1 & B2 & ->). inversion B2 as [|x h l h2 Bh B2' E1 E2]; subst. cbn [todo] in Bh. rewrite sum_app in HL. cbn [list_sum fold_right] in HL.
  apply Forall_app in HF. destruct HF as [F1 F2]. apply Forall_cons_iff in F2. destruct F2 as [[Fn Fk] F2]. cbn [reg todo] in Fk, Fn. apply Forall_cons_iff in Fn. destruct Fn as [Fa Fn]. apply Forall_cons_iff in Fk. destruct Fk as [Fb Fk].
  assert (GO : forall m1 g1 o1 h' top', bal r h' = Some 0%nat -> m_context m1 :: m_stack m1 = top' ++ c0 :: s0 -> length top' = (list_sum h1 + (h' + list_sum h2))%nat -> Forall P top' ->
    Forall (fun x => match fst x with Some d => P d /\ P (snd x) | None => True end) o1 -> linv (m1, t1 ++ mkThr r g1 :: t2, o ++ o1)).
  { intros m1 g1 o1 h' top' G1 G2 G3 G5 G7. exists (h1 ++ h' :: h2), top'. split; [apply Forall2_app; [exact B1|constructor; [exact G1|exact B2']]|]. split; [exact G2|]. split; [rewrite sum_app; exact G3|]. split; [exact G5|].
    split; [apply Forall_app; split; [exact F1|constructor; [split; assumption|exact F2]]|apply Forall_app; auto]. }
  fold (list_sum h2) in HL.
  destruct a as [|c| | | | |c| |[c|]]; cbn [act_do bal names kind] in *; try discriminate Fb.
  - apply GO with (h' := Datatypes.S h) (top' := c :: top); cbn; auto; [now rewrite HS|lia].
  - destruct h as [|h]; [discriminate Bh|]. destruct top as [|c top]; [cbn in HL; lia|]. cbn [app] in HS. injection HS as HS1 HS2. apply Forall_cons_iff in HT. destruct HT as [HT1 HT2]. unfold mgr_exit.
    destruct (m_stack m) as [|d s]; [destruct top; discriminate HS2|]. apply GO with (h' := h) (top' := top); cbn in *; auto. lia.
  - destruct h as [|h]; [discriminate Bh|]. destruct top as [|d top]; [cbn in HL; lia|]. cbn [app] in HS. injection HS as HS1 HS2. apply GO with (h' := Datatypes.S h) (top' := d :: top); cbn in *; auto; [congruence|].
    constructor; [|constructor]. cbn. split; [exact Fa|]. rewrite HS1. now inversion HT.
  - apply GO with (h' := h) (top' := top); cbn; auto.
Qed.
End R.
Lemma ticks_inv (I : mgr * list thr * list seen -> Prop) : (forall i w, I w -> I (tick i w)) -> forall l w, I w -> I (ticks l w).
Proof. intros H. induction l as [|i l IH]; intros w Hw; [exact Hw|]. cbn. apply IH. now apply H. Qed.
Lemma start_blocks lock ps : open_blocks (map (thread_of lock) ps) (repeat 0%nat (length ps)).
Proof.
  unfold open_blocks. induction ps as [|p ps IH]; cbn; [constructor|]. constructor; [|exact IH]. destruct (@thread_fine lock (fun _ => True) p (fun _ _ _ _ => I)) as (A & _). apply A. now left.
Qed.
Lemma sum_zero n : list_sum (repeat 0%nat n) = 0%nat.
Proof. induction n; cbn; auto. Qed.
Lemma finished_zero ts hs : open_blocks ts hs -> (forall t, In t ts -> todo t = []) -> list_sum hs = 0%nat.
Proof.
  intros B. induction B as [|t h ts hs H B IH]; intros F; [reflexivity|]. cbn [list_sum fold_right]. fold (list_sum hs). rewrite IH by (intros; apply F; now right). rewrite (F t (or_introl eq_refl)) in H. cbn in H. injection H as ->. reflexivity.
Qed.
Lemma all_steps lock ps m schedule : let '(m', ts, o) := ticks schedule (at_start lock ps m) in
  let P c := c = None \/ c = m_context m \/ blocks_of c ps in
  (exists top, m_stack m' = top ++ m_stack m) /\ P (m_context m') /\ Forall (fun x => P (snd x)) o /\ (finished (m', ts, o) -> m_stack m' = m_stack m).
Proof.
  set (P := fun c => c = None \/ c = m_context m \/ blocks_of c ps).
  assert (I0 : inv P (m_stack m) (at_start lock ps m)).
  { unfold at_start. exists (repeat 0%nat (length ps)), []. split; [apply start_blocks|]. split; [reflexivity|]. split; [now rewrite sum_zero|]. split; [unfold P; auto|]. split; [constructor|]. split; [|constructor].
    apply Forall_forall. intros t Ht. apply in_map_iff in Ht. destruct Ht as (p & <- & Hp). split; [unfold P; now left|]. apply (@thread_fine lock P p). intros x c Hx Hb. unfold P. right. right. exists p, x. auto. }
  apply (@ticks_inv (inv P (m_stack m)) (fun i w => @inv_tick P (m_stack m) i w (or_introl eq_refl)) schedule) in I0. destruct (ticks schedule (at_start lock ps m)) as [[m' ts] o]. cbv zeta.
  destruct I0 as (hs & top & HB & HS & HL & HC & HT & HF & HO). split; [eauto|]. split; [exact HC|]. split; [exact HO|]. intros F. rewrite (finished_zero HB F) in HL. destruct top; [exact HS|discriminate HL].
Qed.
Lemma locked_steps ps m schedule (P : ctx -> Prop) : (forall c, blocks_of c ps -> P c) -> let '(m', ts, o) := ticks schedule (at_start true ps m) in
  (finished (m', ts, o) -> m_stack m' = m_stack m /\ m_context m' = m_context m) /\ (forall d c, In (Some d, c) o -> P d /\ P c).
Proof.
  intros HP. assert (I0 : linv P (m_stack m) (m_context m) (at_start true ps m)).
  { unfold at_start. exists (repeat 0%nat (length ps)), []. split; [apply start_blocks|]. split; [reflexivity|]. split; [now rewrite sum_zero|]. split; [constructor|]. split; [|constructor].
    apply Forall_forall. intros t Ht. apply in_map_iff in Ht. destruct Ht as (p & <- & Hp). destruct (@thread_fine true P p) as (_ & A & B); [|auto]. intros x c Hx Hb. apply HP. exists p, x. auto. }
  apply (@ticks_inv (linv P (m_stack m) (m_context m)) (fun i w => @linv_tick P (m_stack m) (m_context m) i w) schedule) in I0. destruct (ticks schedule (at_start true ps m)) as [[m' ts] o].
  destruct I0 as (hs & top & HB & HS & HL & HT & HF & HO). split.
  - intros F. rewrite (finished_zero HB F) in HL. destruct top; [|discriminate HL]. cbn in HS. injection HS as A B. auto.
  - intros d c H. rewrite Forall_forall in HO. exact (HO _ H).
Qed.
(** one thread alone does what the program does *)
Fixpoint exec (l : list act) (m : mgr) (g : ctx) : mgr * ctx * list seen :=
  match l with [] => (m, g, []) | a :: r => let '(m1, g1, o1) := act_do a m g in let '(m2, g2, o2) := exec r m1 g1 in (m2, g2, o1 ++ o2) end.
Lemma exec_app l r m g : exec (l ++ r) m g = let '(m1, g1, o1) := exec l m g in let '(m2, g2, o2) := exec r m1 g1 in (m2, g2, o1 ++ o2).
Proof.
  revert m g. induction l as [|a l IH]; intros m g; cbn [exec app]; [destruct (exec r m g) as [[m2 g2] o2]; reflexivity|]. destruct (act_do a m g) as [[m1 g1] o1]. rewrite IH.
  destruct (exec l m1 g1) as [[m2 g2] o2]. destruct (exec r m2 g2) as [[m3 g3] o3]. now rewrite app_assoc.
Qed.
Lemma tick_alone l : forall m g o, ticks (repeat 0%nat (length l)) (m, [mkThr l g], o) = let '(m1, g1, o1) := exec l m g in (m1, [mkThr [] g1], o ++ o1).
Proof.
  induction l as [|a l IH]; intros m g o; cbn [length repeat exec]; [unfold ticks; cbn; now rewrite app_nil_r|]. unfold ticks in *. cbn [fold_left]. unfold tick at 2. cbn [nth_error firstn skipn app].
  destruct (act_do a m g) as [[m1 g1] o1]. rewrite IH. destruct (exec l m1 g1) as [[m2 g2] o2]. now rewrite app_assoc.
Qed.
Definition runs_as (l : list act * bool) (f : mgr -> wout) : Prop := forall m g, exists g1 o1 e, exec (fst l) m g = (fst (fst (f m)), g1, o1) /\ f m = (fst (fst (f m)), map snd o1, e) /\ snd l = (match e with Some _ => true | None => false end).
Lemma seq_runs lock i p : Forall (fun x => runs_as (c_stmt lock i x) (w_stmt x)) p -> runs_as (c_seq (c_stmt lock i) p) (w_seq w_stmt p).
Proof.
  intros F. induction F as [|x p H F IH]; intros m g; cbn [c_seq w_seq].
  - exists g, [], None. auto.
  - destruct (H m g) as (g1 & o1 & e & A & B & C). destruct (c_stmt lock i x) as [l fl]. cbn [fst snd] in *. destruct (w_stmt x m) as [[m1 sn] e']. cbn [fst] in *. injection B as -> ->. subst fl. destruct e as [e|].
    + exists g1, o1, (Some e). auto.
    + destruct (IH m1 g1) as (g2 & o2 & e2 & A2 & B2 & C2). destruct (c_seq (c_stmt lock i) p) as [l2 f2]. cbn [fst snd] in *. destruct (w_seq w_stmt p m1) as [[m2 sn2] e2']. cbn [fst] in *. injection B2 as -> ->. subst f2.
      exists g2, (o1 ++ o2), e2. rewrite exec_app, A, A2, map_app. auto.
Qed.
Lemma stmt_runs lock x : forall i, runs_as (c_stmt lock i x) (w_stmt x).
Proof.
  induction x as [|e|c b IH|b IH] using wstmt_ind2; intros i m g; cbn [c_stmt w_stmt].
  - exists g, [(i, m_context m)], None. auto.
  - exists g, [], (Some e). auto.
  - assert (S : runs_as (c_seq (c_stmt lock (Some c)) b) (w_seq w_stmt b)). { apply seq_runs. apply Forall_forall. intros x Hx. rewrite Forall_forall in IH. now apply IH. }
    destruct (S (mgr_enter (mgr_call c m)) g) as (g1 & o1 & e & A & B & C). destruct (c_seq (c_stmt lock (Some c)) b) as [l fl]. cbn [fst snd] in *. destruct (w_seq w_stmt b (mgr_enter (mgr_call c m))) as [[m1 sn] e']. cbn [fst] in *. injection B as -> ->. subst fl.
    assert (X : exec (entering lock c) m g = (mgr_enter (mgr_call c m), g, [])) by (destruct lock; reflexivity).
    assert (Y : exists g2, exec (leaving lock) m1 g1 = (mgr_exit m1, g2, [])). { destruct lock; [exists g1; reflexivity|]. unfold leaving, mgr_exit. cbn. destruct m1 as [[|d s] k act]; cbn; eexists; reflexivity. }
    destruct Y as [g2 Y]. exists g2, o1, e. cbn [fst snd]. rewrite exec_app, X. rewrite exec_app, A, Y. cbn [app]. rewrite app_nil_r. auto.
  - assert (S : runs_as (c_seq (c_stmt lock i) b) (w_seq w_stmt b)). { apply seq_runs. apply Forall_forall. intros x Hx. rewrite Forall_forall in IH. now apply IH. }
    destruct (S m g) as (g1 & o1 & e & A & B & C). destruct (c_seq (c_stmt lock i) b) as [l fl]. cbn [fst snd] in *. destruct (w_seq w_stmt b m) as [[m1 sn] e']. cbn [fst] in *. injection B as -> ->.
    exists g1, o1, None. auto.
Qed.
Lemma alone lock p m : exists n o g, ticks (repeat 0%nat n) (at_start lock [p] m) = (fst (fst (w_run p m)), [mkThr [] g], o) /\ map snd o = snd (fst (w_run p m)).
Proof.
  unfold at_start. cbn [map]. unfold thread_of. set (l := c_seq (c_stmt lock None) p). pose proof (@seq_runs lock None p) as S. fold l in S. assert (F : Forall (fun x => runs_as (c_stmt lock None x) (w_stmt x)) p) by (apply Forall_forall; intros x _; apply stmt_runs).
  destruct (S F m None) as (g & o & e & A & B & C). exists (length (fst l)), o, g. rewrite tick_alone, A. cbn [app]. unfold w_run. rewrite B. auto.
Qed.
