(** Facts about an object's context manager used by several threads. *)
From Coq Require Import String Lia.
From Verif Require Import Base Context CtxThreads.
Open Scope list_scope.

(** ** Specification *)
(** the contexts of the blocks of a program *)
Inductive block_ctx : list blk -> ctx -> Prop :=
| bc_here c body p : block_ctx (Block c body :: p) c
| bc_in c d body p : block_ctx body c -> block_ctx (Block d body :: p) c
| bc_later c b p : block_ctx p c -> block_ctx (b :: p) c.
(** all the threads have made all their steps *)
Definition finished (st : cstate) : Prop := forall t, In t (cs_threads st) -> c_code t = [].
(** what a thread is supposed to see: the context of the innermost block of its own, or the object's *)
Definition scoped_ctx (c0 : ctx) (own : option ctx) : ctx := match own with Some c => c | None => c0 end.
(** the looks of a program in order, each with the context of the innermost block around it *)
Fixpoint looks1 (own : option ctx) (b : blk) : list (option ctx) := match b with Look => [own] | Block c body => flat_map (looks1 (Some c)) body end.
Definition looks (p : list blk) : list (option ctx) := flat_map (looks1 None) p.

Lemma nth_put_same {A} i (x : A) l t : nth_error l i = Some t -> nth_error (put_nth i x l) i = Some x.
Proof. revert i. induction l as [|y l IH]; intros [|i] E; simpl in *; try discriminate; auto. Qed.
Lemma in_put {A} i (x y : A) l : In y (put_nth i x l) -> y = x \/ In y l.
Proof. revert i. induction l as [|z l IH]; intros [|i] I; simpl in *; auto; destruct I as [<-|I]; auto. destruct (IH i I); auto. Qed.

Fixpoint blk_ind2 (P : blk -> Prop) (h1 : P Look) (h2 : forall c b, Forall P b -> P (Block c b)) (x : blk) : P x :=
  let fix go (l : list blk) : Forall P l := match l with [] => Forall_nil P | y :: l' => Forall_cons y (blk_ind2 P h1 h2 y) (go l') end in
  match x with Look => h1 | Block c b => h2 c b (go b) end.

(** ** The number of open blocks, from the steps that are left *)
Inductive wf : nat -> list instr -> Prop :=
| wf_nil : wf 0 []
| wf_look k o l : wf k l -> wf k (ILook o :: l)
| wf_load k l : wf k l -> wf k (ILoad :: l)
| wf_set k c l : wf k l -> wf k (ISet c :: l)
| wf_assign k l : wf k l -> wf k (IAssign :: l)
| wf_append k l : wf (S k) l -> wf k (IAppend :: l)
| wf_enter k c l : wf (S k) l -> wf k (IEnter c :: l)
| wf_pop k l : wf k l -> wf (S k) (IPop :: l)
| wf_leave k l : wf k l -> wf (S k) (ILeave :: l).
Lemma code1_wf fine b : forall own k l, wf k l -> wf k (code1 fine own b ++ l).
Proof.
  induction b as [|c body IH] using blk_ind2; intros own k l W; cbn [code1]; [now constructor|].
  assert (B : forall k l, wf k l -> wf k (code_of (code1 fine (Some c)) body ++ l)).
  { clear W k l. induction IH as [|x body Hx _ IHb]; intros k l W; cbn; [exact W|]. rewrite <- app_assoc. apply Hx, IHb, W. }
  rewrite <- !app_assoc. destruct fine; cbn [app].
  - do 3 constructor. apply B. cbn. now do 2 constructor.
  - constructor. apply B. cbn. now constructor.
Qed.
Lemma code_wf fine p : wf 0 (code fine p).
Proof.
  unfold code. assert (X : forall own k l, wf k l -> wf k (code_of (code1 fine own) p ++ l)).
  { induction p as [|b p IH]; intros own k l W; cbn; [exact W|]. rewrite <- app_assoc. now apply code1_wf, IH. }
  specialize (X None 0 [] wf_nil). now rewrite app_nil_r in X.
Qed.

(** ** Invariants *)
(** [shape st ks]: [ks] gives the number of open blocks of every thread *)
Definition shape (st : cstate) (ks : list nat) : Prop := Forall2 (fun k t => wf k (c_code t)) ks (cs_threads st).
Lemma forall2_nth {A B} (R : A -> B -> Prop) ks ts i t : Forall2 R ks ts -> nth_error ts i = Some t -> exists k, nth_error ks i = Some k /\ R k t.
Proof.
  intro F. revert i. induction F as [|k t' ks ts H F IH]; intros [|i] E; simpl in *; try discriminate; [injection E as <-; eauto|]. now apply IH.
Qed.
Lemma forall2_put {A B} (R : A -> B -> Prop) ks ts i k' t' : Forall2 R ks ts -> R k' t' -> Forall2 R (put_nth i k' ks) (put_nth i t' ts).
Proof. intros F K. revert i. induction F as [|k t ks ts H F IH]; intros [|i]; simpl; constructor; auto. Qed.
Lemma sum_put i k k' ks : nth_error ks i = Some k -> list_sum (put_nth i k' ks) + k = list_sum ks + k'.
Proof. revert i. induction ks as [|y ks IH]; intros [|i] E; simpl in *; try discriminate; [injection E as ->; lia|]. specialize (IH i E). lia. Qed.

(** What a step does to the manager, given the number of open blocks. [P]: a property of contexts. *)
Definition sound_instr (P : ctx -> Prop) (i : instr) : Prop := match i with ISet c | IEnter c => P c | _ => True end.
Definition inv (P : ctx -> Prop) (s0 : list ctx) (st : cstate) : Prop :=
  exists ks extra, shape st ks /\ cs_stack st = extra ++ s0 /\ List.length extra = list_sum ks /\ Forall P extra /\ P (cs_context st) /\
    Forall (fun t => P (c_reg t) /\ Forall (sound_instr P) (c_code t) /\ Forall (fun x => P (snd x)) (c_seen t)) (cs_threads st).
Lemma forall_put {A} (P : A -> Prop) i x l : Forall P l -> P x -> Forall P (put_nth i x l).
Proof. intros F K. revert i. induction F as [|y l H F IH]; intros [|i]; simpl; constructor; auto. Qed.
Lemma cs_step_none st i : nth_error (cs_threads st) i = None -> cs_step st i = st.
Proof. intro E. unfold cs_step. now rewrite E. Qed.
Lemma inv_step P s0 st i : inv P s0 st -> inv P s0 (cs_step st i).
Proof.
  intros (ks & extra & Sh & St & Le & Fe & Pc & Ft). unfold cs_step. destruct (nth_error (cs_threads st) i) as [t|] eqn:E; [|exists ks, extra; auto 7].
  destruct (forall2_nth _ _ _ _ _ Sh E) as (k & Ek & W). assert (Ht := Ft). rewrite Forall_forall in Ht. destruct (Ht t (nth_error_In _ _ E)) as (Pr & Fc & Fs). clear Ht.
  unfold c_step. destruct (c_code t) as [|x rest] eqn:C.
  { exists (put_nth i k ks), extra. cbn. split; [unfold shape; cbn; apply forall2_put; [exact Sh|rewrite C; exact W]|]. split; [exact St|].
    split; [assert (X := sum_put i k k ks Ek); lia|]. split; [exact Fe|]. split; [exact Pc|]. apply forall_put; [exact Ft|]. rewrite C. auto. }
  inversion Fc as [|? ? Fx Fr]; subst.
  assert (Keep : forall k' t' extra' c', wf k' (c_code t') -> P (c_reg t') -> Forall (sound_instr P) (c_code t') -> Forall (fun x => P (snd x)) (c_seen t') ->
      List.length extra' + k = List.length extra + k' -> Forall P extra' -> P c' -> inv P s0 (mkCs (extra' ++ s0) c' (put_nth i t' (cs_threads st)))).
  { intros k' t' extra' c' W' R' C' S' L' E' P'. exists (put_nth i k' ks), extra'. cbn. split; [unfold shape; cbn; now apply forall2_put|]. split; [reflexivity|].
    split; [assert (X := sum_put i k k' ks Ek); lia|]. split; [exact E'|]. split; [exact P'|]. apply forall_put; auto. }
  rewrite St. inversion W as [|k1 o l W1|k1 l W1|k1 c l W1|k1 l W1|k1 l W1|k1 c l W1|k1 l W1|k1 l W1]; subst.
  - apply (Keep k); cbn; auto.
  - apply (Keep k); cbn; auto.
  - apply (Keep k); cbn; auto.
  - apply (Keep k); cbn; auto.
  - apply (Keep (S k) (mkC (c_reg t) rest (c_seen t)) (c_reg t :: extra)); cbn; auto; lia.
  - apply (Keep (S k) (mkC (c_reg t) rest (c_seen t)) (cs_context st :: extra)); cbn; auto; lia.
  - destruct extra as [|e extra].
    { exfalso. cbn in Le. assert (X := sum_put i (S k1) 0 ks Ek). lia. }
    inversion Fe; subst. apply (Keep k1 (mkC e rest (c_seen t)) extra); cbn; auto; lia.
  - destruct extra as [|e extra].
    { exfalso. cbn in Le. assert (X := sum_put i (S k1) 0 ks Ek). lia. }
    inversion Fe; subst. apply (Keep k1 (mkC (c_reg t) rest (c_seen t)) extra); cbn; auto; lia.
Qed.
Lemma cs_run_ind (P : cstate -> Prop) : (forall st i, P st -> P (cs_step st i)) -> forall sched st, P st -> P (cs_run sched st).
Proof. intros K sched. induction sched as [|i sched IH]; intros st Z; [exact Z|]. cbn. apply IH, K, Z. Qed.
Lemma code1_sound (P : ctx -> Prop) fine b : (forall c, block_ctx [b] c -> P c) -> forall own, Forall (sound_instr P) (code1 fine own b).
Proof.
  induction b as [|c body IH] using blk_ind2; intros K own; cbn [code1]; [repeat constructor|].
  assert (B : Forall (sound_instr P) (code_of (code1 fine (Some c)) body)).
  { assert (K' : forall d, block_ctx body d -> P d) by (intros d D; apply K; now constructor). clear K. induction IH as [|x body Hx _ IHb]; cbn; [constructor|].
    apply Forall_app. split; [apply Hx; intros d D; apply K'; inversion D as [| |? ? ? Z]; subst; [constructor|now constructor|inversion Z]|apply IHb; intros d D; apply K'; now constructor]. }
  assert (Pc : P c) by (apply K; constructor). apply Forall_app. split; [destruct fine; repeat constructor; exact Pc|]. apply Forall_app. split; [exact B|destruct fine; repeat constructor].
Qed.
Lemma code_sound (P : ctx -> Prop) fine p : (forall c, block_ctx p c -> P c) -> Forall (sound_instr P) (code fine p).
Proof.
  unfold code. generalize (@None ctx). intros own K. induction p as [|b p IH]; cbn; [constructor|]. apply Forall_app.
  split; [apply code1_sound; intros c C; apply K; inversion C as [| |? ? ? Z]; subst; [constructor|now constructor|inversion Z]|apply IH; intros c C; apply K; now constructor].
Qed.
Lemma start_inv (P : ctx -> Prop) fine s0 c0 progs : P c0 -> (forall p c, In p progs -> block_ctx p c -> P c) -> inv P s0 (cs_start fine s0 c0 progs).
Proof.
  intros P0 K. exists (map (fun _ => 0) progs), []. split; [unfold shape; cbn; induction progs as [|p progs IH]; cbn; constructor; [apply code_wf|apply IH; intros q c I; apply K; now right]|].
  split; [reflexivity|]. split; [cbn; clear K; induction progs; auto|]. split; [constructor|]. split; [exact P0|]. cbn. apply Forall_forall. intros t I. apply in_map_iff in I.
  destruct I as (p & <- & I). cbn. split; [exact P0|]. split; [apply code_sound; intros c; now apply K|constructor].
Qed.
Lemma finished_sum st ks : shape st ks -> finished st -> list_sum ks = 0.
Proof.
  unfold shape, finished. generalize (cs_threads st). intros ts Sh. induction Sh as [|k t ks ts W Sh IH]; intro F; [reflexivity|]. change (list_sum (k :: ks)) with (k + list_sum ks). rewrite IH by (intros x I; apply F; now right).
  rewrite (F t (or_introl eq_refl)) in W. inversion W. reflexivity.
Qed.
(** the stack is as it was, and every context seen or left is the object's or that of a block *)
Lemma C120_stack_lemma fine s0 c0 progs sched : let st := cs_run sched (cs_start fine s0 c0 progs) in
  let known c := c = c0 \/ exists p, In p progs /\ block_ctx p c in
  known (cs_context st) /\ (forall t o c, In t (cs_threads st) -> In (o, c) (c_seen t) -> known c) /\ (finished st -> cs_stack st = s0) /\ exists extra, cs_stack st = extra ++ s0.
Proof.
  intros st known. assert (I : inv known s0 st).
  { apply cs_run_ind; [intros; now apply inv_step|]. apply start_inv; [now left|]. intros p c Ip B. right. eauto. }
  destruct I as (ks & extra & Sh & St & Le & Fe & Pc & Ft). split; [exact Pc|]. split.
  - intros t o c It Ic. rewrite Forall_forall in Ft. destruct (Ft t It) as (_ & _ & Fs). rewrite Forall_forall in Fs. exact (Fs (o, c) Ic).
  - split; [|eauto]. intro F. rewrite (finished_sum st ks Sh F) in Le. destruct extra; [exact St|discriminate].
Qed.

(** ** Without interruption inside [__call__] and [__exit__] *)
Definition coarse_instr (i : instr) : Prop := match i with ILook _ | IEnter _ | ILeave => True | _ => False end.
Definition whole (s0 : list ctx) (c0 : ctx) (st : cstate) : Prop :=
  exists ks extra, shape st ks /\ List.length extra = list_sum ks /\ Forall (fun t => Forall coarse_instr (c_code t)) (cs_threads st) /\
    match extra with [] => cs_stack st = s0 /\ cs_context st = c0 | _ => cs_stack st = extra ++ s0 /\ exists x, extra = x ++ [c0] end.
Lemma whole_step s0 c0 st i : whole s0 c0 st -> whole s0 c0 (cs_step st i).
Proof.
  intros (ks & extra & Sh & Le & Fc & M). unfold cs_step. destruct (nth_error (cs_threads st) i) as [t|] eqn:E; [|exists ks, extra; auto].
  destruct (forall2_nth _ _ _ _ _ Sh E) as (k & Ek & W). assert (Ct := Fc). rewrite Forall_forall in Ct. specialize (Ct t (nth_error_In _ _ E)). cbv beta in Ct.
  unfold c_step. destruct (c_code t) as [|x rest] eqn:C.
  { exists (put_nth i k ks), extra. cbn. split; [unfold shape; cbn; apply forall2_put; [exact Sh|rewrite C; exact W]|].
    split; [assert (X := sum_put i k k ks Ek); lia|]. split; [apply forall_put; [exact Fc|rewrite C; exact Ct]|exact M]. }
  inversion Ct as [|? ? Cx Cr]; subst.
  assert (Keep : forall k' t' extra' st', wf k' (c_code t') -> Forall coarse_instr (c_code t') -> List.length extra' + k = List.length extra + k' ->
      cs_threads st' = put_nth i t' (cs_threads st) -> match extra' with [] => cs_stack st' = s0 /\ cs_context st' = c0 | _ => cs_stack st' = extra' ++ s0 /\ exists x, extra' = x ++ [c0] end -> whole s0 c0 st').
  { intros k' t' extra' st' W' C' L' T' M'. exists (put_nth i k' ks), extra'. split; [unfold shape; rewrite T'; now apply forall2_put|].
    split; [assert (X := sum_put i k k' ks Ek); lia|]. split; [rewrite T'; now apply forall_put|exact M']. }
  destruct x as [o| | |c| | |c|]; try contradiction; inversion W as [|k1 o' l W1| | | | |k1 c' l W1| |k1 l W1]; subst.
  - apply (Keep k (mkC (c_reg t) rest ((o, cs_context st) :: c_seen t)) extra); cbn; auto.
  - apply (Keep (S k) (mkC (c_reg t) rest (c_seen t)) (cs_context st :: extra)); cbn [c_code c_reg c_seen cs_threads cs_stack cs_context List.length]; [assumption|assumption|lia|reflexivity|]. destruct extra as [|e extra].
    + destruct M as [-> ->]. split; [reflexivity|]. exists []. reflexivity.
    + destruct M as [-> [x M]]. split; [reflexivity|]. exists (cs_context st :: x). now rewrite M.
  - destruct extra as [|e extra]; [exfalso; cbn in Le; assert (X := sum_put i (S k1) 0 ks Ek); lia|]. destruct M as [Ms [x M]].
    apply (Keep k1 (mkC (c_reg t) rest (c_seen t)) extra); cbn [c_code c_reg c_seen cs_threads cs_stack cs_context List.length]; [assumption|assumption|cbn; lia|reflexivity|]. rewrite Ms. cbn [app]. destruct x as [|y x]; injection M as -> ->; [auto|].
    destruct (x ++ [c0]) as [|z w] eqn:X; [destruct x; discriminate|]. split; [reflexivity|]. exists x. now rewrite X.
Qed.
Lemma code1_coarse b : forall own, Forall coarse_instr (code1 false own b).
Proof.
  induction b as [|c body IH] using blk_ind2; intro own; cbn; [repeat constructor|]. constructor; [exact I|]. apply Forall_app. split; [|repeat constructor].
  induction IH as [|x body Hx _ IHb]; cbn; [constructor|]. apply Forall_app. auto.
Qed.
Lemma code_coarse p : Forall coarse_instr (code false p).
Proof. unfold code. induction p as [|b p IH]; cbn; [constructor|]. apply Forall_app. split; [apply code1_coarse|exact IH]. Qed.
Lemma whole_start s0 c0 progs : whole s0 c0 (cs_start false s0 c0 progs).
Proof.
  exists (map (fun _ => 0) progs), []. split; [unfold shape; cbn; induction progs as [|p progs IH]; cbn; constructor; [apply code_wf|exact IH]|].
  split; [cbn; induction progs; auto|]. split; [|auto]. cbn. apply Forall_forall. intros t It. apply in_map_iff in It. destruct It as (p & <- & _). apply code_coarse.
Qed.
Lemma C120_restored_lemma s0 c0 progs sched : let st := cs_run sched (cs_start false s0 c0 progs) in finished st -> cs_context st = c0 /\ cs_stack st = s0.
Proof.
  intros st F. assert (W : whole s0 c0 st) by (apply cs_run_ind; [intros; now apply whole_step|apply whole_start]).
  destruct W as (ks & extra & Sh & Le & _ & M). rewrite (finished_sum st ks Sh F) in Le. destruct extra; [tauto|discriminate].
Qed.

(** ... and all blocks with the same context [c] *)
(** the marks of the steps fit the blocks that are open *)
Inductive marked (c : ctx) : nat -> list instr -> Prop :=
| mk_nil : marked c 0 []
| mk_look k o l : (forall d, o = Some d -> d = c /\ k > 0) -> marked c k l -> marked c k (ILook o :: l)
| mk_enter k l : marked c (S k) l -> marked c k (IEnter c :: l)
| mk_leave k l : marked c k l -> marked c (S k) (ILeave :: l).
Lemma code1_marked c b : (forall d, block_ctx [b] d -> d = c) -> forall own k l, (forall d, own = Some d -> d = c /\ k > 0) -> marked c k l -> marked c k (code1 false own b ++ l).
Proof.
  induction b as [|d body IH] using blk_ind2; intros K own k l O M; cbn [code1]; [cbn; now constructor|].
  assert (d = c) as -> by (apply K; constructor).
  assert (B : forall k l, k > 0 -> marked c k l -> marked c k (code_of (code1 false (Some c)) body ++ l)).
  { assert (K' : forall d, block_ctx body d -> d = c) by (intros e D; apply K; now constructor). clear K O M k l. induction IH as [|x body Hx _ IHb]; intros k l Pk M; cbn; [exact M|]. rewrite <- app_assoc.
    apply Hx; [|intros e [= <-]; auto|apply IHb; auto].
    - intros e D. apply K'. inversion D as [| |? ? ? Z]; subst; [constructor|now constructor|inversion Z].
    - intros e D. apply K'. now constructor. }
  cbn. constructor. rewrite <- app_assoc. apply B; [lia|]. cbn. now constructor.
Qed.
Lemma code_marked c p : (forall d, block_ctx p d -> d = c) -> marked c 0 (code false p).
Proof.
  intro K. unfold code. assert (X : forall l, marked c 0 l -> marked c 0 (code_of (code1 false None) p ++ l)).
  { induction p as [|b p IH]; intros l M; cbn; [exact M|]. rewrite <- app_assoc. apply code1_marked; [|discriminate|apply IH; [intros d D; apply K; now constructor|exact M]].
    intros e D. apply K. inversion D as [| |? ? ? Z]; subst; [constructor|now constructor|inversion Z]. }
  specialize (X [] (mk_nil c)). now rewrite app_nil_r in X.
Qed.
Definition same_ctx (c c0 : ctx) (s0 : list ctx) (st : cstate) : Prop :=
  exists ks, Forall2 (fun k t => marked c k (c_code t)) ks (cs_threads st) /\
    match list_sum ks with O => cs_stack st = s0 /\ cs_context st = c0 | S n => cs_stack st = repeat c n ++ c0 :: s0 /\ cs_context st = c end /\
    Forall (fun t => forall o x, In (o, x) (c_seen t) -> match o with Some d => x = d | None => x = c0 \/ x = c end) (cs_threads st).
Lemma same_ctx_step c c0 s0 st i : same_ctx c c0 s0 st -> same_ctx c c0 s0 (cs_step st i).
Proof.
  intros (ks & Sh & M & V). unfold cs_step. destruct (nth_error (cs_threads st) i) as [t|] eqn:E; [|exists ks; auto].
  destruct (forall2_nth _ _ _ _ _ Sh E) as (k & Ek & W). assert (Vt := V). rewrite Forall_forall in Vt. specialize (Vt t (nth_error_In _ _ E)). cbv beta in Vt.
  unfold c_step. destruct (c_code t) as [|x rest] eqn:C.
  { exists (put_nth i k ks). assert (X := sum_put i k k ks Ek). replace (list_sum (put_nth i k ks)) with (list_sum ks) by lia. cbn.
    split; [apply forall2_put; [exact Sh|rewrite C; exact W]|]. split; [exact M|now apply forall_put]. }
  assert (Pos : k > 0 -> exists n, list_sum ks = Datatypes.S n).
  { intro P. assert (X := sum_put i k 0 ks Ek). destruct (list_sum ks); [lia|eauto]. }
  inversion W as [|k1 o l O W1|k1 l W1|k1 l W1]; subst.
  - exists (put_nth i k ks). assert (X := sum_put i k k ks Ek). replace (list_sum (put_nth i k ks)) with (list_sum ks) by lia. cbn.
    split; [now apply forall2_put|]. split; [exact M|]. apply forall_put; [exact V|]. cbn. intros o' y [Z|Z]; [|now apply Vt]. injection Z as <- <-.
    destruct o as [d|].
    + destruct (O d eq_refl) as [-> P]. destruct (Pos P) as [n N]. rewrite N in M. tauto.
    + destruct (list_sum ks); [left|right]; tauto.
  - exists (put_nth i (Datatypes.S k) ks). assert (X := sum_put i k (Datatypes.S k) ks Ek). replace (list_sum (put_nth i (Datatypes.S k) ks)) with (Datatypes.S (list_sum ks)) by lia. cbn.
    split; [now apply forall2_put|]. split; [|now apply forall_put]. destruct (list_sum ks) as [|n]; [destruct M as [-> ->]; auto|destruct M as [-> ->]; auto].
  - exists (put_nth i k1 ks). assert (X := sum_put i (Datatypes.S k1) k1 ks Ek). destruct (Pos ltac:(lia)) as [n N]. rewrite N in M, X. replace (list_sum (put_nth i k1 ks)) with n by lia. cbn.
    split; [now apply forall2_put|]. split; [|now apply forall_put]. destruct M as [-> _]. destruct n as [|n]; cbn; auto.
Qed.
Lemma C120_same_lemma c c0 s0 progs sched : (forall p d, In p progs -> block_ctx p d -> d = c) ->
  forall t o x, In t (cs_threads (cs_run sched (cs_start false s0 c0 progs))) -> In (o, x) (c_seen t) -> match o with Some d => x = d | None => x = c0 \/ x = c end.
Proof.
  intro K. assert (I : same_ctx c c0 s0 (cs_run sched (cs_start false s0 c0 progs))).
  { apply cs_run_ind; [intros; now apply same_ctx_step|]. exists (map (fun _ => 0) progs).
    assert (Z : list_sum (map (fun _ : list blk => 0) progs) = 0) by (clear K; induction progs; auto). rewrite Z. cbn. split; [|split; [auto|]].
    - clear Z. induction progs as [|p progs IH]; cbn; constructor; [apply code_marked; intros d; apply K; now left|apply IH; intros q d I; apply K; now right].
    - apply Forall_forall. intros t I. apply in_map_iff in I. destruct I as (p & <- & _). intros o x []. }
  destruct I as (ks & _ & _ & V). rewrite Forall_forall in V. intros t o x It. exact (V t It o x).
Qed.

(** ** One thread *)
(** the steps that are left, when one thread makes them from register [r], context [cur] and stack [stk], see what they should and end with [c0], [s0] *)
Inductive lex (c0 : ctx) (s0 : list ctx) : ctx -> ctx -> list ctx -> list instr -> Prop :=
| lx_nil r : lex c0 s0 r c0 s0 []
| lx_look r stk o l : lex c0 s0 r (scoped_ctx c0 o) stk l -> lex c0 s0 r (scoped_ctx c0 o) stk (ILook o :: l)
| lx_load r cur stk l : lex c0 s0 cur cur stk l -> lex c0 s0 r cur stk (ILoad :: l)
| lx_append r cur stk l : lex c0 s0 r cur (r :: stk) l -> lex c0 s0 r cur stk (IAppend :: l)
| lx_set r cur stk c l : lex c0 s0 r c stk l -> lex c0 s0 r cur stk (ISet c :: l)
| lx_pop r cur stk x l : lex c0 s0 x cur stk l -> lex c0 s0 r cur (x :: stk) (IPop :: l)
| lx_assign r cur stk l : lex c0 s0 r r stk l -> lex c0 s0 r cur stk (IAssign :: l)
| lx_enter r cur stk c l : lex c0 s0 r c (cur :: stk) l -> lex c0 s0 r cur stk (IEnter c :: l)
| lx_leave r cur stk x l : lex c0 s0 r x stk l -> lex c0 s0 r cur (x :: stk) (ILeave :: l).
Lemma code1_lex c0 s0 fine b : forall own r stk l, (forall r', lex c0 s0 r' (scoped_ctx c0 own) stk l) -> lex c0 s0 r (scoped_ctx c0 own) stk (code1 fine own b ++ l).
Proof.
  induction b as [|c body IH] using blk_ind2; intros own r stk l L; cbn [code1]; [cbn; now constructor|].
  assert (B : forall r stk l, (forall r', lex c0 s0 r' c stk l) -> lex c0 s0 r c stk (code_of (code1 fine (Some c)) body ++ l)).
  { clear L r stk l. induction IH as [|x body Hx _ IHb]; intros r stk l L; cbn; [apply L|]. rewrite <- app_assoc. apply (Hx (Some c)). intro r'. now apply IHb. }
  rewrite <- !app_assoc. destruct fine; cbn [app].
  - do 3 constructor. apply B. intro r'. cbn. do 2 constructor. apply L.
  - constructor. apply B. intro r'. cbn. constructor. apply L.
Qed.
Lemma code_lex c0 s0 fine p r : lex c0 s0 r c0 s0 (code fine p).
Proof.
  unfold code. assert (X : forall r l, (forall r', lex c0 s0 r' c0 s0 l) -> lex c0 s0 r c0 s0 (code_of (code1 fine None) p ++ l)).
  { induction p as [|b p IH]; intros q l L; cbn; [apply L|]. rewrite <- app_assoc. apply (code1_lex c0 s0 fine b None). intro r'. now apply IH. }
  specialize (X r [] (lx_nil c0 s0)). now rewrite app_nil_r in X.
Qed.
Definition alone (c0 : ctx) (s0 : list ctx) (st : cstate) : Prop :=
  exists t, cs_threads st = [t] /\ lex c0 s0 (c_reg t) (cs_context st) (cs_stack st) (c_code t) /\ forall o x, In (o, x) (c_seen t) -> x = scoped_ctx c0 o.
Lemma alone_step c0 s0 st i : alone c0 s0 st -> alone c0 s0 (cs_step st i).
Proof.
  intros (t & T & L & V). unfold cs_step. rewrite T. destruct i as [|i]; cbn [nth_error]; [|destruct i; exists t; auto].
  destruct t as [r cd seen]. cbn in L, V. unfold c_step. cbn [c_code c_reg c_seen].
  inversion L; subst; cbn [put_nth]; eexists; (split; [reflexivity|]); cbn [c_code c_reg c_seen cs_context cs_stack tl]; try (split; [assumption|]); auto.
  intros o' x [Z|Z]; [|now apply V]. now injection Z as <- <-.
Qed.
Lemma C120_one_thread_lemma fine s0 c0 p sched : let st := cs_run sched (cs_start fine s0 c0 [p]) in
  (forall t o x, In t (cs_threads st) -> In (o, x) (c_seen t) -> x = scoped_ctx c0 o) /\ (finished st -> cs_context st = c0 /\ cs_stack st = s0).
Proof.
  intro st. assert (A : alone c0 s0 st).
  { apply cs_run_ind; [intros; now apply alone_step|]. eexists. split; [reflexivity|]. split; [apply code_lex|intros o x []]. }
  destruct A as (t & T & L & V). split.
  - intros t' o x I. rewrite T in I. destruct I as [<-|[]]. apply V.
  - intro F. assert (C : c_code t = []) by (apply F; rewrite T; now left). rewrite C in L. inversion L. auto.
Qed.

(** ** Every look is made once, in the order of the program *)
Definition marks (l : list instr) : list (option ctx) := flat_map (fun i => match i with ILook o => [o] | _ => [] end) l.
Lemma marks_app l1 l2 : marks (l1 ++ l2) = marks l1 ++ marks l2.
Proof. unfold marks. induction l1 as [|i l1 IH]; cbn; [reflexivity|]. now rewrite IH, app_assoc. Qed.
Lemma marks_code1 fine b : forall own, marks (code1 fine own b) = looks1 own b.
Proof.
  induction b as [|c body IH] using blk_ind2; intro own; cbn [code1 looks1]; [reflexivity|]. rewrite !marks_app.
  assert (B : marks (code_of (code1 fine (Some c)) body) = flat_map (looks1 (Some c)) body).
  { induction IH as [|x body Hx _ IHb]; cbn; [reflexivity|]. now rewrite marks_app, Hx, IHb. }
  rewrite B. destruct fine; cbn; now rewrite app_nil_r.
Qed.
Lemma marks_code fine p : marks (code fine p) = looks p.
Proof. unfold code, looks. induction p as [|b p IH]; cbn; [reflexivity|]. now rewrite marks_app, marks_code1, IH. Qed.
Definition in_order (p : list blk) (t : cthread) : Prop := map fst (rev (c_seen t)) ++ marks (c_code t) = looks p.
Lemma c_step_order p t stack context : in_order p t -> in_order p (fst (fst (c_step t stack context))).
Proof.
  unfold in_order, c_step. destruct (c_code t) as [|i rest] eqn:C; cbn [fst]; [now rewrite C|]. destruct i; cbn; auto.
  intro H. rewrite <- H, map_app. cbn. now rewrite <- app_assoc.
Qed.
Lemma C120_looks_lemma fine s0 c0 progs sched i p t : let st := cs_run sched (cs_start fine s0 c0 progs) in
  nth_error progs i = Some p -> nth_error (cs_threads st) i = Some t ->
  exists rest, map fst (rev (c_seen t)) ++ rest = looks p /\ (c_code t = [] -> rest = []).
Proof.
  intros st Ep Et. assert (F : Forall2 in_order progs (cs_threads st)).
  { apply (cs_run_ind (fun st => Forall2 in_order progs (cs_threads st))).
    - intros st' j F. unfold cs_step. destruct (nth_error (cs_threads st') j) as [u|] eqn:E; [|exact F].
      destruct (forall2_nth _ _ _ _ _ F E) as (q & Eq & O). apply (c_step_order q u (cs_stack st') (cs_context st')) in O.
      destruct (c_step u (cs_stack st') (cs_context st')) as [[u' s'] c'] eqn:Cs. cbn in *.
      assert (X : put_nth j q progs = progs).
      { clear - Eq. revert j Eq. induction progs as [|y l IH]; intros [|j] E; simpl in *; try discriminate; [now injection E as ->|]. f_equal. now apply IH. }
      rewrite <- X. now apply forall2_put.
    - cbn. clear. induction progs as [|q l IH]; cbn; constructor; [|exact IH]. unfold in_order. cbn. apply marks_code. }
  destruct (forall2_nth _ _ _ _ _ F Et) as (q & Eq & O). rewrite Ep in Eq. injection Eq as <-. exists (marks (c_code t)). split; [exact O|]. now intros ->.
Qed.
