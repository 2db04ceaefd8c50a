(** No schedule of any number of connections, maintenance included, damages the container *)
From Verif Require Import Base BaseFacts Value BTree BTreeFacts Float53 Utils Collection SpecMap CollectionFacts RoutingFacts Group GroupFacts GroupNewFacts StorageThms Container ContainerFacts CondenseFacts ResizeFacts ContainerThms
  Txn Connection ConnectionFacts Multi MultiFacts MultiSem MultiLin MultiHist MultiBlocks.
Set Implicit Arguments.

(** every group object ever made is sound, and groups keep their number of collections *)
Definition hgood (k : container) : Prop := Forall good_group (k_heap k).
Definition grows (k k' : container) : Prop := forall j g, nth_error (k_heap k) j = Some g -> exists g', nth_error (k_heap k') j = Some g' /\ length g' = length g.
Definition fine (k k' : container) : Prop := hgood k' /\ grows k k'.
Lemma grows_refl k : grows k k.
Proof. intros j g N. eauto. Qed.
Lemma grows_trans a b c : grows a b -> grows b c -> grows a c.
Proof. intros H1 H2 j g N. destruct (H1 j g N) as (g1 & N1 & L1). destruct (H2 j g1 N1) as (g2 & N2 & L2). exists g2. split; auto. congruence. Qed.
Lemma grows_length a b : grows a b -> (length (k_heap a) <= length (k_heap b))%nat.
Proof.
  intro H. destruct (length (k_heap a)) as [|n] eqn:E; [lia|]. destruct (nth_error (k_heap a) n) as [g|] eqn:N; [|apply nth_error_None in N; lia].
  destruct (H n g N) as (g' & N' & _). assert (n < length (k_heap b))%nat by (apply nth_error_Some; congruence). lia.
Qed.
Lemma fine_refl k : hgood k -> fine k k.
Proof. split; auto. apply grows_refl. Qed.
Lemma fine_trans a b c : fine a b -> fine b c -> fine a c.
Proof. intros (_ & G1) (H & G2). split; auto. eapply grows_trans; eauto. Qed.
Lemma hgood_at k j g : hgood k -> nth_error (k_heap k) j = Some g -> good_group g.
Proof. intros H N. unfold hgood in H. rewrite Forall_forall in H. apply H. eapply nth_error_In; eauto. Qed.
Lemma set_grp_fine k i g : hgood k -> ((i < length (k_heap k))%nat -> good_group (grp k i) -> good_group g /\ length g = length (grp k i)) -> fine k (set_grp i g k).
Proof.
  intros H S. destruct (Nat.lt_ge_cases i (length (k_heap k))) as [L|L].
  - pose proof (nth_grp k L) as N. destruct (S L (@hgood_at k _ _ H N)) as (G & E). split.
    + unfold hgood. apply Forall_forall. intros x X. apply In_nth_error in X as (j & X). cbn in X. destruct (Nat.eq_dec i j) as [<-|D].
      * rewrite set_nth_same in X by auto. congruence.
      * rewrite set_nth_other in X by auto. exact (@hgood_at k _ _ H X).
    + intros j x X. cbn. destruct (Nat.eq_dec i j) as [<-|D]; [rewrite set_nth_same by auto|rewrite set_nth_other by auto; eauto]. exists g. split; auto. congruence.
  - assert (E : set_grp i g k = k).
    { unfold set_grp. replace (set_nth i g (k_heap k)) with (k_heap k); [now destruct k|]. apply nth_error_eq; [now rewrite set_nth_length|].
      intro j. destruct (Nat.eq_dec i j) as [<-|D]; [rewrite !(proj2 (nth_error_None _ _)); auto; rewrite set_nth_length; auto|now rewrite set_nth_other]. }
    rewrite E. now apply fine_refl.
Qed.
Lemma step_fine k i o : hgood k -> wf_op o -> fine k (set_grp i (fst (g_step (grp k i) o)) k).
Proof.
  intros H O. apply set_grp_fine; auto. intros L (W & P). destruct (g_step_spec (grp k i) o W P O) as (W' & L' & _). split; auto. split; auto. lia.
Qed.
Lemma insert_fine k i id v : hgood k -> fine k (set_grp i (fst (g_insert id v (grp k i))) k).
Proof. intro H. pose proof (@step_fine k i (Insert id v) H Logic.I) as F. now rewrite g_insert_step in F. Qed.
Lemma pop_fine k i id d : hgood k -> fine k (set_grp i (fst (g_pop id d (grp k i))) k).
Proof. intro H. pose proof (@step_fine k i (Pop id d) H Logic.I) as F. now rewrite g_pop_step in F. Qed.
Lemma update_fine k i id v : hgood k -> fine k (set_grp i (fst (g_update [(id, v)] (grp k i))) k).
Proof. intro H. assert (W : wf_op (Update [(id, v)])) by (repeat constructor; simpl; auto). pose proof (@step_fine k i _ H W) as F. now rewrite g_update_step in F. Qed.

Lemma write_fine k id v : hgood k -> fine k (fst (k_write id v k)).
Proof.
  intro H. pose proof (@insert_fine k (k_primary k) id v H) as F. unfold k_write. fold (k_prim k) in F. destruct (g_insert id v (k_prim k)) as [g [z|e]] eqn:I; cbn [fst] in *; auto.
  destruct (Z.eqb z 0) eqn:Z0; cbn [fst]; auto. apply Z.eqb_eq in Z0. subst z.
  assert (g = k_prim k) by (pose proof (insert_present_noop (k_prim k) id v) as X; rewrite I in X; cbn in X; auto). subst g.
  pose proof (@update_fine k (k_primary k) id v H) as F2. fold (k_prim k) in F2. destruct (g_update [(id, v)] (k_prim k)) as [g' [x|e]]; cbn in *; auto.
Qed.
Lemma delete_fine id gs : forall k, hgood k -> fine k (fst (delete_from id gs k)).
Proof.
  induction gs as [|i gs IH]; intros k H; cbn [delete_from]; [now apply fine_refl|]. destruct (k_has id k) as [n|e]; [|now apply fine_refl].
  destruct (Z.eqb n 0); [now apply IH|]. pose proof (@pop_fine k i id VNone H) as F. destruct (g_pop id VNone (grp k i)) as [g [v|e]]; cbn [fst] in *; auto.
  pose proof (IH (set_grp i g k) (proj1 F)) as F2. destruct (delete_from id gs (set_grp i g k)) as [k' [vs|e]]; cbn [fst] in *; eapply fine_trans; eauto.
Qed.
Lemma move_fine t i key k : hgood k -> fine k (fst (move t i key k)).
Proof.
  intro H. unfold move. destruct t.
  - pose proof (@pop_fine k i key VNone H) as F. destruct (g_pop key VNone (grp k i)) as [g [v|e]]; cbn [fst] in *; auto.
    pose proof (@insert_fine (set_grp i g k) (k_primary (set_grp i g k)) key v (proj1 F)) as F2. fold (k_prim (set_grp i g k)) in F2.
    destruct (g_insert key v (k_prim (set_grp i g k))) as [g2 [z|e]]; cbn [fst] in *; eapply fine_trans; eauto.
  - destruct (g_get key VNone (grp k i)) as [v|e]; [|now apply fine_refl].
    pose proof (@insert_fine k (k_primary k) key v H) as F. fold (k_prim k) in F. destruct (g_insert key v (k_prim k)) as [g2 [z|e]]; cbn [fst] in *; auto.
Qed.
Lemma move_keys_fine t i keys : forall k, hgood k -> fine k (fst (move_keys t i keys k)).
Proof.
  induction keys as [|key keys IH]; intros k H; cbn [move_keys]; [now apply fine_refl|]. pose proof (@move_fine t i key k H) as F.
  destruct (move t i key k) as [k1 [[]|e]]; cbn [fst] in *; auto. eapply fine_trans; eauto. apply IH. apply F.
Qed.
Lemma move_groups_fine t src : forall k, hgood k -> fine k (fst (move_groups t src k)).
Proof.
  induction src as [|i src IH]; intros k H; cbn [move_groups]; [now apply fine_refl|]. pose proof (@move_keys_fine t i (g_keys (grp k i)) k H) as F.
  destruct (move_keys t i (g_keys (grp k i)) k) as [k1 [[]|e]]; cbn [fst] in *; auto. eapply fine_trans; eauto. apply IH. apply F.
Qed.
Lemma with_groups_fine gs k k' : fine k k' -> fine k (with_groups gs k').
Proof. exact (fun x => x). Qed.
Lemma condense_fine t k : hgood k -> fine k (fst (condense t k)).
Proof.
  intro H. unfold condense. pose proof (@move_groups_fine t (tl (k_groups k)) k H) as F. destruct (move_groups t (tl (k_groups k)) k) as [k1 [[]|e]]; cbn [fst] in *; auto.
  destruct t; auto. destruct (k_groups k1); cbn; auto.
Qed.
Lemma push_fine g k : hgood k -> good_group g -> fine k (push_primary g k).
Proof.
  intros H G. split.
  - unfold hgood. cbn. apply Forall_app. auto.
  - intros j x X. exists x. cbn. split; auto. rewrite nth_error_app1; auto. apply nth_error_Some. congruence.
Qed.
Lemma resize_fine u cap mcs ca t k : hgood k -> sizable cap mcs -> fine k (fst (resize u cap mcs ca t k)).
Proof.
  intros H S. unfold resize. destruct (sized_group_spec u (k_strict k) S) as (g & n & m & -> & EV & _). pose proof (even_group_good EV) as G.
  pose proof (push_fine H G) as F. destruct ca.
  - eapply fine_trans; eauto. apply condense_fine. apply F.
  - pose proof (@condense_fine t (with_groups (firstn 2 (k_groups (push_primary g k))) (push_primary g k)) (proj1 F)) as F2.
    destruct (condense t (with_groups (firstn 2 (k_groups (push_primary g k))) (push_primary g k))) as [k2 [l|e]]; cbn [fst] in *.
    + apply with_groups_fine. eapply fine_trans; eauto.
    + eapply fine_trans; eauto.
Qed.
Lemma strict_fine v k : hgood k -> fine k (fst (k_set_strict v k)).
Proof.
  intro H. destruct v as [|b|z|f|s]; cbn [k_set_strict fst]; try (now apply fine_refl). cbn. apply set_grp_fine; auto. intros _ G.
  destruct (g_set_strict_good b G) as (G2 & _). cbn in G2. split; [exact G2|now rewrite map_length].
Qed.
Lemma kstep_fine k o : hgood k -> kop_ok o -> fine k (k_step k o).
Proof.
  intros H K. destruct o as [id v|id|t|u c m ca t|v]; cbn [k_step].
  - now apply write_fine.
  - now apply delete_fine.
  - now apply condense_fine.
  - now apply resize_fine.
  - now apply strict_fine.
Qed.

(** a sound container *)
Record sound (k : container) : Prop := { s_heap : hgood k; s_ok : k_ok k; s_first : primary_first k }.
Lemma kstep_sound k o : sound k -> kop_ok o -> sound (k_step k o) /\ grows k (k_step k o).
Proof.
  intros S K. destruct (@kstep_fine k o (s_heap S) K) as (H & G). destruct (@k_step_ok k o (s_ok S) (s_first S) K). split; auto. constructor; auto.
Qed.
Lemma sem_step c k : fst (conn_sem c k) = k \/ exists o, kop_ok o /\ fst (conn_sem c k) = k_step k o.
Proof.
  destruct c as [id v|id v|id|id d|i]; cbn [conn_sem]; auto.
  - unfold do_create. destruct (k_has id k); auto. destruct (Z.eqb a 0); auto. right. exists (KWrite id v). split; [exact Logic.I|]. cbn [k_step].
    destruct (k_write id v k) as [k1 [[z|]|e]]; auto.
  - unfold do_update. destruct (k_read id VNone k); auto. right. exists (KWrite id v). split; [exact Logic.I|]. cbn [k_step].
    destruct (k_write id v k) as [k1 [r|e]]; auto.
  - unfold do_delete. right. exists (KDelete id). split; [exact Logic.I|]. cbn [k_step]. destruct (k_delete id k) as [k1 [r|e]]; auto.
Qed.
Lemma sem_sound k c : sound k -> sound (fst (conn_sem c k)) /\ grows k (fst (conn_sem c k)).
Proof. intro S. destruct (sem_step c k) as [-> |(o & K & ->)]; [split; auto; apply grows_refl|now apply kstep_sound]. Qed.

(** what a merge makes *)
Lemma merge_group_good b m t r : length m = length b -> length t = length b -> good_group b -> good_group m -> good_group t -> merge_group b m t = Some r ->
  good_group r /\ length r = length b.
Proof.
  intros LM LT (WB & LB) (WM & _) (WT & _) H. destruct (@merge_lists_some _ _ _ _ _ _ LM LT H) as (LR & AT). split; auto. split; [|lia].
  intros j x X. destruct (@same_length_at _ _ r b j x) as (cb & NB); auto.
  destruct (@same_length_at _ _ b m j cb) as (cm & NM); auto. destruct (@same_length_at _ _ b t j cb) as (ct & NT); auto.
  destruct (AT _ _ _ _ NB NM NT) as (x' & X1 & X2). assert (x' = x) by congruence. subst x'. unfold merge_collection in X2.
  destruct (merge3 Bool.bool_dec (c_strict cb) (c_strict cm) (c_strict ct)) as [s|]; [|discriminate].
  destruct (merge_tree (c_tree cb) (c_tree cm) (c_tree ct)) as [tr|] eqn:T; [|discriminate]. injection X2 as <-.
  apply merge_tree_spec with (1 := proj1 (WB _ _ NB)) (2 := proj1 (WM _ _ NM)) (3 := proj1 (WT _ _ NT)) in T as (W & C). split; [exact W|].
  intros key K. unfold c_abs in K. cbn in K. destruct (C key) as (C1 & C2). rewrite LR.
  destruct (cell_dec (bt_get key (c_tree cm)) (bt_get key (c_tree cb))) as [Q|Q].
  - rewrite <- LT. apply (proj2 (WT _ _ NT)). unfold c_abs. rewrite <- C1; auto.
  - rewrite <- LM. apply (proj2 (WM _ _ NM)). unfold c_abs. rewrite <- (proj2 (C2 Q)). auto.
Qed.
Definition grown (bs ms : list group) : Prop := forall j g, nth_error bs j = Some g -> exists g', nth_error ms j = Some g' /\ length g' = length g.
Lemma grown_tail b bs m ms : grown (b :: bs) (m :: ms) -> grown bs ms /\ length m = length b.
Proof.
  intro H. split; [intros j g N; exact (H (S j) g N)|]. destruct (H O b eq_refl) as (g & E & L). cbn in E. congruence.
Qed.
Lemma merge_heap_good : forall bs ms ts r, grown bs ms -> grown bs ts -> Forall good_group bs -> Forall good_group ms -> Forall good_group ts ->
  merge_lists merge_group bs ms ts = Some r -> Forall good_group r /\ grown ms r /\ grown ts r.
Proof.
  assert (RF : forall l : list group, grown l l) by (intros l j g N; eauto).
  assert (NIL : forall l : list group, grown [] l) by (intros l [|j] g N; discriminate).
  induction bs as [|b bs IH]; intros ms ts r GM GT FB FM FT H.
  - destruct ms as [|m ms]; cbn in H.
    + injection H as <-. auto.
    + destruct ts; [|discriminate]. injection H as <-. auto.
  - destruct ms as [|m ms]; [destruct (GM O b eq_refl) as (? & ? & _); discriminate|]. destruct ts as [|t ts]; [destruct (GT O b eq_refl) as (? & ? & _); discriminate|].
    cbn in H. fold (@merge_lists group merge_group) in H. destruct (merge_group b m t) as [x|] eqn:X; [|discriminate]. destruct (merge_lists merge_group bs ms ts) as [l|] eqn:L; [|discriminate]. injection H as <-.
    apply grown_tail in GM as (GM & LM). apply grown_tail in GT as (GT & LT). inversion FB; subst. inversion FM; subst. inversion FT; subst.
    destruct (IH ms ts l) as (A & B & C); auto. destruct (@merge_group_good b m t x) as (GX & LX); auto. split; [constructor; auto|].
    split; intros [|j] g N; cbn in *; try (injection N as <-); eauto; exists x; split; auto; congruence.
Qed.
Lemma merge_sound b m t r : sound b -> sound m -> sound t -> grows b m -> grows b t -> merge b m t = Some r -> sound r /\ grows t r.
Proof.
  intros B M T GM GT H. unfold merge in H. destruct (merge_lists merge_group (k_heap b) (k_heap m) (k_heap t)) as [h|] eqn:L; [|discriminate].
  destruct (merge3 top_dec (k_groups b, k_primary b) (k_groups m, k_primary m) (k_groups t, k_primary t)) as [[gs p]|] eqn:Q; [|discriminate]. injection H as <-.
  destruct (@merge_heap_good _ _ _ _ GM GT (s_heap B) (s_heap M) (s_heap T) L) as (A & HM & HT).
  split; [|exact HT].
  assert (K : forall x, sound x -> grown (k_heap x) h -> gs = k_groups x -> p = k_primary x -> sound (mkK h gs p)).
  { intros x S G -> ->. constructor; [exact A| |exact (s_first S)]. destruct (s_ok S) as (ND & I & F). split; [exact ND|]. split; [exact I|]. cbn. intros i J.
    destruct (F i J) as (LI & _). destruct (G i (grp x i) (nth_grp x LI)) as (g' & N & _). assert (LH : (i < length h)%nat) by (apply nth_error_Some; congruence). split; auto.
    rewrite Forall_forall in A. apply A. pose proof (@nth_grp (mkK h (k_groups x) (k_primary x)) i LH) as NG. eapply nth_error_In. exact NG. }
  unfold merge3 in Q. destruct (top_dec (k_groups m, k_primary m) (k_groups b, k_primary b)).
  - injection Q as <- <-. now apply (K t).
  - destruct (top_dec (k_groups t, k_primary t) (k_groups b, k_primary b)); [|discriminate]. injection Q as <- <-. now apply (K m).
Qed.

(** ** Worlds *)
Definition event_ok (e : event) : Prop := match e with EDirect _ o => kop_ok o | _ => True end.
Record winv (w : world) : Prop := {
  v_now : sound (o_now w);
  v_conn : forall i, sound (w_base (o_conn w i)) /\ sound (w_work (o_conn w i)) /\ grows (w_base (o_conn w i)) (w_work (o_conn w i)) /\ grows (w_base (o_conn w i)) (o_now w)
}.
Definition vok (now : container) (v : view) : Prop := sound (w_base v) /\ sound (w_work v) /\ grows (w_base v) (w_work v) /\ grows (w_base v) now.
Lemma winv_upd now w i v cl lg : winv w -> sound now -> grows (o_now w) now -> vok now v -> winv (mkWorld now (upd i v (o_conn w)) cl lg).
Proof.
  intros I S G V. constructor; cbn; auto. intro j. unfold upd. destruct (Nat.eqb j i); [exact V|]. destruct (v_conn I j) as (A & B & C & D). repeat (split; auto). eapply grows_trans; eauto.
Qed.
Lemma vok_fresh now a : sound now -> vok now (fresh now a).
Proof. intro S. repeat (split; auto); apply grows_refl. Qed.
Lemma commit_sound w i ok n : winv w -> try_commit ok (o_conn w i) (o_now w) = Some n -> sound n /\ grows (o_now w) n.
Proof.
  intros I H. unfold try_commit in H. destruct ok; [|discriminate]. destruct (v_conn I i) as (A & B & C & D). exact (merge_sound A B (v_now I) C D H).
Qed.
Lemma winv_step w e : winv w -> event_ok e -> winv (fst (step w e)).
Proof.
  intros I E. pose proof (v_now I) as N. assert (T : winv (tick w)) by (destruct I; constructor; auto).
  assert (R : grows (o_now w) (o_now w)) by apply grows_refl.
  assert (SV : forall i v, vok (o_now w) v -> winv (set_view i v w)) by (intros i v V; now apply winv_upd).
  destruct e as [i c|i ok|i|i rs ok|i o|i|i b]; cbn [step]; destruct (v_conn I i) as (A & B & C & D).
  - destruct (w_call (o_conn w i)); auto. destruct (conn_is_read c); auto. destruct (w_auto (o_conn w i)).
    + destruct (@sem_sound (o_now w) c N) as (S1 & S2). destruct (conn_sem c (o_now w)) as [m r]. cbn in *. apply SV. repeat (split; auto).
    + destruct (w_failed (o_conn w i)); auto. destruct (@sem_sound (w_work (o_conn w i)) c B) as (S1 & S2). destruct (conn_sem c (w_work (o_conn w i))) as [m r]. cbn in *.
      apply SV. split; [exact A|]. split; [exact S1|]. split; [exact (grows_trans C S2)|exact D].
  - destruct (w_call (o_conn w i)) as [[[c [a|x]] s]|]; auto.
    + destruct (try_commit ok (o_conn w i) (o_now w)) as [n|] eqn:Q; cbn.
      * destruct (commit_sound _ _ I Q). apply winv_upd; auto. now apply vok_fresh.
      * apply winv_upd; auto. now apply (@vok_fresh _ true).
    + cbn. apply winv_upd; auto. now apply vok_fresh.
  - destruct (w_call (o_conn w i)); auto. cbn. apply SV. now apply vok_fresh.
  - destruct (w_call (o_conn w i)); auto. destruct rs as [x|]; cbn; [apply SV; now apply vok_fresh|].
    destruct (w_failed (o_conn w i)); cbn; [apply SV; repeat (split; auto)|].
    destruct (try_commit ok (o_conn w i) (o_now w)) as [n|] eqn:Q; cbn.
    + destruct (commit_sound _ _ I Q). apply winv_upd; auto. now apply vok_fresh.
    + apply SV. now apply (@vok_fresh _ true).
  - destruct (w_call (o_conn w i)); auto. destruct (w_failed (o_conn w i)); auto. destruct (@kstep_sound (w_work (o_conn w i)) o B E) as (S1 & S2). cbn. apply SV.
    split; [exact A|]. split; [exact S1|]. split; [exact (grows_trans C S2)|exact D].
  - destruct (w_call (o_conn w i)); auto. cbn. apply SV. now apply vok_fresh.
  - destruct (w_call (o_conn w i)); auto. cbn. apply SV. repeat (split; auto).
Qed.
Lemma winv_run evs : forall w, winv w -> Forall event_ok evs -> winv (run_events evs w).
Proof. induction evs as [|e evs IH]; intros w I F; auto. inversion F; subst. apply IH; auto. now apply winv_step. Qed.
Lemma winv_start k : sound k -> winv (start_world k).
Proof. intro S. constructor; cbn; auto. intro i. now apply (@vok_fresh k true). Qed.
Lemma krun_sound ops : forall k, sound k -> Forall kop_ok ops -> sound (k_run ops k).
Proof. induction ops as [|o ops IH]; intros k S F; auto. inversion F; subst. cbn. apply IH; auto. now apply kstep_sound. Qed.
Lemma new_sound u cap mcs strict k : sizable cap mcs -> container_new u cap mcs strict = Ok k -> sound k.
Proof.
  intros S E. destruct (@container_new_spec u cap mcs strict S) as (k' & n & m & E' & G & O & _). rewrite E in E'. injection E' as <-. constructor; auto; [|exists []; exact G].
  unfold container_new in E. destruct (sized_group_spec u strict S) as (g & n' & m' & Q & EV & _). rewrite Q in E. unfold container_init in E. cbn in E.
  injection E as <-. unfold hgood. cbn. constructor; auto. apply (g_set_strict_good strict (even_group_good EV)).
Qed.
Lemma never_damaged u cap mcs strict k0 ops evs : sizable cap mcs -> container_new u cap mcs strict = Ok k0 -> Forall kop_ok ops -> Forall event_ok evs ->
  let k := o_now (run_events evs (start_world (k_run ops k0))) in
  k_ok k /\ primary_first k /\
  forall id d, encodable id -> k_has id k = Ok (holders id (maps k)) /\
    exists r, first_truthy id (maps k) r /\ k_read id d k = Ok (match r with Some v => v | None => d end).
Proof.
  intros S N F E. cbv zeta. pose proof (@winv_run evs _ (winv_start (@krun_sound ops _ (@new_sound _ _ _ _ _ S N) F)) E) as I.
  pose proof (v_now I) as V. split; [exact (s_ok V)|]. split; [exact (s_first V)|]. intros id d EN. split; [apply k_has_spec; auto; exact (s_ok V)|].
  apply k_read_spec; auto. exact (s_ok V).
Qed.
