(** Blocks of several connections: isolation and first committer wins *)
From Verif Require Import Base BaseFacts Value BTree BTreeFacts Collection SpecMap CollectionFacts RoutingFacts Group GroupFacts Container ContainerFacts Txn Connection Multi MultiFacts MultiSem MultiLin MultiHist.
Set Implicit Arguments.

Lemma merge_lists_some {A} (f : A -> A -> A -> option A) : forall bs ms ts r, length ms = length bs -> length ts = length bs ->
  merge_lists f bs ms ts = Some r -> length r = length bs /\
  forall j b m t, nth_error bs j = Some b -> nth_error ms j = Some m -> nth_error ts j = Some t -> exists x, nth_error r j = Some x /\ f b m t = Some x.
Proof.
  induction bs as [|b bs IH]; intros [|m ms] [|t ts] r L1 L2 H; try discriminate.
  - cbn in H. injection H as <-. split; auto. intros [|j] ? ? ? X; discriminate.
  - cbn in H. fold (merge_lists f) in H. destruct (f b m t) as [x|] eqn:E; [|discriminate].
    destruct (merge_lists f bs ms ts) as [l|] eqn:E2; [|discriminate]. injection H as <-.
    destruct (IH ms ts l) as (A1 & A2); auto. split; [cbn; lia|]. intros [|j] b' m' t' X Y Z; cbn in *; [|now apply A2 with (b := b') (m := m') (t := t')].
    exists x. split; congruence.
Qed.
Lemma merge_lists_none {A} (f : A -> A -> A -> option A) : forall bs ms ts, length ms = length bs -> length ts = length bs ->
  merge_lists f bs ms ts = None -> exists j b m t, nth_error bs j = Some b /\ nth_error ms j = Some m /\ nth_error ts j = Some t /\ f b m t = None.
Proof.
  induction bs as [|b bs IH]; intros [|m ms] [|t ts] L1 L2 H; try discriminate.
  cbn in H. fold (merge_lists f) in H. destruct (f b m t) as [x|] eqn:E; [|exists O, b, m, t; auto].
  destruct (merge_lists f bs ms ts) as [l|] eqn:E2; [discriminate|]. destruct (IH ms ts) as (j & b' & m' & t' & R); auto. exists (S j), b', m', t'. exact R.
Qed.

Lemma alike_heap b m : solo b -> alike b m -> k_heap m = set_nth (k_primary b) (k_prim m) (k_heap b).
Proof.
  intros P (G & PR & L & O & _). pose proof (solo_prim P) as (LB & _). apply nth_error_eq; [rewrite set_nth_length; auto|]. intro j.
  destruct (Nat.eq_dec (k_primary b) j) as [<-|D].
  - rewrite set_nth_same by auto. unfold k_prim. rewrite PR. apply nth_grp. lia.
  - rewrite set_nth_other by auto. destruct (Nat.lt_ge_cases j (length (k_heap b))) as [J|J].
    + rewrite !nth_grp by lia. rewrite O; auto.
    + rewrite !(proj2 (nth_error_None _ _)); auto; lia.
Qed.
Lemma merge_shape b m n : solo b -> solo m -> solo n -> alike b m -> alike b n ->
  merge b m n = option_map (fun g => set_grp (k_primary n) g n) (merge_group (k_prim b) (k_prim m) (k_prim n)).
Proof.
  intros PB PM PN AM AN. pose proof AM as (G & PR & L & O & _). pose proof AN as (G2 & PR2 & L2 & O2 & _).
  unfold merge. rewrite (alike_heap PB AM).
  rewrite (@merge_lists_set _ merge_group (k_heap b) (k_heap n) (k_primary b) (k_prim b) (k_prim m) (k_prim n)); auto.
  - rewrite G, PR, merge3_same. destruct (merge_group (k_prim b) (k_prim m) (k_prim n)); cbn; auto. unfold set_grp. now rewrite PR2.
  - intros j x y X Z. exact (@merge_heap_same b n j x y PB PN AN X Z).
  - apply nth_grp. now apply solo_prim.
  - unfold k_prim. rewrite PR2. apply nth_grp. rewrite <- PR2. now apply solo_prim.
Qed.

(** what a container with one group holds under an id *)
Lemma held_solo k id : k_groups k = [k_primary k] -> held k id = g_abs (k_prim k) id.
Proof. intro G. unfold held, maps. rewrite G. cbn. fold (k_prim k). destruct (g_abs (k_prim k) id); auto. Qed.

Lemma dims_strict (g h : group) i c d : map dims h = map dims g -> nth_error g i = Some c -> nth_error h i = Some d -> c_strict d = c_strict c.
Proof.
  intros D N M. pose proof (f_equal (fun l => nth_error l i) D) as E. cbn beta in E. rewrite !nth_error_map, N, M in E. cbn in E. unfold dims in E. congruence.
Qed.
Lemma cell_at g id i c : g_wf g -> get_group_index id (length g) = Ok i -> nth_error g i = Some c -> g_abs g id = bt_get id (c_tree c).
Proof. intros W I N. exact (@g_abs_route g id i c W I N). Qed.

Lemma same_length_at {A B} (l : list A) (m : list B) i x : length m = length l -> nth_error l i = Some x -> exists y, nth_error m i = Some y.
Proof.
  intros L N. destruct (nth_error m i) as [y|] eqn:E; eauto. exfalso. apply nth_error_None in E. assert (X : (i < length l)%nat) by (apply nth_error_Some; congruence). lia.
Qed.

Lemma merge_solo b m n r : solo b -> solo m -> solo n -> alike b m -> alike b n -> merge b m n = Some r ->
  solo r /\ alike b r /\ forall id, (held m id = held b id -> held r id = held n id) /\
                                    (held m id <> held b id -> held n id = held b id /\ held r id = held m id).
Proof.
  intros PB PM PN AM AN H. rewrite (merge_shape PB PM PN AM AN) in H.
  destruct (merge_group (k_prim b) (k_prim m) (k_prim n)) as [g|] eqn:E; [|discriminate]. cbn in H. injection H as <-.
  pose proof (alike_length AM) as LM. pose proof (alike_length AN) as LN. destruct (@merge_lists_some _ _ _ _ _ _ LM LN E) as (LG & AT).
  pose proof (solo_prim PB) as (LB & WB & SB). pose proof (solo_prim PM) as (_ & WM & _). pose proof (solo_prim PN) as (LPN & WN & SN).
  pose proof AM as (GM & PRM & HLM & OM & DM). pose proof AN as (GN & PRN & HLN & ON & DN).
  assert (COL : forall j cb cm cn x, nth_error (k_prim b) j = Some cb -> nth_error (k_prim m) j = Some cm -> nth_error (k_prim n) j = Some cn ->
    merge_collection cb cm cn = Some x -> dims x = dims cn /\ bt_wf (c_tree x) /\
    forall key, (bt_get key (c_tree cm) = bt_get key (c_tree cb) -> bt_get key (c_tree x) = bt_get key (c_tree cn)) /\
                (bt_get key (c_tree cm) <> bt_get key (c_tree cb) -> bt_get key (c_tree cn) = bt_get key (c_tree cb) /\ bt_get key (c_tree x) = bt_get key (c_tree cm))).
  { intros j cb cm cn x NB NM NN X. unfold merge_collection in X. rewrite (dims_strict _ _ _ DM NB NM), merge3_same in X.
    destruct (merge_tree (c_tree cb) (c_tree cm) (c_tree cn)) as [tr|] eqn:T; [|discriminate]. injection X as <-. split; [reflexivity|]. cbn.
    apply merge_tree_spec with (1 := proj1 (WB _ _ NB)) (2 := proj1 (WM _ _ NM)) (3 := proj1 (WN _ _ NN)) in T. exact T. }
  assert (WF : g_wf g).
  { intros j x X. destruct (@same_length_at _ _ g (k_prim b) j x) as (cb & NB); auto.
    destruct (@same_length_at _ _ (k_prim b) (k_prim m) j cb) as (cm & NM); auto. destruct (@same_length_at _ _ (k_prim b) (k_prim n) j cb) as (cn & NN); auto.
    destruct (AT _ _ _ _ NB NM NN) as (x' & X1 & X2). assert (x' = x) by congruence. subst x'.
    destruct (COL _ _ _ _ _ NB NM NN X2) as (_ & W & C). split; [exact W|]. intros key K. rewrite LG. unfold c_abs in K. destruct (C key) as [C1 C2].
    destruct (cell_dec (bt_get key (c_tree cm)) (bt_get key (c_tree cb))) as [Q|Q].
    - rewrite <- LN. apply (proj2 (WN _ _ NN)). unfold c_abs. rewrite <- C1; auto.
    - rewrite <- LM. apply (proj2 (WM _ _ NM)). unfold c_abs. rewrite <- (proj2 (C2 Q)). auto. }
  assert (PR : k_prim (set_grp (k_primary n) g n) = g) by (unfold k_prim; cbn [set_grp k_primary]; now apply grp_set_same).
  split; [|split].
  - split; [|apply PN]. apply set_grp_ok; [apply PN|apply PN|]. split; auto. lia.
  - unfold alike. rewrite PR. cbn [set_grp k_groups k_primary k_heap]. rewrite set_nth_length. split; [auto|split; [auto|split; [auto|split]]].
    + intros j J. rewrite grp_set_other by congruence. auto.
    + rewrite <- DN. apply nth_error_eq; [rewrite !map_length; lia|]. intro j. rewrite !nth_error_map.
      destruct (nth_error (k_prim n) j) as [cn|] eqn:NN.
      * destruct (@same_length_at _ _ (k_prim n) (k_prim b) j cn) as (cb & NB); auto. destruct (@same_length_at _ _ (k_prim b) (k_prim m) j cb) as (cm & NM); auto.
        destruct (AT _ _ _ _ NB NM NN) as (x & -> & X2). cbn. f_equal. now destruct (COL _ _ _ _ _ NB NM NN X2) as (? & _).
      * rewrite (proj2 (nth_error_None g j)); auto. apply nth_error_None in NN. lia.
  - intro id. rewrite (held_solo b), (held_solo m), (held_solo n), (held_solo (set_grp (k_primary n) g n)); [|exact (proj2 PN)|exact (proj2 PN)|exact (proj2 PM)|exact (proj2 PB)]. rewrite PR.
    destruct (encodable_dec id) as [EN|EN].
    + destruct (@index_total _ _ EN SB) as (i & I & _). destruct (@route_nth _ _ _ I) as (cb & NB).
      destruct (@same_length_at _ _ (k_prim b) (k_prim m) i cb) as (cm & NM); auto. destruct (@same_length_at _ _ (k_prim b) (k_prim n) i cb) as (cn & NN); auto.
      destruct (AT _ _ _ _ NB NM NN) as (x & X1 & X2). destruct (COL _ _ _ _ _ NB NM NN X2) as (_ & _ & C).
      rewrite (cell_at _ WB I NB), (@cell_at (k_prim m) id i cm), (@cell_at (k_prim n) id i cn), (@cell_at g id i x); auto; rewrite ?LM, ?LN, ?LG; auto.
    + assert (Z : forall h, g_wf h -> g_abs h id = None) by (intros h W; apply (@g_abs_unroutable h id UnicodeEncodeError W); now apply index_err).
      rewrite !Z by auto. split; [auto|congruence].
Qed.
(** a commit is refused only over an id that both sides changed *)
Lemma merge_refused b m n : solo b -> solo m -> solo n -> alike b m -> alike b n -> merge b m n = None ->
  exists id, held m id <> held b id /\ held n id <> held b id.
Proof.
  intros PB PM PN AM AN H. rewrite (merge_shape PB PM PN AM AN) in H.
  destruct (merge_group (k_prim b) (k_prim m) (k_prim n)) as [g|] eqn:E; [discriminate|].
  pose proof (alike_length AM) as LM. pose proof (alike_length AN) as LN. pose proof AM as (_ & _ & _ & _ & DM).
  destruct (@merge_lists_none _ _ _ _ _ LM LN E) as (j & cb & cm & cn & NB & NM & NN & X).
  unfold merge_collection in X. rewrite (dims_strict _ _ _ DM NB NM), merge3_same in X.
  destruct (merge_tree (c_tree cb) (c_tree cm) (c_tree cn)) as [tr|] eqn:T; [discriminate|].
  pose proof (solo_prim PB) as (LB & WB & SB). pose proof (solo_prim PM) as (_ & WM & _). pose proof (solo_prim PN) as (LPN & WN & SN).
  (* the conflicting key *)
  assert (K : exists key, bt_get key (c_tree cm) <> bt_get key (c_tree cb) /\ bt_get key (c_tree cn) <> bt_get key (c_tree cb)).
  { destruct (existsb (fun key => if cell_dec (bt_get key (c_tree cm)) (bt_get key (c_tree cb)) then false
                                  else if cell_dec (bt_get key (c_tree cn)) (bt_get key (c_tree cb)) then false else true) (all_keys (c_tree cb) (c_tree cm))) eqn:Q.
    - apply existsb_exists in Q as (key & _ & Q). exists key. destruct (cell_dec (bt_get key (c_tree cm)) _); [discriminate|].
      destruct (cell_dec (bt_get key (c_tree cn)) _); [discriminate|]. auto.
    - exfalso. destruct (@merge_tree_total (c_tree cb) (c_tree cm) (c_tree cn)) as (r & R); [exact (proj1 (WB _ _ NB))|exact (proj1 (WM _ _ NM))|exact (proj1 (WN _ _ NN))| |congruence].
      intros key D. destruct (all_keys_in (c_tree cb) (c_tree cm) key) as [I|I]; [|contradiction].
      destruct (cell_dec (bt_get key (c_tree cn)) (bt_get key (c_tree cb))) as [|D2]; auto. exfalso.
      assert (X2 : existsb (fun key => if cell_dec (bt_get key (c_tree cm)) (bt_get key (c_tree cb)) then false
                                  else if cell_dec (bt_get key (c_tree cn)) (bt_get key (c_tree cb)) then false else true) (all_keys (c_tree cb) (c_tree cm)) = true); [|congruence].
      apply existsb_exists. exists key. split; auto. destruct (cell_dec (bt_get key (c_tree cm)) _); [contradiction|]. destruct (cell_dec (bt_get key (c_tree cn)) _); [contradiction|]. auto. }
  destruct K as (key & K1 & K2). exists key.
  assert (R : get_group_index key (length (k_prim b)) = Ok j).
  { destruct (bt_get key (c_tree cb)) as [v|] eqn:B.
    - apply (proj2 (WB _ _ NB)). unfold c_abs. congruence.
    - rewrite <- LM. apply (proj2 (WM _ _ NM)). unfold c_abs. auto. }
  rewrite (held_solo b), (held_solo m), (held_solo n); [|exact (proj2 PN)|exact (proj2 PM)|exact (proj2 PB)].
  rewrite (cell_at _ WB R NB), (@cell_at (k_prim m) key j cm), (@cell_at (k_prim n) key j cn); auto; rewrite ?LM, ?LN; auto.
Qed.

(** ** Schedules without maintenance of the container *)
Definition calls_only (e : event) : Prop := match e with EDirect _ _ => False | _ => True end.
Record binv (k : container) (w : world) : Prop := {
  b_now : plain (o_now w) /\ alike k (o_now w);
  b_base : forall i, plain (w_base (o_conn w i)) /\ alike k (w_base (o_conn w i));
  b_work : forall i, plain (w_work (o_conn w i)) /\ alike k (w_work (o_conn w i))
}.
Definition fits (k x : container) : Prop := plain x /\ alike k x.
Lemma fits_sem k x c : fits k x -> fits k (fst (conn_sem c x)).
Proof.
  intros (P & A). destruct (cmd_cases c) as [R|(id & C)].
  - destruct c; try discriminate; cbn; split; auto.
  - destruct (@sem_keeps x c id P C) as (P2 & A2). split; auto. now apply alike_trans with (b := x).
Qed.
Lemma fits_merge k b m n r : fits k b -> fits k m -> fits k n -> merge b m n = Some r -> fits k r.
Proof.
  intros (PB & AB) (PM & AM) (PN & AN) H.
  assert (AM2 : alike b m) by (apply alike_trans with (b := k); [now apply alike_sym|auto]).
  assert (AN2 : alike b n) by (apply alike_trans with (b := k); [now apply alike_sym|auto]).
  destruct (@merge_solo b m n r) as (S & A & _); auto; [apply PB|apply PM|apply PN|]. split; [split; auto|now apply alike_trans with (b := b)].
  apply alike_relaxed with (b := b); auto. apply PB.
Qed.
Lemma binv_upd k now w i v : fits k now -> binv k w -> fits k (w_base v) -> fits k (w_work v) -> forall cl lg, binv k (mkWorld now (upd i v (o_conn w)) cl lg).
Proof.
  intros FN I FB FW cl lg. destruct I. constructor; cbn; auto; intro j; unfold upd; destruct (Nat.eqb j i); auto.
Qed.
Lemma binv_step k w e : binv k w -> calls_only e -> binv k (fst (step w e)).
Proof.
  intros I E. pose proof (b_now I) as N. pose proof (b_base I) as B. pose proof (b_work I) as W.
  assert (T : binv k (tick w)) by (destruct I; constructor; auto).
  destruct e as [i c|i ok|i|i rs ok|i o|i|i b]; cbn in E; try contradiction; cbn [step].
  - destruct (w_call (o_conn w i)) as [x|]; auto. destruct (conn_is_read c); auto. destruct (w_auto (o_conn w i)).
    + destruct (conn_sem c (o_now w)) as [m r] eqn:S. cbn [fst]. unfold set_view. apply binv_upd; auto. cbn.
      change m with (fst (m, r)). rewrite <- S. apply fits_sem. exact N.
    + destruct (w_failed (o_conn w i)); auto. destruct (conn_sem c (w_work (o_conn w i))) as [m r] eqn:S. cbn [fst]. unfold set_view.
      apply binv_upd; auto; [apply B|]. cbn. change m with (fst (m, r)). rewrite <- S. apply fits_sem. apply W.
  - destruct (w_call (o_conn w i)) as [[[c [a|x]] s]|]; auto; cbn [fst].
    + destruct (try_commit ok (o_conn w i) (o_now w)) as [n|] eqn:Y; cbn [fst].
      * assert (F : fits k n) by (unfold try_commit in Y; destruct ok; [|discriminate]; apply (@fits_merge k _ _ _ _ (B i) (W i) N Y)).
        unfold finish. apply binv_upd; auto.
      * unfold finish. apply binv_upd; auto.
    + unfold finish. apply binv_upd; auto.
  - destruct (w_call (o_conn w i)); auto. cbn [fst]. unfold set_view. apply binv_upd; auto.
  - destruct (w_call (o_conn w i)); auto. destruct rs as [x|]; cbn [fst]; [unfold set_view; apply binv_upd; auto|].
    destruct (w_failed (o_conn w i)); cbn [fst]; [unfold set_view; apply binv_upd; auto; [apply B|apply W]|].
    destruct (try_commit ok (o_conn w i) (o_now w)) as [n|] eqn:Y; cbn [fst].
    + assert (F : fits k n) by (unfold try_commit in Y; destruct ok; [|discriminate]; apply (@fits_merge k _ _ _ _ (B i) (W i) N Y)).
      apply binv_upd; auto.
    + unfold set_view. apply binv_upd; auto.
  - destruct (w_call (o_conn w i)); auto. cbn [fst]. unfold set_view. apply binv_upd; auto.
  - destruct (w_call (o_conn w i)); auto. cbn [fst]. unfold set_view. apply binv_upd; auto; [apply B|apply W].
Qed.
Lemma binv_run k evs : forall w, binv k w -> Forall calls_only evs -> binv k (run_events evs w).
Proof. induction evs as [|e evs IH]; intros w I F; auto. inversion F; subst. apply IH; auto. now apply binv_step. Qed.
Lemma binv_start k : plain k -> binv k (start_world k).
Proof. intro P. pose proof (alike_refl k). constructor; cbn; auto. Qed.

(** ** Isolation *)
Lemma step_other w e i : event_conn e <> i -> o_conn (fst (step w e)) i = o_conn w i.
Proof.
  intro D. assert (U : forall v f, upd (event_conn e) v f i = f i) by (intros v f; unfold upd; now rewrite (proj2 (Nat.eqb_neq _ _)) by auto).
  destruct e as [j c|j ok|j|j rs ok|j o|j|j b]; cbn [event_conn] in *; cbn [step].
  - destruct (w_call (o_conn w j)); auto. destruct (conn_is_read c); auto. destruct (w_auto (o_conn w j)); [destruct (conn_sem c (o_now w)); cbn; auto|].
    destruct (w_failed (o_conn w j)); auto. destruct (conn_sem c (w_work (o_conn w j))); cbn; auto.
  - destruct (w_call (o_conn w j)) as [[[c [a|x]] s]|]; auto; cbn; auto. destruct (try_commit ok (o_conn w j) (o_now w)); cbn; auto.
  - destruct (w_call (o_conn w j)); cbn; auto.
  - destruct (w_call (o_conn w j)); auto. destruct rs; cbn; auto. destruct (w_failed (o_conn w j)); cbn; auto. destruct (try_commit ok (o_conn w j) (o_now w)); cbn; auto.
  - destruct (w_call (o_conn w j)); auto. destruct (w_failed (o_conn w j)); cbn; auto.
  - destruct (w_call (o_conn w j)); cbn; auto.
  - destruct (w_call (o_conn w j)); cbn; auto.
Qed.
Lemma isolated evs : forall w i, Forall (fun e => event_conn e <> i) evs -> o_conn (run_events evs w) i = o_conn w i.
Proof.
  induction evs as [|e evs IH]; intros w i F; auto. inversion F; subst. cbn. fold (run_events evs (fst (step w e))).
  rewrite IH by auto. now apply step_other.
Qed.

(** the body of a block: anything by others, calls by the connection itself *)
Definition in_block (i : nat) (e : event) : Prop := event_conn e <> i \/ exists c, e = EStart i c.
Definition inside (b m : container) : view := mkView b m false false None.
Lemma upd_same i v f : upd i v f i = v.
Proof. unfold upd. now rewrite Nat.eqb_refl. Qed.
Lemma inside_call w i b m c : o_conn w i = inside b m ->
  o_conn (fst (step w (EStart i c))) i = inside b (fst (conn_sem c m)) /\ snd (step w (EStart i c)) = Some (snd (conn_sem c m)) /\ o_now (fst (step w (EStart i c))) = o_now w.
Proof.
  intro V. cbn [step]. rewrite V. cbn [w_call inside w_auto w_failed w_work w_base]. destruct (conn_is_read c) eqn:R.
  - cbn. rewrite V. split; [|split; auto]. destruct c; try discriminate; reflexivity.
  - destruct (conn_sem c m) as [m2 r]. cbn. rewrite upd_same. auto.
Qed.
Lemma inside_body i body : forall w b m, o_conn w i = inside b m -> Forall (in_block i) body ->
  o_conn (run_events body w) i = inside b (calls_on (own_calls i body) m).
Proof.
  induction body as [|e body IH]; intros w b m V F; [exact V|]. inversion F as [|? ? E F2]; subst. cbn [run_events fold_left].
  fold (run_events body (fst (step w e))). destruct E as [E|(c & ->)].
  - rewrite (IH _ b m); [|now rewrite step_other|auto]. f_equal. unfold own_calls. cbn [flat_map].
    destruct e as [j c|j ok|j|j rs ok|j o|j|j x]; auto. cbn in E. now rewrite (proj2 (Nat.eqb_neq _ _)) by auto.
  - destruct (@inside_call w i b m c V) as (V2 & _). rewrite (IH _ _ _ V2 F2). f_equal. unfold own_calls at 2. cbn [flat_map]. rewrite Nat.eqb_refl.
    reflexivity.
Qed.
Lemma entered w i : w_call (o_conn w i) = None -> o_conn (fst (step w (EEnter i))) i = inside (o_now w) (o_now w) /\ o_now (fst (step w (EEnter i))) = o_now w.
Proof. intro C. cbn [step]. rewrite C. cbn. rewrite upd_same. auto. Qed.

Lemma block_view w i body : w_call (o_conn w i) = None -> Forall (in_block i) body ->
  o_conn (run_events (EEnter i :: body) w) i = inside (o_now w) (calls_on (own_calls i body) (o_now w)).
Proof. intros C F. cbn [run_events fold_left]. fold (run_events body (fst (step w (EEnter i)))). apply inside_body; auto. now apply entered. Qed.
Lemma block_call w i body c : w_call (o_conn w i) = None -> Forall (in_block i) body ->
  snd (step (run_events (EEnter i :: body) w) (EStart i c)) = Some (snd (conn_sem c (calls_on (own_calls i body) (o_now w)))).
Proof. intros C F. pose proof (@block_view w i body C F) as V. now destruct (@inside_call _ _ _ _ c V) as (_ & V2 & _). Qed.

Lemma block_commit k pre i body ok : k_ok k -> k_groups k = [k_primary k] -> Forall (fun c => c_strict c = false) (k_prim k) ->
  Forall calls_only (pre ++ body) -> Forall (in_block i) body ->
  let w0 := run_events pre (start_world k) in w_call (o_conn w0 i) = None ->
  let before := o_now w0 in
  let mine := calls_on (own_calls i body) before in
  let w1 := run_events (EEnter i :: body) w0 in
  let others := o_now w1 in
  let result := o_now (fst (step w1 (EExit i None ok))) in
  (snd (step w1 (EExit i None ok)) = Some (Ok (RVal VNone)) /\
   forall id, (held mine id = held before id -> held result id = held others id) /\
              (held mine id <> held before id -> held others id = held before id /\ held result id = held mine id))
  \/ (snd (step w1 (EExit i None ok)) = Some (Err ConflictError) /\ result = others /\
      (ok = true -> exists id, held mine id <> held before id /\ held others id <> held before id)).
Proof.
  intros K G R F B. assert (P : plain k) by (split; [split; auto|auto]). apply Forall_app in F as (F1 & F2).
  intros w0 C before mine w1 others result.
  assert (I0 : binv k w0) by (apply binv_run; auto; now apply binv_start).
  assert (I1 : binv k w1) by (apply binv_run; auto; constructor; auto; exact Logic.I).
  pose proof (@block_view w0 i body C B) as V. fold w1 in V. fold before in V. fold mine in V.
  pose proof (b_base I1 i) as (PB & AB). pose proof (b_work I1 i) as (PM & AM). pose proof (b_now I1) as (PN & AN). rewrite V in PB, AB, PM, AM. cbn in PB, AB, PM, AM.
  fold others in PN, AN.
  assert (AM2 : alike before mine) by (apply alike_trans with (b := k); [now apply alike_sym|auto]).
  assert (AN2 : alike before others) by (apply alike_trans with (b := k); [now apply alike_sym|auto]).
  subst result. clearbody w1. subst others. clearbody mine before. cbn [step]. rewrite V. cbn [inside w_call w_failed]. unfold try_commit. cbn [w_base w_work inside]. destruct ok.
  - destruct (merge before mine (o_now w1)) as [n|] eqn:M; cbn [fst snd o_now w_base w_work]; rewrite ?M; cbn [fst snd o_now].
    + left. split; auto. destruct (@merge_solo before mine (o_now w1) n (proj1 PB) (proj1 PM) (proj1 PN) AM2 AN2 M) as (_ & _ & H). exact H.
    + right. split; auto. split; auto. intros _. exact (merge_refused (proj1 PB) (proj1 PM) (proj1 PN) AM2 AN2 M).
  - right. cbn. split; auto. split; auto. discriminate.
Qed.

(** ** Plain reads *)
(** a step after which the connection sees the committed state *)
Definition refreshes (i : nat) (w : world) (e : event) : Prop :=
  match e with
  | EFinish j _ => j = i /\ w_call (o_conn w i) <> None
  | EEnter j | EAbort j | EExit j (Some _) _ => j = i /\ w_call (o_conn w i) = None
  | EExit j None _ => j = i /\ w_call (o_conn w i) = None /\ w_failed (o_conn w i) = false
  | _ => False
  end.
Lemma refreshed i w e : refreshes i w e -> let w1 := fst (step w e) in
  w_base (o_conn w1 i) = o_now w1 /\ w_work (o_conn w1 i) = o_now w1 /\ w_call (o_conn w1 i) = None.
Proof.
  destruct e as [j c|j ok|j|j rs ok|j o|j|j b]; cbn [refreshes]; try contradiction; cbn [step].
  - intros (-> & C). destruct (w_call (o_conn w i)) as [[[c [a|x]] s]|]; [|cbn; rewrite upd_same; auto|contradiction].
    destruct (try_commit ok (o_conn w i) (o_now w)); cbn; rewrite upd_same; auto.
  - intros (-> & C). rewrite C. cbn. rewrite upd_same. auto.
  - destruct rs as [x|].
    + intros (-> & C). rewrite C. cbn. rewrite upd_same. auto.
    + intros (-> & C & D). rewrite C, D. destruct (try_commit ok (o_conn w i) (o_now w)); cbn; rewrite upd_same; auto.
  - intros (-> & C). rewrite C. cbn. rewrite upd_same. auto.
Qed.
(** nothing that changes what the connection sees: steps of others, its own reads *)
Definition quiet (i : nat) (e : event) : Prop := event_conn e <> i \/ exists c, e = EStart i c /\ conn_is_read c = true.
Lemma quiet_view i q : forall w, w_call (o_conn w i) = None -> Forall (quiet i) q -> o_conn (run_events q w) i = o_conn w i.
Proof.
  induction q as [|e q IH]; intros w C F; auto. inversion F as [|? ? E F2]; subst. cbn [run_events fold_left]. fold (run_events q (fst (step w e))).
  assert (S : o_conn (fst (step w e)) i = o_conn w i).
  { destruct E as [E|(c & -> & R)]; [now apply step_other|]. cbn [step]. now rewrite C, R. }
  rewrite IH; auto. now rewrite S.
Qed.
Lemma read_sees i w e q c : refreshes i w e -> Forall (quiet i) q -> conn_is_read c = true ->
  snd (step (run_events q (fst (step w e))) (EStart i c)) = Some (snd (conn_sem c (o_now (fst (step w e))))).
Proof.
  intros R Q C. destruct (@refreshed i w e R) as (_ & W & N). pose proof (@quiet_view i q _ N Q) as V. cbn [step]. rewrite V, N, C. cbn. now rewrite W.
Qed.
(** what an accepted create stored is there for the connection that stored it *)
Lemma created_there k evs i id v ok a s : k_ok k -> k_groups k = [k_primary k] -> Forall (fun c => c_strict c = false) (k_prim k) -> Forall single evs ->
  let w := run_events evs (start_world k) in
  w_call (o_conn w i) = Some (CCreate id v, Ok a, s) -> snd (step w (EFinish i ok)) = Some (Ok a) ->
  held (o_now w) id = None /\ held (o_now (fst (step w (EFinish i ok)))) id = Some v.
Proof.
  intros K G R F w C S. assert (P : plain k) by (split; [split; auto|auto]). destruct (@inv_run _ _ _ _ (inv_start P) F) as (l & I). fold w in I.
  destruct (@i_calls _ _ _ I _ _ _ _ C) as (_ & _ & PB & AB & SE). cbn [step] in S |- *. rewrite C in S |- *.
  destruct (try_commit ok (o_conn w i) (o_now w)) as [n|] eqn:T; cbn in S |- *; [|discriminate]. unfold try_commit in T. destruct ok; [|discriminate].
  destruct (@sem_same_dec _ (CCreate id v) id PB eq_refl) as [D|D].
  - exfalso. destruct (@sem_cases _ (CCreate id v) id PB eq_refl) as [(_ & E)|(j & col & IX & N & W & E)]; [rewrite E in SE; discriminate|].
    rewrite E in D, SE. cbn [fst snd local] in *. destruct (bt_get id (c_tree col)) eqn:B; [cbn in SE; discriminate|]. cbn [fst put_cell] in D.
    pose proof (@put_tree_prim _ _ _ (bt_set id v (c_tree col)) (proj1 PB) N) as Q. rewrite D in Q.
    pose proof (f_equal (fun l => nth_error l j) Q) as Q2. cbn beta in Q2. rewrite set_nth_same in Q2 by (apply nth_error_Some; congruence). rewrite N in Q2. injection Q2 as Q2.
    rewrite Q2 in B. cbn in B. rewrite bt_get_set_same in B. discriminate.
  - assert (AN : alike (w_base (o_conn w i)) (o_now w)) by (apply alike_trans with (b := k); [now apply alike_sym|exact (i_alike I)]).
    pose proof (@commit_changed (w_base (o_conn w i)) (o_now w) (CCreate id v) id n PB (i_plain I) AN eq_refl D) as CC. rewrite SE in CC. specialize (CC T).
    cbn [snd] in CC. pose proof (i_plain I) as PN. destruct (@sem_keeps (o_now w) (CCreate id v) id PN eq_refl) as (PR & _).
    destruct (@sem_cases _ (CCreate id v) id PN eq_refl) as [(_ & E)|(j & col & IX & N & W & E)]; [rewrite E in CC; discriminate|].
    rewrite CC in PR. cbn in PR. rewrite E in CC. cbn [local fst snd] in CC. destruct (bt_get id (c_tree col)) eqn:B; [cbn in CC; discriminate|]. cbn [fst snd put_cell] in CC.
    injection CC as CC1 CC2. pose proof (solo_prim (proj1 PN)) as (_ & WN & _). pose proof (solo_prim (proj1 PR)) as (_ & WR & _).
    rewrite (held_solo (o_now w)), (held_solo n); [|apply (proj1 PR)|apply (proj1 PN)].
    rewrite (@cell_at _ _ _ _ WN IX N). split; auto. pose proof (@put_tree_prim _ _ _ (bt_set id v (c_tree col)) (proj1 PN) N) as Q. rewrite CC1 in Q.
    assert (LN : (j < length (k_prim (o_now w)))%nat) by (apply nth_error_Some; congruence).
    rewrite (@cell_at (k_prim n) id j (c_with_tree col (bt_set id v (c_tree col)))); auto; [apply bt_get_set_same| |].
    + rewrite Q, set_nth_length. auto.
    + rewrite Q, set_nth_same; auto.
Qed.
