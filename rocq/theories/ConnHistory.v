(** Histories of a ContainerConnection refine a map (C42) *)
From Verif Require Import Base BaseFacts Value BTree Collection SpecMap Group RoutingFacts GroupFacts GroupCapFacts GroupNewFacts StorageThms
  Container ContainerFacts CondenseFacts ResizeFacts ContainerThms Txn TxnFacts Connection ConnectionFacts.
Open Scope Z_scope.
Set Implicit Arguments.

(** ** Specification: a map under create / update / delete / read / indexing *)
Definition get (m : amap) (dflt : pyval) (id : pystr) : pyval := match m id with Some v => v | None => dflt end.
Inductive map_call (m : amap) : ccmd -> amap -> res cres -> Prop :=
| mc_create id v m' : m id = None -> bound m id v m' -> map_call m (CCreate id v) m' (Ok (RVal (VInt 1)))
| mc_exists id v w m' : m id = Some w -> same m m' -> map_call m (CCreate id v) m' (Err ObjectOverwriteError)
| mc_update id v m' : bound m id v m' -> map_call m (CUpdate id v) m' (Ok (RVal (get m VNone id)))
| mc_delete id w m' : m id = Some w -> removed m id m' -> map_call m (CDelete id) m' (Ok (RTuple [w]))
| mc_nothing id m' : m id = None -> same m m' -> map_call m (CDelete id) m' (Ok (RTuple []))
| mc_read id d m' : same m m' -> map_call m (CRead id d) m' (Ok (RVal (get m d id)))
| mc_item id w m' : m id = Some w -> same m m' -> map_call m (CItem (IStr id)) m' (Ok (RVal w))
| mc_noitem id m' : m id = None -> same m m' -> map_call m (CItem (IStr id)) m' (Err KeyError)
| mc_items ids m' : Exists (fun id => m id <> None) ids -> same m m' -> map_call m (CItem (IIter ids)) m' (Ok (RList (map (get m VNone) ids)))
| mc_noitems ids m' : Forall (fun id => m id = None) ids -> same m m' -> map_call m (CItem (IIter ids)) m' (Err KeyError)
| mc_index m' : same m m' -> map_call m (CItem IOther) m' (Err IndexError).

(** what a session consists of: calls, assignments to [conn.autocommit], reopening the database, entering and leaving
    [with conn:] blocks, normally or by an exception *)
Inductive hop := HCall (c : ccmd) | HAuto (a : bool) | HReopen (flag : pyval) | HEnter | HExit (raises : bool).
(** [map_history w s a ops rs]: with working map [w], committed map [s] and autocommit [a], the calls of [ops] give results [rs] *)
Inductive map_history : amap -> amap -> bool -> list hop -> list (res cres) -> Prop :=
| mh_end w s a : map_history w s a [] []
| mh_read w w' s a c r ops rs : conn_is_read c = true -> map_call w c w' r -> map_history w' s a ops rs -> map_history w s a (HCall c :: ops) (r :: rs)
| mh_commit w s s' c r ops rs : conn_is_read c = false -> map_call s c s' r -> map_history s' s' true ops rs -> map_history w s true (HCall c :: ops) (r :: rs)
| mh_pending w w' s c r ops rs : conn_is_read c = false -> map_call w c w' r -> map_history w' s false ops rs -> map_history w s false (HCall c :: ops) (r :: rs)
| mh_auto w s a a' ops rs : map_history w s a' ops rs -> map_history w s a (HAuto a' :: ops) rs
| mh_reopen w s a f ops rs : map_history s s true ops rs -> map_history w s a (HReopen f :: ops) rs
| mh_enter w s a ops rs : map_history s s false ops rs -> map_history w s a (HEnter :: ops) rs
| mh_exit w s a ops rs : map_history w w true ops rs -> map_history w s a (HExit false :: ops) rs
| mh_abort w s a ops rs : map_history s s true ops rs -> map_history w s a (HExit true :: ops) rs.

(** the same session on the model *)
Definition do_hop (b : nat -> option exn) (o : hop) (c : conn container) : conn container * list (res cres) :=
  match o with
  | HCall cmd => let (c1, r) := exec conn_calls b cmd c in (c1, [r])
  | HAuto a => (fst (set_autocommit (VBool a) c), [])
  | HReopen f => (reopen f c, [])
  | HEnter => (conn_enter c, [])
  | HExit raises => (fst (conn_exit b (if raises then Err (UserError 0) else Ok tt) c), [])
  end.
Fixpoint do_hops (b : nat -> option exn) (ops : list hop) (c : conn container) : conn container * list (res cres) :=
  match ops with
  | [] => (c, [])
  | o :: ops' => let (c1, r) := do_hop b o c in let (c2, rs) := do_hops b ops' c1 in (c2, r ++ rs)
  end.
(** ids are encodable and stored objects truthy *)
Definition good_call (c : ccmd) : Prop :=
  match c with
  | CCreate id v | CUpdate id v => encodable id /\ truthy v = true
  | CDelete id | CRead id _ | CItem (IStr id) => encodable id
  | CItem (IIter ids) => Forall encodable ids
  | CItem IOther => True
  end.
Definition good_hop (o : hop) : Prop := match o with HCall c => good_call c | _ => True end.

(** ** Proof *)
Definition one_group (k : container) : Prop :=
  k_ok k /\ k_groups k = [k_primary k] /\ relaxed (k_prim k) /\ forall id v, held k id = Some v -> truthy v = true.
Lemma one_first k : one_group k -> primary_first k.
Proof. intros (_ & E & _). exists []. exact E. Qed.

Lemma k_write_meta id v k : k_ok k -> map c_strict (k_prim (fst (k_write id v k))) = map c_strict (k_prim k).
Proof.
  intros (_ & IP & ALL). destruct (ALL _ IP) as [Lp Gp]. unfold k_write.
  pose proof (proj2 (g_step_meta (k_prim k) (Insert id v))) as M. rewrite g_insert_step in M. simpl in M.
  destruct (g_insert id v (k_prim k)) as [g [z|e]] eqn:GI; simpl in M.
  - destruct (z =? 0).
    + pose proof (proj2 (g_step_meta g (Update [(id, v)]))) as M2. rewrite g_update_step in M2. simpl in M2.
      destruct (g_update [(id, v)] g) as [g' [u|e]]; simpl in *; unfold k_prim at 1; simpl; rewrite grp_set_same; auto; congruence.
    + simpl. unfold k_prim at 1. simpl. rewrite grp_set_same; auto.
  - simpl. unfold k_prim at 1. simpl. rewrite grp_set_same; auto.
Qed.
Lemma one_write id v k : one_group k -> encodable id -> truthy v = true ->
  exists r, snd (k_write id v k) = Ok r /\ one_group (fst (k_write id v k)) /\ bound (held k) id v (held (fst (k_write id v k))).
Proof.
  intros (O & EG & RX & T) E TV. destruct (@write_relaxed _ _ v O RX E) as [r W]. exists r. split; auto.
  pose proof (@held_write k id v r O (ex_intro _ [] EG) W) as B. destruct (@write_effect _ _ _ _ O W) as (_ & G' & P' & O' & _). split; auto.
  split; auto. split; [congruence|]. split.
  - rewrite relaxed_map in *. now rewrite k_write_meta.
  - intros j w H. destruct B as [B1 B2]. destruct (str_dec j id) as [->|N]; [congruence|]. rewrite B2 in H by auto. eauto.
Qed.
Lemma one_read id d k : one_group k -> encodable id -> k_read id d k = Ok (get (held k) d id).
Proof.
  intros (O & _ & _ & T) E. destruct (@read_held _ _ d O E) as [R1 R2]. unfold get. destruct (held k id) as [v|] eqn:H; eauto.
Qed.
Lemma one_has id k : one_group k -> encodable id -> exists n, k_has id k = Ok n /\ (n =? 0) = match held k id with Some _ => false | None => true end.
Proof.
  intros (O & _) E. destruct (@has_iff_held _ _ O E) as (n & H & P & Q). exists n. split; auto. destruct (held k id) as [v|].
  - apply Z.eqb_neq. assert (0 < n) by (apply Q; discriminate). lia.
  - apply Z.eqb_eq. destruct (Z.eq_dec n 0); auto. exfalso. assert (X : 0 < n) by lia. apply Q in X. congruence.
Qed.
Lemma one_delete id k : one_group k -> encodable id ->
  exists k' l, k_delete id k = (k', Ok l) /\ one_group k' /\
    ((exists w, held k id = Some w /\ l = [w] /\ removed (held k) id (held k')) \/ (held k id = None /\ l = [] /\ k' = k)).
Proof.
  intros G E. pose proof G as (O & EG & RX & T). pose proof O as (ND & IP & ALL). destruct (ALL _ IP) as [Lp Gp].
  assert (HP : forall k0, k_groups k0 = [k_primary k0] -> forall j, held k0 j = g_abs (k_prim k0) j) by (intros k0 E0 j; eapply prim_single; eauto).
  unfold k_delete. rewrite EG. simpl. destruct (@one_has id k G E) as (n & HN & Z). rewrite HN, Z. destruct (held k id) as [w|] eqn:H.
  - rewrite HP in H by auto. destruct (@pop_hit _ _ _ Gp H) as (g' & PE & GG & [R1 R2]). rewrite PE. eexists _, [w]. split; [reflexivity|].
    set (k' := set_grp (k_primary k) g' k). assert (P' : k_prim k' = g') by (apply grp_set_same; auto).
    assert (RM : removed (held k) id (held k')).
    { split; [|intros j N]; rewrite !HP by auto; rewrite P'; auto. }
    split.
    + split; [apply set_grp_ok; auto|]. split; [exact EG|]. split.
      * rewrite P', relaxed_map. pose proof (proj2 (g_step_meta (k_prim k) (Pop id VNone))) as M. rewrite g_pop_step in M. simpl in M. unfold k_prim in M. rewrite PE in M. simpl in M.
        rewrite M. apply relaxed_map. exact RX.
      * intros j v HJ. destruct RM as [M1 M2]. destruct (str_dec j id) as [->|N]; [congruence|]. rewrite M2 in HJ by auto. eauto.
    + left. exists w. auto.
  - exists k, []. split; auto.
Qed.

Lemma call_step cmd k : one_group k -> good_call cmd ->
  map_call (held k) cmd (held (fst (conn_sem cmd k))) (snd (conn_sem cmd k)) /\ one_group (fst (conn_sem cmd k)).
Proof.
  intros G GC. assert (SM : same (held k) (held k)) by (intros j; reflexivity).
  destruct cmd as [id v|id v|id|id d|[id|ids|]]; simpl in *.
  - destruct GC as [E TV]. destruct (@one_has id k G E) as (n & HN & Z). unfold do_create. rewrite HN, Z. destruct (held k id) as [w|] eqn:H.
    + simpl. split; auto. eapply mc_exists; eauto.
    + destruct (@create_effect id v k) as [(k' & D & _ & B)|(e & D)]; [apply G|now apply one_first| |].
      * unfold do_create in D. rewrite HN, Z in D. destruct (@one_write id v k G E TV) as (r & W & G' & _). rewrite D. simpl. split; [now apply mc_create|].
        destruct (k_write id v k) as [k1 [[z|]|e]]; simpl in *; congruence.
      * exfalso. unfold do_create in D. rewrite HN, Z in D. destruct (@one_write id v k G E TV) as (r & W & _). destruct (k_write id v k) as [k1 [[z|]|e']]; simpl in *; congruence.
  - destruct GC as [E TV]. unfold do_update. rewrite one_read by auto. destruct (@one_write id v k G E TV) as (r & W & G' & B).
    destruct (k_write id v k) as [k1 r1]. simpl in *. subst r1. simpl. split; auto. now apply mc_update.
  - destruct (@one_delete id k G GC) as (k' & l & D & G' & C). unfold do_delete. rewrite D. simpl. split; auto.
    destruct C as [(w & H & -> & R)|(H & -> & ->)]; [eapply mc_delete; eauto|now apply mc_nothing].
  - rewrite one_read by auto. simpl. split; auto. now apply mc_read.
  - split; auto. destruct (@one_has id k G GC) as (n & HN & Z). rewrite HN, Z. destruct (held k id) as [w|] eqn:H; [|now apply mc_noitem].
    rewrite one_read by auto. simpl. unfold get. rewrite H. now apply mc_item.
  - split; auto. assert (M : mapM (fun id => k_read id VNone k) ids = Ok (map (get (held k) VNone) ids)).
    { induction GC as [|id ids E F IH]; auto. simpl. rewrite one_read by auto. now rewrite IH. }
    rewrite M. assert (X : forall id, truthy (get (held k) VNone id) = match held k id with Some _ => true | None => false end).
    { intros id. unfold get. destruct (held k id) as [v|] eqn:H; auto. destruct G as (_ & _ & _ & T). eauto. }
    destruct (existsb truthy (map (get (held k) VNone) ids)) eqn:EX.
    + apply mc_items; auto. apply existsb_exists in EX. destruct EX as (v & J & T). apply in_map_iff in J. destruct J as (id & <- & J). rewrite X in T.
      apply Exists_exists. exists id. split; auto. destruct (held k id); discriminate.
    + apply mc_noitems; auto. apply Forall_forall. intros id J. destruct (held k id) as [v|] eqn:H; auto.
      assert (Y : existsb truthy (map (get (held k) VNone) ids) = true); [|congruence].
      apply existsb_exists. exists (get (held k) VNone id). split; [now apply in_map|]. now rewrite X, H.
  - split; auto. now apply mc_index.
Qed.

Lemma hops_spec b ops : commits b -> forall c, one_group (n_work c) -> one_group (n_saved c) -> n_failed c = false -> Forall good_hop ops ->
  map_history (held (n_work c)) (held (n_saved c)) (n_auto c) ops (snd (do_hops b ops c)).
Proof.
  intros HB. induction ops as [|o ops IH]; intros c GW GS NF F; [constructor|]. apply Forall_cons_iff in F. destruct F as [GO F].
  destruct o as [cmd|a|f| |[|]]; cbn [do_hops do_hop].
  - simpl in GO. destruct (conn_is_read cmd) eqn:D.
    + assert (E : exec conn_calls b cmd c = (c, snd (conn_sem cmd (n_work c)))) by (unfold exec, perform; simpl; now rewrite D).
      rewrite E. specialize (IH c GW GS NF F). destruct (do_hops b ops c) as [c2 rs]. simpl in *.
      destruct (@call_step cmd _ GW GO) as [MC _]. assert (KE : fst (conn_sem cmd (n_work c)) = n_work c) by (destruct cmd; try discriminate; reflexivity).
      rewrite KE in MC. eapply mh_read; eauto.
    + destruct (n_auto c) eqn:A.
      * destruct (@call_step cmd _ GS GO) as [MC G'].
        assert (E : exists c1, exec conn_calls b cmd c = (c1, snd (conn_sem cmd (n_saved c))) /\ n_work c1 = n_saved c1 /\ n_auto c1 = true /\ n_failed c1 = false /\
          held (n_saved c1) = held (fst (conn_sem cmd (n_saved c))) /\ one_group (n_saved c1)).
        { unfold exec, autocommitted, perform. simpl. rewrite D, A. simpl. destruct (conn_sem cmd (n_saved c)) as [k1 [r|e]] eqn:SE; simpl in *.
          - unfold tm_commit. simpl. rewrite HB. simpl. eexists. split; [reflexivity|]. simpl. auto 10.
          - eexists. split; [reflexivity|]. simpl.
            assert (k1 = n_saved c).
            { destruct cmd as [id v|id v|id| |]; try discriminate; simpl in SE, GO.
              - destruct (@create_effect id v (n_saved c)) as [(k' & X & _)|(e' & X)]; [apply GS|now apply one_first| |]; rewrite SE in X; congruence.
              - unfold do_update in SE. destruct GO as [EN TV]. rewrite one_read in SE by auto. destruct (@one_write id v _ GS EN TV) as (r & W & _).
                destruct (k_write id v (n_saved c)) as [k2 r2]. simpl in W. subst r2. discriminate.
              - unfold do_delete in SE. destruct (@one_delete id _ GS GO) as (k' & l & X & _). rewrite X in SE. discriminate. }
            subst k1. auto 10. }
        destruct E as (c1 & E & E1 & E2 & E3 & E4 & E5). rewrite E. specialize (IH c1). rewrite E1, E2 in IH. specialize (IH E5 E5 E3 F). destruct (do_hops b ops c1) as [c2 rs]. simpl in *.
        rewrite E4 in IH. eapply mh_commit; eauto.
      * destruct (@call_step cmd _ GW GO) as [MC G'].
        assert (E : exec conn_calls b cmd c = (put (fst (conn_sem cmd (n_work c))) c, snd (conn_sem cmd (n_work c)))).
        { rewrite exec_off by auto. unfold perform. simpl. rewrite D, NF. destruct (conn_sem cmd (n_work c)). reflexivity. }
        rewrite E. specialize (IH (put (fst (conn_sem cmd (n_work c))) c) G' GS NF F). simpl in IH. rewrite A in IH. destruct (do_hops b ops _) as [c2 rs]. simpl in *.
        eapply mh_pending; eauto.
  - specialize (IH (fst (set_autocommit (VBool a) c)) GW GS NF F). simpl in *. destruct (do_hops b ops _) as [c2 rs]. apply mh_auto. exact IH.
  - specialize (IH (reopen f c) GS GS eq_refl F). simpl in *. destruct (do_hops b ops _) as [c2 rs]. apply mh_reopen. exact IH.
  - specialize (IH (conn_enter c) GS GS eq_refl F). simpl in *. destruct (do_hops b ops _) as [c2 rs]. apply mh_enter. exact IH.
  - unfold conn_exit. simpl. match goal with |- context [do_hops b ops ?x] => specialize (IH x GS GS eq_refl F) end. simpl in *. destruct (do_hops b ops _) as [c2 rs]. apply mh_abort. exact IH.
  - unfold conn_exit. simpl. unfold tm_commit. simpl. rewrite NF, HB. simpl. match goal with |- context [do_hops b ops ?x] => specialize (IH x GW GW eq_refl F) end.
    simpl in *. destruct (do_hops b ops _) as [c2 rs]. apply mh_exit. exact IH.
Qed.

Lemma fresh_one u0 cap mcs k : sizable cap mcs -> container_new u0 cap mcs false = Ok k -> one_group k /\ forall id, held k id = None.
Proof.
  intros SZ E. destruct (@container_new_spec u0 cap mcs false SZ) as (k' & n & m & E' & EG & O & HN & _ & _ & _ & ST & _). rewrite E in E'. injection E' as <-.
  split; auto. split; auto. split; auto. split; [exact ST|]. intros id v H. rewrite HN in H. discriminate.
Qed.
Lemma map_history_ext w s a ops rs : map_history w s a ops rs -> forall w' s', same w w' -> same s s' -> map_history w' s' a ops rs.
Proof.
  assert (CALL : forall m c m1 r, map_call m c m1 r -> forall m', same m m' -> map_call m' c m1 r).
  { intros m c m1 r H m' S. unfold same, bound, removed in *. assert (GT : forall d id, get m' d id = get m d id) by (intros d id; unfold get; now rewrite S).
    destruct H; try (rewrite <- (GT _ _)); try (rewrite <- (GT VNone)).
    - apply mc_create; [now rewrite S|]. destruct H0 as [B1 B2]. split; auto. intros j N. rewrite S. auto.
    - eapply mc_exists; [rewrite S; eauto|]. intros j. rewrite S. auto.
    - apply mc_update. destruct H as [B1 B2]. split; auto. intros j N. rewrite S. auto.
    - apply mc_delete; [now rewrite S|]. destruct H0 as [B1 B2]. split; auto. intros j N. rewrite S. auto.
    - apply mc_nothing; [now rewrite S|]. intros j. rewrite S. auto.
    - apply mc_read. intros j. rewrite S. auto.
    - apply mc_item; [now rewrite S|]. intros j. rewrite S. auto.
    - apply mc_noitem; [now rewrite S|]. intros j. rewrite S. auto.
    - replace (map (get m VNone) ids) with (map (get m' VNone) ids) by (apply map_ext; auto). apply mc_items; [|intros j; rewrite S; auto].
      apply Exists_exists in H. destruct H as (id & J & X). apply Exists_exists. exists id. split; auto. now rewrite S.
    - apply mc_noitems; [|intros j; rewrite S; auto]. rewrite Forall_forall in *. intros id J. rewrite S. auto.
    - apply mc_index. intros j. rewrite S. auto. }
  assert (RF : forall m, same m m) by (intros m j; reflexivity).
  induction 1; intros w0 s0 SW SS.
  - constructor.
  - eapply mh_read; eauto.
  - eapply mh_commit; eauto.
  - eapply mh_pending; eauto.
  - apply mh_auto; auto.
  - apply mh_reopen; auto.
  - apply mh_enter; auto.
  - apply mh_exit; auto.
  - apply mh_abort; auto.
Qed.
Lemma C42_lemma b u0 cap mcs k flag c ops : commits b -> sizable cap mcs -> container_new u0 cap mcs false = Ok k -> connect (Some k) true flag = Ok c -> Forall good_hop ops ->
  map_history empty_map empty_map true ops (snd (do_hops b ops c)).
Proof.
  intros HB SZ E CN F. destruct (@fresh_one _ _ _ _ SZ E) as [G HN]. simpl in CN. injection CN as <-.
  eapply map_history_ext; [apply (@hops_spec b ops HB (mkConn k k [] true flag false 0%nat)); auto| |]; intros j; simpl; symmetry; apply HN.
Qed.
