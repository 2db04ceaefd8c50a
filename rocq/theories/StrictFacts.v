(** Sessions on a strict container refine a map whose ids share a fixed number of bounded collections *)
From Coq Require Import Sorting.Sorted.
From Verif Require Import Base BaseFacts Value BTree BTreeFacts Collection SpecMap CollectionFacts Group RoutingFacts GroupFacts GroupCapFacts GroupNewFacts StorageThms
  Container ContainerFacts CondenseFacts ResizeFacts ContainerThms LimitsFacts Txn TxnFacts Connection ConnectionFacts ConnHistory Db DbFacts GroupRead GroupReadFacts Session SessionFacts WalkViewFacts DirectUseFacts.
Open Scope Z_scope.
Open Scope list_scope.
Set Implicit Arguments.

(** ** Specification *)
(** [z] ids of the map route to the [i]-th of [n] collections *)
Definition sharing (n : nat) (M : amap) (i : nat) (z : Z) : Prop :=
  exists l, NoDup l /\ (forall id, In id l <-> M id <> None /\ get_group_index id n = Ok i) /\ z = Z.of_nat (length l).
Definition collection_full (n : nat) (m : Z) (M : amap) (id : pystr) : Prop := exists i z, get_group_index id n = Ok i /\ sharing n M i z /\ m <= z.
Definition collection_room (n : nat) (m : Z) (M : amap) (id : pystr) : Prop := exists i z, get_group_index id n = Ok i /\ sharing n M i z /\ z < m.
Definition all_full (n : nat) (m : Z) (M : amap) : Prop := exists z, has_size M z /\ Z.of_nat n * m <= z.
Definition some_room (n : nat) (m : Z) (M : amap) : Prop := exists z, has_size M z /\ z < Z.of_nat n * m.
(** calls that write the object of an id: create if there is none, and update *)
Definition writes (M : amap) (c : ccmd) (id : pystr) : Prop := match c with CCreate j _ => j = id /\ M id = None | CUpdate j _ => j = id | _ => False end.
(** a call on a map held by [n] collections of at most [m] objects each: refused, or as on a map *)
Inductive strict_call (n : nat) (m : Z) (M : amap) (c : ccmd) (M' : amap) : res cres -> Prop :=
| sk_plain r : (forall id, writes M c id -> collection_room n m M id /\ (M id <> None \/ some_room n m M)) -> map_call M c M' r -> strict_call n m M c M' r
| sk_group id : writes M c id -> M id = None -> all_full n m M -> same M M' -> strict_call n m M c M' (Err GroupCapacityError)
| sk_collection id : writes M c id -> collection_full n m M id -> (M id <> None \/ some_room n m M) -> same M M' -> strict_call n m M c M' (Err CollectionCapacityError).
(** state: the map worked on, the committed map, autocommit, whether the transaction failed, and how many commits were asked for *)
Record sstate := mkS { s_n : nat; s_work : amap; s_saved : amap; s_auto : bool; s_failed : bool }.
Inductive sstep (call : amap -> ccmd -> amap -> res cres -> Prop) (b : nat -> option exn) : sstate -> hop -> list sout -> sstate -> Prop :=
| ts_read i w s a f c w' r : conn_is_read c = true -> call w c w' r -> sstep call b (mkS i w s a f) (HCall c) [SCall r] (mkS i w' s a f)
| ts_refused i w s f c s' e : conn_is_read c = false -> call s c s' (Err e) -> sstep call b (mkS i w s true f) (HCall c) [SCall (Err e)] (mkS i s s true false)
| ts_commit i w s f c s' r : conn_is_read c = false -> call s c s' (Ok r) -> b i = None -> sstep call b (mkS i w s true f) (HCall c) [SCall (Ok r)] (mkS (Datatypes.S i) s' s' true false)
| ts_commit_fails i w s f c s' r e : conn_is_read c = false -> call s c s' (Ok r) -> b i = Some e -> sstep call b (mkS i w s true f) (HCall c) [SCall (Err e)] (mkS (Datatypes.S i) s s false true)
| ts_pending i w s c w' r : conn_is_read c = false -> call w c w' r -> sstep call b (mkS i w s false false) (HCall c) [SCall r] (mkS i w' s false false)
| ts_in_failed i w s c : conn_is_read c = false -> sstep call b (mkS i w s false true) (HCall c) [SCall (Err TransactionFailedError)] (mkS i w s false true)
| ts_auto i w s a a' f : sstep call b (mkS i w s a f) (HAuto a') [] (mkS i w s a' f)
| ts_reopen i w s a f flag : sstep call b (mkS i w s a f) (HReopen flag) [] (mkS i s s true false)
| ts_enter i w s a f : sstep call b (mkS i w s a f) HEnter [] (mkS i s s false false)
| ts_abort i w s a f : sstep call b (mkS i w s a f) (HExit true) [SExit (Err (UserError 0))] (mkS i s s true false)
| ts_leave i w s a : b i = None -> sstep call b (mkS i w s a false) (HExit false) [SExit (Ok tt)] (mkS (Datatypes.S i) w w true false)
| ts_leave_fails i w s a e : b i = Some e -> sstep call b (mkS i w s a false) (HExit false) [SExit (Err e)] (mkS (Datatypes.S i) s s true true)
| ts_leave_failed i w s a : sstep call b (mkS i w s a true) (HExit false) [SExit (Err TransactionFailedError)] (mkS i w s true true).
Inductive ssession (call : amap -> ccmd -> amap -> res cres -> Prop) (b : nat -> option exn) : sstate -> list hop -> list sout -> sstate -> Prop :=
| sv_end t : ssession call b t [] [] t
| sv_step t1 o os1 t2 ops os2 t3 : sstep call b t1 o os1 t2 -> ssession call b t2 ops os2 t3 -> ssession call b t1 (o :: ops) (os1 ++ os2) t3.

(** ** Containers *)
Definition strict_group (n : nat) (m : Z) (k : container) : Prop :=
  k_ok k /\ k_groups k = [k_primary k] /\ map c_max (k_prim k) = repeat m n /\ Forall within (k_prim k) /\ (forall id v, held k id = Some v -> truthy v = true) /\ (0 < n)%nat.
Lemma strict_held n m k : strict_group n m k -> forall id, held k id = g_abs (k_prim k) id.
Proof. intros (_ & E & _) id. eapply prim_single; eauto. Qed.
Lemma strict_good n m k : strict_group n m k -> good_group (k_prim k).
Proof. intros ((_ & P & A) & _). apply A. exact P. Qed.
Lemma strict_length n m k : strict_group n m k -> length (k_prim k) = n.
Proof. intros (_ & _ & M & _). apply (f_equal (@length Z)) in M. now rewrite map_length, repeat_length in M. Qed.
Lemma strict_max n m k : strict_group n m k -> g_max (k_prim k) = Z.of_nat n * m.
Proof. intros (_ & _ & M & _). unfold g_max. rewrite M. apply zsum_repeat. Qed.
Lemma strict_all n m k : strict_group n m k -> g_strict (k_prim k) = true.
Proof. intros (_ & _ & _ & W & _). unfold g_strict. apply forallb_forall. rewrite Forall_forall in W. intros c I. apply (W c I). Qed.
Lemma within_size g : Forall within g -> g_size g <= g_max g.
Proof. unfold g_size, g_max. induction 1 as [|c g (_ & _ & L) F IH]; cbn [map]; [unfold zsum; cbn; lia|]. unfold zsum in *. cbn. lia. Qed.
Lemma has_size_same M M' z : (forall id, M' id = M id) -> has_size M z -> has_size M' z.
Proof. intros S (l & N & I & E). exists l. split; [exact N|]. split; [|exact E]. intros id. rewrite S. apply I. Qed.
Lemma strict_size n m k : strict_group n m k -> has_size (held k) (g_size (k_prim k)).
Proof. intros G. eapply has_size_same; [exact (strict_held G)|]. apply g_has_size. apply (strict_good G). Qed.
Lemma strict_sharing n m k i c : strict_group n m k -> nth_error (k_prim k) i = Some c -> sharing n (held k) i (c_size c).
Proof.
  intros G N. destruct (strict_good G) as [W L]. exists (c_keys c). split; [apply sorted_keys_NoDup; exact (proj1 (W i c N))|]. split; [|unfold c_size, c_keys; reflexivity].
  intros id. rewrite (@keys_at _ _ _ id W N), (strict_length G), (strict_held G). tauto.
Qed.
Lemma strict_coll_max n m k i c : strict_group n m k -> nth_error (k_prim k) i = Some c -> c_max c = m.
Proof.
  intros G N. pose proof G as (_ & _ & M & _). apply (map_nth_error c_max) in N. rewrite M in N. apply nth_error_In in N. now apply repeat_spec in N.
Qed.
(** nothing more than the places *)
Lemma strict_bound n m k z : strict_group n m k -> has_size (held k) z -> z <= Z.of_nat n * m.
Proof.
  intros G H. pose proof (has_size_unique _ _ _ H (strict_size G)) as ->. rewrite <- (strict_max G). apply within_size. apply G.
Qed.
Lemma strict_read n m id d k : strict_group n m k -> encodable id -> k_read id d k = Ok (get (held k) d id).
Proof. intros (O & _ & _ & _ & T & _) E. destruct (@read_held _ _ d O E) as [R1 R2]. unfold get. destruct (held k id) as [v|] eqn:H; eauto. Qed.
Lemma strict_has n m id k : strict_group n m k -> encodable id -> exists x, k_has id k = Ok x /\ (x =? 0) = match held k id with Some _ => false | None => true end.
Proof.
  intros (O & _) E. destruct (@has_iff_held _ _ O E) as (x & H & P & Q). exists x. split; auto. destruct (held k id) as [v|].
  - apply Z.eqb_neq. assert (0 < x) by (apply Q; discriminate). lia.
  - apply Z.eqb_eq. destruct (Z.eq_dec x 0); auto. exfalso. assert (X : 0 < x) by lia. apply Q in X. congruence.
Qed.
Lemma write_within id v k : k_ok k -> Forall within (k_prim k) -> Forall within (k_prim (fst (k_write id v k))).
Proof.
  intros (_ & IP & ALL) F. destruct (ALL _ IP) as [Lp [Wp Gp]]. fold (k_prim k) in Wp, Gp. unfold k_write.
  destruct (@g_step_spec (k_prim k) (Insert id v) Wp Gp I) as (W1 & L1 & _). pose proof (@g_step_within (k_prim k) (Insert id v) Wp I I F) as F1.
  rewrite g_insert_step in W1, L1, F1. cbn [fst] in W1, L1, F1.
  destruct (g_insert id v (k_prim k)) as [g [z|e]] eqn:GI; cbn [fst] in *.
  - destruct (z =? 0).
    + assert (WO : wf_op (Update [(id, v)])) by (cbn; constructor; [intros []|constructor]). pose proof (@g_step_within g (Update [(id, v)]) W1 WO I F1) as F2. rewrite g_update_step in F2. cbn [fst] in F2.
      destruct (g_update [(id, v)] g) as [g' [u|e]]; simpl in *; unfold k_prim at 1; simpl; rewrite grp_set_same; auto.
    + simpl. unfold k_prim at 1. simpl. rewrite grp_set_same; auto.
  - simpl. unfold k_prim at 1. simpl. rewrite grp_set_same; auto.
Qed.
Lemma strict_write n m id v k : strict_group n m k -> encodable id -> truthy v = true ->
  (exists k' r, k_write id v k = (k', Ok r) /\ strict_group n m k' /\ bound (held k) id v (held k') /\ r = match held k id with Some _ => None | None => Some 1 end /\
     collection_room n m (held k) id /\ (held k id <> None \/ some_room n m (held k))) \/
  (k_write id v k = (k, Err GroupCapacityError) /\ held k id = None /\ all_full n m (held k)) \/
  (k_write id v k = (k, Err CollectionCapacityError) /\ collection_full n m (held k) id /\ (held k id <> None \/ some_room n m (held k))).
Proof.
  intros G E T. pose proof G as (O & EG & MX & WI & TR & NP). destruct (k_write_spec id v O) as (p' & WR & GG & EQ). pose proof (strict_good G) as [W L].
  pose proof (strict_length G) as LN. destruct (@index_total id n E NP) as (i & RI & IL). assert (exists c, nth_error (k_prim k) i = Some c) as [c NC] by (destruct (nth_error (k_prim k) i) eqn:Q; [eauto|apply nth_error_None in Q; lia]).
  pose proof (@strict_sharing n m k i c G NC) as SH. pose proof (@strict_coll_max n m k i c G NC) as CM. pose proof (strict_size G) as HS. pose proof (strict_max G) as GM. pose proof (strict_all G) as GS.
  pose proof (strict_held G id) as HI. pose proof (g_has_size (k_prim k) W) as HS0.
  assert (SAME : set_grp (k_primary k) (k_prim k) k = k) by (apply set_grp_id; apply O; apply O).
  assert (NR : (forall e, ~ g_raises (k_prim k) (g_abs (k_prim k)) (Insert id v) e) -> collection_room n m (held k) id /\ (held k id <> None \/ some_room n m (held k))).
  { intros X. assert (D : held k id <> None \/ some_room n m (held k)).
    { destruct (held k id) as [x|] eqn:Q; [left; discriminate|]. right. destruct (Z_lt_le_dec (g_size (k_prim k)) (Z.of_nat n * m)) as [Y|Y]; [now exists (g_size (k_prim k))|]. exfalso.
      apply (X GroupCapacityError). apply raise_g_full with (g_size (k_prim k)); auto. lia. }
    split; [|exact D]. exists i, (c_size c). split; [exact RI|]. split; [exact SH|]. destruct (Z_lt_le_dec (c_size c) m) as [Y|Y]; [exact Y|]. exfalso.
    apply (X CollectionCapacityError). apply raise_g_coll with (g_size (k_prim k)) i c; auto; [now rewrite LN| |now rewrite Forall_forall in WI; apply (WI c), (nth_error_In _ _ NC)|lia].
    destruct D as [D|(z & Z1 & Z2)]; [right; left; congruence|]. left. pose proof (has_size_unique _ _ _ Z1 HS). lia. }
  destruct (k_write id v k) as [k1 r] eqn:KW. cbn [fst snd] in *.
  assert (KEEP : forall r', r = Ok r' -> bound (g_abs (k_prim k)) id v (g_abs p') -> strict_group n m k1 /\ bound (held k) id v (held k1)).
  { intros r' -> B. assert (KP : k_prim k1 = p') by (rewrite EQ; apply grp_set_same; apply O; apply O). assert (G1 : k_groups k1 = [k_primary k1]) by (rewrite EQ; exact EG).
    assert (H1 : forall j, held k1 j = g_abs p' j) by (intros j; rewrite <- KP; eapply prim_single; eauto).
    assert (BB : bound (held k) id v (held k1)) by (destruct B as [B1 B2]; split; [now rewrite H1|intros j N; rewrite H1, (strict_held G); auto]).
    split; [|exact BB]. pose proof (k_write_ok id v O) as O1. pose proof (write_within id v O WI) as W1. pose proof (write_limits id v k) as LM. rewrite KW in O1, W1, LM. cbn [fst] in *.
    split; [exact O1|]. split; [exact G1|]. split.
    - destruct LM as (LG & LP & LL). unfold k_prim. rewrite <- nth_lims, LL, LP, nth_lims. exact MX.
    - split; [exact W1|]. split; [|exact NP]. intros j w H. destruct BB as [B1 B2]. destruct (str_dec j id) as [->|N]; [congruence|]. rewrite B2 in H by auto. eauto. }
  inversion WR as [q N1 N2 B|w q N1 N2 N3 B|e RS|w N1 N2 N3 N4]; subst.
  - left. destruct (KEEP _ eq_refl B) as [K1 K2]. destruct (NR N2) as [R1 R2]. exists (set_grp (k_primary k) p' k), (Some 1). split; [reflexivity|]. split; [exact K1|]. split; [exact K2|]. rewrite HI, N1 in *. auto.
  - left. destruct (KEEP _ eq_refl B) as [K1 K2]. destruct (NR N2) as [R1 R2]. exists (set_grp (k_primary k) p' k), None. split; [reflexivity|]. split; [exact K1|]. split; [exact K2|]. rewrite HI, N1 in *. auto.
  - right. rewrite SAME. inversion RS as [o k0 K0 NE0|k0 v0 n0 EN0 ST0 HZ LE0 NONE0|k0 v0 n0 i0 c0 R0 C0 HZ D0 ST0 LE0| | | |]; subst.
    + cbn in K0. subst. contradiction.
    + left. split; [reflexivity|]. split; [congruence|]. exists (g_size (k_prim k)). split; [exact HS|]. pose proof (has_size_unique _ _ _ HZ HS0). lia.
    + right. split; [reflexivity|]. rewrite R0 in RI. injection RI as ->. rewrite NC in C0. injection C0 as <-. split; [exists i, (c_size c); auto|].
      destruct D0 as [D0|[D0|D0]]; [right|left; congruence|congruence]. exists (g_size (k_prim k)). split; [exact HS|]. pose proof (has_size_unique _ _ _ HZ HS0). lia.
  - exfalso. pose proof (within_size WI). lia.
Qed.
Lemma strict_delete n m id k : strict_group n m k -> encodable id ->
  exists k' l, k_delete id k = (k', Ok l) /\ strict_group n m k' /\
    ((exists w, held k id = Some w /\ l = [w] /\ removed (held k) id (held k')) \/ (held k id = None /\ l = [] /\ k' = k)).
Proof.
  intros G E. pose proof G as (O & EG & MX & WI & T & NP). pose proof O as (ND & IP & ALL). destruct (ALL _ IP) as [Lp Gp].
  assert (HP : forall k0, k_groups k0 = [k_primary k0] -> forall j, held k0 j = g_abs (k_prim k0) j) by (intros k0 E0 j; eapply prim_single; eauto).
  pose proof (delete_limits id (k_groups k) k) as LM. unfold k_delete. rewrite EG in *. simpl in *. destruct (@strict_has n m id k G E) as (x & HN & Z). rewrite HN, Z in *. destruct (held k id) as [w|] eqn:H.
  - rewrite HP in H by auto. destruct (@pop_hit _ _ _ Gp H) as (g' & PE & GG & [R1 R2]). rewrite PE in *. eexists _, [w]. split; [reflexivity|]. simpl in LM.
    set (k' := set_grp (k_primary k) g' k) in *. assert (P' : k_prim k' = g') by (apply grp_set_same; auto).
    assert (RM : removed (held k) id (held k')).
    { split; [|intros j N]; rewrite !HP by auto; rewrite P'; auto. }
    split.
    + split; [apply set_grp_ok; [exact O| rewrite EG; now left|exact GG]|]. split; [exact EG|]. split; [|split; [|split; [|exact NP]]].
      * destruct LM as (LG & LP & LL). unfold k_prim. rewrite <- nth_lims, LL, LP, nth_lims. exact MX.
      * rewrite P'. destruct Gp as [Wp Lq]. pose proof (@g_step_within (k_prim k) (Pop id VNone) Wp I I WI) as F1. rewrite g_pop_step in F1. cbn [fst] in F1. unfold k_prim in F1. rewrite PE in F1. exact F1.
      * intros j v HJ. destruct RM as [M1 M2]. destruct (str_dec j id) as [->|N]; [congruence|]. rewrite M2 in HJ by auto. eauto.
    + left. exists w. auto.
  - exists k, []. split; auto.
Qed.
Lemma strict_step n m cmd k : strict_group n m k -> good_call cmd ->
  strict_call n m (held k) cmd (held (fst (conn_sem cmd k))) (snd (conn_sem cmd k)) /\ strict_group n m (fst (conn_sem cmd k)) /\ (forall e, snd (conn_sem cmd k) = Err e -> fst (conn_sem cmd k) = k).
Proof.
  intros G GC. assert (SM : same (held k) (held k)) by (intros j; reflexivity).
  destruct cmd as [id v|id v|id|id d|[id|ids|]]; simpl in *.
  - destruct GC as [E TV]. destruct (@strict_has n m id k G E) as (x & HN & Z). unfold do_create. rewrite HN, Z. destruct (held k id) as [w|] eqn:H.
    + simpl. split; [|auto]. apply sk_plain; [intros j [<- J]; congruence|]. eapply mc_exists; eauto.
    + destruct (@strict_write n m id v k G E TV) as [(k' & r & W & G' & B & R & R1 & R2)|[(W & N & F)|(W & F & D)]]; rewrite W.
      * rewrite H in R. subst r. simpl. split; [|split; [exact G'|discriminate]]. apply sk_plain; [intros j [<- J]; auto|]. now apply mc_create.
      * simpl. split; [|auto]. now apply sk_group with id.
      * simpl. split; [|auto]. now apply sk_collection with id.
  - destruct GC as [E TV]. unfold do_update. rewrite (@strict_read n m) by auto.
    destruct (@strict_write n m id v k G E TV) as [(k' & r & W & G' & B & R & R1 & R2)|[(W & N & F)|(W & F & D)]]; rewrite W.
    + simpl. split; [|split; [exact G'|discriminate]]. apply sk_plain; [intros j <-; auto|]. now apply mc_update.
    + simpl. split; [|auto]. now apply sk_group with id.
    + simpl. split; [|auto]. now apply sk_collection with id.
  - destruct (@strict_delete n m id k G GC) as (k' & l & D & G' & C). unfold do_delete. rewrite D. simpl. split; [|split; [exact G'|discriminate]]. apply sk_plain; [intros j []|].
    destruct C as [(w & H & -> & R)|(H & -> & ->)]; [eapply mc_delete; eauto|now apply mc_nothing].
  - rewrite (@strict_read n m) by auto. simpl. split; [|split; [exact G|discriminate]]. apply sk_plain; [intros j []|]. now apply mc_read.
  - destruct (@strict_has n m id k G GC) as (x & HN & Z). rewrite HN, Z. split; [|auto]. apply sk_plain; [intros j []|]. destruct (held k id) as [w|] eqn:H; [|now apply mc_noitem].
    rewrite (@strict_read n m) by auto. simpl. unfold get. rewrite H. now apply mc_item.
  - split; [|auto]. apply sk_plain; [intros j []|]. assert (M : mapM (fun id => k_read id VNone k) ids = Ok (map (get (held k) VNone) ids)).
    { induction GC as [|id ids E F IH]; auto. simpl. rewrite (@strict_read n m) by auto. now rewrite IH. }
    rewrite M. assert (X : forall id, truthy (get (held k) VNone id) = match held k id with Some _ => true | None => false end).
    { intros id. unfold get. destruct (held k id) as [v|] eqn:H; auto. destruct G as (_ & _ & _ & _ & T & _). eauto. }
    destruct (existsb truthy (map (get (held k) VNone) ids)) eqn:EX.
    + apply mc_items; auto. apply existsb_exists in EX. destruct EX as (v & J & T). apply in_map_iff in J. destruct J as (id & <- & J). rewrite X in T.
      apply Exists_exists. exists id. split; auto. destruct (held k id); discriminate.
    + apply mc_noitems; auto. apply Forall_forall. intros id J. destruct (held k id) as [v|] eqn:H; auto.
      assert (Y : existsb truthy (map (get (held k) VNone) ids) = true); [|congruence].
      apply existsb_exists. exists (get (held k) VNone id). split; [now apply in_map|]. now rewrite X, H.
  - split; [|auto]. apply sk_plain; [intros j []|]. now apply mc_index.
Qed.

(** ** Sessions *)
Definition strict_conn n m (c : conn container) : Prop := strict_group n m (n_work c) /\ strict_group n m (n_saved c) /\ (n_failed c = true -> n_work c = n_saved c).
Definition sstate_of (c : conn container) : sstate := mkS (n_calls c) (held (n_work c)) (held (n_saved c)) (n_auto c) (n_failed c).
Lemma strict_hop n m b o c c' os : strict_conn n m c -> good_hop o -> s_hop b o c = (c', os) -> sstep (strict_call n m) b (sstate_of c) o os (sstate_of c') /\ strict_conn n m c'.
Proof.
  intros (GW & GS & NF) GO E. destruct o as [cmd|a|f| |[|]]; cbn [s_hop] in E.
  - simpl in GO. destruct (conn_is_read cmd) eqn:D.
    + assert (X : exec conn_calls b cmd c = (c, snd (conn_sem cmd (n_work c)))) by (unfold exec, perform; simpl; now rewrite D). rewrite X in E. injection E as <- <-. split; [|now split].
      destruct (@strict_step n m cmd _ GW GO) as [MC _]. assert (KE : fst (conn_sem cmd (n_work c)) = n_work c) by (destruct cmd; try discriminate; reflexivity). rewrite KE in MC. now apply ts_read.
    + destruct (n_auto c) eqn:A.
      * destruct (@strict_step n m cmd _ GS GO) as (MC & G' & Y).
        unfold exec, autocommitted, perform in E. cbn -[conn_sem] in E. rewrite D, A in E. cbn -[conn_sem] in E. destruct (conn_sem cmd (n_saved c)) as [k1 [r|e]] eqn:SE; cbn [fst snd] in *.
        -- unfold tm_exit, tm_commit in E. cbn -[conn_sem] in E. destruct (b (n_calls c)) as [e|] eqn:B; cbn -[conn_sem] in E; injection E as <- <-; (split; [|unfold strict_conn; cbn; auto]); unfold sstate_of; cbn; rewrite A.
           ++ eapply ts_commit_fails; eauto.
           ++ eapply ts_commit; eauto.
        -- specialize (Y e eq_refl). subst k1. unfold tm_exit in E. cbn -[conn_sem] in E. injection E as <- <-. split; [|split; [exact GS|split; [exact GS|discriminate]]]. unfold sstate_of; cbn; rewrite A. eapply ts_refused; eauto.
      * destruct (@strict_step n m cmd _ GW GO) as (MC & G' & _). rewrite exec_off in E by auto. unfold perform in E. simpl is_read in E. rewrite D in E. destruct (n_failed c) eqn:Nf.
        -- injection E as <- <-. split; [|split; [exact GW|split; [exact GS|intros _; auto]]]. unfold sstate_of. rewrite A, Nf. now apply ts_in_failed.
        -- change (sem conn_calls cmd (n_work c)) with (conn_sem cmd (n_work c)) in E. destruct (conn_sem cmd (n_work c)) as [k1 r] eqn:SE. cbn [fst snd] in *. injection E as <- <-.
           split; [|split; [exact G'|split; [exact GS|cbn [n_failed put]; congruence]]]. unfold sstate_of. cbn. rewrite A, Nf. now apply ts_pending.
  - injection E as <- <-. split; [constructor|]. now split.
  - injection E as <- <-. split; [constructor|]. split; [exact GS|]. now split.
  - injection E as <- <-. split; [constructor|]. split; [exact GS|]. now split.
  - unfold conn_exit in E. cbn in E. injection E as <- <-. split; [constructor|]. split; [exact GS|]. now split.
  - unfold conn_exit, tm_exit, tm_commit in E. cbn in E. destruct (n_failed c) eqn:Nf; [|destruct (b (n_calls c)) as [e|] eqn:B]; cbn in E; injection E as <- <-; unfold sstate_of; cbn; rewrite ?Nf.
    + split; [apply ts_leave_failed|]. split; [exact GW|]. split; [exact GS|]. cbn. auto.
    + split; [now apply ts_leave_fails|]. split; [exact GS|]. now split.
    + split; [now apply ts_leave|]. split; [exact GW|]. now split.
Qed.
Lemma strict_hops n m b ops : forall c c' os, strict_conn n m c -> Forall good_hop ops -> s_hops b ops c = (c', os) -> ssession (strict_call n m) b (sstate_of c) ops os (sstate_of c') /\ strict_conn n m c'.
Proof.
  induction ops as [|o ops IH]; intros c c' os G F E; cbn [s_hops] in E; [injection E as <- <-; split; [constructor|exact G]|]. apply Forall_cons_iff in F. destruct F as [GO F].
  destruct (s_hop b o c) as [c1 os1] eqn:E1. destruct (s_hops b ops c1) as [c2 os2] eqn:E2. injection E as <- <-. destruct (@strict_hop n m b o c c1 os1 G GO E1) as [X G1]. destruct (IH _ _ _ G1 F E2) as [Y G2]. split; [|exact G2]. econstructor; [exact X|exact Y].
Qed.
Lemma fresh_strict u0 cap mcs k : sizable cap mcs -> container_new u0 cap mcs true = Ok k -> exists n m, strict_group n m k /\ cap <= Z.of_nat n * m /\ k_capacity k = Z.of_nat n * m /\ forall id, held k id = None.
Proof.
  intros SZ E. destruct (@container_new_spec u0 cap mcs true SZ) as (k1 & n & m & E1 & G & O & HN & M & Hn & Hm & S & FR & C & LE). rewrite E in E1. injection E1 as <-.
  exists (Z.to_nat n), m. rewrite Z2Nat.id by lia. split; [|split; [exact LE|split; [exact C|exact HN]]]. split; [exact O|]. split; [exact G|]. split; [exact M|]. split; [|split; [intros id v H; now rewrite HN in H|lia]].
  assert (MX : forall c, In c (k_prim k) -> c_max c = m) by (intros c I; apply (in_map c_max) in I; rewrite M in I; now apply repeat_spec in I).
  unfold g_fresh in FR. rewrite Forall_forall in *. intros c I. split; [auto|]. rewrite (MX c I). split; [lia|]. rewrite c_size_tree, (FR c I). cbn. lia.
Qed.

(** ** The specification leaves nothing open *)
Lemma sharing_unique n M M2 i z z2 : same M M2 -> sharing n M i z -> sharing n M2 i z2 -> z = z2.
Proof.
  intros S (l & N & I & E) (l2 & N2 & I2 & E2). subst. f_equal. apply Nat.le_antisymm; apply NoDup_incl_length; auto; intros id J.
  - apply I2. apply I in J. rewrite <- (S id) in J. exact J.
  - apply I. apply I2 in J. rewrite (S id) in J. exact J.
Qed.
Lemma sharing_ext n M M2 i z : same M M2 -> sharing n M i z -> sharing n M2 i z.
Proof. intros S (l & N & I & E). exists l. split; [exact N|]. split; [|exact E]. intros id. rewrite (S id). apply I. Qed.
Lemma room_not_full n m M M2 id : same M M2 -> collection_room n m M id -> collection_full n m M2 id -> False.
Proof. intros S (i & z & R & H & L) (i2 & z2 & R2 & H2 & L2). rewrite R in R2. injection R2 as <-. pose proof (sharing_unique S H H2). lia. Qed.
Lemma some_not_all n m M M2 : same M M2 -> some_room n m M -> all_full n m M2 -> False.
Proof. intros S (z & H & L) (z2 & H2 & L2). assert (X : has_size M2 z) by (eapply has_size_same; [|exact H]; intros id; apply S). pose proof (has_size_unique _ _ _ X H2). lia. Qed.
Lemma writes_ext M M2 c id : same M M2 -> writes M c id -> writes M2 c id.
Proof. intros S. destruct c; cbn; rewrite ?(S id); auto. Qed.
Lemma writes_one M M2 c id id2 : writes M c id -> writes M2 c id2 -> id = id2.
Proof. destruct c; cbn; try contradiction; [intros [-> _] [-> _]|intros -> ->]; reflexivity. Qed.
Lemma same_flip (M M2 : amap) : same M M2 -> same M2 M.
Proof. intros S id. symmetry. apply S. Qed.
Lemma strict_call_det n m M c M1 r1 : strict_call n m M c M1 r1 -> forall M2 M2' r2, same M M2 -> strict_call n m M2 c M2' r2 -> r1 = r2 /\ same M1 M2'.
Proof.
  intros H M2 M2' r2 S H2. assert (S' := same_flip S).
  assert (MM : same M M1 -> same M2 M2' -> same M1 M2') by (intros X Y id; rewrite (Y id), (S id); symmetry; apply X).
  destruct H as [r W MC|id W N F X|id W F D X]; destruct H2 as [r' W2 MC2|id2 W2 N2 F2 X2|id2 W2 F2 D2 X2].
  - eapply map_call_det; eauto.
  - exfalso. destruct (W id2 (@writes_ext _ _ _ _ S' W2)) as [_ [Q|Q]]; [apply Q; rewrite <- (S id2); exact N2|exact (some_not_all S Q F2)].
  - exfalso. destruct (W id2 (@writes_ext _ _ _ _ S' W2)) as [Q _]. exact (room_not_full S Q F2).
  - exfalso. destruct (W2 id (@writes_ext _ _ _ _ S W)) as [_ [Q|Q]]; [apply Q; rewrite (S id); exact N|exact (some_not_all S' Q F)].
  - split; [reflexivity|auto].
  - exfalso. pose proof (@writes_one _ _ _ _ _ W W2). subst id2. destruct D2 as [Q|Q]; [apply Q; rewrite (S id); exact N|exact (some_not_all S' Q F)].
  - exfalso. destruct (W2 id (@writes_ext _ _ _ _ S W)) as [Q _]. exact (room_not_full S' Q F).
  - exfalso. pose proof (@writes_one _ _ _ _ _ W W2). subst id2. destruct D as [Q|Q]; [apply Q; rewrite <- (S id); exact N2|exact (some_not_all S Q F2)].
  - split; [reflexivity|auto].
Qed.
Lemma strict_call_ext n m M c M' r M2 : same M M2 -> strict_call n m M c M' r -> strict_call n m M2 c M' r.
Proof.
  intros S H. assert (S' := same_flip S).
  assert (CF : forall id, collection_full n m M id -> collection_full n m M2 id) by (intros id (i & z & A & B & C); exists i, z; split; [exact A|]; split; [exact (sharing_ext S B)|exact C]).
  assert (CR : forall id, collection_room n m M id -> collection_room n m M2 id) by (intros id (i & z & A & B & C); exists i, z; split; [exact A|]; split; [exact (sharing_ext S B)|exact C]).
  assert (SZ : forall z, has_size M z -> has_size M2 z) by (intros z; apply has_size_same; intros id; apply S).
  assert (SR : some_room n m M -> some_room n m M2) by (intros (z & A & B); exists z; auto).
  assert (DD : forall id, (M id <> None \/ some_room n m M) -> (M2 id <> None \/ some_room n m M2)) by (intros id [Q|Q]; [left; now rewrite (S id)|auto]).
  assert (XX : same M M' -> same M2 M') by (intros X id; rewrite (S id); apply X).
  destruct H as [r W MC|id W N F X|id W F D X].
  - apply sk_plain; [|eapply map_call_ext; eauto]. intros id Q. destruct (W id (@writes_ext _ _ _ _ S' Q)) as [A B]. auto.
  - apply sk_group with id; auto; [exact (@writes_ext _ _ _ _ S W)|now rewrite (S id)|]. destruct F as (z & A & B). exists z. auto.
  - apply sk_collection with id; auto. exact (@writes_ext _ _ _ _ S W).
Qed.
Definition ssame (t t2 : sstate) : Prop := s_n t = s_n t2 /\ same (s_work t) (s_work t2) /\ same (s_saved t) (s_saved t2) /\ s_auto t = s_auto t2 /\ s_failed t = s_failed t2.
Definition call_det (call : amap -> ccmd -> amap -> res cres -> Prop) : Prop := forall M c M1 r1, call M c M1 r1 -> forall M2 M2' r2, same M M2 -> call M2 c M2' r2 -> r1 = r2 /\ same M1 M2'.
Definition call_ext (call : amap -> ccmd -> amap -> res cres -> Prop) : Prop := forall M c M' r M2, same M M2 -> call M c M' r -> call M2 c M' r.
Lemma sstep_det call b t o os1 t1 : call_det call -> sstep call b t o os1 t1 -> forall t' os2 t2, ssame t t' -> sstep call b t' o os2 t2 -> os1 = os2 /\ ssame t1 t2.
Proof.
  intros CD H [n' w' s' a' f'] os2 t2 (M1 & M2 & M3 & M4 & M5) H2. destruct H; cbn in M1, M2, M3, M4, M5; subst; inversion H2; subst; try discriminate;
    try match goal with X : conn_is_read ?c = true, Y : conn_is_read ?c = false |- _ => rewrite X in Y; discriminate Y end;
    try match goal with
        | X : call ?m1 ?c ?m1' ?r1, Y : call ?m2 ?c ?m2' ?r2, Z : same ?m1 ?m2 |- _ => destruct (CD _ _ _ _ X _ _ _ Z Y) as [E1 E2]; try discriminate E1; try injection E1 as E1
        end; subst;
    try match goal with
        | X : b ?n = Some _, Y : b ?n = Some _ |- _ => rewrite X in Y; injection Y as Y; subst
        | X : b ?n = Some _, Y : b ?n = None |- _ => rewrite X in Y; discriminate Y
        | X : b ?n = None, Y : b ?n = Some _ |- _ => rewrite X in Y; discriminate Y
        end;
    (split; [reflexivity|]); unfold ssame; cbn [s_n s_work s_saved s_auto s_failed]; repeat (split; [first [reflexivity|assumption]|]); reflexivity.
Qed.
Lemma ssession_det call b t ops os1 t1 : call_det call -> ssession call b t ops os1 t1 -> forall t' os2 t2, ssame t t' -> ssession call b t' ops os2 t2 -> os1 = os2 /\ ssame t1 t2.
Proof.
  intros CD. induction 1 as [|ta o osa tb ops osb tc S _ IH]; intros t' os2 t2 M H2; inversion H2 as [|? ? o1 m3 ? o2 ? S2 R2]; subst; [auto|].
  destruct (sstep_det CD S M S2) as [-> M']. destruct (IH _ _ _ M' R2) as [-> M'']. auto.
Qed.
Lemma sstep_ext call b t o os t1 t' : call_ext call -> ssame t t' -> sstep call b t o os t1 -> exists t1', sstep call b t' o os t1' /\ ssame t1 t1'.
Proof.
  intros CE (M1 & M2 & M3 & M4 & M5) H. destruct t' as [n2 w2 s2 a2 f2]. destruct H; cbn in M1, M2, M3, M4, M5; subst;
    repeat match goal with S : same ?m ?m2, X : call ?m _ _ _ |- _ => apply (CE _ _ _ _ _ S) in X end;
    eexists; (split; [econstructor; eassumption|]); unfold ssame; cbn [s_n s_work s_saved s_auto s_failed]; repeat (split; [first [reflexivity|assumption|apply SessionFacts.same_refl]|]); reflexivity.
Qed.
Lemma ssession_ext call b t ops os t1 : call_ext call -> ssession call b t ops os t1 -> forall t', ssame t t' -> exists t1', ssession call b t' ops os t1' /\ ssame t1 t1'.
Proof.
  intros CE. induction 1 as [t|ta o osa tb ops osb tc S _ IH]; intros t' M; [exists t'; split; [constructor|exact M]|].
  destruct (sstep_ext CE M S) as (t2 & S' & M'). destruct (IH _ M') as (t3 & R & M''). exists t3. split; [econstructor; eassumption|exact M''].
Qed.
Theorem strict_new b u0 cap mcs k flag c ops c' os : sizable cap mcs -> container_new u0 cap mcs true = Ok k -> connect (Some k) true flag = Ok c -> Forall good_hop ops -> s_hops b ops c = (c', os) ->
  exists n m w s, k_capacity k = Z.of_nat n * m /\ cap <= Z.of_nat n * m /\
    ssession (strict_call n m) b (mkS 0 empty_map empty_map true false) ops os (mkS (n_calls c') w s (n_auto c') (n_failed c')) /\
    (forall id, held (n_work c') id = w id) /\ (forall id, held (n_saved c') id = s id) /\ (forall z, has_size w z -> z <= k_capacity k) /\ (forall z, has_size s z -> z <= k_capacity k).
Proof.
  intros SZ E CN F R. destruct (@fresh_strict u0 cap mcs k SZ E) as (n & m & G & LE & C & HN). cbn in CN. injection CN as <-.
  assert (G0 : strict_conn n m (mkConn k k [] true flag false O)) by (split; [exact G|]; split; [exact G|]; reflexivity).
  destruct (@strict_hops n m b ops _ c' os G0 F R) as [S (GW & GS & _)]. unfold sstate_of in S at 1. cbn in S.
  assert (M0 : ssame (mkS 0 (held k) (held k) true false) (mkS 0 empty_map empty_map true false)) by (unfold ssame; cbn; split; [reflexivity|]; split; [intros id; symmetry; apply HN|]; split; [intros id; symmetry; apply HN|]; auto).
  destruct (@ssession_ext _ b _ ops os _ (fun M c M' r M2 => @strict_call_ext n m M c M' r M2) S _ M0) as ([i w s a f] & S' & (X1 & X2 & X3 & X4 & X5)). cbn in X1, X2, X3, X4, X5. subst i a f.
  exists n, m, w, s. split; [exact C|]. split; [exact LE|]. split; [exact S'|]. split; [intros id; symmetry; apply X2|]. split; [intros id; symmetry; apply X3|]. rewrite C. split; intros z Z; [apply (strict_bound GW)|apply (strict_bound GS)]; (eapply has_size_same; [|exact Z]); intros id; symmetry; [apply X2|apply X3].
Qed.
Theorem strict_determined n m b t ops os1 t1 os2 t2 : ssession (strict_call n m) b t ops os1 t1 -> ssession (strict_call n m) b t ops os2 t2 ->
  os1 = os2 /\ (forall id, s_work t1 id = s_work t2 id) /\ (forall id, s_saved t1 id = s_saved t2 id) /\ s_n t1 = s_n t2 /\ s_auto t1 = s_auto t2 /\ s_failed t1 = s_failed t2.
Proof.
  intros H H2. assert (M : ssame t t) by (unfold ssame; split; [reflexivity|]; split; [intro; reflexivity|]; split; [intro; reflexivity|]; auto).
  destruct (@ssession_det _ b _ _ _ _ (fun M c M1 r1 X => @strict_call_det n m M c M1 r1 X) H _ _ _ M H2) as [-> (A & B & C & D & E)]. split; [reflexivity|]. split; [intro id; symmetry; apply B|]. split; [intro id; symmetry; apply C|]. auto.
Qed.
