(** ContainerConnection: create, update, delete, read, indexing, histories *)
From Verif Require Import Base BaseFacts Value BTree Collection SpecMap Group RoutingFacts GroupFacts GroupCapFacts GroupNewFacts StorageThms
  Container ContainerFacts CondenseFacts ResizeFacts ContainerThms Txn TxnFacts Connection.
Open Scope Z_scope.
Set Implicit Arguments.

(** the state a mutator of the connection sees: with autocommit on, the call begins a transaction of its own *)
Definition seen (c : conn container) : container := if n_auto c then n_saved c else n_work c.

Lemma reach_step k o : k_reachable k -> kop_ok o -> k_reachable (k_step k o).
Proof.
  intros (k0 & ops & KS & F & ->) H. exists k0, (ops ++ [o]). split; auto. split; [apply Forall_app; auto|].
  unfold k_run. now rewrite fold_left_app.
Qed.
Lemma sem_reach cmd k : k_reachable k -> k_reachable (fst (conn_sem cmd k)).
Proof.
  intros H. destruct cmd as [id v|id v|id|id d|i]; simpl; auto.
  - unfold do_create. destruct (k_has id k); auto. destruct (Z.eqb a 0); auto. pose proof (@reach_step k (KWrite id v) H Logic.I) as W. simpl in W.
    destruct (k_write id v k) as [k1 [[z|]|e]]; auto.
  - unfold do_update. destruct (k_read id VNone k); auto. pose proof (@reach_step k (KWrite id v) H Logic.I) as W. simpl in W.
    destruct (k_write id v k) as [k1 [r|e]]; auto.
  - unfold do_delete. pose proof (@reach_step k (KDelete id) H Logic.I) as W. simpl in W. destruct (k_delete id k) as [k1 [r|e]]; auto.
Qed.

Lemma held_in k id v : held k id = Some v -> exists i, In i (k_groups k) /\ g_abs (grp k i) id = Some v.
Proof.
  unfold held, maps. induction (k_groups k) as [|i l IH]; simpl; [discriminate|]. destruct (g_abs (grp k i) id) as [w|] eqn:E.
  - intros [= <-]. exists i. auto.
  - intros H. destruct (IH H) as (j & J & E'). exists j. auto.
Qed.
Lemma held_enc k id v : k_ok k -> held k id = Some v -> encodable id.
Proof. intros (_ & _ & ALL) H. destruct (@held_in k id v H) as (i & J & E). destruct (ALL _ J) as [_ G]. eapply held_encodable; eauto. Qed.
Lemma held_write k id v r : k_ok k -> primary_first k -> snd (k_write id v k) = Ok r -> bound (held k) id v (held (fst (k_write id v k))).
Proof.
  intros O (rest & EG) H. destruct (@write_effect _ _ _ _ O H) as (_ & G' & P' & _ & [B1 B2] & FR).
  assert (EG' : k_groups (fst (k_write id v k)) = k_primary (fst (k_write id v k)) :: rest) by congruence.
  split.
  - rewrite (@held_split _ rest _ EG'), B1. reflexivity.
  - intros j N. rewrite (@held_split _ rest _ EG'), (@held_split _ rest _ EG), B2 by auto. destruct (g_abs (k_prim k) j); auto.
    apply first_held_ext. intros i I. rewrite FR; auto. destruct O as (ND & _). rewrite EG in ND. apply NoDup_cons_iff in ND. intros ->. tauto.
Qed.
Lemma has_held k id n : k_ok k -> k_has id k = Ok n -> (n = 0 <-> held k id = None).
Proof.
  intros O H. assert (E : encodable id).
  { unfold k_has in H. pose proof O as (_ & IP & ALL). destruct (mapM _ (k_groups k)) as [bs|e] eqn:M; [|discriminate].
    destruct (k_groups k) as [|i l] eqn:EG; [destruct IP|]. simpl in M. destruct (g_has_key id (grp k i)) as [bb|e] eqn:HK; [|discriminate].
    destruct (ALL i) as [_ [_ L]]; [simpl; auto|]. revert HK. unfold g_has_key, groupfn. destruct (get_group_index id (length (grp k i))) as [x|e] eqn:GI; [|simpl; discriminate].
    intros _. destruct (encodable_dec id) as [D|D]; auto. rewrite (index_err id _ D) in GI. discriminate. }
  destruct (@has_iff_held _ _ O E) as (n' & E' & P & Q). rewrite H in E'. injection E' as <-. destruct (held k id); split; intros X; try discriminate; try lia; auto.
  - destruct Q as [_ Q]. assert (0 < n) by (apply Q; discriminate). lia.
  - destruct (Z.eq_dec n 0); auto. assert (0 < n) by lia. apply Q in H0. congruence.
Qed.

(** ** C40 *)
Lemma create_effect id v k : k_ok k -> primary_first k ->
  (exists k', do_create id v k = (k', Ok (RVal (VInt 1))) /\ held k id = None /\ bound (held k) id v (held k')) \/
  (exists e, do_create id v k = (k, Err e)).
Proof.
  intros O PF. unfold do_create. destruct (k_has id k) as [n|e] eqn:H; [|right; eauto]. destruct (Z.eqb_spec n 0) as [->|N]; [|right; eauto].
  pose proof (proj1 (@has_held _ _ _ O H) eq_refl) as HN.
  destruct (@k_write_spec _ id v O) as (p' & WR & GP & E). destruct (k_write id v k) as [k1 r] eqn:W. simpl in *.
  assert (ER : forall e, r = Err e -> k1 = k) by (intros e ->; pose proof (@k_write_err k id v e O) as X; rewrite W in X; now apply X).
  destruct r as [z|e]; [|right; exists e; rewrite (ER e); auto].
  left. assert (z = Some 1).
  { inversion WR as [? ? ? ? EZ|w ? HW ? ? ? EZ| |]; subst; auto. exfalso. destruct PF as (rest & EG). rewrite (@held_split _ rest _ EG) in HN. rewrite HW in HN. discriminate. }
  subst z. exists k1. split; auto. split; auto. pose proof (@held_write k id v (Some 1) O PF) as B. rewrite W in B. now apply B.
Qed.
Lemma create_present id v k w : k_ok k -> held k id = Some w -> do_create id v k = (k, Err ObjectOverwriteError).
Proof.
  intros O H. destruct (@has_iff_held _ _ O (@held_enc _ _ _ O H)) as (n & E & P & Q). unfold do_create. rewrite E. destruct (Z.eqb_spec n 0) as [->|N]; auto.
  exfalso. assert (0 < 0) by (apply Q; congruence). lia.
Qed.
Lemma write_relaxed k id v : k_ok k -> relaxed (k_prim k) -> encodable id -> exists r, snd (k_write id v k) = Ok r.
Proof.
  intros O R E. pose proof O as (_ & IP & ALL). destruct (ALL _ IP) as [Lp Gp]. destruct (@relaxed_insert_ok _ _ v Gp R E) as [z IZ].
  unfold k_write. destruct (g_insert id v (k_prim k)) as [g r] eqn:GI. fold (k_prim k) in IZ, Gp. rewrite GI in IZ. simpl in IZ. subst r. destruct (Z.eqb_spec z 0) as [->|N]; [|simpl; eauto].
  assert (IZ : snd (g_insert id v (k_prim k)) = Ok 0) by now rewrite GI. pose proof (@insert_present_noop _ _ _ IZ) as NO. rewrite GI in NO. simpl in NO. subst g.
  destruct (@update_one _ _ _ Gp IZ) as [_ [(S1 & _)|(_ & U & _)]].
  - exfalso. unfold g_strict in S1. destruct Gp as [_ L]. unfold k_prim in *. destruct (grp k (k_primary k)) as [|c g]; [simpl in L; lia|].
    inversion R as [|? ? C R']; subst. simpl in S1. rewrite C in S1. discriminate.
  - destruct (g_update [(id, v)] (k_prim k)) as [g' r']. simpl in U. subst r'. simpl. eauto.
Qed.

Section Conn.
Variable b : nat -> option exn.
Lemma C40_present c id v w : n_auto c = true -> k_reachable (n_saved c) -> held (n_saved c) id = Some w ->
  exists c', exec conn_calls b (CCreate id v) c = (c', Err ObjectOverwriteError) /\ n_work c' = n_saved c /\ history c' = history c.
Proof.
  intros A RE H. destruct (@k_reachable_ok _ RE) as [O PF]. unfold exec, autocommitted, perform. rewrite A. simpl.
  rewrite (@create_present _ v _ _ O H). simpl. eexists. split; [reflexivity|]. auto.
Qed.
Lemma C40_fresh c id v : n_auto c = true -> k_reachable (n_saved c) -> held (n_saved c) id = None ->
  forall c' a, exec conn_calls b (CCreate id v) c = (c', Ok a) -> a = RVal (VInt 1) /\ bound (held (n_saved c)) id v (held (n_saved c')).
Proof.
  intros A RE H c' a E. destruct (C35_lemma conn_calls b (CCreate id v) c A eq_refl) as [(a0 & c0 & E0 & SM & _)|(e & c0 & E0 & _)]; rewrite E in E0; [|discriminate].
  injection E0 as <- <-. simpl in SM. destruct (@k_reachable_ok _ RE) as [O PF].
  destruct (@create_effect id v _ O PF) as [(k' & D & _ & B)|(e & D)]; rewrite D in SM; [|discriminate]. injection SM as <- <-. auto.
Qed.
Lemma C40_accepted c id v : n_auto c = true -> k_reachable (n_saved c) -> held (n_saved c) id = None -> encodable id -> relaxed (k_prim (n_saved c)) -> b (n_calls c) = None ->
  exists c', exec conn_calls b (CCreate id v) c = (c', Ok (RVal (VInt 1))).
Proof.
  intros A RE H E R B. destruct (@k_reachable_ok _ RE) as [O PF]. destruct (@create_effect id v _ O PF) as [(k' & D & _)|(e & D)].
  - unfold exec, autocommitted, perform. rewrite A. simpl. rewrite D. simpl. unfold tm_commit. simpl. rewrite B. simpl. eauto.
  - exfalso. destruct (@has_iff_held _ _ O E) as (n & HE & P & Q). unfold do_create in D. rewrite HE in D. assert (n = 0).
    { destruct (Z.eq_dec n 0); auto. assert (X : 0 < n) by lia. apply Q in X. congruence. }
    subst n. simpl in D. destruct (@write_relaxed _ _ v O R E) as [r W]. destruct (k_write id v (n_saved c)) as [k1 r1]. simpl in W. subst r1. destruct r; discriminate.
Qed.

(** a history of creates *)
Fixpoint creates (l : list (pystr * pyval)) (c : conn container) : conn container * list (res cres) :=
  match l with
  | [] => (c, [])
  | (id, v) :: l' => let (c1, r) := exec conn_calls b (CCreate id v) c in let (c2, rs) := creates l' c1 in (c2, r :: rs)
  end.
Lemma creates_stuck l : forall c, n_auto c = false -> n_failed c = true -> fst (creates l c) = c /\ Forall (fun r => r = Err TransactionFailedError) (snd (creates l c)).
Proof.
  induction l as [|[id v] l IH]; intros c A F; simpl; auto. rewrite (stuck_raises conn_calls b (CCreate id v) c A F eq_refl).
  destruct (IH c A F) as [E1 E2]. destruct (creates l c) as [c2 rs]. simpl in *. auto.
Qed.
Lemma create_step c id v : n_auto c = true -> k_reachable (n_saved c) ->
  exists c1 r, exec conn_calls b (CCreate id v) c = (c1, r) /\ k_reachable (n_saved c1) /\
    ((r = Ok (RVal (VInt 1)) /\ n_auto c1 = true /\ held (n_saved c) id = None /\ bound (held (n_saved c)) id v (held (n_saved c1))) \/
     (exists e, r = Err e /\ n_saved c1 = n_saved c /\ (n_auto c1 = true \/ n_auto c1 = false /\ n_failed c1 = true))).
Proof.
  intros A RE. destruct (@k_reachable_ok _ RE) as [O PF]. unfold exec, autocommitted, perform. rewrite A. simpl. pose proof (@sem_reach (CCreate id v) _ RE) as RE'. simpl in RE'.
  destruct (@create_effect id v _ O PF) as [(k' & D & HN & B)|(e & D)]; rewrite D in *; simpl in *.
  - unfold tm_commit. simpl. destruct (b (n_calls c)) as [e|]; do 2 eexists; (split; [reflexivity|]); simpl; (split; [assumption|]); [right; exists e; auto|left; auto].
  - do 2 eexists. split; [reflexivity|]. simpl. split; [assumption|]. right. exists e. auto.
Qed.
Lemma C40_history l : forall c c' rs, n_auto c = true -> k_reachable (n_saved c) -> creates l c = (c', rs) ->
  length rs = length l /\
  (forall id w, held (n_saved c) id = Some w -> held (n_saved c') id = Some w) /\
  (forall i id v a, nth_error l i = Some (id, v) -> nth_error rs i = Some (Ok a) -> held (n_saved c') id = Some v) /\
  (forall id w, held (n_saved c') id = Some w -> held (n_saved c) id = Some w \/ exists i a, nth_error l i = Some (id, w) /\ nth_error rs i = Some (Ok a)).
Proof.
  induction l as [|[id v] l IH]; intros c c' rs A RE E.
  - simpl in E. injection E as <- <-. split; auto. split; auto. split; auto. intros [|i]; discriminate.
  - simpl in E. destruct (@create_step _ id v A RE) as (c1 & r & EX & RE1 & CASES). rewrite EX in E. destruct (creates l c1) as [c2 rs2] eqn:EC. injection E as <- <-.
    assert (NEXT : length rs2 = length l /\ (forall id w, held (n_saved c1) id = Some w -> held (n_saved c2) id = Some w) /\
      (forall i id v a, nth_error l i = Some (id, v) -> nth_error rs2 i = Some (Ok a) -> held (n_saved c2) id = Some v) /\
      (forall id w, held (n_saved c2) id = Some w -> held (n_saved c1) id = Some w \/ exists i a, nth_error l i = Some (id, w) /\ nth_error rs2 i = Some (Ok a))).
    { assert (C1 : n_auto c1 = true \/ n_auto c1 = false /\ n_failed c1 = true) by (destruct CASES as [(_ & X & _)|(e & _ & _ & X)]; auto).
      destruct C1 as [C1|[C1 C2]]; [now apply IH|]. destruct (creates_stuck l c1 C1 C2) as [S1 S2]. rewrite EC in *. simpl in *. subst c2.
      split; [|split; auto; split; auto].
      - clear - EC. revert c1 rs2 EC. induction l as [|[id v] l IH]; intros c1 rs2 EC; simpl in EC; [injection EC as <-; auto|].
        destruct (exec conn_calls b (CCreate id v) c1) as [c3 r]. destruct (creates l c3) as [c4 rs] eqn:E. injection EC as E1 <-. simpl. f_equal.
        assert (G : forall l c, length (snd (creates l c)) = length l).
        { clear. induction l as [|[id v] l IH]; intros c; simpl; auto. destruct (exec conn_calls b (CCreate id v) c) as [c1 r]. specialize (IH c1). destruct (creates l c1). simpl in *. auto. }
        pose proof (G l c3) as X. rewrite E in X. exact X.
      - intros i id' v' a _ Y. rewrite Forall_forall in S2. apply nth_error_In in Y. apply S2 in Y. discriminate. }
    destruct NEXT as (N0 & N1 & N2 & N3). split; [simpl; auto|]. destruct CASES as [(-> & _ & HN & [B1 B2])|(e & -> & ES & _)].
    + split; [|split].
      * intros id' w H. apply N1. destruct (str_dec id' id) as [->|N]; [congruence|]. rewrite B2; auto.
      * intros [|i] id' v' a X Y; simpl in *; [injection X as -> ->; auto|eauto].
      * intros id' w H. destruct (N3 id' w H) as [X|(i & a & X & Y)]; [|right; exists (S i), a; auto].
        destruct (str_dec id' id) as [->|N]; [right|left; rewrite <- B2; auto]. rewrite B1 in X. injection X as ->. exists 0%nat, (RVal (VInt 1)). auto.
    + rewrite ES in *. split; [exact N1|split].
      * intros [|i] id' v' a X Y; simpl in *; [discriminate|eauto].
      * intros id' w H. destruct (N3 id' w H) as [X|(i & a & X & Y)]; auto. right. exists (S i), a. auto.
Qed.

(** ** C41 *)
Lemma C41_lemma c c' id v a : k_reachable (seen c) -> exec conn_calls b (CUpdate id v) c = (c', Ok a) ->
  exists previous, a = RVal previous /\ k_read id VNone (seen c) = Ok previous /\
    (exists r, first_truthy id (maps (seen c)) r /\ previous = match r with Some w => w | None => VNone end) /\
    bound (g_abs (k_prim (seen c))) id v (g_abs (k_prim (n_work c'))) /\
    (forall j d, j <> id -> k_read j d (n_work c') = k_read j d (seen c) /\ k_has j (n_work c') = k_has j (seen c)) /\
    (n_auto c = true -> n_saved c' = n_work c').
Proof.
  intros RE E. assert (SM : conn_sem (CUpdate id v) (seen c) = (n_work c', Ok a) /\ (n_auto c = true -> n_saved c' = n_work c')).
  { destruct (n_auto c) eqn:A.
    - destruct (C35_lemma conn_calls b (CUpdate id v) c A eq_refl) as [(a0 & c0 & E0 & SM & W & _)|(e & c0 & E0 & _)]; rewrite E in E0; [|discriminate].
      injection E0 as <- <-. unfold seen. rewrite A, W. split; auto.
    - rewrite exec_off in E by auto. unfold perform in E. cbn -[do_update] in E. destruct (n_failed c); [discriminate|]. unfold seen. rewrite A. cbn -[do_update].
      destruct (do_update id v (n_work c)) as [k r]. injection E as <- ->. split; [reflexivity|]. discriminate. }
  destruct SM as [SM SV]. simpl in SM. unfold do_update in SM. destruct (k_read id VNone (seen c)) as [p|e] eqn:RD; [|discriminate].
  destruct (k_write id v (seen c)) as [k1 [r|e]] eqn:W; [|discriminate]. injection SM as EW EA. subst k1 a.
  destruct (@k_reachable_ok _ RE) as [O PF]. assert (WO : snd (k_write id v (seen c)) = Ok r) by now rewrite W.
  destruct (@write_effect _ _ _ _ O WO) as (EN & _ & _ & _ & B & _). rewrite W in B. simpl in B. exists p. split; auto. split; auto. split.
  - destruct (@k_read_spec _ _ VNone O EN) as (r' & FT & RS). exists r'. split; auto. rewrite RD in RS. now injection RS.
  - split; auto. split; auto. intros j d N. destruct (@C24_lemma _ _ _ _ RE WO) as (X & _). specialize (X j d N). rewrite W in X. exact X.
Qed.

(** ** C43 *)
Lemma C43_lemma i c : fst (exec conn_calls b (CItem i) c) = c /\ snd (exec conn_calls b (CItem i) c) = do_item i (n_work c).
Proof. split; reflexivity. Qed.
Lemma C43_str id c : k_reachable (n_work c) -> encodable id ->
  (held (n_work c) id = None -> exec conn_calls b (CItem (IStr id)) c = (c, Err KeyError)) /\
  (held (n_work c) id <> None -> exists v, k_read id VNone (n_work c) = Ok v /\ exec conn_calls b (CItem (IStr id)) c = (c, Ok (RVal v))).
Proof.
  intros RE E. destruct (@k_reachable_ok _ RE) as [O PF]. destruct (@has_iff_held _ _ O E) as (n & HE & P & Q).
  unfold exec, perform. simpl. rewrite HE. split; intros H.
  - destruct (Z.eqb_spec n 0) as [->|N]; auto. exfalso. assert (X : 0 < n) by lia. apply Q in X. congruence.
  - destruct (Z.eqb_spec n 0) as [->|N]; [apply Q in H; lia|]. destruct (@k_read_spec _ _ VNone O E) as (r & _ & RS). rewrite RS. eauto.
Qed.
Lemma C43_list ids c : k_reachable (n_work c) -> Forall encodable ids ->
  exists vs, Forall2 (fun id v => k_read id VNone (n_work c) = Ok v) ids vs /\
    ((exists v, In v vs /\ truthy v = true) -> exec conn_calls b (CItem (IIter ids)) c = (c, Ok (RList vs))) /\
    ((forall v, In v vs -> truthy v = false) -> exec conn_calls b (CItem (IIter ids)) c = (c, Err KeyError)).
Proof.
  intros RE F. destruct (@k_reachable_ok _ RE) as [O PF].
  assert (M : exists vs, mapM (fun id => k_read id VNone (n_work c)) ids = Ok vs /\ Forall2 (fun id v => k_read id VNone (n_work c) = Ok v) ids vs).
  { induction F as [|id ids E F IH]; [exists []; split; [reflexivity|constructor]|]. destruct IH as (vs & M & F2). destruct (@k_read_spec _ _ VNone O E) as (r & _ & RS).
    eexists (_ :: vs). split; [simpl; rewrite RS, M; reflexivity|]. constructor; auto. }
  destruct M as (vs & M & F2). exists vs. split; auto. unfold exec, perform. simpl. rewrite M. split; intros H.
  - replace (existsb truthy vs) with true; auto. symmetry. apply existsb_exists. exact H.
  - replace (existsb truthy vs) with false; auto. symmetry. destruct (existsb truthy vs) eqn:X; auto. apply existsb_exists in X. destruct X as (v & J & T). rewrite H in T; auto.
Qed.
End Conn.

(** ** C39 *)
Lemma C39_lemma k tm_auto flag c : connect (Some k) tm_auto flag = Ok c -> n_flag c = flag /\ n_work c = k /\ history c = [k] /\
  (forall b cmd a k', conn_is_read cmd = false -> conn_sem cmd k = (k', Ok a) -> b 0%nat = None ->
   exists c', exec conn_calls b cmd c = (c', Ok a) /\ n_work c' = k' /\ history c' = if tm_auto then [k'; k] else [k]).
Proof.
  intros E. injection E as <-. repeat split; auto. intros b cmd a k' D H B. unfold exec, autocommitted, perform. simpl. rewrite D. simpl. destruct tm_auto; simpl; rewrite H; simpl; unfold tm_commit; simpl; rewrite ?B; simpl; eexists; repeat split; reflexivity.
Qed.
Lemma C39_off b c cmd c1 c2 r : set_autocommit (VBool false) c = (c1, Ok tt) -> exec conn_calls b cmd c1 = (c2, r) -> history c2 = history c.
Proof.
  intros H E. injection H as <-. rewrite exec_off in E by reflexivity. unfold perform in E. simpl in E. destruct (conn_is_read cmd); [injection E as <- _; reflexivity|].
  destruct (n_failed c); [injection E as <- _; reflexivity|]. destruct (conn_sem cmd (n_work c)). injection E as <- _. reflexivity.
Qed.
