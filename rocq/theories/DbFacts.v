(** Proofs about Db.v. *)
From Coq Require Import String Lia.
From Verif Require Import Base BaseFacts Value BTree Utils Collection SpecMap Group Container ContainerFacts ResizeFacts RoutingFacts ContainerThms Txn TxnFacts Connection ConnHistory Db.
Open Scope Z_scope.
Open Scope list_scope.
Set Implicit Arguments.

(** ** creating *)
Lemma default_sizable : sizable DEFAULT_CONTAINER_SIZE DEFAULT_COLLECTION_SIZE.
Proof. unfold sizable, DEFAULT_CONTAINER_SIZE, DEFAULT_COLLECTION_SIZE. change (2 ^ 53) with 9007199254740992. change (2 ^ 52) with 4503599627370496. lia. Qed.
Lemma create_sizable cap : 1 <= cap < 2 ^ 53 -> sizable cap DEFAULT_COLLECTION_SIZE.
Proof. unfold sizable, DEFAULT_COLLECTION_SIZE. change (2 ^ 53) with 9007199254740992. change (2 ^ 52) with 4503599627370496. lia. Qed.

Lemma C84_create u0 cap truncate strict f : 1 <= cap < 2 ^ 53 ->
  exists k, container_new u0 cap DEFAULT_COLLECTION_SIZE false = Ok k /\ k_ok k /\ (forall id, held k id = None) /\ Forall (fun c => c_strict c = false) (k_prim k) /\ cap <= k_capacity k /\
    db_create u0 cap truncate strict (Ok tt) f = (Some (mkRoot (Some k) (if truncate then [] else rt_other (plain_db f))), Ok tt).
Proof.
  intros H. destruct (@container_new_spec u0 cap DEFAULT_COLLECTION_SIZE false (create_sizable H)) as (k & n & m & E & _ & KO & HN & _ & _ & _ & ST & _ & C1 & C2).
  exists k. split; [exact E|]. split; [exact KO|]. split; [exact HN|]. split; [exact ST|]. split; [lia|]. unfold db_create. rewrite E. now destruct truncate.
Qed.
Lemma C84_failed u0 cap truncate strict e f : 1 <= cap < 2 ^ 53 ->
  db_create u0 cap truncate strict (Err e) f = (Some (if truncate then empty_root else plain_db f), Err e).
Proof.
  intros H. destruct (@container_new_spec u0 cap DEFAULT_COLLECTION_SIZE false (create_sizable H)) as (k & n & m & E & _).
  unfold db_create. rewrite E. now destruct truncate.
Qed.
Lemma C84_zero u0 truncate strict commit f : db_create u0 0 truncate strict commit f = (f, Err ValueError).
Proof. unfold db_create. rewrite container_new_zero; [reflexivity|]. unfold DEFAULT_COLLECTION_SIZE. change (2 ^ 53) with 9007199254740992. lia. Qed.
Lemma C84_new_fails u0 truncate strict databases name commit2 f :
  (forall cap e, 1 <= cap < 2 ^ 53 -> db_new u0 cap truncate strict databases name (Err e) commit2 f = (Some (if truncate then empty_root else plain_db f), databases, Err e)) /\
  (forall commit, db_new u0 0 truncate strict databases name commit commit2 f = (f, databases, Err ValueError)).
Proof. split; intros; unfold db_new; [now rewrite C84_failed|now rewrite C84_zero]. Qed.

Lemma C84_session b u0 cap truncate strict f f1 c ops : commits b -> 1 <= cap < 2 ^ 53 ->
  db_create u0 cap truncate strict (Ok tt) f = (f1, Ok tt) -> db_open f1 = Ok c -> Forall good_hop ops ->
  map_history empty_map empty_map true ops (snd (do_hops b ops c)).
Proof.
  intros B H E O F. destruct (@C84_create u0 cap truncate strict f H) as (k & E1 & _ & _ & _ & _ & E2). rewrite E in E2. apply pair_equal_spec in E2 as [-> _].
  refine (@C42_lemma b u0 cap DEFAULT_COLLECTION_SIZE k (VBool true) c ops B (create_sizable H) E1 _ F). exact O.
Qed.

(** ** opening *)
Lemma C85_existing u0 name commit r k : rt_container r = Some k -> db_init u0 None name commit (Some r) = (Some r, None, Ok tt).
Proof. intros H. unfold db_init, base_init. rewrite H. reflexivity. Qed.
Lemma C85_no_container u0 name commit r : rt_container r = None -> db_init u0 None name commit (Some r) = (Some r, None, Err IncompatibleDatabaseError).
Proof. intros H. unfold db_init, base_init. rewrite H. reflexivity. Qed.
Lemma C85_new_file u0 name : exists k, container_new u0 DEFAULT_CONTAINER_SIZE DEFAULT_COLLECTION_SIZE false = Ok k /\ k_ok k /\ (forall id, held k id = None) /\ DEFAULT_CONTAINER_SIZE <= k_capacity k /\
  db_init u0 None name (Ok tt) None = (Some (mkRoot (Some k) []), None, Ok tt) /\
  (forall e, db_init u0 None name (Err e) None = (Some empty_root, None, Err e)).
Proof.
  destruct (@container_new_spec u0 _ _ false default_sizable) as (k & n & m & E & _ & KO & HN & _ & _ & _ & ST & _ & C1 & C2).
  exists k. split; [exact E|]. split; [exact KO|]. split; [exact HN|]. split; [lia|].
  unfold db_init, base_init. rewrite E. now split.
Qed.
Lemma mem_app name l : mem_str name (l ++ [name]) = true.
Proof. induction l as [|x l IH]; simpl; [now rewrite str_eqb_refl|]. now rewrite IH, Bool.orb_true_r. Qed.
Lemma C85_databases u0 l name commit f : exists f1 d e, db_init u0 (Some l) name commit f = (f1, d, Err e) /\
  (commit = Ok tt -> (forall r, f = Some r -> rt_container r <> None) -> e = ValueError).
Proof.
  unfold db_init, base_init. destruct (mem_str name l) eqn:M.
  - eexists _, _, _. split; [reflexivity|]. auto.
  - destruct f as [r|].
    + unfold connect at 1. destruct (rt_container r) as [k|] eqn:C.
      * unfold base_init. rewrite mem_app. eexists _, _, _. split; [reflexivity|]. auto.
      * eexists _, _, _. split; [reflexivity|]. intros _ F. now destruct (F r).
    + simpl plain_db. simpl rt_container. destruct (@container_new_spec u0 _ _ false default_sizable) as (k & n & m & E & _). rewrite E.
      destruct commit as [[]|e].
      * unfold base_init. rewrite mem_app. eexists _, _, _. split; [reflexivity|]. auto.
      * eexists _, _, _. split; [reflexivity|]. intros X. discriminate.
Qed.
Lemma C85_client_connect u0 strict name commit r : client_connect u0 strict None name commit r = (r, None, match rt_container r with Some _ => Ok tt | None => Err IncompatibleDatabaseError end).
Proof.
  unfold client_connect. destruct (rt_container r) as [k|] eqn:C.
  - rewrite (C85_existing _ _ _ _ C). simpl. now rewrite C.
  - now rewrite (C85_no_container _ _ _ _ C).
Qed.

Lemma C84_new u0 cap (truncate : bool) strict name f : 1 <= cap < 2 ^ 53 ->
  exists k, container_new u0 cap DEFAULT_COLLECTION_SIZE false = Ok k /\ (forall id, held k id = None) /\
    let f1 := Some (mkRoot (Some k) (if truncate then [] else rt_other (plain_db f))) in
    (forall commit2, db_new u0 cap truncate strict None name (Ok tt) commit2 f = (f1, None, Ok tt)) /\
    (forall l commit2, exists d, db_new u0 cap truncate strict (Some l) name (Ok tt) commit2 f = (f1, d, Err ValueError)).
Proof.
  intros H. destruct (@C84_create u0 cap truncate strict f H) as (k & E & _ & HN & _ & _ & EC). exists k. split; [exact E|]. split; [exact HN|].
  split; intros; unfold db_new; rewrite EC.
  - apply C85_existing with (k := k). reflexivity.
  - unfold db_init, base_init. destruct (mem_str name l); [now eexists|]. simpl. rewrite mem_app. now eexists.
Qed.
Lemma C84_gone u0 cap truncate strict f f1 c id d : 1 <= cap < 2 ^ 53 -> encodable id ->
  db_create u0 cap truncate strict (Ok tt) f = (f1, Ok tt) -> db_open f1 = Ok c -> k_read id d (n_work c) = Ok d /\ k_has id (n_work c) = Ok 0.
Proof.
  intros H N E O. destruct (@C84_create u0 cap truncate strict f H) as (k & E1 & KO & HN & _ & _ & E2). rewrite E in E2. apply pair_equal_spec in E2 as [-> _].
  simpl in O. injection O as <-. simpl n_work. split.
  - exact (proj2 (read_held d KO N) (HN id)).
  - destruct (has_iff_held KO N) as (n & E3 & P & Q). rewrite E3. f_equal. destruct (Z.eq_dec n 0) as [|NE]; [assumption|].
    destruct (proj1 Q); [lia|apply HN].
Qed.

(** ** nested [with] blocks *)
Section Ind.
  Variable P : dstmt -> Prop.
  Hypothesis HW : forall l, Forall P l -> P (DWith l).
  Hypothesis HR : forall e, P (DRaise e).
  Hypothesis HT : forall l, Forall P l -> P (DTry l).
  Fixpoint dstmt_ind' (x : dstmt) : P x :=
    let go := fix go l : Forall P l := match l with [] => Forall_nil P | y :: l' => Forall_cons y (dstmt_ind' y) (go l') end in
    match x with DWith l => HW (go l) | DRaise e => HR e | DTry l => HT (go l) end.
End Ind.

Definition touches (i : nat) (e : event) : Prop := e = Opened i \/ e = Closed i.
(** every closing comes directly after an event of the same connection *)
Definition chained (l : list event) : Prop := forall l1 i l2, l = l1 ++ Closed i :: l2 -> exists l0 e, l1 = l0 ++ [e] /\ touches i e.
Definition opened (l : list event) : list nat := flat_map (fun e => match e with Opened i => [i] | Closed _ => [] end) l.
Definition sound (c : dbctx) (o : dout) : Prop :=
  let '(c1, l, e) := o in chained l /\ (x_next c <= x_next c1)%nat /\ opened l = seq (x_next c) (x_next c1 - x_next c) /\
  ((l = [] /\ c1 = c) \/ exists i l0 ev, x_current c1 = Some i /\ l = l0 ++ [ev] /\ touches i ev).

Lemma app_split {A} (a b l1 l2 : list A) x : a ++ b = l1 ++ x :: l2 -> (exists t, a = l1 ++ x :: t /\ l2 = t ++ b) \/ (exists t, l1 = a ++ t /\ b = t ++ x :: l2).
Proof.
  revert l1. induction a as [|y a IH]; intros l1 E; simpl in E.
  - right. exists l1. now split.
  - destruct l1 as [|z l1]; simpl in E.
    + injection E as -> <-. left. exists a. now split.
    + injection E as -> E. destruct (IH _ E) as [(t & -> & ->)|(t & -> & ->)]; [left|right]; exists t; now split.
Qed.
Lemma chained_app a b : chained a -> chained b -> chained (a ++ b).
Proof.
  intros A B l1 i l2 E. destruct (@app_split _ _ _ _ _ _ E) as [(t & E1 & E2)|(t & -> & E2)].
  - exact (A _ _ _ E1).
  - destruct (B _ _ _ E2) as (l0 & e & -> & T). exists (a ++ l0), e. split; [apply app_assoc|exact T].
Qed.
Lemma chained_nil : chained [].
Proof. intros l1 i l2 E. now destruct l1. Qed.
Lemma opened_app a b : opened (a ++ b) = opened a ++ opened b.
Proof. apply flat_map_app. Qed.
Lemma chained_open n : chained [Opened n].
Proof. intros l1 i l2 E. destruct l1 as [|? [|]]; discriminate. Qed.
Lemma chained_close l i ev : chained (l ++ [ev]) -> touches i ev -> chained ((l ++ [ev]) ++ [Closed i]).
Proof.
  intros C T l1 j l2 E. destruct (@app_split _ _ _ _ _ _ E) as [(t & E1 & E2)|(t & -> & E2)].
  - exact (C _ _ _ E1).
  - destruct t as [|? [|]]; try discriminate. simpl in E2. injection E2 as <- _. exists l, ev. rewrite app_nil_r. now split.
Qed.

Lemma seq_sound p : Forall (fun x => forall c, sound c (d_stmt x c)) p -> forall c, sound c (d_seq d_stmt p c).
Proof.
  induction 1 as [|x p H _ IH]; intros c; simpl.
  - split; [apply chained_nil|]. split; [lia|]. split; [now rewrite Nat.sub_diag|]. now left.
  - specialize (H c). destruct (d_stmt x c) as [[c1 l] [e|]]; [exact H|]. specialize (IH c1). destruct (d_seq d_stmt p c1) as [[c2 l2] e].
    destruct H as (C1 & N1 & O1 & D1), IH as (C2 & N2 & O2 & D2). simpl.
    split; [now apply chained_app|]. split; [lia|]. split.
    { rewrite opened_app, O1, O2. replace (x_next c2 - x_next c)%nat with ((x_next c1 - x_next c) + (x_next c2 - x_next c1))%nat by lia.
      rewrite seq_app. now replace (x_next c + (x_next c1 - x_next c))%nat with (x_next c1) by lia. }
    destruct D2 as [[-> ->]|(i & l0 & ev & X & -> & T)].
    + rewrite app_nil_r. exact D1.
    + right. exists i, (l ++ l0), ev. split; [exact X|]. split; [apply app_assoc|exact T].
Qed.
Lemma stmt_sound x : forall c, sound c (d_stmt x c).
Proof.
  induction x as [body F|e|body F] using dstmt_ind'; intros c; simpl.
  - set (c0 := mkCtx (S (x_next c)) (Some (x_next c))). pose proof (seq_sound F c0) as H. destruct (d_seq d_stmt body c0) as [[c1 l] e].
    destruct H as (C1 & N1 & O1 & D1). change (x_next c0) with (S (x_next c)) in *.
    assert (K : exists i l0 ev, x_current c1 = Some i /\ Opened (x_next c) :: l = l0 ++ [ev] /\ touches i ev).
    { destruct D1 as [[-> ->]|(i & l0 & ev & X & -> & T)].
      - exists (x_next c), [], (Opened (x_next c)). split; [reflexivity|]. split; [reflexivity|]. now left.
      - exists i, (Opened (x_next c) :: l0), ev. now split. }
    destruct K as (i & l0 & ev & X & E & T). unfold d_exit. rewrite X.
    change (Opened (x_next c) :: l ++ [Closed i]) with ((Opened (x_next c) :: l) ++ [Closed i]).
    assert (CH : chained ((Opened (x_next c) :: l) ++ [Closed i])).
    { rewrite E. apply chained_close; [|exact T]. rewrite <- E. exact (chained_app (@chained_open _) C1). }
    split; [exact CH|]. split; [lia|]. split.
    { rewrite opened_app. simpl. rewrite app_nil_r, O1. replace (x_next c1 - x_next c)%nat with (S (x_next c1 - S (x_next c))) by lia. reflexivity. }
    right. exists i, (Opened (x_next c) :: l), (Closed i). split; [exact X|]. split; [reflexivity|]. now right.
  - split; [apply chained_nil|]. split; [lia|]. split; [now rewrite Nat.sub_diag|]. now left.
  - pose proof (seq_sound F c) as H. destruct (d_seq d_stmt body c) as [[c1 l] e]. exact H.
Qed.
Lemma run_sound p : sound (mkCtx 0 None) (d_run p).
Proof. apply seq_sound. apply Forall_forall. intros x _. apply stmt_sound. Qed.

Lemma closed_adjacent l i : chained l -> In (Closed i) l -> exists l1 l2, l = l1 ++ Opened i :: Closed i :: l2.
Proof.
  intros C I. apply in_split in I as (l1 & l2 & E). remember (length l1) as n eqn:L. revert l1 l2 L E.
  induction n as [n IH] using lt_wf_ind. intros l1 l2 L E. destruct (C _ _ _ E) as (l0 & e & -> & [-> | ->]).
  - exists l0, l2. now rewrite <- app_assoc in E.
  - rewrite <- app_assoc in E. apply (IH (length l0)) with (l1 := l0) (l2 := Closed i :: l2); [rewrite L, app_length; simpl; lia|reflexivity|exact E].
Qed.
Lemma C86_lemma p c l e : d_run p = (c, l, e) -> opened l = seq 0 (x_next c) /\
  forall i, In (Closed i) l <-> exists l1 l2, l = l1 ++ Opened i :: Closed i :: l2.
Proof.
  intros E. pose proof (run_sound p) as H. rewrite E in H. destruct H as (C & N & O & _). split; [now rewrite O, Nat.sub_0_r|].
  intros i. split; [now apply closed_adjacent|]. intros (l1 & l2 & ->). apply in_or_app. right. right. now left.
Qed.

(** the connection of one block is closed at its end exactly if it is the only one opened since *)
Lemma chained_no_open l : chained l -> opened l = [] -> l = [].
Proof.
  destruct l as [|[i|i] l]; intros C O; [reflexivity|discriminate|]. destruct (C [] i l eq_refl) as (l0 & e & E & _). now destruct l0.
Qed.
Lemma C86_block_lemma body c c1 l e : d_stmt (DWith body) c = (c1, l, e) -> In (Opened (x_next c)) l /\ (In (Closed (x_next c)) l <-> x_next c1 = S (x_next c)).
Proof.
  intros E. simpl in E. set (c0 := mkCtx (S (x_next c)) (Some (x_next c))) in *.
  assert (S0 : sound c0 (d_seq d_stmt body c0)) by (apply seq_sound, Forall_forall; intros; apply stmt_sound).
  destruct (d_seq d_stmt body c0) as [[c2 lb] e2]. destruct S0 as (C & N & O & D). change (x_next c0) with (S (x_next c)) in *.
  destruct (d_exit c2) as [lx ex] eqn:X. apply pair_equal_spec in E as [E _]. apply pair_equal_spec in E as [<- <-]. split; [now left|]. split.
  - intros [H|H]; [discriminate|]. apply in_app_or in H as [H|H].
    + exfalso. destruct (closed_adjacent _ C H) as (l1 & l2 & E). assert (I : In (x_next c) (opened lb)) by (rewrite E, opened_app; apply in_or_app; right; now left).
      rewrite O in I. apply in_seq in I. lia.
    + destruct D as [[-> ->]|(i & l0 & ev & Y & -> & T)]; [reflexivity|]. unfold d_exit in X. rewrite Y in X. apply pair_equal_spec in X as [<- _].
      destruct H as [H|[]]. injection H as ->. exfalso.
      assert (I : In (x_next c) (opened (l0 ++ [ev]))).
      { destruct T as [-> | ->]; [rewrite opened_app; apply in_or_app; right; now left|].
        destruct (closed_adjacent (x_next c) C) as (l1 & l2 & E); [apply in_or_app; right; now left|]. rewrite E, opened_app. apply in_or_app. right. now left. }
      rewrite O in I. apply in_seq in I. lia.
  - intros H. rewrite H, Nat.sub_diag in O. pose proof (chained_no_open C O) as ->. destruct D as [[_ ->]|(i & l0 & ev & _ & E & _)]; [|now destruct l0].
    injection X as <- _. right. apply in_or_app. right. now left.
Qed.
