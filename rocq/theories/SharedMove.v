(** Deleting through a connection, and moving an object between databases whose connections share a transaction manager *)
From Verif Require Import Base BaseFacts Value BTree Collection SpecMap Group RoutingFacts GroupFacts Container ContainerFacts CondenseFacts ContainerThms
  Txn TxnFacts Connection ConnectionFacts Shared SharedFacts.
Set Implicit Arguments.
Open Scope Z_scope.

Lemma holders_split k id l : (forall i, In i l -> ~ holds_id k id i) \/ exists j, In j l /\ holds_id k id j.
Proof.
  induction l as [|i l IH]; [left; intros i []|]. destruct IH as [IH|(j & J1 & J2)]; [|right; exists j; split; auto; now right].
  unfold holds_id at 1 2. destruct (g_abs (grp k i) id) eqn:Y.
  - right. exists i. split; [now left|congruence].
  - left. intros j [<- |J] Z; [congruence|]. apply (IH j J). exact Z.
Qed.
Lemma first_held_ext id ms ms' : Forall2 (fun m m' : amap => m id = m' id) ms ms' -> first_held id ms = first_held id ms'.
Proof. induction 1 as [|m m' ms ms' H _ IH]; [reflexivity|]. cbn [first_held]. now rewrite H, IH. Qed.
Lemma taken_others k k' id A j : taken_out k k' id A -> j <> id -> held k' j = held k j.
Proof.
  intros (G & _ & _ & T) N. unfold held, maps. rewrite G. apply first_held_ext. clear G. induction (k_groups k) as [|i l IH]; cbn [map]; constructor; [|exact IH].
  destruct (T i) as [T1 T2]. destruct (in_dec Nat.eq_dec i A) as [I|I]; [|now rewrite T2]. specialize (T1 I). destruct T1 as [_ T1]. now apply T1.
Qed.

Lemma holding_prefix_unique k id l A B A' B' : holding_prefix k id l A B -> holding_prefix k id l A' B' -> A = A' /\ B = B'.
Proof.
  intros H. revert A' B'. induction H as [|i l N|i l A B H HP IH]; intros A' B' HP'.
  - inversion HP'. auto.
  - inversion HP' as [| |? ? ? ? X]; subst; [auto|contradiction].
  - inversion HP' as [|? ? X|? ? ? ? X X2]; subst; [contradiction|]. destruct (IH _ _ X2) as [-> ->]. auto.
Qed.

(** ** C111 *)
Lemma delete_lemma b (c : conn container) id : k_reachable (seen c) -> encodable id -> (n_auto c = true \/ n_failed c = false) -> b (n_calls c) = None ->
  exists A B, holding_prefix (seen c) id (k_groups (seen c)) A B /\
    ((forall i, In i B -> ~ holds_id (seen c) id i) ->
       exists c' vs, exec conn_calls b (CDelete id) c = (c', Ok (RTuple vs)) /\ values_at (seen c) id A vs /\ taken_out (seen c) (n_work c') id A /\
         k_has id (n_work c') = Ok 0 /\ history c' = if n_auto c then n_work c' :: history c else history c) /\
    ((exists j, In j B /\ holds_id (seen c) id j) ->
       exists c', exec conn_calls b (CDelete id) c = (c', Err KeyError) /\ history c' = history c /\
         if n_auto c then n_work c' = n_saved c else taken_out (seen c) (n_work c') id A).
Proof.
  intros R E HF HB. destruct (C27_lemma R E) as (A & B & HP & C1 & C2). exists A, B. split; [exact HP|].
  unfold exec, autocommitted. cbn [is_read conn_calls conn_is_read]. unfold seen in *. destruct (n_auto c) eqn:HA.
  - split.
    + intros NB. destruct (C1 NB) as (k' & vs & D & T & V & Z0). unfold perform, tm_enter, tm_abort, set_auto. cbn -[k_delete history]. unfold do_delete. rewrite D. cbn -[history k_has].
      unfold tm_commit. cbn -[history k_has]. rewrite HB. cbn -[history k_has]. eexists _, vs. split; [reflexivity|]. cbn -[history k_has]. auto.
    + intros YB. destruct (C2 YB) as (k' & D & T). unfold perform, tm_enter, tm_abort, set_auto. cbn -[k_delete history]. unfold do_delete. rewrite D. cbn -[history].
      eexists. split; [reflexivity|]. cbn. auto.
  - destruct HF as [HF|HF]; [discriminate|]. unfold perform. cbn -[k_delete history k_has]. rewrite HF. unfold do_delete. split.
    + intros NB. destruct (C1 NB) as (k' & vs & D & T & V & Z0). rewrite D. eexists _, vs. split; [reflexivity|]. auto.
    + intros YB. destruct (C2 YB) as (k' & D & T). rewrite D. eexists. split; [reflexivity|]. auto.
Qed.
(** [with conn:] around a delete whose KeyError is caught: the half of the deletion that was done is committed *)
Definition caught_delete (id : pystr) : prog ccmd cres :=
  Do (CDelete id) (fun r => match r with Err KeyError => Done (Ok (RVal VNone)) | r => Done r end).
Lemma caught_lemma b (c : conn container) id A B : k_reachable (n_saved c) -> encodable id -> b (n_calls c) = None ->
  holding_prefix (n_saved c) id (k_groups (n_saved c)) A B -> (exists j, In j B /\ holds_id (n_saved c) id j) ->
  exists c', run conn_calls b (Block (caught_delete id) Done) c = (c', Ok (RVal VNone)) /\ taken_out (n_saved c) (n_saved c') id A /\ n_work c' = n_saved c' /\
    held (n_saved c') id = first_held id (map (fun i => g_abs (grp (n_saved c) i)) B).
Proof.
  intros R E HB HP YB. destruct (C27_lemma R E) as (A' & B' & HP' & _ & C2).
  destruct (holding_prefix_unique HP HP') as [<- <-]. destruct (C2 YB) as (k' & D & T).
  assert (F : flat (caught_delete id)) by (constructor; intros [a|[]]; constructor).
  assert (X : direct conn_calls (caught_delete id) (n_saved c) = (k', Ok (RVal VNone))) by (cbn -[k_delete]; unfold do_delete; rewrite D; reflexivity).
  destruct (@C36_lemma _ _ _ conn_calls b _ c k' (RVal VNone) F X HB) as (c' & EQ & W & H). exists c'. unfold history in H. injection H as H _. rewrite H, W.
  split; [exact EQ|]. split; [exact T|]. split; [reflexivity|]. destruct T as (G & _ & _ & T). destruct (holding_prefix_spec HP) as (EG & HA & _).
  destruct (k_reachable_ok R) as ((ND & _) & _). rewrite EG in ND.
  assert (DJ : forall i, In i B -> ~ In i A) by (intros i I1 I2; apply in_split in I2 as (l1 & l2 & ->); rewrite <- app_assoc in ND; cbn [app] in ND;
    apply NoDup_remove_2 in ND; apply ND; apply in_or_app; right; apply in_or_app; now right).
  unfold held, maps. rewrite G, EG, map_app.
  assert (Q : forall l, incl l A -> first_held id (map (fun i => g_abs (grp k' i)) l ++ map (fun i => g_abs (grp k' i)) B) = first_held id (map (fun i => g_abs (grp k' i)) B)).
  { induction l as [|x l IHl]; intros I; [reflexivity|]. cbn [map app first_held]. destruct (T x) as [T1 _]. destruct (T1 (I x (or_introl eq_refl))) as [T3 _].
    rewrite T3. apply IHl. intros y Y. apply I. now right. }
  rewrite (Q A (incl_refl _)). f_equal. apply map_ext_in. intros j J. destruct (T j) as [_ T2]. now rewrite (T2 (DJ j J)).
Qed.

(** ** C110: moving an object *)
Lemma delete_effect id k w k' r : k_reachable k -> held k id = Some w -> do_delete id k = (k', Ok r) ->
  held k' id = None /\ (forall j, j <> id -> held k' j = held k j) /\ k_reachable k'.
Proof.
  intros R H D. destruct (k_reachable_ok R) as [O PF]. pose proof (held_enc id O H) as E. destruct (C27_lemma R E) as (A & B & HP & C1 & C2).
  assert (RK : k_reachable k') by (pose proof (sem_reach (CDelete id) R) as X; cbn in X; now rewrite D in X).
  unfold do_delete in D. destruct (holders_split k id B) as [NB|YB].
  - destruct (C1 NB) as (k1 & vs & D1 & T & V & Z0). rewrite D1 in D. injection D as <- <-. split; [|split; [intros j; now apply taken_others with A|exact RK]].
    apply (has_held id (proj1 (k_reachable_ok RK)) Z0). reflexivity.
  - destruct (C2 YB) as (k1 & D1 & _). rewrite D1 in D. discriminate.
Qed.
(** [v = conn_i.read(id); conn_i.delete(id); conn_j.create(id, v)] *)
Definition move_body (i j : nat) (id : pystr) : sprog ccmd cres :=
  SDo i (CRead id VNone) (fun r => match r with
    | Ok (RVal v) => SDo i (CDelete id) (fun r => match r with
                       | Ok _ => SDo j (CCreate id v) SDone
                       | Err e => SDone (Err e)
                       end)
    | r => SDone r
    end).
Lemma move_flat i j id : sflat (move_body i j id).
Proof.
  constructor. intros [[v|l|l]|e]; try constructor. intros [a|e]; constructor. intros r. constructor.
Qed.
Lemma move_alone i j id (s : nat -> container) v : i <> j -> k_reachable (s i) -> k_reachable (s j) -> held (s i) id = Some v -> truthy v = true ->
  (exists s', salone conn_calls (move_body i j id) s = (s', Ok (RVal (VInt 1))) /\ held (s j) id = None /\ held (s' i) id = None /\ held (s' j) id = Some v /\
     (forall n x, x <> id -> held (s' n) x = held (s n) x) /\ (forall n, n <> i -> n <> j -> s' n = s n)) \/
  (exists s' e, salone conn_calls (move_body i j id) s = (s', Err e)).
Proof.
  intros N Ri Rj H TV. destruct (k_reachable_ok Ri) as [Oi Pi]. destruct (k_reachable_ok Rj) as [Oj Pj]. pose proof (held_enc id Oi H) as E.
  assert (RD : k_read id VNone (s i) = Ok v).
  { destruct (C25_lemma VNone Ri E) as [(r & FT & ->) _]. f_equal.
    assert (X : forall ms, first_held id ms = Some v -> forall r, first_truthy id ms r -> r = Some v).
    { induction ms as [|m ms IH]; [discriminate|]. cbn [first_held]. intros X r0 Y. inversion Y as [|? ? ? M TT|? ? ? M Y2]; subst.
      - rewrite M in X. congruence.
      - destruct (m id) as [w|] eqn:Em; [injection X as ->; rewrite (M v eq_refl) in TV; discriminate|]. now apply IH. }
    now rewrite (X _ H _ FT). }
  unfold move_body. cbn [salone sem conn_calls conn_sem is_read conn_is_read]. rewrite RD. cbn [rbind salone sem conn_calls conn_sem is_read conn_is_read].
  destruct (do_delete id (s i)) as [k1 [r|e]] eqn:D; [|right; cbn [salone]; eauto].
  destruct (@delete_effect id _ _ _ _ Ri H D) as (D1 & D2 & D3). cbn [salone sem conn_calls conn_sem is_read conn_is_read].
  assert (Hji : Nat.eqb j i = false) by (apply Nat.eqb_neq; congruence). rewrite Hji.
  destruct (create_effect id v Oj Pj) as [(k2 & CE & HN & HB)|(e & CE)]; rewrite CE; cbn [salone]; [left|right; eauto].
  eexists. split; [reflexivity|]. cbn beta. assert (Hij : Nat.eqb i j = false) by now apply Nat.eqb_neq. rewrite Hij, Nat.eqb_refl, Nat.eqb_refl.
  split; [exact HN|]. split; [exact D1|]. destruct HB as [HB1 HB2]. split; [exact HB1|]. split.
  - intros n x Hx. destruct (Nat.eqb n j) eqn:Enj; [apply Nat.eqb_eq in Enj as ->; now apply HB2|]. destruct (Nat.eqb n i) eqn:Eni; [apply Nat.eqb_eq in Eni as ->; now apply D2|reflexivity].
  - intros n H1 H2. apply Nat.eqb_neq in H1 as ->. apply Nat.eqb_neq in H2 as ->. reflexivity.
Qed.
Lemma move_lemma b who i j id (h : shared container) v : i <> j -> k_reachable (s_saved h i) -> k_reachable (s_saved h j) -> held (s_saved h i) id = Some v -> truthy v = true ->
  exists h' r, srun conn_calls b (SBlock who (move_body i j id) SDone) h = (h', r) /\ s_work h' = s_saved h' /\
    ((r = Ok (RVal (VInt 1)) /\ held (s_saved h j) id = None /\ held (s_saved h' i) id = None /\ held (s_saved h' j) id = Some v /\
       (forall n x, x <> id -> held (s_saved h' n) x = held (s_saved h n) x)) \/
     (exists e, r = Err e /\ s_saved h' = s_saved h)).
Proof.
  intros N Ri Rj H TV. destruct (@move_alone i j id (s_saved h) v N Ri Rj H TV) as [(s' & E & A1 & A2 & A3 & A4 & A5)|(s' & e & E)].
  - destruct (b (n_calls (h_tx h))) as [e|] eqn:B.
    + destruct (block_refused conn_calls b who h (move_flat i j id) E B) as (h' & EQ & W & HH & _). unfold s_history, history in HH.
      exists h', (Err e). split; [exact EQ|]. assert (Q : s_saved h' = s_saved h) by (unfold s_saved; congruence). split; [now rewrite W, Q|]. right. eauto.
    + destruct (block_ok conn_calls b who h (move_flat i j id) E B) as (h' & EQ & W & HH & _). unfold s_history, history in HH.
      exists h', (Ok (RVal (VInt 1))). split; [exact EQ|]. assert (Q : s_saved h' = s') by (unfold s_saved; congruence). split; [now rewrite W, Q|]. left. rewrite Q. auto.
  - destruct (block_raises conn_calls b who h (move_flat i j id) E) as (h' & EQ & W & HH & _). unfold s_history, history in HH.
    exists h', (Err e). split; [exact EQ|]. assert (Q : s_saved h' = s_saved h) by (unfold s_saved; congruence). split; [now rewrite W, Q|]. right. eauto.
Qed.
