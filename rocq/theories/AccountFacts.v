(** Accounting lemmas: sizes count objects, operations change sizes by the number of objects they add or remove *)
From Verif Require Import Base BaseFacts Value BTree Float53 Utils Collection CollectionFacts SpecMap Group RoutingFacts GroupFacts GroupNewFacts GroupCapFacts
  StorageThms Container ContainerFacts CondenseFacts ResizeFacts ContainerThms Account.
From Coq Require Import Permutation.
Open Scope Z_scope.

Definition holds_in (m : amap) (id : pystr) : bool := match m id with Some _ => true | None => false end.
Lemma has_size_det m n n' : has_size m n -> has_size m n' -> n = n'.
Proof.
  intros (l & A & B & ->) (l' & A' & B' & ->). f_equal. apply Nat.le_antisymm; apply NoDup_incl_length; auto; intros x Hx.
  - apply B', B, Hx.
  - apply B, B', Hx.
Qed.
Lemma count_holding (m : amap) n ids : has_size m n -> NoDup ids -> (forall id, m id <> None -> In id ids) ->
  n = Z.of_nat (length (filter (holds_in m) ids)).
Proof.
  intros H N I. apply (has_size_det _ _ _ H). exists (filter (holds_in m) ids). split; [now apply NoDup_filter|]. split; [|reflexivity].
  intros id. rewrite filter_In. unfold holds_in. destruct (m id) eqn:E; split.
  - discriminate.
  - intros _. split; auto. apply I. now rewrite E.
  - intros (_ & [=]).
  - congruence.
Qed.
Lemma zsum_app a b : zsum (a ++ b) = zsum a + zsum b.
Proof. induction a; simpl; lia. Qed.
Lemma zsum_plus {A} (f g : A -> Z) l : zsum (map (fun x => f x + g x) l) = zsum (map f l) + zsum (map g l).
Proof. induction l; simpl; lia. Qed.
Lemma zsum_zero {A} (l : list A) : zsum (map (fun _ => 0) l) = 0.
Proof. induction l; simpl; lia. Qed.
Lemma zsum_ext {A} (f g : A -> Z) l : (forall x, In x l -> f x = g x) -> zsum (map f l) = zsum (map g l).
Proof. intros H. f_equal. now apply map_ext_in. Qed.
Lemma zsum_le {A} (f g : A -> Z) l : (forall x, In x l -> f x <= g x) -> zsum (map f l) <= zsum (map g l).
Proof. induction l as [|a l IH]; simpl; intros H; [lia|]. specialize (H a) as H1. assert (zsum (map f l) <= zsum (map g l)) by auto. assert (f a <= g a) by auto. lia. Qed.
Lemma zsum_one {A} (l : list A) : zsum (map (fun _ => 1) l) = Z.of_nat (length l).
Proof. induction l as [|a l IH]; [reflexivity|]. cbn [map zsum fold_right length]. unfold zsum in IH. rewrite IH. lia. Qed.
Lemma zsum_in {A} (f : A -> Z) l x : (forall y, In y l -> 0 <= f y) -> In x l -> f x <= zsum (map f l).
Proof.
  induction l as [|a l IH]; simpl; intros P [].
  - subst. assert (0 <= zsum (map f l)); [|lia]. transitivity (zsum (map (fun _ : A => 0) l)); [rewrite zsum_zero; lia|]. apply zsum_le. auto.
  - assert (f x <= zsum (map f l)) by auto. assert (0 <= f a) by auto. lia.
Qed.
Lemma filter_count {A} (f : A -> bool) l : Z.of_nat (length (filter f l)) = zsum (map (fun x => if f x then 1 else 0) l).
Proof. induction l as [|a l IH]; [reflexivity|]. cbn [filter map zsum fold_right]. destruct (f a); cbn [length]; unfold zsum in IH; lia. Qed.
Lemma holders_cons id m ms : holders id (m :: ms) = (if holds_in m id then 1 else 0) + holders id ms.
Proof. unfold holders, holds_in. cbn [filter]. destruct (m id); cbn [length]; lia. Qed.
Lemma sizes_by_ids (gs : list group) ids : Forall good_group gs -> NoDup ids ->
  (forall g id, In g gs -> g_abs g id <> None -> In id ids) ->
  zsum (map g_size gs) = zsum (map (fun id => holders id (map g_abs gs)) ids).
Proof.
  intros F N. induction F as [|g gs G F IH]; intros I.
  - cbn [map]. unfold holders. cbn [filter length]. now rewrite zsum_zero.
  - cbn [map]. rewrite (zsum_ext _ (fun id => (if holds_in (g_abs g) id then 1 else 0) + holders id (map g_abs gs))) by (intros; apply holders_cons).
    rewrite zsum_plus, <- filter_count, <- IH by (intros; eapply I; eauto; now right).
    change (zsum (g_size g :: map g_size gs)) with (g_size g + zsum (map g_size gs)). f_equal.
    apply count_holding; auto. { apply g_has_size, G. } intros id H. apply (I g); auto. now left.
Qed.
Lemma holders_nonneg id ms : 0 <= holders id ms.
Proof. unfold holders. lia. Qed.
Lemma held_encodable_ms k id : k_ok k -> 0 < holders id (maps k) -> encodable id.
Proof.
  intros K H. apply holders_held in H. unfold maps in H. pose proof (ok_good K) as G. revert H G. generalize (k_groups k).
  induction l as [|i l IH]; cbn [map first_held]; intros H G; [congruence|]. apply Forall_cons_iff in G. destruct G as (G1 & G2).
  destruct (g_abs (grp k i) id) eqn:E; [eapply held_encodable; eauto|auto].
Qed.
(** the distinct ids *)
Definition all_ids (k : container) : list pystr := nodup str_dec (concat (map (fun i => g_keys (grp k i)) (k_groups k))).
Lemma all_ids_in k id : In id (all_ids k) <-> exists i, In i (k_groups k) /\ g_abs (grp k i) id <> None.
Proof.
  unfold all_ids. rewrite nodup_In, in_concat. split.
  - intros (l & H & I). apply in_map_iff in H. destruct H as (i & <- & H). exists i. split; auto. now apply g_keys_in.
  - intros (i & H & I). exists (g_keys (grp k i)). split; [|now apply g_keys_in]. apply in_map_iff. eauto.
Qed.
Lemma holders_pos k id : 0 < holders id (maps k) <-> exists i, In i (k_groups k) /\ g_abs (grp k i) id <> None.
Proof.
  rewrite holders_held. unfold maps. generalize (k_groups k). induction l as [|i l IH]; cbn [map first_held].
  - split; [congruence|]. intros (i & [] & _).
  - destruct (g_abs (grp k i) id) eqn:E.
    + split; [|congruence]. intros _. exists i. split; [now left|congruence].
    + rewrite IH. split; intros (j & H & I).
      * exists j. split; auto. now right.
      * destruct H as [<- |H]; [congruence|]. exists j. auto.
Qed.
Lemma size_by_ids k ids : k_ok k -> NoDup ids -> (forall id, 0 < holders id (maps k) -> In id ids) ->
  k_size k = zsum (map (fun id => holders id (maps k)) ids).
Proof.
  intros K N I. unfold k_size, maps. rewrite <- (map_map (grp k) g_size), <- (map_map (grp k) g_abs). apply sizes_by_ids; auto.
  - now apply ok_good.
  - intros g id H G. apply in_map_iff in H. destruct H as (i & <- & H). apply I, holders_pos. eauto.
Qed.
Lemma size_spec k : k_reachable k ->
  exists ids, NoDup ids /\ (forall id, In id ids -> encodable id) /\
    (forall id, encodable id -> (In id ids <-> k_has id k <> Ok 0)) /\
    (exists ns, Forall2 (fun id n => k_has id k = Ok n) ids ns /\ k_size k = zsum ns) /\
    Z.of_nat (length ids) <= k_size k /\
    (k_size k = Z.of_nat (length ids) <-> forall id, encodable id -> k_has id k = Ok 0 \/ k_has id k = Ok 1).
Proof.
  intros R. destruct (k_reachable_ok R) as (K & P). exists (all_ids k).
  assert (N : NoDup (all_ids k)) by apply NoDup_nodup.
  assert (M : forall id, In id (all_ids k) <-> 0 < holders id (maps k)) by (intros; now rewrite all_ids_in, holders_pos).
  assert (E : forall id, In id (all_ids k) -> encodable id) by (intros id H; apply M in H; eapply held_encodable_ms; eauto).
  assert (Z : k_size k = zsum (map (fun id => holders id (maps k)) (all_ids k))) by (apply size_by_ids; auto; intros; now apply M).
  assert (L : Z.of_nat (length (all_ids k)) <= k_size k).
  { rewrite Z, <- zsum_one. apply zsum_le. intros id H. apply M in H. lia. }
  split; [exact N|]. split; [exact E|]. split; [|split; [|split; [exact L|]]]; [intros id He; split| |split].
  - intros H. rewrite k_has_spec by auto. apply M in H. intros [= X]. lia.
  - intros H. rewrite k_has_spec in H by auto. apply M. pose proof (holders_nonneg id (maps k)).
    destruct (Z.eq_dec (holders id (maps k)) 0) as [X|]; [rewrite X in H; congruence|lia].
  - exists (map (fun id => holders id (maps k)) (all_ids k)). split; auto. clear N Z L M.
    induction (all_ids k) as [|a l IH]; cbn [map]; constructor.
    + apply k_has_spec; auto. apply E. now left.
    + apply IH. intros; apply E. now right.
  - intros S id He. rewrite k_has_spec by auto. pose proof (holders_nonneg id (maps k)) as Hn.
    destruct (Z.eq_dec (holders id (maps k)) 0) as [X|X]; [left; now rewrite X|right]. f_equal.
    assert (I : In id (all_ids k)) by (apply M; lia).
    assert (Q : zsum (map (fun id => holders id (maps k) - 1) (all_ids k)) = 0).
    { assert (zsum (map (fun id => holders id (maps k)) (all_ids k)) = zsum (map (fun id => (holders id (maps k) - 1) + 1) (all_ids k))) as Y by (apply zsum_ext; intros; lia).
      rewrite zsum_plus, zsum_one in Y. lia. }
    assert (holders id (maps k) - 1 <= 0); [|lia]. rewrite <- Q.
    apply (zsum_in (fun id => holders id (maps k) - 1)); auto. intros y Hy. apply M in Hy. lia.
  - intros H. rewrite Z, <- zsum_one. apply zsum_ext. intros id Hi. destruct (H id (E _ Hi)) as [X|X]; rewrite k_has_spec in X by auto.
    + injection X as X. apply M in Hi. lia.
    + now injection X.
Qed.
Lemma used_le_size k : k_reachable k -> 0 <= k_used k <= k_size k.
Proof.
  intros R. destruct (k_reachable_ok R) as ((_ & I & _) & _). unfold k_used, k_size, k_prim.
  assert (P : forall g, 0 <= g_size g) by (intros; rewrite g_size_length; lia). split; [apply P|].
  apply (zsum_in (fun i => g_size (grp k i))); auto.
Qed.
(** sizes after a write and after a delete *)
Lemma size_bound_new m m' id v n : bound m id v m' -> m id = None -> has_size m n -> has_size m' (n + 1).
Proof.
  intros (A & B) N (l & L1 & L2 & ->). exists (id :: l). split; [|split].
  - constructor; auto. intros H. apply L2 in H. congruence.
  - intros k. cbn [In]. split.
    + intros [<- |H]; [congruence|]. destruct (str_dec k id) as [-> |D]; [congruence|]. rewrite B by auto. now apply L2.
    + intros H. destruct (str_dec k id) as [-> |D]; [now left|right]. rewrite B in H by auto. now apply L2.
  - cbn [length]. lia.
Qed.
Lemma size_bound_old m m' id v w n : bound m id v m' -> m id = Some w -> has_size m n -> has_size m' n.
Proof.
  intros (A & B) N (l & L1 & L2 & ->). exists l. split; [auto|split; auto]. intros k. rewrite L2.
  destruct (str_dec k id) as [-> |D]; [|now rewrite B]. rewrite A, N. split; congruence.
Qed.
Lemma size_removed m m' id w n : removed m id m' -> m id = Some w -> has_size m n -> has_size m' (n - 1).
Proof.
  intros (A & B) N (l & L1 & L2 & ->). exists (remove str_dec id l). split; [|split].
  - clear -L1. induction l as [|a l IH]; [constructor|]. apply NoDup_cons_iff in L1. destruct L1 as (N & L1). cbn [remove].
    destruct (str_dec id a); auto. constructor; auto. intros H. apply in_remove in H. tauto.
  - intros k. split; intros H.
    + apply in_remove in H. destruct H as (H & D). rewrite B by auto. now apply L2.
    + destruct (str_dec k id) as [-> |D]; [congruence|]. rewrite B in H by auto. apply in_in_remove; auto. now apply L2.
  - assert (I : In id l) by (apply L2; congruence). clear -L1 I. induction l as [|a l IH]; [destruct I|]. apply NoDup_cons_iff in L1. destruct L1 as (N & L1).
    cbn [remove]. destruct (str_dec id a) as [<- |D].
    + rewrite notin_remove by auto. cbn [length]. lia.
    + destruct I as [X|I]; [congruence|]. specialize (IH L1 I). cbn [length]. destruct l; [destruct I|]. cbn [length] in *. lia.
Qed.
Lemma size_from_groups k k' (delta : nat -> Z) : k_groups k' = k_groups k ->
  (forall i, In i (k_groups k) -> g_size (grp k' i) = g_size (grp k i) + delta i) ->
  k_size k' = k_size k + zsum (map delta (k_groups k)).
Proof. intros G H. unfold k_size. rewrite G, <- zsum_plus. now apply zsum_ext. Qed.
Lemma zsum_indicator (i : nat) l z : NoDup l -> In i l -> zsum (map (fun j => if Nat.eqb j i then z else 0) l) = z.
Proof.
  induction l as [|a l IH]; cbn [In map]; [tauto|]. intros N I. apply NoDup_cons_iff in N. destruct N as (N1 & N2).
  change (zsum (?x :: ?y)) with (x + zsum y). destruct I as [<- |I].
  - rewrite Nat.eqb_refl. rewrite (zsum_ext _ (fun _ => 0)); [rewrite zsum_zero; lia|]. intros j H. destruct (Nat.eqb_spec j a); congruence.
  - destruct (Nat.eqb_spec a i) as [-> |_]; [tauto|]. rewrite IH by auto. lia.
Qed.
Lemma zsum_prefix_ones (A B : list nat) : NoDup (A ++ B) -> zsum (map (fun j => if existsb (Nat.eqb j) A then -1 else 0) (A ++ B)) = - Z.of_nat (length A).
Proof.
  intros N. rewrite map_app, zsum_app.
  rewrite (zsum_ext _ (fun _ => -1) A), (zsum_ext _ (fun _ => 0) B), zsum_zero.
  - clear. induction A; [reflexivity|]. cbn [map length]. change (zsum (?x :: ?y)) with (x + zsum y). lia.
  - intros j H. destruct (existsb (Nat.eqb j) A) eqn:E; auto. apply existsb_exists in E. destruct E as (x & X & E). apply Nat.eqb_eq in E. subst x.
    exfalso. clear -N X H. induction A as [|a A IH]; [destruct X|]. cbn [app] in N. apply NoDup_cons_iff in N. destruct N as (N1 & N2). destruct X as [-> |X]; auto.
    apply N1. apply in_or_app. now right.
  - intros j H. assert (existsb (Nat.eqb j) A = true) as -> ; auto. apply existsb_exists. exists j. split; auto. apply Nat.eqb_refl.
Qed.
Lemma prim_good k : k_ok k -> good_group (k_prim k).
Proof. intros (_ & I & G). apply G, I. Qed.
Lemma write_size k id v : k_reachable k ->
  let k' := fst (k_write id v k) in
  match snd (k_write id v k) with
  | Ok (Some z) => z = 1 /\ k_size k' = k_size k + 1 /\ k_used k' = k_used k + 1
  | _ => k_size k' = k_size k /\ k_used k' = k_used k
  end.
Proof.
  intros R. destruct (k_reachable_ok R) as (K & P). cbv zeta. pose proof (k_write_ok id v K) as K'.
  destruct (k_write_spec id v K) as (p' & W & G & E).
  assert (EG : k_groups (fst (k_write id v k)) = k_groups k) by (rewrite E; reflexivity).
  assert (EP : k_primary (fst (k_write id v k)) = k_primary k) by (rewrite E; reflexivity).
  destruct K as (N & I & B). destruct (B _ I) as (LT & GP).
  assert (Q : k_prim (fst (k_write id v k)) = p') by (unfold k_prim; rewrite EP, E; now apply grp_set_same).
  assert (D : forall d, g_size p' = g_size (k_prim k) + d -> k_size (fst (k_write id v k)) = k_size k + d /\ k_used (fst (k_write id v k)) = k_used k + d).
  { intros d H. split; [|unfold k_used; rewrite Q; exact H].
    rewrite (size_from_groups k _ (fun j => if Nat.eqb j (k_primary k) then d else 0) EG).
    - now rewrite zsum_indicator.
    - intros j Hj. destruct (Nat.eqb_spec j (k_primary k)) as [-> |X].
      + rewrite <- EP at 1. change (g_size (k_prim (fst (k_write id v k))) = g_size (k_prim k) + d). now rewrite Q.
      + rewrite E, grp_set_other by auto. lia. }
  clear Q. inversion W as [p1 H1 H2 H3|w p1 H1 H2 H3 H4|e H1|w H1 H2 H3 H4]; subst.
  - destruct (D 1) as (D1 & D2); [|auto]. eapply has_size_det; [apply g_has_size, G|]. eapply size_bound_new; eauto. apply g_has_size, GP.
  - destruct (D 0) as (D1 & D2); [|rewrite D1, D2; lia]. eapply has_size_det; [apply g_has_size, G|]. rewrite Z.add_0_r. eapply size_bound_old; eauto. apply g_has_size, GP.
  - destruct (D 0) as (D1 & D2); [lia|]. lia.
  - destruct (D 0) as (D1 & D2); [lia|]. lia.
Qed.
Lemma holding_prefix_in k id l A B : holding_prefix k id l A B -> l = A ++ B /\ forall i, In i A -> holds_id k id i.
Proof. intros H. destruct (holding_prefix_spec H) as (X & Y & _). auto. Qed.
Lemma taken_sizes k k' id A B : k_ok k -> k_ok k' -> k_groups k = A ++ B -> (forall i, In i A -> holds_id k id i) -> taken_out k k' id A ->
  k_size k' = k_size k - Z.of_nat (length A).
Proof.
  intros K K' EG HA (G & P & L & T).
  rewrite (size_from_groups k k' (fun j => if existsb (Nat.eqb j) A then -1 else 0) G).
  - rewrite EG, zsum_prefix_ones; [lia|]. rewrite <- EG. apply K.
  - intros i Hi. destruct (T i) as (T1 & T2). destruct (existsb (Nat.eqb i) A) eqn:E.
    + apply existsb_exists in E. destruct E as (x & X & E). apply Nat.eqb_eq in E. subst x. specialize (T1 X). specialize (HA i X).
      destruct K as (_ & _ & K). destruct K' as (_ & _ & K'). destruct (K i Hi) as (_ & G1). rewrite <- G in Hi. destruct (K' i Hi) as (_ & G2).
      unfold holds_id in HA. destruct (g_abs (grp k i) id) eqn:Y; [|congruence].
      eapply has_size_det; [apply g_has_size, G2|]. eapply size_removed; eauto. apply g_has_size, G1.
    + rewrite T2; [lia|]. intros X. assert (existsb (Nat.eqb i) A = true); [|congruence]. apply existsb_exists. exists i. split; auto. apply Nat.eqb_refl.
Qed.
Lemma holders_app id a b : holders id (a ++ b) = holders id a + holders id b.
Proof. unfold holders. rewrite filter_app, app_length. apply Nat2Z.inj_add. Qed.
Lemma holders_all k id A : (forall i, In i A -> holds_id k id i) -> holders id (map (fun i => g_abs (grp k i)) A) = Z.of_nat (length A).
Proof.
  induction A as [|i A IH]; intros H; [reflexivity|]. cbn [map length]. rewrite holders_cons, IH by (intros; apply H; now right).
  assert (Q : holds_id k id i) by (apply H; now left). unfold holds_id in Q. unfold holds_in. destruct (g_abs (grp k i) id); [lia|congruence].
Qed.
Lemma holders_none k id A : (forall i, In i A -> ~ holds_id k id i) -> holders id (map (fun i => g_abs (grp k i)) A) = 0.
Proof.
  induction A as [|i A IH]; intros H; [reflexivity|]. cbn [map]. rewrite holders_cons, IH by (intros; apply H; now right).
  assert (Q : ~ holds_id k id i) by (apply H; now left). unfold holds_id in Q. unfold holds_in. destruct (g_abs (grp k i) id); [|lia].
  exfalso. apply Q. discriminate.
Qed.
Lemma delete_size k id vs : k_reachable k -> encodable id -> snd (k_delete id k) = Ok vs ->
  k_size (fst (k_delete id k)) = k_size k - Z.of_nat (length vs) /\ k_has id k = Ok (Z.of_nat (length vs)) /\ k_has id (fst (k_delete id k)) = Ok 0.
Proof.
  intros R E H. pose proof (k_reachable_ok R) as (K & P). destruct (C27_lemma R E) as (A & B & HP & C1 & C2).
  destruct (holding_prefix_in _ _ _ _ _ HP) as (EG & HA).
  assert (KO : k_ok (fst (k_delete id k))) by (apply delete_from_ok; auto; apply incl_refl).
  assert (X : forall l, (forall i, In i l -> ~ holds_id k id i) \/ exists j, In j l /\ holds_id k id j).
  { induction l as [|i l IH]; [left; intros i []|]. destruct IH as [IH|(j & J1 & J2)]; [|right; exists j; split; auto; now right].
    unfold holds_id at 1 2. destruct (g_abs (grp k i) id) eqn:Y.
    - right. exists i. split; [now left|congruence].
    - left. intros j [<- |J] Z; [congruence|]. apply (IH j J). exact Z. }
  destruct (X B) as [NB|YB].
  - destruct (C1 NB) as (k' & ws & D & T & V & Z0). rewrite D in *. cbn [fst snd] in *. injection H as ->.
    assert (LV : length A = length vs) by (clear -V; induction V; cbn [length]; congruence).
    split; [|split; auto].
    + rewrite <- LV. eapply taken_sizes; eauto.
    + rewrite k_has_spec by auto. f_equal. unfold maps. rewrite EG, map_app, holders_app, (holders_all _ _ _ HA), (holders_none _ _ _ NB), LV. lia.
  - destruct (C2 YB) as (k' & D & _). rewrite D in H. discriminate.
Qed.
(** the status of the container: its fullest collection's, never below the overall usage *)
Definition countable (g : group) : Prop := Forall (fun c => c_size c <= 2 ^ 40 /\ 1 <= c_max c <= 2 ^ 40) g.
Lemma pigeonhole (g : group) L : 0 < L -> (L - 1) * g_max g < 100 * g_size g -> exists c, In c g /\ (L - 1) * c_max c < 100 * c_size c.
Proof.
  intros HL. unfold g_max, g_size. induction g as [|c g IH]; cbn [map]; intros H; [cbn in H; lia|].
  change (zsum (?x :: ?y)) with (x + zsum y) in H.
  destruct (Z_lt_le_dec ((L - 1) * c_max c) (100 * c_size c)) as [Y|Y]; [exists c; split; auto; now left|].
  destruct IH as (d & D1 & D2); [lia|]. exists d. split; auto. now right.
Qed.
Lemma status_exists (g : group) : (0 < length g)%nat -> countable g -> exists s, g_status g = Ok s.
Proof.
  intros LG C. unfold g_status.
  assert (M : exists ss, mapM c_status g = Ok ss /\ length ss = length g).
  { clear LG. induction C as [|c g (C1 & C2) _ IH]; [exists []; auto|]. destruct IH as (ss & E & L).
    destruct (@status_spec (c_size c) (c_max c)) as (s & S & _); [split; [unfold c_size; lia|exact C1]|exact C2|].
    exists (s :: ss). cbn [mapM]. unfold c_status at 1. rewrite S. rewrite E. split; [reflexivity|]. cbn [length]. now rewrite L. }
  destruct M as (ss & -> & L). destruct ss as [|s ss]; [cbn in L; lia|eauto].
Qed.
Lemma status_overall k : k_reachable k -> countable (k_prim k) ->
  exists s, k_status k = Ok s /\ In s [0; 60; 70; 80; 90] /\
    (forall L, In L [60; 70; 80; 90] -> (L <= s <-> exists c, In c (k_prim k) /\ (L - 1) * c_max c < 100 * c_size c)) /\
    (forall L, In L [60; 70; 80; 90] -> (L - 1) * k_capacity k < 100 * k_used k -> L <= s).
Proof.
  intros R C. destruct (k_reachable_ok R) as (K & _). destruct (prim_good _ K) as (_ & LG).
  destruct (status_exists _ LG C) as (s & S). exists s. unfold k_status. rewrite S. split; auto.
  destruct (g_status_spec _ _ S) as ((c & C1 & C2) & C3).
  assert (SP : forall d, In d (k_prim k) -> exists t, c_status d = Ok t /\ In t LEVELS /\ forall L, In L [60; 70; 80; 90] -> (L <= t <-> (L - 1) * c_max d < 100 * c_size d)).
  { intros d D. destruct (proj1 (Forall_forall _ _) C d D) as (X & Y). destruct (@status_spec (c_size d) (c_max d)) as (t & T); [split; [unfold c_size; lia|exact X]|exact Y|]. exists t. exact T. }
  split; [|assert (Q : forall L, In L [60; 70; 80; 90] -> (L <= s <-> exists c, In c (k_prim k) /\ (L - 1) * c_max c < 100 * c_size c)); [|split; [exact Q|]]].
  - destruct (SP c C1) as (t & T1 & T2 & _). assert (t = s) as -> by congruence. exact T2.
  - intros L HL. split.
    + intros H. destruct (SP c C1) as (t & T1 & T2 & T3). assert (t = s) as -> by congruence. exists c. split; auto. now apply T3.
    + intros (d & D1 & D2). destruct (SP d D1) as (t & T1 & T2 & T3). apply T3 in D2; auto. destruct (C3 d D1) as (t' & T4 & T5). assert (t' = t) by congruence. lia.
  - intros L HL H. apply Q; auto. apply pigeonhole; [cbn [In] in HL; lia|exact H].
Qed.
Lemma condense_size k ids : k_reachable k -> relaxed (k_prim k) -> NoDup ids -> (forall id, In id ids <-> encodable id /\ k_has id k <> Ok 0) ->
  exists k', condense true k = (k', Ok (tl (k_groups k))) /\ k_size k' = Z.of_nat (length ids) /\ k_used k' = k_size k'.
Proof.
  intros R X N I. pose proof (k_reachable_ok R) as (K & P). destruct (C28_lemma R X) as (k' & C & G & Pr & A & H & _). exists k'. split; auto.
  assert (R' : k_reachable k').
  { destruct R as (k0 & ops & S & F & ->). exists k0, (ops ++ [KCondense true]). split; auto. split; [apply Forall_app; split; auto; repeat constructor|].
    unfold k_run in *. rewrite fold_left_app. cbn [fold_left k_step]. now rewrite C. }
  pose proof (k_reachable_ok R') as (K' & P').
  assert (U : k_used k' = k_size k') by (unfold k_size, k_used, k_prim; rewrite G, Pr; cbn [map zsum fold_right]; lia).
  split; auto. rewrite <- U. unfold k_used. eapply has_size_det; [apply g_has_size, (prim_good _ K')|]. exists ids. split; auto. split; auto.
  intros id. rewrite I, A. split.
  - intros (E & Y) Z. apply Y. destruct (has_iff_held K E) as (n & Q & Q1 & Q2). rewrite Q. f_equal. destruct (Z.eq_dec n 0) as [|D]; auto. exfalso. apply Q2; [lia|exact Z].
  - intros Y. assert (E : encodable id).
    { apply (held_encodable_ms k); auto. apply holders_held. exact Y. }
    split; auto. destruct (has_iff_held K E) as (n & Q & Q1 & Q2). rewrite Q. intros [= ->]. apply Q2 in Y. lia.
Qed.
