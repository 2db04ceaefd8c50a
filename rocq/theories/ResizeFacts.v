(** resize, Container.new, preservation of the container invariant *)
From Verif Require Import Base BaseFacts Value BTree BTreeFacts Float53 Float53Facts Utils UtilsFacts Collection SpecMap CollectionFacts Group RoutingFacts GroupFacts GroupCapFacts GroupNewFacts StorageThms Container ContainerFacts CondenseFacts.
Open Scope Z_scope.
Set Implicit Arguments.

(** arguments for which a group can be sized: a capacity below 2^53 and a limit that need at most 2^52 - 47 collections *)
Definition sizable (cap mcs : Z) : Prop := 1 <= cap < 2 ^ 53 /\ 1 <= mcs <= 2 ^ 53 /\ cap <= mcs * (2 ^ 52 - 47).

(** an empty, non-strict group of [n] collections of [m] places each *)
Definition even_group (g : group) (n m : Z) : Prop := plain_group g (repeat m (Z.to_nat n)) /\ 0 < n /\ 0 < m.
Lemma zsum_repeat m n : zsum (repeat m n) = Z.of_nat n * m.
Proof. induction n as [|n IH]; [reflexivity|]. change (repeat m (S n)) with (m :: repeat m n). rewrite Nat2Z.inj_succ. unfold zsum in *. simpl. lia. Qed.
Lemma even_group_max g n m : even_group g n m -> g_max g = n * m.
Proof. intros ((E & _) & Hn & _). unfold g_max. rewrite E, zsum_repeat. lia. Qed.
Lemma even_group_good g n m : even_group g n m -> good_group g.
Proof.
  intros ((E & F & _) & Hn & _). split; [now apply g_fresh_wf|]. rewrite <- (map_length c_max), E, repeat_length. lia.
Qed.
Lemma even_group_empty g n m id : even_group g n m -> g_abs g id = None.
Proof.
  intros ((_ & F & _) & _). unfold g_abs, g_items. induction F as [|c g E F IH]; simpl; auto. unfold c_items. rewrite E. exact IH.
Qed.
Lemma even_group_relaxed g n m : even_group g n m -> relaxed g.
Proof. intros ((_ & _ & R & _) & _). exact R. Qed.

Lemma sized_group_spec u0 cap mcs strict : sizable cap mcs ->
  exists (g : group) (n m : Z), sized_group u0 cap mcs strict = Ok g /\ even_group g n m /\ cap <= n * m.
Proof.
  intros (Hc & Hm & Hb). destruct (C01_lemma Hc Hm Hb) as (n & E & H1 & H2 & _). unfold sized_group. rewrite E.
  set (m := if n * cap <? mcs then n * cap else mcs). assert (0 < m /\ cap <= n * m) as [Pm Cm].
  { unfold m. destruct (n * cap <? mcs) eqn:L; [apply Z.ltb_lt in L|apply Z.ltb_ge in L]; split; nia. }
  destruct (@group_new_plain u0 n m strict) as (g & EG & P); [lia|lia|]. rewrite EG. simpl.
  exists g, n, m. split; auto. split; [split; auto; lia|lia].
Qed.

(** ** strictness *)
Lemma g_set_strict_good b g : good_group g -> good_group (fst (g_set_strict (VBool b) g)) /\ forall id, g_abs (fst (g_set_strict (VBool b) g)) id = g_abs g id.
Proof.
  intros [W L]. simpl. split.
  - split; [|rewrite map_length; exact L]. intros i c H. rewrite map_length. rewrite nth_error_map in H.
    destruct (nth_error g i) as [c0|] eqn:E; [|discriminate]. injection H as <-. destruct (W i c0 E) as [W1 W2]. split; [exact W1|exact W2].
  - intros id. unfold g_abs, g_items. f_equal. clear. induction g as [|c g IH]; simpl; auto. now rewrite IH.
Qed.
Lemma k_set_strict_spec v k : k_ok k ->
  (forall b, v = VBool b -> snd (k_set_strict v k) = Ok tt /\ k_ok (fst (k_set_strict v k)) /\ k_groups (fst (k_set_strict v k)) = k_groups k /\
     k_primary (fst (k_set_strict v k)) = k_primary k /\ length (k_heap (fst (k_set_strict v k))) = length (k_heap k) /\
     Forall (fun c => c_strict c = b) (k_prim (fst (k_set_strict v k))) /\
     map c_max (k_prim (fst (k_set_strict v k))) = map c_max (k_prim k) /\ map c_tree (k_prim (fst (k_set_strict v k))) = map c_tree (k_prim k) /\
     (forall i, i <> k_primary k -> grp (fst (k_set_strict v k)) i = grp k i) /\
     (forall i id, g_abs (grp (fst (k_set_strict v k)) i) id = g_abs (grp k i) id)) /\
  ((forall b, v <> VBool b) -> k_set_strict v k = (k, Err TypeError)).
Proof.
  intros O. pose proof O as (ND & IP & ALL). destruct (ALL _ IP) as [Lp Gp]. split.
  - intros b ->. destruct (g_set_strict_good b Gp) as [GG AB]. destruct (proj1 (g_set_strict_spec (VBool b) (k_prim k)) b eq_refl) as (_ & S1 & S2 & S3).
    unfold k_set_strict. simpl in *. fold (k_prim k) in *. set (g := map (c_set_strict b) (k_prim k)) in *.
    split; auto. split; [apply set_grp_ok; auto|]. split; auto. split; auto. split; [apply heap_set_grp|].
    assert (PP : k_prim (set_grp (k_primary k) g k) = g) by (apply grp_set_same; auto). rewrite PP. split; auto. split; auto. split; auto.
    split; [intros i N; apply grp_set_other; auto|].
    intros i id. destruct (Nat.eq_dec i (k_primary k)) as [->|N]; [rewrite grp_set_same; auto; apply AB|rewrite grp_set_other; auto].
  - intros H. destruct v; auto. exfalso. eapply H; eauto.
Qed.

(** ** Container.new *)
Lemma container_new_spec u0 cap mcs strict : sizable cap mcs ->
  exists (k : container) (n m : Z), container_new u0 cap mcs strict = Ok k /\ k_groups k = [k_primary k] /\ k_ok k /\ (forall id, held k id = None) /\
    map c_max (k_prim k) = repeat m (Z.to_nat n) /\ 0 < n /\ 0 < m /\ Forall (fun c => c_strict c = strict) (k_prim k) /\ g_fresh (k_prim k) /\
    k_capacity k = n * m /\ cap <= n * m.
Proof.
  intros H. destruct (sized_group_spec u0 strict H) as (g & n & m & E & EV & C). unfold container_new. rewrite E. unfold container_init. simpl existsb. cbv iota.
  assert (O : k_ok (mkK [g] [0%nat] 0)).
  { split; [constructor; [intros []|constructor]|]. split; [simpl; auto|]. intros i [<-|[]]. split; [simpl; lia|]. apply (even_group_good EV). }
  destruct (proj1 (k_set_strict_spec (VBool strict) O) strict eq_refl) as (R & O' & G & P & _ & S1 & S2 & S3 & _ & AB).
  destruct (k_set_strict (VBool strict) (mkK [g] [0%nat] 0)) as [k r]. simpl fst in *. simpl snd in *. subst r.
  exists k, n, m. split; auto. rewrite G, P. split; auto. split; auto. split.
  - intros id. unfold held, maps. rewrite G. simpl. rewrite AB. unfold grp. simpl. now rewrite (even_group_empty id EV).
  - split; [rewrite S2; apply EV|]. split; [apply EV|]. split; [apply EV|]. split; auto. split.
    + destruct EV as ((_ & F & _) & _). unfold g_fresh in *. rewrite Forall_forall in *. intros c I.
      apply (in_map c_tree) in I. rewrite S3 in I. apply in_map_iff in I as (c0 & <- & I). auto.
    + split; auto. unfold k_capacity, g_max. rewrite S2. apply (even_group_max EV).
Qed.

(** ** resize *)
Lemma push_ok g k : k_ok k -> good_group g -> k_ok (push_primary g k).
Proof.
  intros (ND & IP & ALL) G. split; [|split].
  - simpl. constructor; auto. intros I. apply ALL in I. lia.
  - simpl. auto.
  - simpl. intros i [<-|I].
    + split; [rewrite app_length; simpl; lia|]. unfold grp. simpl. rewrite app_nth2 by lia. now rewrite Nat.sub_diag.
    + destruct (ALL i I) as [L GG]. split; [rewrite app_length; lia|]. unfold grp. simpl. rewrite app_nth1 by lia. exact GG.
Qed.
Lemma push_old g k i : In i (k_groups k) -> k_ok k -> grp (push_primary g k) i = grp k i.
Proof. intros I (_ & _ & ALL). unfold grp. simpl. apply app_nth1. now apply ALL. Qed.
Lemma push_new g k : k_prim (push_primary g k) = g.
Proof. unfold k_prim, grp. simpl. rewrite app_nth2 by lia. now rewrite Nat.sub_diag. Qed.
Lemma ok_sub k gs : k_ok k -> NoDup gs -> incl gs (k_groups k) -> In (k_primary k) gs -> k_ok (with_groups gs k).
Proof. intros (ND & IP & ALL) N I P. split; [exact N|]. split; [exact P|]. intros i J. apply ALL. apply I. exact J. Qed.

(** how the group list looks after a resize *)
Definition resized_groups (condense_all transfer : bool) (new : nat) (old : list nat) : list nat :=
  if transfer then (if condense_all then [new] else new :: tl old) else new :: old.
Definition resized_removed (condense_all transfer : bool) (old : list nat) : list nat :=
  if transfer then (if condense_all then old else firstn 1 old) else [].

Lemma resize_spec u0 cap mcs ca tr k : k_ok k -> sizable cap mcs ->
  exists (k' : container) (n m : Z), resize u0 cap mcs ca tr k = (k', Ok (resized_removed ca tr (k_groups k))) /\ k_ok k' /\ primary_first k' /\
    k_groups k' = resized_groups ca tr (k_primary k') (k_groups k) /\ ~ In (k_primary k') (k_groups k) /\
    map c_max (k_prim k') = repeat m (Z.to_nat n) /\ 0 < n /\ 0 < m /\ relaxed (k_prim k') /\ k_capacity k' = n * m /\ cap <= n * m /\
    (forall id, held k' id = held k id) /\
    (forall j, In j (tl (k_groups k')) -> tr = false \/ ca = false -> grp k' j = grp k j) /\
    (forall j id, In j (resized_removed ca tr (k_groups k)) -> g_abs (grp k' j) id = None).
Proof.
  intros O SZ. destruct (sized_group_spec u0 (k_strict k) SZ) as (g & n & m & E & EV & C). unfold resize. rewrite E.
  pose proof (push_ok O (even_group_good EV)) as O1. pose proof (push_new g k) as PN. pose proof (fun i I => @push_old g k i I O) as PO.
  assert (NP : ~ In (length (k_heap k)) (k_groups k)) by (intros I; apply O in I; lia).
  assert (PE : k_primary (push_primary g k) = length (k_heap k)) by reflexivity.
  assert (GE : k_groups (push_primary g k) = length (k_heap k) :: k_groups k) by reflexivity.
  set (k1 := push_primary g k) in *. set (p := length (k_heap k)) in *.
  assert (H1 : forall id, first_held id (map (fun j => g_abs (grp k1 j)) (k_groups k)) = held k id).
  { intros id. unfold held, maps. apply first_held_ext. intros j J. now rewrite PO. }
  assert (R1 : relaxed (k_prim k1)) by (rewrite PN; apply (even_group_relaxed EV)).
  assert (RX : forall g', map c_strict g' = map c_strict (k_prim k1) -> relaxed g') by (intros g' X; apply relaxed_map; rewrite X; now apply relaxed_map).
  assert (MX : map c_max (k_prim k1) = repeat m (Z.to_nat n)) by (rewrite PN; apply EV).
  assert (CX : forall k', map c_max (k_prim k') = map c_max (k_prim k1) -> k_capacity k' = n * m).
  { intros k' X. unfold k_capacity, g_max. rewrite X, PN. apply (even_group_max EV). }
  destruct ca.
  - assert (PF : primary_first k1) by (exists (k_groups k); now rewrite GE, PE). assert (HH : forall id, held k1 id = held k id).
    { intros id. rewrite (@held_split k1 (k_groups k)), PN, (even_group_empty id EV); auto. }
    destruct tr.
    + destruct (condense_transfer O1 PF) as [(k' & EQ & O' & G & P & HE & EM & MX' & MS & _ & _)|(k' & e & _ & R)];
        [|exfalso; eapply relaxed_never_refuses; eauto].
      exists k', n, m. rewrite EQ, GE. simpl. rewrite G, P, PE. split; auto. split; auto. split; [exists []; now rewrite G, P, PE|].
      split; auto. split; auto. split; [congruence|]. split; [apply EV|]. split; [apply EV|]. split; auto. split; auto. split; auto.
      split; [intros id; now rewrite HE|]. split; [intros j []|]. intros j id J. apply EM. rewrite GE. exact J.
    + destruct (condense_copy O1 PF) as [(k' & EQ & O' & G & P & HE & EM & MX' & MS & _ & _)|(k' & e & _ & R)];
        [|exfalso; eapply relaxed_never_refuses; eauto].
      exists k', n, m. rewrite EQ. rewrite G, P, PE, GE. split; auto. split; auto. split; [exists (k_groups k); now rewrite G, P, PE, GE|].
      split; auto. split; auto. split; [congruence|]. split; [apply EV|]. split; [apply EV|]. split; auto. split; auto. split; auto.
      split.
      { intros id. rewrite (@held_split k' (k_groups k)) by (now rewrite G, P, PE, GE). rewrite HE, HH. destruct (held k id) eqn:X; auto.
        rewrite <- X. unfold held, maps. apply first_held_ext. intros j J. rewrite EM by (rewrite PE; intros ->; contradiction). now rewrite PO. }
      split; [|intros j id []]. simpl tl. intros j J _. rewrite EM by (rewrite PE; intros ->; contradiction). now apply PO.
  - rewrite GE. destruct (k_groups k) as [|a secs] eqn:EG; [destruct O as (_ & IP & _); rewrite EG in IP; destruct IP|].
    change (firstn 2 (p :: a :: secs)) with [p; a]. change (skipn 2 (p :: a :: secs)) with secs.
    assert (ND : NoDup (a :: secs)) by (rewrite <- EG; apply O).
    assert (Na : ~ In a secs) by (apply NoDup_cons_iff in ND; tauto).
    assert (O2 : k_ok (with_groups [p; a] k1)).
    { apply ok_sub; auto.
      - constructor; [|constructor; [intros []|constructor]]. intros [<-|[]]. apply NP. simpl; auto.
      - rewrite GE. intros x [<-|[<-|[]]]; simpl; auto.
      - rewrite PE. simpl; auto. }
    assert (PF : primary_first (with_groups [p; a] k1)) by (exists [a]; reflexivity).
    assert (PN2 : k_prim (with_groups [p; a] k1) = g) by exact PN.
    assert (HH : forall id, held (with_groups [p; a] k1) id = g_abs (grp k a) id).
    { intros id. rewrite (@held_split _ [a]) by reflexivity. rewrite PN2, (even_group_empty id EV). simpl.
      change (grp (with_groups [p; a] k1) a) with (grp k1 a). rewrite PO by (simpl; auto). destruct (g_abs (grp k a) id); auto. }
    assert (FR : forall j, In j secs -> ~ In j [p; a]).
    { intros j J [<-|[<-|[]]]; [apply NP; simpl; auto|contradiction]. }
    destruct tr.
    + destruct (condense_transfer O2 PF) as [(k' & EQ & O' & G & P & HE & EM & MX' & MS & HL & FM)|(k' & e & _ & R)];
        [|exfalso; eapply relaxed_never_refuses; eauto].
      simpl k_groups in *. simpl k_primary in *. rewrite EQ. simpl tl. exists (with_groups (k_groups k' ++ secs) k'), n, m. split; auto.
      assert (GF : k_groups (with_groups (k_groups k' ++ secs) k') = p :: secs) by (simpl; now rewrite G).
      assert (PF' : k_primary (with_groups (k_groups k' ++ secs) k') = p) by exact P.
      assert (SO : forall j, In j secs -> grp (with_groups (k_groups k' ++ secs) k') j = grp k j).
      { intros j J. change (grp k' j = grp k j). rewrite FM by auto. apply PO. simpl; auto. }
      split.
      { split; [rewrite GF; constructor; [intros I; apply NP; simpl; auto|apply NoDup_cons_iff in ND; tauto]|].
        split; [rewrite GF, PF'; simpl; auto|]. rewrite GF. intros i [<-|I].
        - destruct (proj2 (proj2 O') p) as [L GG]; [rewrite G; simpl; auto|]. split; [exact L|exact GG].
        - rewrite SO by auto. split.
          + simpl. rewrite HL. simpl. rewrite app_length. destruct (proj2 (proj2 O) i) as [L _]; [rewrite EG; simpl; auto|lia].
          + apply O. rewrite EG. simpl; auto. }
      rewrite GF, PF'. split; [exists secs; now rewrite GF, PF'|]. split; auto. split; auto.
      split; [change (map c_max (k_prim k') = repeat m (Z.to_nat n)); rewrite MX'; exact MX|]. split; [apply EV|]. split; [apply EV|].
      split; [apply RX; exact MS|]. split; [apply CX; exact MX'|]. split; auto. split.
      { intros id. rewrite (@held_split _ secs) by (now rewrite GF, PF'). change (k_prim (with_groups (k_groups k' ++ secs) k')) with (k_prim k').
        rewrite <- (@prim_single k' p), HE, HH by (rewrite ?P; auto). unfold held, maps. rewrite EG. simpl. destruct (g_abs (grp k a) id); auto.
        apply first_held_ext. intros j J. now rewrite SO. }
      split; [intros j J _; apply SO; exact J|]. intros j id [<-|[]]. apply (EM a id). simpl; auto.
    + destruct (condense_copy O2 PF) as [(k' & EQ & O' & G & P & HE & EM & MX' & MS & HL & FM)|(k' & e & _ & R)];
        [|exfalso; eapply relaxed_never_refuses; eauto].
      simpl k_groups in *. simpl k_primary in *. rewrite EQ. exists (with_groups (k_groups k' ++ secs) k'), n, m. split; auto.
      assert (GF : k_groups (with_groups (k_groups k' ++ secs) k') = p :: a :: secs) by (simpl; now rewrite G).
      assert (PF' : k_primary (with_groups (k_groups k' ++ secs) k') = p) by exact P.
      assert (SO : forall j, In j (a :: secs) -> grp (with_groups (k_groups k' ++ secs) k') j = grp k j).
      { intros j J. change (grp k' j = grp k j). rewrite EM by (intros ->; apply NP; exact J). apply PO. exact J. }
      split.
      { split; [rewrite GF; constructor; auto|].
        split; [rewrite GF, PF'; simpl; auto|]. rewrite GF. intros i [<-|I].
        - destruct (proj2 (proj2 O') p) as [L GG]; [rewrite G; simpl; auto|]. split; [exact L|exact GG].
        - rewrite SO by auto. split.
          + simpl. rewrite HL. simpl. rewrite app_length. destruct (proj2 (proj2 O) i) as [L _]; [rewrite EG; simpl; auto|lia].
          + apply O. rewrite EG. simpl; auto. }
      rewrite GF, PF'. split; [exists (a :: secs); now rewrite GF, PF'|]. split; auto. split; auto.
      split; [change (map c_max (k_prim k') = repeat m (Z.to_nat n)); rewrite MX'; exact MX|]. split; [apply EV|]. split; [apply EV|].
      split; [apply RX; exact MS|]. split; [apply CX; exact MX'|]. split; auto. split.
      { intros id. rewrite (@held_split _ (a :: secs)) by (now rewrite GF, PF'). change (k_prim (with_groups (k_groups k' ++ secs) k')) with (k_prim k').
        rewrite HE, HH. unfold held, maps. rewrite EG. simpl. destruct (g_abs (grp k a) id) eqn:X; auto.
        change (grp (with_groups (k_groups k' ++ secs) k') a) with (grp (with_groups (k_groups k' ++ secs) k') a). rewrite SO by (simpl; auto). rewrite X.
        apply first_held_ext. intros j J. rewrite SO; simpl; auto. }
      split; [intros j J _; apply SO; exact J|]. intros j id [].
Qed.
Lemma container_new_zero u0 mcs strict : 1 <= mcs <= 2 ^ 53 -> container_new u0 0 mcs strict = Err ValueError.
Proof.
  intros H. unfold container_new, sized_group, number_of_collections. destruct (mcs =? 0) eqn:E; [apply Z.eqb_eq in E; lia|].
  pose proof pow53_le. rewrite ceil_div_exact by lia. replace (zceil 0 mcs) with 0.
  - assert (next_prime_from 0 = Ok 0) as -> by reflexivity. reflexivity.
  - symmetry. apply Z.le_antisymm; [apply zceil_le; lia|]. destruct (zceil_spec 0 mcs) as [A B]; [lia|]. nia.
Qed.
