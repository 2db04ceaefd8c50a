(** Walks over a group that changes: everything that stays is given once, in order. *)
From Coq Require Import Sorting.Sorted.
From Verif Require Import Base BaseFacts Value BTree BTreeFacts Collection SpecMap CollectionFacts Group RoutingFacts GroupFacts StorageThms WalkView.
Open Scope nat_scope.
Open Scope list_scope.
Set Implicit Arguments.

Lemma keys_eqb_eq a b : keys_eqb a b = true -> a = b.
Proof.
  revert b. induction a as [|x a IH]; intros [|y b] H; cbn in H; try discriminate; [reflexivity|]. apply andb_true_iff in H. destruct H as [E H]. apply str_eqb_eq in E. subst y. f_equal. auto.
Qed.
(** the order of a walk over a group of [n] collections *)
Definition before (n : nat) (a b : pystr) : Prop := exists i j, get_group_index a n = Ok i /\ get_group_index b n = Ok j /\ (i < j \/ i = j /\ slt a b).
Definition winv (g : group) (p : place) (ys : list pystr) : Prop :=
  match p with
  | Begin => ys = []
  | Ended => StronglySorted (before (length g)) ys
  | At i j => exists c pre, nth_error g i = Some c /\ 1 <= j <= length (c_keys c) /\ ys = pre ++ firstn j (c_keys c) /\ StronglySorted (before (length g)) pre /\
      forall k, In k pre -> exists i', get_group_index k (length g) = Ok i' /\ i' < i
  end.
Definition wpast (g : group) (p : place) (ys : list pystr) (id : pystr) : Prop :=
  match p with Begin => True | At i _ => forall n, get_group_index id (length g) = Ok n -> n < i -> In id ys | Ended => In id ys end.

Lemma sorted_app {A} (R : A -> A -> Prop) a b : StronglySorted R a -> StronglySorted R b -> (forall x y, In x a -> In y b -> R x y) -> StronglySorted R (a ++ b).
Proof.
  induction 1 as [|x a H IH F]; intros SB X; [exact SB|]. cbn. constructor.
  - apply IH; [exact SB|]. intros y z I J. apply X; [now right|exact J].
  - apply Forall_app. split; [exact F|]. apply Forall_forall. intros y J. apply X; [now left|exact J].
Qed.
Lemma sorted_firstn {A} (R : A -> A -> Prop) l j : StronglySorted R l -> StronglySorted R (firstn j l).
Proof.
  intros H. revert j. induction H as [|x l H IH F]; intros [|j]; cbn; try constructor; auto. rewrite Forall_forall in *. intros y I. apply F. rewrite <- (firstn_skipn j l), in_app_iff. auto.
Qed.
Lemma in_coll g i c k : g_wf g -> nth_error g i = Some c -> In k (c_keys c) -> get_group_index k (length g) = Ok i.
Proof.
  intros W N I. apply (proj2 (W i c N)). unfold c_abs. intros E. apply bt_get_none_notin in E. apply E. exact I.
Qed.
Lemma coll_sorted g i c : g_wf g -> nth_error g i = Some c -> StronglySorted (before (length g)) (c_keys c).
Proof.
  intros W N. assert (X : forall l, (forall k, In k l -> In k (c_keys c)) -> StronglySorted slt l -> StronglySorted (before (length g)) l).
  { intros l S H. induction H as [|x l H IH F]; constructor; [apply IH; intros k I; apply S; now right|]. rewrite Forall_forall in *. intros y I. exists i, i.
    split; [eapply in_coll; eauto; apply S; now left|]. split; [eapply in_coll; eauto; apply S; now right|]. right. auto. }
  apply X; [auto|]. exact (proj1 (W i c N)).
Qed.
Lemma winv_sorted g p ys : g_wf g -> winv g p ys -> StronglySorted (before (length g)) ys.
Proof.
  intros W. destruct p as [|i j|]; cbn; [intros ->; constructor| |auto]. intros (c & pre & N & J & -> & S & P). apply sorted_app; [exact S|apply sorted_firstn; eapply coll_sorted; eauto|].
  intros x y I K. destruct (P x I) as (i' & E & L). exists i', i. split; [exact E|]. split; [|auto]. eapply in_coll; eauto. rewrite <- (firstn_skipn j (c_keys c)), in_app_iff. auto.
Qed.
Lemma first_of_spec g cs : forall i, (forall j, nth_error cs j = nth_error g (i + j)) ->
  match first_of c_items cs i with
  | (p, None) => p = Ended /\ forall j c, i <= j -> nth_error g j = Some c -> c_items c = []
  | (p, Some kv) => exists i' c r, p = At i' 1 /\ i <= i' /\ nth_error g i' = Some c /\ c_items c = kv :: r /\ forall j c, i <= j < i' -> nth_error g j = Some c -> c_items c = []
  end.
Proof.
  induction cs as [|c cs IH]; intros i H; cbn [first_of].
  - split; [reflexivity|]. intros j c L N. specialize (H (j - i)). replace (i + (j - i)) with j in H by lia. rewrite N in H. destruct (j - i); discriminate.
  - pose proof (H 0) as H0. cbn in H0. rewrite Nat.add_0_r in H0. destruct (c_items c) as [|kv r] eqn:E.
    + assert (H' : forall j, nth_error cs j = nth_error g (S i + j)) by (intros j; specialize (H (S j)); cbn in H; rewrite H; f_equal; lia). specialize (IH (S i) H').
      destruct (first_of c_items cs (S i)) as [p [kv|]].
      * destruct IH as (i' & c' & r & -> & L & N & EI & Z). exists i', c', r. split; [reflexivity|]. split; [lia|]. split; [exact N|]. split; [exact EI|]. intros j c0 J N0. destruct (Nat.eq_dec i j) as [<-|]; [congruence|]. apply (Z j c0); [lia|exact N0].
      * destruct IH as [-> Z]. split; [reflexivity|]. intros j c0 J N0. destruct (Nat.eq_dec i j) as [<-|]; [congruence|]. apply (Z j c0); [lia|exact N0].
    + exists i, c, r. split; [reflexivity|]. split; [lia|]. split; [congruence|]. split; [exact E|]. intros j c0 J. lia.
Qed.
Lemma nth_skipn {A} (l : list A) i j : nth_error (skipn i l) j = nth_error l (i + j).
Proof. revert i. induction l as [|x l IH]; intros [|i]; cbn; auto. now destruct j. Qed.
Lemma here_abs g i c k v : g_wf g -> nth_error g i = Some c -> In (k, v) (c_items c) -> g_abs g k = Some v.
Proof.
  intros W N I. apply g_items_in; [exact W|]. unfold g_items. apply in_flat_map. exists c. split; [eapply nth_error_In; eauto|exact I].
Qed.
(** moving on to the collections from the [i]-th on *)
Lemma move_on g i ys p x : g_wf g -> StronglySorted (before (length g)) ys -> (forall k, In k ys -> exists i', get_group_index k (length g) = Ok i' /\ i' < i) ->
  first_of c_items (skipn i g) i = (p, x) ->
  winv g p (ys ++ match x with Some kv => [fst kv] | None => [] end) /\ (forall k v, x = Some (k, v) -> g_abs g k = Some v) /\ (x = None <-> p = Ended) /\
  forall id, g_abs g id <> None -> (forall n, get_group_index id (length g) = Ok n -> n < i -> In id ys) -> wpast g p (ys ++ match x with Some kv => [fst kv] | None => [] end) id.
Proof.
  intros W S P E. pose proof (@first_of_spec g (skipn i g) i (fun j => nth_skipn g i j)) as X. rewrite E in X.
  assert (Q : forall id, g_abs g id <> None -> exists n c, get_group_index id (length g) = Ok n /\ nth_error g n = Some c /\ c_items c <> []).
  { intros id H. destruct (get_group_index id (length g)) as [n|e] eqn:R; [|exfalso; apply H; eapply g_abs_unroutable; eauto]. destruct (route_nth _ _ _ R) as [c N]. exists n, c. split; [reflexivity|]. split; [exact N|].
    intros Z. apply H. rewrite (g_abs_route _ _ _ _ W R N). unfold c_abs. unfold c_items in Z. now rewrite Z. }
  destruct x as [kv|].
  - destruct X as (i' & c & r & -> & L & N & EI & Z). assert (KE : c_keys c = fst kv :: map fst r) by (unfold c_keys, bt_keys; unfold c_items in EI; now rewrite EI).
    split; [|split; [|split]].
    + cbn [winv]. exists c, ys. split; [exact N|]. rewrite KE. split; [cbn; lia|]. split; [reflexivity|]. split; [exact S|]. intros k I. destruct (P k I) as (a & A & B). exists a. split; [exact A|lia].
    + intros k v H. injection H as ->. eapply here_abs; eauto. rewrite EI. now left.
    + split; discriminate.
    + intros id H F n R J. apply in_app_iff. left. destruct (Nat.lt_ge_cases n i) as [K|K]; [eauto|]. exfalso. destruct (Q id H) as (n' & c' & R' & N' & NE). rewrite R in R'. injection R' as <-. apply NE. eapply Z; eauto.
  - destruct X as [-> Z]. rewrite app_nil_r. split; [exact S|]. split; [discriminate|]. split; [tauto|]. cbn. intros id H F. destruct (Q id H) as (n & c & R & N & NE). destruct (Nat.lt_ge_cases n i) as [K|K]; [eauto|]. exfalso. apply NE. eapply Z; eauto.
Qed.
Lemma next_inv g p ys p' x : g_wf g -> winv g p ys -> next_of c_items g p = (p', x) ->
  winv g p' (ys ++ match x with Some kv => [fst kv] | None => [] end) /\ (forall k v, x = Some (k, v) -> g_abs g k = Some v) /\ (x = None <-> p' = Ended) /\
  forall id, g_abs g id <> None -> wpast g p ys id -> wpast g p' (ys ++ match x with Some kv => [fst kv] | None => [] end) id.
Proof.
  intros W I E. destruct p as [|i j|]; cbn [next_of] in E.
  - cbn in I. subst ys. destruct (@move_on g 0 [] p' x W) as (A & B & C & D); [constructor|intros k []|exact E|]. split; [exact A|]. split; [exact B|]. split; [exact C|]. intros id H _. apply D; [exact H|]. intros n _ L. lia.
  - pose proof (@winv_sorted _ _ _ W I) as SO. destruct I as (c & pre & N & J & -> & S & P). rewrite N in E. destruct (nth_error (c_items c) j) as [kv|] eqn:X.
    + injection E as <- <-. assert (KX : nth_error (c_keys c) j = Some (fst kv)) by (unfold c_keys, bt_keys, c_items in *; rewrite nth_error_map, X; reflexivity).
      assert (FN : firstn (Datatypes.S j) (c_keys c) = firstn j (c_keys c) ++ [fst kv]).
      { clear -KX. revert KX. generalize (c_keys c) as l. induction j as [|j IH]; intros [|y l] H; cbn in *; try discriminate; [congruence|]. f_equal. auto. }
      split; [|split; [|split]].
      * exists c, pre. split; [exact N|]. split; [|rewrite FN, app_assoc; auto]. assert (j < length (c_keys c)) by (apply nth_error_Some; congruence). lia.
      * intros k v H. injection H as ->. eapply here_abs; eauto. eapply nth_error_In; eauto.
      * split; discriminate.
      * cbn. intros id H F n R L. apply in_app_iff. left. eauto.
    + assert (JL : j = length (c_keys c)) by (apply nth_error_None in X; unfold c_keys, bt_keys, c_items in *; rewrite map_length in *; lia). subst j. rewrite firstn_all in *.
      destruct (@move_on g (Datatypes.S i) (pre ++ c_keys c) p' x W SO) as (A & B & C & D); [|exact E|].
      * intros k K. apply in_app_iff in K. destruct K as [K|K]; [destruct (P k K) as (a & Q1 & Q2); exists a; split; [exact Q1|lia]|]. exists i. split; [eapply in_coll; eauto|lia].
      * split; [exact A|]. split; [exact B|]. split; [exact C|]. intros id H F. apply D; [exact H|]. intros n R L. destruct (Nat.eq_dec n i) as [->|NE]; [|apply F with n; [exact R|lia]].
        apply in_app_iff. right. rewrite (g_abs_route _ _ _ _ W R N) in H. unfold c_abs in H. destruct (in_dec str_dec id (c_keys c)) as [Y|Y]; [exact Y|]. exfalso. apply H. apply bt_get_none_notin. exact Y.
  - injection E as <- <-. rewrite app_nil_r. split; [exact I|]. split; [discriminate|]. split; [tauto|auto].
Qed.
Lemma do_inv g g1 p ys : length g1 = length g -> keys_here g p = keys_here g1 p -> winv g p ys -> winv g1 p ys.
Proof.
  intros L K. destruct p as [|i j|]; cbn; [auto| |now rewrite L]. intros (c & pre & N & J & -> & S & P). cbn in K. rewrite N in K. destruct (nth_error g1 i) as [c1|] eqn:N1; [|rewrite K in J; cbn in J; lia].
  exists c1, pre. rewrite L, <- K. auto.
Qed.
Lemma do_past g g1 p ys id : length g1 = length g -> wpast g p ys id -> wpast g1 p ys id.
Proof. intros L. destruct p as [|i j|]; cbn; auto. now rewrite L. Qed.

(** ** whole walks *)
(** the group at the beginning and after each operation *)
Fixpoint moments (steps : list wstep) (g : group) : list group :=
  match steps with [] => [g] | Next :: s => moments s g | Do o :: s => g :: moments s (fst (g_step g o)) end.
Definition wf_step (s : wstep) : Prop := match s with Next => True | Do o => wf_op o end.
Lemma moments_first steps g : In g (moments steps g).
Proof. induction steps as [|[|o] s IH]; cbn; auto. Qed.
Lemma walk_inv steps : forall g p ys os g' p', g_wf g -> 0 < length g -> Forall wf_step steps -> winv g p ys -> w_walk c_items steps g p = Some (os, g', p') ->
  winv g' p' (ys ++ map fst (given os)) /\ g_wf g' /\ length g' = length g /\ In g' (moments steps g) /\
  forall id, (forall m, In m (moments steps g) -> g_abs m id <> None) -> wpast g p ys id -> wpast g' p' (ys ++ map fst (given os)) id.
Proof.
  induction steps as [|[|o] steps IH]; intros g p ys os g' p' W L F I E; cbn [w_walk] in E.
  - injection E as <- <- <-. change (given []) with (@nil (pystr * pyval)). cbn [map]. rewrite app_nil_r. split; [exact I|]. split; [exact W|]. split; [reflexivity|]. split; [left; reflexivity|]. intros id _ P. exact P.
  - apply Forall_cons_iff in F. destruct F as [_ F]. destruct (next_of c_items g p) as [p1 x] eqn:N. destruct (w_walk c_items steps g p1) as [[[os1 g1] p2]|] eqn:R; [|discriminate]. injection E as <- <- <-.
    destruct (@next_inv g p ys p1 x W I N) as (A & _ & _ & D). destruct (IH _ _ _ _ _ _ W L F A R) as (I1 & I2 & I3 & I5 & I4).
    assert (Q : ys ++ map fst (given (Gave x :: os1)) = (ys ++ match x with Some kv => [fst kv] | None => [] end) ++ map fst (given os1)) by (rewrite <- app_assoc; f_equal; destruct x; reflexivity).
    rewrite Q. split; [exact I1|]. split; [exact I2|]. split; [exact I3|]. split; [exact I5|]. intros id H P. apply I4; [exact H|]. apply D; [|exact P]. apply H. apply moments_first.
  - apply Forall_cons_iff in F. destruct F as [FO F]. cbn in FO. destruct (@g_step_spec g o W L FO) as (W1 & L1 & _). destruct (g_step g o) as [g1 r] eqn:S. cbn [fst] in *.
    destruct (keys_eqb (keys_here g p) (keys_here g1 p)) eqn:K; [|discriminate]. apply keys_eqb_eq in K. destruct (w_walk c_items steps g1 p) as [[[os1 g2] p2]|] eqn:R; [|discriminate]. injection E as <- <- <-.
    destruct (IH g1 p ys os1 g2 p2 W1 ltac:(lia) F (@do_inv g g1 p ys L1 K I) R) as (I1 & I2 & I3 & I5 & I4). cbn [given flat_map app]. split; [exact I1|]. split; [exact I2|]. split; [congruence|]. cbn [moments]. rewrite S. cbn [fst]. split; [now right|].
    intros id H P. apply I4; [intros m J; apply H; now right|]. now apply do_past with g.
Qed.
Lemma before_irrefl n a : ~ before n a a.
Proof. intros (i & j & E1 & E2 & L). rewrite E1 in E2. injection E2 as E2. destruct L as [L|[_ L]]; [lia|]. unfold slt in L. assert (X : str_compare a a = Eq) by (apply str_compare_eq; reflexivity). congruence. Qed.
Lemma before_nodup n l : StronglySorted (before n) l -> NoDup l.
Proof. induction 1 as [|x l H IH F]; constructor; [|exact IH]. intros I. rewrite Forall_forall in F. exact (before_irrefl (F x I)). Qed.
Lemma walk_once g steps os g' p' : g_wf g -> 0 < length g -> Forall wf_step steps -> w_walk c_items steps g Begin = Some (os, g', p') ->
  NoDup (map fst (given os)) /\ StronglySorted (before (length g)) (map fst (given os)).
Proof.
  intros W L F E. destruct (@walk_inv steps g Begin [] os g' p' W L F eq_refl E) as (A & W' & L' & _). cbn [app] in A. pose proof (@winv_sorted g' p' _ W' A) as S. rewrite L' in S. split; [|exact S]. eapply before_nodup; exact S.
Qed.
Lemma ended_stays steps : forall g os g' p', w_walk c_items steps g Ended = Some (os, g', p') -> p' = Ended.
Proof.
  induction steps as [|[|o] steps IH]; intros g os g' p' E; cbn [w_walk next_of] in E; [congruence| |].
  - destruct (w_walk c_items steps g Ended) as [[[os1 g1] p1]|] eqn:R; [|discriminate]. injection E as <- <- <-. eauto.
  - destruct (g_step g o) as [g1 r]. destruct (keys_eqb _ _); [|discriminate]. destruct (w_walk c_items steps g1 Ended) as [[[os1 g2] p1]|] eqn:R; [|discriminate]. injection E as <- <- <-. eauto.
Qed.
Lemma stopped steps : forall g p ys os g' p', g_wf g -> 0 < length g -> Forall wf_step steps -> winv g p ys -> w_walk c_items steps g p = Some (os, g', p') -> In (Gave None) os -> p' = Ended.
Proof.
  induction steps as [|[|o] steps IH]; intros g p ys os g' p' W L F I E J; cbn [w_walk] in E.
  - injection E as <- <- <-. destruct J.
  - apply Forall_cons_iff in F. destruct F as [_ F]. destruct (next_of c_items g p) as [p1 x] eqn:N. destruct (w_walk c_items steps g p1) as [[[os1 g1] p2]|] eqn:R; [|discriminate]. injection E as <- <- <-.
    destruct (@next_inv g p ys p1 x W I N) as (A & _ & C & _). destruct J as [J|J]; [|eapply IH; eauto]. injection J as J. subst x. rewrite (proj1 C eq_refl) in R. eapply ended_stays; eauto.
  - apply Forall_cons_iff in F. destruct F as [FO F]. cbn in FO. destruct (@g_step_spec g o W L FO) as (W1 & L1 & _). destruct (g_step g o) as [g1 r] eqn:S. cbn [fst] in *.
    destruct (keys_eqb (keys_here g p) (keys_here g1 p)) eqn:K; [|discriminate]. apply keys_eqb_eq in K. destruct (w_walk c_items steps g1 p) as [[[os1 g2] p2]|] eqn:R; [|discriminate]. injection E as <- <- <-.
    destruct J as [J|J]; [discriminate|]. eapply (IH g1 p ys); eauto; [lia|]. now apply do_inv with g.
Qed.
Lemma walk_all g steps os g' p' : g_wf g -> 0 < length g -> Forall wf_step steps -> w_walk c_items steps g Begin = Some (os, g', p') -> In (Gave None) os ->
  forall id, (forall m, In m (moments steps g) -> g_abs m id <> None) -> In id (map fst (given os)).
Proof.
  intros W L F E J id H. pose proof (@stopped steps g Begin [] os g' p' W L F eq_refl E J) as ->. destruct (@walk_inv steps g Begin [] os g' Ended W L F eq_refl E) as (_ & _ & _ & _ & P). exact (P id H Logic.I).
Qed.
Lemma walk_app A (f : collection -> list A) s1 s2 : forall g p, w_walk f (s1 ++ s2) g p =
  match w_walk f s1 g p with Some (os, g', p') => match w_walk f s2 g' p' with Some (os2, g2, p2) => Some (os ++ os2, g2, p2) | None => None end | None => None end.
Proof.
  induction s1 as [|[|o] s1 IH]; intros g p; cbn [app w_walk].
  - destruct (w_walk f s2 g p) as [[[os g'] p']|]; reflexivity.
  - destruct (next_of f g p) as [p1 x]. rewrite IH. destruct (w_walk f s1 g p1) as [[[os g1] p2]|]; [|reflexivity]. destruct (w_walk f s2 g1 p2) as [[[os2 g2] p3]|]; reflexivity.
  - destruct (g_step g o) as [g1 r]. destruct (keys_eqb _ _); [|reflexivity]. rewrite IH. destruct (w_walk f s1 g1 p) as [[[os g2] p2]|]; [|reflexivity]. destruct (w_walk f s2 g2 p2) as [[[os2 g3] p3]|]; reflexivity.
Qed.
Lemma walk_now g steps os g' p' k v : g_wf g -> 0 < length g -> Forall wf_step steps -> w_walk c_items (steps ++ [Next]) g Begin = Some (os ++ [Gave (Some (k, v))], g', p') -> g_abs g' k = Some v.
Proof.
  intros W L F E. rewrite walk_app in E. destruct (w_walk c_items steps g Begin) as [[[os1 g1] p1]|] eqn:R; [|discriminate]. cbn [w_walk] in E. destruct (next_of c_items g1 p1) as [p2 x] eqn:N. injection E as E <- <-.
  apply app_inj_tail in E. destruct E as [_ E]. injection E as ->. destruct (@walk_inv steps g Begin [] os1 g1 p1 W L F eq_refl R) as (A & W' & _). destruct (@next_inv g1 p1 _ p2 _ W' A N) as (_ & B & _). now apply B.
Qed.
(** what is given was in the group, with that value, when it was given *)
Lemma walk_held steps : forall g p ys os g' p' k v, g_wf g -> 0 < length g -> Forall wf_step steps -> winv g p ys -> w_walk c_items steps g p = Some (os, g', p') -> In (k, v) (given os) ->
  exists m, In m (moments steps g) /\ g_abs m k = Some v.
Proof.
  induction steps as [|[|o] steps IH]; intros g p ys os g' p' k v W L F I E J; cbn [w_walk] in E.
  - injection E as <- <- <-. destruct J.
  - apply Forall_cons_iff in F. destruct F as [_ F]. destruct (next_of c_items g p) as [p1 x] eqn:N. destruct (w_walk c_items steps g p1) as [[[os1 g1] p2]|] eqn:R; [|discriminate]. injection E as <- <- <-.
    destruct (@next_inv g p ys p1 x W I N) as (A & B & _). change (given (Gave x :: os1)) with (match x with Some y => [y] | None => [] end ++ given os1) in J. apply in_app_iff in J. destruct J as [J|J].
    + destruct x as [kv|]; [|destruct J]. destruct J as [->|[]]. exists g. split; [apply moments_first|]. now apply B.
    + destruct (IH _ _ _ _ _ _ _ _ W L F A R J) as (m & M1 & M2). now exists m.
  - apply Forall_cons_iff in F. destruct F as [FO F]. cbn in FO. destruct (@g_step_spec g o W L FO) as (W1 & L1 & _). cbn [moments]. destruct (g_step g o) as [g1 r] eqn:S. cbn [fst] in *.
    destruct (keys_eqb (keys_here g p) (keys_here g1 p)) eqn:K; [|discriminate]. apply keys_eqb_eq in K. destruct (w_walk c_items steps g1 p) as [[[os1 g2] p2]|] eqn:R; [|discriminate]. injection E as <- <- <-.
    destruct (IH g1 p ys os1 g2 p2 k v W1 ltac:(lia) F (@do_inv g g1 p ys L1 K I) R J) as (m & M1 & M2). exists m. split; [now right|exact M2].
Qed.

(** ** the three views, and walks that change nothing *)
Definition wmap {A B} (h : A -> B) (o : wout A) : wout B := match o with Gave x => Gave (option_map h x) | Did r => Did r end.
Lemma first_map A B (f : collection -> list A) (h : A -> B) cs : forall i, first_of (fun c => map h (f c)) cs i = (fst (first_of f cs i), option_map h (snd (first_of f cs i))).
Proof. induction cs as [|c cs IH]; intros i; cbn; [reflexivity|]. destruct (f c); cbn; auto. Qed.
Lemma next_map A B (f : collection -> list A) (h : A -> B) g p : next_of (fun c => map h (f c)) g p = (fst (next_of f g p), option_map h (snd (next_of f g p))).
Proof.
  destruct p as [|i j|]; cbn; [apply first_map| |reflexivity]. destruct (nth_error g i) as [c|]; [|reflexivity]. rewrite nth_error_map. destruct (nth_error (f c) j); [reflexivity|]. cbn. change (match g with [] => [] | _ :: l => skipn i l end) with (skipn (Datatypes.S i) g). apply first_map.
Qed.
Lemma walk_map A B (f : collection -> list A) (h : A -> B) steps : forall g p, w_walk (fun c => map h (f c)) steps g p = match w_walk f steps g p with Some (os, g', p') => Some (map (wmap h) os, g', p') | None => None end.
Proof.
  induction steps as [|[|o] steps IH]; intros g p; cbn [w_walk]; [reflexivity| |].
  - rewrite next_map. destruct (next_of f g p) as [p1 x]. cbn [fst snd]. rewrite IH. destruct (w_walk f steps g p1) as [[[os g1] p2]|]; reflexivity.
  - destruct (g_step g o) as [g1 r]. destruct (keys_eqb _ _); [|reflexivity]. rewrite IH. destruct (w_walk f steps g1 p) as [[[os g2] p2]|]; reflexivity.
Qed.
Definition left_of {A} (f : collection -> list A) (g : group) (p : place) : list A :=
  match p with Begin => flat_map f g | Ended => [] | At i j => match nth_error g i with Some c => skipn j (f c) ++ flat_map f (skipn (Datatypes.S i) g) | None => [] end end.
Lemma skipn_next {A} (c : A) cs : forall i l, c :: cs = skipn i l -> cs = skipn (Datatypes.S i) l.
Proof. induction i as [|i IH]; intros [|y l] E; try discriminate; [cbn in *; congruence|]. exact (IH l E). Qed.
Lemma first_left A (f : collection -> list A) g cs : forall i, cs = skipn i g -> match first_of f cs i with (p, Some x) => flat_map f cs = x :: left_of f g p | (p, None) => flat_map f cs = [] /\ p = Ended end.
Proof.
  induction cs as [|c cs IH]; intros i E; cbn [first_of flat_map]; [auto|].
  assert (N : nth_error g i = Some c) by (rewrite <- (Nat.add_0_r i), <- nth_skipn, <- E; reflexivity).
  assert (T : cs = skipn (Datatypes.S i) g).
  { now apply skipn_next with c. }
  destruct (f c) as [|x r] eqn:Q.
  - specialize (IH _ T). exact IH.
  - cbn [left_of]. rewrite N, Q, <- T. reflexivity.
Qed.
Lemma next_left A (f : collection -> list A) g p : match next_of f g p with (p', Some x) => left_of f g p = x :: left_of f g p' | (p', None) => left_of f g p = [] /\ p' = Ended end.
Proof.
  destruct p as [|i j|]; cbn [next_of]; [apply (@first_left A f g g 0 eq_refl)| |auto]. cbn [left_of]. destruct (nth_error g i) as [c|] eqn:N; [|auto]. destruct (nth_error (f c) j) as [x|] eqn:X.
  - cbn [left_of]. rewrite N. clear -X. assert (E : skipn j (f c) = x :: skipn (Datatypes.S j) (f c)).
    { revert X. generalize (f c) as l. induction j as [|j IH]; intros [|y l] H; cbn in *; try discriminate; [congruence|]. rewrite (IH l H). reflexivity. }
    rewrite E. reflexivity.
  - apply nth_error_None in X. rewrite (skipn_all2 _ X). cbn [app]. apply (@first_left A f g _ (Datatypes.S i) eq_refl).
Qed.
Lemma quiet_walk A (f : collection -> list A) n : forall g p, exists os p', w_walk f (repeat Next n) g p = Some (os, g, p') /\ given os = firstn n (left_of f g p).
Proof.
  induction n as [|n IH]; intros g p; [exists [], p; split; reflexivity|]. cbn [repeat w_walk]. pose proof (next_left f g p) as L. destruct (next_of f g p) as [p1 x]. destruct (IH g p1) as (os & p' & E & G). rewrite E. exists (Gave x :: os), p'. split; [reflexivity|].
  destruct x as [x|]; [change (given (Gave (Some x) :: os)) with (x :: given os); rewrite L, G; reflexivity|]. destruct L as [L ->]. change (given (Gave None :: os)) with (given os). rewrite G, L. cbn. now destruct n.
Qed.
(** ** what disturbs a walk *)
Lemma ssorted_eq (a b : list pystr) : StronglySorted slt a -> StronglySorted slt b -> (forall x, In x a <-> In x b) -> a = b.
Proof.
  intros Sa. revert b; induction Sa as [|x a Sa IH Fa]; intros b Sb E.
  - destruct b as [|y b]; auto. exfalso. apply (E y). simpl; auto.
  - destruct Sb as [|y b Sb Fb]; [exfalso; apply (E x); simpl; auto|]. rewrite Forall_forall in Fa, Fb.
    assert (x = y).
    { destruct (proj1 (E x) (or_introl eq_refl)) as [H|H]; auto. destruct (proj2 (E y) (or_introl eq_refl)) as [H'|H']; auto. apply Fb in H. apply Fa in H'. destruct (slt_irrefl (slt_trans H H')). }
    subst y. f_equal. apply IH; auto. intros z. split; intros I.
    + destruct (proj1 (E z) (or_intror I)) as [H|H]; auto. subst. apply Fa in I. now apply slt_irrefl in I.
    + destruct (proj2 (E z) (or_intror I)) as [H|H]; auto. subst. apply Fb in I. now apply slt_irrefl in I.
Qed.
Lemma keys_eqb_refl a : keys_eqb a a = true.
Proof. induction a as [|x a IH]; cbn; [reflexivity|]. rewrite IH, andb_true_r. now apply str_eqb_eq. Qed.
Lemma keys_at g i c id : g_wf g -> nth_error g i = Some c -> (In id (c_keys c) <-> get_group_index id (length g) = Ok i /\ g_abs g id <> None).
Proof.
  intros W N. split.
  - intros I. pose proof (@in_coll _ _ _ _ W N I) as R. split; [exact R|]. rewrite (g_abs_route _ _ _ _ W R N). now apply c_abs_keys.
  - intros [R H]. rewrite (g_abs_route _ _ _ _ W R N) in H. now apply c_abs_keys in H.
Qed.
Lemma here_same g g1 i : g_wf g -> g_wf g1 -> length g1 = length g -> (forall id, get_group_index id (length g) = Ok i -> (g_abs g id <> None <-> g_abs g1 id <> None)) -> forall j, keys_here g (At i j) = keys_here g1 (At i j).
Proof.
  intros W W1 L H j. cbn. destruct (nth_error g i) as [c|] eqn:N; destruct (nth_error g1 i) as [c1|] eqn:N1; [| | |reflexivity].
  - apply ssorted_eq; [exact (proj1 (W i c N))|exact (proj1 (W1 i c1 N1))|]. intros id. rewrite (@keys_at _ _ _ id W N), (@keys_at _ _ _ id W1 N1), L. split; intros [R X]; (split; [exact R|]); now apply (H id R).
  - apply nth_error_None in N1. assert (i < length g) by (apply nth_error_Some; congruence). lia.
  - apply nth_error_None in N. assert (i < length g1) by (apply nth_error_Some; congruence). lia.
Qed.
Lemma disturbed g p o : g_wf g -> 0 < length g -> wf_op o -> let g1 := fst (g_step g o) in
  (w_walk c_items [Do o] g p = None <-> exists i j id, p = At i j /\ get_group_index id (length g) = Ok i /\ ((g_abs g id = None /\ g_abs g1 id <> None) \/ (g_abs g id <> None /\ g_abs g1 id = None))).
Proof.
  intros W L WO. destruct (@g_step_spec g o W L WO) as (W1 & L1 & _). cbn [w_walk]. destruct (g_step g o) as [g1 r]. cbn [fst] in *. destruct (keys_eqb (keys_here g p) (keys_here g1 p)) eqn:K.
  - split; [discriminate|]. intros (i & j & id & -> & R & D). exfalso. apply keys_eqb_eq in K. cbn in K.
    destruct (route_nth _ _ _ R) as [c N]. assert (R1 : get_group_index id (length g1) = Ok i) by now rewrite L1. destruct (route_nth _ _ _ R1) as [c1 N1]. rewrite N, N1 in K.
    pose proof (@keys_at _ _ _ id W N) as A. pose proof (@keys_at _ _ _ id W1 N1) as B. rewrite K in A. destruct D as [[D1 D2]|[D1 D2]]; [apply (proj1 A); [now apply B|exact D1]|apply (proj1 B); [now apply A|exact D2]].
  - split; [intros _|reflexivity]. destruct p as [|i j|]; try discriminate K. 
    destruct (nth_error g i) as [c|] eqn:N.
    + assert (i < length g1) as I1 by (rewrite L1; apply nth_error_Some; congruence). destruct (nth_error g1 i) as [c1|] eqn:N1; [|apply nth_error_None in N1; lia].
      destruct (Exists_dec (fun id => ~ In id (c_keys c1)) (c_keys c)) as [X|X]; [intros x; destruct (in_dec str_dec x (c_keys c1)); [right|left]; tauto| |].
      * apply Exists_exists in X. destruct X as (id & I & NI). exists i, j, id. apply (@keys_at _ _ _ id W N) in I. destruct I as [R H]. split; [reflexivity|]. split; [exact R|]. right. split; [exact H|].
        destruct (g_abs g1 id) eqn:Q; [|reflexivity]. exfalso. apply NI. apply (@keys_at _ _ _ id W1 N1). rewrite L1, Q. split; [exact R|discriminate].
      * destruct (Exists_dec (fun id => ~ In id (c_keys c)) (c_keys c1)) as [Y|Y]; [intros x; destruct (in_dec str_dec x (c_keys c)); [right|left]; tauto| |].
        -- apply Exists_exists in Y. destruct Y as (id & I & NI). exists i, j, id. apply (@keys_at _ _ _ id W1 N1) in I. rewrite L1 in I. destruct I as [R H]. split; [reflexivity|]. split; [exact R|]. left. split; [|exact H].
           destruct (g_abs g id) eqn:Q; [|reflexivity]. exfalso. apply NI. apply (@keys_at _ _ _ id W N). rewrite Q. split; [exact R|discriminate].
        -- exfalso. assert (E : c_keys c = c_keys c1).
           { apply ssorted_eq; [exact (proj1 (W i c N))|exact (proj1 (W1 i c1 N1))|]. intros id. split; intros I.
             - destruct (in_dec str_dec id (c_keys c1)) as [Z|Z]; [exact Z|]. exfalso. apply X. apply Exists_exists. eauto.
             - destruct (in_dec str_dec id (c_keys c)) as [Z|Z]; [exact Z|]. exfalso. apply Y. apply Exists_exists. eauto. }
           cbn in K. rewrite N, N1, E, keys_eqb_refl in K. discriminate.
    + exfalso. cbn in K. rewrite N in K. apply nth_error_None in N. assert (N1 : nth_error g1 i = None) by (apply nth_error_None; lia). rewrite N1 in K. discriminate.
Qed.
