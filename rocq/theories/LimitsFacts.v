(** The limits of a container's groups through its operations, and its usage. *)
From Coq Require Import Lia.
From Verif Require Import Base BaseFacts Value BTree Float53 Utils Collection CollectionFacts SpecMap Group RoutingFacts GroupFacts GroupNewFacts GroupCapFacts
  StorageThms Container ContainerFacts CondenseFacts ResizeFacts ContainerThms Account GroupReport GroupReportFacts.
Open Scope Z_scope.
Open Scope list_scope.

(** the limits of every group object *)
Definition lims (k : container) : list (list Z) := map (map c_max) (k_heap k).
Lemma lims_set i g k : map c_max g = map c_max (grp k i) -> lims (set_grp i g k) = lims k.
Proof.
  unfold lims, set_grp, grp. cbn [k_heap]. generalize (k_heap k). intros h. revert i. induction h as [|x h IH]; intros [|i] E; cbn [set_nth map nth] in *; try reflexivity.
  - now rewrite E.
  - now rewrite IH.
Qed.
Lemma insert_max id v g : map c_max (fst (g_insert id v g)) = map c_max g.
Proof. pose proof (proj1 (g_step_meta g (Insert id v))) as M. now rewrite g_insert_step in M. Qed.
Lemma update_max d g : map c_max (fst (g_update d g)) = map c_max g.
Proof. pose proof (proj1 (g_step_meta g (Update d))) as M. now rewrite g_update_step in M. Qed.
Lemma pop_max id d g : map c_max (fst (g_pop id d g)) = map c_max g.
Proof. pose proof (proj1 (g_step_meta g (Pop id d))) as M. now rewrite g_pop_step in M. Qed.
(** same groups, same primary, same limits *)
Definition same_limits (k k' : container) : Prop := k_groups k' = k_groups k /\ k_primary k' = k_primary k /\ lims k' = lims k.
Lemma same_refl k : same_limits k k. Proof. repeat split. Qed.
Lemma same_trans a b c : same_limits a b -> same_limits b c -> same_limits a c.
Proof. intros (A & B & C) (D & E & F). repeat split; congruence. Qed.
Lemma same_set i g k : map c_max g = map c_max (grp k i) -> same_limits k (set_grp i g k).
Proof. intros E. split; [reflexivity|]. split; [reflexivity|]. now apply lims_set. Qed.
Lemma write_limits id v k : same_limits k (fst (k_write id v k)).
Proof.
  unfold k_write. pose proof (insert_max id v (k_prim k)) as I. destruct (g_insert id v (k_prim k)) as [g [z|e]]; cbn [fst] in I; [|now apply same_set].
  destruct (z =? 0); [|now apply same_set]. pose proof (update_max [(id, v)] g) as U. destruct (g_update [(id, v)] g) as [g' [u|e]]; cbn [fst] in U; apply same_set; change (grp k (k_primary k)) with (k_prim k); congruence.
Qed.
Lemma delete_limits id gs : forall k, same_limits k (fst (delete_from id gs k)).
Proof.
  induction gs as [|i gs IH]; intros k; cbn [delete_from]; [apply same_refl|]. destruct (k_has id k) as [n|e]; [|apply same_refl]. destruct (n =? 0); [apply IH|].
  pose proof (pop_max id VNone (grp k i)) as P. destruct (g_pop id VNone (grp k i)) as [g [v|e]]; cbn [fst] in P; [|now apply same_set].
  specialize (IH (set_grp i g k)). destruct (delete_from id gs (set_grp i g k)) as [k' [vs|e]]; cbn [fst] in *; (eapply same_trans; [apply same_set; exact P|exact IH]).
Qed.
Lemma move_limits tr i key k : same_limits k (fst (move tr i key k)).
Proof.
  unfold move. destruct tr.
  - pose proof (pop_max key VNone (grp k i)) as P. destruct (g_pop key VNone (grp k i)) as [g r]. cbn [fst] in P. pose proof (same_set i g k P) as S1. destruct r as [v|e]; [|exact S1].
    pose proof (insert_max key v (k_prim (set_grp i g k))) as I. destruct (g_insert key v (k_prim (set_grp i g k))) as [g' [z|e]]; cbn [fst] in *; (eapply same_trans; [exact S1|apply same_set; exact I]).
  - destruct (g_get key VNone (grp k i)) as [v|e]; [|apply same_refl]. pose proof (insert_max key v (k_prim k)) as I. destruct (g_insert key v (k_prim k)) as [g' [z|e]]; cbn [fst] in *; now apply same_set.
Qed.
Lemma move_keys_limits tr i keys : forall k, same_limits k (fst (move_keys tr i keys k)).
Proof.
  induction keys as [|key keys IH]; intros k; cbn [move_keys]; [apply same_refl|]. pose proof (move_limits tr i key k) as M. destruct (move tr i key k) as [k1 [u|e]]; cbn [fst] in M; [|exact M]. eapply same_trans; [exact M|apply IH].
Qed.
Lemma move_groups_limits tr src : forall k, same_limits k (fst (move_groups tr src k)).
Proof.
  induction src as [|i src IH]; intros k; cbn [move_groups]; [apply same_refl|]. pose proof (move_keys_limits tr i (g_keys (grp k i)) k) as M. destruct (move_keys tr i (g_keys (grp k i)) k) as [k1 [u|e]]; cbn [fst] in M; [|exact M].
  eapply same_trans; [exact M|apply IH].
Qed.
Lemma condense_limits tr k : k_primary (fst (condense tr k)) = k_primary k /\ lims (fst (condense tr k)) = lims k.
Proof.
  unfold condense. pose proof (move_groups_limits tr (tl (k_groups k)) k) as (_ & P & L). destruct (move_groups tr (tl (k_groups k)) k) as [k1 [u|e]]; cbn [fst] in *; [|auto]. destruct tr; [|auto]. destruct (k_groups k1); cbn [fst]; auto.
Qed.
Lemma resize_limits u0 cap mcs ca tr k g : sized_group u0 cap mcs (k_strict k) = Ok g -> lims (fst (resize u0 cap mcs ca tr k)) = lims k ++ [map c_max g] /\ k_primary (fst (resize u0 cap mcs ca tr k)) = length (k_heap k).
Proof.
  intros E. unfold resize. rewrite E. assert (P : lims (push_primary g k) = lims k ++ [map c_max g]) by (unfold lims, push_primary; cbn [k_heap]; now rewrite map_app).
  destruct ca.
  - destruct (condense_limits tr (push_primary g k)) as [A B]. rewrite B, A. auto.
  - pose proof (condense_limits tr (with_groups (firstn 2 (k_groups (push_primary g k))) (push_primary g k))) as C. destruct (condense tr (with_groups (firstn 2 (k_groups (push_primary g k))) (push_primary g k))) as [k2 [r|e]]; cbn [fst] in *; destruct C as [A B];
      (split; [exact (eq_trans B P)|exact A]).
Qed.
Lemma nth_lims k i : nth i (lims k) [] = map c_max (grp k i).
Proof. unfold lims, grp. change (@nil Z) with (map c_max []). apply map_nth. Qed.
Lemma max_lims k : k_max k = zsum (map (fun i => zsum (nth i (lims k) [])) (k_groups k)).
Proof. unfold k_max, g_max. f_equal. apply map_ext. intros i. now rewrite nth_lims. Qed.
Lemma capacity_lims k : k_capacity k = zsum (nth (k_primary k) (lims k) []).
Proof. unfold k_capacity, k_prim, g_max. now rewrite nth_lims. Qed.
Lemma same_max k k' : same_limits k k' -> k_max k' = k_max k /\ k_capacity k' = k_capacity k.
Proof. intros (A & B & C). rewrite !max_lims, !capacity_lims, A, B, C. auto. Qed.
(** all the collections of the container's groups *)
Definition all_collections (k : container) : list collection := flat_map (grp k) (k_groups k).
Lemma zsum_app a b : zsum (a ++ b) = zsum a + zsum b.
Proof. unfold zsum. induction a as [|x a IH]; cbn [app fold_right]; lia. Qed.
Lemma max_all k : k_max k = fold_right Z.add 0 (map c_max (all_collections k)).
Proof.
  unfold k_max, all_collections. change (fold_right Z.add 0) with zsum. induction (k_groups k) as [|i gs IH]; [reflexivity|]. cbn [map flat_map]. rewrite map_app, zsum_app, <- IH. reflexivity.
Qed.
Lemma resize_max u0 cap mcs ca tr k : k_reachable k -> sizable cap mcs ->
  exists k', resize u0 cap mcs ca tr k = (k', Ok (resized_removed ca tr (k_groups k))) /\ k_max k' = k_capacity k' + (if tr then if ca then 0 else k_max k - k_capacity k else k_max k).
Proof.
  intros R Z. destruct (k_reachable_ok R) as (K & (rest & PF)). destruct (resize_spec u0 ca tr K Z) as (k' & n & m & E & K' & _ & G & NP & _).
  exists k'. split; [exact E|]. assert (SG : exists g, sized_group u0 cap mcs (k_strict k) = Ok g).
  { unfold resize in E. destruct (sized_group u0 cap mcs (k_strict k)) as [g|e]; [eauto|discriminate]. }
  destruct SG as [g SG]. destruct (resize_limits u0 cap mcs ca tr k g SG) as [L P]. rewrite E in L, P. cbn [fst] in L, P.
  assert (OLD : forall l, (forall i, In i l -> In i (k_groups k)) -> zsum (map (fun i => zsum (nth i (lims k') [])) l) = zsum (map (fun i => zsum (nth i (lims k) [])) l)).
  { intros l I. f_equal. apply map_ext_in. intros i H. rewrite L, app_nth1; [reflexivity|]. unfold lims. rewrite map_length. apply K. auto. }
  assert (ZC : forall x l, zsum (x :: l) = x + zsum l) by reflexivity.
  rewrite (max_lims k'), G. unfold resized_groups. destruct tr; [destruct ca|]; cbn [map]; rewrite ZC, capacity_lims.
  - reflexivity.
  - rewrite OLD by (rewrite PF; cbn [tl]; intros; now right). rewrite (max_lims k), (capacity_lims k), PF. cbn [tl map]. rewrite ZC. lia.
  - rewrite OLD by auto. rewrite (max_lims k). reflexivity.
Qed.
Lemma condense_max tr k : k_reachable k -> k_capacity (fst (condense tr k)) = k_capacity k /\
  k_max (fst (condense tr k)) = match snd (condense tr k) with Ok _ => if tr then k_capacity k else k_max k | Err _ => k_max k end.
Proof.
  intros R. destruct (k_reachable_ok R) as (K & (rest & PF)). destruct (condense_limits tr k) as [P L]. rewrite !max_lims, !capacity_lims, P, L. split; [reflexivity|].
  unfold condense. pose proof (move_groups_limits tr (tl (k_groups k)) k) as (G & _ & _). destruct (move_groups tr (tl (k_groups k)) k) as [k1 [u|e]]; cbn [fst] in G; [|cbn [fst snd]; now rewrite G]. destruct tr; [|cbn [fst snd]; now rewrite G].
  rewrite G, PF. cbn [fst snd with_groups k_groups map]. unfold zsum at 1. cbn [fold_right]. apply Z.add_0_r.
Qed.
Lemma usage_of_primary k : Forall (fun c => 1 <= c_max c) (k_prim k) -> k_prim k <> [] ->
  exists u, k_usage k = Ok u /\ 0 <= u /\ (k_used k <= k_capacity k -> u <= scale) /\ (k_capacity k <= k_used k -> scale <= u) /\
    (exists c, In c (k_prim k) /\ c_usage c <= u) /\ (exists c, In c (k_prim k) /\ u <= c_usage c).
Proof.
  intros L N. destruct (report (k_prim k) L N) as (lo & u & hi & _ & U & _ & Z0 & LH & _ & (c1 & I1 & E1) & (c2 & I2 & E2)). destruct (usage_full (k_prim k) L N) as (u' & U' & A & B). rewrite U in U'. injection U' as <-.
  exists u. split; [exact U|]. split; [lia|]. split; [exact A|]. split; [exact B|]. split; [exists c1|exists c2]; split; auto; lia.
Qed.
