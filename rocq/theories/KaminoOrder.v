(** clone_classes: the order in which classes are cloned *)
From Coq Require Import String Permutation.
From Verif Require Import Base BaseFacts Dict DictFacts PyClass PyClassFacts Kamino.
Open Scope list_scope.

Section Order.
Variables P V : Type.
Notation world := (world P V).
Variable w : world.
Hypothesis Hw : wf P V w.

Lemma NoDup_app_disj {A} (a b : list A) : NoDup a -> NoDup b -> (forall x, In x a -> ~ In x b) -> NoDup (a ++ b).
Proof.
  induction a as [|x a IH]; cbn; auto. intros Ha Hb H. apply NoDup_cons_iff in Ha as [H1 H2]. constructor.
  - intros Hi. apply in_app_or in Hi as [Hi|Hi]; [auto|]. exact (H x (or_introl eq_refl) Hi).
  - apply IH; auto.
Qed.
Lemma keys_spec l : forall seen, NoDup (keys_of seen l) /\ forall x, In x (keys_of seen l) <-> In x l /\ ~ In x seen.
Proof.
  induction l as [|y l IH]; intros seen; cbn [keys_of]; [split; [constructor|intros x; cbn; tauto]|].
  destruct (mem y seen) eqn:E.
  - apply mem_in in E. destruct (IH seen) as [H1 H2]. split; [exact H1|]. intros x. rewrite H2. cbn. split; [tauto|]. intros [[->|H] Hn]; [contradiction|auto].
  - apply mem_out in E. destruct (IH (y :: seen)) as [H1 H2]. split.
    + constructor; [|exact H1]. rewrite H2. cbn. tauto.
    + intros x. cbn [In]. rewrite H2. cbn [In]. split; [intros [->|[Ha Hb]]; auto; split; auto|]. intros [[->|H] Hn]; [auto|]. destruct (Nat.eq_dec y x) as [->|Hne]; [auto|]. right. split; [exact H|]. intros [E'|E']; [contradiction|auto].
Qed.
Lemma filter_length_lt {A} (f : A -> bool) l x : In x l -> f x = false -> List.length (filter f l) < List.length l.
Proof.
  induction l as [|y l IH]; [intros []|]. intros [->|H] E; cbn [filter].
  - rewrite E. cbn. pose proof (ss_len _ _ (ss_filter f l)). lia.
  - specialize (IH H E). destruct (f y); cbn; lia.
Qed.
Lemma filter_length_le {A} (f : A -> bool) l : List.length (filter f l) <= List.length l.
Proof. apply ss_len, ss_filter. Qed.
Lemma sort_in classes x : In x (sort_by_deps P V w classes) <-> In x classes.
Proof.
  unfold sort_by_deps. rewrite in_flat_map. split.
  - intros (n & _ & H). apply filter_In in H. tauto.
  - intros H. exists (n_deps P V w classes x). split; [|apply filter_In; split; [exact H|apply Nat.eqb_refl]].
    apply in_seq. split; [lia|]. unfold n_deps. pose proof (filter_length_le (fun d => in_mro w x d && negb (Nat.eqb d x)) classes). cbn. lia.
Qed.
Lemma keys_in classes x : In x (keys_of [] (sort_by_deps P V w classes)) <-> In x classes.
Proof. rewrite (proj2 (keys_spec _ [])), sort_in. cbn. tauto. Qed.
Lemma keys_nodup classes : NoDup (keys_of [] (sort_by_deps P V w classes)).
Proof. apply keys_spec. Qed.

Lemma cand_spec keys c a : In a (candidates P V w keys c) <-> In a (mro w c) /\ In a keys /\ a <> c.
Proof. unfold candidates. rewrite filter_In, andb_true_iff, mem_in, negb_true_iff, Nat.eqb_neq. split; [intros (H1 & H2 & H3)|intros (H1 & H2 & H3)]; auto. Qed.
Lemma parents_spec keys c p : In p (parents P V w keys c) <-> In p (candidates P V w keys c) /\ forall i, In i (candidates P V w keys c) -> In p (mro w i) -> p = i.
Proof.
  unfold parents. rewrite filter_In, negb_true_iff. split.
  - intros [H1 H2]. split; [exact H1|]. intros i Hi Hp. destruct (Nat.eq_dec p i) as [->|Hne]; [reflexivity|]. exfalso.
    assert (H : existsb (fun i => in_mro w i p && negb (Nat.eqb p i)) (candidates P V w keys c) = true); [|congruence].
    apply existsb_exists. exists i. split; [exact Hi|]. apply andb_true_iff. split; [now apply mem_in|]. apply negb_true_iff, Nat.eqb_neq, Hne.
  - intros [H1 H2]. split; [exact H1|]. destruct (existsb _ _) eqn:E; [exfalso|reflexivity]. apply existsb_exists in E as (i & Hi & E). apply andb_true_iff in E as [E1 E2]. apply mem_in in E1. apply negb_true_iff, Nat.eqb_neq in E2. auto.
Qed.
Lemma mro_lt c a : c < List.length w -> In a (mro w c) -> a <= c /\ a < List.length w.
Proof. intros Hc Ha. destruct (wf_mro P V w Hw c Hc) as (m & E & _ & Hlt & _). rewrite E in Ha. destruct Ha as [<-|Ha]; [lia|]. specialize (Hlt a Ha). lia. Qed.
Lemma mro_self c : c < List.length w -> In c (mro w c).
Proof. intros Hc. destruct (wf_mro P V w Hw c Hc) as (m & E & _). rewrite E. now left. Qed.
Lemma mro_trans c a b : c < List.length w -> In a (mro w c) -> In b (mro w a) -> In b (mro w c).
Proof. intros Hc Ha Hb. destruct (wf_mro P V w Hw c Hc) as (m & E & _ & _ & Hs & _). rewrite E in Ha. specialize (Hs a Ha). rewrite E. eapply ss_in; eauto. Qed.
Lemma mro_nodup c : c < List.length w -> NoDup (mro w c).
Proof. intros Hc. destruct (wf_mro P V w Hw c Hc) as (m & E & H & _). now rewrite E. Qed.
Lemma parent_lt keys c p : c < List.length w -> In p (parents P V w keys c) -> p < c /\ In p keys /\ In p (mro w c).
Proof. intros Hc Hp. apply parents_spec in Hp as [Hp _]. apply cand_spec in Hp as (H1 & H2 & H3). pose proof (mro_lt c p Hc H1). split; [lia|auto]. Qed.
(** every strict ancestor in the package is a parent or an ancestor of one *)
Lemma parents_cover keys c a : c < List.length w -> In a (candidates P V w keys c) -> exists p, In p (parents P V w keys c) /\ In a (mro w p).
Proof.
  intros Hc. assert (G : forall n a, In a (candidates P V w keys c) -> c - a <= n -> exists p, In p (parents P V w keys c) /\ In a (mro w p)).
  { clear a. induction n as [|n IH]; intros a Ha Hn.
    - apply cand_spec in Ha as (H1 & H2 & H3). pose proof (mro_lt c a Hc H1). lia.
    - pose proof (proj1 (cand_spec _ _ _) Ha) as (H1 & H2 & H3). pose proof (mro_lt c a Hc H1) as [H4 H5].
      destruct (existsb (fun i => in_mro w i a && negb (Nat.eqb a i)) (candidates P V w keys c)) eqn:E.
      + apply existsb_exists in E as (i & Hi & E). apply andb_true_iff in E as [E1 E2]. apply mem_in in E1. apply negb_true_iff, Nat.eqb_neq in E2.
        pose proof (proj1 (cand_spec _ _ _) Hi) as (I1 & I2 & I3). pose proof (mro_lt c i Hc I1) as [I4 I5]. pose proof (mro_lt i a I5 E1) as [I6 _].
        destruct (IH i Hi) as (p & Hp & Hip); [lia|]. exists p. split; [exact Hp|]. pose proof (parent_lt _ _ _ Hc Hp) as (L1 & _). eapply mro_trans; eauto. lia.
      + exists a. split; [|now apply mro_self]. unfold parents. apply filter_In. split; [exact Ha|now rewrite E]. }
  intros Ha. apply (G (c - a) a Ha). lia.
Qed.

(** ** the loop *)
Variable keys : list nat.
Hypothesis Hk : NoDup keys.
Hypothesis Hkl : forall c, In c keys -> c < List.length w.
Definition parents_first (l : list nat) : Prop := forall pre n post, l = pre ++ n :: post -> forall p, In p (parents P V w keys n) -> In p pre.
Definition ok_order (l : list nat) : Prop := NoDup l /\ incl l keys /\ parents_first l.
Lemma next_spec ordered n : In n (next_nodes P V w keys ordered) <-> In n keys /\ ~ In n ordered /\ forall p, In p (parents P V w keys n) -> In p ordered.
Proof.
  unfold next_nodes. rewrite filter_In, andb_true_iff, forallb_forall, negb_true_iff, mem_out. split; [intros (H1 & H2 & H3)|intros (H1 & H2 & H3)]; (split; [exact H1|split]); auto; intros p Hp; apply mem_in; auto.
Qed.
Lemma next_ok ordered : ok_order ordered -> ok_order (ordered ++ next_nodes P V w keys ordered).
Proof.
  intros (H1 & H2 & H3). split; [|split].
  - apply NoDup_app_disj; [exact H1|unfold next_nodes; eapply ss_nodup; [apply ss_filter|exact Hk]|]. intros x Hx Hn. apply next_spec in Hn. tauto.
  - intros x Hx. apply in_app_or in Hx as [Hx|Hx]; [auto|]. apply next_spec in Hx. tauto.
  - intros pre n post E p Hp.
    destruct (Nat.lt_ge_cases (List.length pre) (List.length ordered)) as [Hl|Hl].
    + assert (Eo : exists post', ordered = pre ++ n :: post').
      { exists (firstn (List.length ordered - S (List.length pre)) post). assert (Ef : firstn (List.length ordered) (ordered ++ next_nodes P V w keys ordered) = ordered) by (rewrite firstn_app, Nat.sub_diag, firstn_all; cbn; now rewrite app_nil_r).
        rewrite <- Ef at 1. rewrite E, firstn_app. rewrite firstn_all2 by lia. f_equal. destruct (List.length ordered - List.length pre) as [|k] eqn:Ek; [lia|]. cbn [firstn]. f_equal. f_equal. lia. }
      destruct Eo as [post' Eo]. eapply H3; eauto.
    + assert (Ep : exists q, pre = ordered ++ q).
      { exists (skipn (List.length ordered) pre). rewrite <- (firstn_skipn (List.length ordered) pre) at 1. f_equal. assert (Ef : firstn (List.length ordered) (ordered ++ next_nodes P V w keys ordered) = ordered) by (rewrite firstn_app, Nat.sub_diag, firstn_all; cbn; now rewrite app_nil_r).
        rewrite E, firstn_app in Ef. replace (List.length ordered - List.length pre) with 0 in Ef by lia. cbn in Ef. now rewrite app_nil_r in Ef. }
      destruct Ep as [q ->]. rewrite <- app_assoc in E. apply app_inv_head in E.
      assert (Hn : In n (next_nodes P V w keys ordered)) by (rewrite E; apply in_or_app; right; now left). apply next_spec in Hn as (_ & _ & Hn). apply in_or_app. left. auto.
Qed.
Lemma least_unordered ordered : (exists n, In n keys /\ ~ In n ordered) -> exists n, In n keys /\ ~ In n ordered /\ forall m, In m keys -> ~ In m ordered -> n <= m.
Proof.
  intros [n0 [Hn0 Ho0]]. assert (G : forall b n, n <= b -> In n keys -> ~ In n ordered -> exists n, In n keys /\ ~ In n ordered /\ forall m, In m keys -> ~ In m ordered -> n <= m).
  { induction b as [|b IH]; intros n Hb H1 H2.
    - exists n. repeat split; auto. intros m _ _. lia.
    - destruct (existsb (fun m => negb (mem m ordered) && Nat.ltb m n) keys) eqn:E.
      + apply existsb_exists in E as (m & Hm & E). apply andb_true_iff in E as [E1 E2]. apply negb_true_iff, mem_out in E1. apply Nat.ltb_lt in E2. apply (IH m); auto. lia.
      + exists n. repeat split; auto. intros m Hm Ho. destruct (Nat.le_gt_cases n m) as [|Hlt]; [assumption|]. exfalso.
        assert (E' : existsb (fun m => negb (mem m ordered) && Nat.ltb m n) keys = true); [|congruence]. apply existsb_exists. exists m. split; [exact Hm|]. apply andb_true_iff. split; [apply negb_true_iff, mem_out, Ho|now apply Nat.ltb_lt]. }
  exact (G n0 n0 (Nat.le_refl _) Hn0 Ho0).
Qed.
Lemma incl_nodup_length {A} (a b : list A) : NoDup a -> incl a b -> List.length a <= List.length b.
Proof. apply NoDup_incl_length. Qed.
Lemma order_nodes_ok fuel : forall ordered, ok_order ordered -> List.length keys <= List.length ordered + fuel ->
  exists r, order_nodes P V fuel w keys ordered = Ok r /\ ok_order r /\ incl keys r.
Proof.
  induction fuel as [|fuel IH]; intros ordered Ho Hf; cbn [order_nodes]; destruct (forallb (fun n => mem n ordered) keys) eqn:E.
  1,3: exists ordered; split; [reflexivity|]; split; [exact Ho|]; intros x Hx; rewrite forallb_forall in E; apply mem_in; auto.
  - exfalso. destruct Ho as (H1 & H2 & _). assert (H3 : incl keys ordered) by (apply NoDup_length_incl; [exact H1|lia|exact H2]).
    assert (E' : forallb (fun n => mem n ordered) keys = true) by (apply forallb_forall; intros x Hx; apply mem_in; auto). congruence.
  - assert (Hex : exists n, In n keys /\ ~ In n ordered).
    { assert (E' : existsb (fun n => negb (mem n ordered)) keys = true). { apply not_false_is_true. intros E'. assert (E2 : forallb (fun n => mem n ordered) keys = true); [|congruence]. apply forallb_forall. intros x Hx. destruct (mem x ordered) eqn:Em; [reflexivity|exfalso].
        assert (E3 : existsb (fun n => negb (mem n ordered)) keys = true); [|congruence]. apply existsb_exists. exists x. now rewrite Em. }
      apply existsb_exists in E' as (n & Hn & E'). exists n. split; [exact Hn|]. now apply negb_true_iff, mem_out in E'. }
    destruct (least_unordered ordered Hex) as (n & Hn & Hno & Hmin).
    assert (Hnext : In n (next_nodes P V w keys ordered)).
    { apply next_spec. split; [exact Hn|]. split; [exact Hno|]. intros p Hp. pose proof (parent_lt _ _ _ (Hkl n Hn) Hp) as (L1 & L2 & _). destruct (in_dec Nat.eq_dec p ordered) as [|Hno']; [assumption|]. specialize (Hmin p L2 Hno'). lia. }
    apply IH; [now apply next_ok|]. rewrite app_length. assert (0 < List.length (next_nodes P V w keys ordered)) by (destruct (next_nodes P V w keys ordered); [destruct Hnext|cbn; lia]). lia.
Qed.
Lemma order_ok : exists r, order_nodes P V (List.length keys) w keys [] = Ok r /\ ok_order r /\ Permutation r keys.
Proof.
  destruct (order_nodes_ok (List.length keys) []) as (r & E & Ho & Hi).
  - split; [constructor|]. split; [intros x []|]. intros pre n post E. destruct pre; discriminate.
  - cbn. lia.
  - exists r. split; [exact E|]. split; [exact Ho|]. destruct Ho as (H1 & H2 & _). apply NoDup_Permutation; auto. intros x. split; auto.
Qed.
(** all strict ancestors in the package come first *)
Lemma ancestors_first l : ok_order l -> forall pre n post, l = pre ++ n :: post -> forall a, In a (candidates P V w keys n) -> In a pre.
Proof.
  intros (H1 & H2 & H3) pre. remember (List.length pre) as k eqn:Ek. revert pre Ek. induction k as [k IH] using lt_wf_ind. intros pre -> n post E a Ha.
  assert (Hn : n < List.length w) by (apply Hkl, H2; rewrite E; apply in_or_app; right; now left).
  destruct (parents_cover keys n a Hn Ha) as (p & Hp & Hap). pose proof (H3 _ _ _ E p Hp) as Hpp. destruct (Nat.eq_dec a p) as [->|Hne]; [exact Hpp|].
  apply in_split in Hpp as (p1 & p2 & ->). pose proof (proj1 (cand_spec _ _ _) Ha) as (A1 & A2 & A3).
  apply in_or_app. left. apply (IH (List.length p1) ltac:(rewrite app_length; cbn; lia) p1 eq_refl p (p2 ++ n :: post)).
  - rewrite E, <- app_assoc. reflexivity.
  - apply cand_spec. auto.
Qed.
End Order.
