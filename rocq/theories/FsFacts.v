(** Facts about the file-system model *)
From Verif Require Import Base BaseFacts Fs.
Set Implicit Arguments.

(** a file name: not empty, not ['.'], no slash *)
Definition good_name (a : pystr) : Prop := a <> [] /\ a <> dot /\ ~ In slash a.
(** a possible state of the disk *)
Definition fs_ok (s : fs) : Prop :=
  Forall good_name (f_cwd s) /\ NoDup (map fst (f_ent s)) /\
  forall p n, In (p, n) (f_ent s) -> p <> [] /\ Forall good_name p /\ entry s (removelast p) = Some Directory.

Lemma path_eqb_eq p q : path_eqb p q = true <-> p = q.
Proof.
  revert q. induction p as [|a p IH]; intros [|b q]; simpl; split; intros H; try discriminate; auto.
  - apply andb_true_iff in H as [H1 H2]. apply str_eqb_eq in H1. apply IH in H2. congruence.
  - injection H as -> ->. now rewrite str_eqb_refl, (proj2 (IH q) eq_refl).
Qed.
Lemma path_eqb_refl p : path_eqb p p = true.
Proof. now apply path_eqb_eq. Qed.
Lemma path_eqb_neq p q : path_eqb p q = false <-> p <> q.
Proof.
  destruct (path_eqb p q) eqn:E; split; intros H; try congruence.
  - apply path_eqb_eq in E. congruence.
  - intros ->. rewrite path_eqb_refl in E. discriminate.
Qed.
Lemma path_dec (p q : path) : {p = q} + {p <> q}.
Proof. destruct (path_eqb p q) eqn:E; [left; now apply path_eqb_eq | right; now apply path_eqb_neq]. Qed.

(** ** path strings *)
Lemma pieces_nil_neq s : pieces s <> [].
Proof. destruct s as [|c s]; simpl; [discriminate|]. destruct (N.eqb c slash); [discriminate|]. destruct (pieces s); discriminate. Qed.
Lemma pieces_app_slash a b : pieces (a ++ slash :: b) = pieces a ++ pieces b.
Proof.
  induction a as [|c a IH]; simpl; [reflexivity|]. rewrite IH. destruct (N.eqb c slash); [reflexivity|].
  pose proof (pieces_nil_neq a) as Hn. destruct (pieces a); [congruence|]. reflexivity.
Qed.
Lemma pieces_noslash b : ~ In slash b -> pieces b = [b].
Proof.
  induction b as [|c b IH]; intros H; simpl; [reflexivity|].
  destruct (N.eqb_spec c slash) as [->|_]; [exfalso; apply H; now left|].
  rewrite IH by (intros Hx; apply H; now right). reflexivity.
Qed.
Lemma comps_app a b : comps (a ++ slash :: b) = comps a ++ comps b.
Proof. unfold comps. now rewrite pieces_app_slash, filter_app. Qed.
Lemma comps_good b : good_name b -> comps b = [b].
Proof.
  intros (H1 & H2 & H3). unfold comps. rewrite (pieces_noslash _ H3). simpl.
  apply str_eqb_neq in H1, H2. now rewrite H1, H2.
Qed.
Lemma ends_slash_split a : ends_slash a = true -> exists a', a = a' ++ [slash].
Proof.
  unfold ends_slash. intros H. destruct (rev a) as [|c r] eqn:E; [discriminate|]. apply N.eqb_eq in H. subst c.
  exists (rev r). rewrite <- (rev_involutive a), E. reflexivity.
Qed.
Lemma good_head b : good_name b -> match b with c :: _ => N.eqb c slash = false | [] => False end.
Proof.
  intros (H1 & _ & H3). destruct b as [|c b]; [congruence|]. destruct (N.eqb_spec c slash) as [->|]; [|reflexivity].
  exfalso. apply H3. now left.
Qed.
(** [join a b] for a file name [b] *)
Lemma join_good a b : good_name b ->
  join a b = match a with [] => b | _ => if ends_slash a then a ++ b else a ++ slash :: b end.
Proof. intros H. apply good_head in H. destruct b as [|c b]; [destruct H|]. simpl. now rewrite H. Qed.
Lemma join_pieces a b : good_name b -> exists a', pieces (join a b) = a' ++ [b] /\
   comps (join a b) = comps a ++ [b].
Proof.
  intros Hg. rewrite (join_good a Hg). pose proof (comps_good Hg) as Hc. pose proof Hg as (_ & _ & Hs). pose proof (pieces_noslash _ Hs) as Hp.
  destruct a as [|c a]; [exists []; auto|]. remember (c :: a) as x eqn:Ex. clear Ex.
  destruct (ends_slash x) eqn:E.
  - destruct (ends_slash_split x E) as [a' ->]. rewrite <- app_assoc. simpl. exists (pieces a').
    rewrite pieces_app_slash, Hp. split; [reflexivity|]. rewrite comps_app, Hc. f_equal.
    change [slash] with (slash :: []). rewrite comps_app. unfold comps at 3. simpl. now rewrite app_nil_r.
  - exists (pieces x). rewrite pieces_app_slash, Hp, comps_app, Hc. auto.
Qed.
Lemma basename_join a b : good_name b -> basename (join a b) = b.
Proof. intros H. destruct (join_pieces a H) as (a' & E & _). unfold basename. rewrite E. apply last_last. Qed.
Lemma join_abs a b : good_name b -> match join a b with c :: _ => N.eqb c slash | [] => true end = match a with c :: _ => N.eqb c slash | [] => false end.
Proof.
  intros Hg. rewrite (join_good a Hg). destruct a as [|c a].
  - apply good_head in Hg. destruct b; [destruct Hg|exact Hg].
  - destruct (ends_slash (c :: a)); reflexivity.
Qed.
Lemma join_nonempty a b : good_name b -> join a b <> [].
Proof.
  intros Hg. rewrite (join_good a Hg). destruct a as [|c a]; [apply Hg|]. destruct (ends_slash (c :: a)); discriminate.
Qed.
Lemma resolve_join s a b : good_name b -> resolve s (join a b) = resolve s a ++ [b].
Proof.
  intros Hg. pose proof (join_abs a Hg) as Ha. pose proof (join_nonempty a Hg) as Hn. destruct (join_pieces a Hg) as (_ & _ & Hc).
  unfold resolve. destruct (join a b) as [|x y] eqn:E; [congruence|]. rewrite Ha, Hc.
  destruct a as [|c a]; [now rewrite app_nil_l|]. destruct (N.eqb c slash); [reflexivity|now rewrite app_assoc].
Qed.
Lemma dir_form_join a b : good_name b -> dir_form (join a b) = false.
Proof.
  intros Hg. unfold dir_form. rewrite (basename_join a Hg). destruct Hg as (H1 & H2 & _). apply str_eqb_neq in H1, H2. now rewrite H1, H2.
Qed.
Lemma stat_join s a b : good_name b -> stat s (join a b) = entry s (resolve s a ++ [b]).
Proof.
  intros Hg. unfold stat. pose proof (join_nonempty a Hg) as Hn. rewrite (dir_form_join a Hg), (resolve_join s a Hg).
  destruct (join a b); [congruence|]. destruct (entry s (resolve s a ++ [b])) as [[|]|]; reflexivity.
Qed.
Lemma pieces_good s : Forall (fun x => ~ In slash x) (pieces s).
Proof.
  induction s as [|c s IH]; simpl; [repeat constructor; auto|]. destruct (N.eqb_spec c slash) as [->|Hc]; [constructor; auto|].
  destruct (pieces s) as [|h t]; [repeat constructor; intros [E|[]]; congruence|].
  apply Forall_cons_iff in IH as [H1 H2]. constructor; auto. intros [E|E]; auto.
Qed.
Lemma comps_all_good s : Forall good_name (comps s).
Proof.
  apply Forall_forall. intros x Hx. apply filter_In in Hx as [H1 H2].
  pose proof (proj1 (Forall_forall _ _) (pieces_good s) x H1) as Hs. simpl in Hs.
  apply negb_true_iff, orb_false_iff in H2 as [Ha Hb]. apply str_eqb_neq in Ha, Hb. repeat split; auto.
Qed.
Lemma resolve_good s p : fs_ok s -> Forall good_name (resolve s p).
Proof.
  intros (Hc & _). unfold resolve. destruct p as [|c p]; [exact Hc|]. destruct (N.eqb c slash); [apply comps_all_good|].
  apply Forall_app. split; [exact Hc|apply comps_all_good].
Qed.

(** ** lookups *)
Lemma find_app p l m : find_ent p (l ++ m) = match find_ent p l with Some n => Some n | None => find_ent p m end.
Proof. induction l as [|[q n] l IH]; simpl; [reflexivity|]. now destruct (path_eqb p q). Qed.
Lemma find_in p n l : find_ent p l = Some n -> In (p, n) l.
Proof.
  induction l as [|[q m] l IH]; simpl; [discriminate|]. destruct (path_eqb p q) eqn:E.
  - apply path_eqb_eq in E as ->. intros [= ->]. now left.
  - intros H. right. auto.
Qed.
Lemma in_find p n l : NoDup (map fst l) -> In (p, n) l -> find_ent p l = Some n.
Proof.
  induction l as [|[q m] l IH]; simpl; intros Hd Hi; [destruct Hi|]. apply NoDup_cons_iff in Hd as [Hq Hd].
  destruct (path_eqb p q) eqn:E.
  - apply path_eqb_eq in E as ->. destruct Hi as [[= ->]|Hi]; [reflexivity|]. exfalso. apply Hq. now apply (in_map fst) in Hi.
  - destruct Hi as [[= -> ->]|Hi]; [rewrite path_eqb_refl in E; discriminate|auto].
Qed.
Lemma find_filter f p l : find_ent p (filter (fun e => negb (f (fst e))) l) = if f p then None else find_ent p l.
Proof.
  induction l as [|[q m] l IH]; simpl; [now destruct (f p)|].
  destruct (f q) eqn:Ef; simpl.
  - rewrite IH. destruct (f p) eqn:Ep; [reflexivity|]. destruct (path_eqb p q) eqn:E; [apply path_eqb_eq in E; congruence|reflexivity].
  - destruct (path_eqb p q) eqn:E; [apply path_eqb_eq in E as ->; now rewrite Ef|exact IH].
Qed.
Lemma entry_add s p n q : p <> [] -> entry s p = None -> entry (add_ent p n s) q = if path_eqb q p then Some n else entry s q.
Proof.
  intros Hp Hn. unfold entry, add_ent. simpl. destruct q as [|a q]; [destruct p; [congruence|reflexivity]|].
  rewrite find_app. simpl. destruct p as [|b p]; [congruence|]. simpl in Hn.
  destruct (path_eqb (a :: q) (b :: p)) eqn:E; simpl in E; rewrite E.
  - assert (Hq : path_eqb (a :: q) (b :: p) = true) by exact E. apply path_eqb_eq in Hq. rewrite Hq, Hn. reflexivity.
  - now destruct (find_ent (a :: q) (f_ent s)).
Qed.
Lemma entry_drop f s q : f [] = false -> entry (drop_ents f s) q = if f q then None else entry s q.
Proof.
  intros Hf. unfold entry, drop_ents. simpl. destruct q; [now rewrite Hf|]. apply find_filter.
Qed.
Lemma entry_nil s : entry s [] = Some Directory.
Proof. reflexivity. Qed.

(** an existing path has a directory as its parent *)
Lemma entry_parent s p n : fs_ok s -> entry s p = Some n -> p <> [] -> entry s (removelast p) = Some Directory.
Proof.
  intros (_ & _ & H) He Hp. unfold entry in He. destruct p as [|a p]; [congruence|]. apply find_in in He. now apply (H _ n).
Qed.
Lemma entry_child_none s p a : fs_ok s -> entry s p <> Some Directory -> entry s (p ++ [a]) = None.
Proof.
  intros Hok Hn. destruct (entry s (p ++ [a])) as [n|] eqn:E; [|reflexivity]. exfalso. apply Hn.
  assert (Hne : p ++ [a] <> []) by (now destruct p). pose proof (entry_parent Hok E Hne) as H. now rewrite removelast_last in H.
Qed.

Lemma child_of_spec d p a : child_of d p = Some a <-> p = d ++ [a].
Proof.
  unfold child_of. split.
  - intros H. destruct (rev p) as [|b r] eqn:E; [discriminate|]. destruct (path_eqb d (rev r)) eqn:Ed; [|discriminate].
    injection H as ->. apply path_eqb_eq in Ed as ->. rewrite <- (rev_involutive p), E. reflexivity.
  - intros ->. rewrite rev_app_distr. simpl. rewrite rev_involutive, path_eqb_refl. reflexivity.
Qed.
Lemma children_in s d a : fs_ok s -> (In a (children s d) <-> entry s (d ++ [a]) <> None).
Proof.
  intros (_ & Hd & _). unfold children. rewrite in_flat_map. split.
  - intros [[p n] [Hi Ha]]. simpl in Ha. destruct (child_of d p) as [b|] eqn:E; [|destruct Ha]. destruct Ha as [->|[]].
    apply child_of_spec in E. subst p. apply (in_find _ _ _ Hd) in Hi. unfold entry. destruct (d ++ [a]) eqn:Ed; [now destruct d|]. congruence.
  - intros H. unfold entry in H. destruct (d ++ [a]) as [|x y] eqn:Ed; [now destruct d|].
    destruct (find_ent (x :: y) (f_ent s)) as [n|] eqn:E; [|congruence]. apply find_in in E. exists ((x :: y), n). split; [exact E|].
    simpl fst. rewrite <- Ed, (proj2 (child_of_spec d (d ++ [a]) a) eq_refl). now left.
Qed.
Lemma children_nodup s d : fs_ok s -> NoDup (children s d).
Proof.
  intros (_ & Hd & _). unfold children. revert Hd. generalize (f_ent s). induction l as [|[p n] l IH]; simpl; intros Hd; [constructor|].
  apply NoDup_cons_iff in Hd as [Hp Hd]. specialize (IH Hd). destruct (child_of d p) as [a|] eqn:E; [|exact IH]. simpl. constructor; [|exact IH].
  intros Hin. apply in_flat_map in Hin as [[q m] [Hi Ha]]. simpl in Ha. destruct (child_of d q) as [b|] eqn:Eq; [|destruct Ha].
  destruct Ha as [->|[]]. apply child_of_spec in E, Eq. subst. apply Hp. now apply (in_map fst) in Hi.
Qed.
Lemma children_good s d a : fs_ok s -> In a (children s d) -> good_name a.
Proof.
  intros (_ & _ & H) Hi. apply in_flat_map in Hi as [[p n] [Hi Ha]]. simpl in Ha. destruct (child_of d p) as [b|] eqn:E; [|destruct Ha].
  destruct Ha as [->|[]]. apply child_of_spec in E. subst p. destruct (H _ _ Hi) as (_ & Hg & _). apply Forall_app in Hg as [_ Hg].
  now apply Forall_inv in Hg.
Qed.

Lemma under_spec d p : under d p = true <-> exists a t, p = d ++ a :: t.
Proof.
  revert p. induction d as [|x d IH]; intros p; simpl.
  - destruct p; split; intros H; try discriminate; eauto. destruct H as (a & t & H). discriminate.
  - destruct p as [|b p]; split; intros H; try discriminate; [destruct H as (a & t & H); discriminate| |].
    + apply andb_true_iff in H as [H1 H2]. apply str_eqb_eq in H1. apply IH in H2 as (a & t & ->). exists a, t. now rewrite H1.
    + destruct H as (a & t & [= -> ->]). rewrite str_eqb_refl. apply IH. eauto.
Qed.

(** ** the invariant is kept *)
Lemma ok_add s p n : fs_ok s -> p <> [] -> Forall good_name p -> entry s p = None -> entry s (removelast p) = Some Directory -> fs_ok (add_ent p n s).
Proof.
  intros (H1 & H2 & H3) Hp Hg Hn Hd. split; [exact H1|]. split.
  - simpl. rewrite map_app.
    apply (NoDup_Add (Add_app p (map fst (f_ent s)) [])). rewrite app_nil_r. split; [exact H2|].
    intros Hi. apply in_map_iff in Hi as [[q m] [<- Hi]]. simpl in Hn. apply (in_find _ _ _ H2) in Hi. unfold entry in Hn. destruct q; [congruence|]. simpl in *. congruence.
  - intros q m Hi. simpl in Hi. apply in_app_iff in Hi as [Hi|[[= <- <-]|[]]].
    + destruct (H3 _ _ Hi) as (Ha & Hb & Hc). split; [exact Ha|]. split; [exact Hb|]. rewrite (entry_add s n _ Hp Hn).
      destruct (path_eqb (removelast q) p) eqn:E; [|exact Hc]. apply path_eqb_eq in E. congruence.
    + split; [exact Hp|]. split; [exact Hg|]. rewrite (entry_add s n _ Hp Hn). destruct (path_eqb (removelast p) p) eqn:E; [|exact Hd].
      apply path_eqb_eq in E. congruence.
Qed.
Lemma ok_drop f s : fs_ok s -> f [] = false -> (forall p a, f p = true -> entry s (p ++ [a]) <> None -> f (p ++ [a]) = true) -> fs_ok (drop_ents f s).
Proof.
  intros (H1 & H2 & H3) Hf Hc. split; [exact H1|]. split.
  - simpl. clear -H2. induction (f_ent s) as [|[p n] l IH]; simpl in *; [constructor|]. apply NoDup_cons_iff in H2 as [Ha Hb].
    destruct (negb (f p)); [|auto]. simpl. constructor; [|auto]. intros Hi. apply Ha. apply in_map_iff in Hi as [e [<- He]].
    apply filter_In in He as [He _]. now apply in_map.
  - intros p n Hi. simpl in Hi. apply filter_In in Hi as [Hi Hk]. simpl in Hk. apply negb_true_iff in Hk.
    destruct (H3 _ _ Hi) as (Ha & Hb & Hd). split; [exact Ha|]. split; [exact Hb|]. rewrite (entry_drop f s _ Hf).
    destruct (f (removelast p)) eqn:E; [|exact Hd]. exfalso.
    assert (Hp : removelast p ++ [last p []] = p) by (symmetry; now apply app_removelast_last).
    specialize (Hc (removelast p) (last p []) E). rewrite Hp in Hc. rewrite Hc in Hk; [discriminate|].
    unfold entry. destruct p; [congruence|]. rewrite (in_find _ _ _ H2 Hi). discriminate.
Qed.
