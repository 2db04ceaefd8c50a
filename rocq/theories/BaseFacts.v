(** Facts about [Base]: the string order is a strict total order; UTF-8 facts. *)
From Verif Require Import Base.
Set Implicit Arguments.

Lemma str_compare_refl a : str_compare a a = Eq.
Proof. induction a as [|x a IH]; simpl; [reflexivity|]. rewrite N.compare_refl. exact IH. Qed.

Lemma str_compare_eq a b : str_compare a b = Eq <-> a = b.
Proof.
  split; [|intros ->; apply str_compare_refl].
  revert b; induction a as [|x a IH]; intros [|y b]; simpl; try discriminate; auto.
  destruct (N.compare_spec x y); intros H0; try discriminate. subst; f_equal; auto.
Qed.

Lemma str_compare_antisym a b : str_compare a b = CompOpp (str_compare b a).
Proof.
  revert b; induction a as [|x a IH]; intros [|y b]; simpl; auto.
  rewrite (N.compare_antisym y x). destruct (N.compare y x); simpl; auto.
Qed.

Lemma str_compare_trans a b c :
  str_compare a b = Lt -> str_compare b c = Lt -> str_compare a c = Lt.
Proof.
  revert b c; induction a as [|x a IH]; intros [|y b] [|z c]; simpl; try discriminate; auto.
  destruct (N.compare_spec x y) as [E|E|E]; destruct (N.compare_spec y z) as [F|F|F]; intros H1 H2;
    try discriminate; subst.
  - rewrite N.compare_refl. eapply IH; eauto.
  - rewrite (proj2 (N.compare_lt_iff _ _)); auto.
  - rewrite (proj2 (N.compare_lt_iff _ _)); auto.
  - rewrite (proj2 (N.compare_lt_iff _ _)); auto. lia.
Qed.

Definition slt (a b : pystr) : Prop := str_compare a b = Lt.
Definition sle (a b : pystr) : Prop := str_compare a b <> Gt.

Lemma slt_trans a b c : slt a b -> slt b c -> slt a c.
Proof. apply str_compare_trans. Qed.
Lemma slt_irrefl a : ~ slt a a.
Proof. unfold slt. rewrite str_compare_refl. discriminate. Qed.
Lemma slt_not_eq a b : slt a b -> a <> b.
Proof. intros H ->. exact (slt_irrefl H). Qed.
Lemma slt_asym a b : slt a b -> slt b a -> False.
Proof. intros H1 H2. exact (slt_irrefl (slt_trans H1 H2)). Qed.
Lemma slt_gt a b : str_compare a b = Gt <-> slt b a.
Proof. unfold slt. rewrite str_compare_antisym. destruct (str_compare b a); simpl; split; congruence. Qed.

Inductive str_cmp_spec (a b : pystr) : comparison -> Prop :=
| SEq : a = b -> str_cmp_spec a b Eq
| SLt : slt a b -> str_cmp_spec a b Lt
| SGt : slt b a -> str_cmp_spec a b Gt.
Lemma str_compareP a b : str_cmp_spec a b (str_compare a b).
Proof.
  destruct (str_compare a b) eqn:E; constructor.
  - now apply str_compare_eq. - exact E. - now apply slt_gt.
Qed.

Lemma str_eqb_eq a b : str_eqb a b = true <-> a = b.
Proof. unfold str_eqb. destruct (str_compareP a b) as [E|E|E]; split; intros H; auto; try discriminate.
  - subst; exfalso; exact (slt_irrefl E). - subst; exfalso; exact (slt_irrefl E). Qed.
Lemma str_eqb_refl a : str_eqb a a = true.
Proof. now apply str_eqb_eq. Qed.
Lemma str_eqb_neq a b : str_eqb a b = false <-> a <> b.
Proof. destruct (str_eqb a b) eqn:E; split; intros H; try congruence.
  - apply str_eqb_eq in E; congruence.
  - intros ->. rewrite str_eqb_refl in E; discriminate. Qed.
Lemma str_eqb_sym a b : str_eqb a b = str_eqb b a.
Proof. destruct (str_eqb a b) eqn:E.
  - apply str_eqb_eq in E as ->. now rewrite str_eqb_refl.
  - symmetry. apply str_eqb_neq. apply str_eqb_neq in E. congruence. Qed.
Lemma str_ltb_lt a b : str_ltb a b = true <-> slt a b.
Proof. unfold str_ltb, slt. destruct (str_compare a b); split; congruence. Qed.
Lemma str_leb_le a b : str_leb a b = true <-> sle a b.
Proof. unfold str_leb, sle. destruct (str_compare a b); split; congruence. Qed.
Lemma sle_cases a b : sle a b <-> a = b \/ slt a b.
Proof. unfold sle. destruct (str_compareP a b) as [E|E|E]; split; intros H; auto; try discriminate.
  - exfalso; auto. - destruct H as [->|H]; exfalso; [exact (slt_irrefl E)|exact (slt_asym E H)]. Qed.
Lemma sle_refl a : sle a a. Proof. apply sle_cases; auto. Qed.
Lemma sle_trans a b c : sle a b -> sle b c -> sle a c.
Proof. rewrite !sle_cases. intros [->|H1] [->|H2]; auto. right; eapply slt_trans; eauto. Qed.
Lemma sle_lt_trans a b c : sle a b -> slt b c -> slt a c.
Proof. rewrite !sle_cases. intros [->|H1] H2; auto. eapply slt_trans; eauto. Qed.
Lemma slt_le_trans a b c : slt a b -> sle b c -> slt a c.
Proof. rewrite !sle_cases. intros H1 [->|H2]; auto. eapply slt_trans; eauto. Qed.
Lemma slt_le a b : slt a b -> sle a b. Proof. rewrite sle_cases; auto. Qed.
Lemma sle_antisym a b : sle a b -> sle b a -> a = b.
Proof. rewrite !sle_cases. intros [->|H1] [H|H2]; auto. exfalso; exact (slt_asym H1 H2). Qed.
Lemma not_slt_sle a b : ~ slt a b <-> sle b a.
Proof. unfold sle. rewrite slt_gt. tauto. Qed.
Lemma not_sle_slt a b : ~ sle a b <-> slt b a.
Proof. unfold sle. rewrite <- slt_gt. destruct (str_compare a b); split; intros H; try congruence;
  exfalso; apply H; discriminate. Qed.
Lemma slt_total a b : slt a b \/ a = b \/ slt b a.
Proof. destruct (str_compareP a b); auto. Qed.
Lemma str_dec (a b : pystr) : {a = b} + {a <> b}.
Proof. destruct (str_eqb a b) eqn:E; [left; now apply str_eqb_eq | right; now apply str_eqb_neq]. Qed.
Lemma sle_total a b : sle a b \/ sle b a.
Proof. rewrite !sle_cases. destruct (slt_total a b) as [H|[H|H]]; auto. Qed.
Lemma nil_sle a : sle [] a.
Proof. unfold sle. destruct a; simpl; discriminate. Qed.

Lemma mem_str_In x l : mem_str x l = true <-> In x l.
Proof. unfold mem_str. rewrite existsb_exists. split.
  - intros (y & Hy & E). apply str_eqb_eq in E as ->. exact Hy.
  - intros H; exists x; split; auto. apply str_eqb_refl. Qed.
Lemma mem_str_false x l : mem_str x l = false <-> ~ In x l.
Proof. rewrite <- mem_str_In. destruct (mem_str x l); split; congruence. Qed.

Lemma startswith_spec p s : startswith p s = true <-> exists t, s = p ++ t.
Proof.
  revert s; induction p as [|x p IH]; intros s; simpl.
  - split; eauto.
  - destruct s as [|y s]; [split; [discriminate|intros (t & H); discriminate]|].
    rewrite andb_true_iff, N.eqb_eq, IH. split.
    + intros [-> (t & ->)]; exists t; reflexivity.
    + intros (t & H). inversion H; subst. split; eauto.
Qed.

Lemma is_substr_spec p s : is_substr p s = true <-> exists u v, s = u ++ p ++ v.
Proof.
  induction s as [|y s IH]; simpl; rewrite orb_true_iff, startswith_spec.
  - split.
    + intros [(t & H)|H]; [exists [], t; exact H|discriminate].
    + intros (u & v & H). left. destruct u; [exists v; exact H|discriminate].
  - rewrite IH. split.
    + intros [(t & H)|(u & v & ->)]; [exists [], t; exact H|exists (y :: u), v; reflexivity].
    + intros (u & v & H). destruct u as [|z u].
      * left; exists v; exact H.
      * right. inversion H; subst. exists u, v; reflexivity.
Qed.

Lemma mapM_ok A B (f : A -> res B) l r : mapM f l = Ok r -> Forall2 (fun x y => f x = Ok y) l r.
Proof.
  revert r; induction l as [|x l IH]; simpl; intros r H.
  - inversion H; constructor.
  - destruct (f x) eqn:E; [|discriminate]. destruct (mapM f l); [|discriminate].
    inversion H; subst; constructor; auto.
Qed.
Lemma mapM_ok_total A B (f : A -> res B) (g : A -> B) l :
  (forall x, In x l -> f x = Ok (g x)) -> mapM f l = Ok (map g l).
Proof.
  induction l as [|x l IH]; simpl; intros H; [reflexivity|].
  rewrite H by auto. rewrite IH by auto. reflexivity.
Qed.
