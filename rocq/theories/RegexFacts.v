(** Proofs about the regular-expression matcher *)
From Coq Require Import String.
From Verif Require Import Base BaseFacts Regex.
Open Scope list_scope.

(** [mt r s caps rest]: [r] can match the part of [s] before [rest], capturing [caps] *)
Fixpoint mt (r : regex) (s : pystr) (caps : list (N * pystr)) (rest : pystr) : Prop :=
  match r with
  | Eps => caps = [] /\ rest = s
  | Chr p => exists c, s = c :: rest /\ p c = true /\ caps = []
  | Seq a b => exists c1 mid c2, mt a s c1 mid /\ mt b mid c2 rest /\ caps = c1 ++ c2
  | Alt a b => mt a s caps rest \/ mt b s caps rest
  | Grp g a => exists c, mt a s c rest /\ caps = (g, firstn (List.length s - List.length rest) s) :: c
  | Eos => (s = [] \/ s = [10%N]) /\ rest = s /\ caps = []
  end.
Lemma mall_mt r : forall s caps rest, In (caps, rest) (mall r s) <-> mt r s caps rest.
Proof.
  induction r as [|p|a IHa b IHb|a IHa b IHb|g a IHa|]; intros s caps rest; cbn [mall mt].
  - split; [intros [E|[]]; injection E as <- <-; auto|intros [-> ->]; now left].
  - destruct s as [|c s]; [split; [intros []|intros (c & E & _); discriminate]|]. destruct (p c) eqn:Hp; split.
    + intros [E|[]]. injection E as <- <-. eauto.
    + intros (c' & E & _ & ->). injection E as -> ->. now left.
    + intros [].
    + intros (c' & E & H & _). injection E as -> ->. congruence.
  - rewrite in_flat_map. split.
    + intros ([c1 mid] & H1 & H2). apply in_map_iff in H2 as ([c2 r2] & E & H2). cbn in E, H2. injection E as <- <-. exists c1, mid, c2. split; [now apply IHa|]. split; [now apply IHb|reflexivity].
    + intros (c1 & mid & c2 & H1 & H2 & ->). exists (c1, mid). split; [now apply IHa|]. apply in_map_iff. exists (c2, rest). split; [reflexivity|now apply IHb].
  - rewrite in_app_iff, IHa, IHb. reflexivity.
  - rewrite in_map_iff. split.
    + intros ([c r] & E & H). cbn in E. injection E as <- <-. exists c. split; [now apply IHa|reflexivity].
    + intros (c & H & ->). exists (c, rest). split; [reflexivity|now apply IHa].
  - destruct s as [|c [|d s]].
    + split; [intros [E|[]]; injection E as <- <-; auto|intros (_ & -> & ->); now left].
    + destruct (N.eqb_spec c 10) as [->|H]; split.
      * intros [E|[]]. injection E as <- <-. auto.
      * intros (_ & -> & ->). now left.
      * intros [].
      * intros ([E|E] & _); [discriminate|]. injection E as ->. now elim H.
    + split; [intros []|]. intros ([E|E] & _); discriminate.
Qed.
Lemma mt_suffix r : forall s caps rest, mt r s caps rest -> exists w, s = w ++ rest.
Proof.
  induction r as [|p|a IHa b IHb|a IHa b IHb|g a IHa|]; intros s caps rest; cbn [mt].
  - intros [_ ->]. now exists [].
  - intros (c & -> & _). now exists [c].
  - intros (c1 & mid & c2 & H1 & H2 & _). apply IHa in H1 as [w1 ->]. apply IHb in H2 as [w2 ->]. exists (w1 ++ w2). now rewrite app_assoc.
  - intros [H|H]; eauto.
  - intros (c & H & _). eauto.
  - intros (_ & -> & _). now exists [].
Qed.
Lemma firstn_part {A} (w rest : list A) : firstn (List.length (w ++ rest) - List.length rest) (w ++ rest) = w.
Proof. rewrite app_length. replace (List.length w + List.length rest - List.length rest)%nat with (List.length w) by lia. rewrite firstn_app, Nat.sub_diag, firstn_all. simpl. now rewrite app_nil_r. Qed.

(** regular expressions without groups and without $, and the strings they describe *)
Fixpoint pure (r : regex) : Prop := match r with Eps | Chr _ => True | Seq a b | Alt a b => pure a /\ pure b | Grp _ _ | Eos => False end.
Fixpoint lang (r : regex) (t : pystr) : Prop :=
  match r with
  | Eps => t = []
  | Chr p => exists c, t = [c] /\ p c = true
  | Seq a b => exists u v, t = u ++ v /\ lang a u /\ lang b v
  | Alt a b => lang a t \/ lang b t
  | Grp _ a => lang a t
  | Eos => False
  end.
Lemma mt_lang r : pure r -> forall s caps rest, mt r s caps rest <-> caps = [] /\ exists t, lang r t /\ s = t ++ rest.
Proof.
  induction r as [|p|a IHa b IHb|a IHa b IHb|g a IHa|]; intros Hp s caps rest; cbn [mt lang]; cbn in Hp; try contradiction.
  - split; [intros [-> ->]; split; [reflexivity|exists []; auto]|intros (-> & t & -> & ->); auto].
  - split; [intros (c & -> & Hc & ->); split; [reflexivity|exists [c]; eauto]|]. intros (-> & t & (c & -> & Hc) & ->). exists c. auto.
  - destruct Hp as [Pa Pb]. split.
    + intros (c1 & mid & c2 & H1 & H2 & ->). apply IHa in H1 as (-> & t1 & L1 & ->); auto. apply IHb in H2 as (-> & t2 & L2 & ->); auto.
      split; [reflexivity|]. exists (t1 ++ t2). split; [eauto 6|now rewrite app_assoc].
    + intros (-> & t & (u & v & -> & Lu & Lv) & ->). exists [], (v ++ rest), []. split; [apply IHa; auto; split; [reflexivity|exists u; split; [exact Lu|now rewrite app_assoc]]|].
      split; [|reflexivity]. apply IHb; auto. split; [reflexivity|]. eauto.
  - destruct Hp as [Pa Pb]. rewrite (IHa Pa), (IHb Pb). split.
    + intros [(-> & t & L & ->)|(-> & t & L & ->)]; (split; [reflexivity|exists t; auto]).
    + intros (-> & t & [L|L] & ->); [left|right]; (split; [reflexivity|exists t; auto]).
Qed.
Lemma mt_grp g r : pure r -> forall s caps rest, mt (Grp g r) s caps rest <-> exists t, lang r t /\ s = t ++ rest /\ caps = [(g, t)].
Proof.
  intros Hp s caps rest. cbn [mt]. split.
  - intros (c & H & ->). apply (mt_lang r Hp) in H as (-> & t & L & ->). exists t. rewrite firstn_part. auto.
  - intros (t & L & -> & ->). exists []. rewrite firstn_part. split; [|reflexivity]. apply mt_lang; eauto.
Qed.
Lemma mt_seqs_cons r r' rs s caps rest : mt (seqs (r :: r' :: rs)) s caps rest = mt (Seq r (seqs (r' :: rs))) s caps rest.
Proof. reflexivity. Qed.

(** re.match, re.search *)
Lemma re_match_unique r s caps rest : mt r s caps rest -> (forall c' r', mt r s c' r' -> c' = caps /\ r' = rest) -> re_match r s = Some (caps, rest).
Proof.
  intros H Hu. unfold re_match. apply mall_mt in H. destruct (mall r s) as [|[c' r'] m] eqn:E; [contradiction|]. cbn. f_equal.
  destruct (Hu c' r') as [-> ->]; [|reflexivity]. apply mall_mt. rewrite E. now left.
Qed.
Lemma re_match_some r s x : re_match r s = Some x -> mt r s (fst x) (snd x).
Proof. unfold re_match. intros H. destruct (mall r s) as [|y m] eqn:E; [discriminate|]. cbn in H. injection H as ->. apply mall_mt. rewrite E. left. now destruct x. Qed.
Lemma re_match_none r s : re_match r s = None <-> forall caps rest, ~ mt r s caps rest.
Proof.
  unfold re_match. destruct (mall r s) as [|[c x] m] eqn:E; cbn.
  - split; [|auto]. intros _ caps rest H. apply mall_mt in H. rewrite E in H. contradiction.
  - split; [discriminate|]. intros H. elim (H c x). apply mall_mt. rewrite E. now left.
Qed.
Lemma re_search_some r : forall s, re_search r s <> None <-> exists pre s' caps rest, s = pre ++ s' /\ mt r s' caps rest.
Proof.
  induction s as [|c s IH]; cbn [re_search].
  - destruct (re_match r []) as [x|] eqn:E.
    + split; [intros _|discriminate]. apply re_match_some in E. exists [], [], (fst x), (snd x). auto.
    + split; [congruence|]. intros (pre & s' & caps & rest & E1 & H). destruct pre; [|discriminate]. cbn in E1. subst s'. apply re_match_none with (caps := caps) (rest := rest) in E. contradiction.
  - destruct (re_match r (c :: s)) as [x|] eqn:E.
    + split; [intros _|discriminate]. apply re_match_some in E. exists [], (c :: s), (fst x), (snd x). auto.
    + rewrite IH. split.
      * intros (pre & s' & caps & rest & -> & H). exists (c :: pre), s', caps, rest. auto.
      * intros (pre & s' & caps & rest & E1 & H). destruct pre as [|d pre]; cbn in E1.
        -- subst s'. apply re_match_none with (caps := caps) (rest := rest) in E. contradiction.
        -- injection E1 as -> ->. exists pre, s', caps, rest. auto.
Qed.
Lemma re_search_at r x : forall pre s, re_match r s = Some x -> (forall p q, pre = p ++ q -> q <> [] -> forall caps rest, ~ mt r (q ++ s) caps rest) -> re_search r (pre ++ s) = Some (s, x).
Proof.
  induction pre as [|c pre IH]; intros s Hx Hn.
  - cbn [app]. destruct s; cbn [re_search]; now rewrite Hx.
  - cbn [app re_search]. assert (E : re_match r (c :: pre ++ s) = None).
    { apply re_match_none. intros caps rest H. apply (Hn [] (c :: pre) eq_refl ltac:(discriminate) caps rest). exact H. }
    rewrite E. apply IH; [exact Hx|]. intros p q -> Hq. apply (Hn (c :: p) q); auto.
Qed.
