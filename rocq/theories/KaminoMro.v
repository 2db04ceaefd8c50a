(** the method resolution order of a clone *)
From Coq Require Import String Permutation.
From Verif Require Import Base BaseFacts Dict DictFacts PyClass PyClassFacts Kamino KaminoOrder KaminoFacts.
Open Scope list_scope.

(** ** C3 merges: empty lists do not matter *)
Definition ne (l : list nat) : bool := negb (is_nil l).
Lemma good_ne ls x : good ls x = good (filter ne ls) x.
Proof. induction ls as [|[|h t] ls IH]; cbn; [reflexivity|exact IH|]. unfold good in IH. now rewrite IH. Qed.
Lemma good_congr a b x : filter ne a = filter ne b -> good a x = good b x.
Proof. intros H. now rewrite (good_ne a), (good_ne b), H. Qed.
Lemma first_good_congr all all' : filter ne all = filter ne all' -> forall todo, first_good all todo = first_good all' (filter ne todo).
Proof. intros H. induction todo as [|[|h t] r IH]; cbn; [reflexivity|exact IH|]. now rewrite IH, (good_congr _ _ h H). Qed.
Lemma filter_idem {A} (f : A -> bool) l : filter f (filter f l) = filter f l.
Proof. induction l as [|x l IH]; [reflexivity|]. cbn. destruct (f x) eqn:E; cbn; rewrite ?E, IH; reflexivity. Qed.
Lemma drop_ne x ls : filter ne (map (drop_head x) ls) = filter ne (map (drop_head x) (filter ne ls)).
Proof. induction ls as [|[|h t] ls IH]; cbn; [reflexivity|exact IH|]. destruct (Nat.eqb h x); cbn; [|now rewrite IH]. destruct (ne t); cbn; now rewrite IH. Qed.
Lemma all_nil_ne ls : forallb is_nil ls = is_nil (filter ne ls).
Proof. induction ls as [|[|h t] ls IH]; cbn; auto. Qed.
Lemma merge_congr fuel : forall a b, filter ne a = filter ne b -> merge fuel a = merge fuel b.
Proof.
  induction fuel as [|fuel IH]; intros a b H; cbn [merge]; rewrite !all_nil_ne, H; [reflexivity|].
  destruct (is_nil (filter ne b)); [reflexivity|]. rewrite (first_good_congr a b H a), H, <- (first_good_congr b b eq_refl b).
  destruct (first_good b b) as [x|]; [|reflexivity]. rewrite (IH (map (drop_head x) a) (map (drop_head x) b)); [reflexivity|]. rewrite drop_ne, H, <- drop_ne. reflexivity.
Qed.

(** ** the front part of a merge *)
Section Front.
Variable q : nat -> bool.
(** lists whose elements with [q] come first *)
Definition fronted (l : list nat) : Prop := exists a b, l = a ++ b /\ forallb q a = true /\ forallb (fun x => negb (q x)) b = true.
Lemma filter_all {A} (f : A -> bool) l : forallb f l = true -> filter f l = l.
Proof. induction l as [|x l IH]; cbn; [reflexivity|]. intros H. apply andb_true_iff in H as [H1 H2]. now rewrite H1, IH. Qed.
Lemma filter_none {A} (f : A -> bool) l : forallb (fun x => negb (f x)) l = true -> filter f l = [].
Proof. induction l as [|x l IH]; cbn; [reflexivity|]. intros H. apply andb_true_iff in H as [H1 H2]. apply negb_true_iff in H1. now rewrite H1, IH. Qed.
Lemma fronted_filter a b : forallb q a = true -> forallb (fun x => negb (q x)) b = true -> filter q (a ++ b) = a.
Proof. intros H1 H2. rewrite filter_app, filter_all, filter_none by assumption. apply app_nil_r. Qed.
Lemma fronted_tail x l : q x = true -> fronted l -> in_tail x l = in_tail x (filter q l).
Proof.
  intros Hx (a & b & -> & H1 & H2). rewrite fronted_filter by assumption. destruct a as [|h t]; cbn.
  - destruct b as [|h b]; [reflexivity|]. cbn. cbn in H2. apply andb_true_iff in H2 as [_ H2]. apply mem_out. intros Hi. rewrite forallb_forall in H2. specialize (H2 x Hi). now rewrite Hx in H2.
  - destruct (mem x t) eqn:E; [apply mem_in; apply mem_in in E; apply in_or_app; now left|]. apply mem_out. apply mem_out in E. intros Hi. apply in_app_or in Hi as [Hi|Hi]; [auto|]. rewrite forallb_forall in H2. specialize (H2 x Hi). now rewrite Hx in H2.
Qed.
Lemma fronted_good x ls : q x = true -> (forall l, In l ls -> fronted l) -> good ls x = good (map (filter q) ls) x.
Proof. intros Hx. induction ls as [|l ls IH]; intros H; cbn; [reflexivity|]. rewrite (fronted_tail x l Hx) by (apply H; now left). unfold good in IH. rewrite IH; [reflexivity|]. intros l' Hl. apply H. now right. Qed.
Lemma fronted_first all x : q x = true -> (forall l, In l all -> fronted l) -> forall todo, (forall l, In l todo -> fronted l) -> first_good all todo = Some x -> first_good (map (filter q) all) (map (filter q) todo) = Some x.
Proof.
  intros Hx Hall. induction todo as [|l todo IH]; intros Ht; [discriminate|]. pose proof (Ht l (or_introl eq_refl)) as Hl. assert (Ht' : forall l', In l' todo -> fronted l') by (intros l' H; apply Ht; now right). cbn [map first_good].
  destruct l as [|h t]; [cbn; auto|]. destruct (good all h) eqn:Eg.
  - intros [= ->]. cbn. rewrite Hx. rewrite <- fronted_good by assumption. now rewrite Eg.
  - intros H. specialize (IH Ht' H). cbn. destruct (q h) eqn:Eh; [|].
    + rewrite <- fronted_good by assumption. now rewrite Eg.
    + destruct Hl as (a & b & E & H1 & H2). destruct a as [|h' a]; cbn in E; [|injection E as -> ->; cbn in H1; rewrite Eh in H1; discriminate]. subst b. cbn in H2. apply andb_true_iff in H2 as [_ H2]. rewrite (filter_none q t H2). exact IH.
Qed.
Lemma fronted_drop x l : q x = true -> fronted l -> fronted (drop_head x l) /\ filter q (drop_head x l) = drop_head x (filter q l).
Proof.
  intros Hx (a & b & -> & H1 & H2). destruct a as [|h a].
  - cbn [app]. destruct b as [|h b]; [split; [exists [], []; auto|reflexivity]|]. assert (Hh : h <> x) by (intros ->; cbn in H2; rewrite Hx in H2; discriminate).
    cbn [drop_head]. apply Nat.eqb_neq in Hh. rewrite Hh. split; [exists [], (h :: b); auto|]. rewrite (filter_none q (h :: b) H2). reflexivity.
  - cbn [app drop_head]. cbn in H1. apply andb_true_iff in H1 as [H0 H1]. destruct (Nat.eqb h x) eqn:E.
    + split; [exists a, b; auto|]. rewrite fronted_filter by assumption. cbn [filter app]. rewrite H0. rewrite fronted_filter by assumption. cbn. now rewrite E.
    + split; [exists (h :: a), b; cbn; rewrite H0, H1; auto|]. cbn [filter]. rewrite H0. rewrite fronted_filter by assumption. cbn. now rewrite E.
Qed.
Lemma merge_front X : forall fuel ls Y, (forall l, In l ls -> fronted l) -> forallb q X = true -> forallb (fun x => negb (q x)) Y = true -> (forall l, In l ls -> subseq l (X ++ Y)) ->
  NoDup (X ++ Y) -> merge fuel ls = Some (X ++ Y) -> merge fuel (map (filter q) ls) = Some X.
Proof.
  induction X as [|x X IH]; intros fuel ls Y Hf HX HY Hs Hn Hm.
  - assert (E : forallb is_nil (map (filter q) ls) = true). { apply forallb_forall. intros l Hl. apply in_map_iff in Hl as (l0 & <- & Hl). specialize (Hs l0 Hl). cbn in Hs. rewrite (filter_none q l0); [reflexivity|]. apply forallb_forall. intros y Hy. rewrite forallb_forall in HY. apply HY. eapply ss_in; eauto. }
    destruct fuel; cbn; now rewrite E.
  - cbn in HX. apply andb_true_iff in HX as [Hx HX]. cbn [app] in Hm. destruct fuel as [|fuel]; cbn [merge] in Hm; (destruct (forallb is_nil ls) eqn:En; [discriminate|]); [discriminate|].
    destruct (first_good ls ls) as [y|] eqn:Ey; [|discriminate]. destruct (merge fuel (map (drop_head y) ls)) as [r|] eqn:Er; [|discriminate]. injection Hm as -> Hr. subst r.
    pose proof (fronted_first ls x Hx Hf ls Hf Ey) as Hfg.
    assert (Hlm : map (filter q) (map (drop_head x) ls) = map (drop_head x) (map (filter q) ls)). { rewrite !map_map. apply map_ext_in. intros l Hl. apply fronted_drop; auto. }
    cbn [app] in Hn. apply NoDup_cons_iff in Hn as [Hn1 Hn2].
    assert (Hgood : good ls x = true) by (apply first_good_some in Ey; tauto). rewrite good_spec in Hgood.
    specialize (IH fuel (map (drop_head x) ls) Y).
    assert (HIH : merge fuel (map (filter q) (map (drop_head x) ls)) = Some X).
    { apply IH; auto.
      - intros l Hl. apply in_map_iff in Hl as (l0 & <- & Hl). apply fronted_drop; auto.
      - intros l Hl. apply in_map_iff in Hl as (l0 & <- & Hl). specialize (Hs l0 Hl). cbn [app] in Hs. destruct l0 as [|h t]; cbn; [constructor|]. destruct (Nat.eqb_spec h x) as [->|Hne].
        + inversion Hs; subst; [assumption|eapply ss_tail; eauto].
        + inversion Hs; subst; [congruence|assumption]. }
    cbn [merge]. destruct (forallb is_nil (map (filter q) ls)) eqn:En2.
    + exfalso. apply first_good_some in Hfg as (_ & t & Ht). rewrite forallb_forall in En2. specialize (En2 _ Ht). discriminate.
    + rewrite Hfg, <- Hlm, HIH. reflexivity.
Qed.
End Front.

(** ** putting copies of some lists in front of others *)
Section Lift.
Variable f : nat -> nat.
Variable U : nat -> Prop.
Variables (c : nat) (D : list nat).
Hypothesis Hinj : forall x y, U x -> U y -> f x = f y -> x = y.
Hypothesis Hfresh : forall x, U x -> ~ In (f x) (c :: D).
Hypothesis HD : NoDup (c :: D).
Definition lift (p : list nat * list nat) : list nat := map f (fst p) ++ snd p.
Definition full (AM : list (list nat * list nat)) (R : list nat) : list (list nat) := map lift AM ++ [c :: D; map f R ++ [c]].
Lemma mem_map u t : U u -> (forall x, In x t -> U x) -> mem (f u) (map f t) = mem u t.
Proof.
  intros Hu Ht. destruct (mem u t) eqn:E; [apply mem_in, in_map, mem_in, E|]. apply mem_out. apply mem_out in E. intros H. apply in_map_iff in H as (y & Ey & Hy). apply E. now rewrite (Hinj u y Hu (Ht y Hy) (eq_sym Ey)).
Qed.
Lemma mem_app x a b : mem x (a ++ b) = mem x a || mem x b.
Proof. unfold mem. apply existsb_app. Qed.
Lemma tail_lift u a m : U u -> (forall x, In x a -> U x) -> ~ In (f u) m -> in_tail (f u) (map f a ++ m) = in_tail u a.
Proof.
  intros Hu Ha Hm. destruct a as [|h t]; cbn.
  - destruct m as [|y m]; [reflexivity|]. cbn. apply mem_out. intros H. apply Hm. now right.
  - rewrite mem_app, mem_map by (auto; intros x Hx; apply Ha; now right). assert (mem (f u) m = false) as -> by now apply mem_out. apply orb_false_r.
Qed.
Lemma drop_lift x a m : U x -> (forall y, In y a -> U y) -> ~ In (f x) m -> drop_head (f x) (map f a ++ m) = map f (drop_head x a) ++ m.
Proof.
  intros Hx Ha Hm. destruct a as [|h t]; cbn.
  - destruct m as [|y m]; [reflexivity|]. cbn. destruct (Nat.eqb_spec y (f x)) as [->|_]; [exfalso; apply Hm; now left|reflexivity].
  - destruct (Nat.eqb_spec h x) as [->|Hn]; [now rewrite Nat.eqb_refl|]. destruct (Nat.eqb_spec (f h) (f x)) as [E|_]; [|reflexivity]. exfalso. apply Hn, Hinj; auto. apply Ha. now left.
Qed.
Definition okAM (AM : list (list nat * list nat)) (R : list nat) : Prop :=
  (forall p x, In p AM -> In x (fst p) -> U x) /\ (forall p, In p AM -> subseq (snd p) D) /\ (forall x, In x R -> exists p, In p AM /\ In x (fst p)).
Lemma first_good_app all a b : first_good all (a ++ b) = match first_good all a with Some x => Some x | None => first_good all b end.
Proof. induction a as [|[|h t] a IH]; cbn; [reflexivity|exact IH|]. destruct (good all h); auto. Qed.
Lemma good_app a b x : good (a ++ b) x = good a x && good b x.
Proof. unfold good. apply forallb_app. Qed.
Lemma good_full AM R u : okAM AM R -> U u -> good (full AM R) (f u) = good (map fst AM ++ [R]) u.
Proof.
  intros (H1 & H2 & H3) Hu. unfold full. rewrite !good_app. cbn [good forallb]. pose proof (Hfresh u Hu) as Hf. f_equal.
  - clear H3. induction AM as [|p AM IH]; [reflexivity|]. cbn. unfold lift at 1. rewrite tail_lift; auto.
    + unfold good in IH. rewrite IH; [reflexivity| |]; intros; [eapply H1|apply H2]; eauto; now right.
    + intros x Hx. eapply H1; eauto. now left.
    + intros Hi. apply Hf. right. eapply ss_in; [apply (H2 p); now left|exact Hi].
  - rewrite tail_lift; auto.
    + assert (in_tail (f u) (c :: D) = false) as ->; [cbn; apply mem_out; intros H; apply Hf; now right|]. reflexivity.
    + intros x Hx. destruct (H3 x Hx) as (p & Hp & Hxp). eauto.
    + intros [E|[]]. apply Hf. now left.
Qed.
Lemma D_not_good AM R y : In y D -> good (full AM R) y = false.
Proof. intros Hy. unfold full. rewrite good_app. cbn. assert (mem y D = true) as -> by now apply mem_in. cbn. apply andb_false_r. Qed.
Lemma scan AM R x : okAM AM R -> forall todo, incl todo AM -> first_good (map fst AM ++ [R]) (map fst todo) = Some x -> first_good (full AM R) (map lift todo) = Some (f x).
Proof.
  intros Hok. induction todo as [|p todo IH]; intros Hi; [discriminate|]. assert (Hp : In p AM) by (apply Hi; now left). assert (Hi' : incl todo AM) by (intros y Hy; apply Hi; now right). cbn [map first_good].
  destruct p as [[|h a] m]; cbn [fst lift snd map app].
  - intros H. specialize (IH Hi' H). unfold lift at 1. cbn [fst snd map app]. destruct m as [|y m]; [exact IH|]. rewrite D_not_good; [exact IH|]. destruct Hok as (_ & H2 & _). eapply ss_in; [apply (H2 _ Hp)|now left].
  - unfold lift at 1. cbn [fst snd map app]. assert (Hh : U h) by (destruct Hok as (H1 & _); apply (H1 _ h Hp); now left). rewrite good_full by assumption. destruct (good (map fst AM ++ [R]) h); [intros [= ->]; reflexivity|]. auto.
Qed.
Lemma merge_lift A : forall fuel fuel' AM R, okAM AM R -> merge fuel (map fst AM ++ [R]) = Some A -> List.length A + S (List.length D) <= fuel' -> merge fuel' (full AM R) = Some (map f A ++ c :: D).
Proof.
  induction A as [|x A IH]; intros fuel fuel' AM R Hok Hm Hf.
  - assert (Hn : forallb is_nil (map fst AM ++ [R]) = true). { destruct fuel; cbn [merge] in Hm; destruct (forallb is_nil (map fst AM ++ [R])); try reflexivity; [discriminate|]. destruct (first_good _ _); [|discriminate]. destruct (merge fuel _); discriminate. }
    rewrite forallb_forall in Hn. cbn [map app]. apply merge_absorb; [exact HD|cbn in Hf |- *; lia| |unfold full; apply in_or_app; right; now left].
    intros l Hl. unfold full in Hl. apply in_app_or in Hl as [Hl|[<-|[<-|[]]]].
    + apply in_map_iff in Hl as (p & <- & Hp). unfold lift. assert (E : fst p = []). { specialize (Hn (fst p) (in_or_app _ _ _ (or_introl (in_map fst _ _ Hp)))). destruct (fst p); [reflexivity|discriminate]. }
      rewrite E. cbn. apply ss_skip. destruct Hok as (_ & H2 & _). auto.
    + apply ss_refl.
    + assert (E : R = []). { assert (HR : In R (map fst AM ++ [R])) by (apply in_or_app; right; now left). specialize (Hn R HR). destruct R; [reflexivity|discriminate]. } rewrite E. cbn. apply ss_take. constructor.
  - destruct fuel as [|fuel]; cbn [merge] in Hm; (destruct (forallb is_nil (map fst AM ++ [R])) eqn:En; [discriminate|]); [discriminate|].
    destruct (first_good (map fst AM ++ [R]) (map fst AM ++ [R])) as [y|] eqn:Ey; [|discriminate]. destruct (merge fuel (map (drop_head y) (map fst AM ++ [R]))) as [r|] eqn:Er; [|discriminate]. injection Hm as -> ->.
    pose proof (first_good_some _ _ _ Ey) as [Hg _]. pose proof (proj1 (good_spec _ _) Hg) as Hgs. pose proof Hok as (H1 & H2 & H3).
    assert (Hfg : first_good (map fst AM ++ [R]) (map fst AM) = Some x).
    { rewrite first_good_app in Ey. destruct (first_good (map fst AM ++ [R]) (map fst AM)) as [z|] eqn:Ez; [exact Ey|]. exfalso.
      destruct R as [|z R]; [discriminate|]. cbn [first_good] in Ey. destruct (good (map fst AM ++ [z :: R]) z) eqn:Egz; [|discriminate]. injection Ey as ->. destruct (H3 x (or_introl eq_refl)) as (p & Hp & Hxp).
      destruct (fst p) as [|h t] eqn:Ep; [destruct Hxp|]. assert (Hit : in_tail x (h :: t) = false) by (apply Hgs, in_or_app; left; rewrite <- Ep; now apply in_map). cbn in Hit. apply mem_out in Hit. destruct Hxp as [->|Hxp]; [|contradiction].
      assert (Hb : good (map fst AM ++ [x :: R]) x = false) by (eapply first_good_none; [exact Ez|rewrite <- Ep; now apply in_map]). congruence. }
    assert (HUx : U x). { apply first_good_some in Hfg as (_ & t & Ht). apply in_map_iff in Ht as (p & Ep & Hp). apply (H1 p x Hp). rewrite Ep. now left. }
    assert (HRU : forall z, In z R -> U z) by (intros z Hz; destruct (H3 z Hz) as (p & Hp & Hzp); eauto).
    pose proof (scan AM R x Hok AM (incl_refl _) Hfg) as Hscan. pose proof (Hfresh x HUx) as Hfx.
    set (AM' := map (fun p => (drop_head x (fst p), snd p)) AM). set (R' := drop_head x R).
    assert (Hdrop : map (drop_head (f x)) (full AM R) = full AM' R').
    { unfold full. rewrite map_app. f_equal.
      - unfold AM'. rewrite !map_map. apply map_ext_in. intros p Hp. unfold lift. cbn [fst snd]. apply drop_lift; [exact HUx|intros z Hz; eauto|]. intros Hi. apply Hfx. right. eapply ss_in; [apply (H2 p Hp)|exact Hi].
      - cbn [map]. f_equal; [|f_equal]; [|apply drop_lift; auto; intros [E|[]]; apply Hfx; now left]. cbn. destruct (Nat.eqb_spec c (f x)) as [E|_]; [exfalso; apply Hfx; now left|reflexivity]. }
    assert (Hdrop2 : map (drop_head x) (map fst AM ++ [R]) = map fst AM' ++ [R']) by (rewrite map_app; unfold AM'; rewrite !map_map; reflexivity).
    assert (Hnot : forall l, In l (map fst AM ++ [R]) -> ~ In x (drop_head x l)).
    { intros l Hl. specialize (Hgs l Hl). destruct l as [|h t]; cbn; [tauto|]. cbn in Hgs. apply mem_out in Hgs. destruct (Nat.eqb_spec h x) as [->|Hn]; [exact Hgs|]. intros [E|E]; [congruence|contradiction]. }
    assert (Hok' : okAM AM' R').
    { split; [|split].
      - intros p z Hp Hz. apply in_map_iff in Hp as (p0 & <- & Hp). cbn in Hz. apply (H1 p0 z Hp). eapply ss_in; [apply drop_ss|exact Hz].
      - intros p Hp. apply in_map_iff in Hp as (p0 & <- & Hp). cbn. auto.
      - intros z Hz. unfold R' in Hz. assert (Hzx : z <> x) by (intros ->; revert Hz; apply Hnot, in_or_app; right; now left). assert (HzR : In z R) by (eapply ss_in; [apply drop_ss|exact Hz]). destruct (H3 z HzR) as (p & Hp & Hzp).
        exists (drop_head x (fst p), snd p). split; [apply in_map_iff; exists p; auto|]. cbn. destruct (drop_or x (fst p) z Hzp) as [E|H]; [contradiction|exact H]. }
    rewrite Hdrop2 in Er. destruct fuel' as [|fuel']; [cbn in Hf; lia|]. cbn [merge].
    assert (Hne : forallb is_nil (full AM R) = false). { apply not_true_is_false. intros H. rewrite forallb_forall in H. specialize (H (c :: D)). cbn in H. discriminate H. unfold full. apply in_or_app. right. now left. }
    rewrite Hne. unfold full at 2. rewrite first_good_app, Hscan, Hdrop, (IH fuel fuel' AM' R' Hok' Er) by (cbn in Hf; lia). reflexivity.
Qed.
End Lift.

Section Clone.
Variables P V : Type.
Notation world := (world P V).
Lemma ss_app_split {A} (l a b : list A) : subseq l (a ++ b) -> exists l1 l2, l = l1 ++ l2 /\ subseq l1 a /\ subseq l2 b.
Proof.
  revert l. induction a as [|x a IH]; intros l H.
  - exists [], l. repeat split; [constructor|exact H].
  - cbn in H. inversion H; subst.
    + exists [], []. repeat split; constructor.
    + destruct (IH _ H2) as (l1 & l2 & -> & H3 & H4). exists (x :: l1), l2. repeat split; [now constructor|exact H4].
    + destruct (IH _ H2) as (l1 & l2 & -> & H3 & H4). exists l1, l2. repeat split; [now constructor|exact H4].
Qed.
Lemma fronted_ss q l L : subseq l L -> fronted q L -> fronted q l.
Proof.
  intros Hs (a & b & -> & H1 & H2). destruct (ss_app_split _ _ _ Hs) as (l1 & l2 & -> & S1 & S2). exists l1, l2. split; [reflexivity|].
  split; apply forallb_forall; intros x Hx; [rewrite forallb_forall in H1; apply H1|rewrite forallb_forall in H2; apply H2]; eapply ss_in; eauto.
Qed.
Lemma fronted_head_out q x l : fronted q (x :: l) -> q x = false -> filter q (x :: l) = [].
Proof. intros (a & b & E & H1 & H2) Hx. destruct a as [|y a]; cbn in E; [rewrite E; now apply filter_none|]. injection E as <- ->. cbn in H1. rewrite Hx in H1. discriminate. Qed.

(** the package's classes come before the others in the order of [c]; no base of [c] is an ancestor of another one *)
Definition pkg_first (w : world) (keys : list nat) (c : nat) : Prop := fronted (fun x => mem x keys) (mro w c).
Definition independent_bases (w : world) (c : nat) : Prop := forall b b', In b (bases w c) -> In b' (bases w c) -> In b (mro w b') -> b = b'.

Variable w : world.
Hypothesis Hw : wf P V w.
Variables (keys : list nat) (c : nat).
Hypothesis Hc : c < List.length w.
Hypothesis Hck : In c keys.
Hypothesis Hfirst : pkg_first w keys c.
Hypothesis Hind : independent_bases w c.
Notation pk := (fun x => mem x keys).

Lemma mro_facts : exists m, mro w c = c :: m /\ NoDup (c :: m) /\ fronted pk m /\ (forall a, In a m <-> exists b, In b (bases w c) /\ In a (mro w b)) /\ subseq (bases w c) m /\
  (forall a, In a m -> subseq (mro w a) m) /\ c3 (map (mro w) (bases w c) ++ [bases w c]) = Some m /\ (forall a, In a m -> a < c).
Proof.
  destruct (wf_mro P V w Hw c Hc) as (m & E & Hn & Hlt & Hs & Hm & Hb). exists m. split; [exact E|]. split; [exact Hn|].
  split. { eapply fronted_ss; [|exact Hfirst]. rewrite E. apply ss_skip, ss_refl. }
  split; [exact Hm|]. split; [exact Hb|]. split; [|split; [|exact Hlt]].
  - intros a Ha. pose proof (Hs a (or_intror Ha)) as H. pose proof (Hlt a Ha). inversion H as [l El|x l1 l2 H1 E1 E2|x l1 l2 H1 E1 E2].
    + constructor.
    + exfalso. assert (Hin : In c (mro w a)) by (rewrite <- E1; now left). pose proof (mro_lt P V w Hw a c ltac:(lia) Hin). lia.
    + assumption.
  - destruct (Hw c Hc) as (m' & E1 & _ & _ & E2). rewrite E in E1. injection E1 as <-. exact E2.
Qed.
(** a base outside of the package has no ancestors in it *)
Lemma out_base b : In b (bases w c) -> ~ In b keys -> filter pk (mro w b) = [].
Proof.
  intros Hb Hn. destruct mro_facts as (m & E & _ & Hf & Hm & Hbs & Hs & _ & Hlt). assert (Hbm : In b m) by (eapply ss_in; eauto). pose proof (Hlt b Hbm).
  destruct (wf_mro P V w Hw b ltac:(lia)) as (mb & Eb & _). rewrite Eb. apply fronted_head_out; [|now apply mem_out]. rewrite <- Eb. eapply fronted_ss; [apply Hs, Hbm|exact Hf].
Qed.
Lemma parents_are_bases : parents P V w keys c = filter pk (bases w c).
Proof.
  destruct mro_facts as (m & E & Hn & Hf & Hm & Hbs & Hs & _ & Hlt). apply (ss_ext _ _ (c :: m)); [exact Hn| | |].
  - unfold parents, candidates. rewrite E. eapply ss_trans; [apply ss_filter|apply ss_filter].
  - eapply ss_trans; [|apply ss_filter]. apply ss_skip, Hbs.
  - intros x. rewrite parents_spec, filter_In, mem_in. split.
    + intros [H1 H2]. apply cand_spec in H1 as (H1 & H3 & H4). rewrite E in H1. destruct H1 as [H1|H1]; [congruence|]. destruct (proj1 (Hm x) H1) as (b & Hb & Hx).
      assert (Hbm : In b m) by (eapply ss_in; eauto). pose proof (Hlt b Hbm). destruct (in_dec Nat.eq_dec b keys) as [Hbk|Hbk].
      * rewrite (H2 b); [split; assumption| |exact Hx]. apply cand_spec. rewrite E. repeat split; [now right|exact Hbk|lia].
      * exfalso. pose proof (out_base b Hb Hbk) as Ho. assert (Hi : In x (filter pk (mro w b))) by (apply filter_In; split; [exact Hx|now apply mem_in]). rewrite Ho in Hi. destruct Hi.
    + intros [Hb Hk]. assert (Hbm : In x m) by (eapply ss_in; eauto). pose proof (Hlt x Hbm). split; [apply cand_spec; rewrite E; repeat split; [now right|exact Hk|lia]|].
      intros i Hi Hx. apply cand_spec in Hi as (Hi & _ & Hic). rewrite E in Hi. destruct Hi as [Hi|Hi]; [congruence|]. destruct (proj1 (Hm i) Hi) as (b' & Hb' & Hib). assert (Hbm' : In b' m) by (eapply ss_in; eauto). pose proof (Hlt b' Hbm').
      assert (x = b') by (apply Hind; auto; eapply mro_trans; eauto; lia). subst b'. pose proof (mro_lt P V w Hw x i ltac:(lia) Hib). pose proof (mro_lt P V w Hw i x ltac:(lia) Hx). lia.
Qed.
Lemma ne_filter_lists (g : nat -> list nat) (q : nat -> bool) l : (forall x, In x l -> q x = false -> g x = []) -> filter ne (map g l) = filter ne (map g (filter q l)).
Proof.
  induction l as [|x l IH]; intros H; [reflexivity|]. cbn [map filter]. rewrite IH by (intros y Hy; apply H; now right). destruct (q x) eqn:E; [reflexivity|]. rewrite (H x (or_introl eq_refl) E). reflexivity.
Qed.
Lemma merge_parents : exists m fuel, mro w c = c :: m /\ merge fuel (map (fun p => filter pk (mro w p)) (parents P V w keys c) ++ [parents P V w keys c]) = Some (filter pk m).
Proof.
  destruct mro_facts as (m & E & Hn & Hf & Hm & Hbs & Hs & Hc3 & Hlt). exists m, (total (map (mro w) (bases w c) ++ [bases w c])). split; [exact E|].
  pose proof Hf as (X & Y & EXY & H1 & H2). assert (EX : filter pk m = X) by (rewrite EXY; now apply fronted_filter). rewrite EX.
  assert (Hsub : forall l, In l (map (mro w) (bases w c) ++ [bases w c]) -> subseq l m).
  { intros l Hl. apply in_app_or in Hl as [Hl|[<-|[]]]; [|exact Hbs]. apply in_map_iff in Hl as (b & <- & Hb). apply Hs. eapply ss_in; eauto. }
  assert (Hm1 : merge (total (map (mro w) (bases w c) ++ [bases w c])) (map (filter pk) (map (mro w) (bases w c) ++ [bases w c])) = Some X).
  { apply merge_front with (Y := Y); auto.
    - intros l Hl. eapply fronted_ss; [apply Hsub, Hl|exact Hf].
    - rewrite <- EXY. exact Hsub.
    - rewrite <- EXY. now apply NoDup_cons_iff in Hn.
    - unfold c3 in Hc3. now rewrite <- EXY. }
  rewrite <- Hm1. apply merge_congr. rewrite map_app, map_map. cbn [map]. rewrite !filter_app. f_equal; [|now rewrite parents_are_bases].
  rewrite parents_are_bases. symmetry. apply (ne_filter_lists (fun b => filter pk (mro w b))). intros b Hb Hq. apply out_base; [exact Hb|now apply mem_out].
Qed.

Variable f : nat -> nat.
Variable w1 : world.
Hypothesis Hinj : forall x y, In x keys -> In y keys -> In x (mro w c) -> In y (mro w c) -> f x = f y -> x = y.
Hypothesis Hnew : forall x, In x keys -> In x (mro w c) -> x <> c -> List.length w <= f x.
Hypothesis Hold : forall x, x < List.length w -> mro w1 x = mro w x.
Hypothesis Hcl : forall p, In p keys -> In p (mro w c) -> p <> c -> mro w1 (f p) = map f (filter pk (mro w p)) ++ mro w p.
(** the linearisation of the clone of [c] *)
Lemma clone_c3 : let inherits := map f (parents P V w keys c) ++ [c] in
  NoDup inherits /\ exists m, mro w c = c :: m /\ c3 (map (mro w1) inherits ++ [inherits]) = Some (map f (filter pk m) ++ c :: m).
Proof.
  intros inherits. destruct mro_facts as (m & E & Hn & Hf & Hm & Hbs & Hs & Hc3 & Hlt).
  assert (Hpar : forall p, In p (parents P V w keys c) -> In p m /\ In p keys /\ p <> c).
  { intros p Hp. destruct (parent_lt P V w Hw keys c p Hc Hp) as (L1 & L2 & L3). rewrite E in L3. destruct L3 as [L3|L3]; [lia|]. repeat split; auto. lia. }
  assert (HU : forall x, In x m -> In x keys -> In x (mro w c)) by (intros x Hx _; rewrite E; now right).
  split.
  - unfold inherits. apply NoDup_app_disj; [|constructor; [intros []|constructor]|].
    + assert (Hnp : NoDup (parents P V w keys c)) by (unfold parents, candidates; eapply ss_nodup; [eapply ss_trans; [apply ss_filter|apply ss_filter]|rewrite E; exact Hn]).
      revert Hpar Hnp. generalize (parents P V w keys c). induction l as [|x l IH]; intros Hp Hnl; cbn; [constructor|]. apply NoDup_cons_iff in Hnl as [N1 N2]. constructor; [|apply IH; auto; intros y Hy; apply Hp; now right].
      intros Hi. apply in_map_iff in Hi as (y & Ey & Hy). destruct (Hp x (or_introl eq_refl)) as (A1 & A2 & A3), (Hp y (or_intror Hy)) as (B1 & B2 & B3). apply N1. assert (Exy : x = y) by (apply Hinj; auto). now rewrite Exy.
    + intros x Hx [<-|[]]. apply in_map_iff in Hx as (p & Ep & Hp). destruct (Hpar p Hp) as (A1 & A2 & A3). pose proof (Hnew p A2 (HU p A1 A2) A3). lia.
  - exists m. split; [exact E|]. destruct merge_parents as (m' & fuel & E' & Hmp). rewrite E in E'. injection E' as <-.
    set (AM := map (fun p => (filter pk (mro w p), mro w p)) (parents P V w keys c)).
    assert (Hls : map (mro w1) inherits ++ [inherits] = full f c m AM (parents P V w keys c)).
    { unfold full, inherits. rewrite map_app. cbn [map]. rewrite (Hold c Hc), E, <- app_assoc. cbn [app]. f_equal. unfold AM. rewrite !map_map. apply map_ext_in. intros p Hp. unfold lift. cbn [fst snd]. destruct (Hpar p Hp) as (A1 & A2 & A3). apply Hcl; auto. }
    assert (Hfst : map fst AM = map (fun p => filter pk (mro w p)) (parents P V w keys c)) by (unfold AM; rewrite map_map; reflexivity).
    set (U := fun x => In x m /\ In x keys).
    assert (Hok : okAM U m AM (parents P V w keys c)).
    { split; [|split].
      - intros p x Hp Hx. unfold AM in Hp. apply in_map_iff in Hp as (a & <- & Ha). cbn in Hx. apply filter_In in Hx as [Hx Hk]. destruct (Hpar a Ha) as (A1 & A2 & A3). split; [eapply ss_in; [apply Hs, A1|exact Hx]|now apply mem_in].
      - intros p Hp. unfold AM in Hp. apply in_map_iff in Hp as (a & <- & Ha). cbn. apply Hs. now apply Hpar.
      - intros x Hx. exists (filter pk (mro w x), mro w x). split; [unfold AM; apply in_map_iff; exists x; auto|]. cbn. destruct (Hpar x Hx) as (A1 & A2 & A3). apply filter_In. split; [apply mro_self; auto; pose proof (Hlt x A1); lia|now apply mem_in]. }
    rewrite Hls. unfold c3. apply (merge_lift f U c m) with (fuel := fuel).
    + intros x y [X1 X2] [Y1 Y2]. apply Hinj; auto.
    + intros x [X1 X2] Hi. assert (Hxc : x <> c) by (intros ->; apply NoDup_cons_iff in Hn; tauto). pose proof (Hnew x X2 (HU x X1 X2) Hxc) as L. destruct Hi as [Hi|Hi]; [lia|]. pose proof (Hlt _ Hi). lia.
    + exact Hn.
    + exact Hok.
    + now rewrite Hfst.
    + unfold total, full. rewrite concat_app, app_length. cbn [List.concat]. rewrite !app_length. cbn [List.length].
      assert (Hlen : List.length (filter pk m) <= List.length (List.concat (map (lift f) AM))).
      { rewrite <- (map_length f). apply NoDup_incl_length.
        - assert (Hnf : NoDup (filter pk m)) by (apply NoDup_filter; now apply NoDup_cons_iff in Hn). assert (HF : forall x, In x (filter pk m) -> In x m /\ In x keys) by (intros x Hx; apply filter_In in Hx as [X1 X2]; apply mem_in in X2; auto).
          revert Hnf HF. generalize (filter pk m). induction l as [|x l IH]; intros N F; cbn; [constructor|]. apply NoDup_cons_iff in N as [N1 N2]. constructor; [|apply IH; auto; intros y Hy; apply F; now right].
          intros Hi. apply in_map_iff in Hi as (y & Ey & Hy). destruct (F x (or_introl eq_refl)) as [A1 A2], (F y (or_intror Hy)) as [B1 B2]. apply N1. assert (Exy : x = y) by (apply Hinj; auto). now rewrite Exy.
        - intros y Hy. apply in_map_iff in Hy as (x & <- & Hx). apply filter_In in Hx as [X1 X2]. apply mem_in in X2. apply in_concat.
          assert (Hca : In x (candidates P V w keys c)) by (apply cand_spec; repeat split; auto; intros ->; apply NoDup_cons_iff in Hn; tauto).
          destruct (parents_cover P V w Hw keys c x Hc Hca) as (p & Hp & Hxp). exists (lift f (filter pk (mro w p), mro w p)). split; [apply in_map; unfold AM; apply in_map_iff; exists p; auto|]. unfold lift. cbn. apply in_or_app. left. apply in_map, filter_In. split; [exact Hxp|now apply mem_in]. }
      lia.
Qed.
End Clone.
