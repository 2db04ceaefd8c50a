(** C3 linearisation and well-formed class worlds *)
From Coq Require Import String.
From Verif Require Import Base BaseFacts Dict DictFacts PyClass.
Open Scope list_scope.

Lemma mem_in x l : mem x l = true <-> In x l.
Proof. unfold mem. rewrite existsb_exists. split; [intros (y & Hy & E); apply Nat.eqb_eq in E; now subst|intros H; exists x; split; [exact H|apply Nat.eqb_refl]]. Qed.
Lemma mem_out x l : mem x l = false <-> ~ In x l.
Proof. rewrite <- mem_in. destruct (mem x l); split; congruence. Qed.
Lemma has_dup_nodup l : has_dup l = false <-> NoDup l.
Proof.
  induction l as [|x l IH]; cbn; [split; [constructor|auto]|]. rewrite orb_false_iff, mem_out, IH, NoDup_cons_iff. tauto.
Qed.
(** ** subsequences *)
Inductive subseq {A} : list A -> list A -> Prop :=
| ss_nil l : subseq [] l
| ss_take x a b : subseq a b -> subseq (x :: a) (x :: b)
| ss_skip x a b : subseq a b -> subseq a (x :: b).
Lemma ss_refl {A} (l : list A) : subseq l l. Proof. induction l; constructor; auto. Qed.
Lemma ss_in {A} (a b : list A) : subseq a b -> forall x, In x a -> In x b.
Proof. induction 1; cbn; [intros ? []|intros y [->|H0]; auto|auto]. Qed.
Lemma ss_trans {A} (b c : list A) : subseq b c -> forall a, subseq a b -> subseq a c.
Proof.
  induction 1 as [l|x b c H IH|x b c H IH]; intros a Ha.
  - inversion Ha; constructor.
  - inversion Ha as [l|y a' b' H'|y a' b' H']; subst; [constructor|constructor; auto|apply ss_skip; auto].
  - apply ss_skip; auto.
Qed.
Lemma ss_tail {A} x (a b : list A) : subseq (x :: a) b -> subseq a b.
Proof. intros H. eapply ss_trans; [exact H|]. apply ss_skip, ss_refl. Qed.
Lemma ss_nodup {A} (a b : list A) : subseq a b -> NoDup b -> NoDup a.
Proof.
  induction 1 as [l|x a b H IH|x a b H IH]; intros Hb; [constructor| |]; apply NoDup_cons_iff in Hb as [H1 H2]; auto.
  constructor; auto. intros Hx. apply H1. eapply ss_in; eauto.
Qed.
Lemma ss_filter {A} (f : A -> bool) l : subseq (filter f l) l.
Proof. induction l as [|x l IH]; cbn; [constructor|]. destruct (f x); constructor; auto. Qed.
Lemma ss_map_filter {A} (f : A -> bool) a b : subseq a b -> subseq (filter f a) (filter f b).
Proof. induction 1 as [l|x a b H IH|x a b H IH]; cbn; [constructor| |]; destruct (f x); try constructor; auto. Qed.
Lemma ss_len {A} (a b : list A) : subseq a b -> List.length a <= List.length b.
Proof. induction 1; cbn; lia. Qed.
(** two subsequences of a duplicate-free list with the same elements are equal *)
Lemma ss_ext {A} (a b l : list A) : NoDup l -> subseq a l -> subseq b l -> (forall x, In x a <-> In x b) -> a = b.
Proof.
  intros Hl Ha. revert b. induction Ha as [l|x a l Ha IH|x a l Ha IH]; intros b Hb He.
  - destruct b as [|y b]; [reflexivity|]. destruct (proj2 (He y)); now left.
  - apply NoDup_cons_iff in Hl as [Hx Hl]. inversion Hb as [l'|y b' l' Hb'|y b' l' Hb']; subst.
    + destruct (proj1 (He x)); now left.
    + f_equal. apply IH; auto. intros y. split; intros Hy.
      * destruct (proj1 (He y) (or_intror Hy)) as [E|H]; [|exact H]. subst y. elim Hx. revert Hy. eapply ss_in; assumption.
      * destruct (proj2 (He y) (or_intror Hy)) as [E|H]; [|exact H]. subst y. elim Hx. revert Hy. eapply ss_in; assumption.
    + elim Hx. eapply ss_in; [exact Hb'|]. apply He. now left.
  - apply NoDup_cons_iff in Hl as [Hx Hl]. inversion Hb as [l'|y b' l' Hb'|y b' l' Hb']; subst.
    + destruct a as [|y a]; [reflexivity|]. destruct (proj1 (He y)); now left.
    + elim Hx. eapply ss_in; [exact Ha|]. apply He. now left.
    + auto.
Qed.

(** ** one round of the merge *)
Lemma in_tail_in x l : in_tail x l = true -> In x l.
Proof. destruct l as [|y l]; cbn; [discriminate|]. rewrite mem_in. auto. Qed.
Lemma good_spec ls x : good ls x = true <-> forall l, In l ls -> in_tail x l = false.
Proof. unfold good. rewrite forallb_forall. split; intros H l Hl; specialize (H l Hl); [now apply negb_true_iff in H|now rewrite H]. Qed.
Lemma first_good_some all ls x : first_good all ls = Some x -> good all x = true /\ exists t, In (x :: t) ls.
Proof.
  induction ls as [|[|h t] r IH]; cbn; [discriminate| |].
  - intros H. destruct (IH H) as [H1 [t Ht]]. eauto.
  - destruct (good all h) eqn:E; [intros [= <-]; eauto|]. intros H. destruct (IH H) as [H1 [t' Ht]]. eauto.
Qed.
Lemma first_good_none all ls : first_good all ls = None -> forall x t, In (x :: t) ls -> good all x = false.
Proof.
  induction ls as [|[|h t] r IH]; cbn; [intros _ x t []| |].
  - intros H x t [E|Hin]; [discriminate|eauto].
  - destruct (good all h) eqn:E; [discriminate|]. intros H x t' [E'|Hin]; [now injection E' as -> ->|eauto].
Qed.
Lemma drop_out x l : NoDup l -> in_tail x l = false -> ~ In x (drop_head x l).
Proof.
  destruct l as [|h t]; cbn; [auto|]. intros Hn Hx. apply mem_out in Hx. destruct (Nat.eqb_spec h x) as [->|Hne]; [exact Hx|]. intros [->|H]; [now apply Hne|auto].
Qed.
Lemma drop_ss x l : subseq (drop_head x l) l.
Proof. destruct l as [|h t]; cbn; [constructor|]. destruct (Nat.eqb h x); [apply ss_skip|]; apply ss_refl. Qed.
Lemma drop_or x l y : In y l -> y = x \/ In y (drop_head x l).
Proof. destruct l as [|h t]; cbn; [auto|]. destruct (Nat.eqb_spec h x) as [->|Hne]; cbn; intros [->|H]; auto. Qed.
Lemma drop_cons x l r : ~ In x (drop_head x l) -> subseq (drop_head x l) r -> subseq l (x :: r).
Proof.
  destruct l as [|h t]; cbn; [intros; constructor|]. destruct (Nat.eqb_spec h x) as [->|Hne]; intros Hn Hs; [now apply ss_take|now apply ss_skip].
Qed.

Lemma merge_sound fuel : forall ls r, merge fuel ls = Some r -> (forall l, In l ls -> NoDup l) ->
  NoDup r /\ (forall l, In l ls -> subseq l r) /\ (forall x, In x r -> exists l, In l ls /\ In x l).
Proof.
  induction fuel as [|fuel IH]; intros ls r; cbn [merge]; destruct (forallb is_nil ls) eqn:En.
  1,3: intros [= <-] _; split; [constructor|]; split; [|intros x []]; intros l Hl; rewrite forallb_forall in En; specialize (En l Hl); destruct l; [constructor|discriminate].
  - discriminate.
  - destruct (first_good ls ls) as [x|] eqn:Ef; [|discriminate]. destruct (merge fuel (map (drop_head x) ls)) as [r'|] eqn:Em; [|discriminate]. intros [= <-] Hn.
    apply first_good_some in Ef as [Hg [t Ht]]. rewrite good_spec in Hg.
    destruct (IH _ _ Em) as (H1 & H2 & H3).
    { intros l Hl. apply in_map_iff in Hl as (l0 & <- & Hl0). eapply ss_nodup; [apply drop_ss|auto]. }
    assert (Hout : ~ In x r'). { intros Hx. destruct (H3 x Hx) as (l & Hl & Hxl). apply in_map_iff in Hl as (l0 & <- & Hl0). revert Hxl. apply drop_out; auto. }
    split; [constructor; auto|]. split.
    + intros l Hl. apply drop_cons; [apply drop_out; auto|]. apply H2. now apply in_map.
    + intros y [->|Hy]; [exists (y :: t); split; [exact Ht|now left]|]. destruct (H3 y Hy) as (l & Hl & Hyl). apply in_map_iff in Hl as (l0 & <- & Hl0). exists l0. split; [exact Hl0|]. eapply ss_in; [apply drop_ss|exact Hyl].
Qed.
(** if all lists are subsequences of [L] and one of them is [L], the result is [L] *)
Lemma merge_absorb L : NoDup L -> forall fuel ls, List.length L <= fuel -> (forall l, In l ls -> subseq l L) -> In L ls -> merge fuel ls = Some L.
Proof.
  induction L as [|x L IH]; intros Hn fuel ls Hf Hs Hin.
  - assert (E : forallb is_nil ls = true) by (apply forallb_forall; intros l Hl; specialize (Hs l Hl); inversion Hs; reflexivity). destruct fuel; cbn; now rewrite E.
  - destruct fuel as [|fuel]; cbn in Hf; [lia|]. cbn [merge].
    assert (E : forallb is_nil ls = false). { destruct (forallb is_nil ls) eqn:E; [|reflexivity]. rewrite forallb_forall in E. specialize (E _ Hin). discriminate. }
    rewrite E. apply NoDup_cons_iff in Hn as [Hx Hn].
    assert (Hgx : good ls x = true).
    { apply good_spec. intros l Hl. destruct (in_tail x l) eqn:Et; [exfalso|reflexivity]. specialize (Hs l Hl). destruct l as [|h t]; [discriminate|]. cbn in Et. apply mem_in in Et.
      inversion Hs as [l'|y a b Hab|y a b Hab]; subst; [elim Hx; eapply ss_in; eauto|elim Hx; eapply ss_in; [exact Hab|now right]]. }
    assert (Hbad : forall h t, In (h :: t) ls -> h <> x -> good ls h = false).
    { intros h t Hl Hne. destruct (good ls h) eqn:Eg; [exfalso|reflexivity]. rewrite good_spec in Eg. specialize (Eg _ Hin). cbn in Eg. apply mem_out in Eg. apply Eg.
      destruct (ss_in _ _ (Hs _ Hl) h (or_introl eq_refl)) as [->|H]; [now elim Hne|exact H]. }
    assert (Ef : forall todo, incl todo ls -> (exists l, In l todo /\ In x l) -> first_good ls todo = Some x).
    { induction todo as [|[|h t] r IHt]; cbn [first_good]; intros Hi (l & Hl & Hxl); [destruct Hl| |].
      - apply IHt; [intros y Hy; apply Hi; now right|]. destruct Hl as [<-|Hl]; [destruct Hxl|eauto].
      - destruct (Nat.eq_dec h x) as [->|Hne]; [now rewrite Hgx|]. rewrite (Hbad h t); [|apply Hi; now left|exact Hne]. apply IHt; [intros y Hy; apply Hi; now right|].
        destruct Hl as [<-|Hl]; [|eauto]. destruct Hxl as [E'|Hxl]; [now elim Hne|]. exfalso. rewrite good_spec in Hgx. specialize (Hgx (h :: t) (Hi _ (or_introl eq_refl))). cbn in Hgx. apply mem_out in Hgx. contradiction. }
    rewrite (Ef ls (fun y H => H)); [|exists (x :: L); split; [exact Hin|now left]].
    rewrite (IH Hn); [reflexivity|lia| |].
    + intros l Hl. apply in_map_iff in Hl as (l0 & <- & Hl0). specialize (Hs _ Hl0). destruct l0 as [|h t]; cbn; [constructor|]. destruct (Nat.eqb_spec h x) as [->|Hne].
      * inversion Hs; subst; [assumption|]. apply ss_tail in H1. exact H1.
      * inversion Hs; subst; [now elim Hne|assumption].
    + apply in_map_iff. exists (x :: L). split; [cbn; now rewrite Nat.eqb_refl|exact Hin].
Qed.
Lemma merge_fuel fuel : forall ls r, merge fuel ls = Some r -> forall fuel', fuel <= fuel' -> merge fuel' ls = Some r.
Proof.
  induction fuel as [|fuel IH]; intros ls r; cbn [merge]; intros H fuel' Hf.
  - destruct (forallb is_nil ls) eqn:E; [|discriminate]. destruct fuel'; cbn [merge]; now rewrite E.
  - destruct fuel' as [|fuel']; [lia|]. cbn [merge]. destruct (forallb is_nil ls); [exact H|]. destruct (first_good ls ls) as [x|]; [|discriminate].
    destruct (merge fuel (map (drop_head x) ls)) as [r'|] eqn:Em; [|discriminate]. rewrite (IH _ _ Em fuel') by lia. exact H.
Qed.

(** ** worlds *)
Section Worlds.
Variables P V : Type.
Notation world := (world P V).
(** the worlds Python can be in: [object], then [class] statements and assignments of class attributes *)
Inductive py_world : world -> Prop :=
| pw_object attrs : NoDup (d_keys attrs) -> py_world (object_world attrs)
| pw_class w name bs attrs w' c : py_world w -> bs <> [] -> NoDup (d_keys attrs) -> (forall b, In b bs -> b < List.length w) -> new_class w name bs attrs = Ok (w', c) -> py_world w'
| pw_set w c name v : py_world w -> py_world (set_attr w c name v).
Definition wf (w : world) : Prop := forall c, c < List.length w -> exists m, mro w c = c :: m /\ NoDup (bases w c) /\ (forall b, In b (bases w c) -> b < c) /\
  c3 (map (mro w) (bases w c) ++ [bases w c]) = Some m.

Lemma set_nth_length {A} n (x : A) l : List.length (set_nth n x l) = List.length l.
Proof. revert n. induction l as [|y l IH]; intros [|n]; cbn; auto. Qed.
Lemma set_nth_same {A} n (x d : A) l : n < List.length l -> nth n (set_nth n x l) d = x.
Proof. revert n. induction l as [|y l IH]; intros [|n]; cbn; intros H; try lia; [reflexivity|apply IH; lia]. Qed.
Lemma set_nth_other {A} n m (x d : A) l : m <> n -> nth m (set_nth n x l) d = nth m l d.
Proof. revert n m. induction l as [|y l IH]; intros [|n] [|m]; cbn; intros H; try lia; auto. Qed.
Lemma set_attr_length w c n v : List.length (set_attr (P := P) (V := V) w c n v) = List.length w.
Proof. apply set_nth_length. Qed.
Lemma set_attr_out (w : world) c n v : List.length w <= c -> set_attr w c n v = w.
Proof.
  intros H. unfold set_attr. set (k := mkCls _ _ _ _). clearbody k. revert c H. induction w as [|y w IH]; intros [|c] H; cbn in *; auto; try lia. f_equal. apply IH. lia.
Qed.
Lemma get_set_other (w : world) c n v d : d <> c -> get_cls (set_attr w c n v) d = get_cls w d.
Proof. intros H. unfold get_cls, set_attr. now apply set_nth_other. Qed.
Lemma get_set_same (w : world) c n v : c < List.length w -> get_cls (set_attr w c n v) c = mkCls (c_name (get_cls w c)) (c_bases (get_cls w c)) (c_mro (get_cls w c)) (d_set n v (c_attrs (get_cls w c))).
Proof. intros H. unfold get_cls at 1, set_attr. now apply set_nth_same. Qed.
Lemma set_attr_shape (w : world) c n v d : c_mro (get_cls (set_attr w c n v) d) = c_mro (get_cls w d) /\ c_bases (get_cls (set_attr w c n v) d) = c_bases (get_cls w d) /\ c_name (get_cls (set_attr w c n v) d) = c_name (get_cls w d).
Proof.
  destruct (Nat.eq_dec d c) as [->|Hne]; [|now rewrite get_set_other]. destruct (Nat.lt_ge_cases c (List.length w)) as [H|H]; [now rewrite get_set_same|]. now rewrite set_attr_out.
Qed.
Lemma mro_set (w : world) c n v d : mro (set_attr w c n v) d = mro w d. Proof. apply set_attr_shape. Qed.
Lemma bases_set (w : world) c n v d : bases (set_attr w c n v) d = bases w d. Proof. apply set_attr_shape. Qed.
(** a world with the same class structure *)
Definition same_shape (w w' : world) : Prop := List.length w' = List.length w /\ (forall c, mro w' c = mro w c) /\ (forall c, bases w' c = bases w c).
Lemma same_refl w : same_shape w w. Proof. repeat split. Qed.
Lemma same_trans w1 w2 w3 : same_shape w1 w2 -> same_shape w2 w3 -> same_shape w1 w3.
Proof. intros (A1 & A2 & A3) (B1 & B2 & B3). split; [congruence|]. split; intros c; [rewrite B2; apply A2|rewrite B3; apply A3]. Qed.
Lemma same_set w c n v : same_shape w (set_attr w c n v).
Proof. split; [apply set_attr_length|]. split; intros d; [apply mro_set|apply bases_set]. Qed.
Lemma map_ext_mro (w w' : world) l : (forall c, In c l -> mro w' c = mro w c) -> map (mro w') l = map (mro w) l.
Proof. intros H. apply map_ext_in. exact H. Qed.
Lemma wf_same w w' : same_shape w w' -> wf w -> wf w'.
Proof.
  intros (H1 & H2 & H3) Hw c Hc. rewrite H1 in Hc. destruct (Hw c Hc) as (m & E1 & E2 & E3 & E4). exists m. rewrite H2, H3. split; [exact E1|]. split; [exact E2|]. split; [exact E3|].
  now rewrite (map_ext_mro w w' _ (fun c _ => H2 c)).
Qed.
Lemma get_app (w l : world) c : c < List.length w -> get_cls (w ++ l) c = get_cls w c.
Proof. intros H. unfold get_cls. now apply app_nth1. Qed.
Lemma wf_new w name bs attrs w' c : wf w -> (forall b, In b bs -> b < List.length w) -> new_class w name bs attrs = Ok (w', c) -> wf w'.
Proof.
  unfold new_class. destruct (has_dup bs) eqn:Ed; [discriminate|]. destruct (c3 _) as [m|] eqn:Em; [|discriminate]. intros Hw Hb E. injection E as <- <-. apply has_dup_nodup in Ed.
  intros d Hd. rewrite app_length in Hd. cbn in Hd. destruct (Nat.eq_dec d (List.length w)) as [->|Hne].
  - exists m. unfold mro, bases at 1, bases at 1. unfold get_cls. rewrite app_nth2, Nat.sub_diag by lia. cbn [nth c_mro c_bases]. split; [reflexivity|]. split; [exact Ed|]. split; [exact Hb|].
    assert (Eb : bases (w ++ [mkCls name bs (List.length w :: m) attrs]) (List.length w) = bs) by (unfold bases, get_cls; rewrite app_nth2, Nat.sub_diag by lia; reflexivity).
    rewrite Eb. rewrite <- Em. f_equal. f_equal. apply map_ext_in. intros b Hbi. unfold mro. change (nth b (w ++ [mkCls name bs (List.length w :: m) attrs]) (mkCls [] [] [] [])) with (get_cls (w ++ [mkCls name bs (List.length w :: m) attrs]) b). now rewrite get_app by auto.
  - assert (Hd' : d < List.length w) by lia. destruct (Hw d Hd') as (m' & E1 & E2 & E3 & E4). exists m'. unfold mro at 1, bases. rewrite get_app by exact Hd'. split; [exact E1|]. split; [exact E2|]. split; [exact E3|].
    rewrite (map_ext_mro w (w ++ _)); [exact E4|]. intros b Hbi. unfold mro. rewrite get_app; [reflexivity|]. apply E3 in Hbi. lia.
Qed.
Lemma py_wf w : py_world w -> wf w.
Proof.
  induction 1 as [attrs Ha|w name bs attrs w' c H IH Hne Ha Hb E|w c n v H IH].
  - intros c Hc. cbn in Hc. assert (c = 0) by lia. subst c. exists []. cbn. repeat split; [constructor|intros b []].
  - eapply wf_new; eauto.
  - eapply wf_same; [apply same_set|exact IH].
Qed.
(** dicts have no key twice *)
Definition dicts (w : world) : Prop := forall c, NoDup (d_keys (c_attrs (get_cls w c))).
Lemma dicts_set w c n v : dicts w -> dicts (set_attr w c n v).
Proof.
  intros H d. destruct (Nat.eq_dec d c) as [->|Hn]; [|rewrite get_set_other by exact Hn; apply H].
  destruct (Nat.lt_ge_cases c (List.length w)) as [Hl|Hl]; [|rewrite set_attr_out by exact Hl; apply H]. rewrite get_set_same by exact Hl. cbn. apply d_set_nodup, H.
Qed.
Lemma get_out (w : world) c : List.length w <= c -> get_cls w c = mkCls [] [] [] [].
Proof. intros H. unfold get_cls. now apply nth_overflow. Qed.
Lemma dicts_app w k : dicts w -> NoDup (d_keys (c_attrs k)) -> dicts (w ++ [k]).
Proof.
  intros H Hk d. destruct (Nat.lt_trichotomy d (List.length w)) as [Hl|[->|Hl]].
  - rewrite get_app by exact Hl. apply H.
  - unfold get_cls. rewrite app_nth2, Nat.sub_diag by lia. exact Hk.
  - rewrite get_out by (rewrite app_length; cbn; lia). constructor.
Qed.
Lemma py_dicts w : py_world w -> dicts w.
Proof.
  induction 1 as [attrs Ha|w name bs attrs w' c H IH Hne Ha Hb E|w c n v H IH].
  - intros [|[|c]]; cbn; [exact Ha|constructor|constructor].
  - unfold new_class in E. destruct (has_dup bs); [discriminate|]. destruct (c3 _); [|discriminate]. injection E as <- <-. apply dicts_app; [exact IH|exact Ha].
  - now apply dicts_set.
Qed.
(** what a well-formed world guarantees about method resolution orders *)
Lemma wf_mro w : wf w -> forall c, c < List.length w -> exists m, mro w c = c :: m /\ NoDup (c :: m) /\ (forall a, In a m -> a < c) /\
  (forall a, In a (c :: m) -> subseq (mro w a) (c :: m)) /\ (forall a, In a m <-> exists b, In b (bases w c) /\ In a (mro w b)) /\ subseq (bases w c) m.
Proof.
  intros Hw c. induction c as [c IH] using lt_wf_ind. intros Hc. destruct (Hw c Hc) as (m & E & Hb & Hlt & Em). exists m. split; [exact E|].
  assert (Hbm : forall b, In b (bases w c) -> exists t, mro w b = b :: t /\ NoDup (b :: t) /\ (forall a, In a t -> a < b) /\ (forall a, In a (b :: t) -> subseq (mro w a) (b :: t))).
  { intros b Hbi. destruct (IH b (Hlt b Hbi)) as (t & H1 & H2 & H3 & H4 & _); [specialize (Hlt b Hbi); lia|]. eauto 8. }
  unfold c3 in Em. apply merge_sound in Em as (N1 & N2 & N3).
  2:{ intros l Hl. apply in_app_or in Hl as [Hl|[<-|[]]]; [|exact Hb]. apply in_map_iff in Hl as (b & <- & Hbi). destruct (Hbm b Hbi) as (t & -> & H & _). exact H. }
  assert (Hmem : forall a, In a m <-> exists b, In b (bases w c) /\ In a (mro w b)).
  { intros a. split.
    - intros Ha. destruct (N3 a Ha) as (l & Hl & Hal). apply in_app_or in Hl as [Hl|[<-|[]]].
      + apply in_map_iff in Hl as (b & <- & Hbi). eauto.
      + exists a. split; [exact Hal|]. destruct (Hbm a Hal) as (t & -> & _). now left.
    - intros (b & Hbi & Ha). eapply ss_in; [|exact Ha]. apply N2. apply in_or_app. left. now apply in_map. }
  assert (Hmlt : forall a, In a m -> a < c).
  { intros a Ha. apply Hmem in Ha as (b & Hbi & Ha). specialize (Hlt b Hbi). destruct (Hbm b Hbi) as (t & Eb & _ & H & _). rewrite Eb in Ha. destruct Ha as [->|Ha]; [exact Hlt|]. specialize (H a Ha). lia. }
  split; [constructor; [intros Hin; specialize (Hmlt c Hin); lia|exact N1]|]. split; [exact Hmlt|]. split; [|split; [exact Hmem|apply N2; apply in_or_app; right; now left]].
  intros a [<-|Ha]; [rewrite E; apply ss_refl|]. apply ss_skip. pose proof Ha as Ha'. apply Hmem in Ha' as (b & Hbi & Hab). destruct (Hbm b Hbi) as (t & Eb & _ & _ & Hs).
  rewrite Eb in Hab. specialize (Hs a Hab). eapply ss_trans; [|exact Hs]. rewrite <- Eb. apply N2. apply in_or_app. left. now apply in_map.
Qed.
End Worlds.
