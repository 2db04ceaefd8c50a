From Coq Require Import String.
From Verif Require Import Base BaseFacts Dict DictFacts PyClass PyClassFacts Kamino KaminoAttrs KaminoNames KaminoResolve Package PropCache PropCacheSpec PropCacheFacts ObjectRead.
Open Scope list_scope.

(** ** C99 linking a property to a class by hand, and removing it *)
Section Spec.
Variables P V : Type.
Notation world := (world P V).
Notation own_attr := (own_attr P V).
(** the name a property class gives its property: the one recorded for it, or else the only property it defines *)
Definition prop_name (w : world) (q : nat) (s : pystr) : Prop :=
  lookup w q (py "__property_name__") = Some (AStr s) \/
  (lookup w q (py "__property_name__") = None /\ (exists p, own_attr w q s = Some (AProp p)) /\ forall n p, own_attr w q n = Some (AProp p) -> n = s).
(** the functions of that property: those recorded, or else those of the attribute of that name *)
Definition prop_funs (w : world) (q : nat) (s : pystr) (p : P) : Prop :=
  lookup w q (py "__registration__") = Some (AReg p) \/ (lookup w q (py "__registration__") = None /\ lookup w q s = Some (AProp p)).
End Spec.
Arguments prop_name {P V}. Arguments prop_funs {P V}.

Section Facts.
Variables P V : Type.
Notation world := (world P V).
Notation own_attr := (own_attr P V).
Notation pn := (py "__property_name__"). Notation rg := (py "__registration__").
Lemma only_prop (w : world) q s : dicts P V w -> (exists a, filter (fun x => is_prop P V (snd x)) (c_attrs (get_cls w q)) = [(s, a)]) <-> ((exists p, own_attr w q s = Some (AProp p)) /\ forall n p, own_attr w q n = Some (AProp p) -> n = s).
Proof.
  intros D. specialize (D q). unfold PropCacheSpec.own_attr. set (d := c_attrs (get_cls w q)) in *. split.
  - intros [a E]. assert (F : forall x, In x d /\ is_prop P V (snd x) = true <-> x = (s, a)). { intros x. rewrite <- (filter_In (fun x => is_prop P V (snd x)) x d), E. cbn. intuition congruence. }
    destruct (proj2 (F (s, a)) eq_refl) as [I Q]. cbn in Q. destruct a as [p| | | | | |]; try discriminate Q. split; [exists p; now apply d_get_nodup|].
    intros n p' G. apply d_get_some_in in G. assert (X : (n, @AProp P V p') = (s, AProp p)) by (apply F; split; [exact G|reflexivity]). now injection X.
  - intros [[p G] U]. exists (AProp p). apply d_get_some_in in G. assert (K : NoDup (filter (fun x => is_prop P V (snd x)) d)). { apply NoDup_filter. unfold d_keys in D. exact (NoDup_map_inv _ _ D). }
    assert (A : forall x, In x (filter (fun x => is_prop P V (snd x)) d) <-> x = (s, AProp p)).
    { intros [n a]. rewrite filter_In. cbn [snd]. split.
      - intros [I Q]. destruct a as [p'| | | | | |]; try discriminate Q. pose proof (U n p' (d_get_nodup _ _ _ D I)) as X. subst n. pose proof (d_get_nodup _ _ _ D I) as Y. pose proof (d_get_nodup _ _ _ D G) as Z. congruence.
      - intros X. injection X as -> ->. split; [exact G|reflexivity]. }
    destruct (filter (fun x => is_prop P V (snd x)) d) as [|x [|y l]].
    + exfalso. apply (proj2 (A _) eq_refl).
    + f_equal. apply A. now left.
    + exfalso. inversion K as [|? ? N _]; subst. apply N. assert (X : x = (s, AProp p)) by (apply A; now left). assert (Y : y = (s, AProp p)) by (apply A; right; now left). subst. now left.
Qed.
Lemma name_get (w : world) q s : py_world P V w -> prop_name w q s <-> exists w1, get_property_name P V w q = (w1, Ok s) /\ (w1 = w /\ lookup w q pn = Some (AStr s) \/ w1 = set_attr w q pn (AStr s) /\ lookup w q pn = None).
Proof.
  intros H. unfold prop_name, get_property_name. destruct (lookup w q pn) as [a|] eqn:E.
  - split.
    + intros [X|[X _]]; [|discriminate X]. injection X as ->. exists w. auto.
    + intros [w1 [X [[_ Y]|[_ Y]]]]; [left; exact Y|discriminate Y].
  - rewrite <- (only_prop w q s (py_dicts P V w H)). split.
    + intros [X|[_ [a X]]]; [discriminate X|]. rewrite X. exists (set_attr w q pn (AStr s)). auto.
    + intros [w1 [X _]]. right. split; [reflexivity|]. destruct (filter _ _) as [|[n a] [|? ?]]; try discriminate X. injection X as _ ->. now exists a.
Qed.
Lemma name_unique (w : world) q s t : py_world P V w -> prop_name w q s -> prop_name w q t -> s = t.
Proof.
  intros H A B. apply (name_get w q s H) in A. apply (name_get w q t H) in B. destruct A as [w1 [A _]]. destruct B as [w2 [B _]]. congruence.
Qed.
(** what a lookup finds after the name has been recorded *)
Lemma lookup_pn (w : world) q s x : py_world P V w -> (q < List.length w)%nat -> x <> pn -> lookup (set_attr w q pn (AStr s)) q x = lookup w q x.
Proof.
  intros H L N. unfold lookup. rewrite mro_set. apply find_attr_ext. intros a _. apply own_set_other. now right.
Qed.
Lemma lookup_pn_self (w : world) q s : py_world P V w -> (q < List.length w)%nat -> lookup (set_attr w q pn (AStr s)) q pn = Some (AStr s).
Proof.
  intros H L. destruct (py_wf P V w H q L) as [m [M _]]. rewrite (lookup_own P V _ q m); [|now rewrite mro_set]. now rewrite own_set_same.
Qed.
Lemma link_ok (w : world) none_ref q j : py_world P V w -> (q < List.length w)%nat -> (j < List.length w)%nat ->
  forall w', link_property P V none_ref w q j = (w', Ok tt) -> exists s p, prop_name w q s /\ prop_funs w q s p /\ own_attr w' j s = Some (AProp p) /\
    (forall d x, d <> j \/ x <> s -> d <> q \/ (x <> pn /\ x <> rg) -> own_attr w' d x = own_attr w d x) /\ List.length w' = List.length w /\ (forall d, mro w' d = mro w d) /\ py_world P V w'.
Proof.
  intros H Lq Lj w' E. unfold link_property in E. destruct (lookup w q (py "__get_property_name__")) as [g|]; [|discriminate E].
  destruct (get_property_name P V w q) as [w1 [s|e]] eqn:G; [|discriminate E].
  assert (NM : prop_name w q s /\ (w1 = w /\ lookup w q pn = Some (AStr s) \/ w1 = set_attr w q pn (AStr s) /\ lookup w q pn = None)).
  { unfold get_property_name in G. destruct (lookup w q pn) as [a|] eqn:Q.
    - destruct a; try discriminate G. injection G as <- <-. split; [left; exact Q|left; auto].
    - destruct (filter (fun x => is_prop P V (snd x)) (c_attrs (get_cls w q))) as [|[n a] [|? ?]] eqn:F; try discriminate G. injection G as <- <-. split; [|right; auto].
      right. split; [exact Q|]. apply (only_prop w q n (py_dicts P V w H)). now exists a. }
  destruct NM as [NM C]. clear G.
  assert (G1 : get_property_name P V w1 q = (w1, Ok s)). { unfold get_property_name. destruct C as [[-> C]|[-> C]]; [rewrite C; reflexivity|rewrite lookup_pn_self by auto; reflexivity]. }
  assert (R : lookup w1 q rg = lookup w q rg). { destruct C as [[-> C]|[-> C]]; [reflexivity|]. apply lookup_pn; auto. discriminate. }
  assert (SN : w1 <> w -> s <> pn). { intros X ->. destruct C as [[C _]|[_ C]]; [contradiction|]. destruct NM as [NM|[_ [[p O] _]]]; [congruence|].
    unfold lookup in C. destruct (py_wf P V w H q Lq) as [m [M _]]. rewrite M in C. apply (proj1 (find_attr_none P V w _ _)) with (a := q) in C; [|now left]. unfold PropCacheSpec.own_attr, own in *. congruence. }
  assert (R2 : lookup w1 q s = lookup w q s). { destruct C as [[-> C]|[-> C]]; [reflexivity|]. apply lookup_pn; auto. apply SN. intros X. apply (f_equal (fun w => lookup w q pn)) in X. rewrite lookup_pn_self, C in X by auto. discriminate X. }
  assert (PW : py_world P V w1) by (destruct C as [[-> _]|[-> _]]; [exact H|now apply pw_set]).
  assert (LE : List.length w1 = List.length w) by (destruct C as [[-> _]|[-> _]]; [reflexivity|apply set_attr_length]).
  assert (ME : forall d, mro w1 d = mro w d) by (intros d; destruct C as [[-> _]|[-> _]]; [reflexivity|apply mro_set]).
  assert (OE : forall d x, d <> q \/ x <> pn -> own_attr w1 d x = own_attr w d x) by (intros d x X; destruct C as [[-> _]|[-> _]]; [reflexivity|now apply own_other]).
  unfold get_registration in E. rewrite G1, R, R2 in E. exists s.
  destruct (lookup w q rg) as [a|] eqn:RG.
  - destruct a as [| | | |p| |]; try discriminate E. injection E as <-. exists p. split; [exact NM|]. split; [left; exact RG|]. split; [apply own_same; lia|]. split; [|split; [rewrite set_attr_length; exact LE|split; [intros d; now rewrite mro_set|now apply pw_set]]].
    intros d x X Y. rewrite own_other by exact X. apply OE. tauto.
  - destruct (lookup w q s) as [[p| | | | | |]|] eqn:LS; try discriminate E. injection E as <-. exists p. split; [exact NM|]. split; [right; split; [exact RG|exact LS]|]. split; [apply own_same; rewrite set_attr_length; lia|].
    split; [|split; [rewrite !set_attr_length; exact LE|split; [intros d; rewrite !mro_set; apply ME|do 2 apply pw_set; exact PW]]].
    intros d x X Y. rewrite own_other by exact X. rewrite own_other by tauto. apply OE. tauto.
Qed.
Lemma link_works (w : world) none_ref q j s p : py_world P V w -> (q < List.length w)%nat -> lookup w q (py "__get_property_name__") <> None -> prop_name w q s -> prop_funs w q s p ->
  exists w', link_property P V none_ref w q j = (w', Ok tt).
Proof.
  intros H Lq GP NM F. unfold link_property. destruct (lookup w q (py "__get_property_name__")) as [g|]; [clear GP|now elim GP].
  pose proof NM as NM0. apply (name_get w q s H) in NM. destruct NM as [w1 [-> C]].
  assert (G1 : get_property_name P V w1 q = (w1, Ok s)). { unfold get_property_name. destruct C as [[-> C]|[-> C]]; [rewrite C; reflexivity|rewrite lookup_pn_self by auto; reflexivity]. }
  assert (R : lookup w1 q rg = lookup w q rg). { destruct C as [[-> C]|[-> C]]; [reflexivity|]. apply lookup_pn; auto. discriminate. }
  assert (R2 : lookup w1 q s = lookup w q s).
  { destruct C as [[-> C]|[-> C]]; [reflexivity|]. apply lookup_pn; auto. intros ->. destruct NM0 as [NM|[_ [[x O] _]]]; [congruence|].
    unfold lookup in C. destruct (py_wf P V w H q Lq) as [m [M _]]. rewrite M in C. apply (proj1 (find_attr_none P V w _ _)) with (a := q) in C; [|now left]. unfold PropCacheSpec.own_attr, own in *. congruence. }
  unfold get_registration. rewrite G1, R, R2. destruct F as [->|[-> ->]]; eexists; reflexivity.
Qed.
Lemma get_del_same (w : world) c n : (c < List.length w)%nat -> get_cls (del_attr P V w c n) c = mkCls (c_name (get_cls w c)) (c_bases (get_cls w c)) (c_mro (get_cls w c)) (d_del n (c_attrs (get_cls w c))).
Proof. intros L. unfold del_attr. cbv zeta. unfold get_cls at 1. now rewrite set_nth_same. Qed.
Lemma get_del_other (w : world) c n d : d <> c -> get_cls (del_attr P V w c n) d = get_cls w d.
Proof. intros L. unfold del_attr. cbv zeta. unfold get_cls at 1. now rewrite set_nth_other. Qed.
Lemma mro_del (w : world) c n d : (c < List.length w)%nat -> mro (del_attr P V w c n) d = mro w d.
Proof. intros L. unfold mro. destruct (Nat.eq_dec d c) as [->|N]; [now rewrite get_del_same|now rewrite get_del_other]. Qed.
Lemma own_del_same (w : world) c n : dicts P V w -> (c < List.length w)%nat -> own_attr (del_attr P V w c n) c n = None.
Proof. intros D L. unfold PropCacheSpec.own_attr. rewrite get_del_same by exact L. cbn [c_attrs]. apply d_get_del_same, D. Qed.
Lemma own_del_other (w : world) c n d x : (c < List.length w)%nat -> d <> c \/ x <> n -> own_attr (del_attr P V w c n) d x = own_attr w d x.
Proof.
  intros L X. unfold PropCacheSpec.own_attr. destruct (Nat.eq_dec d c) as [->|N]; [|now rewrite get_del_other]. rewrite get_del_same by exact L. cbn [c_attrs]. apply d_get_del_other. tauto.
Qed.
Lemma find_before (w : world) pre a post n v : (forall b, In b pre -> own_attr w b n = None) -> own_attr w a n = Some v -> find_attr w (pre ++ a :: post) n = Some v.
Proof.
  intros Z O. rewrite find_attr_app. replace (find_attr w pre n) with (@None (attr P V)); [|symmetry; now apply (proj2 (find_attr_none P V w pre n))]. cbn [find_attr]. unfold PropCacheSpec.own_attr in O. now rewrite O.
Qed.
End Facts.

(** linking: the class gets, under the name of the property class, a property with its functions; nothing else changes but the two records kept on the property class.
    It succeeds exactly if the property class has a name and functions. *)
Theorem C99_link : forall P V none_ref (w : world P V) q j, py_world P V w -> (q < List.length w)%nat -> (j < List.length w)%nat ->
  (lookup w q (py "__get_property_name__") <> None -> (exists s p, prop_name w q s /\ prop_funs w q s p) -> exists w', link_property P V none_ref w q j = (w', Ok tt)) /\
  (forall w', link_property P V none_ref w q j = (w', Ok tt) -> exists s p, prop_name w q s /\ prop_funs w q s p /\ own_attr P V w' j s = Some (AProp p) /\
    (forall d x, d <> j \/ x <> s -> d <> q \/ (x <> py "__property_name__" /\ x <> py "__registration__") -> own_attr P V w' d x = own_attr P V w d x) /\ forall d, mro w' d = mro w d).
Proof.
  intros P V nr w q j H Lq Lj. split.
  - intros G [s [p [A B]]]. exact (link_works P V w nr q j s p H Lq G A B).
  - intros w' E. destruct (link_ok P V w nr q j H Lq Lj w' E) as [s [p [A [B [C [D [_ [M _]]]]]]]]. exists s, p. auto.
Qed.
Print Assumptions C99_link.
(** the property is seen by the class and by every class below it, up to a class that defines the name itself *)
Theorem C99_visible : forall P V none_ref (w : world P V) q j w' s p, py_world P V w -> (q < List.length w)%nat -> (j < List.length w)%nat ->
  link_property P V none_ref w q j = (w', Ok tt) -> prop_name w q s -> own_attr P V w' j s = Some (AProp p) ->
  forall c pre post, mro w c = pre ++ j :: post -> (forall d, In d pre -> own_attr P V w' d s = None) -> lookup w' c s = Some (AProp p).
Proof.
  intros P V nr w q j w' s p H Lq Lj E N O c pre post M Z. destruct (link_ok P V w nr q j H Lq Lj w' E) as [s' [p' [A [B [C [D [_ [M' _]]]]]]]].
  unfold lookup. rewrite M', M. now apply find_before.
Qed.
Print Assumptions C99_visible.
(** removing: the class no longer has the attribute itself, and shows the inherited one if there is one; a class that merely inherits it raises AttributeError and nothing changes *)
Theorem C99_unlink : forall P V (w : world P V) n c w' r, py_world P V w -> (c < List.length w)%nat -> remove_property_link P V w n c = (w', r) ->
  (own_attr P V w c n = None -> r = Err AttributeError /\ w' = w) /\
  (own_attr P V w c n <> None -> r = Ok tt /\ own_attr P V w' c n = None /\ (forall d x, d <> c \/ x <> n -> own_attr P V w' d x = own_attr P V w d x) /\ (forall d, mro w' d = mro w d) /\
     lookup w' c n = find_attr w (tl (mro w c)) n).
Proof.
  intros P V w n c w' r H L E. unfold remove_property_link in E. fold (own_attr P V w c n) in E. destruct (own_attr P V w c n) as [v|] eqn:O; injection E as <- <-; (split; [intros X|intros X]); try discriminate X; try (now elim X); auto.
  split; [reflexivity|]. split; [apply own_del_same; [now apply py_dicts|exact L]|]. split; [intros d x; now apply own_del_other|]. split; [intros d; now apply mro_del|].
  destruct (wf_mro P V w (py_wf P V w H) c L) as [m [M [D _]]]. rewrite (lookup_own P V _ c m); [|now rewrite mro_del].
  pose proof (own_del_same P V w c n (py_dicts P V w H) L) as Z. unfold own, own_attr in *. rewrite Z. rewrite M. cbn [tl]. apply find_attr_ext. intros a I. apply own_del_other; [exact L|]. left. intros ->. inversion D; subst. contradiction.
Qed.
Print Assumptions C99_unlink.
(** linking a name the class did not have and removing it again leaves every attribute as before, apart from the records on the property class *)
Theorem C99_link_unlink : forall P V none_ref (w : world P V) q j w1 s w2 r, py_world P V w -> (q < List.length w)%nat -> (j < List.length w)%nat ->
  link_property P V none_ref w q j = (w1, Ok tt) -> prop_name w q s -> own_attr P V w j s = None -> remove_property_link P V w1 s j = (w2, r) ->
  r = Ok tt /\ forall d x, d <> q \/ (x <> py "__property_name__" /\ x <> py "__registration__") -> own_attr P V w2 d x = own_attr P V w d x.
Proof.
  intros P V nr w q j w1 s w2 r H Lq Lj E N O R. destruct (link_ok P V w nr q j H Lq Lj w1 E) as [s' [p [A [B [C [D [LE [M W1]]]]]]]]. pose proof (name_unique P V w q s s' H N A) as X. subst s'.
  destruct (C99_unlink P V w1 s j w2 r W1 ltac:(lia) R) as [_ K]. destruct K as [K1 [K2 [K3 _]]]; [rewrite C; discriminate|]. split; [exact K1|].
  intros d x Y. destruct (Nat.eq_dec d j) as [->|ND]; [destruct (str_eqb x s) eqn:Q|].
  - apply str_eqb_eq in Q. subst x. now rewrite K2, O.
  - assert (x <> s) by (intros ->; rewrite str_eqb_refl in Q; discriminate Q). rewrite K3 by auto. apply D; auto.
  - rewrite K3 by auto. apply D; auto.
Qed.
Print Assumptions C99_link_unlink.
(** false of the code: that iteration and data follow. On a class with a list of properties (every class of a package has one) a property linked by hand is not listed,
    and a property removed by hand is still listed although the class no longer has the attribute (reading it raises AttributeError) *)
Theorem C99_listing_refuted : forall P V none_ref (w : world P V) q c l, py_world P V w -> (q < List.length w)%nat -> (c < List.length w)%nat -> own_attr P V w c (py "__properties__") = Some (ANames l) ->
  (forall w' s, link_property P V none_ref w q c = (w', Ok tt) -> prop_name w q s -> s <> py "__properties__" -> ask P V false w' c = (w', l)) /\
  (forall w' n, remove_property_link P V w n c = (w', Ok tt) -> n <> py "__properties__" -> ask P V false w' c = (w', l) /\
     ((forall a, In a (tl (mro w c)) -> own_attr P V w a n = None) -> lookup w' c n = None)).
Proof.
  intros P V nr w q c l H Lq Lc O.
  assert (K : forall w' : world P V, (forall d, mro w' d = mro w d) -> own_attr P V w' c (py "__properties__") = Some (ANames l) -> ask P V false w' c = (w', l)).
  { intros w' M O'. destruct (py_wf P V w H c Lc) as [m [E _]]. unfold ask. rewrite (lookup_own P V w' c m); [|now rewrite M]. unfold own_attr, own in *. now rewrite O'. }
  split.
  - intros w' s E N NP. destruct (link_ok P V w nr q c H Lq Lc w' E) as [s' [p [A [B [C [D [LE [M _]]]]]]]]. pose proof (name_unique P V w q s s' H N A) as X. subst s'. apply K; [exact M|]. rewrite D; [exact O|now right; apply not_eq_sym|right; split; discriminate].
  - intros w' n E NP. destruct (C99_unlink P V w n c w' (Ok tt) H Lc E) as [U1 U2]. destruct (own_attr P V w c n) as [v|] eqn:Q; [|destruct (U1 eq_refl) as [X _]; discriminate X].
    destruct U2 as [_ [U3 [U4 [U5 U6]]]]; [discriminate|]. split; [apply K; [exact U5|]; rewrite U4 by (right; now apply not_eq_sym); exact O|]. intros Z. rewrite U6. now apply (proj2 (find_attr_none P V w _ n)).
Qed.
Print Assumptions C99_listing_refuted.

(** classes 0 object, 1 a property class (property p), 2 an object class with its list, 3 a subclass *)
Definition ex_link : world N unit := history N unit (object_world []) [NewClass N unit (py "P") [0%nat] [(py "__get_property_name__", ACall tt); (py "p", AProp 7%N)]; NewClass N unit (py "A") [0%nat] [(py "a", AProp 1%N)]; NewClass N unit (py "B") [2%nat] []; Ask N unit true 2%nat].
Lemma ex_link_ok : py_world N unit ex_link.
Proof.
  assert (A : all_allowed N unit (object_world []) [NewClass N unit (py "P") [0%nat] [(py "__get_property_name__", ACall tt); (py "p", AProp 7%N)]; NewClass N unit (py "A") [0%nat] [(py "a", AProp 1%N)]; NewClass N unit (py "B") [2%nat] []; Ask N unit true 2%nat]).
  { cbn [all_allowed allowed]. repeat split; try discriminate; try (intros b I; cbn in I; repeat destruct I as [<- |I]; [..|destruct I]; cbn; repeat constructor); try (vm_compute; repeat constructor; fail); try (repeat constructor; cbn; intuition discriminate); cbn; intuition discriminate. }
  apply (history_sound N unit _ (object_world [])); [|exact A]. apply start_sound; [apply pw_object; constructor|]. intros [|[|c]]; reflexivity.
Qed.
Example C99_case : py_world N unit ex_link /\ prop_name ex_link 1 (py "p") /\ prop_funs ex_link 1 (py "p") 7%N /\
  exists w', link_property N unit tt ex_link 1 2 = (w', Ok tt) /\ lookup w' 3 (py "p") = Some (AProp 7%N) /\ snd (ask N unit false w' 2) = [py "a"] /\ snd (ask N unit true w' 2) = [py "a"; py "p"] /\
  snd (remove_property_link N unit w' (py "p") 3) = Err AttributeError /\ snd (remove_property_link N unit w' (py "a") 2) = Ok tt /\
  lookup (fst (remove_property_link N unit w' (py "a") 2)) 2 (py "a") = None /\ snd (ask N unit false (fst (remove_property_link N unit w' (py "a") 2)) 2) = [py "a"].
Proof.
  split; [exact ex_link_ok|]. split.
  { right. split; [vm_compute; reflexivity|]. apply (only_prop N unit ex_link 1 (py "p")); [apply py_dicts, ex_link_ok|]. exists (AProp 7%N). vm_compute. reflexivity. }
  split; [right; split; vm_compute; reflexivity|]. eexists. split; [vm_compute; reflexivity|]. repeat split; vm_compute; reflexivity.
Qed.
