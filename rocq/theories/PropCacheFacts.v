From Coq Require Import String.
From Verif Require Import Base BaseFacts Dict DictFacts PyClass PyClassFacts Kamino KaminoAttrs KaminoOrder KaminoNames PropCache PropCacheSpec.
Open Scope list_scope.
Section Facts.
Variables P V : Type.
Notation world := (world P V).
Notation PROPS := (py "__properties__").
Notation own_attr := (own_attr P V). Notation is_property := (is_property P V). Notation exactly := (exactly P V).
Notation ask := (ask P V). Notation happen := (happen P V). Notation event := (event P V).
(** invariant: only lists of property names are cached, and only names of properties *)
Definition sound (w : world) : Prop := py_world P V w /\ forall c, (c < List.length w)%nat -> forall a, own_attr w c PROPS = Some a -> exists l, a = ANames l /\ forall n, In n l -> is_property w c n.
Lemma own_same w k n (v : attr P V) : (k < List.length w)%nat -> own_attr (set_attr w k n v) k n = Some v.
Proof. intros H. exact (own_set_same P V w k n v H). Qed.
Lemma own_other w k n (v : attr P V) j x : j <> k \/ x <> n -> own_attr (set_attr w k n v) j x = own_attr w j x.
Proof. intros H. exact (own_set_other P V w k n v j x H). Qed.
Lemma own_app w (l : world) c n : (c < List.length w)%nat -> own_attr (w ++ l) c n = own_attr w c n.
Proof. intros H. unfold PropCacheSpec.own_attr. now rewrite get_app. Qed.
Lemma mro_app w (l : world) c : (c < List.length w)%nat -> mro (w ++ l) c = mro w c.
Proof. intros H. unfold mro. now rewrite get_app. Qed.
Lemma names_exactly w c : py_world P V w -> exactly w c (property_names P V w c).
Proof. intros H. split; [apply dedup_nodup|]. intros n. exact (property_names_in P V w c n (py_dicts P V w H)). Qed.
Lemma in_mro_lt w c a : py_world P V w -> (c < List.length w)%nat -> In a (mro w c) -> (a < List.length w)%nat.
Proof. intros H L I. exact (proj2 (mro_lt P V w (py_wf P V w H) c a L I)). Qed.
(** the cached list found *)
Lemma lookup_sound w c : sound w -> (c < List.length w)%nat -> forall x, lookup w c PROPS = Some x -> exists l, x = ANames l /\ forall n, In n l -> is_property w c n.
Proof.
  intros [H S] L x E. unfold lookup in E. apply (find_attr_some P V) in E. destruct E as [a [I O]].
  destruct (S a (in_mro_lt w c a H L I) x O) as [l [-> Q]]. exists l. split; [reflexivity|]. intros n J. destruct (Q n J) as [b [p [B C]]]. exists b, p. split; [|exact C].
  exact (mro_trans P V w (py_wf P V w H) c a b L I B).
Qed.
Lemma ask_cases w c r : sound w -> (c < List.length w)%nat ->
  (exists l, r = false /\ lookup w c PROPS = Some (ANames l) /\ ask r w c = (w, l)) \/
  ((r = true \/ lookup w c PROPS = None) /\ exists l, exactly w c l /\ ask r w c = (set_attr w c PROPS (ANames l), l)).
Proof.
  intros S L. unfold PropCache.ask. destruct r.
  - right. split; [now left|]. exists (property_names P V w c). split; [apply names_exactly, S|reflexivity].
  - destruct (lookup w c PROPS) as [x|] eqn:E.
    + destruct (lookup_sound w c S L x E) as [l [-> _]]. left. exists l. auto.
    + right. split; [now right|]. exists (property_names P V w c). split; [apply names_exactly, S|reflexivity].
Qed.
Lemma is_property_set w c x k n : sound w -> (k < List.length w)%nat -> (c < List.length w)%nat -> (is_property (set_attr w c PROPS (ANames x)) k n <-> is_property w k n).
Proof.
  intros [H S] L Lc. unfold PropCacheSpec.is_property. setoid_rewrite mro_set. split; intros [a [p [I O]]]; exists a, p; (split; [exact I|]).
  - destruct (Nat.eq_dec a c) as [->|N]; [|rewrite own_other in O; auto]. destruct (str_eqb n PROPS) eqn:Q.
    + apply str_eqb_eq in Q. subst n. rewrite own_same in O by exact Lc. discriminate O.
    + rewrite own_other in O; [exact O|]. right. intros ->. rewrite str_eqb_refl in Q. discriminate Q.
  - rewrite own_other; [exact O|]. destruct (Nat.eq_dec a c) as [->|N]; [right|auto]. intros ->. destruct (S c Lc _ O) as [l [E _]]. discriminate E.
Qed.
Lemma is_property_link w c m p k n : sound w -> (k < List.length w)%nat -> (c < List.length w)%nat -> is_property w k n -> is_property (set_attr w c m (AProp p)) k n.
Proof.
  intros [H S] L Lc [a [q [I O]]]. unfold PropCacheSpec.is_property. setoid_rewrite mro_set. destruct (Nat.eq_dec a c) as [->|N].
  - destruct (str_eqb n m) eqn:Q.
    + apply str_eqb_eq in Q. subst m. exists c, p. split; [exact I|]. now apply own_same.
    + exists c, q. split; [exact I|]. rewrite own_other; [exact O|]. right. intros ->. rewrite str_eqb_refl in Q. discriminate Q.
  - exists a, q. split; [exact I|]. rewrite own_other; auto.
Qed.
Lemma is_property_app w (l : world) k n : py_world P V w -> (k < List.length w)%nat -> (is_property (w ++ l) k n <-> is_property w k n).
Proof.
  intros H L. unfold PropCacheSpec.is_property. rewrite mro_app by exact L.
  split; intros [a [p [I O]]]; exists a, p; (split; [exact I|]); [rewrite own_app in O|rewrite own_app]; auto; exact (in_mro_lt w k a H L I).
Qed.
Lemma happen_sound w e : sound w -> allowed P V w e -> sound (happen w e).
Proof.
  intros S A. pose proof S as [H Q]. destruct e as [r c|name bs attrs|c n p].
  - cbn [PropCache.happen]. destruct (ask_cases w c r S A) as [[l [_ [_ ->]]]|[_ [l [E ->]]]]; [exact S|]. cbn [fst].
    split; [now apply pw_set|]. rewrite set_attr_length. intros d L a O. destruct (Nat.eq_dec d c) as [->|N].
    + rewrite own_same in O by exact L. injection O as <-. exists l. split; [reflexivity|]. intros n I. apply is_property_set; auto. now apply E.
    + rewrite own_other in O by auto. destruct (Q d L a O) as [l' [-> T]]. exists l'. split; [reflexivity|]. intros n I. apply is_property_set; auto.
  - cbn [PropCache.happen]. destruct A as [B [C [D F]]]. destruct (new_class w name bs attrs) as [[w' k]|e] eqn:E; [|exact S].
    split; [exact (pw_class P V w name bs attrs w' k H B D C E)|]. unfold new_class in E. destruct (has_dup bs); [discriminate E|]. destruct (c3 _) as [m|]; [|discriminate E]. injection E as <- <-.
    intros d L a O. destruct (Nat.lt_ge_cases d (List.length w)) as [Ld|Ge].
    + rewrite own_app in O by exact Ld. destruct (Q d Ld a O) as [l [-> T]]. exists l. split; [reflexivity|]. intros n I. apply is_property_app; auto.
    + exfalso. rewrite app_length in L. cbn in L. assert (d = List.length w) by lia. subst d. unfold PropCacheSpec.own_attr, get_cls in O. rewrite app_nth2, Nat.sub_diag in O by lia. cbn [nth c_attrs] in O.
      apply F. apply d_get_in. rewrite O. discriminate.
  - cbn [PropCache.happen]. destruct A as [Lc N]. split; [now apply pw_set|]. rewrite set_attr_length. intros d L a O. rewrite own_other in O by auto. destruct (Q d L a O) as [l [-> T]].
    exists l. split; [reflexivity|]. intros x I. apply is_property_link; auto.
Qed.
Lemma history_sound l : forall w, sound w -> all_allowed P V w l -> sound (history P V w l).
Proof.
  induction l as [|e l IH]; intros w S A; [exact S|]. destruct A as [A B]. unfold history. cbn [fold_left]. apply IH; [now apply happen_sound|exact B].
Qed.
Lemma start_sound w : py_world P V w -> (forall c, own_attr w c PROPS = None) -> sound w.
Proof. intros H N. split; [exact H|]. intros c _ a O. rewrite N in O. discriminate O. Qed.
Lemma happen_len w e : sound w -> allowed P V w e -> (List.length w <= List.length (happen w e))%nat.
Proof.
  intros S A. destruct e as [r c|name bs attrs|c n p]; cbn [PropCache.happen].
  - destruct (ask_cases w c r S A) as [[l [_ [_ ->]]]|[_ [l [E ->]]]]; cbn [fst]; [lia|]. rewrite set_attr_length. lia.
  - unfold new_class. destruct (has_dup bs); [lia|]. destruct (c3 _); [|lia]. rewrite app_length. cbn. lia.
  - rewrite set_attr_length. lia.
Qed.
(** ** a refreshed class *)
Definition linked_elsewhere (w : world) (c : nat) (e : event) : Prop := match e with LinkProp _ _ d n p => ~ In d (mro w c) | _ => True end.
Definition refreshed (w : world) (c : nat) : Prop := (c < List.length w)%nat /\ exists l, own_attr w c PROPS = Some (ANames l) /\ exactly w c l.
Lemma refreshed_step w c e : sound w -> allowed P V w e -> linked_elsewhere w c e -> refreshed w c -> refreshed (happen w e) c /\ mro (happen w e) c = mro w c.
Proof.
  intros S A K [L [l [O [D E]]]]. pose proof (happen_len w e S A) as Len. pose proof S as [H Q]. destruct e as [r d|name bs attrs|d n p].
  - cbn [PropCache.happen] in *. destruct (ask_cases w d r S A) as [[l' [_ [_ ->]]]|[_ [l' [[D' E'] ->]]]]; cbn [fst] in *; [split; [split; [exact L|]; exists l; repeat split; auto; apply E|reflexivity]|].
    split; [|apply mro_set]. split; [rewrite set_attr_length; exact L|]. destruct (Nat.eq_dec c d) as [->|N].
    + exists l'. rewrite own_same by exact L. split; [reflexivity|]. split; [exact D'|]. intros n. rewrite is_property_set by auto. apply E'.
    + exists l. rewrite own_other by auto. split; [exact O|]. split; [exact D|]. intros n. rewrite is_property_set by auto. apply E.
  - cbn [PropCache.happen] in *. unfold new_class in *. destruct (has_dup bs); [split; [split; [exact L|]; exists l; repeat split; auto; apply E|reflexivity]|].
    destruct (c3 _); [|split; [split; [exact L|]; exists l; repeat split; auto; apply E|reflexivity]].
    split; [|now apply mro_app]. split; [rewrite app_length; cbn; lia|]. exists l. rewrite own_app by exact L. split; [exact O|]. split; [exact D|]. intros n. rewrite is_property_app by auto. apply E.
  - cbn [PropCache.happen] in *. split; [|apply mro_set]. split; [rewrite set_attr_length; exact L|]. exists l. destruct A as [_ N]. rewrite own_other by auto. split; [exact O|]. split; [exact D|]. intros x. rewrite E.
    cbn [linked_elsewhere] in K. unfold PropCacheSpec.is_property. setoid_rewrite mro_set.
    split; intros [a [q [I T]]]; exists a, q; (split; [exact I|]); [rewrite own_other|rewrite own_other in T]; auto; left; intros ->; contradiction.
Qed.
Lemma refreshed_history l : forall w c, sound w -> all_allowed P V w l -> (forall d n p, In (LinkProp P V d n p) l -> ~ In d (mro w c)) -> refreshed w c -> refreshed (history P V w l) c.
Proof.
  induction l as [|e l IH]; intros w c S A K R; [exact R|]. destruct A as [A B]. unfold history. cbn [fold_left].
  assert (KE : linked_elsewhere w c e). { destruct e as [r d|name bs attrs|d n p]; try exact I. exact (K d n p (or_introl eq_refl)). }
  destruct (refreshed_step w c e S A KE R) as [R' M]. apply IH; [now apply happen_sound|exact B| |exact R']. intros d n p J. rewrite M. apply (K d n p). now right.
Qed.
Lemma refreshed_ask w c : sound w -> refreshed w c -> exists l, ask false w c = (w, l) /\ exactly w c l.
Proof.
  intros [H Q] [L [l [O E]]]. exists l. split; [|exact E]. destruct (py_wf P V w H c L) as [m [M _]]. unfold PropCache.ask. rewrite (lookup_own P V w c m PROPS M).
  replace (own P V w c PROPS) with (Some (@ANames P V l)) by (symmetry; exact O). reflexivity.
Qed.
Lemma ask_refreshes w c : sound w -> (c < List.length w)%nat -> refreshed (fst (ask true w c)) c.
Proof.
  intros S L. destruct (ask_cases w c true S L) as [[l [X _]]|[_ [l [[D E] ->]]]]; [discriminate X|]. cbn [fst]. split; [now rewrite set_attr_length|]. exists l. rewrite own_same by exact L. split; [reflexivity|].
  split; [exact D|]. intros n. rewrite is_property_set by auto. apply E.
Qed.
(** ** a subclass of a class with a list *)
Lemma c3_single w b : wf P V w -> (b < List.length w)%nat -> c3 [mro w b; [b]] = Some (mro w b).
Proof.
  intros H L. destruct (wf_mro P V w H b L) as [m [M [D _]]]. apply merge_absorb.
  - rewrite M. exact D.
  - unfold total. cbn [List.concat]. rewrite !app_length. lia.
  - intros x [<-|[<-|[]]]; [apply ss_refl|]. rewrite M. apply ss_take. constructor.
  - now left.
Qed.
Lemma subclass_list w b name attrs l : sound w -> (b < List.length w)%nat -> NoDup (d_keys attrs) -> ~ In PROPS (d_keys attrs) -> lookup w b PROPS = Some (ANames l) ->
  exists w' k, new_class w name [b] attrs = Ok (w', k) /\ ask false w' k = (w', l) /\ (forall n p, d_get n attrs = Some (AProp p) -> is_property w' k n) /\
    (forall n, ~ is_property w b n -> ~ In n l).
Proof.
  intros S L D N E. pose proof S as [H Q]. pose proof (py_wf P V w H) as W.
  exists (w ++ [mkCls name [b] (List.length w :: mro w b) attrs]), (List.length w).
  assert (M : mro (w ++ [mkCls name [b] (List.length w :: mro w b) attrs]) (List.length w) = List.length w :: mro w b).
  { unfold mro, get_cls. rewrite app_nth2, Nat.sub_diag by lia. reflexivity. }
  assert (A : forall n, own_attr (w ++ [mkCls name [b] (List.length w :: mro w b) attrs]) (List.length w) n = d_get n attrs).
  { intros n. unfold PropCacheSpec.own_attr, get_cls. rewrite app_nth2, Nat.sub_diag by lia. reflexivity. }
  split; [|split; [|split]].
  - unfold new_class. cbn [has_dup mem existsb orb map app]. rewrite c3_single by auto. reflexivity.
  - unfold PropCache.ask. rewrite (lookup_own P V _ _ _ PROPS M). replace (own P V _ (List.length w) PROPS) with (d_get PROPS attrs) by (symmetry; apply A).
    replace (d_get PROPS attrs) with (@None (attr P V)) by (symmetry; now apply d_get_none).
    rewrite (find_attr_ext P V w).
    + fold (lookup w b PROPS). rewrite E. reflexivity.
    + intros a I. apply own_app. exact (in_mro_lt w b a H L I).
  - intros n p G. exists (List.length w), p. split; [rewrite M; now left|]. now rewrite A.
  - intros n X I. destruct (lookup_sound w b S L _ E) as [l' [Z T]]. injection Z as <-. auto.
Qed.
End Facts.
