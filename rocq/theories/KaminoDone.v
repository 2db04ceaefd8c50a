(** when cloning succeeds, and the whole of [clone_classes] *)
From Coq Require Import String Permutation.
From Verif Require Import Base BaseFacts Dict DictFacts PyClass PyClassFacts Kamino KaminoOrder KaminoFacts KaminoMro KaminoAttrs KaminoExact KaminoResolve.
Open Scope list_scope.

Section Done.
Variables P V : Type.
Notation world := (world P V).
Notation attr := (attr P V).
Variable wrap_prop : P -> P.
Variable wrap_call : V -> V.
Variable package_ref : V.
Notation clone_class := (clone_class P V wrap_prop wrap_call package_ref).
Notation clone_nodes := (clone_nodes P V wrap_prop wrap_call package_ref).
Notation clone_classes := (clone_classes P V wrap_prop wrap_call package_ref).
Notation wrap_attr := (wrap_attr P V wrap_call).
Notation cloned := (cloned P V).
Notation own := (own P V).
Notation attrs_ok := (attrs_ok P V wrap_prop wrap_call).
Notation exact_mro := (exact_mro P V).
Notation regular := (regular P V).
Notation gpn := (py "__get_property_name__").
Notation pn := (py "__property_name__").

(** ** attributes are never removed *)
Lemma own_set_mono w k x v a n : own w a n <> None -> own (set_attr w k x v) a n <> None.
Proof.
  intros H. destruct (Nat.eq_dec a k) as [->|Hn]; [|now rewrite own_set_other by now left]. destruct (Nat.lt_ge_cases k (List.length w)) as [Hl|Hl]; [|now rewrite set_attr_out].
  destruct (str_dec n x) as [->|Hx]; [now rewrite own_set_same|now rewrite own_set_other by now right].
Qed.
Lemma own_names_mono l : forall w k a n, own w a n <> None -> own (wrap_names P V wrap_prop w k l) a n <> None.
Proof. induction l as [|[x v] l IH]; intros w k a n H; [exact H|]. destruct v; cbn; auto. apply IH, own_set_mono, H. Qed.
Lemma lookup_mono (w w' : world) k n : mro w' k = mro w k -> (forall a, own w a n <> None -> own w' a n <> None) -> lookup w k n <> None -> lookup w' k n <> None.
Proof.
  intros Hm H Hl E. apply Hl. unfold lookup in *. rewrite Hm in E. apply find_attr_none. intros a Ha. pose proof (proj1 (find_attr_none _ _ w' _ n) E a Ha) as Hn. destruct (own w a n) eqn:Eo; [|reflexivity]. exfalso. apply (H a); [congruence|exact Hn].
Qed.
Lemma lookup_set_other (w : world) k x v c n : n <> x -> lookup (set_attr w k x v) c n = lookup w c n.
Proof. intros H. unfold lookup. rewrite mro_set. apply find_attr_ext. intros a _. apply own_set_other. now right. Qed.
Lemma d_set_filter (d : dict attr) l n : NoDup (d_keys d) -> filter (fun x => is_prop P V (snd x)) (d_set n (ANames l) d) = filter (fun x => is_prop P V (snd x) && negb (str_eqb (fst x) n)) d.
Proof.
  induction d as [|[k v] d IH]; [reflexivity|]. intros Hn. cbn in Hn. apply NoDup_cons_iff in Hn as [Hn1 Hn2]. cbn. destruct (str_eqb n k) eqn:E.
  - apply str_eqb_eq in E as ->. cbn. rewrite str_eqb_refl. cbn. rewrite andb_false_r. clear IH Hn2. induction d as [|[x y] d IH]; [reflexivity|]. cbn in Hn1 |- *. assert (str_eqb x k = false) as -> by (apply str_eqb_neq; intros ->; apply Hn1; now left). rewrite andb_true_r. rewrite <- IH by (intros H; apply Hn1; now right). reflexivity.
  - cbn. rewrite (IH Hn2). assert (str_eqb k n = false) as -> by (apply str_eqb_neq; intros ->; rewrite str_eqb_refl in E; discriminate). now rewrite andb_true_r.
Qed.

Definition single_property (d : dict attr) : Prop := exists name p, filter (fun x => is_prop P V (snd x)) d = [(name, AProp p)] /\ name <> py "__properties__".
Lemma wrap_ok (w : world) k : k < List.length w -> dicts P V w ->
  (lookup w k gpn <> None -> (exists s, lookup w k pn = Some (AStr s) /\ lookup w k s <> None) \/ (lookup w k pn = None /\ single_property (c_attrs (get_cls w k)) /\ In k (mro w k))) ->
  (forall v, lookup w k pn = Some v -> exists s, v = AStr s) ->
  exists w', wrap_properties P V wrap_prop w k = (w', Ok tt) /\
    (own w' k pn = own w k pn \/ exists name, own w' k pn = Some (AStr name) /\ lookup w k name <> None) /\
    (lookup w k gpn <> None -> lookup w' k pn <> None) /\ (forall n, lookup w k n <> None -> lookup w' k n <> None).
Proof.
  intros Hk Hd Hname Hstr. unfold wrap_properties. set (names := property_names P V w k).
  assert (E1 : exists w1 names1, (if has P V w k "__get_properties__" then get_properties P V w k else (w, [])) = (w1, names1) /\ (w1 = w \/ w1 = set_attr w k (py "__properties__") (ANames names)) /\ NoDup names1).
  { unfold has, get_properties. destruct (lookup w k (py "__get_properties__")) eqn:E; [exists (set_attr w k (py "__properties__") (ANames names)), names|exists w, []]; split; auto; split; auto; [apply dedup_nodup|constructor]. }
  destruct E1 as (w1 & names1 & E1 & Hw1 & Hnn). match goal with |- exists _, (let (_, _) := ?X in _) = _ /\ _ => replace X with (w1, names1) by (symmetry; exact E1) end. clear E1.
  assert (Hk1 : k < List.length w1) by (destruct Hw1 as [->| ->]; rewrite ?set_attr_length; exact Hk).
  assert (Hl1 : forall n, n <> py "__properties__" -> lookup w1 k n = lookup w k n) by (intros n Hn; destruct Hw1 as [->| ->]; [reflexivity|now apply lookup_set_other]).
  assert (Ho1 : own w1 k pn = own w k pn) by (destruct Hw1 as [->| ->]; [reflexivity|apply own_set_other; right; discriminate]).
  assert (Hm1 : mro w1 k = mro w k) by (destruct Hw1 as [->| ->]; [reflexivity|apply mro_set]).
  assert (Hmono1 : forall a n, own w a n <> None -> own w1 a n <> None) by (intros a n H; destruct Hw1 as [->| ->]; [exact H|now apply own_set_mono]).
  assert (Hfin : forall w2 l, k < List.length w2 -> mro w2 k = mro w k -> NoDup (map fst l) -> (forall p, d_get pn l <> Some (AProp p)) -> own (wrap_names P V wrap_prop w2 k l) k pn = own w2 k pn /\ (forall n, lookup w2 k n <> None -> lookup (wrap_names P V wrap_prop w2 k l) k n <> None)).
  { intros w2 l Hk2 Hm2 Hnl Hp. split; [rewrite wrap_names_get by assumption; destruct (d_get pn l) as [a|]; [destruct a; try reflexivity; exfalso; eapply Hp; reflexivity|reflexivity]|].
    intros n. apply lookup_mono; [apply (only_wrap_names P V wrap_prop l k w2)|intros a; apply own_names_mono]. }
  assert (Hga : forall n, d_get n (get_all P V w1 k names1) = if mem_str n names1 then lookup w1 k n else None) by (intros n; now apply get_all_get).
  unfold has. rewrite (Hl1 gpn) by discriminate. destruct (lookup w k gpn) as [g|] eqn:Eg.
  - destruct Hname as [(s & Es & Hs)|(Epn & (name & p & Ef & Hne) & Hself)]; [discriminate| |].
    + unfold get_property_name. rewrite (Hl1 pn), Es by discriminate. assert (Hs1 : lookup w1 k s <> None) by (revert Hs; apply lookup_mono; auto). destruct (lookup w1 k s) as [a|] eqn:Ea; [|congruence].
      destruct (Hfin w1 (d_merge (get_all P V w1 k names1) [(s, a)]) Hk1 Hm1) as [F1 F2].
      * cbn. apply d_set_nodup, get_all_nodup, Hnn.
      * intros p Hp. pose proof (d_get_merge pn [(s, a)] (get_all P V w1 k names1)) as Hgm. rewrite Hgm in Hp. cbn [last_of] in Hp. destruct (str_eqb pn s) eqn:Eps.
        -- apply str_eqb_eq in Eps as <-. injection Hp as ->. rewrite (Hl1 pn), Es in Ea by discriminate. discriminate.
        -- rewrite Hga in Hp. destruct (mem_str pn names1); [|discriminate]. rewrite (Hl1 pn), Es in Hp by discriminate. discriminate.
      * eexists. split; [reflexivity|]. split; [left; rewrite F1; exact Ho1|]. split; [|intros n Hn; apply F2; revert Hn; apply lookup_mono; auto].
        intros _. apply F2. rewrite (Hl1 pn), Es by discriminate. discriminate.
    + assert (Ef1 : filter (fun x => is_prop P V (snd x)) (c_attrs (get_cls w1 k)) = [(name, AProp p)]).
      { destruct Hw1 as [->| ->]; [exact Ef|]. rewrite get_set_same by exact Hk. cbn [c_attrs]. rewrite d_set_filter by apply Hd. clear - Ef Hne.
        assert (H : forall (d : dict attr) n, filter (fun x => is_prop P V (snd x) && negb (str_eqb (fst x) n)) d = filter (fun x => negb (str_eqb (fst x) n)) (filter (fun x => is_prop P V (snd x)) d)).
        { induction d as [|[a b] d IH]; intros n; [reflexivity|]. cbn. destruct (is_prop P V b); cbn; [destruct (negb (str_eqb a n)); now rewrite IH|apply IH]. }
        rewrite H, Ef. cbn [filter fst]. assert (str_eqb name (py "__properties__") = false) as -> by now apply str_eqb_neq. reflexivity. }
      unfold get_property_name. rewrite (Hl1 pn), Epn by discriminate. rewrite Ef1. cbn [fst snd].
      assert (Hownn : own w1 k name = Some (AProp p)).
      { assert (Hin : In (name, AProp p) (c_attrs (get_cls w1 k))) by (apply (proj1 (filter_In (fun x => is_prop P V (snd x)) (name, AProp p) (c_attrs (get_cls w1 k)))); rewrite Ef1; now left). apply d_get_nodup; [|exact Hin]. destruct Hw1 as [->| ->]; [apply Hd|now apply dicts_set]. }
      assert (Hn : name <> pn). { intros ->. pose proof (proj1 (find_attr_none _ _ w _ pn) Epn k Hself) as H. rewrite Ho1 in Hownn. congruence. }
      assert (Hln : lookup w k name <> None). { intros E. pose proof (proj1 (find_attr_none _ _ w _ name) E k Hself) as H. destruct Hw1 as [->| ->]; [congruence|]. rewrite own_set_other in Hownn by now right. congruence. }
      set (w2 := set_attr w1 k pn (AStr name)).
      assert (Hl2 : lookup w2 k name <> None). { unfold w2. rewrite lookup_set_other by exact Hn. now rewrite Hl1. }
      destruct (lookup w2 k name) as [a|] eqn:Ea; [|congruence].
      destruct (Hfin w2 (d_merge (get_all P V w1 k names1) [(name, a)])) as [F1 F2].
      * unfold w2. now rewrite set_attr_length.
      * unfold w2. now rewrite mro_set.
      * cbn. apply d_set_nodup, get_all_nodup, Hnn.
      * intros q Hq. pose proof (d_get_merge pn [(name, a)] (get_all P V w1 k names1)) as Hgm. rewrite Hgm in Hq. cbn [last_of] in Hq. destruct (str_eqb pn name) eqn:Eps; [apply str_eqb_eq in Eps; congruence|].
        rewrite Hga in Hq. destruct (mem_str pn names1); [|discriminate]. rewrite (Hl1 pn), Epn in Hq by discriminate. discriminate.
      * eexists. split; [reflexivity|]. split; [right; exists name; split; [rewrite F1; unfold w2; now apply own_set_same|exact Hln]|]. split.
        -- intros _. apply F2. intros E. pose proof (proj1 (find_attr_none _ _ w2 _ pn) E k) as H. unfold w2 in H. rewrite mro_set, Hm1, own_set_same in H by assumption. specialize (H Hself). discriminate.
        -- intros n Hx. apply F2. revert Hx. apply lookup_mono; [unfold w2; now rewrite mro_set|]. intros b Hb. apply own_set_mono. auto.
  - destruct (Hfin w1 (get_all P V w1 k names1) Hk1 Hm1) as [F1 F2].
    + now apply get_all_nodup.
    + intros p Hp. rewrite Hga in Hp. destruct (mem_str pn names1); [|discriminate]. rewrite (Hl1 pn) in Hp by discriminate. destruct (Hstr _ Hp). discriminate.
    + eexists. split; [reflexivity|]. split; [left; rewrite F1; exact Ho1|]. split; [congruence|]. intros n Hn. apply F2. revert Hn. apply lookup_mono; auto.
Qed.

(** ** the condition on property classes *)
(** either it is no property class, or every cached name it can see is a visible name, and it (or an ancestor, in the package) has a cached name or exactly one property of its own *)
Definition naming_ok (w : world) (keys : list nat) (c : nat) : Prop :=
  (forall a v, In a (mro w c) -> own w a pn = Some v -> exists s, v = AStr s /\ lookup w a s <> None) /\
  (lookup w c gpn <> None -> lookup w c pn <> None \/ (exists a, In a keys /\ In a (mro w c) /\ a <> c /\ lookup w a gpn <> None) \/ single_property (c_attrs (get_cls w c))).
Definition named (w0 : world) (done : ref) (w : world) : Prop := forall a j, In (a, j) done ->
  (forall v, own w j pn = Some v -> exists s, v = AStr s /\ lookup w j s <> None) /\ (lookup w0 a gpn <> None -> lookup w j pn <> None).

Lemma filter_wrap d : filter (fun x => is_prop P V (snd x)) (wrap_callables P V wrap_call d) = filter (fun x => is_prop P V (snd x)) d.
Proof. induction d as [|[n a] d IH]; [reflexivity|]. cbn [wrap_callables map] in *. destruct a; cbn [Kamino.wrap_attr fst snd filter is_prop]; unfold wrap_callables in IH; rewrite IH; reflexivity. Qed.

Lemma clone_class_ok w0 keys done w c : wf P V w0 -> (forall d, In d keys -> d < List.length w0) -> cloned w0 keys done w -> dicts P V w -> exact_mro w0 keys done w -> attrs_ok w0 done w -> named w0 done w ->
  In c keys -> ~ In c (map fst done) -> (forall a, In a (candidates P V w0 keys c) -> In a (map fst done)) -> regular w0 keys c -> naming_ok w0 keys c ->
  exists w' k, clone_class w keys done c = (w', Ok k) /\ named w0 (done ++ [(c, k)]) w'.
Proof.
  intros Hw0 Hkl Hc Hd Hex Ha Hnm Hck Hcn Hcand Hreg [Hn1 Hn2]. pose proof (Hkl c Hck) as Hc0. pose proof (mro_self P V w0 Hw0 c Hc0) as Hself.
  destruct (new_class_exact P V wrap_call package_ref w0 keys done w c Hw0 Hkl Hc Hex Hck Hcn Hcand Hreg) as (m & w1 & Em & En & Mk) || destruct (new_class_exact P V w0 keys done w c Hw0 Hkl Hc Hex Hck Hcn Hcand Hreg) as (m & w1 & Em & En & Mk).
  set (k := List.length w) in *.
  assert (Hin : forall b, In b (inherits_of P V w keys done c) -> b < List.length w).
  { intros b Hb. unfold inherits_of in Hb. apply in_app_or in Hb as [Hb|[<-|[]]]; [|rewrite (cl_len _ _ _ _ _ _ Hc); lia]. apply (proj1 (filter_some_in _ _)) in Hb. apply in_map_iff in Hb as (p & Hp & _). apply r_get_in in Hp. eapply cloned_snd in Hp; eauto. lia. }
  pose proof (wf_new P V w _ _ _ _ _ (cl_wf _ _ _ _ _ _ Hc) Hin En) as Hwf1.
  unfold Kamino.clone_class. fold (inherits_of P V w keys done c). rewrite En.
  pose proof En as En'. unfold new_class in En'. destruct (has_dup _); [discriminate|]. destruct (c3 _) as [m1|] eqn:E3; [|discriminate]. injection En' as Ew1. fold k in Ew1.
  assert (Gk : get_cls w1 k = mkCls (c_name (get_cls w c)) (inherits_of P V w keys done c) (k :: m1) (c_attrs (get_cls w c))) by (rewrite <- Ew1; unfold get_cls, k; rewrite app_nth2, Nat.sub_diag by lia; reflexivity).
  assert (Go : forall d, d < List.length w -> get_cls w1 d = get_cls w d) by (intros d Hd'; rewrite <- Ew1; now apply get_app).
  assert (Hl1 : List.length w1 = S k) by (rewrite <- Ew1, app_length; cbn; unfold k; lia).
  set (kc := mkCls (c_name (get_cls w1 k)) (c_bases (get_cls w1 k)) (c_mro (get_cls w1 k)) (wrap_callables P V wrap_call (c_attrs (get_cls w1 k)))).
  remember (PyClass.set_nth k kc w1) as w2 eqn:Ew2.
  assert (G2k : get_cls w2 k = kc) by (rewrite Ew2; apply set_nth_same; lia).
  assert (G2o : forall d, d <> k -> get_cls w2 d = get_cls w1 d) by (intros d Hne; rewrite Ew2; apply set_nth_other, Hne).
  assert (L2 : List.length w2 = List.length w1) by (rewrite Ew2; apply set_nth_length). clear Ew2.
  assert (M2 : mro w2 k = k :: map (the_clone done) (filter (fun x => mem x keys) m) ++ c :: m) by (unfold mro; rewrite G2k; unfold kc; cbn [c_mro]; exact Mk).
  assert (Hd1 : dicts P V w1) by (rewrite <- Ew1; apply dicts_app; [exact Hd|apply Hd]).
  assert (Hd2 : dicts P V w2). { intros d. destruct (Nat.eq_dec d k) as [->|Hne]; [rewrite G2k; unfold kc; cbn [c_attrs]; rewrite wrap_callables_keys; apply Hd1|rewrite G2o by exact Hne; apply Hd1]. }
  assert (Oo : forall d n, d < k -> own w2 d n = own w d n) by (intros d n Hd'; unfold KaminoAttrs.own; rewrite G2o by lia; now rewrite Go).
  assert (O0 : forall d n, d < List.length w0 -> own w2 d n = own w0 d n) by (intros d n Hd'; assert (d < k) by (unfold k; rewrite (cl_len _ _ _ _ _ _ Hc); lia); rewrite Oo by assumption; unfold KaminoAttrs.own; now rewrite (cl_old _ _ _ _ _ _ Hc d Hd')).
  assert (Ok2 : forall n, own w2 k n = match own w0 c n with Some a => Some (wrap_attr a) | None => None end).
  { intros n. unfold KaminoAttrs.own at 1. rewrite G2k. unfold kc. cbn [c_attrs]. rewrite wrap_callables_get, Gk. cbn [c_attrs]. unfold KaminoAttrs.own. now rewrite <- (cl_old _ _ _ _ _ _ Hc c Hc0). }
  assert (Hanc : forall a, In a (filter (fun x => mem x keys) m) -> In (a, the_clone done a) done /\ In a (mro w0 c) /\ the_clone done a < k).
  { intros a Hfa. apply filter_In in Hfa as [Hac Hak]. apply mem_in in Hak. assert (Hamc : In a (mro w0 c)) by (rewrite Em; now right). assert (Hacand : In a (map fst done)). { apply Hcand, cand_spec. repeat split; auto. intros ->. pose proof (mro_nodup P V w0 Hw0 c Hc0) as N. rewrite Em in N. apply NoDup_cons_iff in N. tauto. }
    destruct (r_get_some a done Hacand) as [j Hj]. unfold the_clone. rewrite Hj. pose proof (r_get_in _ _ _ Hj) as Hji. split; [exact Hji|]. split; [exact Hamc|]. unfold k. eapply cloned_snd; eauto. }
  assert (Mmem : forall x, In x (mro w2 k) <-> x = k \/ (exists a, In a (filter (fun y => mem y keys) m) /\ x = the_clone done a) \/ In x (mro w0 c)).
  { intros x. rewrite M2, Em. cbn [In]. rewrite in_app_iff, in_map_iff. cbn [In]. split.
    - intros [H|[(a & E & H)|H]]; [left; auto|right; left; eauto|right; right; exact H].
    - intros [->|[(a & H & ->)|H]]; [now left|right; left; eauto|right; right; exact H]. }
  assert (Mw : forall j, j < k -> mro w2 j = mro w j) by (intros j Hj; unfold mro; rewrite G2o by lia; now rewrite Go).
  assert (Hsub : forall a y, In a (filter (fun z => mem z keys) m) -> In y (mro w (the_clone done a)) -> In y (mro w2 k) /\ y < k).
  { intros a y Hfa Hy. destruct (Hanc a Hfa) as (A1 & A2 & A3). assert (y < k). { pose proof (mro_lt P V w (cl_wf _ _ _ _ _ _ Hc) (the_clone done a) y A3 Hy). unfold k. tauto. } split; [|assumption].
    apply Mmem. apply (cl_mro _ _ _ _ _ _ Hc a _ y A1) in Hy as [Hy|(b & Hby & Hba)].
    - right. right. eapply mro_trans; eauto.
    - right. left. assert (Hbc : In b (mro w0 c)) by (eapply mro_trans; eauto). exists b. split.
      + apply filter_In. split.
        * rewrite Em in Hbc. destruct Hbc as [->|Hbc]; [|exact Hbc]. exfalso. pose proof (mro_lt P V w0 Hw0 a b) as Hba'. assert (a < List.length w0) by apply (mro_lt P V w0 Hw0 b a Hc0 A2). specialize (Hba' H0 Hba).
          apply filter_In in Hfa as [Hfa _]. pose proof (mro_lt P V w0 Hw0 b a) as Hca. rewrite Em in Hca. specialize (Hca Hc0 (or_intror Hfa)). assert (a = b) by lia. subst a. pose proof (mro_nodup P V w0 Hw0 b Hc0) as N. rewrite Em in N. apply NoDup_cons_iff in N. tauto.
        * apply mem_in. apply (cl_in _ _ _ _ _ _ Hc). change b with (fst (b, y)). now apply in_map.
      + symmetry. apply the_clone_in; [apply (cl_keys _ _ _ _ _ _ Hc)|exact Hby]. }
  assert (Hvis0 : forall n, lookup w0 c n <> None -> lookup w2 k n <> None).
  { intros n Hv E. apply Hv. apply find_attr_none. intros a Hac. pose proof (mro_lt P V w0 Hw0 c a Hc0 Hac) as [_ Hal]. rewrite <- (O0 a n Hal). apply (proj1 (find_attr_none _ _ w2 _ n) E). apply Mmem. now right; right. }
  assert (Hvisa : forall a n, In a (filter (fun z => mem z keys) m) -> lookup w (the_clone done a) n <> None -> lookup w2 k n <> None).
  { intros a n Hfa Hv E. apply Hv. apply find_attr_none. intros y Hy. destruct (Hsub a y Hfa Hy) as [Hy2 Hyk]. rewrite <- (Oo y n Hyk). now apply (proj1 (find_attr_none _ _ w2 _ n) E). }
  assert (Hcached : forall v, lookup w2 k pn = Some v -> exists s, v = AStr s /\ lookup w2 k s <> None).
  { intros v Hv. apply find_attr_some in Hv as (x & Hx & Ex). apply Mmem in Hx as [->|[(a & Hfa & ->)|Hx]].
    - rewrite Ok2 in Ex. destruct (own w0 c pn) as [u|] eqn:Eu; [|discriminate]. injection Ex as <-. destruct (Hn1 c u Hself Eu) as (s & -> & Hs). exists s. split; [reflexivity|now apply Hvis0].
    - destruct (Hanc a Hfa) as (A1 & A2 & A3). rewrite Oo in Ex by exact A3. destruct (Hnm a _ A1) as [B1 _]. destruct (B1 v Ex) as (s & -> & Hs). exists s. split; [reflexivity|now apply (Hvisa a)].
    - pose proof (mro_lt P V w0 Hw0 c x Hc0 Hx) as [_ Hxl]. rewrite O0 in Ex by exact Hxl. destruct (Hn1 x v Hx Ex) as (s & -> & Hs). exists s. split; [reflexivity|]. apply Hvis0. intros E. apply Hs. apply find_attr_none. intros y Hy. apply (proj1 (find_attr_none _ _ w0 _ s) E). eapply mro_trans; eauto. }
  assert (Hgpn : lookup w2 k gpn <> None -> lookup w0 c gpn <> None).
  { intros Hv E. apply Hv. apply find_attr_none. intros x Hx. apply Mmem in Hx as [->|[(a & Hfa & ->)|Hx]].
    - rewrite Ok2. rewrite (proj1 (find_attr_none _ _ w0 _ gpn) E c Hself). reflexivity.
    - destruct (Hanc a Hfa) as (A1 & A2 & A3). rewrite Oo by exact A3. assert (Hs : ~ special gpn) by (intros [H|[H|H]]; discriminate).
      assert (E2 : lookup w0 a gpn = None). { apply find_attr_none. intros y Hy. apply (proj1 (find_attr_none _ _ w0 _ gpn) E). eapply mro_trans; eauto. }
      pose proof (proj2 (visible_same P V wrap_prop wrap_call package_ref w0 keys done w Hw0 Hkl Hc Ha a _ gpn A1 Hs) E2) as E4 || pose proof (proj2 (visible_same P V wrap_prop wrap_call w0 keys done w Hw0 Hkl Hc Ha a _ gpn A1 Hs) E2) as E4.
      apply (proj1 (find_attr_none _ _ w _ gpn) E4). apply mro_self; [apply (cl_wf _ _ _ _ _ _ Hc)|exact A3].
    - pose proof (mro_lt P V w0 Hw0 c x Hc0 Hx) as [_ Hxl]. rewrite O0 by exact Hxl. now apply (proj1 (find_attr_none _ _ w0 _ gpn) E). }
  destruct (wrap_ok w2 k) as (w3 & E3w & F1 & F2 & F3).
  - lia.
  - exact Hd2.
  - intros Hg. destruct (lookup w2 k pn) as [v|] eqn:Epn.
    + destruct (Hcached v eq_refl) as (s & -> & Hs). left. eauto.
    + right. split; [reflexivity|]. split; [|rewrite M2; now left]. destruct (Hn2 (Hgpn Hg)) as [H|[(a & A1 & A2 & A3 & A4)|H]].
      * exfalso. now apply (Hvis0 pn H).
      * exfalso. assert (Hfa : In a (filter (fun z => mem z keys) m)) by (apply filter_In; split; [rewrite Em in A2; destruct A2 as [A2|A2]; [congruence|exact A2]|now apply mem_in]). destruct (Hanc a Hfa) as (B1 & _). apply (Hvisa a pn Hfa); [|exact Epn]. now apply (proj2 (Hnm a _ B1)).
      * unfold single_property. rewrite G2k. unfold kc. cbn [c_attrs]. rewrite filter_wrap, Gk. cbn [c_attrs]. rewrite (cl_old _ _ _ _ _ _ Hc c Hc0). exact H.
  - intros v Hv. destruct (Hcached v Hv) as (s & -> & _). eauto.
  - match goal with |- exists _ _, (match ?X with _ => _ end) = _ /\ _ => replace X with (w3, @Ok unit tt) by (symmetry; exact E3w) end.
    exists (set_attr w3 k (py "__jsonld_package__") (AOther package_ref)), k. split; [reflexivity|].
    pose proof (only_wrap_properties P V wrap_prop w2 k) as Hon. rewrite E3w in Hon. cbn [fst] in Hon. destruct Hon as ((S1 & S2 & S3) & Hoth & _).
    assert (Hk3 : k < List.length w3) by lia.
    assert (Hmono : forall n, lookup w2 k n <> None -> lookup (set_attr w3 k (py "__jsonld_package__") (AOther package_ref)) k n <> None).
    { intros n H. generalize (F3 n H). apply lookup_mono; [apply mro_set|]. intros a. apply own_set_mono. }
    intros a j Haj. apply in_app_or in Haj as [Haj|[E|[]]].
    + pose proof (cloned_snd _ _ _ _ _ _ _ _ Hc Haj) as Hjl. assert (Hjk : j < k) by (unfold k; lia).
      assert (Hsame : forall d, d < k -> get_cls (set_attr w3 k (py "__jsonld_package__") (AOther package_ref)) d = get_cls w d) by (intros d Hd'; rewrite get_set_other by lia; rewrite Hoth by lia; rewrite G2o by lia; now apply Go).
      assert (Hlk : forall n, lookup (set_attr w3 k (py "__jsonld_package__") (AOther package_ref)) j n = lookup w j n).
      { intros n. unfold lookup, mro. rewrite Hsame by exact Hjk. apply find_attr_ext. intros y Hy. unfold KaminoAttrs.own. rewrite Hsame; [reflexivity|]. pose proof (mro_lt P V w (cl_wf _ _ _ _ _ _ Hc) j y Hjk Hy). unfold k. tauto. }
      destruct (Hnm a j Haj) as [B1 B2]. split; [|rewrite Hlk; exact B2]. intros v. unfold KaminoAttrs.own. rewrite Hsame by exact Hjk. intros Ev. destruct (B1 v Ev) as (s & -> & Hs). exists s. split; [reflexivity|]. now rewrite Hlk.
    + injection E as <- <-. split.
      * intros v. rewrite own_set_other by (right; discriminate). intros Ev. destruct F1 as [F1|(name & F1 & Hln)].
        -- rewrite F1 in Ev. assert (Hv : lookup w2 k pn = Some v) by (unfold lookup; rewrite M2; cbn [find_attr]; unfold KaminoAttrs.own in Ev; now rewrite Ev). destruct (Hcached v Hv) as (s & -> & Hs). exists s. split; [reflexivity|now apply Hmono].
        -- rewrite F1 in Ev. injection Ev as <-. exists name. split; [reflexivity|now apply Hmono].
      * intros Hg. assert (Hg2 : lookup w2 k gpn <> None) by now apply Hvis0. rewrite lookup_set_other by discriminate. now apply F2.
Qed.

(** ** all classes *)
Lemma attrs_ok_app w0 a b w : attrs_ok w0 a w -> attrs_ok w0 b w -> attrs_ok w0 (a ++ b) w.
Proof. intros H1 H2 c k Hi. apply in_app_or in Hi as [Hi|Hi]; auto. Qed.
Lemma clone_nodes_full w0 keys l : wf P V w0 -> dicts P V w0 -> (forall d, In d keys -> d < List.length w0) -> ok_order P V w0 keys l ->
  forall todo w done, cloned w0 keys done w -> dicts P V w -> attrs_ok w0 done w -> map fst done ++ todo = l ->
  (forall w' done', clone_nodes w keys done todo = (w', Ok done') -> dicts P V w' /\ attrs_ok w0 done' w' /\ ((forall c, In c keys -> regular w0 keys c) -> exact_mro w0 keys done w -> exact_mro w0 keys done' w')) /\
  ((forall c, In c keys -> regular w0 keys c /\ naming_ok w0 keys c) -> exact_mro w0 keys done w -> named w0 done w -> exists w' done', clone_nodes w keys done todo = (w', Ok done')).
Proof.
  intros Hw0 Hd0 Hkl Hl. induction todo as [|c todo IH]; intros w done Hc Hd Ha El; cbn [Kamino.clone_nodes].
  - split; [intros w' done' E; injection E as <- <-; auto|]. intros. eauto.
  - pose proof Hl as (L1 & L2 & L3). assert (Hck : In c keys) by (apply L2; rewrite <- El; apply in_or_app; right; now left).
    assert (Hcn : ~ In c (map fst done)). { rewrite <- El in L1. apply NoDup_remove_2 in L1. intros H. apply L1. apply in_or_app. now left. }
    assert (Hcand : forall a, In a (candidates P V w0 keys c) -> In a (map fst done)) by (intros a Hac; eapply (ancestors_first P V w0 Hw0 keys Hkl l Hl); [symmetry; exact El|exact Hac]).
    assert (El' : forall k, map fst (done ++ [(c, k)]) ++ todo = l) by (intros k; rewrite map_app, <- app_assoc; exact El).
    assert (Hstep : forall w1 k, clone_class w keys done c = (w1, Ok k) -> cloned w0 keys (done ++ [(c, k)]) w1 /\ dicts P V w1 /\ attrs_ok w0 (done ++ [(c, k)]) w1).
    { intros w1 k E1. destruct (cloned_step P V wrap_prop wrap_call package_ref w0 keys done w c w1 k Hw0 Hkl Hc Hck Hcn Hcand E1) as [Ek Hc1].
      destruct (clone_class_attrs P V wrap_prop wrap_call package_ref w0 keys done w c w1 k Hw0 Hd Hc (Hkl c Hck) E1) as [Hd1 Ha1]. split; [exact Hc1|]. split; [exact Hd1|]. apply attrs_ok_app; [|exact Ha1].
      assert (Hsame : forall d, d < List.length w -> get_cls w1 d = get_cls w d).
      { intros d Hdl. pose proof (clone_class_inv P V wrap_prop wrap_call package_ref _ _ _ _ _ _ E1) as Hinv. destruct (new_class w (c_name (get_cls w c)) (inherits_of P V w keys done c) (c_attrs (get_cls w c))) as [[w2 k2]|e] eqn:En; [|destruct Hinv; discriminate].
        destruct Hinv as [(_ & Ho & _) _]. unfold new_class in En. destruct (has_dup _); [discriminate|]. destruct (c3 _); [|discriminate]. injection En as <- <-. rewrite Ho by lia. now apply get_app. }
      eapply attrs_ok_mono; [apply (cl_wf _ _ _ _ _ _ Hc)| |exact Hsame|exact Ha]. intros a j Haj. apply (cloned_snd _ _ _ _ _ _ _ _ Hc Haj). }
    split.
    + intros w' done'. destruct (clone_class w keys done c) as [w1 [k|e]] eqn:E1; [|discriminate]. destruct (Hstep w1 k eq_refl) as (Hc1 & Hd1 & Ha1). intros E.
      destruct (IH w1 (done ++ [(c, k)]) Hc1 Hd1 Ha1 (El' k)) as [I1 _]. destruct (I1 w' done' E) as (J1 & J2 & J3). split; [exact J1|]. split; [exact J2|]. intros Hr Hex. apply J3; [exact Hr|].
      eapply exact_step; eauto.
    + intros Hr Hex Hnm. destruct (Hr c Hck) as [Hr1 Hr2]. destruct (clone_class_ok w0 keys done w c Hw0 Hkl Hc Hd Hex Ha Hnm Hck Hcn Hcand Hr1 Hr2) as (w1 & k & E1 & Hnm1). rewrite E1.
      destruct (Hstep w1 k E1) as (Hc1 & Hd1 & Ha1). destruct (IH w1 (done ++ [(c, k)]) Hc1 Hd1 Ha1 (El' k)) as [_ I2]. apply I2; auto. eapply exact_step; eauto.
Qed.
End Done.
