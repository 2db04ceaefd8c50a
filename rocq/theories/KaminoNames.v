(** the property name of a cloned property class *)
From Coq Require Import String Permutation.
From Verif Require Import Base BaseFacts Dict DictFacts PyClass PyClassFacts Kamino KaminoOrder KaminoFacts KaminoMro KaminoAttrs KaminoExact KaminoResolve KaminoDone KaminoMarks.
Open Scope list_scope.

Section Names.
Variables P V : Type.
Notation world := (world P V).
Notation attr := (attr P V).
Variable wrap_prop : P -> P.
Variable wrap_call : V -> V.
Variable package_ref : V.
Notation clone_class := (clone_class P V wrap_prop wrap_call package_ref).
Notation clone_nodes := (clone_nodes P V wrap_prop wrap_call package_ref).
Notation clone_classes := (clone_classes P V wrap_prop wrap_call package_ref).
Notation wrap_attr := (wrap_attr P V wrap_call).
Notation cloned := (cloned P V).
Notation own := (own P V).
Notation gp := (py "__get_properties__").
Notation gpn := (py "__get_property_name__").
Notation pn := (py "__property_name__").
Notation pp := (py "__properties__").
Notation pk := (py "__jsonld_package__").

(** one clone, taken apart *)
Lemma clone_class_parts w0 keys done w c w' k : dicts P V w -> cloned w0 keys done w -> c < List.length w0 -> clone_class w keys done c = (w', Ok k) ->
  exists w2 w3 m, k = List.length w /\ List.length w2 = S (List.length w) /\ dicts P V w2 /\ mro w2 k = k :: m /\ ~ In k m /\ (forall a, In a m -> a < k) /\
    c3 (map (mro w) (inherits_of P V w keys done c) ++ [inherits_of P V w keys done c]) = Some m /\
    (forall d, d < k -> get_cls w2 d = get_cls w d) /\ c_attrs (get_cls w2 k) = wrap_callables P V wrap_call (c_attrs (get_cls w c)) /\
    wrap_properties P V wrap_prop w2 k = (w3, Ok tt) /\ w' = set_attr w3 k pk (AOther package_ref).
Proof using.
  intros Hd Hc Hc0. unfold Kamino.clone_class. fold (inherits_of P V w keys done c). destruct (new_class w (c_name (get_cls w c)) (inherits_of P V w keys done c) (c_attrs (get_cls w c))) as [[w1 k1]|e] eqn:En; [|discriminate].
  assert (Hin : forall b, In b (inherits_of P V w keys done c) -> b < List.length w).
  { intros b Hb. unfold inherits_of in Hb. apply in_app_or in Hb as [Hb|[<-|[]]]; [|rewrite (cl_len _ _ _ _ _ _ Hc); lia]. apply (proj1 (filter_some_in _ _)) in Hb. apply in_map_iff in Hb as (p & Hp & _). apply r_get_in in Hp. eapply cloned_snd in Hp; eauto. lia. }
  pose proof (wf_new P V w _ _ _ _ _ (cl_wf _ _ _ _ _ _ Hc) Hin En) as Hwf1.
  unfold new_class in En. destruct (has_dup _); [discriminate|]. destruct (c3 _) as [m|] eqn:Em; [|discriminate]. injection En as Ew1 Ek1. subst k1.
  assert (Gk : get_cls w1 (List.length w) = mkCls (c_name (get_cls w c)) (inherits_of P V w keys done c) (List.length w :: m) (c_attrs (get_cls w c))) by (rewrite <- Ew1; unfold get_cls; rewrite app_nth2, Nat.sub_diag by lia; reflexivity).
  assert (Hl1 : List.length w1 = S (List.length w)) by (rewrite <- Ew1, app_length; cbn; lia).
  destruct (wf_mro P V w1 Hwf1 (List.length w) ltac:(lia)) as (m' & Em' & Hnm & Hlt & _). unfold mro in Em'. rewrite Gk in Em'. cbn [c_mro] in Em'. injection Em' as <-.
  set (kc := mkCls (c_name (get_cls w1 (List.length w))) (c_bases (get_cls w1 (List.length w))) (c_mro (get_cls w1 (List.length w))) (wrap_callables P V wrap_call (c_attrs (get_cls w1 (List.length w))))).
  remember (PyClass.set_nth (List.length w) kc w1) as w2 eqn:Ew2.
  assert (G2k : get_cls w2 (List.length w) = kc) by (rewrite Ew2; apply set_nth_same; lia).
  assert (G2o : forall d, d <> List.length w -> get_cls w2 d = get_cls w1 d) by (intros d Hne; rewrite Ew2; apply set_nth_other, Hne).
  assert (L2 : List.length w2 = List.length w1) by (rewrite Ew2; apply set_nth_length).
  assert (M2 : mro w2 (List.length w) = List.length w :: m) by (unfold mro; rewrite G2k; unfold kc; rewrite Gk; reflexivity).
  assert (Hd1 : dicts P V w1) by (rewrite <- Ew1; apply dicts_app; [exact Hd|apply Hd]).
  assert (Hd2 : dicts P V w2). { intros d. destruct (Nat.eq_dec d (List.length w)) as [->|Hne]; [rewrite G2k; unfold kc; cbn [c_attrs]; rewrite wrap_callables_keys; apply Hd1|rewrite G2o by exact Hne; apply Hd1]. }
  clear Ew2. destruct (wrap_properties P V wrap_prop w2 (List.length w)) as [w3 [u|e]] eqn:E3; [|discriminate]. destruct u. intros E4. assert (Ew' : w' = set_attr w3 (List.length w) pk (AOther package_ref)) by congruence. assert (Ek' : k = List.length w) by congruence. subst w' k. clear E4.
  exists w2, w3, m. split; [reflexivity|]. split; [lia|]. split; [exact Hd2|]. split; [exact M2|]. split; [apply NoDup_cons_iff in Hnm; tauto|]. split; [exact Hlt|]. split; [reflexivity|].
  split. { intros d Hdl. rewrite G2o by lia. rewrite <- Ew1. now apply get_app. } split; [rewrite G2k; unfold kc; rewrite Gk; reflexivity|]. split; [exact E3|reflexivity].
Qed.

(** lifting to all classes *)
Lemma clone_nodes_lift (Q : world -> nat -> nat -> Prop) w0 keys l : wf P V w0 -> dicts P V w0 -> (forall d, In d keys -> d < List.length w0) -> ok_order P V w0 keys l ->
  (forall w w' c k, wf P V w -> k < List.length w -> (forall d, d < List.length w -> get_cls w' d = get_cls w d) -> Q w c k -> Q w' c k) ->
  (forall w done c w' k, cloned w0 keys done w -> dicts P V w -> In c keys -> clone_class w keys done c = (w', Ok k) -> Q w' c k) ->
  forall todo w done, cloned w0 keys done w -> dicts P V w -> map fst done ++ todo = l -> (forall c k, In (c, k) done -> Q w c k) ->
  forall w' done', clone_nodes w keys done todo = (w', Ok done') -> forall c k, In (c, k) done' -> Q w' c k.
Proof using.
  intros Hw0 Hd0 Hkl Hl Hmono Hstep. induction todo as [|c todo IH]; intros w done Hc Hd El Hmk w' done'; cbn [Kamino.clone_nodes]; [intros E; injection E as <- <-; exact Hmk|].
  pose proof Hl as (L1 & L2 & L3). assert (Hck : In c keys) by (apply L2; rewrite <- El; apply in_or_app; right; now left).
  assert (Hcn : ~ In c (map fst done)). { rewrite <- El in L1. apply NoDup_remove_2 in L1. intros H. apply L1. apply in_or_app. now left. }
  assert (Hcand : forall a, In a (candidates P V w0 keys c) -> In a (map fst done)) by (intros a Hac; eapply (ancestors_first P V w0 Hw0 keys Hkl l Hl); [symmetry; exact El|exact Hac]).
  destruct (clone_class w keys done c) as [w1 [k|e]] eqn:E1; [|discriminate].
  destruct (cloned_step P V wrap_prop wrap_call package_ref w0 keys done w c w1 k Hw0 Hkl Hc Hck Hcn Hcand E1) as [Ek Hc1].
  destruct (clone_class_attrs P V wrap_prop wrap_call package_ref w0 keys done w c w1 k Hw0 Hd Hc (Hkl c Hck) E1) as [Hd1 _].
  assert (Hsame : forall d, d < List.length w -> get_cls w1 d = get_cls w d).
  { intros d Hdl. pose proof (clone_class_inv P V wrap_prop wrap_call package_ref _ _ _ _ _ _ E1) as Hinv. destruct (new_class w (c_name (get_cls w c)) (inherits_of P V w keys done c) (c_attrs (get_cls w c))) as [[w2 k2]|e] eqn:En; [|destruct Hinv; discriminate].
    destruct Hinv as [(_ & Ho & _) _]. unfold new_class in En. destruct (has_dup _); [discriminate|]. destruct (c3 _); [|discriminate]. injection En as <- <-. rewrite Ho by lia. now apply get_app. }
  apply IH; auto; [rewrite map_app, <- app_assoc; exact El|]. intros a j Haj. apply in_app_or in Haj as [Haj|[E|[]]].
  - refine (Hmono w w1 a j (cl_wf _ _ _ _ _ _ Hc) _ Hsame (Hmk a j Haj)). apply (cloned_snd _ _ _ _ _ _ _ _ Hc Haj).
  - injection E as <- <-. exact (Hstep w done c w1 _ Hc Hd Hck E1).
Qed.
Lemma clone_classes_lift (Q : world -> nat -> nat -> Prop) w classes w' rf : wf P V w -> dicts P V w -> (forall c, In c classes -> c < List.length w) ->
  (forall w w' c k, wf P V w -> k < List.length w -> (forall d, d < List.length w -> get_cls w' d = get_cls w d) -> Q w c k -> Q w' c k) ->
  (forall keys w1 done c w2 k, (forall x, In x keys <-> In x classes) -> cloned w keys done w1 -> dicts P V w1 -> In c keys -> clone_class w1 keys done c = (w2, Ok k) -> Q w2 c k) ->
  clone_classes w classes = (w', Ok rf) -> forall c k, In (c, k) rf -> Q w' c k.
Proof using.
  intros Hw Hd Hlt Hmono Hstep. unfold Kamino.clone_classes. set (keys := keys_of [] (sort_by_deps P V w classes)).
  assert (Hkn : NoDup keys) by apply keys_nodup. assert (Hki : forall c, In c keys <-> In c classes) by (intros c; apply keys_in).
  assert (Hkl : forall c, In c keys -> c < List.length w) by (intros c Hc; apply Hlt, Hki, Hc). clearbody keys.
  destruct (order_ok P V w Hw keys Hkn Hkl) as (l & El & Hl & Hperm). rewrite El.
  destruct (clone_nodes w keys [] l) as [w1 [done|e]] eqn:E1; [|discriminate]. intros E. assert (w' = w1) by congruence. subst w'. injection E as <-.
  intros c k Hck. apply in_flat_map in Hck as (x & _ & Hx). destruct (r_get x done) as [j|] eqn:Ej; [|destruct Hx]. destruct Hx as [Hx|[]]. injection Hx as <- <-. apply r_get_in in Ej.
  eapply (clone_nodes_lift Q w keys l Hw Hd Hkl Hl Hmono) with (todo := l) (w := w) (done := []); eauto.
  - now apply cloned_start.
  - intros a b [].
Qed.

(** the name is cached, and its property is wrapped *)
Lemma wrap_names_other l : forall w k j x, j <> k -> own (wrap_names P V wrap_prop w k l) j x = own w j x.
Proof using. intros w k j x Hj. unfold KaminoAttrs.own. now rewrite (proj1 (proj2 (only_wrap_names P V wrap_prop l k w))). Qed.
Lemma lookup_own (w : world) k m x : mro w k = k :: m -> lookup w k x = match own w k x with Some v => Some v | None => find_attr w m x end.
Proof using. intros E. unfold lookup. now rewrite E. Qed.
Definition named_prop (w : world) (k : nat) : Prop := lookup w k gpn <> None -> exists s, lookup w k pn = Some (AStr s) /\
  (forall p, lookup w k s = Some (AProp p) -> own w k s = Some (AProp p) /\ exists q, p = wrap_prop q).
Lemma wrap_properties_name (w : world) k m w' : k < List.length w -> dicts P V w -> mro w k = k :: m -> ~ In k m -> wrap_properties P V wrap_prop w k = (w', Ok tt) -> named_prop w' k /\
  (lookup w k pn = None -> lookup w k gpn <> None -> lookup w k gp = None -> exists s p, filter (fun x => is_prop P V (snd x)) (c_attrs (get_cls w k)) = [(s, p)] /\ lookup w' k pn = Some (AStr s)).
Proof using.
  intros Hk Hd Em Hkm E. destruct (wrap_properties_get P V wrap_prop w k m w' Hk Hd Em Hkm E) as [_ Hwg]. pose proof (only_wrap_properties P V wrap_prop w k) as Honly. rewrite E in Honly. cbn [fst] in Honly. destruct Honly as ((_ & Hmro & _) & Hoth & _).
  revert E. unfold wrap_properties. unfold get_properties.
  remember (if has P V w k "__get_properties__" then (set_attr w k pp (ANames (property_names P V w k)), property_names P V w k) else (w, [])) as x1 eqn:E1.
  destruct x1 as [w1 names]. assert (H1 : w1 = w \/ w1 = set_attr w k pp (ANames (property_names P V w k))) by (destruct (has P V w k "__get_properties__"); injection E1 as -> ->; auto).
  assert (H1' : lookup w k gp = None -> w1 = w) by (intros Eg; unfold has in E1; rewrite Eg in E1; congruence).
  assert (Hnd : NoDup names) by (destruct (has P V w k "__get_properties__"); injection E1 as -> ->; [apply dedup_nodup|constructor]). clear E1.
  assert (Hl1 : k < List.length w1) by (destruct H1 as [-> | ->]; [|rewrite set_attr_length]; exact Hk).
  assert (Hm1 : mro w1 k = k :: m) by (destruct H1 as [-> | ->]; [|rewrite mro_set]; exact Em).
  assert (Hgpn1 : lookup w1 k gpn = lookup w k gpn) by (destruct H1 as [-> | ->]; [reflexivity|apply lookup_set_other; discriminate]).
  assert (Hpn1 : lookup w1 k pn = lookup w k pn) by (destruct H1 as [-> | ->]; [reflexivity|apply lookup_set_other; discriminate]).
  assert (Hfind : forall x, find_attr w' m x = find_attr w m x) by (intros x; apply find_attr_ext; intros a Ha; unfold KaminoAttrs.own; rewrite Hoth; [reflexivity|intros ->; contradiction]).
  destruct (has P V w1 k "__get_property_name__") eqn:Eh.
  - destruct (get_property_name P V w1 k) as [w2 r] eqn:E2. destruct r as [name|e]; [|discriminate]. destruct (lookup w2 k name) as [a|] eqn:Ea; [|discriminate]. intros E. assert (Ew' : w' = wrap_names P V wrap_prop w2 k (d_merge (get_all P V w1 k names) [(name, a)])) by congruence. clear E.
    assert (Hw2 : (w2 = w1 /\ lookup w1 k pn = Some (AStr name)) \/ (lookup w1 k pn = None /\ w2 = set_attr w1 k pn (AStr name) /\ exists p, filter (fun x => is_prop P V (snd x)) (c_attrs (get_cls w1 k)) = [(name, p)])).
    { revert E2. unfold get_property_name. destruct (lookup w1 k pn) as [b|] eqn:Eb.
      - destruct b; intros E2; try discriminate. left. assert (w2 = w1) by congruence. assert (s = name) by congruence. now subst.
      - destruct (filter _ _) as [|[x b] [|? ?]] eqn:Ef; intros E2; try discriminate. right. assert (x = name) by congruence. subst x. assert (w2 = set_attr w1 k pn (AStr name)) by congruence. split; [reflexivity|]. split; [assumption|]. now exists b. }
    assert (Hl2 : k < List.length w2) by (destruct Hw2 as [[-> _]|(_ & -> & _)]; [|rewrite set_attr_length]; exact Hl1).
    assert (Hm2 : mro w2 k = k :: m) by (destruct Hw2 as [[-> _]|(_ & -> & _)]; [|rewrite mro_set]; exact Hm1).
    assert (Hpn2 : lookup w2 k pn = Some (AStr name)). { destruct Hw2 as [[-> H]|(_ & -> & _)]; [exact H|]. rewrite (lookup_own _ _ m) by (now rewrite mro_set). now rewrite own_set_same. }
    set (l := d_merge (get_all P V w1 k names) [(name, a)]) in *. assert (Hnl : NoDup (map fst l)) by (unfold l; cbn; apply d_set_nodup, get_all_nodup, Hnd).
    assert (Hget : forall x, own w' k x = match d_get x l with Some (AProp p) => Some (AProp (wrap_prop p)) | _ => own w2 k x end) by (intros x; rewrite Ew'; now apply wrap_names_get).
    assert (Hgetl : forall x, d_get x l = if str_eqb x name then Some a else if mem_str x names then lookup w1 k x else None).
    { intros x. unfold l. rewrite d_get_merge. cbn [last_of]. destruct (str_eqb x name); [reflexivity|]. now apply get_all_get. }
    assert (Hm' : mro w' k = k :: m) by (rewrite Hmro; exact Em).
    assert (Hfind2 : forall x, find_attr w2 m x = find_attr w m x).
    { intros x. rewrite <- Hfind. apply find_attr_ext. intros b Hb. rewrite Ew'. symmetry. apply wrap_names_other. intros ->. contradiction. }
    assert (Hpn' : lookup w' k pn = Some (AStr name)).
    { rewrite (lookup_own _ _ m) by exact Hm'. rewrite Hfind, Hget, Hgetl. rewrite (lookup_own _ _ m) in Hpn2 by exact Hm2. rewrite Hfind2 in Hpn2. destruct (str_eqb pn name) eqn:En.
      - apply str_eqb_eq in En. subst name. rewrite (lookup_own _ _ m), Hfind2 in Ea by exact Hm2. rewrite Ea in Hpn2. injection Hpn2 as ->. exact Ea.
      - destruct (mem_str pn names); [|exact Hpn2]. destruct Hw2 as [[_ H]|(H & _)]; rewrite H; exact Hpn2. }
    split.
    + intros _. exists name. split; [exact Hpn'|]. intros p. rewrite (lookup_own _ _ m), Hget, Hgetl, str_eqb_refl by exact Hm'. rewrite Hfind. rewrite (lookup_own _ _ m), Hfind2 in Ea by exact Hm2.
      destruct a; try (destruct (own w2 k name) as [y|]; [injection Ea as ->; intros Hx; discriminate|rewrite Ea; intros Hx; discriminate]).
      intros Hx. injection Hx as <-. eauto.
    + intros Hnone _ Hgp. apply H1' in Hgp. subst w1. destruct Hw2 as [[_ H]|(_ & _ & p & Hp)]; [congruence|]. eauto.
  - intros _. assert (Hno : lookup w k gpn = None) by (rewrite <- Hgpn1; unfold has in Eh; destruct (lookup w1 k gpn); [discriminate|reflexivity]).
    split; [|intros _ H; contradiction].
    assert (Hsg : ~ special gpn) by (intros [E'|[E'|E']]; discriminate). intros H. exfalso. apply H.
    rewrite (lookup_own _ _ m), Hfind by (rewrite Hmro; exact Em). specialize (Hwg gpn Hsg). rewrite Hno in Hwg. rewrite Hwg, <- (lookup_own w k m gpn Em). exact Hno.
Qed.
Lemma lookup_later (w w' : world) k x : wf P V w -> k < List.length w -> (forall d, d < List.length w -> get_cls w' d = get_cls w d) -> lookup w' k x = lookup w k x.
Proof using. intros Hw Hk Hs. unfold lookup, mro. rewrite Hs by exact Hk. apply find_attr_ext. intros a Ha. unfold KaminoAttrs.own. rewrite Hs; [reflexivity|]. exact (proj2 (mro_lt P V w Hw k a Hk Ha)). Qed.
Lemma clone_names w classes w' rf : wf P V w -> dicts P V w -> (forall c, In c classes -> c < List.length w) -> clone_classes w classes = (w', Ok rf) ->
  forall c k, In (c, k) rf -> named_prop w' k.
Proof using.
  intros Hw Hd Hlt. apply (clone_classes_lift (fun w _ k => named_prop w k) w classes w' rf Hw Hd Hlt).
  - intros w1 w2 _ k Hw1 Hk Hs H. unfold named_prop in *. rewrite (lookup_later w1 w2 k gpn Hw1 Hk Hs). intros Hg. destruct (H Hg) as (s & H1 & H2). exists s. rewrite !(lookup_later w1 w2 k _ Hw1 Hk Hs). split; [exact H1|]. unfold KaminoAttrs.own. rewrite Hs by exact Hk. exact H2.
  - intros keys w1 done c w2 k Hkeys Hc Hd1 Hck E. assert (Hcl : c < List.length w) by (apply Hlt, Hkeys, Hck).
    destruct (clone_class_parts w keys done w1 c w2 k Hd1 Hc Hcl E) as (wa & wb & m & Hk & Hl & Hda & Hm & Hkm & _ & _ & _ & _ & Ew & Ew2).
    destruct (wrap_properties_name wa k m wb ltac:(lia) Hda Hm Hkm Ew) as [H _]. subst w2. unfold named_prop in *. rewrite !lookup_set_other by discriminate. intros Hg. destruct (H Hg) as (s & H1 & H2).
    exists s. split; [exact H1|]. intros p Hp. destruct (str_dec s pk) as [->|Hne].
    + rewrite (lookup_own _ _ m) in Hp; [|rewrite mro_set; pose proof (only_wrap_properties P V wrap_prop wa k) as Ho; rewrite Ew in Ho; cbn [fst] in Ho; destruct Ho as ((_ & Ho & _) & _); rewrite Ho; exact Hm].
      rewrite own_set_same in Hp; [discriminate|]. pose proof (only_wrap_properties P V wrap_prop wa k) as Ho; rewrite Ew in Ho; cbn [fst] in Ho; destruct Ho as ((Ho & _) & _). rewrite Ho. lia.
    + rewrite lookup_set_other in Hp by exact Hne. rewrite own_set_other by now right. auto.
Qed.
(** a property class with no relatives in the package: its name is that of its only property *)
Lemma clone_standalone w classes w' rf : wf P V w -> dicts P V w -> (forall c, In c classes -> c < List.length w) -> clone_classes w classes = (w', Ok rf) ->
  forall c k, In (c, k) rf -> (forall a, In a classes -> In a (mro w c) -> a = c) -> lookup w c pn = None -> lookup w c gpn <> None -> lookup w c gp = None ->
  exists s p, filter (fun x => is_prop P V (snd x)) (c_attrs (get_cls w c)) = [(s, AProp p)] /\ lookup w' k pn = Some (AStr s) /\ (s <> pk -> own w' k s = Some (AProp (wrap_prop p))).
Proof using.
  intros Hw Hd Hlt. refine (clone_classes_lift (fun x c k => (forall a, In a classes -> In a (mro w c) -> a = c) -> lookup w c pn = None -> lookup w c gpn <> None -> lookup w c gp = None ->
    exists s p, filter (fun x => is_prop P V (snd x)) (c_attrs (get_cls w c)) = [(s, AProp p)] /\ lookup x k pn = Some (AStr s) /\ (s <> pk -> own x k s = Some (AProp (wrap_prop p)))) w classes w' rf Hw Hd Hlt _ _).
  - intros w1 w2 c k Hw1 Hk Hs H A B C D. destruct (H A B C D) as (s & p & H1 & H2 & H3). exists s, p. split; [exact H1|]. rewrite (lookup_later w1 w2 k _ Hw1 Hk Hs). split; [exact H2|]. unfold KaminoAttrs.own. rewrite Hs by exact Hk. exact H3.
  - intros keys w1 done c w2 k Hkeys Hc Hd1 Hck E Halone Hpn Hgpn Hgp. assert (Hcl : c < List.length w) by (apply Hlt, Hkeys, Hck).
    destruct (clone_class_parts w keys done w1 c w2 k Hd1 Hc Hcl E) as (wa & wb & m & Hk & Hl & Hda & Hm & Hkm & Hmlt & Hc3 & Hsame & Hattrs & Ew & Ew2).
    assert (Hlw : List.length w <= List.length w1) by (rewrite (cl_len _ _ _ _ _ _ Hc); lia).
    assert (Hold : forall d, d < List.length w -> get_cls w1 d = get_cls w d) by (exact (cl_old _ _ _ _ _ _ Hc)).
    assert (Hpar : parents P V w1 keys c = []).
    { rewrite (parents_same P V w w1 keys c) by (auto; intros d Hdl; unfold mro; now rewrite Hold). destruct (parents P V w keys c) as [|q l] eqn:Ep; [reflexivity|]. exfalso.
      assert (Hq : In q (parents P V w keys c)) by (rewrite Ep; now left). apply (proj1 (parents_spec P V w keys c q)) in Hq as [Hq _]. apply (proj1 (cand_spec P V w keys c q)) in Hq as (Q1 & Q2 & Q3). apply Q3. apply Halone; [now apply Hkeys|exact Q1]. }
    assert (Hmc : forall a, In a m -> In a (mro w c)).
    { unfold inherits_of in Hc3. rewrite Hpar in Hc3. cbn [map filter_some app] in Hc3. destruct (wf_mro P V w Hw c Hcl) as (mc & Emc & Hndc & _). assert (Emc1 : mro w1 c = c :: mc) by (unfold mro; rewrite Hold by exact Hcl; exact Emc).
      apply c3_sound in Hc3. { destruct Hc3 as (_ & _ & H3). intros a Ha. destruct (H3 a Ha) as (l & Hl' & Hal). rewrite Emc. rewrite Emc1 in Hl'. destruct Hl' as [<-|[<-|[]]]; [exact Hal|]. destruct Hal as [<-|[]]. now left. }
      intros l Hl'. rewrite Emc1 in Hl'. destruct Hl' as [<-|[<-|[]]]; [exact Hndc|]. constructor; [intros []|constructor]. }
    assert (Hfind : forall x, lookup w c x = None -> lookup wa k x = None).
    { intros x Hx. unfold lookup in Hx. pose proof (proj1 (find_attr_none P V w (mro w c) x) Hx) as Hx'. unfold lookup. rewrite Hm. apply find_attr_none. intros a [<-|Ha].
      - unfold KaminoAttrs.own. rewrite Hattrs, wrap_callables_get. rewrite Hold by exact Hcl. destruct (wf_mro P V w Hw c Hcl) as (mc & Emc & _). assert (Hx2 : own w c x = None) by (apply Hx'; rewrite Emc; now left). unfold KaminoAttrs.own in Hx2. now rewrite Hx2.
      - unfold KaminoAttrs.own. pose proof (proj2 (mro_lt P V w Hw c a Hcl (Hmc a Ha))) as Hal. rewrite Hsame by lia. rewrite Hold by exact Hal. apply Hx'. now apply Hmc. }
    assert (Hg2 : lookup wa k gpn <> None).
    { intros Hn. apply Hgpn. unfold lookup in *. apply find_attr_none. pose proof (proj1 (find_attr_none P V wa (mro wa k) gpn) Hn) as Hx'. intros a Ha.
      assert (Hcm : In c m). { unfold inherits_of in Hc3. apply c3_sound in Hc3. - destruct Hc3 as (_ & H2 & _). refine (ss_in _ _ (H2 (_ ++ [c]) _) c _); apply in_or_app; right; now left.
        - intros l Hl'. apply in_app_or in Hl' as [Hl'|[<-|[]]]; [|rewrite Hpar; constructor; [intros []|constructor]]. apply in_map_iff in Hl' as (b & <- & Hb). rewrite Hpar in Hb. destruct Hb as [<-|[]]. unfold mro. rewrite Hold by exact Hcl. destruct (wf_mro P V w Hw c Hcl) as (mc & Emc & Hndc & _). unfold mro in Emc. rewrite Emc. exact Hndc. }
      assert (Ham : In a m). { unfold inherits_of in Hc3. apply c3_sound in Hc3. - destruct Hc3 as (_ & H2 & _). refine (ss_in _ _ (H2 (mro w1 c) _) a _); [apply in_or_app; left; apply in_map, in_or_app; right; now left|]. unfold mro. rewrite Hold by exact Hcl. exact Ha.
        - intros l Hl'. apply in_app_or in Hl' as [Hl'|[<-|[]]]; [|rewrite Hpar; constructor; [intros []|constructor]]. apply in_map_iff in Hl' as (b & <- & Hb). rewrite Hpar in Hb. destruct Hb as [<-|[]]. unfold mro. rewrite Hold by exact Hcl. destruct (wf_mro P V w Hw c Hcl) as (mc & Emc & Hndc & _). unfold mro in Emc. rewrite Emc. exact Hndc. }
      pose proof (proj2 (mro_lt P V w Hw c a Hcl Ha)) as Hal. unfold KaminoAttrs.own. rewrite <- Hold, <- Hsame by lia. apply Hx'. rewrite Hm. now right. }
    destruct (wrap_properties_name wa k m wb ltac:(lia) Hda Hm Hkm Ew) as [Hn1 Hn2]. destruct (Hn2 (Hfind pn Hpn) Hg2 (Hfind gp Hgp)) as (s & a & Hf & Hs').
    rewrite Hattrs, filter_wrap, (Hold c Hcl) in Hf. assert (Hap : exists p, a = AProp p). { assert (Hi : In (s, a) (filter (fun x => is_prop P V (snd x)) (c_attrs (get_cls w c)))) by (rewrite Hf; now left). apply filter_In in Hi as [_ Hi]. apply is_prop_spec in Hi. exact Hi. }
    destruct Hap as [p ->]. exists s, p. split; [exact Hf|]. subst w2. rewrite lookup_set_other by discriminate. split; [exact Hs'|]. intros Hne. rewrite own_set_other by now right.
    (* the property *)
    assert (Hip : In (s, AProp p) (c_attrs (get_cls w c))) by (assert (Hi : In (s, AProp p) (filter (fun x => is_prop P V (snd x)) (c_attrs (get_cls w c)))) by (rewrite Hf; now left); apply filter_In in Hi; tauto).
    assert (Howa : own wa k s = Some (AProp p)) by (unfold KaminoAttrs.own; rewrite Hattrs, wrap_callables_get, (Hold c Hcl), (d_get_nodup s (AProp p)); [reflexivity|apply Hd|exact Hip]).
    destruct (wrap_properties_get P V wrap_prop wa k m wb ltac:(lia) Hda Hm Hkm Ew) as [Hdb Hwg].
    pose proof (only_wrap_properties P V wrap_prop wa k) as Ho; rewrite Ew in Ho; cbn [fst] in Ho; destruct Ho as ((Hol & Ho & _) & _).
    assert (Hmb : mro wb k = k :: m) by (rewrite Ho; exact Hm).
    destruct (str_dec s pn) as [->|Hspn]; [exfalso; pose proof (Hfind pn Hpn) as Hx; rewrite (lookup_own wa k m pn Hm), Howa in Hx; discriminate|].
    assert (Hgb : lookup wb k gpn <> None).
    { assert (Hsg : ~ special gpn) by (intros [E'|[E'|E']]; discriminate). specialize (Hwg gpn Hsg). assert (Ho' : own wb k gpn = own wa k gpn \/ own wb k gpn <> None) by (destruct (lookup wa k gpn) as [v|]; [destruct v|]; try (now left); destruct Hwg as [Hwg|[Hwg _]]; [right; rewrite Hwg; discriminate|now left]).
      rewrite (lookup_own wb k m gpn Hmb). destruct (own wb k gpn) eqn:Eo; [discriminate|]. destruct Ho' as [Ho'|Ho']; [|contradiction]. rewrite (lookup_own wa k m gpn Hm) in Hg2. rewrite <- Ho' in Hg2. intros H. apply Hg2. rewrite <- H. apply find_attr_ext. intros b Hb.
      pose proof (only_wrap_properties P V wrap_prop wa k) as Hoo; rewrite Ew in Hoo; cbn [fst] in Hoo; destruct Hoo as (_ & Hoo & _). unfold KaminoAttrs.own. rewrite Hoo; [reflexivity|]. intros ->. contradiction. }
    (* follow wrap_properties *)
    revert Ew. unfold wrap_properties. assert (has P V wa k "__get_properties__" = false) as -> by (unfold has; rewrite (Hfind gp Hgp); reflexivity). cbn [get_all flat_map].
    assert (has P V wa k "__get_property_name__" = true) as -> by (unfold has; destruct (lookup wa k gpn); [reflexivity|contradiction]).
    unfold get_property_name. rewrite (Hfind pn Hpn). rewrite Hattrs, filter_wrap, (Hold c Hcl), Hf.
    assert (Hl2 : lookup (set_attr wa k pn (AStr s)) k s = Some (AProp p)) by (rewrite lookup_set_other by exact Hspn; rewrite (lookup_own wa k m s Hm), Howa; reflexivity).
    rewrite Hl2. intros Ew'. assert (Ewb : wb = wrap_names P V wrap_prop (set_attr wa k pn (AStr s)) k [(s, AProp p)]) by (cbn in Ew'; cbn; congruence).
    rewrite Ewb. cbn [wrap_names]. apply own_set_same. rewrite set_attr_length. lia.
Qed.
End Names.
