(** the attributes the cloning code adds, and [clone_classes] as a whole *)
From Coq Require Import String Permutation.
From Verif Require Import Base BaseFacts Dict DictFacts PyClass PyClassFacts Kamino KaminoOrder KaminoFacts KaminoMro KaminoAttrs KaminoExact KaminoResolve KaminoDone.
Open Scope list_scope.

Section Marks.
Variables P V : Type.
Notation world := (world P V).
Notation attr := (attr P V).
Variable wrap_prop : P -> P.
Variable wrap_call : V -> V.
Variable package_ref : V.
Notation clone_class := (clone_class P V wrap_prop wrap_call package_ref).
Notation clone_nodes := (clone_nodes P V wrap_prop wrap_call package_ref).
Notation clone_classes := (clone_classes P V wrap_prop wrap_call package_ref).
Notation wrap_attr := (wrap_attr P V wrap_call).
Notation cloned := (cloned P V).
Notation own := (own P V).
Notation attrs_ok := (attrs_ok P V wrap_prop wrap_call).
Notation exact_mro := (exact_mro P V).
Notation regular := (regular P V).
Notation gp := (py "__get_properties__").
Notation pp := (py "__properties__").
Notation pk := (py "__jsonld_package__").

Definition mark (w : world) (k : nat) : Prop := own w k pk = Some (AOther package_ref) /\
  (lookup w k gp <> None -> exists l, own w k pp = Some (ANames l) /\ NoDup l /\ forall n, ~ special n -> (In n l <-> In n (property_names P V w k))).

Lemma wrap_properties_marks (w : world) k m w' : k < List.length w -> dicts P V w -> mro w k = k :: m -> ~ In k m -> wrap_properties P V wrap_prop w k = (w', Ok tt) ->
  (lookup w k gp <> None -> exists l, own w' k pp = Some (ANames l) /\ NoDup l /\ forall n, In n l <-> In n (property_names P V w k)).
Proof.
  intros Hk Hd Em Hkm. unfold wrap_properties. intros E Hg. revert E. assert (has P V w k "__get_properties__" = true) as -> by (unfold has; destruct (lookup w k gp); congruence). unfold get_properties.
  set (l := property_names P V w k). set (w1 := set_attr w k pp (ANames l)).
  assert (Hk1 : k < List.length w1) by (unfold w1; now rewrite set_attr_length). assert (Hm1 : mro w1 k = k :: m) by (unfold w1; now rewrite mro_set).
  assert (Ho1 : own w1 k pp = Some (ANames l)) by (unfold w1; now apply own_set_same).
  assert (Hl1 : lookup w1 k pp = Some (ANames l)) by (unfold lookup; rewrite Hm1; cbn [find_attr]; unfold KaminoAttrs.own in Ho1; now rewrite Ho1).
  assert (Hnd : NoDup l) by (unfold l, property_names; apply dedup_nodup).
  assert (Hga : d_get pp (get_all P V w1 k l) = Some (ANames l) \/ d_get pp (get_all P V w1 k l) = None) by (rewrite get_all_get by exact Hnd; destruct (mem_str pp l); [left; exact Hl1|now right]).
  destruct (has P V w1 k "__get_property_name__").
  - destruct (get_property_name P V w1 k) as [w2 r] eqn:E2. destruct r as [name|e]; [|discriminate]. destruct (lookup w2 k name) as [a|] eqn:Ea; [|discriminate]. intros E. injection E as <-.
    assert (Hw2 : w2 = w1 \/ exists v, w2 = set_attr w1 k (py "__property_name__") v).
    { revert E2. unfold get_property_name. destruct (lookup w1 k (py "__property_name__")) as [b|]; [destruct b; intros [= <- ?]; now left|]. destruct (filter _ _) as [|[x b] [|? ?]]; intros [= <- ?]; eauto. }
    assert (Hl2 : lookup w2 k pp = Some (ANames l)) by (destruct Hw2 as [->|(v & ->)]; [exact Hl1|rewrite lookup_set_other by discriminate; exact Hl1]).
    assert (Ho2 : own w2 k pp = Some (ANames l)) by (destruct Hw2 as [->|(v & ->)]; [exact Ho1|rewrite own_set_other by (right; discriminate); exact Ho1]).
    exists l. split; [|split; [exact Hnd|reflexivity]]. rewrite wrap_names_get.
    + pose proof (d_get_merge pp [(name, a)] (get_all P V w1 k l)) as Hgm. change (d_set name a (get_all P V w1 k l)) with (d_merge (get_all P V w1 k l) [(name, a)]); rewrite Hgm; cbn [last_of]. destruct (str_eqb pp name) eqn:En.
      * apply str_eqb_eq in En as <-. rewrite Hl2 in Ea. injection Ea as <-. exact Ho2.
      * destruct Hga as [-> | ->]; exact Ho2.
    + destruct Hw2 as [->|(v & ->)]; rewrite ?set_attr_length; exact Hk1.
    + cbn. apply d_set_nodup, get_all_nodup, Hnd.
  - intros E. injection E as <-. exists l. split; [|split; [exact Hnd|reflexivity]]. rewrite wrap_names_get; [|exact Hk1|now apply get_all_nodup]. destruct Hga as [-> | ->]; exact Ho1.
Qed.
Lemma clone_class_marks w0 keys done w c w' k : wf P V w0 -> dicts P V w -> cloned w0 keys done w -> c < List.length w0 -> clone_class w keys done c = (w', Ok k) -> mark w' k.
Proof.
  intros Hw0 Hd Hc Hc0. unfold Kamino.clone_class. fold (inherits_of P V w keys done c). destruct (new_class w (c_name (get_cls w c)) (inherits_of P V w keys done c) (c_attrs (get_cls w c))) as [[w1 k1]|e] eqn:En; [|discriminate].
  assert (Hin : forall b, In b (inherits_of P V w keys done c) -> b < List.length w).
  { intros b Hb. unfold inherits_of in Hb. apply in_app_or in Hb as [Hb|[<-|[]]]; [|rewrite (cl_len _ _ _ _ _ _ Hc); lia]. apply (proj1 (filter_some_in _ _)) in Hb. apply in_map_iff in Hb as (p & Hp & _). apply r_get_in in Hp. eapply cloned_snd in Hp; eauto. lia. }
  pose proof (wf_new P V w _ _ _ _ _ (cl_wf _ _ _ _ _ _ Hc) Hin En) as Hwf1.
  unfold new_class in En. destruct (has_dup _); [discriminate|]. destruct (c3 _) as [m|] eqn:Em; [|discriminate]. injection En as Ew1 Ek1. subst k1.
  assert (Gk : get_cls w1 (List.length w) = mkCls (c_name (get_cls w c)) (inherits_of P V w keys done c) (List.length w :: m) (c_attrs (get_cls w c))) by (rewrite <- Ew1; unfold get_cls; rewrite app_nth2, Nat.sub_diag by lia; reflexivity).
  assert (Hl1 : List.length w1 = S (List.length w)) by (rewrite <- Ew1, app_length; cbn; lia).
  destruct (wf_mro P V w1 Hwf1 (List.length w) ltac:(lia)) as (m' & Em' & Hnm & Hlt & _). unfold mro in Em'. rewrite Gk in Em'. cbn [c_mro] in Em'. injection Em' as <-.
  set (kc := mkCls (c_name (get_cls w1 (List.length w))) (c_bases (get_cls w1 (List.length w))) (c_mro (get_cls w1 (List.length w))) (wrap_callables P V wrap_call (c_attrs (get_cls w1 (List.length w))))).
  remember (PyClass.set_nth (List.length w) kc w1) as w2 eqn:Ew2.
  assert (G2k : get_cls w2 (List.length w) = kc) by (rewrite Ew2; apply set_nth_same; lia).
  assert (G2o : forall d, d <> List.length w -> get_cls w2 d = get_cls w1 d) by (intros d Hne; rewrite Ew2; apply set_nth_other, Hne).
  assert (L2 : List.length w2 = List.length w1) by (rewrite Ew2; apply set_nth_length).
  assert (M2 : mro w2 (List.length w) = List.length w :: m) by (unfold mro; rewrite G2k; unfold kc; rewrite Gk; reflexivity).
  assert (Hd1 : dicts P V w1) by (rewrite <- Ew1; apply dicts_app; [exact Hd|apply Hd]).
  assert (Hd2 : dicts P V w2). { intros d. destruct (Nat.eq_dec d (List.length w)) as [->|Hne]; [rewrite G2k; unfold kc; cbn [c_attrs]; rewrite wrap_callables_keys; apply Hd1|rewrite G2o by exact Hne; apply Hd1]. }
  clear Ew2. destruct (wrap_properties P V wrap_prop w2 (List.length w)) as [w3 [u|e]] eqn:E3; [|discriminate]. destruct u. intros E4. assert (Ew' : w' = set_attr w3 (List.length w) pk (AOther package_ref)) by congruence. assert (Ek' : k = List.length w) by congruence. subst w' k. clear E4.
  assert (Hkm : ~ In (List.length w) m) by (apply NoDup_cons_iff in Hnm; tauto).
  assert (Hk2 : List.length w < List.length w2) by lia.
  destruct (wrap_properties_get P V wrap_prop w2 (List.length w) m w3 Hk2 Hd2 M2 Hkm E3) as [Hd3 Hget].
  pose proof (wrap_properties_marks w2 (List.length w) m w3 Hk2 Hd2 M2 Hkm E3) as Hmk.
  pose proof (only_wrap_properties P V wrap_prop w2 (List.length w)) as H3. rewrite E3 in H3. cbn [fst] in H3. destruct H3 as ((S1 & S2 & S3) & Hoth & _).
  set (k := List.length w) in *. set (wf' := set_attr w3 k pk (AOther package_ref)).
  assert (Hl2 : forall x, lookup w2 k x = match own w2 k x with Some v => Some v | None => find_attr w2 m x end) by (intros x; unfold lookup; rewrite M2; reflexivity).
  assert (Hgp : lookup wf' k gp <> None -> lookup w2 k gp <> None).
  { intros H E. apply H. assert (Hsgp : ~ special gp) by (intros [E'|[E'|E']]; discriminate). pose proof (Hget gp Hsgp) as Hg. rewrite E in Hg. rewrite Hl2 in E. destruct (own w2 k gp) eqn:Eo; [discriminate|].
    unfold wf'. rewrite lookup_set_other by discriminate. unfold lookup. rewrite S2, M2. cbn [find_attr]. unfold KaminoAttrs.own in Hg. rewrite Hg. rewrite <- E. apply find_attr_ext. intros a Ha. unfold KaminoAttrs.own. rewrite Hoth; [reflexivity|]. intros ->. contradiction. }
  split; [unfold wf'; apply own_set_same; unfold k in *; lia|]. intros Hg. destruct (Hmk (Hgp Hg)) as (l & Hl & Hnl & Hin'). exists l. split; [unfold wf'; rewrite own_set_other by (right; discriminate); exact Hl|]. split; [exact Hnl|].
  intros n Hs. rewrite Hin'. assert (Hdw : dicts P V wf') by now apply dicts_set. rewrite (property_names_in P V w2 k n Hd2), (property_names_in P V wf' k n Hdw).
  assert (Hnp : n <> pk) by (intros E; apply Hs; right; now right).
  assert (Hof : forall a, own wf' a n = own w3 a n) by (intros a; unfold wf'; apply own_set_other; now right).
  assert (Hother : forall a, a <> k -> own wf' a n = own w2 a n) by (intros a Hne; rewrite Hof; unfold KaminoAttrs.own; now rewrite Hoth).
  assert (Hmro : mro wf' k = k :: m) by (unfold wf'; now rewrite mro_set, S2). rewrite Hmro, M2. specialize (Hget n Hs).
  split.
  - intros (a & p & Ha & Ea). destruct (Nat.eq_dec a k) as [->|Hne]; [|exists a, p; split; [exact Ha|now rewrite Hother]].
    assert (El : lookup w2 k n = Some (AProp p)) by (rewrite Hl2, Ea; reflexivity). rewrite El in Hget. destruct Hget as [Hg'|[Hg' _]]; exists k; eexists; (split; [now left|]); rewrite Hof, Hg'; [reflexivity|exact Ea].
  - intros (a & p & Ha & Ea). destruct (Nat.eq_dec a k) as [->|Hne]; [|exists a, p; split; [exact Ha|now rewrite <- Hother]]. rewrite Hof in Ea.
    destruct (lookup w2 k n) as [v|] eqn:El; [destruct v|]; try (rewrite Hget in Ea; rewrite Hl2, Ea in El; discriminate).
    unfold lookup in El. rewrite M2 in El. apply find_attr_some in El as (b & Hb & Eb). eauto.
Qed.
Lemma mark_mono (w w' : world) k : wf P V w -> dicts P V w -> dicts P V w' -> k < List.length w -> (forall d, d < List.length w -> get_cls w' d = get_cls w d) -> mark w k -> mark w' k.
Proof.
  intros Hw Hd Hd' Hk Hsame [H1 H2]. assert (Hown : forall a n, a < List.length w -> own w' a n = own w a n) by (intros a n Ha; unfold KaminoAttrs.own; now rewrite Hsame).
  assert (Hm : mro w' k = mro w k) by (unfold mro; now rewrite Hsame). assert (Hlt : forall a, In a (mro w k) -> a < List.length w) by (intros a Ha; apply (mro_lt P V w Hw k a Hk Ha)).
  assert (Hlk : forall n, lookup w' k n = lookup w k n) by (intros n; unfold lookup; rewrite Hm; apply find_attr_ext; intros a Ha; apply Hown, Hlt, Ha).
  assert (Hpn : forall n, In n (property_names P V w' k) <-> In n (property_names P V w k)).
  { intros n. rewrite !property_names_in by assumption. rewrite Hm. split; intros (a & p & Ha & Ea); exists a, p; (split; [exact Ha|]); [rewrite <- Hown|rewrite Hown]; auto. }
  split; [now rewrite Hown|]. rewrite Hlk. intros Hg. destruct (H2 Hg) as (l & E & Hn & Hi). exists l. split; [now rewrite Hown|]. split; [exact Hn|]. intros n Hs. now rewrite Hpn, Hi.
Qed.
Lemma clone_nodes_marks w0 keys l : wf P V w0 -> dicts P V w0 -> (forall d, In d keys -> d < List.length w0) -> ok_order P V w0 keys l ->
  forall todo w done, cloned w0 keys done w -> dicts P V w -> map fst done ++ todo = l -> (forall c k, In (c, k) done -> mark w k) ->
  forall w' done', clone_nodes w keys done todo = (w', Ok done') -> forall c k, In (c, k) done' -> mark w' k.
Proof.
  intros Hw0 Hd0 Hkl Hl. induction todo as [|c todo IH]; intros w done Hc Hd El Hmk w' done'; cbn [Kamino.clone_nodes]; [intros E; injection E as <- <-; exact Hmk|].
  pose proof Hl as (L1 & L2 & L3). assert (Hck : In c keys) by (apply L2; rewrite <- El; apply in_or_app; right; now left).
  assert (Hcn : ~ In c (map fst done)). { rewrite <- El in L1. apply NoDup_remove_2 in L1. intros H. apply L1. apply in_or_app. now left. }
  assert (Hcand : forall a, In a (candidates P V w0 keys c) -> In a (map fst done)) by (intros a Hac; eapply (ancestors_first P V w0 Hw0 keys Hkl l Hl); [symmetry; exact El|exact Hac]).
  destruct (clone_class w keys done c) as [w1 [k|e]] eqn:E1; [|discriminate].
  destruct (cloned_step P V wrap_prop wrap_call package_ref w0 keys done w c w1 k Hw0 Hkl Hc Hck Hcn Hcand E1) as [Ek Hc1].
  destruct (clone_class_attrs P V wrap_prop wrap_call package_ref w0 keys done w c w1 k Hw0 Hd Hc (Hkl c Hck) E1) as [Hd1 _].
  assert (Hsame : forall d, d < List.length w -> get_cls w1 d = get_cls w d).
  { intros d Hdl. pose proof (clone_class_inv P V wrap_prop wrap_call package_ref _ _ _ _ _ _ E1) as Hinv. destruct (new_class w (c_name (get_cls w c)) (inherits_of P V w keys done c) (c_attrs (get_cls w c))) as [[w2 k2]|e] eqn:En; [|destruct Hinv; discriminate].
    destruct Hinv as [(_ & Ho & _) _]. unfold new_class in En. destruct (has_dup _); [discriminate|]. destruct (c3 _); [|discriminate]. injection En as <- <-. rewrite Ho by lia. now apply get_app. }
  apply IH; auto; [rewrite map_app, <- app_assoc; exact El|]. intros a j Haj. apply in_app_or in Haj as [Haj|[E|[]]].
  - eapply mark_mono; [apply (cl_wf _ _ _ _ _ _ Hc)|exact Hd|exact Hd1| |exact Hsame|eauto]. apply (cloned_snd _ _ _ _ _ _ _ _ Hc Haj).
  - injection E as <- <-. exact (clone_class_marks w0 keys done w c w1 _ Hw0 Hd Hc (Hkl c Hck) E1).
Qed.

(** ** [clone_classes] *)
Lemma fronted_ext q q' l : (forall x, q x = q' x) -> fronted q l -> fronted q' l.
Proof. intros H (a & b & E & H1 & H2). exists a, b. split; [exact E|]. rewrite forallb_forall in H1, H2. split; apply forallb_forall; intros x Hx; rewrite <- H; auto. Qed.
Lemma mem_same a b : (forall x : nat, In x a <-> In x b) -> forall x, mem x a = mem x b.
Proof. intros H x. destruct (mem x a) eqn:E; symmetry; [apply mem_in, H, mem_in, E|apply mem_out; intros Hi; apply mem_out in E; apply E, H, Hi]. Qed.
Lemma regular_same w a b c : (forall x, In x a <-> In x b) -> regular w a c -> regular w b c.
Proof. intros H [H1 H2]. split; [|exact H2]. unfold pkg_first in *. eapply fronted_ext; [|exact H1]. intros x. now apply mem_same. Qed.
Lemma naming_same w a b c : (forall x, In x a <-> In x b) -> naming_ok P V w a c -> naming_ok P V w b c.
Proof. intros H [H1 H2]. split; [exact H1|]. intros Hg. destruct (H2 Hg) as [?|[(x & X1 & X2)|?]]; auto. right. left. exists x. split; [now apply H|exact X2]. Qed.
Lemma clone_classes_done w classes : wf P V w -> dicts P V w -> (forall c, In c classes -> c < List.length w) ->
  (forall w' rf, clone_classes w classes = (w', Ok rf) -> exists keys done, (forall c, In c keys <-> In c classes) /\ (forall c k, In (c, k) rf <-> In (c, k) done) /\ (forall c, r_get c rf = r_get c done) /\
    cloned w keys done w' /\ dicts P V w' /\ attrs_ok w done w' /\ (forall c k, In (c, k) rf -> mark w' k) /\ ((forall c, In c classes -> regular w classes c) -> exact_mro w keys done w')) /\
  ((forall c, In c classes -> regular w classes c /\ naming_ok P V w classes c) -> exists w' rf, clone_classes w classes = (w', Ok rf)).
Proof.
  intros Hw Hd Hlt. unfold clone_classes, Kamino.clone_classes. set (keys := keys_of [] (sort_by_deps P V w classes)).
  assert (Hkn : NoDup keys) by apply keys_nodup. assert (Hki : forall c, In c keys <-> In c classes) by (intros c; apply keys_in).
  assert (Hkl : forall c, In c keys -> c < List.length w) by (intros c Hc; apply Hlt, Hki, Hc). clearbody keys.
  destruct (order_ok P V w Hw keys Hkn Hkl) as (l & El & Hl & Hperm). rewrite El.
  destruct (clone_nodes_full P V wrap_prop wrap_call package_ref w keys l Hw Hd Hkl Hl l w [] (cloned_start P V w keys Hw) Hd ltac:(intros ? ? []) eq_refl) as [F1 F2].
  split.
  - intros w' rf. destruct (clone_nodes w keys [] l) as [w1 [done|e]] eqn:E; [|discriminate]. intros H. injection H as <- <-. exists keys, done. destruct (F1 w1 done eq_refl) as (G1 & G2 & G3).
    destruct (clone_nodes_spec P V wrap_prop wrap_call package_ref w keys l Hw Hkl Hl l w [] w1 (Ok done) (cloned_start P V w keys Hw) eq_refl E) as (H1 & H2 & H3).
    pose proof (clone_nodes_marks w keys l Hw Hd Hkl Hl l w [] (cloned_start P V w keys Hw) Hd eq_refl ltac:(intros ? ? []) w1 done E) as Hmk.
    set (rf := flat_map _ keys).
    assert (Hin : forall c k, In (c, k) rf <-> In (c, k) done).
    { intros c k. unfold rf. rewrite in_flat_map. split.
      - intros (d & Hd' & Hk). destruct (r_get d done) as [j|] eqn:Ej; [|destruct Hk]. destruct Hk as [Hk|[]]. injection Hk as <- <-. now apply r_get_in.
      - intros Hk. exists c. split; [|rewrite (r_get_nodup _ _ _ (cl_keys _ _ _ _ _ _ H2) Hk); now left]. apply (cl_in _ _ _ _ _ _ H2). change c with (fst (c, k)). now apply in_map. }
    assert (Hrf : forall ks, (forall c, In c ks -> In c (map fst done)) -> map fst (flat_map (fun c => match r_get c done with Some k => [(c, k)] | None => [] end) ks) = ks).
    { induction ks as [|c ks IH]; intros Hks; [reflexivity|]. cbn [flat_map]. destruct (r_get_some c done (Hks c (or_introl eq_refl))) as [k ->]. cbn. f_equal. apply IH. intros d Hd'. apply Hks. now right. }
    assert (Hall : forall c, In c keys -> In c (map fst done)) by (intros c Hc; rewrite H3; apply (Permutation_in _ (Permutation_sym Hperm)), Hc).
    assert (Efst : map fst rf = keys) by (apply Hrf, Hall).
    split; [exact Hki|]. split; [exact Hin|]. split.
    { intros p. destruct (r_get p done) as [k|] eqn:Ek.
      - apply r_get_nodup; [now rewrite Efst|]. apply Hin. now apply r_get_in.
      - destruct (r_get p rf) as [k|] eqn:Ek2; [|reflexivity]. apply r_get_in, Hin in Ek2. rewrite (r_get_nodup _ _ _ (cl_keys _ _ _ _ _ _ H2) Ek2) in Ek. discriminate. }
    split; [exact H2|]. split; [exact G1|]. split; [exact G2|]. split; [intros c k Hck; apply Hin in Hck; eauto|]. intros Hr. apply G3; [|intros ? ? []].
    intros c Hc. apply (regular_same w classes keys); [intros x; symmetry; apply Hki|]. apply Hr, Hki, Hc.
  - intros Hr. destruct F2 as (w' & done' & E).
    + intros c Hc. destruct (Hr c (proj1 (Hki c) Hc)) as [R1 R2]. split; [eapply regular_same; [|exact R1]|eapply naming_same; [|exact R2]]; intros x; symmetry; apply Hki.
    + intros ? ? [].
    + intros ? ? [].
    + rewrite E. eauto.
Qed.
End Marks.
