(** clones: exact resolution orders, attributes, success *)
From Coq Require Import String Permutation.
From Verif Require Import Base BaseFacts Dict DictFacts PyClass PyClassFacts Kamino KaminoOrder KaminoFacts KaminoMro KaminoAttrs.
Open Scope list_scope.

Section Exact.
Variables P V : Type.
Notation world := (world P V).
Notation attr := (attr P V).
Variable wrap_prop : P -> P.
Variable wrap_call : V -> V.
Variable package_ref : V.
Notation clone_class := (clone_class P V wrap_prop wrap_call package_ref).
Notation clone_nodes := (clone_nodes P V wrap_prop wrap_call package_ref).
Notation clone_classes := (clone_classes P V wrap_prop wrap_call package_ref).
Notation wrap_attr := (wrap_attr P V wrap_call).
Notation cloned := (cloned P V).
Notation own := (own P V).
Notation gp := (py "__get_properties__").

Definition the_clone (r : ref) (a : nat) : nat := match r_get a r with Some k => k | None => 0 end.
Lemma the_clone_in r c k : NoDup (map fst r) -> In (c, k) r -> the_clone r c = k.
Proof. intros H1 H2. unfold the_clone. now rewrite (r_get_nodup _ _ _ H1 H2). Qed.
Lemma inherits_the_clone w keys done c : (forall p, In p (parents P V w keys c) -> In p (map fst done)) -> inherits_of P V w keys done c = map (the_clone done) (parents P V w keys c) ++ [c].
Proof.
  intros H. unfold inherits_of. f_equal. revert H. generalize (parents P V w keys c). induction l as [|p l IH]; intros H; [reflexivity|]. cbn. unfold the_clone at 1. destruct (r_get_some p done (H p (or_introl eq_refl))) as [k ->]. cbn. f_equal. apply IH. intros q Hq. apply H. now right.
Qed.

(** ** resolution orders *)
Definition exact_mro (w0 : world) (keys : list nat) (done : ref) (w : world) : Prop :=
  forall c k, In (c, k) done -> mro w k = map (the_clone done) (filter (fun x => mem x keys) (mro w0 c)) ++ mro w0 c.
Definition regular (w : world) (keys : list nat) (c : nat) : Prop := pkg_first P V w keys c /\ independent_bases P V w c.

Lemma new_class_exact w0 keys done w c : wf P V w0 -> (forall d, In d keys -> d < List.length w0) -> cloned w0 keys done w -> exact_mro w0 keys done w -> In c keys -> ~ In c (map fst done) ->
  (forall a, In a (candidates P V w0 keys c) -> In a (map fst done)) -> regular w0 keys c ->
  exists m w1, mro w0 c = c :: m /\ new_class w (c_name (get_cls w c)) (inherits_of P V w keys done c) (c_attrs (get_cls w c)) = Ok (w1, List.length w) /\
    mro w1 (List.length w) = List.length w :: map (the_clone done) (filter (fun x => mem x keys) m) ++ c :: m.
Proof.
  intros Hw0 Hkl Hc Hex Hck Hcn Hcand [Hf Hi]. pose proof (Hkl c Hck) as Hc0.
  assert (Hm : forall d, d < List.length w0 -> mro w d = mro w0 d) by (intros d Hd; unfold mro; now rewrite (cl_old _ _ _ _ _ _ Hc d Hd)).
  assert (Hpar : parents P V w keys c = parents P V w0 keys c) by now apply parents_same.
  assert (Hpd : forall p, In p (parents P V w0 keys c) -> In p (map fst done)). { intros p Hp. destruct (parent_lt P V w0 Hw0 keys c p Hc0 Hp) as (L1 & L2 & L3). apply Hcand, cand_spec. repeat split; auto. lia. }
  rewrite inherits_the_clone by (now rewrite Hpar). rewrite Hpar.
  assert (Hin : forall x, In x keys -> In x (mro w0 c) -> x <> c -> In x (map fst done)) by (intros x H1 H2 H3; apply Hcand, cand_spec; auto).
  set (f := fun x => if Nat.eqb x c then List.length w else the_clone done x).
  assert (Hfe : forall x, x <> c -> f x = the_clone done x) by (intros x Hx; unfold f; apply Nat.eqb_neq in Hx; now rewrite Hx).
  assert (Hrange : forall x, In x (map fst done) -> exists k, In (x, k) done /\ the_clone done x = k /\ List.length w0 <= k < List.length w).
  { intros x Hx. destruct (r_get_some x done Hx) as [k Hk]. pose proof (r_get_in _ _ _ Hk). exists k. split; [assumption|]. split; [unfold the_clone; now rewrite Hk|]. eapply cloned_snd; eauto. }
  assert (Hsnd : forall x y k, In (x, k) done -> In (y, k) done -> x = y).
  { assert (Hs : NoDup (map snd done)) by (rewrite (cl_new _ _ _ _ _ _ Hc); apply seq_NoDup). intros x y k. clear - Hs. induction done as [|[a b] d IH]; [intros []|]. cbn in Hs. apply NoDup_cons_iff in Hs as [N1 N2].
    intros [E1|E1] [E2|E2]; auto; [congruence| |]; exfalso; apply N1; [injection E1 as <- <-|injection E2 as <- <-]; match goal with H : In _ d |- _ => apply (in_map snd) in H; exact H end. }
  destruct (clone_c3 P V w0 Hw0 keys c Hc0 Hf Hi f w) as [Hnd (m & E & Hc3)].
  - intros x y Hxk Hyk Hx Hy Exy. destruct (Nat.eq_dec x c) as [Hxc|Hxc], (Nat.eq_dec y c) as [Hyc|Hyc].
    + congruence.
    + destruct (Hrange y (Hin y Hyk Hy Hyc)) as (k & K1 & K2 & K3). rewrite (Hfe y Hyc) in Exy. unfold f in Exy. rewrite Hxc, Nat.eqb_refl in Exy. lia.
    + destruct (Hrange x (Hin x Hxk Hx Hxc)) as (k & K1 & K2 & K3). rewrite (Hfe x Hxc) in Exy. unfold f in Exy. rewrite Hyc, Nat.eqb_refl in Exy. lia.
    + destruct (Hrange x (Hin x Hxk Hx Hxc)) as (k & K1 & K2 & K3), (Hrange y (Hin y Hyk Hy Hyc)) as (j & J1 & J2 & J3). rewrite !Hfe in Exy by assumption. apply (Hsnd x y k K1). rewrite K2, J2 in Exy. now rewrite Exy.
  - intros x Hx1 Hx2 Hx3. rewrite Hfe by assumption. destruct (Hrange x (Hin x Hx1 Hx2 Hx3)) as (k & K1 & -> & K3). lia.
  - exact Hm.
  - intros p Hp1 Hp2 Hp3. rewrite Hfe by assumption. destruct (Hrange p (Hin p Hp1 Hp2 Hp3)) as (k & K1 & -> & K3). rewrite (Hex p k K1). f_equal. apply map_ext_in. intros x Hx. apply filter_In in Hx as [Hx _]. symmetry. apply Hfe. intros ->.
    pose proof (mro_lt P V w0 Hw0 c p Hc0 Hp2) as [A1 A2]. pose proof (mro_lt P V w0 Hw0 p c A2 Hx). lia.
  - assert (Emap : map f (parents P V w0 keys c) = map (the_clone done) (parents P V w0 keys c)). { apply map_ext_in. intros p Hp. apply Hfe. destruct (parent_lt P V w0 Hw0 keys c p Hc0 Hp). lia. }
    rewrite Emap in Hnd, Hc3. exists m. unfold new_class. rewrite (proj2 (has_dup_nodup _) Hnd), Hc3. eexists. split; [exact E|]. split; [reflexivity|].
    unfold mro, get_cls. rewrite app_nth2, Nat.sub_diag by lia. cbn [nth c_mro]. f_equal. f_equal. apply map_ext_in. intros x Hx. apply Hfe. apply filter_In in Hx as [Hx _]. intros ->. pose proof (mro_nodup P V w0 Hw0 c Hc0) as Hn. rewrite E in Hn. apply NoDup_cons_iff in Hn. tauto.
Qed.
Lemma exact_step w0 keys done w c w' k : wf P V w0 -> (forall d, In d keys -> d < List.length w0) -> cloned w0 keys done w -> exact_mro w0 keys done w -> In c keys -> ~ In c (map fst done) ->
  (forall a, In a (candidates P V w0 keys c) -> In a (map fst done)) -> regular w0 keys c ->
  clone_class w keys done c = (w', Ok k) -> exact_mro w0 keys (done ++ [(c, k)]) w'.
Proof.
  intros Hw0 Hkl Hc Hex Hck Hcn Hcand Hreg E. destruct (new_class_exact w0 keys done w c Hw0 Hkl Hc Hex Hck Hcn Hcand Hreg) as (m & w1 & Em & En & Mk).
  pose proof (clone_class_inv P V wrap_prop wrap_call package_ref _ _ _ _ _ _ E) as Hinv. rewrite En in Hinv. destruct Hinv as [(Hsh & Hoth & _) Hr]. destruct Hsh as (S1 & S2 & _).
  assert (k = List.length w) by (destruct Hr as [Hr|(e & Hr & _)]; congruence). subst k. clear Hr.
  assert (Hst : forall a, In a (map fst done) -> the_clone (done ++ [(c, List.length w)]) a = the_clone done a) by (intros a Ha; unfold the_clone; now rewrite r_get_app).
  assert (Hcl : the_clone (done ++ [(c, List.length w)]) c = List.length w). { apply the_clone_in; [|apply in_or_app; right; now left]. rewrite map_app. apply NoDup_app_disj; [apply (cl_keys _ _ _ _ _ _ Hc)|constructor; [intros []|constructor]|]. intros x H1 [<-|[]]. contradiction. }
  assert (Gold : forall d, d < List.length w -> mro w1 d = mro w d).
  { intros d Hd. unfold new_class in En. destruct (has_dup _); [discriminate|]. destruct (c3 _); [|discriminate]. injection En as <-. unfold mro. now rewrite get_app. }
  intros d j Hd. apply in_app_or in Hd as [Hd|[Ed|[]]].
  - pose proof (cloned_snd _ _ _ _ _ _ _ _ Hc Hd). rewrite S2, Gold by lia. rewrite (Hex d j Hd). f_equal. apply map_ext_in. intros x Hx. symmetry. apply Hst. apply filter_In in Hx as [Hx1 Hx2]. apply mem_in in Hx2. eapply (cl_closed _ _ _ _ _ _ Hc); eauto. change d with (fst (d, j)). now apply in_map.
  - injection Ed as <- <-. rewrite S2, Mk, Em. cbn [filter]. assert (mem c keys = true) as -> by now apply mem_in. cbn [map app]. rewrite Hcl. f_equal. f_equal. apply map_ext_in. intros x Hx. symmetry. apply Hst. apply filter_In in Hx as [Hx1 Hx2]. apply mem_in in Hx2. apply Hcand, cand_spec. rewrite Em. repeat split; [now right|exact Hx2|]. intros ->. pose proof (mro_nodup P V w0 Hw0 c (Hkl c Hck)) as Hn. rewrite Em in Hn. apply NoDup_cons_iff in Hn. tauto.
Qed.

(** ** attributes *)
Definition attrs_ok (w0 : world) (done : ref) (w : world) : Prop := forall c k, In (c, k) done -> exists m, mro w k = k :: m /\ forall n, ~ special n ->
  match own w0 c n with
  | Some (AProp p) => own w k n = Some (AProp (wrap_prop p)) \/ (own w k n = Some (AProp p) /\ lookup w k gp = None)
  | Some a => own w k n = Some (wrap_attr a)
  | None => match find_attr w m n with
            | Some (AProp q) => own w k n = Some (AProp (wrap_prop q)) \/ (own w k n = None /\ lookup w k gp = None)
            | _ => own w k n = None
            end
  end.
Lemma attrs_ok_mono w0 done w w' : wf P V w -> (forall c k, In (c, k) done -> k < List.length w) -> (forall d, d < List.length w -> get_cls w' d = get_cls w d) -> attrs_ok w0 done w -> attrs_ok w0 done w'.
Proof.
  intros Hw Hk Hsame H c k Hck. destruct (H c k Hck) as (m & Em & Hn). pose proof (Hk c k Hck) as Hkl. exists m.
  assert (Hown : forall a n, a < List.length w -> own w' a n = own w a n) by (intros a n Ha; unfold KaminoAttrs.own; now rewrite Hsame).
  assert (Hf : forall n, find_attr w' m n = find_attr w m n). { intros n. apply find_attr_ext. intros a Ha. apply Hown. apply (mro_lt P V w Hw k a Hkl). rewrite Em. now right. }
  assert (Hlk : forall n, lookup w' k n = lookup w k n). { intros n. unfold lookup, mro. rewrite Hsame by exact Hkl. apply find_attr_ext. intros a Ha. apply Hown. apply (mro_lt P V w Hw k a Hkl Ha). }
  split; [unfold mro; rewrite Hsame by exact Hkl; exact Em|]. intros n Hs. specialize (Hn n Hs). rewrite Hf, (Hown k n Hkl), Hlk. exact Hn.
Qed.
Lemma clone_class_attrs w0 keys done w c w' k : wf P V w0 -> dicts P V w -> cloned w0 keys done w -> c < List.length w0 ->
  clone_class w keys done c = (w', Ok k) -> dicts P V w' /\ attrs_ok w0 [(c, k)] w'.
Proof.
  intros Hw0 Hd Hc Hc0. unfold Kamino.clone_class. fold (inherits_of P V w keys done c). destruct (new_class w (c_name (get_cls w c)) (inherits_of P V w keys done c) (c_attrs (get_cls w c))) as [[w1 k1]|e] eqn:En; [|discriminate].
  assert (Hin : forall b, In b (inherits_of P V w keys done c) -> b < List.length w).
  { intros b Hb. unfold inherits_of in Hb. apply in_app_or in Hb as [Hb|[<-|[]]]; [|rewrite (cl_len _ _ _ _ _ _ Hc); lia]. apply (proj1 (filter_some_in _ _)) in Hb. apply in_map_iff in Hb as (p & Hp & _). apply r_get_in in Hp. eapply cloned_snd in Hp; eauto. lia. }
  pose proof (wf_new P V w _ _ _ _ _ (cl_wf _ _ _ _ _ _ Hc) Hin En) as Hwf1.
  unfold new_class in En. destruct (has_dup _); [discriminate|]. destruct (c3 _) as [m|] eqn:Em; [|discriminate]. injection En as Ew1 Ek1. subst k1.
  assert (Gk : get_cls w1 (List.length w) = mkCls (c_name (get_cls w c)) (inherits_of P V w keys done c) (List.length w :: m) (c_attrs (get_cls w c))) by (rewrite <- Ew1; unfold get_cls; rewrite app_nth2, Nat.sub_diag by lia; reflexivity).
  assert (Hl1 : List.length w1 = S (List.length w)) by (rewrite <- Ew1, app_length; cbn; lia).
  destruct (wf_mro P V w1 Hwf1 (List.length w) ltac:(lia)) as (m' & Em' & Hnm & Hlt & _). unfold mro in Em'. rewrite Gk in Em'. cbn [c_mro] in Em'. injection Em' as <-.
  set (kc := mkCls (c_name (get_cls w1 (List.length w))) (c_bases (get_cls w1 (List.length w))) (c_mro (get_cls w1 (List.length w))) (wrap_callables P V wrap_call (c_attrs (get_cls w1 (List.length w))))).
  remember (PyClass.set_nth (List.length w) kc w1) as w2 eqn:Ew2.
  assert (G2k : get_cls w2 (List.length w) = kc) by (rewrite Ew2; apply set_nth_same; lia).
  assert (G2o : forall d, d <> List.length w -> get_cls w2 d = get_cls w1 d) by (intros d Hne; rewrite Ew2; apply set_nth_other, Hne).
  assert (L2 : List.length w2 = List.length w1) by (rewrite Ew2; apply set_nth_length).
  assert (M2 : mro w2 (List.length w) = List.length w :: m) by (unfold mro; rewrite G2k; unfold kc; rewrite Gk; reflexivity).
  assert (Hd1 : dicts P V w1) by (rewrite <- Ew1; apply dicts_app; [exact Hd|apply Hd]).
  assert (Hd2 : dicts P V w2). { intros d. destruct (Nat.eq_dec d (List.length w)) as [->|Hne]; [rewrite G2k; unfold kc; cbn [c_attrs]; rewrite wrap_callables_keys; apply Hd1|rewrite G2o by exact Hne; apply Hd1]. }
  clear Ew2. destruct (wrap_properties P V wrap_prop w2 (List.length w)) as [w3 [u|e]] eqn:E3; [|discriminate]. destruct u. intros [= <- <-].
  assert (Hkm : ~ In (List.length w) m) by (apply NoDup_cons_iff in Hnm; tauto).
  destruct (wrap_properties_get P V wrap_prop w2 (List.length w) m w3 ltac:(lia) Hd2 M2 Hkm E3) as [Hd3 Hget].
  pose proof (only_wrap_properties P V wrap_prop w2 (List.length w)) as H3. rewrite E3 in H3. cbn [fst] in H3. destruct H3 as ((S1 & S2 & S3) & Hoth & _).
  split; [now apply dicts_set|]. intros c0 k0 [E0|[]]. injection E0 as <- <-. exists m. split; [rewrite mro_set, S2; exact M2|]. intros n Hs.
  assert (Hnp : n <> py "__jsonld_package__") by (intros E; apply Hs; right; now right).
  assert (Hown2 : own w2 (List.length w) n = match own w0 c n with Some a => Some (wrap_attr a) | None => None end).
  { unfold KaminoAttrs.own at 1. rewrite G2k. unfold kc. cbn [c_attrs]. rewrite wrap_callables_get, Gk. cbn [c_attrs]. unfold KaminoAttrs.own. now rewrite <- (cl_old _ _ _ _ _ _ Hc c Hc0). }
  assert (Hf : forall w4 x, (forall d, d <> List.length w -> own w4 d x = own w2 d x) -> find_attr w4 m x = find_attr w2 m x) by (intros w4 x Hw4; apply find_attr_ext; intros a Ha; apply Hw4; intros ->; contradiction).
  assert (Hl2 : forall x, lookup w2 (List.length w) x = match own w2 (List.length w) x with Some v => Some v | None => find_attr w2 m x end) by (intros x; unfold lookup; rewrite M2; reflexivity).
  assert (Hf3 : forall x, find_attr (set_attr w3 (List.length w) (py "__jsonld_package__") (AOther package_ref)) m x = find_attr w2 m x). { intros x. apply Hf. intros d Hne. rewrite own_set_other by now left. unfold KaminoAttrs.own. now rewrite Hoth. }
  assert (Hgp : lookup w2 (List.length w) gp = None -> lookup (set_attr w3 (List.length w) (py "__jsonld_package__") (AOther package_ref)) (List.length w) gp = None).
  { intros H. assert (Hsgp : ~ special gp) by (intros [E|[E|E]]; discriminate). pose proof (Hget gp Hsgp) as Hg. rewrite H in Hg. unfold lookup. rewrite mro_set, S2, M2. cbn [find_attr]. change (d_get gp (c_attrs (get_cls (set_attr w3 (List.length w) (py "__jsonld_package__") (AOther package_ref)) (List.length w)))) with (own (set_attr w3 (List.length w) (py "__jsonld_package__") (AOther package_ref)) (List.length w) gp).
    rewrite own_set_other by (right; discriminate). rewrite Hg. rewrite Hl2 in H. destruct (own w2 (List.length w) gp); [discriminate|]. now rewrite Hf3. }
  rewrite own_set_other by now right. rewrite Hf3. specialize (Hget n Hs). rewrite Hl2 in Hget. rewrite Hown2 in Hget. destruct (own w0 c n) as [a|].
  - destruct a as [p|v|s|ll|p|kk|v]; cbn [Kamino.wrap_attr] in *; auto. destruct Hget as [Hg|[Hg1 Hg2]]; [now left|right; auto].
  - destruct (find_attr w2 m n) as [a|]; [|exact Hget]. destruct a as [p|v|s|ll|p|kk|v]; auto. destruct Hget as [Hg|[Hg1 Hg2]]; [now left|right; auto].
Qed.
End Exact.
