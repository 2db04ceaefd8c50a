(** clone_classes: which classes it makes, what they inherit from, what it leaves alone *)
From Coq Require Import String Permutation.
From Verif Require Import Base BaseFacts Dict DictFacts PyClass PyClassFacts Kamino KaminoOrder.
Open Scope list_scope.

Section Facts.
Variables P V : Type.
Notation world := (world P V).
Variable wrap_prop : P -> P.
Variable wrap_call : V -> V.
Variable package_ref : V.
Notation clone_class := (clone_class P V wrap_prop wrap_call package_ref).
Notation clone_nodes := (clone_nodes P V wrap_prop wrap_call package_ref).
Notation clone_classes := (clone_classes P V wrap_prop wrap_call package_ref).

(** [w'] differs from [w] in the attributes of class [k] only *)
Definition only (k : nat) (w w' : world) : Prop := same_shape P V w w' /\ (forall d, d <> k -> get_cls w' d = get_cls w d) /\ c_name (get_cls w' k) = c_name (get_cls w k).
Lemma only_refl k w : only k w w.
Proof. split; [apply same_refl|auto]. Qed.
Lemma only_trans k w1 w2 w3 : only k w1 w2 -> only k w2 w3 -> only k w1 w3.
Proof. intros (A & B & C) (D & E & F). split; [eapply same_trans; eauto|]. split; [|congruence]. intros d Hd. rewrite E, B; auto. Qed.
Lemma only_set k w n v : only k w (set_attr w k n v).
Proof. split; [apply same_set|]. split; [intros d Hd; now apply get_set_other|apply set_attr_shape]. Qed.
Lemma only_wrap_names l : forall k w, only k w (wrap_names P V wrap_prop w k l).
Proof.
  induction l as [|[n a] l IH]; intros k w; [apply only_refl|]. destruct a; cbn [wrap_names]; auto.
  eapply only_trans; [apply only_set|apply IH].
Qed.
Lemma only_get_properties w k : only k w (fst (get_properties P V w k)).
Proof. apply only_set. Qed.
Lemma only_get_property_name w k : only k w (fst (get_property_name P V w k)).
Proof.
  unfold get_property_name. destruct (lookup w k (py "__property_name__")) as [a|]; [destruct a; apply only_refl|].
  destruct (filter _ _) as [|[n a] [|? ?]]; try apply only_refl. apply only_set.
Qed.
Lemma only_wrap_properties w k : only k w (fst (wrap_properties P V wrap_prop w k)).
Proof.
  unfold wrap_properties. destruct (if has P V w k "__get_properties__" then get_properties P V w k else (w, [])) as [w1 names] eqn:E1.
  assert (H1 : only k w w1). { destruct (has P V w k "__get_properties__"); [|injection E1 as <- <-; apply only_refl]. pose proof (only_get_properties w k) as H. now rewrite E1 in H. }
  destruct (has P V w1 k "__get_property_name__").
  - destruct (get_property_name P V w1 k) as [w2 r] eqn:E2. pose proof (only_get_property_name w1 k) as H2. rewrite E2 in H2. cbn [fst] in H2.
    destruct r as [name|e]; [|cbn; eapply only_trans; eauto]. destruct (lookup w2 k name); cbn; [|eapply only_trans; eauto].
    eapply only_trans; [eapply only_trans; eauto|apply only_wrap_names].
  - cbn. eapply only_trans; [exact H1|apply only_wrap_names].
Qed.
Lemma only_set_attrs w k d : k < List.length w -> only k w (PyClass.set_nth k (mkCls (c_name (get_cls w k)) (c_bases (get_cls w k)) (c_mro (get_cls w k)) d) w).
Proof.
  intros Hk. assert (G : forall c, c <> k -> get_cls (PyClass.set_nth k (mkCls (c_name (get_cls w k)) (c_bases (get_cls w k)) (c_mro (get_cls w k)) d) w) c = get_cls w c) by (intros c Hc; apply set_nth_other, Hc).
  assert (Gk : get_cls (PyClass.set_nth k (mkCls (c_name (get_cls w k)) (c_bases (get_cls w k)) (c_mro (get_cls w k)) d) w) k = mkCls (c_name (get_cls w k)) (c_bases (get_cls w k)) (c_mro (get_cls w k)) d) by (apply set_nth_same, Hk).
  split; [|split; [exact G|now rewrite Gk]]. split; [apply set_nth_length|]. split; intros c; unfold mro, bases; (destruct (Nat.eq_dec c k) as [->|Hc]; [now rewrite Gk|now rewrite G]).
Qed.

(** ** one clone *)
Definition inherits_of (w : world) (keys : list nat) (done : ref) (c : nat) : list nat := filter_some (map (fun p => r_get p done) (parents P V w keys c)) ++ [c].
Lemma clone_class_inv w keys done c w' r : clone_class w keys done c = (w', r) ->
  match new_class w (c_name (get_cls w c)) (inherits_of w keys done c) (c_attrs (get_cls w c)) with
  | Err e => w' = w /\ r = Err e
  | Ok (w1, k) => only k w1 w' /\ (r = Ok k \/ exists e, r = Err e /\ (e = TypeError \/ e = ValueError \/ e = AttributeError))
  end.
Proof.
  unfold clone_class. fold (inherits_of w keys done c). destruct (new_class _ _ _ _) as [[w1 k]|e] eqn:En; [|intros [= <- <-]; auto].
  assert (Hk : k < List.length w1). { unfold new_class in En. destruct (has_dup _); [discriminate|]. destruct (c3 _); [|discriminate]. injection En as <- <-. rewrite app_length. cbn. lia. }
  set (w2 := PyClass.set_nth k _ w1). assert (H2 : only k w1 w2) by now apply only_set_attrs. clearbody w2.
  destruct (wrap_properties P V wrap_prop w2 k) as [w3 r3] eqn:E3. pose proof (only_wrap_properties w2 k) as H3. rewrite E3 in H3. cbn in H3.
  destruct r3 as [u|e]; intros [= <- <-].
  - split; [|now left]. eapply only_trans; [eapply only_trans; eauto|apply only_set].
  - split; [eapply only_trans; eauto|]. right. exists e. split; [reflexivity|]. revert E3. unfold wrap_properties. clear.
    match goal with |- (let (_, _) := ?X in _) = _ -> _ => destruct X as [w4 names] end. destruct (has P V w4 k "__get_property_name__"); [|intros [=]].
    unfold get_property_name. destruct (lookup w4 k (py "__property_name__")) as [a|].
    + destruct a as [?|?|s0|?|?|?|?]; try (intros E; injection E as <- <-; now left). destruct (lookup w4 k s0); intros E; [discriminate|injection E as <- <-; auto].
    + destruct (filter _ _) as [|[n a] [|? ?]]; try (intros [= <- <-]; auto; fail). destruct (lookup _ k n); intros [= <- <-]; auto.
Qed.

(** ** all of them *)
Lemma parents_same w w' keys c : (forall d, d < List.length w -> mro w' d = mro w d) -> c < List.length w -> wf P V w -> parents P V w' keys c = parents P V w keys c.
Proof.
  intros H Hc Hw. unfold parents, candidates. rewrite (H c Hc). set (cs := filter _ (mro w c)).
  assert (Hcs : forall i, In i cs -> i < List.length w). { intros i Hi. unfold cs in Hi. apply filter_In in Hi as [Hi _]. apply (mro_lt P V w Hw c i Hc Hi). }
  clearbody cs. apply filter_ext. intros x. f_equal. induction cs as [|i cs IH]; [reflexivity|]. cbn. rewrite IH by (intros j Hj; apply Hcs; now right). unfold in_mro. rewrite (H i) by (apply Hcs; now left). reflexivity.
Qed.
Lemma r_get_in c k (r : ref) : r_get c r = Some k -> In (c, k) r.
Proof. induction r as [|[a b] r IH]; [discriminate|]. cbn. destruct (Nat.eqb_spec c a) as [->|Hn]; [intros [= ->]; now left|]. intros H. right. auto. Qed.
Lemma r_get_some c (r : ref) : In c (map fst r) -> exists k, r_get c r = Some k.
Proof. induction r as [|[a b] r IH]; [intros []|]. cbn. destruct (Nat.eqb_spec c a) as [->|Hn]; [eauto|]. intros [E|H]; [congruence|auto]. Qed.
Lemma r_get_nodup c k (r : ref) : NoDup (map fst r) -> In (c, k) r -> r_get c r = Some k.
Proof.
  induction r as [|[a b] r IH]; [intros _ []|]. cbn. intros Hn [E|H].
  - injection E as -> ->. now rewrite Nat.eqb_refl.
  - apply NoDup_cons_iff in Hn as [Hn1 Hn2]. destruct (Nat.eqb_spec c a) as [->|Hne]; [|auto]. exfalso. apply Hn1. change a with (fst (a, k)). now apply in_map.
Qed.
Lemma filter_some_in {A} (l : list (option A)) x : In x (filter_some l) <-> In (Some x) l.
Proof using. clear. induction l as [|[a|] l IH]; cbn; [tauto| |]; rewrite IH; split; [intros [->|H]; auto|intros [E|H]; [injection E as ->; auto|auto]|auto|intros [E|H]; [discriminate|auto]]. Qed.

Record cloned (w0 : world) (keys : list nat) (done : ref) (w : world) : Prop := {
  cl_len : List.length w = List.length w0 + List.length done;
  cl_old : forall c, c < List.length w0 -> get_cls w c = get_cls w0 c;
  cl_wf : wf P V w;
  cl_keys : NoDup (map fst done);
  cl_in : forall c, In c (map fst done) -> In c keys;
  cl_new : map snd done = seq (List.length w0) (List.length done);
  cl_closed : forall c a, In c (map fst done) -> In a keys -> In a (mro w0 c) -> In a (map fst done);
  cl_name : forall c k, In (c, k) done -> c_name (get_cls w k) = c_name (get_cls w0 c);
  cl_bases : forall c k, In (c, k) done -> bases w k = filter_some (map (fun p => r_get p done) (parents P V w0 keys c)) ++ [c];
  cl_mro : forall c k x, In (c, k) done -> (In x (mro w k) <-> In x (mro w0 c) \/ exists a, In (a, x) done /\ In a (mro w0 c)) }.
Lemma cloned_start w keys : wf P V w -> cloned w keys [] w.
Proof. intros H. constructor; cbn; auto; try (intros; contradiction). constructor. Qed.
Lemma cloned_snd w0 keys done w c k : cloned w0 keys done w -> In (c, k) done -> List.length w0 <= k < List.length w.
Proof. intros H Hi. assert (Hs : In k (map snd done)) by (change k with (snd (c, k)); now apply in_map). rewrite (cl_new _ _ _ _ H) in Hs. apply in_seq in Hs. rewrite (cl_len _ _ _ _ H). lia. Qed.
Lemma c3_sound ls r : c3 ls = Some r -> (forall l, In l ls -> NoDup l) -> NoDup r /\ (forall l, In l ls -> subseq l r) /\ (forall x, In x r -> exists l, In l ls /\ In x l).
Proof. apply merge_sound. Qed.
Lemma r_get_app c (a b : ref) : In c (map fst a) -> r_get c (a ++ b) = r_get c a.
Proof. induction a as [|[x y] a IH]; [intros []|]. cbn. destruct (Nat.eqb_spec c x) as [->|Hn]; [reflexivity|]. intros [E|H]; [congruence|auto]. Qed.

Lemma cloned_step w0 keys done w c w' k : wf P V w0 -> (forall d, In d keys -> d < List.length w0) -> cloned w0 keys done w -> In c keys -> ~ In c (map fst done) ->
  (forall a, In a (candidates P V w0 keys c) -> In a (map fst done)) ->
  clone_class w keys done c = (w', Ok k) -> k = List.length w /\ cloned w0 keys (done ++ [(c, k)]) w'.
Proof.
  intros Hw0 Hkl Hc Hck Hcn Hcand E. pose proof (Hkl c Hck) as Hc0. apply clone_class_inv in E.
  assert (Hm : forall d, d < List.length w0 -> mro w d = mro w0 d) by (intros d Hd; unfold mro; now rewrite (cl_old _ _ _ _ Hc d Hd)).
  assert (Hcw : c < List.length w) by (rewrite (cl_len _ _ _ _ Hc); lia).
  assert (Hpar : parents P V w keys c = parents P V w0 keys c) by now apply parents_same.
  destruct (new_class w (c_name (get_cls w c)) (inherits_of w keys done c) (c_attrs (get_cls w c))) as [[w1 k1]|e] eqn:En; [|destruct E; discriminate].
  destruct E as [Ho Hr]. assert (k = k1) by (destruct Hr as [Hr|(e & Hr & _)]; congruence). subst k1. clear Hr.
  assert (Hin : forall b, In b (inherits_of w keys done c) -> b < List.length w).
  { intros b Hb. unfold inherits_of in Hb. apply in_app_or in Hb as [Hb|[<-|[]]]; [|exact Hcw]. apply filter_some_in, in_map_iff in Hb as (p & Hp & _). apply r_get_in in Hp. eapply cloned_snd in Hp; eauto. lia. }
  assert (Hwf1 : wf P V w1) by exact (wf_new P V w _ _ _ _ _ (cl_wf _ _ _ _ Hc) Hin En).
  unfold new_class in En. destruct (has_dup (inherits_of w keys done c)); [discriminate|]. destruct (c3 (map (mro w) (inherits_of w keys done c) ++ [inherits_of w keys done c])) as [m|] eqn:Em; [|discriminate].
  injection En as Ew1 Ek. subst k. split; [reflexivity|].
  assert (Gk : get_cls w1 (List.length w) = mkCls (c_name (get_cls w c)) (inherits_of w keys done c) (List.length w :: m) (c_attrs (get_cls w c))) by (rewrite <- Ew1; unfold get_cls; rewrite app_nth2, Nat.sub_diag by lia; reflexivity).
  assert (Gold : forall d, d < List.length w -> get_cls w1 d = get_cls w d) by (intros d Hd; rewrite <- Ew1; now apply get_app).
  destruct Ho as (Hsh & Hoth & Hname). destruct Hsh as (S1 & S2 & S3).
  assert (Hl1 : List.length w1 = S (List.length w)) by (rewrite <- Ew1, app_length; cbn; lia).
  assert (Mk : mro w' (List.length w) = List.length w :: m) by (rewrite S2; unfold mro; now rewrite Gk).
  assert (Mold : forall d, d < List.length w -> mro w' d = mro w d) by (intros d Hd; rewrite S2; unfold mro; now rewrite Gold).
  assert (Hnd : forall l, In l (map (mro w) (inherits_of w keys done c) ++ [inherits_of w keys done c]) -> NoDup l).
  { intros l Hl. apply in_app_or in Hl as [Hl|[<-|[]]].
    - apply in_map_iff in Hl as (b & <- & Hb). destruct (wf_mro P V w (cl_wf _ _ _ _ Hc) b (Hin b Hb)) as (mb & Eb & Hb2 & _). now rewrite Eb.
    - destruct (Hwf1 (List.length w)) as (m' & E1 & E2 & _); [lia|]. unfold bases in E2. now rewrite Gk in E2. }
  destruct (c3_sound _ _ Em Hnd) as (Hnm & Hsub & Hmem).
  assert (Hm_iff : forall x, In x m <-> exists b, In b (inherits_of w keys done c) /\ In x (mro w b)).
  { intros x. split.
    - intros Hx. destruct (Hmem x Hx) as (l & Hl & Hxl). apply in_app_or in Hl as [Hl|[<-|[]]]; [apply in_map_iff in Hl as (b & <- & Hb); eauto|].
      exists x. split; [exact Hxl|]. apply mro_self; [apply (cl_wf _ _ _ _ Hc)|auto].
    - intros (b & Hb & Hx). eapply ss_in; [apply Hsub, in_or_app; left; apply in_map, Hb|exact Hx]. }
  assert (Hcl : forall c0 a, In c0 (map fst done) -> In a (mro w0 c0) -> a <> c).
  { intros c0 a H1 H2 ->. apply Hcn. eapply cl_closed; eauto. }
  assert (Hfst : map fst (done ++ [(c, List.length w)]) = map fst done ++ [c]) by (rewrite map_app; reflexivity).
  constructor.
  - rewrite S1, Hl1, app_length, (cl_len _ _ _ _ Hc). cbn. lia.
  - intros d Hd. rewrite Hoth by (rewrite (cl_len _ _ _ _ Hc); lia). rewrite Gold by (rewrite (cl_len _ _ _ _ Hc); lia). now apply (cl_old _ _ _ _ Hc).
  - apply (wf_same P V w1 w'); [split; auto|exact Hwf1].
  - rewrite Hfst. apply NoDup_app_disj; [apply (cl_keys _ _ _ _ Hc)|constructor; [intros []|constructor]|]. intros x H1 [<-|[]]. contradiction.
  - rewrite Hfst. intros d Hd. apply in_app_or in Hd as [Hd|[<-|[]]]; [eapply cl_in; eauto|exact Hck].
  - rewrite map_app, app_length, (cl_new _ _ _ _ Hc). cbn [map List.length snd]. rewrite seq_app, (cl_len _ _ _ _ Hc). reflexivity.
  - rewrite Hfst. intros d a Hd Ha Hm0. apply in_app_or in Hd as [Hd|[<-|[]]].
    + apply in_or_app. left. eapply cl_closed; eauto.
    + destruct (Nat.eq_dec a c) as [->|Hne]; [apply in_or_app; right; now left|]. apply in_or_app. left. apply Hcand, cand_spec. auto.
  - intros d j Hd. apply in_app_or in Hd as [Hd|[E|[]]].
    + pose proof (cloned_snd _ _ _ _ _ _ Hc Hd). rewrite Hoth by lia. rewrite Gold by lia. eapply cl_name; eauto.
    + injection E as <- <-. rewrite Hname, Gk. cbn. now rewrite (cl_old _ _ _ _ Hc).
  - intros d j Hd. assert (Hpd : forall p, In p (parents P V w0 keys d) -> In d keys -> In d (map fst (done ++ [(c, List.length w)])) -> In p (map fst done)).
    { intros p Hp Hdk Hd'. pose proof (parent_lt P V w0 Hw0 keys d p (Hkl d Hdk) Hp) as (L1 & L2 & L3). rewrite Hfst in Hd'. apply in_app_or in Hd' as [Hd'|[<-|[]]].
      - eapply cl_closed; eauto.
      - apply Hcand, cand_spec. repeat split; auto. lia. }
    assert (Hdf : In d (map fst (done ++ [(c, List.length w)]))) by (change d with (fst (d, j)); now apply in_map).
    assert (Hdk : In d keys) by (rewrite Hfst in Hdf; apply in_app_or in Hdf as [H|[<-|[]]]; [eapply cl_in; eauto|exact Hck]).
    assert (Hmap : map (fun p => r_get p (done ++ [(c, List.length w)])) (parents P V w0 keys d) = map (fun p => r_get p done) (parents P V w0 keys d)).
    { apply map_ext_in. intros p Hp. apply r_get_app. auto. }
    rewrite Hmap. apply in_app_or in Hd as [Hd|[E|[]]].
    + pose proof (cloned_snd _ _ _ _ _ _ Hc Hd). rewrite S3. unfold bases. rewrite Gold by lia. apply (cl_bases _ _ _ _ Hc _ _ Hd).
    + injection E as <- <-. rewrite S3. unfold bases. rewrite Gk. cbn. unfold inherits_of. now rewrite Hpar.
  - intros d j x Hd. apply in_app_or in Hd as [Hd|[E|[]]].
    + pose proof (cloned_snd _ _ _ _ _ _ Hc Hd) as Hj. rewrite Mold by lia. rewrite (cl_mro _ _ _ _ Hc _ _ x Hd). split.
      * intros [H|(a & H1 & H2)]; [now left|]. right. exists a. split; [apply in_or_app; now left|exact H2].
      * intros [H|(a & H1 & H2)]; [now left|]. right. exists a. split; [|exact H2]. apply in_app_or in H1 as [H1|[E|[]]]; [exact H1|]. injection E as <- <-. exfalso. assert (Hdf : In d (map fst done)) by (change d with (fst (d, j)); now apply in_map). exact (Hcl d c Hdf H2 eq_refl).
    + injection E as <- <-. rewrite Mk. cbn [In]. rewrite Hm_iff. split.
      * intros [<-|(b & Hb & Hx)].
        -- right. exists c. split; [apply in_or_app; right; now left|]. now apply mro_self.
        -- unfold inherits_of in Hb. apply in_app_or in Hb as [Hb|[<-|[]]]; [|left; now rewrite <- (Hm c Hc0)].
           apply filter_some_in, in_map_iff in Hb as (p & Hp & Hpp). rewrite Hpar in Hpp. apply r_get_in in Hp. pose proof (parent_lt P V w0 Hw0 keys c p Hc0 Hpp) as (L1 & L2 & L3).
           apply (cl_mro _ _ _ _ Hc _ _ x Hp) in Hx as [Hx|(a & H1 & H2)].
           ++ left. eapply mro_trans; eauto.
           ++ right. exists a. split; [apply in_or_app; now left|]. eapply mro_trans; eauto.
      * intros [H|(a & H1 & H2)].
        -- right. exists c. split; [unfold inherits_of; apply in_or_app; right; now left|]. now rewrite Hm.
        -- apply in_app_or in H1 as [H1|[E|[]]]; [|injection E as <- <-; now left]. right.
           assert (Hac : In a (candidates P V w0 keys c)). { apply cand_spec. assert (Haf : In a (map fst done)) by (change a with (fst (a, x)); now apply in_map). repeat split; auto; [eapply cl_in; eauto|]. intros ->. contradiction. }
           destruct (parents_cover P V w0 Hw0 keys c a Hc0 Hac) as (p & Hp & Hap). pose proof (parent_lt P V w0 Hw0 keys c p Hc0 Hp) as (L1 & L2 & L3).
           assert (Hpd : In p (map fst done)) by (apply Hcand, cand_spec; repeat split; auto; lia). destruct (r_get_some p done Hpd) as (kp & Hkp).
           exists kp. split; [unfold inherits_of; apply in_or_app; left; apply filter_some_in, in_map_iff; exists p; split; [exact Hkp|now rewrite Hpar]|].
           apply r_get_in in Hkp. apply (cl_mro _ _ _ _ Hc _ _ x Hkp). right. exists a. auto.
Qed.

Definition clone_error (e : exn) : Prop := e = TypeError \/ e = ValueError \/ e = AttributeError.
Lemma clone_class_err w0 keys done w c w' e : cloned w0 keys done w -> clone_class w keys done c = (w', Err e) -> clone_error e /\ forall d, d < List.length w0 -> get_cls w' d = get_cls w0 d.
Proof.
  intros Hc E. apply clone_class_inv in E. destruct (new_class _ _ _ _) as [[w1 k]|e1] eqn:En.
  - destruct E as [(_ & Ho & _) [Hr|(e' & Hr & He)]]; [discriminate|]. injection Hr as <-. split; [exact He|]. intros d Hd.
    unfold new_class in En. destruct (has_dup _); [discriminate|]. destruct (c3 _); [|discriminate]. injection En as <- <-. pose proof (cl_len _ _ _ _ Hc).
    rewrite Ho by lia. rewrite get_app by lia. now apply (cl_old _ _ _ _ Hc).
  - destruct E as [-> E]. injection E as <-. split; [|intros d Hd; now apply (cl_old _ _ _ _ Hc)]. unfold new_class in En. destruct (has_dup _); [injection En as <-; now left|]. destruct (c3 _); [discriminate|]. injection En as <-. now left.
Qed.
Lemma clone_nodes_spec w0 keys l : wf P V w0 -> (forall d, In d keys -> d < List.length w0) -> ok_order P V w0 keys l ->
  forall todo w done w' r, cloned w0 keys done w -> map fst done ++ todo = l -> clone_nodes w keys done todo = (w', r) ->
  (forall d, d < List.length w0 -> get_cls w' d = get_cls w0 d) /\ match r with Ok done' => cloned w0 keys done' w' /\ map fst done' = l | Err e => clone_error e end.
Proof.
  intros Hw0 Hkl Hl. induction todo as [|c todo IH]; intros w done w' r Hc El; cbn [Kamino.clone_nodes].
  - intros [= <- <-]. split; [apply (cl_old _ _ _ _ Hc)|]. split; [exact Hc|]. now rewrite app_nil_r in El.
  - destruct (clone_class w keys done c) as [w1 [k|e]] eqn:E1; [|intros [= <- <-]; destruct (clone_class_err _ _ _ _ _ _ _ Hc E1); auto].
    pose proof Hl as (L1 & L2 & L3). assert (Hck : In c keys) by (apply L2; rewrite <- El; apply in_or_app; right; now left).
    assert (Hcn : ~ In c (map fst done)). { rewrite <- El in L1. apply NoDup_remove_2 in L1. intros H. apply L1. apply in_or_app. now left. }
    destruct (cloned_step w0 keys done w c w1 k Hw0 Hkl Hc Hck Hcn) as [Ek Hc1]; [|exact E1|].
    + intros a Ha. eapply (ancestors_first P V w0 Hw0 keys Hkl l Hl); [symmetry; exact El|exact Ha].
    + intros H. eapply IH; [exact Hc1| |exact H]. rewrite map_app, <- app_assoc. exact El.
Qed.
(** what [clone_classes] does, for any world and any classes *)
Lemma clone_classes_spec w classes w' r : wf P V w -> (forall c, In c classes -> c < List.length w) -> clone_classes w classes = (w', r) ->
  (forall c, c < List.length w -> get_cls w' c = get_cls w c) /\
  match r with
  | Err e => clone_error e
  | Ok rf => NoDup (map fst rf) /\ (forall c, In c (map fst rf) <-> In c classes) /\
      Permutation (map snd rf) (seq (List.length w) (List.length rf)) /\ List.length w' = List.length w + List.length rf /\ wf P V w' /\
      (forall c k, In (c, k) rf -> c_name (get_cls w' k) = c_name (get_cls w c) /\
        bases w' k = filter_some (map (fun p => r_get p rf) (parents P V w (map fst rf) c)) ++ [c] /\
        (forall x, In x (mro w' k) <-> In x (mro w c) \/ exists a, In (a, x) rf /\ In a (mro w c)) /\
        (forall a j, In (a, j) rf -> In a (mro w c) -> a <> c -> j < k))
  end.
Proof.
  intros Hw Hlt. unfold clone_classes, Kamino.clone_classes. set (keys := keys_of [] (sort_by_deps P V w classes)).
  assert (Hkn : NoDup keys) by apply keys_nodup. assert (Hki : forall c, In c keys <-> In c classes) by (intros c; apply keys_in).
  assert (Hkl : forall c, In c keys -> c < List.length w) by (intros c Hc; apply Hlt, Hki, Hc). clearbody keys.
  destruct (order_ok P V w Hw keys Hkn Hkl) as (l & El & Hl & Hperm). rewrite El.
  destruct (clone_nodes w keys [] l) as [w1 [done|e]] eqn:E.
  - destruct (clone_nodes_spec w keys l Hw Hkl Hl l w [] w1 (Ok done) (cloned_start w keys Hw) eq_refl E) as (H1 & H2 & H3).
    intros [= <- <-]. split; [exact H1|]. set (rf := flat_map _ keys).
    assert (Hrf : forall ks, (forall c, In c ks -> In c (map fst done)) -> map fst (flat_map (fun c => match r_get c done with Some k => [(c, k)] | None => [] end) ks) = ks).
    { induction ks as [|c ks IH]; intros Hks; [reflexivity|]. cbn [flat_map]. destruct (r_get_some c done (Hks c (or_introl eq_refl))) as [k ->]. cbn. f_equal. apply IH. intros d Hd. apply Hks. now right. }
    assert (Hall : forall c, In c keys -> In c (map fst done)) by (intros c Hc; rewrite H3; apply (Permutation_in _ (Permutation_sym Hperm)), Hc).
    assert (Efst : map fst rf = keys) by (apply Hrf, Hall).
    assert (Hin : forall c k, In (c, k) rf <-> In (c, k) done).
    { intros c k. unfold rf. rewrite in_flat_map. split.
      - intros (d & Hd & Hk). destruct (r_get d done) as [j|] eqn:Ej; [|destruct Hk]. destruct Hk as [Hk|[]]. injection Hk as <- <-. now apply r_get_in.
      - intros Hk. exists c. split; [|rewrite (r_get_nodup _ _ _ (cl_keys _ _ _ _ H2) Hk); now left]. apply (cl_in _ _ _ _ H2). change c with (fst (c, k)). now apply in_map. }
    assert (Hpd : Permutation rf done).
    { apply NoDup_Permutation.
      - apply (NoDup_map_inv fst). now rewrite Efst.
      - apply (NoDup_map_inv fst), (cl_keys _ _ _ _ H2).
      - intros [c k]. apply Hin. }
    assert (Hget : forall p, r_get p rf = r_get p done).
    { intros p. destruct (r_get p done) as [k|] eqn:Ek.
      - apply r_get_nodup; [now rewrite Efst|]. apply Hin. now apply r_get_in.
      - destruct (r_get p rf) as [k|] eqn:Ek2; [|reflexivity]. apply r_get_in, Hin in Ek2. rewrite (r_get_nodup _ _ _ (cl_keys _ _ _ _ H2) Ek2) in Ek. discriminate. }
    split; [now rewrite Efst|]. split; [intros c; rewrite Efst; apply Hki|].
    split; [rewrite (Permutation_length Hpd), <- (cl_new _ _ _ _ H2); now apply Permutation_map|].
    split; [rewrite (Permutation_length Hpd); apply (cl_len _ _ _ _ H2)|]. split; [apply (cl_wf _ _ _ _ H2)|].
    intros c k Hck. apply Hin in Hck. split; [apply (cl_name _ _ _ _ H2 _ _ Hck)|]. split; [|split].
    + rewrite (cl_bases _ _ _ _ H2 _ _ Hck), Efst. f_equal. f_equal. apply map_ext. intros p. now rewrite Hget.
    + intros x. rewrite (cl_mro _ _ _ _ H2 _ _ x Hck). split; (intros [H|(a & Ha & H)]; [now left|right; exists a; split; [apply Hin, Ha|exact H]]).
    + intros a j Haj Ha Hne. apply Hin in Haj. assert (Hjm : In j (mro w1 k)) by (apply (cl_mro _ _ _ _ H2 _ _ j Hck); right; eauto).
      pose proof (cloned_snd _ _ _ _ _ _ H2 Hck) as Hkb. pose proof (mro_lt P V w1 (cl_wf _ _ _ _ H2) k j ltac:(lia) Hjm) as [Hle _].
      assert (j <> k); [|lia]. intros ->. apply Hne.
      assert (Hs : NoDup (map snd done)) by (rewrite (cl_new _ _ _ _ H2); apply seq_NoDup). clear - Hs Hck Haj.
      induction done as [|[x y] done IH]; [destruct Hck|]. cbn in Hs. apply NoDup_cons_iff in Hs as [Hs1 Hs2].
      destruct Hck as [E1|E1], Haj as [E2|E2]; auto; [congruence| |]; exfalso; apply Hs1; [injection E1 as <- <-|injection E2 as <- <-]; (change k with (snd (a, k)) || idtac); match goal with H : In ?p done |- In ?y _ => apply (in_map snd) in H; exact H end.
  - destruct (clone_nodes_spec w keys l Hw Hkl Hl l w [] w1 (Err e) (cloned_start w keys Hw) eq_refl E) as (H1 & H2). intros [= <- <-]. auto.
Qed.
End Facts.
