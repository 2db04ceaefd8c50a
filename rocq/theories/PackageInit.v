(** building a package *)
From Coq Require Import String Permutation.
From Verif Require Import Base BaseFacts Dict DictFacts PyClass PyClassFacts Kamino KaminoOrder KaminoFacts KaminoMro KaminoAttrs KaminoExact KaminoResolve KaminoDone KaminoMarks KaminoNames Package PackageFacts.
Open Scope list_scope.

Section Init.
Variables P V : Type.
Notation world := (world P V).
Notation attr := (attr P V).
Variable wrap_prop : P -> P.
Variable wrap_call : V -> V.
Variables package_ref none_ref : V.
Variable show : nat -> attr -> pystr.
Notation own := (own P V).
Notation get_namespace := (get_namespace P V show).
Notation get_namespaces := (get_namespaces P V show).
Notation link_property := (link_property P V none_ref).
Notation link_names := (link_names P V none_ref).
Notation link_mapping := (link_mapping P V none_ref).
Notation link_seq := (link_seq P V none_ref).
Notation perform_mapping := (perform_mapping P V none_ref).
Notation refresh_all := (refresh_all P V).
Notation clone_classes := (clone_classes P V wrap_prop wrap_call package_ref).
Notation package_init := (package_init P V wrap_prop wrap_call package_ref none_ref show).
Notation quiet := (quiet P V).
Notation proper := (proper P V).
Notation cached := (cached P V).
Notation gp := (py "__get_properties__").
Notation gpn := (py "__get_property_name__").
Notation pn := (py "__property_name__").
Notation pp := (py "__properties__").
Notation rg := (py "__registration__").
Notation pk := (py "__jsonld_package__").

Lemma NoDup_app_intro {A} (a b : list A) : NoDup a -> NoDup b -> (forall x, In x a -> ~ In x b) -> NoDup (a ++ b).
Proof. induction a as [|x a IH]; cbn; [auto|]. intros Ha Hb H. apply NoDup_cons_iff in Ha as [H1 H2]. constructor; [intros Hi; apply in_app_or in Hi as [Hi|Hi]; [contradiction|]; apply (H x); auto|]. apply IH; auto. Qed.
(** ** which classes are changed *)
Definition fixed (n : nat) (w w' : world) : Prop := forall d, d < n -> get_cls w' d = get_cls w d.
Lemma fixed_trans n w1 w2 w3 : fixed n w1 w2 -> fixed n w2 w3 -> fixed n w1 w3.
Proof. intros A B d Hd. rewrite B, A; auto. Qed.
Lemma fixed_refl n w : fixed n w w. Proof. intros d _. reflexivity. Qed.
Lemma fixed_set n w c x v : n <= c -> fixed n w (set_attr w c x v).
Proof. intros H d Hd. apply get_set_other. lia. Qed.
Lemma get_property_name_fixed n (w : world) c : n <= c -> fixed n w (fst (get_property_name P V w c)).
Proof. intros H d Hd. apply (only_get_property_name P V w c). lia. Qed.
Lemma get_namespace_fixed n (w : world) c : n <= c -> fixed n w (fst (get_namespace w c)).
Proof.
  intros H. unfold Package.get_namespace. destruct (lookup w c (py "__get_namespace__")) as [a|]; [|apply fixed_refl]. destruct a as [| | | | |k|]; try apply fixed_refl. destruct k as [|pre|pre]; try apply fixed_refl.
  - destruct (find_owner P V w (mro w c) (py "type")) as [[o v]|]; [destruct v|]; apply fixed_refl.
  - destruct (lookup w c gpn); [|apply fixed_refl]. pose proof (get_property_name_fixed n w c H) as H1. destruct (get_property_name P V w c) as [w1 [s|e]]; exact H1.
Qed.
Lemma get_namespaces_fixed n cs : forall w : world, (forall c, In c cs -> n <= c) -> fixed n w (fst (get_namespaces w cs)).
Proof.
  induction cs as [|c cs IH]; intros w H; cbn [Package.get_namespaces]; [apply fixed_refl|]. pose proof (get_namespace_fixed n w c (H c (or_introl eq_refl))) as H1. destruct (get_namespace w c) as [w1 [x|e]]; [|exact H1].
  specialize (IH w1 (fun d Hd => H d (or_intror Hd))). destruct (get_namespaces w1 cs) as [w2 [l|e]]; eapply fixed_trans; eauto.
Qed.
Lemma link_property_fixed n (w : world) q j : n <= q -> n <= j -> fixed n w (fst (link_property w q j)).
Proof.
  intros Hq Hj. unfold Package.link_property. destruct (lookup w q gpn); [|apply fixed_refl]. pose proof (get_property_name_fixed n w q Hq) as H1. destruct (get_property_name P V w q) as [w1 [s|e]]; [|exact H1].
  unfold get_registration. pose proof (get_property_name_fixed n w1 q Hq) as H2. destruct (get_property_name P V w1 q) as [w2 [s2|e]]; [|eapply fixed_trans; eauto]. cbn [fst] in *.
  destruct (lookup w2 q rg) as [v|].
  - destruct v; cbn; try (eapply fixed_trans; eassumption). eapply fixed_trans; [eapply fixed_trans; eassumption|]. now apply fixed_set.
  - destruct (lookup w2 q s2) as [v|]; [destruct v|]; cbn; try (eapply fixed_trans; eassumption).
    + eapply fixed_trans; [eapply fixed_trans; eassumption|]. eapply fixed_trans; [|now apply fixed_set]. now apply fixed_set.
    + eapply fixed_trans; [eapply fixed_trans; eassumption|]. now apply fixed_set.
Qed.
Lemma link_names_fixed n d names j : n <= j -> (forall x q, ns_get x d = Some q -> n <= q) -> forall w, fixed n w (fst (link_names w d names j)).
Proof.
  intros Hj Hd. induction names as [|x names IH]; intros w; cbn; [apply fixed_refl|]. destruct (ns_get (Some x) d) as [q|] eqn:E; [|apply fixed_refl]. pose proof (link_property_fixed n w q j (Hd _ _ E) Hj) as H1.
  destruct (link_property w q j) as [w1 [u|e]]; [|exact H1]. eapply fixed_trans; [exact H1|apply IH].
Qed.
Lemma link_mapping_fixed n d m : (forall x q, ns_get x d = Some q -> n <= q) -> forall w, fixed n w (fst (link_mapping w d m)).
Proof.
  intros Hd. induction m as [|[o names] m IH]; intros w; cbn; [apply fixed_refl|]. unfold link_properties. destruct (ns_get (Some o) d) as [j|] eqn:E; [|apply fixed_refl].
  pose proof (link_names_fixed n d names j (Hd _ _ E) Hd w) as H1. destruct (link_names w d names j) as [w1 [u|e]]; [|exact H1]. eapply fixed_trans; [exact H1|apply IH].
Qed.
Lemma refresh_all_fixed n objs : (forall c, In c objs -> n <= c) -> forall w, fixed n w (fst (refresh_all w objs)).
Proof.
  induction objs as [|c objs IH]; intros H w; cbn; [apply fixed_refl|]. destruct (has P V w c "__get_properties__"); [|apply fixed_refl]. eapply fixed_trans; [|apply IH; intros d Hd; apply H; now right]. apply fixed_set, H. now left.
Qed.

(** ** the namespace dict *)
Lemma ns_eqb_eq a b : ns_eqb a b = true <-> a = b.
Proof. destruct a, b; cbn; try (split; [discriminate|congruence]); [rewrite str_eqb_eq; split; congruence|split; reflexivity]. Qed.
Lemma ns_get_set n c d x : ns_get x (ns_set n c d) = if ns_eqb x n then Some c else ns_get x d.
Proof.
  induction d as [|[k y] d IH]; cbn; [reflexivity|]. destruct (ns_eqb n k) eqn:E; cbn.
  - apply ns_eqb_eq in E. subst k. destruct (ns_eqb x n); reflexivity.
  - rewrite IH. destruct (ns_eqb x k) eqn:E2; [|reflexivity]. apply ns_eqb_eq in E2. subst x. destruct (ns_eqb k n) eqn:E3; [|reflexivity]. apply ns_eqb_eq in E3. subst. rewrite (proj2 (ns_eqb_eq n n) eq_refl) in E. discriminate.
Qed.
Fixpoint last_ns (x : option pystr) (l : list (option pystr * nat)) : option nat :=
  match l with [] => None | (k, c) :: l' => match last_ns x l' with Some r => Some r | None => if ns_eqb x k then Some c else None end end.
Lemma ns_of_get l x : ns_get x (ns_of l) = last_ns x l.
Proof.
  unfold ns_of. assert (H : forall d, ns_get x (fold_left (fun d y => ns_set (fst y) (snd y) d) l d) = match last_ns x l with Some r => Some r | None => ns_get x d end).
  { induction l as [|[k c] l IH]; intros d; cbn; [reflexivity|]. rewrite IH, ns_get_set. destruct (last_ns x l); [reflexivity|]. destruct (ns_eqb x k); reflexivity. }
  rewrite H. now destruct (last_ns x l).
Qed.
Lemma last_ns_in x l c : last_ns x l = Some c -> In (x, c) l.
Proof. induction l as [|[k y] l IH]; cbn; [discriminate|]. destruct (last_ns x l); [intros [= <-]; right; now apply IH|]. destruct (ns_eqb x k) eqn:E; [|discriminate]. apply ns_eqb_eq in E. intros [= <-]. left. congruence. Qed.
Lemma last_ns_some x l c : In (x, c) l -> exists c', last_ns x l = Some c'.
Proof. induction l as [|[k y] l IH]; cbn; [intros []|]. intros [H|H]; [injection H as -> ->; rewrite (proj2 (ns_eqb_eq x x) eq_refl); destruct (last_ns x l); eauto|]. destruct (IH H) as (c' & ->). eauto. Qed.
Lemma ns_of_values nss cs x q : ns_get x (ns_of (combine nss cs)) = Some q -> In q cs.
Proof. rewrite ns_of_get. intros H. apply last_ns_in in H. eapply in_combine_r, H. Qed.

(** ** the stages of construction *)
Definition prepare (w : world) (objects properties : list nat) : world * res (ref * ref * list (option pystr)) :=
  match clone_classes w objects with
  | (w1, Err e) => (w1, Err e)
  | (w1, Ok oref) =>
    match get_namespaces w1 (map snd oref) with
    | (w2, Err e) => (w2, Err e)
    | (w2, Ok _) =>
      match clone_classes w2 properties with
      | (w3, Err e) => (w3, Err e)
      | (w3, Ok pref) =>
        match get_namespaces w3 (map snd pref) with
        | (w4, Err e) => (w4, Err e)
        | (w4, Ok _) =>
          match get_namespaces w4 (map snd oref ++ map snd pref) with
          | (w5, Err e) => (w5, Err e)
          | (w5, Ok nss) => (w5, Ok (oref, pref, nss))
          end
        end
      end
    end
  end.
Lemma package_init_prepare w s objects properties m : package_init w (Some s) objects properties m =
  match prepare w objects properties with
  | (w5, Err e) => (w5, Err e)
  | (w5, Ok (oref, pref, nss)) =>
      match perform_mapping w5 (ns_of (combine nss (map snd oref ++ map snd pref))) (map snd oref) m with
      | (w6, Err e) => (w6, Err e)
      | (w6, Ok _) => (w6, Ok (mkPackage s oref pref (ns_of (combine nss (map snd oref ++ map snd pref))) m))
      end
  end.
Proof.
  unfold Package.package_init, prepare. destruct (clone_classes w objects) as [w1 [oref|e]]; [|reflexivity]. destruct (get_namespaces w1 (map snd oref)) as [w2 [l|e]]; [|reflexivity].
  destruct (clone_classes w2 properties) as [w3 [pref|e]]; [|reflexivity]. destruct (get_namespaces w3 (map snd pref)) as [w4 [l'|e]]; [|reflexivity].
  destruct (get_namespaces w4 (map snd oref ++ map snd pref)) as [w5 [nss|e]]; [|reflexivity]. reflexivity.
Qed.
(** a property class without relatives in the package, whose name is not cached *)
Definition standalone (w : world) (classes : list nat) (c : nat) : Prop :=
  (forall a, In a classes -> In a (mro w c) -> a = c) /\ lookup w c pn = None /\ lookup w c gpn <> None /\ lookup w c gp = None.
(** what cloning does, for worlds in general *)
Record clone_facts (w : world) (classes : list nat) (w' : world) (rf : ref) : Prop := {
  f_keys : NoDup (map fst rf) /\ forall c, In c (map fst rf) <-> In c classes;
  f_vals : NoDup (map snd rf) /\ forall k, In k (map snd rf) <-> List.length w <= k < List.length w';
  f_mro : forall c k, In (c, k) rf -> forall x, In x (mro w' k) <-> In x (mro w c) \/ exists a, In (a, x) rf /\ In a (mro w c);
  f_visible : forall c k n, In (c, k) rf -> ~ special n -> (lookup w' k n = None <-> lookup w c n = None);
  f_props : forall c k n, In (c, k) rf -> ~ special n -> (In n (property_names P V w' k) <-> In n (property_names P V w c));
  f_named : forall c k, In (c, k) rf -> lookup w' k gpn <> None -> cached w' k;
  f_plain : (forall c, In c classes -> regular P V w classes c) -> forall c k n, In (c, k) rf -> ~ special n -> ~ In n (property_names P V w c) ->
    lookup w' k n = match find_attr w (filter (fun x => mem x classes) (mro w c)) n with Some v => Some (wrap_attr P V wrap_call v) | None => lookup w c n end;
  f_alone : forall c k, In (c, k) rf -> standalone w classes c -> exists s p, filter (fun x => is_prop P V (snd x)) (c_attrs (get_cls w c)) = [(s, AProp p)] /\ own w' k pn = Some (AStr s) /\ (s <> pk -> own w' k s = Some (AProp (wrap_prop p))) }.
Lemma clone_facts_hold w classes w' r : proper w -> (forall c, In c classes -> c < List.length w) -> clone_classes w classes = (w', r) ->
  fixed (List.length w) w w' /\ match r with Err e => e = TypeError \/ e = ValueError \/ e = AttributeError | Ok rf => proper w' /\ clone_facts w classes w' rf end.
Proof.
  intros [Hw Hd] Hlt E. destruct (clone_classes_spec P V wrap_prop wrap_call package_ref w classes w' r Hw Hlt E) as [Hfix H]. split; [exact Hfix|]. destruct r as [rf|e]; [|exact H].
  destruct H as (H1 & H2 & H3 & H4 & H5 & H6).
  destruct (clone_classes_done P V wrap_prop wrap_call package_ref w classes Hw Hd Hlt) as [F1 _]. destruct (F1 w' rf E) as (keys & done & K1 & K2 & K3 & Hc & Hd' & Ha & _ & Hex).
  assert (Hkl : forall d, In d keys -> d < List.length w) by (intros d Hdk; apply Hlt, K1, Hdk).
  split; [split; assumption|]. constructor.
  - split; [exact H1|exact H2].
  - split; [apply (Permutation_NoDup (Permutation_sym H3)), seq_NoDup|]. intros k. rewrite H4. split; [intros Hk; apply (Permutation_in _ H3), in_seq in Hk; exact Hk|intros Hk; apply (Permutation_in _ (Permutation_sym H3)), in_seq, Hk].
  - intros c k Hck. apply (H6 c k Hck).
  - intros c k n Hck Hs. apply K2 in Hck. eapply visible_same; eauto.
  - intros c k n Hck Hs. apply K2 in Hck. eapply properties_same; eauto.
  - intros c k Hck Hg. destruct (clone_names P V wrap_prop wrap_call package_ref w classes w' rf Hw Hd Hlt E c k Hck Hg) as (s & Hs & _). now exists s.
  - intros Hreg c k n Hck Hs Hn. apply K2 in Hck. rewrite (filter_ext (fun x => mem x classes) (fun x => mem x keys)) by (intros x; symmetry; now apply mem_same). eapply resolve_plain; eauto.
  - intros c k Hck (A & B & C & D). destruct (clone_standalone P V wrap_prop wrap_call package_ref w classes w' rf Hw Hd Hlt E c k Hck A B C D) as (s & p & S1 & S2 & S3). exists s, p. split; [exact S1|]. split; [|exact S3].
    assert (Hkw : List.length w <= k < List.length w') by (rewrite H4; assert (Hk : In k (map snd rf)) by (change k with (snd (c, k)); now apply in_map); apply (Permutation_in _ H3), in_seq in Hk; exact Hk).
    destruct (wf_mro P V w' H5 k (proj2 Hkw)) as (m & Em & _ & Hml & _). rewrite (lookup_own P V w' k m) in S2 by exact Em. destruct (own w' k pn) as [v|] eqn:Eo; [exact S2|]. exfalso.
    apply find_attr_some in S2 as (a & Ham & Ea). assert (Hak : In a (mro w' k)) by (rewrite Em; now right). apply (proj1 (proj2 (proj2 (H6 c k Hck)))) in Hak as [Hak|(b & Hb & Hbc)].
    + assert (Hcl : c < List.length w) by (apply Hlt, H2; change c with (fst (c, k)); now apply in_map). pose proof (proj2 (mro_lt P V w Hw c a Hcl Hak)) as Hal. unfold KaminoAttrs.own in Ea. rewrite Hfix in Ea by exact Hal. unfold lookup in B. pose proof (proj1 (find_attr_none P V w _ pn) B a Hak) as Hx. unfold KaminoAttrs.own in Hx. congruence.
    + assert (b = c) by (apply A; [apply H2; change b with (fst (b, a)); now apply in_map|exact Hbc]). subst b. specialize (Hml a Ham). assert (a = k) by (pose proof (r_get_nodup c k rf H1 Hck); pose proof (r_get_nodup c a rf H1 Hb); congruence). lia.
Qed.
Record prepared (w : world) (objects properties : list nat) (oref pref : ref) (nss : list (option pystr)) (w5 : world) : Prop := {
  r_proper : proper w5;
  r_len : List.length w <= List.length w5;
  r_objects : forall c, In c (map fst oref) <-> In c objects;
  r_properties : forall c, In c (map fst pref) <-> In c properties;
  r_nodup : NoDup (map fst oref) /\ NoDup (map fst pref) /\ NoDup (map snd oref ++ map snd pref);
  r_range : forall k, In k (map snd oref ++ map snd pref) -> List.length w <= k < List.length w5;
  r_mro : forall c k, In (c, k) oref -> forall x, In x (mro w5 k) <-> In x (mro w c) \/ exists a, In (a, x) oref /\ In a (mro w c);
  r_visible : forall c k n, In (c, k) oref -> ~ special n -> (lookup w5 k n = None <-> lookup w c n = None);
  r_props : forall c k n, In (c, k) oref -> ~ special n -> (In n (property_names P V w5 k) <-> In n (property_names P V w c));
  r_pmro : forall c k, In (c, k) pref -> forall x, In x (mro w5 k) <-> In x (mro w c) \/ exists a, In (a, x) pref /\ In a (mro w c);
  r_pvisible : forall c k n, In (c, k) pref -> ~ special n -> (lookup w5 k n = None <-> lookup w c n = None);
  r_cached : forall k, In k (map snd oref ++ map snd pref) -> lookup w5 k gpn <> None -> cached w5 k;
  r_nss : Forall2 (fun k x => get_namespace w5 k = (w5, Ok x)) (map snd oref ++ map snd pref) nss;
  r_plain : (forall c, In c objects -> regular P V w objects c) -> forall c k n, In (c, k) oref -> ~ special n -> ~ In n (property_names P V w c) ->
    lookup w5 k n = match find_attr w (filter (fun x => mem x objects) (mro w c)) n with Some v => Some (wrap_attr P V wrap_call v) | None => lookup w c n end;
  r_pplain : (forall c, In c properties -> regular P V w properties c) -> forall c k n, In (c, k) pref -> ~ special n -> ~ In n (property_names P V w c) ->
    lookup w5 k n = match find_attr w (filter (fun x => mem x properties) (mro w c)) n with Some v => Some (wrap_attr P V wrap_call v) | None => lookup w c n end;
  r_alone : forall c k, In (c, k) pref -> standalone w properties c -> exists s p, filter (fun x => is_prop P V (snd x)) (c_attrs (get_cls w c)) = [(s, AProp p)] /\ own w5 k pn = Some (AStr s) /\
    (s <> pk -> s <> pn -> own w5 k s = Some (AProp (wrap_prop p))) }.
(** once every name is cached, evaluating a namespace changes nothing *)
Lemma get_namespace_cached (w : world) k : (lookup w k gpn <> None -> cached w k) -> fst (get_namespace w k) = w.
Proof.
  intros H. unfold Package.get_namespace. destruct (lookup w k (py "__get_namespace__")) as [a|]; [|reflexivity]. destruct a as [| | | | |n|]; try reflexivity. destruct n as [|pre|pre]; try reflexivity.
  - destruct (find_owner P V w (mro w k) (py "type")) as [[o v]|]; [destruct v|]; reflexivity.
  - destruct (lookup w k gpn); [|reflexivity]. destruct H as (s & Hs); [discriminate|]. unfold get_property_name. now rewrite Hs.
Qed.
Lemma get_namespaces_cached ks : forall (w : world) w' nss, (forall k, In k ks -> lookup w k gpn <> None -> cached w k) -> get_namespaces w ks = (w', Ok nss) -> w' = w /\ Forall2 (fun k x => get_namespace w k = (w, Ok x)) ks nss.
Proof.
  induction ks as [|k ks IH]; intros w w' nss H; cbn [Package.get_namespaces]; [intros E; assert (w' = w) by congruence; assert (nss = []) by congruence; subst; split; [reflexivity|constructor]|].
  pose proof (get_namespace_cached w k (H k (or_introl eq_refl))) as H1. destruct (get_namespace w k) as [w1 r1] eqn:E1. cbn [fst] in H1. subst w1. destruct r1 as [x|e]; [|discriminate].
  destruct (get_namespaces w ks) as [w2 [l|e]] eqn:E2; [|discriminate]. intros E. assert (w' = w2) by congruence. assert (nss = x :: l) by congruence. subst. destruct (IH w w2 l (fun d Hd => H d (or_intror Hd)) E2) as [-> Hf]. split; [reflexivity|]. now constructor.
Qed.
Lemma fixed_lookup n w w' c x : proper w -> n <= List.length w -> fixed n w w' -> c < n -> lookup w' c x = lookup w c x.
Proof.
  intros Hp Hn Hf Hc. unfold lookup, mro. rewrite Hf by exact Hc. apply find_attr_ext. intros a Ha. unfold KaminoAttrs.own. rewrite Hf; [reflexivity|]. pose proof (proj1 (mro_lt P V w (proj1 Hp) c a ltac:(lia) Ha)). lia.
Qed.
Lemma special_pn : special pn. Proof. right. now left. Qed.
Lemma prepare_spec w objects properties w5 r : proper w -> (forall c, In c objects -> c < List.length w) -> (forall c, In c properties -> c < List.length w) -> prepare w objects properties = (w5, r) ->
  fixed (List.length w) w w5 /\ match r with Err e => e = TypeError \/ e = ValueError \/ e = AttributeError | Ok (oref, pref, nss) => prepared w objects properties oref pref nss w5 end.
Proof.
  intros Hp Ho Hq. unfold prepare. destruct (clone_classes w objects) as [w1 r1] eqn:E1. destruct (clone_facts_hold w objects w1 r1 Hp Ho E1) as [X1 F1].
  destruct r1 as [oref|e]; [|intros E; assert (w5 = w1) by congruence; assert (r = Err e) by congruence; subst; split; assumption]. destruct F1 as [P1 F1].
  assert (L1 : List.length w <= List.length w1). { destruct (Nat.le_gt_cases (List.length w) (List.length w1)) as [H|H]; [exact H|]. destruct (proper_mro P V w _ Hp H) as (m & Em & _). unfold mro in Em. rewrite <- X1 in Em by exact H. rewrite get_out in Em by lia. discriminate. }
  assert (R1 : forall k, In k (map snd oref) -> List.length w <= k < List.length w1) by (intros k Hk; now apply (f_vals _ _ _ _ F1)).
  destruct (get_namespaces w1 (map snd oref)) as [w2 r2] eqn:E2. destruct (get_namespaces_quiet P V show (map snd oref) w1 w2 r2 P1 (fun c Hc => proj2 (R1 c Hc)) E2) as (Q2 & P2 & S2).
  pose proof (get_namespaces_fixed (List.length w) (map snd oref) w1 (fun c Hc => proj1 (R1 c Hc))) as X2. rewrite E2 in X2. cbn [fst] in X2. pose proof (fixed_trans _ _ _ _ X1 X2) as X12.
  destruct r2 as [l2|e]; [|intros E; assert (w5 = w2) by congruence; assert (r = Err e) by congruence; subst; split; assumption].
  assert (L2 : List.length w2 = List.length w1) by apply Q2.
  destruct (clone_classes w2 properties) as [w3 r3] eqn:E3. assert (Hq2 : forall c, In c properties -> c < List.length w2) by (intros c Hc; specialize (Hq c Hc); lia).
  destruct (clone_facts_hold w2 properties w3 r3 P2 Hq2 E3) as [X3 F3]. assert (X3' : fixed (List.length w) w2 w3) by (intros d Hd; apply X3; lia). pose proof (fixed_trans _ _ _ _ X12 X3') as X13.
  destruct r3 as [pref|e]; [|intros E; assert (w5 = w3) by congruence; assert (r = Err e) by congruence; subst; split; assumption]. destruct F3 as [P3 F3].
  assert (L3 : List.length w2 <= List.length w3). { destruct (Nat.le_gt_cases (List.length w2) (List.length w3)) as [H|H]; [exact H|]. destruct (proper_mro P V w2 _ P2 H) as (m & Em & _). unfold mro in Em. rewrite <- X3 in Em by exact H. rewrite get_out in Em by lia. discriminate. }
  assert (R3 : forall k, In k (map snd pref) -> List.length w2 <= k < List.length w3) by (intros k Hk; now apply (f_vals _ _ _ _ F3)).
  destruct (get_namespaces w3 (map snd pref)) as [w4 r4] eqn:E4. destruct (get_namespaces_quiet P V show (map snd pref) w3 w4 r4 P3 (fun c Hc => proj2 (R3 c Hc)) E4) as (Q4 & P4 & S4).
  pose proof (get_namespaces_fixed (List.length w2) (map snd pref) w3 (fun c Hc => proj1 (R3 c Hc))) as X4. rewrite E4 in X4. cbn [fst] in X4. assert (X4' : fixed (List.length w) w3 w4) by (intros d Hd; apply X4; lia). pose proof (fixed_trans _ _ _ _ X13 X4') as X14.
  destruct r4 as [l4|e]; [|intros E; assert (w5 = w4) by congruence; assert (r = Err e) by congruence; subst; split; assumption].
  assert (L4 : List.length w4 = List.length w3) by apply Q4.
  assert (RD : forall k, In k (map snd oref ++ map snd pref) -> List.length w <= k < List.length w4) by (intros k Hk; apply in_app_or in Hk as [Hk|Hk]; [specialize (R1 k Hk)|specialize (R3 k Hk)]; lia).
  destruct (get_namespaces w4 (map snd oref ++ map snd pref)) as [w5' r5] eqn:E5. destruct (get_namespaces_quiet P V show _ w4 w5' r5 P4 (fun c Hc => proj2 (RD c Hc)) E5) as (Q5 & P5 & S5).
  pose proof (get_namespaces_fixed (List.length w) (map snd oref ++ map snd pref) w4 (fun c Hc => proj1 (RD c Hc))) as X5. rewrite E5 in X5. cbn [fst] in X5. pose proof (fixed_trans _ _ _ _ X14 X5) as X15.
  intros E. assert (w5 = w5') by (destruct r5; congruence). subst w5'. split; [exact X15|]. destruct r5 as [nss|e]; [|assert (r = Err e) by congruence; subst r; exact S5]. assert (r = Ok (oref, pref, nss)) by congruence. subst r.
  assert (L5 : List.length w5 = List.length w4) by apply Q5.
  assert (Q45 : quiet w3 w5) by (eapply quiet_trans; eassumption).
  (* object clones between w2 and w3 *)
  assert (Hlo : forall k n, In k (map snd oref) -> lookup w3 k n = lookup w2 k n) by (intros k n Hk; apply (fixed_lookup (List.length w2)); auto; specialize (R1 k Hk); lia).
  assert (Hmo : forall k, In k (map snd oref) -> mro w5 k = mro w1 k). { intros k Hk. rewrite (proj1 (proj2 (proj1 Q45))). unfold mro. rewrite X3 by (specialize (R1 k Hk); lia). apply (proj1 (proj2 (proj1 Q2))). }
  assert (Hvo : forall k n, In k (map snd oref) -> n <> pn -> lookup w5 k n = lookup w1 k n) by (intros k n Hk Hn; rewrite (quiet_lookup P V w3 w5 k n Q45 Hn), Hlo by exact Hk; now apply quiet_lookup).
  assert (Hko : forall c k, In (c, k) oref -> In k (map snd oref)) by (intros c k H; change k with (snd (c, k)); now apply in_map).
  assert (Hkp : forall c k, In (c, k) pref -> In k (map snd pref)) by (intros c k H; change k with (snd (c, k)); now apply in_map).
  assert (Hspn : forall n, ~ special n -> n <> pn) by (intros n H ->; apply H, special_pn).
  assert (Hpl : forall c k, In (c, k) pref -> c < List.length w) by (intros c k H; apply Hq, (f_keys _ _ _ _ F3); change c with (fst (c, k)); now apply in_map).
  assert (Hcach : forall k, In k (map snd oref ++ map snd pref) -> lookup w5 k gpn <> None -> cached w5 k).
  { intros k Hk Hg. apply in_app_or in Hk as [Hk|Hk].
    + apply in_map_iff in Hk as ([c k'] & Ek & Hck). cbn in Ek. subst k'. assert (Hk := Hko c k Hck). rewrite (Hvo k gpn Hk) in Hg by discriminate. pose proof (f_named _ _ _ _ F1 c k Hck Hg) as Hc1.
      apply (quiet_cached P V w3 w5 k Q45). destruct (quiet_cached P V w1 w2 k Q2 Hc1) as (s & Hs). exists s. now rewrite Hlo.
    + apply in_map_iff in Hk as ([c k'] & Ek & Hck). cbn in Ek. subst k'. rewrite (quiet_lookup P V w3 w5 k gpn Q45) in Hg by discriminate. pose proof (f_named _ _ _ _ F3 c k Hck Hg) as Hc1. now apply (quiet_cached P V w3 w5 k Q45). }
  constructor.
  - exact P5.
  - lia.
  - apply (f_keys _ _ _ _ F1).
  - apply (f_keys _ _ _ _ F3).
  - split; [apply (f_keys _ _ _ _ F1)|]. split; [apply (f_keys _ _ _ _ F3)|]. apply NoDup_app_intro; [apply (f_vals _ _ _ _ F1)|apply (f_vals _ _ _ _ F3)|]. intros k H1 H2. specialize (R1 k H1). specialize (R3 k H2). lia.
  - intros k Hk. specialize (RD k Hk). lia.
  - intros c k Hck x. rewrite (Hmo k (Hko c k Hck)). apply (f_mro _ _ _ _ F1 c k Hck).
  - intros c k n Hck Hs. rewrite (Hvo k n (Hko c k Hck) (Hspn n Hs)). now apply (f_visible _ _ _ _ F1).
  - intros c k n Hck Hs. rewrite (quiet_properties P V w3 w5 k n (proj2 P3) (proj2 P5) Q45 (Hspn n Hs)). rewrite <- (f_props _ _ _ _ F1 c k n Hck Hs). rewrite <- (quiet_properties P V w1 w2 k n (proj2 P1) (proj2 P2) Q2 (Hspn n Hs)).
    rewrite !property_names_in by (apply P3 || apply P2). pose proof (Hko c k Hck) as Hk. pose proof (R1 k Hk) as Rk. unfold mro. rewrite X3 by lia.
    split; intros (a & p & Ha & Ea); exists a, p; (split; [exact Ha|]); pose proof (proj1 (mro_lt P V w2 (proj1 P2) k a ltac:(lia) Ha)); unfold KaminoAttrs.own in *; [rewrite <- X3|rewrite X3]; auto; lia.
  - intros c k Hck x. rewrite (proj1 (proj2 (proj1 Q45))), (f_mro _ _ _ _ F3 c k Hck). unfold mro. rewrite X12 by (eapply Hpl; eassumption). reflexivity.
  - intros c k n Hck Hs. rewrite (quiet_lookup P V w3 w5 k n Q45 (Hspn n Hs)), (f_visible _ _ _ _ F3 c k n Hck Hs). rewrite (fixed_lookup (List.length w) w w2 c n Hp (le_n _) X12 (Hpl c k Hck)). reflexivity.
  - exact (fun k Hk Hg => Hcach k Hk Hg).
  - assert (Hc4 : forall k, In k (map snd oref ++ map snd pref) -> lookup w4 k gpn <> None -> cached w4 k).
    { intros k Hk Hg. apply in_app_or in Hk as [Hk|Hk].
      - apply in_map_iff in Hk as ([c k'] & Ek & Hck). cbn in Ek. subst k'. assert (Hk := Hko c k Hck). rewrite (quiet_lookup P V w3 w4 k gpn Q4), Hlo, (quiet_lookup P V w1 w2 k gpn Q2) in Hg by (exact Hk || discriminate). pose proof (f_named _ _ _ _ F1 c k Hck Hg) as Hc1.
        apply (quiet_cached P V w3 w4 k Q4). destruct (quiet_cached P V w1 w2 k Q2 Hc1) as (s & Hs). exists s. now rewrite Hlo.
      - apply in_map_iff in Hk as ([c k'] & Ek & Hck). cbn in Ek. subst k'. rewrite (quiet_lookup P V w3 w4 k gpn Q4) in Hg by discriminate. pose proof (f_named _ _ _ _ F3 c k Hck Hg) as Hc1. now apply (quiet_cached P V w3 w4 k Q4). }
    destruct (get_namespaces_cached _ w4 w5 nss Hc4 E5) as [E54 Hf]. rewrite E54. exact Hf.
  - intros Hreg c k n Hck Hs Hn. rewrite (Hvo k n (Hko c k Hck) (Hspn n Hs)). now apply (f_plain _ _ _ _ F1).
  - intros Hreg c k n Hck Hs Hn. pose proof (Hpl c k Hck) as Hcl. rewrite (quiet_lookup P V w3 w5 k n Q45 (Hspn n Hs)).
    assert (Hm2 : forall d, d < List.length w -> mro w2 d = mro w d) by (intros d Hd; unfold mro; now rewrite X12).
    rewrite (f_plain _ _ _ _ F3) with (c := c); auto.
    + rewrite (Hm2 c Hcl), (fixed_lookup (List.length w) w w2 c n Hp (le_n _) X12 Hcl). replace (find_attr w2 (filter (fun x => mem x properties) (mro w c)) n) with (find_attr w (filter (fun x => mem x properties) (mro w c)) n); [reflexivity|].
      symmetry. apply find_attr_ext. intros a Ha. apply filter_In in Ha as [Ha _]. unfold KaminoAttrs.own. rewrite X12; [reflexivity|]. exact (proj2 (mro_lt P V w (proj1 Hp) c a Hcl Ha)).
    + intros d Hd. destruct (Hreg d Hd) as [R R']. split; [unfold pkg_first in *; rewrite Hm2 by (now apply Hq); exact R|]. unfold independent_bases in *. assert (Eb : bases w2 d = bases w d) by (unfold bases; now rewrite X12 by (now apply Hq)). rewrite Eb. intros b b' Hb Hb' Hi. apply (R' b b' Hb Hb'). rewrite <- Hm2; [exact Hi|].
      destruct (proj1 Hp d (Hq d Hd)) as (md & _ & _ & Hbl & _). specialize (Hbl b' Hb'). specialize (Hq d Hd). lia.
    + intros Hi. apply Hn. apply (property_names_in P V w2 c n (proj2 P2)) in Hi as (a & p & Ha & Ea). apply (property_names_in P V w c n (proj2 Hp)). rewrite (Hm2 c Hcl) in Ha. exists a, p. split; [exact Ha|]. unfold KaminoAttrs.own in *. rewrite X12 in Ea; [exact Ea|]. exact (proj2 (mro_lt P V w (proj1 Hp) c a Hcl Ha)).
  - intros c k Hck (A & B & C & D). pose proof (Hpl c k Hck) as Hcl. assert (Hal : standalone w2 properties c).
    { split; [unfold mro; rewrite X12 by exact Hcl; exact A|]. rewrite !(fixed_lookup (List.length w) w w2 c _ Hp (le_n _) X12 Hcl). auto. }
    destruct (f_alone _ _ _ _ F3 c k Hck Hal) as (s & p & Z1 & Z2 & Z3). rewrite X12 in Z1 by exact Hcl. exists s, p. split; [exact Z1|].
    destruct Q45 as (_ & _ & Q & Q'). split; [destruct (Q' k) as [-> |[E' _]]; congruence|]. intros N1 N2. rewrite Q by exact N2. now apply Z3.
Qed.
End Init.
