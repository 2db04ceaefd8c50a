(** cloning, packages and engines only make class statements and class attribute assignments *)
From Coq Require Import String.
From Verif Require Import Base BaseFacts Dict DictFacts PyClass PyClassFacts Kamino KaminoOrder KaminoFacts Package Engine PackageInit PackageOut.
Open Scope list_scope.

Section Py.
Variables P V : Type.
Notation world := (world P V).
Notation attr := (attr P V).
Variable wrap_prop : P -> P.
Variable wrap_call : V -> V.
Variables package_ref none_ref engine_ref : V.
Variable show : nat -> attr -> pystr.
Notation py_world := (py_world P V).

(** reachable, and no class was removed *)
Definition grows (w w' : world) : Prop := (py_world w -> py_world w') /\ List.length w <= List.length w'.
Lemma grows_refl w : grows w w. Proof using. split; auto. Qed.
Lemma grows_trans w1 w2 w3 : grows w1 w2 -> grows w2 w3 -> grows w1 w3. Proof using. intros [A B] [C D]. split; [auto|lia]. Qed.
Lemma grows_set w c n v : grows w (set_attr w c n v). Proof using. split; [apply pw_set|now rewrite set_attr_length]. Qed.
Lemma grows_get_property_name w c : grows w (fst (get_property_name P V w c)).
Proof using. unfold get_property_name. destruct (lookup w c (py "__property_name__")) as [a|]; [destruct a; apply grows_refl|]. destruct (filter (fun x => is_prop P V (snd x)) (c_attrs (get_cls w c))) as [|[n y] [|]]; try apply grows_refl. apply grows_set. Qed.
Lemma grows_get_namespace w c : grows w (fst (get_namespace P V show w c)).
Proof using.
  unfold get_namespace. destruct (lookup w c (py "__get_namespace__")) as [a|]; [|apply grows_refl]. destruct a as [| | | | |k|]; try apply grows_refl. destruct k as [|pre|pre]; try apply grows_refl.
  - destruct (find_owner P V w (mro w c) (py "type")) as [[o v]|]; [destruct v|]; apply grows_refl.
  - destruct (lookup w c (py "__get_property_name__")); [|apply grows_refl]. pose proof (grows_get_property_name w c) as H. destruct (get_property_name P V w c) as [w1 [s|e]]; exact H.
Qed.
Lemma grows_get_namespaces cs : forall w, grows w (fst (get_namespaces P V show w cs)).
Proof using.
  induction cs as [|c cs IH]; intros w; cbn [get_namespaces]; [apply grows_refl|]. pose proof (grows_get_namespace w c) as H. destruct (get_namespace P V show w c) as [w1 [x|e]]; [|exact H]. specialize (IH w1).
  destruct (get_namespaces P V show w1 cs) as [w2 [l|e]]; cbn [fst] in *; eapply grows_trans; eassumption.
Qed.
Lemma grows_wrap_names l : forall w c, grows w (wrap_names P V wrap_prop w c l).
Proof using. induction l as [|[n a] l IH]; intros w c; cbn [wrap_names]; [apply grows_refl|]. destruct a; try apply IH. eapply grows_trans; [apply grows_set|apply IH]. Qed.
Lemma grows_wrap_properties w c : grows w (fst (wrap_properties P V wrap_prop w c)).
Proof using.
  unfold wrap_properties. assert (H1 : grows w (fst (if has P V w c "__get_properties__" then get_properties P V w c else (w, [])))) by (destruct (has P V w c "__get_properties__"); [apply grows_set|apply grows_refl]).
  destruct (if has P V w c "__get_properties__" then get_properties P V w c else (w, [])) as [w1 names]. cbn [fst] in H1. destruct (has P V w1 c "__get_property_name__").
  - pose proof (grows_get_property_name w1 c) as H2. destruct (get_property_name P V w1 c) as [w2 [s|e]]; cbn [fst] in *; [|eapply grows_trans; eassumption]. destruct (lookup w2 c s); cbn [fst]; [|eapply grows_trans; eassumption].
    eapply grows_trans; [exact H1|]. eapply grows_trans; [exact H2|apply grows_wrap_names].
  - cbn [fst]. eapply grows_trans; [exact H1|apply grows_wrap_names].
Qed.
Lemma filter_some_in' {A} (x : A) l : In x (filter_some l) -> In (Some x) l.
Proof using. induction l as [|[a|] l IH]; cbn; [auto| |auto]. intros [->|H]; auto. Qed.
Lemma grows_clone_class w keys done c w' r : c < List.length w -> (forall a k, In (a, k) done -> k < List.length w) -> clone_class P V wrap_prop wrap_call package_ref w keys done c = (w', r) ->
  grows w w' /\ match r with Ok k => k < List.length w' | Err _ => True end.
Proof using.
  intros Hc Hd. unfold clone_class. set (bs := filter_some (map (fun p => r_get p done) (parents P V w keys c)) ++ [c]).
  assert (Hb : forall b, In b bs -> b < List.length w). { intros b Hb. apply in_app_or in Hb as [Hb|[<-|[]]]; [|exact Hc]. apply filter_some_in', in_map_iff in Hb as (p & Hp & _). apply r_get_in in Hp. eauto. }
  assert (Hn : bs <> []) by (unfold bs; intros H; apply app_eq_nil in H as [_ H]; discriminate).
  destruct (new_class w (c_name (get_cls w c)) bs (c_attrs (get_cls w c))) as [[w1 k]|e] eqn:E1; [|intros E; apply pair_equal_spec in E as [<- <-]; split; [apply grows_refl|exact I]].
  set (k1 := get_cls w1 k). set (w2 := PyClass.set_nth k (mkCls (c_name k1) (c_bases k1) (c_mro k1) (wrap_callables P V wrap_call (c_attrs k1))) w1).
  assert (H2 : grows w w2 /\ k < List.length w2).
  { unfold new_class in E1. destruct (has_dup bs) eqn:Ed; [discriminate|]. destruct (c3 (map (mro w) bs ++ [bs])) as [m|] eqn:Em; [|discriminate]. injection E1 as <- <-.
    assert (Ek : k1 = mkCls (c_name (get_cls w c)) bs (List.length w :: m) (c_attrs (get_cls w c))) by (unfold k1, get_cls; rewrite app_nth2, Nat.sub_diag by lia; reflexivity).
    assert (E2 : w2 = w ++ [mkCls (c_name (get_cls w c)) bs (List.length w :: m) (wrap_callables P V wrap_call (c_attrs (get_cls w c)))]).
    { unfold w2. rewrite Ek. cbn [c_name c_bases c_mro c_attrs]. generalize (mkCls (c_name (get_cls w c)) bs (List.length w :: m) (wrap_callables P V wrap_call (c_attrs (get_cls w c)))), (mkCls (c_name (get_cls w c)) bs (List.length w :: m) (c_attrs (get_cls w c))). intros x y. clear. induction w as [|z w IH]; [reflexivity|]. cbn. now rewrite IH. }
    rewrite E2, app_length. cbn [List.length]. split; [|lia]. split; [|rewrite app_length; lia]. intros Hw.
    eapply (pw_class P V w (c_name (get_cls w c)) bs (wrap_callables P V wrap_call (c_attrs (get_cls w c)))); [exact Hw|exact Hn| |exact Hb|unfold new_class; now rewrite Ed, Em].
    unfold d_keys, wrap_callables. rewrite map_map. cbn [fst]. apply (py_dicts P V w Hw). }
  destruct H2 as [H2 Hk]. pose proof (grows_wrap_properties w2 k) as H3. destruct (wrap_properties P V wrap_prop w2 k) as [w3 [u|e]]; cbn [fst] in H3; intros E.
  - apply pair_equal_spec in E as [<- <-]. split; [eapply grows_trans; [exact H2|]; eapply grows_trans; [exact H3|apply grows_set]|]. rewrite set_attr_length. destruct H3. lia.
  - apply pair_equal_spec in E as [<- <-]. split; [eapply grows_trans; eassumption|exact I].
Qed.
Lemma grows_clone_nodes keys todo : forall w done w' r, (forall c, In c todo -> c < List.length w) -> (forall a k, In (a, k) done -> k < List.length w) -> clone_nodes P V wrap_prop wrap_call package_ref w keys done todo = (w', r) ->
  grows w w' /\ match r with Ok done' => forall a k, In (a, k) done' -> k < List.length w' | Err _ => True end.
Proof using.
  induction todo as [|c todo IH]; intros w done w' r Ht Hd; cbn [clone_nodes].
  - intros E. apply pair_equal_spec in E as [<- <-]. split; [apply grows_refl|exact Hd].
  - destruct (clone_class P V wrap_prop wrap_call package_ref w keys done c) as [w1 r1] eqn:E1. destruct (grows_clone_class w keys done c w1 r1 (Ht c (or_introl eq_refl)) Hd E1) as [H1 H2].
    destruct r1 as [k|e]; intros E.
    + apply IH in E; [destruct E as [A B]; split; [eapply grows_trans; eassumption|exact B]| |]; destruct H1 as [_ H1].
      * intros x Hx. specialize (Ht x (or_intror Hx)). lia.
      * intros a j Hj. apply in_app_or in Hj as [Hj|[Hj|[]]]; [specialize (Hd a j Hj); lia|]. injection Hj as <- <-. exact H2.
    + apply pair_equal_spec in E as [<- <-]. split; [exact H1|exact I].
Qed.
Lemma order_nodes_in fuel : forall w keys ordered l, order_nodes P V fuel w keys ordered = Ok l -> (forall c, In c ordered -> In c keys) -> forall c, In c l -> In c keys.
Proof using.
  induction fuel as [|f IH]; intros w keys ordered l; cbn [order_nodes]; destruct (forallb (fun n => mem n ordered) keys); try (intros [= <-] H; exact H); try discriminate.
  intros E H. apply (IH _ _ _ _ E). intros c Hc. apply in_app_or in Hc as [Hc|Hc]; [auto|]. now apply filter_In in Hc as [Hc _].
Qed.
Lemma grows_clone_classes w classes w' r : (forall c, In c classes -> c < List.length w) -> clone_classes P V wrap_prop wrap_call package_ref w classes = (w', r) ->
  grows w w' /\ match r with Ok rf => forall a k, In (a, k) rf -> k < List.length w' | Err _ => True end.
Proof using.
  intros Hlt. unfold clone_classes. set (keys := keys_of [] (sort_by_deps P V w classes)). assert (Hki : forall c, In c keys <-> In c classes) by (intros c; apply keys_in).
  destruct (order_nodes P V (List.length keys) w keys []) as [l|e] eqn:El; [|intros E; apply pair_equal_spec in E as [<- <-]; split; [apply grows_refl|exact I]].
  assert (Hl : forall c, In c l -> c < List.length w) by (intros c Hc; apply Hlt, Hki; eapply order_nodes_in; [exact El|intros d []|exact Hc]).
  destruct (clone_nodes P V wrap_prop wrap_call package_ref w keys [] l) as [w1 r1] eqn:E1. destruct (grows_clone_nodes keys l w [] w1 r1 Hl (fun a k H => match H with end) E1) as [H1 H2]. destruct r1 as [done|e]; intros E.
  - apply pair_equal_spec in E as [<- <-]. split; [exact H1|]. intros a k Hk. apply in_flat_map in Hk as (c & _ & Hc). destruct (r_get c done) as [j|] eqn:Er; [|destruct Hc]. destruct Hc as [Hc|[]]. injection Hc as <- <-. apply r_get_in in Er. eauto.
  - apply pair_equal_spec in E as [<- <-]. split; [exact H1|exact I].
Qed.
Lemma grows_get_registration w c : grows w (fst (get_registration P V none_ref w c)).
Proof using.
  unfold get_registration. pose proof (grows_get_property_name w c) as H. destruct (get_property_name P V w c) as [w1 [s|e]]; [|exact H]. cbn [fst] in H.
  destruct (lookup w1 c (py "__registration__")) as [a|]; [destruct a; exact H|]. destruct (lookup w1 c s) as [a|]; [destruct a; try exact H|]; (eapply grows_trans; [exact H|apply grows_set]).
Qed.
Lemma grows_link_property w q j : grows w (fst (link_property P V none_ref w q j)).
Proof using.
  unfold link_property. destruct (lookup w q (py "__get_property_name__")); [|apply grows_refl]. pose proof (grows_get_property_name w q) as H. destruct (get_property_name P V w q) as [w1 [s|e]]; [|exact H]. cbn [fst] in H.
  pose proof (grows_get_registration w1 q) as H1. destruct (get_registration P V none_ref w1 q) as [w2 [[p|]|e]]; cbn [fst] in *; try (eapply grows_trans; eassumption).
  eapply grows_trans; [exact H|]. eapply grows_trans; [exact H1|apply grows_set].
Qed.
Lemma grows_link_names d names j : forall w, grows w (fst (link_names P V none_ref w d names j)).
Proof using.
  induction names as [|n names IH]; intros w; cbn [link_names]; [apply grows_refl|]. destruct (ns_get (Some n) d) as [q|]; [|apply grows_refl]. pose proof (grows_link_property w q j) as H.
  destruct (link_property P V none_ref w q j) as [w1 [u|e]]; [|exact H]. eapply grows_trans; [exact H|apply IH].
Qed.
Lemma grows_link_mapping d m : forall w, grows w (fst (link_mapping P V none_ref w d m)).
Proof using.
  induction m as [|[o names] m IH]; intros w; cbn [link_mapping]; [apply grows_refl|]. unfold link_properties. destruct (ns_get (Some o) d) as [j|]; [|apply grows_refl]. pose proof (grows_link_names d names j w) as H.
  destruct (link_names P V none_ref w d names j) as [w1 [u|e]]; [|exact H]. eapply grows_trans; [exact H|apply IH].
Qed.
Lemma grows_refresh_all objs : forall w, grows w (fst (refresh_all P V w objs)).
Proof using. induction objs as [|c objs IH]; intros w; cbn [refresh_all]; [apply grows_refl|]. destruct (has P V w c "__get_properties__"); [|apply grows_refl]. eapply grows_trans; [apply grows_set|apply IH]. Qed.
Lemma grows_package_init w ns objects properties m w' r : (forall c, In c objects \/ In c properties -> c < List.length w) -> package_init P V wrap_prop wrap_call package_ref none_ref show w ns objects properties m = (w', r) ->
  grows w w' /\ match r with Ok p => forall c, In c (p_objects p ++ p_properties p) -> c < List.length w' | Err _ => True end.
Proof using.
  intros Hlt. destruct ns as [s|]; [|intros E; cbn in E; apply pair_equal_spec in E as [<- <-]; split; [apply grows_refl|exact I]]. cbn [package_init].
  destruct (clone_classes P V wrap_prop wrap_call package_ref w objects) as [w1 r1] eqn:E1. destruct (grows_clone_classes w objects w1 r1 (fun c H => Hlt c (or_introl H)) E1) as [G1 R1].
  destruct r1 as [oref|e]; [|intros E; apply pair_equal_spec in E as [<- <-]; auto].
  pose proof (grows_get_namespaces (map snd oref) w1) as G2. destruct (get_namespaces P V show w1 (map snd oref)) as [w2 [l2|e]]; cbn [fst] in G2; [|intros E; apply pair_equal_spec in E as [<- <-]; split; [eapply grows_trans; eassumption|exact I]].
  assert (G12 : grows w w2) by (eapply grows_trans; eassumption).
  destruct (clone_classes P V wrap_prop wrap_call package_ref w2 properties) as [w3 r3] eqn:E3. destruct (grows_clone_classes w2 properties w3 r3) as [G3 R3]; [intros c Hc; specialize (Hlt c (or_intror Hc)); destruct G12; lia|exact E3|].
  destruct r3 as [pref|e]; [|intros E; apply pair_equal_spec in E as [<- <-]; split; [eapply grows_trans; eassumption|exact I]].
  pose proof (grows_get_namespaces (map snd pref) w3) as G4. destruct (get_namespaces P V show w3 (map snd pref)) as [w4 [l4|e]]; cbn [fst] in G4; [|intros E; apply pair_equal_spec in E as [<- <-]; split; [eapply grows_trans; [exact G12|eapply grows_trans; eassumption]|exact I]].
  pose proof (grows_get_namespaces (map snd oref ++ map snd pref) w4) as G5. destruct (get_namespaces P V show w4 (map snd oref ++ map snd pref)) as [w5 r5]. cbn [fst] in G5.
  assert (G : grows w w5) by (eapply grows_trans; [exact G12|]; eapply grows_trans; [exact G3|]; eapply grows_trans; eassumption).
  destruct r5 as [nss|e]; [|intros E; apply pair_equal_spec in E as [<- <-]; auto].
  unfold perform_mapping. destruct m as [m|]; [|intros E; apply pair_equal_spec in E as [<- <-]; auto].
  set (d := ns_of (combine nss (map snd oref ++ map snd pref))). pose proof (grows_link_mapping d m w5) as G6. destruct (link_mapping P V none_ref w5 d m) as [w6 [u|e]]; cbn [fst] in G6; [|intros E; apply pair_equal_spec in E as [<- <-]; split; [eapply grows_trans; eassumption|exact I]].
  pose proof (grows_refresh_all (map snd oref) w6) as G7. destruct (refresh_all P V w6 (map snd oref)) as [w7 [u'|e]]; cbn [fst] in G7; intros E.
  - apply pair_equal_spec in E as [<- <-]. split; [eapply grows_trans; [exact G|eapply grows_trans; eassumption]|]. unfold p_objects, p_properties. cbn [p_object_ref p_property_ref].
    intros c Hc. apply in_app_or in Hc as [Hc|Hc]; apply in_map_iff in Hc as ([a k] & <- & Hk); cbn [snd]; [specialize (R1 a k Hk)|specialize (R3 a k Hk)]; destruct G2, G3, G4, G5, G6, G7; lia.
  - apply pair_equal_spec in E as [<- <-]. split; [eapply grows_trans; [exact G|eapply grows_trans; eassumption]|exact I].
Qed.
Lemma grows_register_all cs : forall w reg, grows w (fst (fst (register_all P V show engine_ref w reg cs))).
Proof using.
  induction cs as [|c cs IH]; intros w reg; cbn [register_all]; [apply grows_refl|]. pose proof (grows_get_namespace w c) as H. destruct (get_namespace P V show w c) as [w1 [n|e]]; [|exact H]. cbn [fst] in H.
  destruct (ns_get n reg); [eapply grows_trans; [exact H|apply IH]|]. pose proof (grows_get_namespace w1 c) as H1. destruct (get_namespace P V show w1 c) as [w2 [n'|e]]; cbn [fst] in *; [|eapply grows_trans; eassumption].
  unfold register_class. destruct (ns_get n' reg); cbn [fst]; [eapply grows_trans; eassumption|]. eapply grows_trans; [exact H|]. eapply grows_trans; [exact H1|]. eapply grows_trans; [apply grows_set|apply IH].
Qed.
Lemma grows_engine_init w arg : grows w (fst (engine_init P V show engine_ref w arg)).
Proof using.
  unfold engine_init. destruct arg as [p|l|]; try apply grows_refl. pose proof (grows_register_all (p_objects p) w []) as H. destruct (register_all P V show engine_ref w [] (p_objects p)) as [[w1 reg] [u|e]]; cbn [fst] in *; [|exact H].
  destruct (set_class_attrs P V w1 reg []); exact H.
Qed.
End Py.
