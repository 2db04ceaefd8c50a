(** Property theorems C66, C80, C81: cloning classes.
    A world is the list of all classes; [mro w c] is [c.mro()], [bases w c] is [c.__bases__], [lookup w c n] is [getattr(c, n)] (None: no such attribute),
    [property_names w c] is [c.__get_properties__(refresh=True)]. [py_world w]: reachable by class statements and class attribute assignments.
    [clone_classes … w classes] returns the new world and either an exception or the dict original class -> clone.
    [wrap_prop], [wrap_call]: what wrapping makes of a property or a callable, [package_ref]: the package. All three are arbitrary. *)
From Coq Require Import String Permutation.
From Verif Require Import Base BaseFacts Dict DictFacts PyClass PyClassFacts Kamino KaminoOrder KaminoFacts KaminoMro KaminoAttrs KaminoExact KaminoResolve KaminoDone KaminoMarks.
Open Scope list_scope.

(** ** C66 *)
(** an in-package ancestor of [c] that is not an ancestor of another one *)
Definition nearest {P V} (w : world P V) (classes : list nat) (c p : nat) : Prop :=
  In p classes /\ In p (mro w c) /\ p <> c /\ forall i, In i classes -> In i (mro w c) -> i <> c -> In p (mro w i) -> p = i.
Theorem C66_clone_classes : forall P V wrap_prop wrap_call package_ref (w : world P V) classes w' r,
  py_world P V w -> (forall c, In c classes -> c < List.length w) -> clone_classes P V wrap_prop wrap_call package_ref w classes = (w', r) ->
  match r with
  | Err e => e = TypeError \/ e = ValueError \/ e = AttributeError
  | Ok rf =>
      (* exactly one clone of every class; the clones are exactly the new classes *)
      NoDup (map fst rf) /\ (forall c, In c (map fst rf) <-> In c classes) /\ NoDup (map snd rf) /\ (forall k, In k (map snd rf) <-> List.length w <= k < List.length w') /\
      forall c k, In (c, k) rf ->
        c_name (get_cls w' k) = c_name (get_cls w c) /\
        (* its bases: the clones of the nearest in-package ancestors, and the original *)
        (exists cs, bases w' k = cs ++ [c] /\ forall b, In b cs <-> exists p, In (p, b) rf /\ nearest w classes c p) /\
        (* its ancestors: those of the original, and their clones *)
        (forall x, In x (mro w' k) <-> In x (mro w c) \/ exists a, In (a, x) rf /\ In a (mro w c)) /\
        (* made after the clones of its in-package ancestors *)
        (forall a j, In (a, j) rf -> In a (mro w c) -> a <> c -> j < k)
  end.
Proof.
  intros P V wp wc pr w classes w' r Hw Hlt E. apply py_wf in Hw. destruct (clone_classes_spec P V wp wc pr w classes w' r Hw Hlt E) as [_ H]. destruct r as [rf|e]; [|destruct H as [H|[H|H]]; auto].
  destruct H as (H1 & H2 & H3 & H4 & H5 & H6). split; [exact H1|]. split; [exact H2|].
  assert (Hs : NoDup (map snd rf)) by (apply (Permutation_NoDup (Permutation_sym H3)), seq_NoDup). split; [exact Hs|].
  split; [intros k; rewrite H4; split; [intros Hk; apply (Permutation_in _ H3), in_seq in Hk; exact Hk|intros Hk; apply (Permutation_in _ (Permutation_sym H3)), in_seq, Hk]|].
  intros c k Hck. destruct (H6 c k Hck) as (A & B & C & D). split; [exact A|]. split; [|split; [exact C|exact D]].
  eexists. split; [exact B|]. intros b. assert (Hc : c < List.length w) by (apply Hlt, H2; change c with (fst (c, k)); now apply in_map).
  assert (Hnear : forall p, In p (parents P V w (map fst rf) c) <-> nearest w classes c p).
  { intros p. rewrite parents_spec, cand_spec. unfold nearest. rewrite H2. split.
    - intros ((N1 & N2 & N3) & N4). repeat split; auto. intros i I1 I2 I3 I4. apply N4; [apply cand_spec; rewrite H2; auto|exact I4].
    - intros (N1 & N2 & N3 & N4). repeat split; auto. intros i Hi I4. apply cand_spec in Hi as (I2 & I1 & I3). apply N4; auto. now apply H2. }
  rewrite filter_some_in, in_map_iff. split.
  - intros (p & Hp & Hpp). exists p. split; [now apply r_get_in|now apply Hnear].
  - intros (p & Hp & Hpn). exists p. split; [now apply r_get_nodup|now apply Hnear].
Qed.
Print Assumptions C66_clone_classes.
(** a sufficient condition for success: in every package class's resolution order the package's classes come first, no base of a package class is an ancestor of another, and every property class has a name *)
Definition package_first {P V} (w : world P V) (classes : list nat) (c : nat) : Prop :=
  exists inside outside, mro w c = inside ++ outside /\ (forall a, In a inside -> In a classes) /\ (forall a, In a outside -> ~ In a classes).
Definition unrelated_bases {P V} (w : world P V) (c : nat) : Prop := forall b b', In b (bases w c) -> In b' (bases w c) -> In b (mro w b') -> b = b'.
(** a property class ([__get_property_name__] is visible): its cached names are visible attributes, and it has a cached name, or is derived from a property class of the package, or has exactly one property of its own *)
Definition nameable {P V} (w : world P V) (classes : list nat) (c : nat) : Prop :=
  (forall a v, In a (mro w c) -> d_get (py "__property_name__") (c_attrs (get_cls w a)) = Some v -> exists s, v = AStr s /\ lookup w a s <> None) /\
  (lookup w c (py "__get_property_name__") <> None ->
    lookup w c (py "__property_name__") <> None \/
    (exists a, In a classes /\ In a (mro w c) /\ a <> c /\ lookup w a (py "__get_property_name__") <> None) \/
    (exists n p, filter (fun x => match snd x with AProp _ => true | _ => false end) (c_attrs (get_cls w c)) = [(n, AProp p)] /\ n <> py "__properties__")).
Lemma package_first_ok {P V} (w : world P V) classes c : package_first w classes c -> pkg_first P V w classes c.
Proof. intros (a & b & E & H1 & H2). exists a, b. split; [exact E|]. split; apply forallb_forall; intros x Hx; [now apply mem_in, H1|]. apply negb_true_iff, mem_out, H2, Hx. Qed.
Theorem C66_succeeds : forall P V wrap_prop wrap_call package_ref (w : world P V) classes,
  py_world P V w -> (forall c, In c classes -> c < List.length w /\ package_first w classes c /\ unrelated_bases w c /\ nameable w classes c) ->
  exists w' rf, clone_classes P V wrap_prop wrap_call package_ref w classes = (w', Ok rf) /\
    (* the clone's order: the clones of the package classes in the original's order, then the original's order *)
    forall c k, In (c, k) rf -> mro w' k = map (fun a => match r_get a rf with Some j => j | None => 0 end) (filter (fun x => mem x classes) (mro w c)) ++ mro w c.
Proof.
  intros P V wp wc pr w classes Hw H. pose proof (py_dicts P V w Hw) as Hd. apply py_wf in Hw.
  destruct (clone_classes_done P V wp wc pr w classes Hw Hd (fun c Hc => proj1 (H c Hc))) as [F1 F2].
  assert (Hr : forall c, In c classes -> regular P V w classes c) by (intros c Hc; destruct (H c Hc) as (_ & A & B & _); split; [now apply package_first_ok|exact B]).
  destruct F2 as (w' & rf & E); [intros c Hc; split; [now apply Hr|apply (H c Hc)]|]. exists w', rf. split; [exact E|].
  destruct (F1 w' rf E) as (keys & done & K1 & K2 & K3 & _ & _ & _ & _ & K4). intros c k Hck. apply K2 in Hck. rewrite (K4 Hr c k Hck). f_equal.
  rewrite (filter_ext (fun x => mem x classes) (fun x => mem x keys)) by (intros x; symmetry; now apply mem_same). apply map_ext. intros a. unfold the_clone. now rewrite K3.
Qed.
Print Assumptions C66_succeeds.
(** concrete worlds *)
Definition add (w : world nat nat) (s : string) (bs : list nat) (attrs : dict (attr nat nat)) : world nat nat := match new_class w (py s) bs attrs with Ok (w', _) => w' | Err _ => w end.
Lemma add_py w s bs attrs : py_world nat nat w -> (if list_eq_dec Nat.eq_dec bs [] then false else true) = true -> NoDup (d_keys attrs) -> forallb (fun b => Nat.ltb b (List.length w)) bs = true -> py_world nat nat (add w s bs attrs).
Proof.
  intros H H1 H2 H3. unfold add. destruct (new_class w (py s) bs attrs) as [[w' c]|e] eqn:E; [|exact H]. eapply pw_class; [exact H| |exact H2| |exact E]; [destruct (list_eq_dec Nat.eq_dec bs []); congruence|].
  intros b Hb. rewrite forallb_forall in H3. apply Nat.ltb_lt, H3, Hb.
Qed.
Ltac nodup := repeat constructor; cbn; intuition discriminate.
Ltac world := repeat (apply add_py; [|reflexivity|nodup|reflexivity]); constructor; constructor.
Definition aware : list (pystr * attr nat nat) := [(py "__get_properties__", ACall 7); (py "data", ACall 8)].
(* object, a property-aware base outside the package, and a package with single and multiple inheritance *)
Definition w_ok : world nat nat := add (add (add (add (add (object_world []) "Aware" [0] aware) "Object" [1] [(py "id", AProp 1); (py "f", ACall 1)]) "Actor" [2] [(py "inbox", AProp 2)]) "Mixin" [2] [(py "f", ACall 4)]) "Person" [3; 4] [(py "name", AProp 3)].
Example C66_case : py_world nat nat w_ok /\ (forall c, In c [5; 4; 3; 2] -> c < List.length w_ok /\ package_first w_ok [5; 4; 3; 2] c /\ unrelated_bases w_ok c /\ nameable w_ok [5; 4; 3; 2] c) /\
  match clone_classes nat nat S S 0 w_ok [5; 4; 3; 2] with (w', Ok rf) => rf = [(2, 6); (4, 7); (3, 8); (5, 9)] /\ mro w' 9 = [9; 8; 7; 6; 5; 3; 4; 2; 1; 0] | _ => False end.
Proof.
  split; [world|]. split; [|vm_compute; auto]. intros c Hc. cbn in Hc.
  assert (Hx : c = 5 \/ c = 4 \/ c = 3 \/ c = 2) by intuition. clear Hc. destruct Hx as [->|[->|[->| ->]]]; (split; [vm_compute; lia|]); (split; [|split]).
  1: exists [5; 3; 4; 2], [1; 0]. 4: exists [4; 2], [1; 0]. 7: exists [3; 2], [1; 0]. 10: exists [2], [1; 0].
  1,4,7,10: (split; [reflexivity|]; cbn; split; intros a H; intuition lia).
  1,3,5,7: (intros b b' H1 H2; vm_compute in H1, H2; destruct H1 as [<-|H1], H2 as [<-|H2]; try reflexivity; repeat match goal with H : _ \/ _ |- _ => destruct H as [<-|H] | H : False |- _ => destruct H end; try reflexivity; vm_compute; intuition discriminate).
  all: (split; [intros a v H E; vm_compute in H; repeat match goal with H : _ \/ _ |- _ => destruct H as [<-|H] | H : False |- _ => destruct H end; vm_compute in E; discriminate|intros H; exfalso; apply H; reflexivity]).
Qed.
(** the condition matters: a valid hierarchy whose cloning fails, because a base that is also an ancestor of an earlier base is dropped from the clone's bases *)
Definition w_bad : world nat nat := add (add (add (add (add (add (object_world []) "x" [0] []) "p" [1] []) "y" [0] []) "c" [2; 3; 1] []) "e" [3; 1] []) "d" [4; 5] [].
Theorem C66_may_fail_refuted : exists w classes, py_world nat nat w /\ (forall c, In c classes -> c < List.length w /\ package_first w classes c) /\
  snd (clone_classes nat nat S S 0 w classes) = Err TypeError.
Proof.
  exists w_bad, [1; 2; 3; 4; 5; 6]. split; [world|]. split; [|reflexivity]. intros c Hc. assert (Hx : c = 1 \/ c = 2 \/ c = 3 \/ c = 4 \/ c = 5 \/ c = 6) by (cbn in Hc; intuition). clear Hc.
  assert (Hl : List.length w_bad = 7) by reflexivity. split; [lia|]. exists (removelast (mro w_bad c)), [0].
  destruct Hx as [->|[->|[->|[->|[->| ->]]]]]; (split; [reflexivity|]); vm_compute; (split; intros a H; intuition lia).
Qed.
Print Assumptions C66_may_fail_refuted.

(** ** C80. [derives wrap_prop wrap_call v v']: [v'] is [v], or [v] wrapped (a property: any number of times). [special]: the names [__properties__], [__property_name__], [__jsonld_package__], which cloning sets. *)
(** what a clone's attribute can be, and that clone and original have the same attribute and property names *)
Theorem C80_same_names : forall P V wrap_prop wrap_call package_ref (w : world P V) classes w' rf,
  py_world P V w -> (forall c, In c classes -> c < List.length w) -> clone_classes P V wrap_prop wrap_call package_ref w classes = (w', Ok rf) ->
  forall c k n, In (c, k) rf -> ~ special n ->
    (lookup w' k n = None <-> lookup w c n = None) /\
    (In n (property_names P V w' k) <-> In n (property_names P V w c)) /\
    (forall v', lookup w' k n = Some v' -> exists b v, In b (mro w c) /\ d_get n (c_attrs (get_cls w b)) = Some v /\ derives P V wrap_prop wrap_call v v').
Proof.
  intros P V wp wc pr w classes w' rf Hw Hlt E c k n Hck Hs. pose proof (py_dicts P V w Hw) as Hd. apply py_wf in Hw.
  destruct (clone_classes_done P V wp wc pr w classes Hw Hd Hlt) as [F1 _]. destruct (F1 w' rf E) as (keys & done & K1 & K2 & K3 & Hc & Hd' & Ha & _ & _). apply K2 in Hck.
  assert (Hkl : forall d, In d keys -> d < List.length w) by (intros d Hdk; apply Hlt, K1, Hdk).
  split; [eapply visible_same; eauto|]. split; [eapply properties_same; eauto|]. intros v' Hv. eapply lookup_source in Hv; eauto.
Qed.
Print Assumptions C80_same_names.
(** [__properties__] of a clone lists exactly its properties, and [__jsonld_package__] is the package *)
Theorem C80_marks : forall P V wrap_prop wrap_call package_ref (w : world P V) classes w' rf,
  py_world P V w -> (forall c, In c classes -> c < List.length w) -> clone_classes P V wrap_prop wrap_call package_ref w classes = (w', Ok rf) ->
  forall c k, In (c, k) rf -> d_get (py "__jsonld_package__") (c_attrs (get_cls w' k)) = Some (AOther package_ref) /\
    (lookup w c (py "__get_properties__") <> None -> exists l, d_get (py "__properties__") (c_attrs (get_cls w' k)) = Some (ANames l) /\ NoDup l /\ forall n, ~ special n -> (In n l <-> In n (property_names P V w c))).
Proof.
  intros P V wp wc pr w classes w' rf Hw Hlt E c k Hck. pose proof (C80_same_names P V wp wc pr w classes w' rf Hw Hlt E c k) as Hsame. pose proof (py_dicts P V w Hw) as Hd. apply py_wf in Hw.
  destruct (clone_classes_done P V wp wc pr w classes Hw Hd Hlt) as [F1 _]. destruct (F1 w' rf E) as (keys & done & K1 & K2 & K3 & Hc & Hd' & Ha & Hm & _). destruct (Hm c k Hck) as [M1 M2]. split; [exact M1|].
  intros Hg. destruct M2 as (l & L1 & L2 & L3).
  - intros H. apply Hg. apply (Hsame (py "__get_properties__") Hck); [intros [H'|[H'|H']]; discriminate|exact H].
  - exists l. split; [exact L1|]. split; [exact L2|]. intros n Hs. rewrite L3 by exact Hs. now apply Hsame.
Qed.
Print Assumptions C80_marks.
(** every property visible on a clone of a property-aware class is set on the clone itself, and is a property of the original's resolution order wrapped at least once *)
Theorem C80_properties_wrapped : forall P V wrap_prop wrap_call package_ref (w : world P V) classes w' rf,
  py_world P V w -> (forall c, In c classes -> c < List.length w) -> clone_classes P V wrap_prop wrap_call package_ref w classes = (w', Ok rf) ->
  forall c k n p', In (c, k) rf -> ~ special n -> lookup w c (py "__get_properties__") <> None -> lookup w' k n = Some (AProp p') ->
    d_get n (c_attrs (get_cls w' k)) = Some (AProp p') /\ exists b p i, In b (mro w c) /\ d_get n (c_attrs (get_cls w b)) = Some (AProp p) /\ p' = Nat.iter (S i) wrap_prop p.
Proof.
  intros P V wp wc pr w classes w' rf Hw Hlt E c k n p' Hck Hs Hg Hl. pose proof (C80_same_names P V wp wc pr w classes w' rf Hw Hlt E c k (py "__get_properties__") Hck) as Hsame.
  pose proof (py_dicts P V w Hw) as Hd. apply py_wf in Hw.
  destruct (clone_classes_done P V wp wc pr w classes Hw Hd Hlt) as [F1 _]. destruct (F1 w' rf E) as (keys & done & K1 & K2 & K3 & Hc & Hd' & Ha & _ & _). apply K2 in Hck.
  assert (Hkl : forall d, In d keys -> d < List.length w) by (intros d Hdk; apply Hlt, K1, Hdk).
  eapply prop_wrapped; eauto. intros H. apply Hg, Hsame; [intros [H'|[H'|H']]; discriminate|exact H].
Qed.
Print Assumptions C80_properties_wrapped.
(** a name that is no property: the nearest definition in the package (wrapped), else the original's *)
Theorem C80_methods : forall P V wrap_prop wrap_call package_ref (w : world P V) classes w' rf,
  py_world P V w -> (forall c, In c classes -> c < List.length w /\ package_first w classes c /\ unrelated_bases w c) -> clone_classes P V wrap_prop wrap_call package_ref w classes = (w', Ok rf) ->
  forall c k n, In (c, k) rf -> ~ special n -> ~ In n (property_names P V w c) ->
    lookup w' k n = match find_attr w (filter (fun x => mem x classes) (mro w c)) n with Some v => Some (wrap_attr P V wrap_call v) | None => lookup w c n end.
Proof.
  intros P V wp wc pr w classes w' rf Hw H E c k n Hck Hs Hn. pose proof (py_dicts P V w Hw) as Hd. apply py_wf in Hw.
  destruct (clone_classes_done P V wp wc pr w classes Hw Hd (fun c Hc => proj1 (H c Hc))) as [F1 _]. destruct (F1 w' rf E) as (keys & done & K1 & K2 & K3 & Hc & Hd' & Ha & _ & Hex). apply K2 in Hck.
  assert (Hkl : forall d, In d keys -> d < List.length w) by (intros d Hdk; apply (H d), K1, Hdk).
  rewrite (filter_ext (fun x => mem x classes) (fun x => mem x keys)) by (intros x; symmetry; now apply mem_same).
  eapply resolve_plain; eauto. apply Hex. intros d Hdc. destruct (H d Hdc) as (_ & A & B). split; [now apply package_first_ok|exact B].
Qed.
Print Assumptions C80_methods.
(** with single inheritance every attribute resolves to the same definition as in the original *)
Theorem C80_single_inheritance : forall P V wrap_prop wrap_call package_ref (w : world P V) classes w' rf,
  py_world P V w -> (forall c, In c classes -> c < List.length w /\ package_first w classes c /\ unrelated_bases w c) -> clone_classes P V wrap_prop wrap_call package_ref w classes = (w', Ok rf) ->
  forall c k n, In (c, k) rf -> ~ special n -> (forall a, In a (mro w c) -> List.length (bases w a) <= 1) ->
    match lookup w c n, lookup w' k n with Some v, Some v' => derives P V wrap_prop wrap_call v v' | None, None => True | _, _ => False end.
Proof.
  intros P V wp wc pr w classes w' rf Hw H E c k n Hck Hs Hlin. pose proof (C80_same_names P V wp wc pr w classes w' rf Hw (fun c Hc => proj1 (H c Hc)) E c k n Hck Hs) as [Hvis _].
  pose proof (py_dicts P V w Hw) as Hd. apply py_wf in Hw.
  destruct (clone_classes_done P V wp wc pr w classes Hw Hd (fun c Hc => proj1 (H c Hc))) as [F1 _]. destruct (F1 w' rf E) as (keys & done & K1 & K2 & K3 & Hc & Hd' & Ha & _ & Hex). apply K2 in Hck.
  assert (Hkl : forall d, In d keys -> d < List.length w) by (intros d Hdk; apply (H d), K1, Hdk).
  destruct (lookup w' k n) as [v'|] eqn:E'.
  - destruct (resolve_linear P V wp wc w keys done w' Hw Hkl Hc Ha) with (c := c) (k := k) (n := n) (v' := v') as (v & Hv & Hdv); auto.
    + apply Hex. intros d Hdc. destruct (H d Hdc) as (_ & A & B). split; [now apply package_first_ok|exact B].
    + assert (Hcc : In c classes) by (apply K1, (cl_in _ _ _ _ _ _ Hc); change c with (fst (c, k)); now apply in_map). destruct (H c Hcc) as (_ & A & _). apply package_first_ok in A. unfold pkg_first in *. eapply fronted_ext; [|exact A]. intros x. symmetry. now apply mem_same.
    + now rewrite Hv.
  - destruct (lookup w c n) eqn:E2; [|exact I]. exfalso. discriminate (proj1 Hvis eq_refl).
Qed.
Print Assumptions C80_single_inheritance.
(** with multiple inheritance it may not: the clone of C has a copy of the property inherited from A, which hides B's (D inherits from C and B) *)
Definition w_diamond : world nat nat := add (add (add (add (add (object_world []) "Aware" [0] aware) "A" [1] [(py "x", AProp 10)]) "B" [2] [(py "x", AProp 20)]) "C" [2] []) "D" [4; 3] [].
Theorem C80_diamond_refuted : exists w classes w' rf c k n v v', py_world nat nat w /\ (forall c, In c classes -> c < List.length w /\ package_first w classes c /\ unrelated_bases w c) /\
  clone_classes nat nat S S 0 w classes = (w', Ok rf) /\ In (c, k) rf /\ ~ special n /\ lookup w c n = Some v /\ lookup w' k n = Some v' /\ v = AProp 20 /\ v' = AProp (S (S (S 10))).
Proof.
  destruct (clone_classes nat nat S S 0 w_diamond [2; 3; 4; 5]) as [w' r] eqn:E. assert (E' := E). vm_compute in E'. destruct r as [rf|]; [|discriminate].
  exists w_diamond, [2; 3; 4; 5], w', rf, 5, 9, (py "x"), (AProp 20), (AProp 13). split; [world|]. split.
  - intros c Hc. assert (Hx : c = 2 \/ c = 3 \/ c = 4 \/ c = 5) by (cbn in Hc; intuition). clear Hc. assert (Hl : List.length w_diamond = 6) by reflexivity. split; [lia|]. split.
    + exists (removelast (removelast (mro w_diamond c))), [1; 0]. destruct Hx as [->|[->|[->| ->]]]; (split; [reflexivity|]); vm_compute; (split; intros a H; intuition lia).
    + destruct Hx as [->|[->|[->| ->]]]; (intros b b' H1 H2; vm_compute in H1, H2; destruct H1 as [<-|H1], H2 as [<-|H2]; try reflexivity; repeat match goal with H : _ \/ _ |- _ => destruct H as [<-|H] | H : False |- _ => destruct H end; try reflexivity; vm_compute; intuition discriminate).
  - split; [exact E|]. injection E' as E1 E2. subst rf w'. split; [cbn; auto|]. split; [intros [H|[H|H]]; discriminate|]. repeat split.
Qed.
Print Assumptions C80_diamond_refuted.
(** nor with an intermediate class outside the package: the package's older definition hides its override *)
Definition w_outside : world nat nat := add (add (add (object_world []) "A" [0] [(py "f", ACall 1)]) "B" [1] [(py "f", ACall 5)]) "C" [2] [].
Theorem C80_outside_refuted : exists w classes w' rf c k n v v', py_world nat nat w /\ (forall c, In c classes -> c < List.length w /\ unrelated_bases w c) /\
  clone_classes nat nat S S 0 w classes = (w', Ok rf) /\ In (c, k) rf /\ ~ special n /\ lookup w c n = Some v /\ lookup w' k n = Some v' /\ v = ACall 5 /\ v' = ACall (S 1).
Proof.
  destruct (clone_classes nat nat S S 0 w_outside [1; 3]) as [w' r] eqn:E. assert (E' := E). vm_compute in E'. destruct r as [rf|]; [|discriminate].
  exists w_outside, [1; 3], w', rf, 3, 5, (py "f"), (ACall 5), (ACall 2). split; [world|]. split.
  - intros c Hc. assert (Hx : c = 1 \/ c = 3) by (cbn in Hc; intuition). clear Hc. assert (Hl : List.length w_outside = 4) by reflexivity. split; [lia|].
    destruct Hx as [->| ->]; (intros b b' H1 H2; vm_compute in H1, H2; destruct H1 as [<-|H1], H2 as [<-|H2]; try reflexivity; repeat match goal with H : _ \/ _ |- _ => destruct H as [<-|H] | H : False |- _ => destruct H end; try reflexivity; vm_compute; intuition discriminate).
  - split; [exact E|]. injection E' as E1 E2. subst rf w'. split; [cbn; auto|]. split; [intros [H|[H|H]]; discriminate|]. repeat split.
Qed.
Print Assumptions C80_outside_refuted.
Example C80_case : match clone_classes nat nat S S 0 w_ok [5; 4; 3; 2] with (w', Ok rf) => In (5, 9) rf /\ lookup w' 9 (py "f") = Some (ACall 5) /\ lookup w_ok 5 (py "f") = Some (ACall 4) /\
  lookup w' 9 (py "data") = Some (ACall 8) /\ lookup w' 9 (py "name") = Some (AProp 4) /\ lookup w' 9 (py "id") = Some (AProp 4) | _ => False end.
Proof. vm_compute. intuition. Qed.

(** ** C81. Whatever happens, no class that existed before is changed in any way. *)
Theorem C81_originals_unchanged : forall P V wrap_prop wrap_call package_ref (w : world P V) classes w' r,
  py_world P V w -> (forall c, In c classes -> c < List.length w) -> clone_classes P V wrap_prop wrap_call package_ref w classes = (w', r) ->
  forall c, c < List.length w -> get_cls w' c = get_cls w c /\ forall n, lookup w' c n = lookup w c n.
Proof.
  intros P V wp wc pr w classes w' r Hw Hlt E c Hc. apply py_wf in Hw. destruct (clone_classes_spec P V wp wc pr w classes w' r Hw Hlt E) as [H _]. split; [now apply H|].
  intros n. unfold lookup, mro. rewrite (H c Hc). apply find_attr_ext. intros a Ha. unfold own. rewrite H; [reflexivity|]. apply (mro_lt P V w Hw c a Hc Ha).
Qed.
Print Assumptions C81_originals_unchanged.
Example C81_case : let (w', r) := clone_classes nat nat S S 0 w_bad [1; 2; 3; 4; 5; 6] in r = Err TypeError /\ firstn 7 w' = w_bad /\ List.length w' = 12.
Proof. vm_compute. auto. Qed.
