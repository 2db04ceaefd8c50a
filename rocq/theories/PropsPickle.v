(** C117: objects of a package cannot be stored in a database. [ms m n]: what importing the module [m] and taking its attribute [n] gives. *)
From Coq Require Import String.
From Verif Require Import Base BaseFacts Dict DictFacts PyClass PyClassFacts Kamino KaminoOrder KaminoFacts KaminoMro KaminoAttrs KaminoExact KaminoResolve Package Engine PackageFacts PackageInit PackageThms PackageOut PropsKamino PropsPackage
  JsonData JsonDataFacts Pickle.
Import ListNotations.
Open Scope list_scope.

(** the classes of the instances in a value, at any depth *)
Inductive occurs (c : nat) : stored -> Prop :=
| oc_here attrs : occurs c (SInst c attrs)
| oc_attr d attrs n x : In (n, x) attrs -> occurs c x -> occurs c (SInst d attrs)
| oc_item l x : In x l -> occurs c x -> occurs c (SSeq l).
(** something pickle always refuses is in the value *)
Inductive refused : stored -> Prop :=
| rf_here : refused SNever
| rf_attr c attrs n x : In (n, x) attrs -> refused x -> refused (SInst c attrs)
| rf_item l x : In x l -> refused x -> refused (SSeq l).
(** a value can be stored exactly if it holds nothing of that kind and importing gives each of the classes *)
Theorem C117_storable : forall P V (w : world P V) ms x, pickles P V w ms x = true <->
  ~ refused x /\ forall c, occurs c x -> exists m, lookup w c (py "__module__") = Some (AStr m) /\ ms m (c_name (get_cls w c)) = Some c.
Proof.
  intros P V w ms. set (imp := fun c => exists m, lookup w c (py "__module__") = Some (AStr m) /\ ms m (c_name (get_cls w c)) = Some c).
  assert (CP : forall c, class_pickles P V w ms c = true <-> imp c).
  { intros c. unfold class_pickles, imp. split.
    - destruct (lookup w c (py "__module__")) as [[]|]; try discriminate. destruct (ms s _) as [d|] eqn:E; [|discriminate]. intros H. apply Nat.eqb_eq in H. subst d. eauto.
    - intros (m & -> & ->). apply Nat.eqb_refl. }
  change (forall x, pickles P V w ms x = true <-> ~ refused x /\ forall c, occurs c x -> imp c). clearbody imp.
  fix IH 1. intros [| |l|c attrs]; cbn [pickles].
  - split; [intros _; split; [intros H; inversion H|intros c H; inversion H]|auto].
  - split; [discriminate|intros [H _]; destruct H; constructor].
  - transitivity (forall x, In x l -> ~ refused x /\ forall c, occurs c x -> imp c).
    + induction l as [|x l IHl]; cbn; [split; [intros _ x []|auto]|]. rewrite Bool.andb_true_iff, (IH x), IHl.
      split; [intros [H1 H2] y [<-|Hy]; [exact H1|exact (H2 y Hy)]|intros H; split; [exact (H x (or_introl eq_refl))|intros y Hy; exact (H y (or_intror Hy))]].
    + split.
      * intros H. split; [intros R; inversion R as [| |? x Hx Rx]; subst; exact (proj1 (H x Hx) Rx)|intros c O; inversion O as [| |? x Hx Ox]; subst; exact (proj2 (H x Hx) c Ox)].
      * intros [H1 H2] x Hx. split; [intros R; apply H1; econstructor; eauto|intros c O; apply H2; econstructor; eauto].
  - rewrite Bool.andb_true_iff, CP. transitivity (imp c /\ forall n x, In (n, x) attrs -> ~ refused x /\ forall d, occurs d x -> imp d).
    + apply and_iff_compat_l. induction attrs as [|[n x] l IHl]; cbn; [split; [intros _ n x []|auto]|]. rewrite Bool.andb_true_iff, (IH x), IHl.
      split; [intros [H1 H2] m y [E|Hy]; [injection E as _ <-; exact H1|exact (H2 m y Hy)]|intros H; split; [exact (H n x (or_introl eq_refl))|intros m y Hy; exact (H m y (or_intror Hy))]].
    + split.
      * intros [H0 H]. split; [intros R; inversion R as [|? ? n x Hx Rx|]; subst; exact (proj1 (H n x Hx) Rx)|intros d O; inversion O as [|? ? n x Hx Ox|]; subst; [exact H0|exact (proj2 (H n x Hx) d Ox)]].
      * intros [H1 H2]. split; [apply H2; constructor|]. intros n x Hx. split; [intros R; apply H1; econstructor; eauto|intros d O; apply H2; econstructor; eauto].
Qed.
Print Assumptions C117_storable.
(** no object of a package can be stored, alone or inside another value, as long as modules hold classes that are older than the package (making it binds none of its classes) *)
Theorem C117_package_objects : forall P V wrap_prop wrap_call package_ref none_ref show (w : world P V) ns objects properties m w' p (ms : modules),
  py_world P V w -> (forall c, In c objects \/ In c properties -> c < List.length w) -> package_init P V wrap_prop wrap_call package_ref none_ref show w ns objects properties m = (w', Ok p) ->
  (forall m n c, ms m n = Some c -> c < List.length w) ->
  forall c x, In c (p_objects p) \/ In c (p_properties p) -> occurs c x -> pickles P V w' ms x = false.
Proof.
  intros P V wp wc pr nr show w ns objects properties m w' p ms Hw Hl E Hms c x Hc O. destruct (pickles P V w' ms x) eqn:Ep; [|reflexivity]. exfalso.
  destruct (proj2 (proj1 (C117_storable P V w' ms x) Ep) c O) as (mm & _ & Em). apply Hms in Em. pose proof (py_proper w Hw) as Hp.
  destruct (package_built P V wp wc pr nr show w ns objects properties m w' p Hp (fun c H => Hl c (or_introl H)) (fun c H => Hl c (or_intror H)) E) as (m0 & w5 & w6 & nss & L & _ & _ & _ & _ & Epr & _).
  destruct (prepare_spec P V wp wc pr show w objects properties _ _ Hp (fun c H => Hl c (or_introl H)) (fun c H => Hl c (or_intror H)) Epr) as [_ R].
  assert (G : List.length w <= c) by (eapply r_range; [exact R|apply in_app_iff; exact Hc]). lia.
Qed.
Print Assumptions C117_package_objects.
(** the original classes stay as storable as they were *)
Theorem C117_originals : forall P V wrap_prop wrap_call package_ref none_ref show (w : world P V) ns objects properties m w' r (ms : modules),
  py_world P V w -> (forall c, In c objects \/ In c properties -> c < List.length w) -> package_init P V wrap_prop wrap_call package_ref none_ref show w ns objects properties m = (w', r) ->
  forall x, (forall c, occurs c x -> c < List.length w) -> pickles P V w' ms x = pickles P V w ms x.
Proof.
  intros P V wp wc pr nr show w ns objects properties m w' r ms Hw Hl E x Hx.
  assert (G : forall c, c < List.length w -> get_cls w' c = get_cls w c) by (intros c; eapply C81_package; eauto).
  assert (LK : forall c n, c < List.length w -> lookup w' c n = lookup w c n).
  { intros c n Hc. unfold lookup, mro. rewrite (G c Hc). pose proof (py_wf P V w Hw) as Hwf. assert (X : forall a, In a (c_mro (get_cls w c)) -> a < List.length w) by (intros a Ha; exact (proj2 (mro_lt P V w Hwf c a Hc Ha))).
    induction (c_mro (get_cls w c)) as [|a l IH]; [reflexivity|]. cbn. rewrite (G a) by (apply X; now left). destruct (d_get n _); [reflexivity|]. apply IH. intros b Hb. apply X. now right. }
  apply Bool.eq_iff_eq_true. rewrite !C117_storable. apply and_iff_compat_l. split; intros H c O; specialize (Hx c O); destruct (H c O) as (mm & H1 & H2); exists mm; [rewrite LK in H1 by auto; rewrite G in H2 by auto|rewrite LK, G by auto]; auto.
Qed.
Print Assumptions C117_originals.
(** a clone goes under the module and name of its original, so whatever modules hold, importing never gives both *)
Theorem C117_not_both : forall P V wrap_prop wrap_call package_ref (w : world P V) classes w' rf (ms : modules),
  py_world P V w -> (forall c, In c classes -> c < List.length w /\ package_first w classes c /\ unrelated_bases w c) -> clone_classes P V wrap_prop wrap_call package_ref w classes = (w', Ok rf) ->
  forall c k, In (c, k) rf -> (exists m, d_get (py "__module__") (c_attrs (get_cls w c)) = Some (AStr m)) -> ~ In (py "__module__") (property_names P V w c) ->
  forall xs ys, pickles P V w' ms (SInst c xs) = true -> pickles P V w' ms (SInst k ys) = false.
Proof.
  intros P V wp wc pr w classes w' rf ms Hw Hc E c k Hck (m & Hm) Hn xs ys Hp. destruct (pickles P V w' ms (SInst k ys)) eqn:Hk; [|reflexivity]. exfalso.
  destruct (proj2 (proj1 (C117_storable P V w' ms _) Hp) c (oc_here c xs)) as (m1 & L1 & M1). destruct (proj2 (proj1 (C117_storable P V w' ms _) Hk) k (oc_here k ys)) as (m2 & L2 & M2).
  pose proof (C66_clone_classes P V wp wc pr w classes w' (Ok rf) Hw (fun c H => proj1 (Hc c H)) E) as (N1 & K1 & N2 & K2 & R). destruct (R c k Hck) as (Hname & _).
  assert (Hcin : In c classes) by (apply K1; apply in_map_iff; exists (c, k); auto). destruct (Hc c Hcin) as (Hlt & _ & _).
  assert (Hkr : List.length w <= k) by (apply K2; apply in_map_iff; exists (c, k); auto).
  destruct (C81_originals_unchanged P V wp wc pr w classes w' _ Hw (fun c H => proj1 (Hc c H)) E c Hlt) as [Gc Lc].
  assert (Sp : ~ special (py "__module__")) by (intros [X|[X|X]]; discriminate X).
  pose proof (C80_methods P V wp wc pr w classes w' rf Hw Hc E c k _ Hck Sp Hn) as LM.
  pose proof (py_wf P V w Hw) as Hwf. destruct (wf_mro P V w Hwf c Hlt) as (t & Ht & _).
  assert (Lo : lookup w c (py "__module__") = Some (AStr m)) by (unfold lookup; rewrite Ht; cbn -[py]; now rewrite Hm).
  rewrite Ht in LM. cbn -[py] in LM. assert (Mc : mem c classes = true) by now apply mem_in. rewrite Mc in LM. cbn -[py] in LM. rewrite Hm in LM. cbn -[py] in LM.
  rewrite Lc, Lo in L1. rewrite LM in L2. injection L1 as <-. injection L2 as <-. rewrite Gc in M1. rewrite Hname in M2. rewrite M1 in M2. injection M2 as ->. lia.
Qed.
Print Assumptions C117_not_both.
(** so what the engine makes of a document cannot be stored: every class it may make an instance of is one of the package *)
Theorem C117_engine : forall P V wrap_prop wrap_call package_ref none_ref show engine_ref (w : world P V) ns objects properties m w' p (ms : modules) (nsf : nat -> option pystr) w2 e,
  py_world P V w -> (forall c, In c objects \/ In c properties -> c < List.length w) -> package_init P V wrap_prop wrap_call package_ref none_ref show w ns objects properties m = (w', Ok p) ->
  (forall c, In c (p_objects p) -> get_namespace P V show w' c = (w', Ok (nsf c))) -> engine_init P V show engine_ref w' (EPackage p) = (w2, Ok e) ->
  (forall m n c, ms m n = Some c -> c < List.length w) ->
  forall name c x, ns_get name (e_registry e) = Some c -> occurs c x -> pickles P V w2 ms x = false.
Proof.
  intros P V wp wc pr nr show er w ns objects properties m w' p ms nsf w2 e Hw Hl E Hns Ee Hms name c x Hg O.
  destruct (C81_reachable P V wp wc pr nr show w ns objects properties m w' _ Hw Hl E) as [Hw' Hr].
  assert (R : forall c, In c (p_objects p) -> c < List.length w' /\ get_namespace P V show w' c = (w', Ok (nsf c))) by (intros d Hd; split; [apply (Hr p eq_refl), in_app_iff; auto|auto]).
  destruct (C70_engine P V show er w' p w2 e nsf Hw' R Ee) as (Hreg & _). rewrite Hreg in Hg. apply find_some in Hg. destruct Hg as [Hin _].
  destruct (pickles P V w2 ms x) eqn:Ep; [|reflexivity]. exfalso. destruct (proj2 (proj1 (C117_storable P V w2 ms x) Ep) c O) as (mm & _ & Em). apply Hms in Em.
  pose proof (py_proper w Hw) as Hp.
  destruct (package_built P V wp wc pr nr show w ns objects properties m w' p Hp (fun c H => Hl c (or_introl H)) (fun c H => Hl c (or_intror H)) E) as (m0 & w5 & w6 & nss & L & _ & _ & _ & _ & Epr & _).
  destruct (prepare_spec P V wp wc pr show w objects properties _ _ Hp (fun c H => Hl c (or_introl H)) (fun c H => Hl c (or_intror H)) Epr) as [_ RR].
  assert (F : List.length w <= c) by (eapply r_range; [exact RR|apply in_app_iff; now left]). lia.
Qed.
Print Assumptions C117_engine.
(** what data() gives can always be stored *)
Theorem C117_data : forall P V (w : world P V) ms a props d, data a props = Ok d -> pickles P V w ms (of_json (JDict d)) = true.
Proof.
  intros P V w ms a props d E. assert (Hp : plain (JDict d)) by (eapply C57_data; eauto). revert Hp. generalize (JDict d). clear.
  fix IH 1. intros [ |b|z|r|s|l|l|l|l|l|s|p] H; try reflexivity; try (exfalso; inversion H; fail); cbn.
  - assert (F : Forall plain l) by now inversion H. clear H. induction l as [|x l IHl]; [reflexivity|]. cbn. rewrite (IH x), IHl; [reflexivity| |]; now inversion F.
  - assert (F : Forall (fun p => plain (snd p)) l) by now inversion H. clear H. induction l as [|[n x] l IHl]; [reflexivity|]. cbn. rewrite (IH x), IHl; [reflexivity| |]; now inversion F.
Qed.
Print Assumptions C117_data.
Definition w_mod : world nat nat :=
  add (add (add (add (object_world [])
    "JsonObject" [0] [(py "__module__", AStr (py "jsonld")); (py "__get_properties__", ACall 7)])
    "JsonProperty" [0] [(py "__module__", AStr (py "jsonld")); (py "__get_property_name__", ACall 9); ns_attr (NsProp (py "v"))])
    "Note" [1] [(py "__module__", AStr (py "models")); (py "type", AStr (py "Note")); ns_attr (NsType (py "v"))])
    "Content" [2] [(py "__module__", AStr (py "properties")); (py "content", AProp 20)].
Definition mods : modules := fun m n => if (str_eqb m (py "models") && str_eqb n (py "Note"))%bool then Some 3 else None.
Definition mod_case := package_init nat nat S S 0 99 (fun _ _ => []) w_mod (Some (py "v")) [3] [4] (Some [(py "v#Note", [py "v#dfn-content"])]).
(** a note of the original class can be stored, one of the package cannot, nor a list with one in it *)
Example C117_case : py_world nat nat w_mod /\ (forall m n c, mods m n = Some c -> c < List.length w_mod) /\
  match mod_case with
  | (w', Ok p) => p_objects p = [5] /\ pickles nat nat w' mods (SInst 3 [(py "content", SPlain)]) = true /\ pickles nat nat w' mods (SInst 5 [(py "content", SPlain)]) = false /\
      pickles nat nat w' mods (SSeq [SPlain; SInst 3 [(py "attachment", SInst 5 [])]]) = false /\ lookup w' 5 (py "__module__") = Some (AStr (py "models"))
  | _ => False
  end.
Proof.
  split; [unfold w_mod; world|]. split; [|vm_compute; repeat split; reflexivity].
  intros m n c. unfold mods. destruct (str_eqb m _ && str_eqb n _)%bool; [|discriminate]. intros E. assert (c = 3) as -> by congruence. vm_compute. repeat constructor.
Qed.
Example C117_not_both_case : (forall c, In c [3] -> c < List.length w_mod /\ package_first w_mod [3] c /\ unrelated_bases w_mod c) /\ ~ In (py "__module__") (property_names nat nat w_mod 3) /\
  match clone_classes nat nat S S 0 w_mod [3] with (_, Ok rf) => rf = [(3, 5)] | _ => False end.
Proof.
  split; [|split; [vm_compute; tauto|vm_compute; reflexivity]]. intros c [<-|[]]. split; [vm_compute; repeat constructor|]. split.
  - exists [3], [1; 0]. split; [reflexivity|]. cbn; split; intros a H; intuition lia.
  - intros b b' H1 H2; vm_compute in H1, H2; destruct H1 as [<-|[]], H2 as [<-|[]]; reflexivity.
Qed.
