(** facts about Intake.v *)
From Coq Require Import String.
From Verif Require Import Base BaseFacts Dict DictFacts Package PackageInit Intake.
Open Scope list_scope.

Section PvInd.
Variable Q : pv -> Prop.
Hypothesis H1 : Q PNone.
Hypothesis H2 : forall b, Q (PBool b).
Hypothesis H3 : forall r, Q (PNum r).
Hypothesis H4 : forall s, Q (PStr s).
Hypothesis H5 : forall d, Forall (fun p => Q (snd p)) d -> Q (PDict d).
Hypothesis H6 : forall l, Forall Q l -> Q (PIter l).
Hypothesis H7 : forall n, Q (POther n).
Fixpoint pv_tree_ind (v : pv) : Q v :=
  match v with
  | PNone => H1 | PBool b => H2 b | PNum r => H3 r | PStr s => H4 s
  | PDict d => H5 d ((fix go (d : list (pystr * pv)) : Forall (fun p => Q (snd p)) d := match d with [] => Forall_nil _ | p :: d' => Forall_cons p (pv_tree_ind (snd p)) (go d') end) d)
  | PIter l => H6 l ((fix go (l : list pv) : Forall Q l := match l with [] => Forall_nil _ | x :: l' => Forall_cons x (pv_tree_ind x) (go l') end) l)
  | POther n => H7 n
  end.
End PvInd.

Section Facts.
Variables St Obj : Type.
Variable expand : St -> pv -> St * res (list (option (list pystr))).
Variable construct : St -> nat -> list (pystr * out Obj) -> St * res Obj.
Variable properties : nat -> option (list pystr).
Variable registry : nsdict.
Notation out := (out Obj).
Notation unpack := (unpack St Obj expand construct properties registry).
Notation from_dict := (from_dict St Obj expand construct properties registry).
Notation from_value := (from_value St Obj expand construct properties registry).
Notation get_object_class := (get_object_class St expand registry).
Notation fill := (fill St Obj).

(** the forms an unpacked value can have *)
Inductive shape : pv -> out -> Prop :=
| sh_scalar v : match v with PNone | PBool _ | PNum _ | PStr _ => True | _ => False end -> shape v (ORaw v)
| sh_list l os : Forall2 shape l os -> shape (PIter l) (OList os)
| sh_dict d o : Forall2 (fun p q => fst q = fst p /\ shape (snd p) (snd q)) d o -> shape (PDict d) (ODict o)
| sh_unknown d : shape (PDict d) (ORaw PNone)
| sh_object d o : shape (PDict d) (OObj o)
| sh_other n : shape (POther n) (ORaw PNone).

Lemma unpack_items_ok f l : forall s s' os, unpack_items St Obj f l s = (s', Ok os) -> Forall2 (fun x o => exists a b, f x a = (b, Ok o)) l os.
Proof using.
  induction l as [|x l IH]; intros s s' os; cbn [unpack_items]; [intros [= _ <-]; constructor|]. destruct (f x s) as [s1 [o|e]] eqn:E1; [|discriminate].
  fold (unpack_items St Obj f). destruct (unpack_items St Obj f l s1) as [s2 [os'|e]] eqn:E2; [|discriminate]. intros [= _ <-]. constructor; eauto.
Qed.
Lemma unpack_entries_ok f l : forall s s' os, unpack_entries St Obj f l s = (s', Ok os) -> Forall2 (fun p q => fst q = fst p /\ exists a b, f (snd p) a = (b, Ok (snd q))) l os.
Proof using.
  induction l as [|[k x] l IH]; intros s s' os; cbn [unpack_entries]; [intros [= _ <-]; constructor|]. destruct (f x s) as [s1 [o|e]] eqn:E1; [|discriminate].
  fold (unpack_entries St Obj f). destruct (unpack_entries St Obj f l s1) as [s2 [os'|e]] eqn:E2; [|discriminate]. intros [= _ <-]. constructor; [cbn; eauto|eauto].
Qed.
Lemma unpack_entries_cons f k v l s : unpack_entries St Obj f ((k, v) :: l) s = match f v s with (s1, Err e) => (s1, Err e) | (s1, Ok o) => match unpack_entries St Obj f l s1 with (s2, Err e) => (s2, Err e) | (s2, Ok os) => (s2, Ok ((k, o) :: os)) end end.
Proof using. reflexivity. Qed.
Lemma unpack_entries_err f l : forall s s' e, unpack_entries St Obj f l s = (s', Err e) -> exists k v a b, In (k, v) l /\ f v a = (b, Err e).
Proof using.
  induction l as [|[k v] l IH]; intros s s' e; [discriminate|]. rewrite unpack_entries_cons. destruct (f v s) as [s1 [o|e1]] eqn:E1.
  - destruct (unpack_entries St Obj f l s1) as [s2 [os|e2]] eqn:E2; intros E; [discriminate|]. destruct (IH _ _ _ E2) as (k' & v' & a & b & H1 & H2). exists k', v', a, b. split; [now right|]. congruence.
  - intros E. exists k, v, s, s1. split; [now left|congruence].
Qed.
Lemma Forall_Forall2 {A B} (Q : A -> Prop) (R R' : A -> B -> Prop) l m : Forall Q l -> Forall2 R l m -> (forall a b, Q a -> R a b -> R' a b) -> Forall2 R' l m.
Proof using. intros H H2 Hi. revert H. induction H2; intros H'; [constructor|]. inversion H'; subst. constructor; auto. Qed.
Lemma unpack_shape v : forall context s s' o, unpack v context s = (s', Ok o) -> shape v o.
Proof using.
  induction v using pv_tree_ind; intros context s0 s' o; cbn [Intake.unpack]; try (intros [= _ <-]; constructor; exact I).
  - destruct (expand s0 (PDict (with_context context d))) as [s1 [l|e]]; [|discriminate]. destruct (untyped l).
    + destruct (unpack_entries St Obj (fun x => unpack x context) d s1) as [s2 [os|e]] eqn:E; [|discriminate]. intros [= _ <-]. apply sh_dict. apply unpack_entries_ok in E.
      eapply Forall_Forall2; [exact H|exact E|]. cbn. intros a b Ha [Hk (x & y & Hx)]. split; [exact Hk|]. exact (Ha _ _ _ _ Hx).
    + destruct (get_object_class s1 (PDict (with_context context d))) as [s2 [[c|]|e]]; [| |discriminate].
      * cbv zeta. match goal with |- context [Intake.from_dict _ _ _ _ _ _ ?f ?b ?c] => destruct (Intake.from_dict St Obj expand construct properties registry f b c) as [s3 [x|e]] end; [|discriminate]. intros [= _ <-]. apply sh_object.
      * intros [= _ <-]. apply sh_unknown.
  - destruct (unpack_items St Obj (fun x => unpack x context) l s0) as [s2 [os|e]] eqn:E; [|discriminate]. intros [= _ <-]. apply sh_list. apply unpack_items_ok in E.
    eapply Forall_Forall2; [exact H|exact E|]. intros a b Ha (x & y & Hx). exact (Ha _ _ _ _ Hx).
Qed.

(** the table of unpackers of a nested dict is [unpack] of its entries *)
Lemma d_get_map {A B} (f : A -> B) k (d : list (pystr * A)) : d_get k (map (fun p => (fst p, f (snd p))) d) = match d_get k d with Some v => Some (f v) | None => None end.
Proof using. induction d as [|[j v] d IH]; [reflexivity|]. cbn [map d_get fst snd]. destruct (str_eqb k j); [reflexivity|exact IH]. Qed.
Lemma fill_ext f g context names : forall s acc, (forall k, In k names -> f k = g k) -> fill f context names s acc = fill g context names s acc.
Proof using. induction names as [|k names IH]; intros s acc H; [reflexivity|]. cbn [Intake.fill]. rewrite (H k (or_introl eq_refl)). destruct (match g k with Some h => h context s | None => (s, Ok (ORaw PNone)) end) as [s1 [o|e]]; [|reflexivity]. apply IH. intros x Hx. apply H. now right. Qed.
Lemma from_dict_ext f g data s : (forall c names, properties c = Some names -> forall k, In k names -> f k = g k) -> from_dict f data s = from_dict g data s.
Proof using.
  intros H. unfold Intake.from_dict. destruct (get_object_class s _) as [s1 [[c|]|e]]; try reflexivity. destruct (properties c) as [names|] eqn:E; [|reflexivity]. rewrite (fill_ext f g _ names s1 []); [reflexivity|]. eauto.
Qed.
Lemma with_context_get context d k : NoDup (d_keys d) -> d_get k (with_context context d) = if str_eqb k (py "@context") then match d_get k d with Some v => Some v | None => Some context end else d_get k d.
Proof using.
  intros H. unfold with_context. rewrite d_get_merge. rewrite (last_of_nodup k d H). destruct (d_get k d) as [v|]; [now destruct (str_eqb k (py "@context"))|]. cbn [d_get]. destruct (str_eqb k (py "@context")); reflexivity.
Qed.
Lemma unpack_dict d context s : NoDup (d_keys d) -> (forall c names, properties c = Some names -> ~ In (py "@context") names) ->
  unpack (PDict d) context s =
  match expand s (PDict (with_context context d)) with
  | (s1, Err e) => (s1, Err e)
  | (s1, Ok l) => if untyped l
      then match unpack_entries St Obj (fun x => unpack x context) d s1 with (s2, Err e) => (s2, Err e) | (s2, Ok o) => (s2, Ok (ODict o)) end
      else match get_object_class s1 (PDict (with_context context d)) with
           | (s2, Err e) => (s2, Err e)
           | (s2, Ok None) => (s2, Ok (ORaw PNone))
           | (s2, Ok (Some _)) => match from_value (PDict (with_context context d)) s2 with (s3, Err e) => (s3, Err e) | (s3, Ok o) => (s3, Ok (OObj o)) end
           end
  end.
Proof using.
  intros Hd Hp. cbn [Intake.unpack Intake.from_value]. destruct (expand s (PDict (with_context context d))) as [s1 [l|e]]; [|reflexivity]. destruct (untyped l); [reflexivity|].
  destruct (get_object_class s1 (PDict (with_context context d))) as [s2 [[c|]|e]]; try reflexivity. cbv zeta.
  rewrite (from_dict_ext (fun k => d_get k (map (fun p => (fst p, unpack (snd p))) d)) (fun k => match d_get k (with_context context d) with Some x => Some (unpack x) | None => None end)); [reflexivity|].
  intros c' names Hc k Hk. rewrite d_get_map, with_context_get by exact Hd. assert (str_eqb k (py "@context") = false) as -> by (apply str_eqb_neq; intros ->; exact (Hp c' names Hc Hk)). reflexivity.
Qed.

(** what the constructor is called with *)
Lemma fill_ok sub context names : forall s s' acc args, NoDup names -> (forall k, In k names -> d_get k acc = None) -> fill sub context names s acc = (s', Ok args) ->
  d_keys args = d_keys acc ++ names /\ (forall k, ~ In k names -> d_get k args = d_get k acc) /\
  (forall k, In k names -> exists o, d_get k args = Some o /\ match sub k with None => o = ORaw PNone | Some f => exists a b, f context a = (b, Ok o) end).
Proof using.
  induction names as [|k names IH]; intros s s' acc args Hn Ha; cbn [Intake.fill].
  - intros [= _ <-]. rewrite app_nil_r. repeat split; auto. intros k [].
  - destruct (match sub k with Some f => f context s | None => (s, Ok (ORaw PNone)) end) as [s1 [o|e]] eqn:E1; [|discriminate]. intros E. apply NoDup_cons_iff in Hn as [N1 N2].
    apply IH in E; [|exact N2|intros j Hj; rewrite d_get_set_other by (intros ->; contradiction); apply Ha; now right]. destruct E as (A & B & C). split; [|split].
    + rewrite A, d_keys_set. unfold d_mem. rewrite (Ha k (or_introl eq_refl)). now rewrite <- app_assoc.
    + intros j Hj. rewrite B by (intros Hx; apply Hj; now right). apply d_get_set_other. intros ->. apply Hj. now left.
    + intros j [<-|Hj]; [|now apply C]. exists o. split; [rewrite B by exact N1; apply d_get_set_same|]. destruct (sub k) as [f|]; [eauto|congruence].
Qed.
Lemma fill_err sub context names : forall s s' acc e, fill sub context names s acc = (s', Err e) -> exists k f a b, In k names /\ sub k = Some f /\ f context a = (b, Err e).
Proof using.
  induction names as [|k names IH]; intros s s' acc e; cbn [Intake.fill]; [discriminate|]. destruct (sub k) as [f|] eqn:Ef.
  - destruct (f context s) as [s1 [o|e1]] eqn:E1; [|intros [= _ <-]; exists k, f, s, s1; repeat split; auto; now left]. intros E. apply IH in E as (j & g & a & b & H1 & H2 & H3). exists j, g, a, b. repeat split; auto. now right.
  - intros E. apply IH in E as (j & g & a & b & H1 & H2 & H3). exists j, g, a, b. repeat split; auto. now right.
Qed.

(** ** nothing fails when expansion and constructors do not *)
(** every "@context" inside the value is true in a boolean context *)
Fixpoint contexts_set (v : pv) : Prop :=
  match v with
  | PDict d => (forall c, In (py "@context", c) d -> truthy c = true) /\ (fix go (l : list (pystr * pv)) : Prop := match l with [] => True | p :: r => contexts_set (snd p) /\ go r end) d
  | PIter l => (fix go (l : list pv) : Prop := match l with [] => True | x :: r => contexts_set x /\ go r end) l
  | _ => True
  end.
Lemma contexts_dict d : contexts_set (PDict d) -> (forall c, In (py "@context", c) d -> truthy c = true) /\ Forall (fun p => contexts_set (snd p)) d.
Proof using. cbn [contexts_set]. intros [H1 H2]. split; [exact H1|]. clear H1. induction d as [|p d IH]; [constructor|]. destruct H2 as [A B]. constructor; auto. Qed.
Lemma contexts_iter l : contexts_set (PIter l) -> Forall contexts_set l.
Proof using. cbn [contexts_set]. induction l as [|x l IH]; [constructor|]. intros [A B]. constructor; auto. Qed.
Section Total.
Variable ex : pv -> list (option (list pystr)).
Hypothesis Hex : forall s v, exists s', expand s v = (s', Ok (ex v)).
Hypothesis Hne : forall v t, ex v <> Some [] :: t.
Hypothesis Hpr : forall x c, ns_get x registry = Some c -> properties c <> None.
Hypothesis Hco : forall s c a, exists s' o, construct s c a = (s', Ok o).
Definition class_for (v : pv) : option nat :=
  let t := match ex v with Some (t :: _) :: _ => t | _ => [] end in ns_get (match ns_get (Some t) registry with Some _ => Some t | None => Some (py "default") end) registry.
Lemma get_object_class_total s v : exists s', get_object_class s v = (s', Ok (class_for v)).
Proof using Hex Hne.
  unfold Intake.get_object_class, class_for. destruct (Hex s v) as (s' & E). rewrite E. exists s'. pose proof (Hne v) as H. destruct (ex v) as [|[[|t ts]|] l]; try reflexivity. now destruct (H l).
Qed.
Lemma class_for_properties v c : class_for v = Some c -> exists names, properties c = Some names.
Proof using Hpr. intros H. apply Hpr in H. destruct (properties c) as [n|]; [eauto|now destruct H]. Qed.
Lemma fill_total sub context names : (forall k f, In k names -> sub k = Some f -> forall s, exists s' o, f context s = (s', Ok o)) -> forall s acc, exists s' args, fill sub context names s acc = (s', Ok args).
Proof using.
  induction names as [|k names IH]; intros H s acc; cbn [Intake.fill]; [eauto|]. destruct (sub k) as [f|] eqn:Ef.
  - destruct (H k f (or_introl eq_refl) Ef s) as (s1 & o & E1). rewrite E1. apply IH. intros j g Hj Hg. apply (H j g (or_intror Hj) Hg).
  - apply IH. intros j g Hj Hg. apply (H j g (or_intror Hj) Hg).
Qed.
Definition the_data (d : dict pv) : dict pv := if match d_get (py "@context") d with Some c => truthy c | None => false end then d else d_set (py "@context") default_context d.
Lemma from_dict_total sub data s : (forall k f, sub k = Some f -> forall context s, (truthy context = true) -> exists s' o, f context s = (s', Ok o)) ->
  (forall c, d_get (py "@context") data = Some c -> truthy c = true) ->
  match class_for (PDict (the_data data)) with Some _ => exists s' o, from_dict sub data s = (s', Ok o) | None => exists s', from_dict sub data s = (s', Err AttributeError) end.
Proof using Hex Hne Hpr Hco.
  intros H Hc. unfold Intake.from_dict. fold (the_data data). cbv zeta. destruct (get_object_class_total s (PDict (the_data data))) as (s1 & E1). rewrite E1. destruct (class_for (PDict (the_data data))) as [c|] eqn:Ec; [|eauto].
  destruct (class_for_properties _ c Ec) as (names & En). rewrite En.
  set (context := match d_get (py "@context") data with Some c => c | None => default_context end).
  assert (Ht : truthy context = true) by (unfold context; destruct (d_get (py "@context") data) as [x|]; [now apply Hc|reflexivity]).
  destruct (fill_total sub context names (fun k f _ Hf s => H k f Hf context s Ht) s1 []) as (s2 & args & E2). rewrite E2. apply Hco.
Qed.
Lemma d_get_in_pair {A} k (v : A) d : d_get k d = Some v -> In (k, v) d. Proof using. apply d_get_some_in. Qed.
Lemma unpack_total v : forall context s, truthy context = true -> contexts_set v -> exists s' o, unpack v context s = (s', Ok o).
Proof using Hex Hne Hpr Hco.
  induction v using pv_tree_ind; intros context s0 Hc Hv; cbn [Intake.unpack]; eauto.
  - apply contexts_dict in Hv as [Hv1 Hv2]. rewrite Forall_forall in Hv2, H. destruct (Hex s0 (PDict (with_context context d))) as (s1 & E1). rewrite E1. destruct (untyped (ex (PDict (with_context context d)))).
    + assert (G : forall l, (forall p, In p l -> In p d) -> forall s, exists s' os, unpack_entries St Obj (fun x => unpack x context) l s = (s', Ok os)).
      { induction l as [|[k x] l IHl]; intros Hl s; cbn [unpack_entries]; [eauto|]. destruct (H (k, x) (Hl _ (or_introl eq_refl)) context s Hc (Hv2 _ (Hl _ (or_introl eq_refl)))) as (s2 & o & E2). cbn [snd] in E2. rewrite E2.
        destruct (IHl (fun p Hp => Hl p (or_intror Hp)) s2) as (s3 & os & E3). cbn [unpack_entries] in E3. rewrite E3. eauto. }
      destruct (G d (fun p H => H) s1) as (s2 & os & E2). rewrite E2. eauto.
    + destruct (get_object_class_total s1 (PDict (with_context context d))) as (s2 & E2). rewrite E2. destruct (class_for (PDict (with_context context d))) as [c|] eqn:Ec; [|eauto]. cbv zeta.
      assert (Hctx : forall x, d_get (py "@context") (with_context context d) = Some x -> truthy x = true).
      { intros x. unfold with_context. rewrite d_get_merge. destruct (last_of (py "@context") d) as [y|] eqn:El; [|intros [= <-]; exact Hc]. intros [= ->].
        apply Hv1. now apply last_of_some. }
      assert (Hdata : the_data (with_context context d) = with_context context d).
      { unfold the_data. destruct (d_get (py "@context") (with_context context d)) as [x|] eqn:Ex; [now rewrite (Hctx x eq_refl)|]. exfalso. revert Ex. unfold with_context. rewrite d_get_merge. destruct (last_of (py "@context") d); discriminate. }
      pose proof (from_dict_total (fun k => d_get k (map (fun p => (fst p, unpack (snd p))) d)) (with_context context d) s2) as G. rewrite Hdata, Ec in G. destruct G as (s3 & o & E3); [|exact Hctx|].
      * intros k f Hf context' s' Ht'. rewrite d_get_map in Hf. destruct (d_get k d) as [x|] eqn:Ex; [|discriminate]. injection Hf as <-. apply d_get_some_in in Ex. apply (H (k, x) Ex); [exact Ht'|]. exact (Hv2 _ Ex).
      * rewrite E3. eauto.
  - apply contexts_iter in Hv. rewrite Forall_forall in Hv, H.
    assert (G : forall l0, (forall p, In p l0 -> In p l) -> forall s, exists s' os, unpack_items St Obj (fun x => unpack x context) l0 s = (s', Ok os)).
    { induction l0 as [|x l0 IHl]; intros Hl s; cbn [unpack_items]; [eauto|]. destruct (H x (Hl _ (or_introl eq_refl)) context s Hc (Hv _ (Hl _ (or_introl eq_refl)))) as (s2 & o & E2). rewrite E2.
      destruct (IHl (fun p Hp => Hl p (or_intror Hp)) s2) as (s3 & os & E3). cbn [unpack_items] in E3. rewrite E3. eauto. }
    destruct (G l (fun p H => H) s0) as (s2 & os & E2). rewrite E2. eauto.
Qed.
End Total.
End Facts.
