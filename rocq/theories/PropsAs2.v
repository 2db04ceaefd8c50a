From Coq Require Import String.
From Verif Require Import Base BaseFacts VocabTables Vocab As2Spec.
Open Scope list_scope.

(** ** C104 the vocabulary *)
Definition mem_s (x : string) (l : list string) : bool := existsb (String.eqb x) l.
Lemma mem_s_in x l : mem_s x l = true <-> In x l.
Proof. unfold mem_s. rewrite existsb_exists. split; [intros (y & H & E); apply String.eqb_eq in E; now subst|intros H; exists x; split; [exact H|apply String.eqb_refl]]. Qed.
Fixpoint up (fuel : nat) (t : string) : list string := t :: match fuel with O => [] | S f => flat_map (up f) (fst (entry t)) end.
Lemma entry_known a b : In b (fst (entry a)) \/ In b (snd (entry a)) -> In a (map fst as2_types).
Proof. unfold entry. destruct (find (fun e => String.eqb a (fst e)) as2_types) as [[n x]|] eqn:F; [|cbn; tauto]. intros _. apply find_some in F as [F E]. apply String.eqb_eq in E. cbn in E. subst n. now apply (in_map fst) in F. Qed.
Lemma up_closed : forallb (fun a => forallb (fun b => forallb (fun c => mem_s c (up 5 a)) (up 5 b)) (fst (entry a))) (map fst as2_types) = true. Proof. vm_compute. reflexivity. Qed.
Lemma bases_known : forallb (fun a => forallb (fun b => mem_s b (map fst as2_types)) (fst (entry a))) (map fst as2_types) = true. Proof. vm_compute. reflexivity. Qed.
Lemma up_sound f : forall t u, In t (map fst as2_types) -> In u (up f t) -> as2_is t u.
Proof.
  induction f as [|f IH]; intros t u Ht; cbn [up]; intros [<-|H]; try (constructor; assumption); [destruct H|]. apply in_flat_map in H as (b & Hb & Hu).
  apply (is_base t b); [exact Hb|]. apply IH; [|exact Hu]. pose proof bases_known as K. rewrite forallb_forall in K. specialize (K t Ht). rewrite forallb_forall in K. apply mem_s_in, K, Hb.
Qed.
Lemma as2_is_up t u : as2_is t u -> In u (up 5 t).
Proof.
  induction 1 as [t H|a b c Hb H IH]; [now left|]. pose proof up_closed as K. rewrite forallb_forall in K. specialize (K a (entry_known a b (or_introl Hb))). rewrite forallb_forall in K. specialize (K b Hb). rewrite forallb_forall in K. apply mem_s_in, K, IH.
Qed.
Lemma as2_is_iff t u : In t (map fst as2_types) -> (as2_is t u <-> mem_s u (up 5 t) = true).
Proof. intros H. rewrite mem_s_in. split; [apply as2_is_up|now apply up_sound]. Qed.
(** the type of a class, by name *)
Definition type_of (c : cname) (t : string) : Prop := name_of c = py t.
Lemma py_inj s : forall t, py s = py t -> s = t.
Proof.
  induction s as [|a s IH]; intros [|b t]; cbn; try discriminate; [reflexivity|]. intros H. injection H as E H. f_equal; [|now apply IH]. rewrite <- (Ascii.ascii_N_embedding a), <- (Ascii.ascii_N_embedding b). now rewrite E.
Qed.
Definition tname (c : cname) : string := match find (fun t => str_eqb (name_of c) (py t)) (map fst as2_types) with Some t => t | None => EmptyString end.
Lemma tnames : forallb (fun c => str_eqb (name_of c) (py (tname c)) && mem_s (tname c) (map fst as2_types))%bool all_classes = true. Proof. vm_compute. reflexivity. Qed.
Lemma every c : In c all_classes. Proof. destruct c; vm_compute; tauto. Qed.
Lemma type_tname c t : type_of c t -> t = tname c /\ In t (map fst as2_types).
Proof. intros H. pose proof tnames as K. rewrite forallb_forall in K. specialize (K c (every c)). apply andb_true_iff in K as [K1 K2]. apply str_eqb_eq in K1. apply mem_s_in in K2. unfold type_of in H. rewrite K1 in H. apply py_inj in H. subst. auto. Qed.
(** the classes are exactly the types of the recommendation, each under its name *)
Theorem C104_types : (forall c, exists t, type_of c t /\ In t (map fst as2_types)) /\ (forall t, In t (map fst as2_types) -> exists c, type_of c t /\ forall d, type_of d t -> d = c).
Proof.
  split.
  - intros c. pose proof tnames as K. rewrite forallb_forall in K. specialize (K c (every c)). apply andb_true_iff in K as [K1 K2]. exists (tname c). split; [now apply str_eqb_eq|now apply mem_s_in].
  - intros t H. assert (K : forallb (fun t => match find (fun c => str_eqb (name_of c) (py t)) all_classes with Some c => forallb (fun d => implb (str_eqb (name_of d) (py t)) (class_eqb d c)) all_classes | None => false end) (map fst as2_types) = true) by (vm_compute; reflexivity).
    rewrite forallb_forall in K. specialize (K t H). destruct (find _ all_classes) as [c|] eqn:F; [|discriminate]. apply find_some in F as [_ F]. exists c. split; [now apply str_eqb_eq|]. intros d D. rewrite forallb_forall in K. specialize (K d (every d)). unfold type_of in D. rewrite D, str_eqb_refl in K. cbn in K. destruct d, c; try discriminate K; reflexivity.
Qed.
Print Assumptions C104_types.
(** one class derives from another exactly if its type extends the other's *)
Theorem C104_subtypes : forall c d t u, type_of c t -> type_of d u -> (subclass c d = true <-> as2_is t u).
Proof.
  intros c d t u Hc Hd. destruct (type_tname c t Hc) as [-> It]. destruct (type_tname d u Hd) as [-> _]. rewrite (as2_is_iff _ _ It).
  assert (K : forallb (fun c => forallb (fun d => Bool.eqb (subclass c d) (mem_s (tname d) (up 5 (tname c)))) all_classes) all_classes = true) by (vm_compute; reflexivity).
  rewrite forallb_forall in K. specialize (K c (every c)). rewrite forallb_forall in K. specialize (K d (every d)). apply Bool.eqb_prop in K. now rewrite K.
Qed.
Print Assumptions C104_subtypes.
(** the properties of the package's classes (the names in __properties__, which data() writes): those of the type but for context; id, type, acontext and __namespace__; for collections also orderedItems and
    unorderedItems; for intransitive activities also object *)
Lemma set_table : forallb (fun c => let t := tname c in let ps := flat_map (fun a => snd (entry a)) (up 5 t) in
   forallb (fun n => existsb (fun p => str_eqb n (py p) && negb (String.eqb p "context"))%bool ps || mem_str n (map py ["acontext"; "__namespace__"; "id"; "type"]%string) || (mem_s "Collection" (up 5 t) && mem_str n (map py ["orderedItems"; "unorderedItems"]%string)))%bool (property_set true c)
   && forallb (fun p => String.eqb p "context" || mem_str (py p) (property_set true c))%bool ps && forallb (fun n => mem_str n (property_set true c)) (map py ["acontext"; "__namespace__"; "id"; "type"]%string)
   && implb (mem_s "Collection" (up 5 t)) (forallb (fun n => mem_str n (property_set true c)) (map py ["orderedItems"; "unorderedItems"]%string)) && implb (mem_s "IntransitiveActivity" (up 5 t)) (mem_s "object" ps) && negb (mem_str (py "context") (property_set true c)))%bool all_classes = true.
Proof. vm_compute. reflexivity. Qed.
Definition housekeeping : list pystr := map py ["acontext"; "__namespace__"; "id"; "type"]%string.
Theorem C104_properties : forall c t n, type_of c t -> (In n (property_set true c) <->
  (exists p, n = py p /\ as2_has t p /\ p <> "context"%string) \/ In n housekeeping \/ (as2_is t "Collection" /\ In n (map py ["orderedItems"; "unorderedItems"]%string)) \/ (as2_is t "IntransitiveActivity" /\ n = py "object")).
Proof.
  intros c t n Hc. destruct (type_tname c t Hc) as [-> It]. pose proof set_table as K. rewrite forallb_forall in K. specialize (K c (every c)). cbv zeta in K. set (t := tname c) in *.
  apply andb_true_iff in K as [K K6]. apply andb_true_iff in K as [K K5]. apply andb_true_iff in K as [K K4]. apply andb_true_iff in K as [K K3]. apply andb_true_iff in K as [K1 K2].
  rewrite forallb_forall in K1, K2, K3. rewrite !(as2_is_iff t) by exact It. fold housekeeping in K1, K3. split.
  - intros H. specialize (K1 n H). apply orb_true_iff in K1 as [K1|K1]; [apply orb_true_iff in K1 as [K1|K1]|].
    + apply existsb_exists in K1 as (p & Hp & E). apply andb_true_iff in E as [E1 E2]. apply str_eqb_eq in E1. apply negb_true_iff, String.eqb_neq in E2.
      destruct (String.eqb p "object" && mem_s "IntransitiveActivity" (up 5 t))%bool eqn:X.
      * apply andb_true_iff in X as [X1 X2]. apply String.eqb_eq in X1. right. right. right. split; [exact X2|congruence].
      * left. exists p. split; [exact E1|]. split; [|exact E2]. apply in_flat_map in Hp as (a & Ha & Hp). exists a. split; [now apply as2_is_iff, mem_s_in|]. split; [exact Hp|]. intros [-> Y]. apply as2_is_iff in Y; [|exact It]. rewrite Y in X. discriminate X.
    + right. left. now apply mem_str_In.
    + right. right. left. apply andb_true_iff in K1 as [A B]. split; [exact A|now apply mem_str_In].
  - intros [(p & -> & (a & Ha & Hp & _) & Hn)|[H|[[H1 H2]|[H1 ->]]]].
    + assert (I : In p (flat_map (fun a => snd (entry a)) (up 5 t))) by (apply in_flat_map; exists a; split; [now apply as2_is_up|exact Hp]). specialize (K2 p I). apply orb_true_iff in K2 as [K2|K2]; [apply String.eqb_eq in K2; contradiction|now apply mem_str_In].
    + apply mem_str_In. now apply K3.
    + rewrite H1 in K4. cbn [implb] in K4. rewrite forallb_forall in K4. apply mem_str_In. now apply K4.
    + rewrite H1 in K5. cbn [implb] in K5. apply mem_s_in in K5. specialize (K2 _ K5). now apply mem_str_In.
Qed.
Print Assumptions C104_properties.
(** false of the code: that every property of a type is a property of its class. The property context is missing everywhere *)
Theorem C104_context_refuted : forall c t, type_of c t -> (as2_is t "Object" -> as2_has t "context") /\ ~ In (py "context") (property_set true c).
Proof.
  intros c t Hc. split.
  - intros H. exists "Object"%string. split; [exact H|]. split; [apply mem_s_in; vm_compute; reflexivity|]. intros [X _]. discriminate X.
  - pose proof set_table as K. rewrite forallb_forall in K. specialize (K c (every c)). cbv zeta in K. apply andb_true_iff in K as [_ K]. apply negb_true_iff in K. now apply mem_str_false.
Qed.
Print Assumptions C104_context_refuted.
(** false of the code: that an intransitive activity has no object *)
Theorem C104_intransitive_refuted : forall c t, type_of c t -> as2_is t "IntransitiveActivity" -> In (py "object") (property_set true c) /\ ~ as2_has t "object".
Proof. intros c t Hc H. split; [apply (C104_properties c t _ Hc); auto 10|]. intros (a & _ & _ & N). now apply N. Qed.
Print Assumptions C104_intransitive_refuted.
Example C104_case : type_of Invite "Invite" /\ as2_is "Invite" "Activity" /\ as2_has "Invite" "actor" /\ as2_is "Travel" "IntransitiveActivity".
Proof.
  split; [reflexivity|]. assert (A : as2_is "Invite" "Activity") by (apply as2_is_iff; [apply mem_s_in|]; vm_compute; reflexivity). split; [exact A|]. split; [|apply as2_is_iff; [apply mem_s_in|]; vm_compute; reflexivity].
  exists "Activity"%string. split; [exact A|]. split; [apply mem_s_in; vm_compute; reflexivity|]. intros [X _]. discriminate X.
Qed.
