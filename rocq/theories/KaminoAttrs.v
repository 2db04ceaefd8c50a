(** the attributes of a clone *)
From Coq Require Import String Permutation.
From Verif Require Import Base BaseFacts Dict DictFacts PyClass PyClassFacts Kamino KaminoOrder KaminoFacts.
Open Scope list_scope.

Section Attrs.
Variables P V : Type.
Notation world := (world P V).
Notation attr := (attr P V).
Variable wrap_prop : P -> P.
Variable wrap_call : V -> V.
Variable package_ref : V.
Notation clone_class := (clone_class P V wrap_prop wrap_call package_ref).
Notation clone_nodes := (clone_nodes P V wrap_prop wrap_call package_ref).
Notation clone_classes := (clone_classes P V wrap_prop wrap_call package_ref).
Notation wrap_names := (wrap_names P V wrap_prop).
Notation wrap_attr := (wrap_attr P V wrap_call).

(** names the cloning code sets itself *)
Definition special (n : pystr) : Prop := n = py "__properties__" \/ n = py "__property_name__" \/ n = py "__jsonld_package__".
Definition own (w : world) (c : nat) (n : pystr) : option attr := d_get n (c_attrs (get_cls w c)).

Lemma dedup_in x l : In x (dedup l) <-> In x l.
Proof. clear. induction l as [|y l IH]; [tauto|]. cbn. destruct (mem_str y l) eqn:E; [|cbn; now rewrite IH]. rewrite IH. apply mem_str_In in E. split; [auto|]. intros [->|H]; auto. Qed.
Lemma dedup_nodup l : NoDup (dedup l).
Proof. induction l as [|y l IH]; [constructor|]. cbn. destruct (mem_str y l) eqn:E; [exact IH|]. constructor; [|exact IH]. rewrite dedup_in. now apply mem_str_false. Qed.
Lemma is_prop_spec a : is_prop P V a = true <-> exists p, a = AProp p.
Proof. destruct a; cbn; split; try discriminate; try (intros (p' & [=])); eauto. Qed.
Lemma property_names_in w c n : dicts P V w -> (In n (property_names P V w c) <-> exists a p, In a (mro w c) /\ own w a n = Some (AProp p)).
Proof.
  intros Hd. unfold property_names. rewrite dedup_in, in_flat_map. split.
  - intros (a & Ha & H). apply in_map_iff in H as ([n' v] & E & H). cbn in E. subst n'. apply filter_In in H as [H1 H2]. cbn [snd] in H2. apply is_prop_spec in H2 as [p ->]. exists a, p. split; [exact Ha|]. unfold own. apply d_get_nodup; [apply Hd|exact H1].
  - intros (a & p & Ha & H). exists a. split; [exact Ha|]. apply in_map_iff. exists (n, AProp p). split; [reflexivity|]. apply filter_In. split; [now apply d_get_some_in|reflexivity].
Qed.
Lemma find_attr_some (w : world) m n v : find_attr w m n = Some v -> exists a, In a m /\ own w a n = Some v.
Proof. induction m as [|a m IH]; [discriminate|]. cbn. unfold own. destruct (d_get n (c_attrs (get_cls w a))) as [u|] eqn:E; [intros [= <-]; exists a; split; [now left|exact E]|]. intros H. destruct (IH H) as (b & Hb & Eb). exists b. split; [now right|exact Eb]. Qed.
Lemma find_attr_none (w : world) m n : find_attr w m n = None <-> forall a, In a m -> own w a n = None.
Proof.
  induction m as [|a m IH]; [split; [intros _ a []|reflexivity]|]. cbn. unfold own in *. destruct (d_get n (c_attrs (get_cls w a))) as [u|] eqn:E.
  - split; [discriminate|]. intros H. specialize (H a (or_introl eq_refl)). congruence.
  - rewrite IH. split; [intros H b [<-|Hb]; auto|]. intros H b Hb. apply H. now right.
Qed.
Lemma find_attr_ext (w w' : world) m n : (forall a, In a m -> own w' a n = own w a n) -> find_attr w' m n = find_attr w m n.
Proof. induction m as [|a m IH]; intros H; [reflexivity|]. cbn. pose proof (H a (or_introl eq_refl)) as Ha. unfold own in Ha. rewrite Ha, IH; [reflexivity|]. intros b Hb. apply H. now right. Qed.

Lemma own_set_same w k n v : k < List.length w -> own (set_attr w k n v) k n = Some v.
Proof. intros H. unfold own. rewrite get_set_same by exact H. apply d_get_set_same. Qed.
Lemma own_set_other w k n v j x : j <> k \/ x <> n -> own (set_attr w k n v) j x = own w j x.
Proof.
  intros H. unfold own. destruct (Nat.eq_dec j k) as [->|Hj]; [|now rewrite get_set_other].
  destruct H as [H|H]; [congruence|]. destruct (Nat.lt_ge_cases k (List.length w)) as [Hl|Hl]; [|now rewrite set_attr_out]. rewrite get_set_same by exact Hl. cbn. now apply d_get_set_other.
Qed.
Lemma wrap_names_get l : forall w k n, k < List.length w -> NoDup (map fst l) -> own (wrap_names w k l) k n = match d_get n l with Some (AProp p) => Some (AProp (wrap_prop p)) | _ => own w k n end.
Proof.
  induction l as [|[x a] l IH]; intros w k n Hk Hn; [reflexivity|]. cbn [map fst] in Hn. apply NoDup_cons_iff in Hn as [N1 N2]. cbn [d_get].
  destruct (str_eqb n x) eqn:E.
  - apply str_eqb_eq in E. subst x. assert (Hl : d_get n l = None) by (apply d_get_none; exact N1).
    destruct a; cbn [Kamino.wrap_names]; rewrite IH by (rewrite ?set_attr_length; auto); rewrite Hl; [|reflexivity..]. now apply own_set_same.
  - apply str_eqb_neq in E. destruct a; cbn [Kamino.wrap_names]; rewrite IH by (rewrite ?set_attr_length; auto); try reflexivity. rewrite own_set_other by auto. reflexivity.
Qed.
Lemma get_all_get w c n names : NoDup names -> d_get n (get_all P V w c names) = if mem_str n names then lookup w c n else None.
Proof.
  unfold get_all. induction names as [|x l IH]; intros Hn; [reflexivity|]. apply NoDup_cons_iff in Hn as [N1 N2]. specialize (IH N2). cbn [flat_map]. unfold mem_str in *. cbn [existsb]. destruct (str_eqb n x) eqn:E.
  - apply str_eqb_eq in E. subst x. cbn. destruct (lookup w c n) as [a|] eqn:El; cbn; [now rewrite str_eqb_refl|]. rewrite IH. destruct (existsb (str_eqb n) l); reflexivity.
  - cbn. destruct (lookup w c x) as [a|]; cbn; rewrite ?E; exact IH.
Qed.
Lemma get_all_nodup w c names : NoDup names -> NoDup (map fst (get_all P V w c names)).
Proof.
  intros Hn. assert (Hs : subseq (map fst (get_all P V w c names)) names). { unfold get_all. clear Hn. induction names as [|x l IH]; [constructor|]. cbn. destruct (lookup w c x); cbn; now constructor. }
  eapply ss_nodup; eauto.
Qed.
Lemma wrap_callables_get d n : d_get n (wrap_callables P V wrap_call d) = match d_get n d with Some a => Some (wrap_attr a) | None => None end.
Proof. induction d as [|[x a] d IH]; [reflexivity|]. cbn. destruct (str_eqb n x); [reflexivity|exact IH]. Qed.
Lemma wrap_callables_keys d : d_keys (wrap_callables P V wrap_call d) = d_keys d.
Proof. unfold d_keys, wrap_callables. rewrite map_map. reflexivity. Qed.
Lemma dicts_names l : forall w k, dicts P V w -> dicts P V (wrap_names w k l).
Proof. induction l as [|[x a] l IH]; intros w k H; [exact H|]. destruct a; cbn [Kamino.wrap_names]; apply IH; auto. now apply dicts_set. Qed.

(** what wrap_properties does to the class's own attributes *)
Lemma wrap_properties_get w k m w' : k < List.length w -> dicts P V w -> mro w k = k :: m -> ~ In k m -> wrap_properties P V wrap_prop w k = (w', Ok tt) ->
  dicts P V w' /\ forall n, ~ special n ->
  match lookup w k n with
  | Some (AProp p) => own w' k n = Some (AProp (wrap_prop p)) \/ (own w' k n = own w k n /\ lookup w k (py "__get_properties__") = None)
  | _ => own w' k n = own w k n
  end.
Proof.
  intros Hk Hd Em Hkm. unfold wrap_properties.
  assert (Hlook : forall n x v, n <> x -> lookup (set_attr w k x v) k n = lookup w k n).
  { intros n x v Hn. unfold lookup. rewrite mro_set. apply find_attr_ext. intros a _. apply own_set_other. auto. }
  set (names := property_names P V w k).
  assert (E1 : exists w1 names1, (if has P V w k "__get_properties__" then get_properties P V w k else (w, [])) = (w1, names1) /\ (w1 = w \/ w1 = set_attr w k (py "__properties__") (ANames names)) /\ (names1 = names \/ (names1 = [] /\ lookup w k (py "__get_properties__") = None))).
  { unfold has, get_properties. destruct (lookup w k (py "__get_properties__")) eqn:E; [exists (set_attr w k (py "__properties__") (ANames names)), names|exists w, []]; auto. }
  destruct E1 as (w1 & names1 & E1 & Hw1 & Hnames). match goal with |- (let (_, _) := ?X in _) = _ -> _ => replace X with (w1, names1) by (symmetry; exact E1) end. clear E1.
  assert (Hk1 : k < List.length w1) by (destruct Hw1 as [->| ->]; rewrite ?set_attr_length; exact Hk).
  assert (Hd1 : dicts P V w1) by (destruct Hw1 as [->| ->]; [exact Hd|now apply dicts_set]).
  assert (Hl1 : forall n, ~ special n -> lookup w1 k n = lookup w k n /\ own w1 k n = own w k n).
  { intros n Hn. assert (Hx : n <> py "__properties__") by (intros E; apply Hn; now left). destruct Hw1 as [->| ->]; [auto|]. split; [now apply Hlook|apply own_set_other; now right]. }
  assert (Hnn : NoDup names1) by (destruct Hnames as [->|[-> _]]; [apply dedup_nodup|constructor]).
  assert (Hin : forall n p, lookup w k n = Some (AProp p) -> In n names).
  { intros n p H. unfold lookup in H. apply find_attr_some in H as (a & Ha & Eo). apply property_names_in; eauto. }
  assert (Hfin : forall w2 l, k < List.length w2 -> dicts P V w2 -> NoDup (map fst l) -> (forall n, ~ special n -> own w2 k n = own w k n /\ (d_get n l = None \/ d_get n l = lookup w k n) /\ (In n names1 -> d_get n l = lookup w k n)) ->
    dicts P V (wrap_names w2 k l) /\ forall n, ~ special n -> match lookup w k n with
      | Some (AProp p) => own (wrap_names w2 k l) k n = Some (AProp (wrap_prop p)) \/ (own (wrap_names w2 k l) k n = own w k n /\ lookup w k (py "__get_properties__") = None)
      | _ => own (wrap_names w2 k l) k n = own w k n end).
  { intros w2 l Hk2 Hd2 Hnl Hl. split; [now apply dicts_names|]. intros n Hn. rewrite wrap_names_get by assumption. destruct (Hl n Hn) as (Ho & Hc & Hi). rewrite Ho.
    destruct (lookup w k n) as [[p|v|s|ll|p|kk|v]|] eqn:El; try (destruct Hc as [-> | ->]; reflexivity).
    destruct Hnames as [->|[-> Hgp]].
    - left. now rewrite (Hi (Hin n p El)).
    - destruct Hc as [-> | ->]; [right; auto|now left]. }
  destruct (has P V w1 k "__get_property_name__").
  - destruct (get_property_name P V w1 k) as [w2 r] eqn:E2. destruct r as [name|e]; [|intros [= _ ?]; discriminate]. destruct (lookup w2 k name) as [a|] eqn:Ea; [|intros [= _ ?]; discriminate]. intros [= <-].
    assert (Hw2 : w2 = w1 \/ exists v, w2 = set_attr w1 k (py "__property_name__") v).
    { revert E2. unfold get_property_name. destruct (lookup w1 k (py "__property_name__")) as [b|]; [destruct b; intros [= <- ?]; now left|]. destruct (filter _ _) as [|[x b] [|? ?]]; intros [= <- ?]; eauto. }
    assert (Hl2 : forall n, ~ special n -> lookup w2 k n = lookup w k n /\ own w2 k n = own w k n).
    { intros n Hn. destruct (Hl1 n Hn) as [A B]. destruct Hw2 as [->|(v & ->)]; [auto|]. assert (Hx : n <> py "__property_name__") by (intros E; apply Hn; right; now left). split.
      - rewrite <- A. unfold lookup. rewrite mro_set. apply find_attr_ext. intros b _. apply own_set_other. auto.
      - rewrite <- B. apply own_set_other. now right. }
    apply Hfin.
    + destruct Hw2 as [->|(v & ->)]; rewrite ?set_attr_length; exact Hk1.
    + destruct Hw2 as [->|(v & ->)]; [exact Hd1|now apply dicts_set].
    + apply d_set_nodup, get_all_nodup, Hnn.
    + intros n Hn. destruct (Hl2 n Hn) as [A B]. destruct (Hl1 n Hn) as [A1 B1]. split; [exact B|]. pose proof (d_get_merge n [(name, a)] (get_all P V w1 k names1)) as Hgm. cbn in Hgm. cbn. rewrite Hgm. clear Hgm. rewrite (get_all_get w1 k n names1 Hnn), A1.
      destruct (str_eqb n name) eqn:En; [apply str_eqb_eq in En; subst name; rewrite <- Ea, A; auto|]. destruct (mem_str n names1) eqn:Em1; split; auto. intros Hi. apply mem_str_In in Hi. congruence.
  - intros [= <-]. apply Hfin; auto; [now apply get_all_nodup|]. intros n Hn. destruct (Hl1 n Hn) as [A1 B1]. split; [exact B1|]. rewrite (get_all_get w1 k n names1 Hnn), A1. destruct (mem_str n names1) eqn:Em1; split; auto. intros Hi. apply mem_str_In in Hi. congruence.
Qed.
End Attrs.
