From Coq Require Import String.
From Verif Require Import Base BaseFacts Dict DictFacts PyClass PyClassFacts Kamino PropCache PropCacheSpec PropCacheFacts.
Open Scope list_scope.

(** ** C98 the list of a class's properties. Classes are numbered; a history is any sequence of calls, class definitions and properties linked to classes. *)
(** without a list on the class or an ancestor, or with refresh: exactly the properties defined and inherited, and the list is kept on the class, nothing else changes *)
Theorem C98_complete : forall P V w0 l, py_world P V w0 -> (forall c, own_attr P V w0 c (py "__properties__") = None) -> all_allowed P V w0 l ->
  let w := history P V w0 l in forall c r, (c < List.length w)%nat -> (r = true \/ forall a, In a (mro w c) -> own_attr P V w a (py "__properties__") = None) ->
  exists w' names, ask P V r w c = (w', names) /\ exactly P V w c names /\ own_attr P V w' c (py "__properties__") = Some (ANames names) /\
    List.length w' = List.length w /\ (forall d, mro w' d = mro w d) /\ forall d x, d <> c \/ x <> py "__properties__" -> own_attr P V w' d x = own_attr P V w d x.
Proof.
  intros P V w0 l H N A w c r L D. pose proof (history_sound P V l w0 (start_sound P V w0 H N) A) as S. fold w in S.
  destruct (ask_cases P V w c r S L) as [[names [-> [E _]]]|[_ [names [E ->]]]].
  - exfalso. destruct D as [D|D]; [discriminate D|]. unfold lookup in E. apply (KaminoAttrs.find_attr_some P V) in E. destruct E as [a [I O]]. specialize (D a I). unfold own_attr, KaminoAttrs.own in *. congruence.
  - exists (set_attr w c (py "__properties__") (ANames names)), names. split; [reflexivity|]. split; [exact E|]. split; [now apply own_same|]. split; [apply set_attr_length|]. split; [intros d; apply mro_set|]. intros d x X. now apply own_other.
Qed.
Print Assumptions C98_complete.
(** otherwise: the list of the nearest class in the MRO that has one, and nothing changes *)
Theorem C98_nearest : forall P V w0 l, py_world P V w0 -> (forall c, own_attr P V w0 c (py "__properties__") = None) -> all_allowed P V w0 l ->
  let w := history P V w0 l in forall c pre a post x, (c < List.length w)%nat -> mro w c = pre ++ a :: post -> (forall b, In b pre -> own_attr P V w b (py "__properties__") = None) ->
  own_attr P V w a (py "__properties__") = Some x -> exists names, x = ANames names /\ ask P V false w c = (w, names).
Proof.
  intros P V w0 l H N A w c pre a post x L M Z O. pose proof (history_sound P V l w0 (start_sound P V w0 H N) A) as S. fold w in S.
  assert (E : lookup w c (py "__properties__") = Some x).
  { unfold lookup. rewrite M. rewrite KaminoResolve.find_attr_app. replace (find_attr w pre (py "__properties__")) with (@None (attr P V)).
    - cbn [find_attr]. unfold own_attr in O. now rewrite O.
    - symmetry. apply (proj2 (KaminoAttrs.find_attr_none P V w pre _)). exact Z. }
  destruct (lookup_sound P V w c S L x E) as [names [-> _]]. exists names. split; [reflexivity|]. unfold ask. now rewrite E.
Qed.
Print Assumptions C98_nearest.
(** every name reported is a property of the class, whatever happened *)
Theorem C98_sound : forall P V w0 l, py_world P V w0 -> (forall c, own_attr P V w0 c (py "__properties__") = None) -> all_allowed P V w0 l ->
  let w := history P V w0 l in forall c r, (c < List.length w)%nat -> forall n, In n (snd (ask P V r w c)) -> is_property P V w c n.
Proof.
  intros P V w0 l H N A w c r L n I. pose proof (history_sound P V l w0 (start_sound P V w0 H N) A) as S. fold w in S.
  destruct (ask_cases P V w c r S L) as [[names [_ [E X]]]|[_ [names [E X]]]]; rewrite X in I; cbn [snd] in I.
  - destruct (lookup_sound P V w c S L _ E) as [l' [Z T]]. injection Z as <-. auto.
  - now apply E.
Qed.
Print Assumptions C98_sound.
(** once refreshed, a class reports exactly its properties, whatever happens later except linking a property to it or to an ancestor *)
Theorem C98_refreshed : forall P V w0 l c l', py_world P V w0 -> (forall d, own_attr P V w0 d (py "__properties__") = None) ->
  all_allowed P V w0 (l ++ Ask P V true c :: l') -> let w := history P V w0 (l ++ Ask P V true c :: l') in
  (forall d n p, In (LinkProp P V d n p) l' -> ~ In d (mro w c)) -> exists names, ask P V false w c = (w, names) /\ exactly P V w c names.
Proof.
  intros P V w0 l c l' H N A w K. pose proof (start_sound P V w0 H N) as S0.
  assert (A2 : all_allowed P V w0 l /\ allowed P V (history P V w0 l) (Ask P V true c) /\ all_allowed P V (fst (ask P V true (history P V w0 l) c)) l').
  { clear -A. revert w0 A. induction l as [|e l IH]; intros w0 A; cbn [app all_allowed] in A.
    - destruct A as [A B]. split; [exact I|]. split; [exact A|exact B].
    - destruct A as [A B]. destruct (IH _ B) as [X [Y Z]]. split; [split; [exact A|exact X]|]. split; [exact Y|exact Z]. }
  destruct A2 as [A1 [A2 A3]]. pose proof (history_sound P V l w0 S0 A1) as S1. pose proof (happen_sound P V _ (Ask P V true c) S1 A2) as S2. cbn [happen] in S2.
  set (w1 := fst (ask P V true (history P V w0 l) c)) in S2, A3. assert (W : w = history P V w1 l'). { unfold w, history. rewrite fold_left_app. reflexivity. }
  pose proof (ask_refreshes P V _ c S1 A2) as R. fold w1 in R.
  assert (M : mro w c = mro w1 c).
  { rewrite W. clear -S2 A3 R. assert (L : (c < List.length w1)%nat) by apply R. clear R. revert S2 A3 L. generalize w1. clear. induction l' as [|e l' IH]; intros w S A L; [reflexivity|]. destruct A as [A B].
    unfold history. cbn [fold_left]. pose proof (happen_len P V w e S A) as LE. transitivity (mro (happen P V w e) c); [apply IH; [now apply happen_sound|exact B|lia]|].
    destruct e as [r d|name bs attrs|d n p]; cbn [happen].
    - destruct (ask_cases P V w d r S A) as [[names [_ [_ ->]]]|[_ [names [_ ->]]]]; cbn [fst]; [reflexivity|apply mro_set].
    - unfold new_class. destruct (has_dup bs); [reflexivity|]. destruct (c3 _); [now apply mro_app|reflexivity].
    - apply mro_set. }
  rewrite M in K. pose proof (refreshed_history P V l' w1 c S2 A3 K R) as R2. rewrite <- W in R2. apply refreshed_ask; [|exact R2]. rewrite W. now apply history_sound.
Qed.
Print Assumptions C98_refreshed.
(** false of the code: that a class reports its own properties. A subclass of a class that has been asked reports that class's list: none of the properties it defines itself *)
Theorem C98_subclass_refuted : forall P V w0 l, py_world P V w0 -> (forall c, own_attr P V w0 c (py "__properties__") = None) -> all_allowed P V w0 l ->
  forall b r name attrs, let w := history P V w0 l in (b < List.length w)%nat -> NoDup (d_keys attrs) -> ~ In (py "__properties__") (d_keys attrs) ->
  let asked := fst (ask P V r w b) in let reported := snd (ask P V r w b) in
  exists w' k, new_class asked name [b] attrs = Ok (w', k) /\ ask P V false w' k = (w', reported) /\
    forall n p, d_get n attrs = Some (AProp p) -> ~ is_property P V asked b n -> is_property P V w' k n /\ ~ In n reported.
Proof.
  intros P V w0 l H N A b r name attrs w L D Z asked reported. pose proof (history_sound P V l w0 (start_sound P V w0 H N) A) as S. fold w in S.
  pose proof (happen_sound P V w (Ask P V r b) S L) as S2. cbn [happen] in S2. fold asked in S2.
  assert (E : lookup asked b (py "__properties__") = Some (ANames reported) /\ (b < List.length asked)%nat).
  { unfold asked, reported. destruct (ask_cases P V w b r S L) as [[names [_ [E ->]]]|[_ [names [E ->]]]]; cbn [fst snd]; [auto|]. split; [|now rewrite set_attr_length].
    destruct (py_wf P V w (proj1 S) b L) as [m [M _]]. rewrite (KaminoNames.lookup_own P V _ b m); [|now rewrite mro_set]. unfold KaminoAttrs.own. pose proof (own_same P V w b (py "__properties__") (ANames names) L) as O. unfold own_attr in O. now rewrite O. }
  destruct E as [E Lb]. destruct (subclass_list P V asked b name attrs reported S2 Lb D Z E) as [w' [k [E1 [E2 [E3 E4]]]]]. exists w', k. split; [exact E1|]. split; [exact E2|].
  intros n p G X. split; [exact (E3 n p G)|exact (E4 n X)].
Qed.
Print Assumptions C98_subclass_refuted.

(** classes 0 object, 1 (property a), 2 (property b), 3 (1, 2; property c) *)
Definition ex_cache : world N unit := history N unit (object_world []) [NewClass N unit (py "A") [0%nat] [(py "a", AProp 1%N)]; NewClass N unit (py "B") [0%nat] [(py "b", AProp 2%N)]; NewClass N unit (py "C") [1%nat; 2%nat] [(py "c", AProp 3%N)]].
Lemma ex_cache_ok : py_world N unit ex_cache /\ forall c, own_attr N unit ex_cache c (py "__properties__") = None.
Proof.
  assert (A : all_allowed N unit (object_world []) [NewClass N unit (py "A") [0%nat] [(py "a", AProp 1%N)]; NewClass N unit (py "B") [0%nat] [(py "b", AProp 2%N)]; NewClass N unit (py "C") [1%nat; 2%nat] [(py "c", AProp 3%N)]]).
  { cbn [all_allowed allowed]. repeat split; try discriminate; try (intros b I; cbn in I; repeat destruct I as [<- |I]; [..|destruct I]; cbn; repeat constructor); try (repeat constructor; cbn; tauto); cbn; intuition discriminate. }
  split.
  - apply (history_sound N unit _ (object_world [])); [|exact A]. apply start_sound; [apply pw_object; constructor|]. intros [|[|c]]; reflexivity.
  - intros [|[|[|[|[|c]]]]]; reflexivity.
Qed.
(** false of the code: that the answer does not depend on who was asked before. The same class answers a, b, c; or a; or first b, then a *)
Theorem C98_order_refuted : exists (P V : Type) w0 c, py_world P V w0 /\ (forall d, own_attr P V w0 d (py "__properties__") = None) /\ (c < List.length w0)%nat /\
  exactly P V w0 c (snd (ask P V false w0 c)) /\
  exists a b, let asked_b := fst (ask P V false w0 b) in let asked_b_a := fst (ask P V false asked_b a) in
    In a (mro w0 c) /\ In b (mro w0 c) /\ a <> c /\ b <> c /\
    snd (ask P V false w0 c) = [py "c"; py "a"; py "b"] /\ snd (ask P V false asked_b c) = [py "b"] /\ snd (ask P V false asked_b_a c) = [py "a"].
Proof.
  exists N, unit, ex_cache, 3%nat. destruct ex_cache_ok as [A B]. split; [exact A|]. split; [exact B|]. split; [vm_compute; repeat constructor|].
  split; [apply (names_exactly N unit ex_cache 3%nat A)|]. exists 1%nat, 2%nat. cbv zeta. split; [vm_compute; tauto|]. split; [vm_compute; tauto|]. split; [discriminate|]. split; [discriminate|]. repeat split; vm_compute; reflexivity.
Qed.
Print Assumptions C98_order_refuted.
(** a history meeting all hypotheses: a refresh, a class, a property linked elsewhere *)
Example C98_case : all_allowed N unit ex_cache [Ask N unit false 1%nat; Ask N unit true 3%nat; NewClass N unit (py "D") [3%nat] [(py "d", AProp 4%N)]; LinkProp N unit 4%nat (py "e") 5%N] /\
  let w := history N unit ex_cache [Ask N unit false 1%nat; Ask N unit true 3%nat; NewClass N unit (py "D") [3%nat] [(py "d", AProp 4%N)]; LinkProp N unit 4%nat (py "e") 5%N] in
  snd (ask N unit false w 3) = [py "c"; py "a"; py "b"] /\ snd (ask N unit false w 4) = [py "c"; py "a"; py "b"] /\ snd (ask N unit true w 4) = [py "d"; py "e"; py "c"; py "a"; py "b"].
Proof.
  split.
  - cbn [all_allowed allowed]. repeat split; try discriminate; try (vm_compute; repeat constructor; fail); try (intros b [<- |[]]; vm_compute; repeat constructor); try (repeat constructor; cbn; tauto); cbn; intuition discriminate.
  - repeat split; vm_compute; reflexivity.
Qed.
