(** C129: which property a JsonProperty subclass registers; C130: reading attributes of JsonProperty instances *)
From Coq Require Import String.
From Verif Require Import Base Dict DictFacts PropReg PropRegFacts PropRegDirect.
Open Scope nat_scope.
Open Scope list_scope.

(** Reading aid. Classes are numbers; [mro c] is the lookup order of the class [c]. [sole d n]: the name [n] is the only one that the class dict [d] binds to a property.
    Answers after a history [ops] that starts with the class bodies [own]: [snd (j_step mro (JName f c) (fst (j_run mro ops (unasked own))))], [f] being the argument [refresh]. *)

(** a class whose ancestors define no property: always its own property, or ValueError when it has none or several; whatever was asked before, of whatever class, in whatever order,
    and however other classes were changed *)
Theorem C129_direct : forall A mro (own : nat -> dict (entry A)) c rest n a ops f, direct mro own c rest -> sole (own c) n -> d_get n (own c) = Some (EProp a) ->
  (forall o d, In o ops -> In d (mro c) -> ~ changes o d) -> let w := fst (j_run mro ops (unasked own)) in
  snd (j_step mro (JName f c) w) = OName (Ok n) /\ snd (j_step mro (JReg f c) w) = OReg (Ok (Some a)) /\ snd (j_step mro (JLink c) w) = OLink (Ok (n, a)) /\ snd (j_step mro (JNew c) w) = ONew (Ok (n, Some a)).
Proof. intros A mro own c rest n a ops f D S G H. exact (@C129_direct_lemma A mro own c rest D (Some (n, a)) (conj S G) ops H f). Qed.
Print Assumptions C129_direct.
Theorem C129_direct_none : forall A mro (own : nat -> dict (entry A)) c rest ops f, direct mro own c rest -> (forall n, ~ sole (own c) n) ->
  (forall o d, In o ops -> In d (mro c) -> ~ changes o d) -> let w := fst (j_run mro ops (unasked own)) in
  snd (j_step mro (JName f c) w) = OName (Err ValueError) /\ snd (j_step mro (JReg f c) w) = OReg (Err ValueError) /\ snd (j_step mro (JLink c) w) = OLink (Err ValueError) /\
  snd (j_step mro (JNew c) w) = ONew (Err ValueError).
Proof. intros A mro own c rest ops f D S H. exact (@C129_direct_lemma A mro own c rest D None S ops H f). Qed.
Print Assumptions C129_direct_none.
(** with refresh: what the class's own dict says now; inherited properties do not count *)
Theorem C129_refresh : forall A mro (w : jworld A) c, NoDup (d_keys (j_own w c)) ->
  (forall n, snd (ask_name mro true c w) = Ok n <-> sole (j_own w c) n) /\ ((forall n, ~ sole (j_own w c) n) -> ask_name mro true c w = (w, Err ValueError)).
Proof. exact C129_refresh_lemma. Qed.
Print Assumptions C129_refresh.
Theorem C129_refresh_registration : forall A mro (w : jworld A) c, (exists l, mro c = c :: l) -> NoDup (d_keys (j_own w c)) ->
  (forall n a, sole (j_own w c) n -> d_get n (j_own w c) = Some (EProp a) -> snd (ask_reg mro true c w) = Ok (Some a)) /\ ((forall n, ~ sole (j_own w c) n) -> ask_reg mro true c w = (w, Err ValueError)).
Proof. exact @C129_refresh_reg_lemma. Qed.
Print Assumptions C129_refresh_registration.
(** when the name is cached but no registration is: what attribute lookup finds under that name; a non-property raises AttributeError if it is true, and counts as no registration if it is false;
    linking without registration raises TypeError *)
Theorem C129_registration : forall A mro (w : jworld A) c n, nearest (j_name w) (mro c) = Some n -> (forall d, In d (mro c) -> j_reg w d = None) ->
  (forall a, found mro (j_own w) c n (EProp a) -> snd (j_step mro (JReg false c) w) = OReg (Ok (Some a)) /\ snd (j_step mro (JLink c) w) = OLink (Ok (n, a)) /\ snd (j_step mro (JNew c) w) = ONew (Ok (n, Some a))) /\
  (found mro (j_own w) c n (EOther true) -> snd (j_step mro (JReg false c) w) = OReg (Err AttributeError) /\ snd (j_step mro (JLink c) w) = OLink (Err AttributeError) /\ snd (j_step mro (JNew c) w) = ONew (Err AttributeError)) /\
  (found mro (j_own w) c n (EOther false) \/ (forall d, In d (mro c) -> d_get n (j_own w d) = None) ->
     snd (j_step mro (JReg false c) w) = OReg (Ok None) /\ snd (j_step mro (JLink c) w) = OLink (Err TypeError) /\ snd (j_step mro (JNew c) w) = ONew (Ok (n, None))).
Proof. exact @C129_registration_lemma. Qed.
Print Assumptions C129_registration.
(** as long as neither a class nor any it inherits from was asked, asking without refresh is asking with refresh *)
Theorem C129_first_time : forall A mro (own : nat -> dict (entry A)) ops c, (forall o d, In o ops -> In d (mro c) -> ~ asks o d) ->
  let w := fst (j_run mro ops (unasked own)) in ask_name mro false c w = ask_name mro true c w.
Proof. exact C129_unasked_lemma. Qed.
Print Assumptions C129_first_time.
(** every answer, in every hierarchy and history, was true once: the name of the only property of a class that [c] is or inherits from; the registration: what reading such a name gave *)
Theorem C129_source : forall A mro, (forall c, exists l, mro c = c :: l) -> forall (own : nat -> dict (entry A)) ops f c, (forall d, NoDup (d_keys (own d))) ->
  let w := fst (j_run mro ops (unasked own)) in
  (forall n, snd (ask_name mro f c w) = Ok n -> was_sole mro (seen mro own ops) c n) /\ (forall a, snd (ask_reg mro f c w) = Ok (Some a) -> was_read mro (seen mro own ops) c a).
Proof. exact C129_source_lemma. Qed.
Print Assumptions C129_source.
(** single inheritance: once answered, always answered the same, until a refresh, whatever happens to the classes *)
Theorem C129_stable : forall A mro c (w : jworld A) ops, chain mro c -> In c (mro c) -> (forall o d, In o ops -> refreshes o d -> ~ In d (mro c)) ->
  (forall f n, snd (ask_name mro f c w) = Ok n -> snd (ask_name mro false c (fst (j_run mro ops (fst (ask_name mro f c w))))) = Ok n) /\
  (forall f r, snd (ask_reg mro f c w) = Ok r -> snd (ask_reg mro false c (fst (j_run mro ops (fst (ask_reg mro f c w))))) = Ok r).
Proof. exact C129_stable_lemma. Qed.
Print Assumptions C129_stable.
(** an ancestor that was asked answers for its descendants, even for one with a property of its own *)
Theorem C129_ancestor_answers : forall A mro (own : nat -> dict (entry A)) ops ops' c d f n pre, mro c = pre ++ mro d -> chain mro d -> In d (mro d) ->
  (forall o e, In o (ops ++ ops') -> In e pre -> ~ asks o e) -> ~ In d pre -> (forall o e, In o ops' -> refreshes o e -> ~ In e (mro d)) ->
  snd (ask_name mro f d (fst (j_run mro ops (unasked own)))) = Ok n -> snd (ask_name mro false c (fst (j_run mro (ops ++ JName f d :: ops') (unasked own)))) = Ok n.
Proof. exact C129_ancestor_lemma. Qed.
Print Assumptions C129_ancestor_answers.

(** classes 0: JsonProperty; 1: a property "p" (accessors 10); 2: inherits from 1, with its own property "q" (20); 3: inherits from 1, overrides "p" (30); 4: a mixin with "m" (40); 5: inherits from 1 and 4 *)
Definition ex_mro (c : nat) : list nat := match c with 1 => [1; 0] | 2 => [2; 1; 0] | 3 => [3; 1; 0] | 4 => [4; 0] | 5 => [5; 1; 4; 0] | _ => [c] end.
Definition ex_own (c : nat) : dict (entry nat) :=
  match c with 1 => [(py "n", EOther true); (py "p", EProp 10)] | 2 => [(py "q", EProp 20)] | 3 => [(py "p", EProp 30)] | 4 => [(py "m", EProp 40)] | _ => [] end.
Definition outs (ops : list (jop nat)) := snd (j_run ex_mro ops (unasked ex_own)).
(** what a class registers depends on which classes were asked before *)
Theorem C129_own_property_wins_refuted : exists ops, sole (ex_own 2) (py "q") /\ outs [JLink 2] = [OLink (Ok (py "q", 20))] /\ outs (ops ++ [JLink 2]) = map (fun _ => OName (Ok (py "p"))) ops ++ [OLink (Ok (py "p", 10))].
Proof.
  exists [JName false 1]. split; [|split; reflexivity]. split; [now exists 20|]. intros m b. unfold ex_own. cbn [d_get]. destruct (str_eqb m (py "q")) eqn:E; [|intros H; discriminate H]. intros _. now apply BaseFacts.str_eqb_eq.
Qed.
Print Assumptions C129_own_property_wins_refuted.
(** the name and the registration need not belong together: the property of class 1 is linked under the name of the one of class 2 *)
Theorem C129_name_matches_registration_refuted : exists ops, snd (j_step ex_mro (JLink 2) (fst (j_run ex_mro ops (unasked ex_own)))) = OLink (Ok (py "q", 10)).
Proof. exists [JReg false 1; JName true 2]. reflexivity. Qed.
Print Assumptions C129_name_matches_registration_refuted.
(** an overriding property is registered only if it is asked for before the one it overrides *)
Theorem C129_override_refuted : outs [JLink 3; JLink 1] = [OLink (Ok (py "p", 30)); OLink (Ok (py "p", 10))] /\ outs [JLink 1; JLink 3] = [OLink (Ok (py "p", 10)); OLink (Ok (py "p", 10))].
Proof. split; reflexivity. Qed.
Print Assumptions C129_override_refuted.
(** with two bases even an answered name can change without a refresh *)
Theorem C129_stable_two_bases_refuted : outs [JName false 4; JName false 5; JName false 1; JName false 5] = [OName (Ok (py "m")); OName (Ok (py "m")); OName (Ok (py "p")); OName (Ok (py "p"))].
Proof. reflexivity. Qed.
Print Assumptions C129_stable_two_bases_refuted.
Example C129_registration_case : outs [JName false 1; JSet 1 (py "p") (EOther true); JReg false 1; JSet 1 (py "p") (EOther false); JLink 1; JReg false 1] =
    [OName (Ok (py "p")); ONone (Ok tt); OReg (Err AttributeError); ONone (Ok tt); OLink (Err TypeError); OReg (Ok None)] /\
  outs [JName false 1; JDel 1 (py "p"); JNew 1; JDel 1 (py "p")] = [OName (Ok (py "p")); ONone (Ok tt); ONew (Ok (py "p", None)); ONone (Err AttributeError)] /\
  outs [JName false 1; JReg false 3] = [OName (Ok (py "p")); OReg (Ok (Some 30))].
Proof. repeat split. Qed.
Example C129_case : direct ex_mro ex_own 1 [0] /\ chain ex_mro 3 /\
  outs [JName false 0; JLink 1; JSet 2 (py "p") (EProp 99); JReg true 2; JNew 1; JDel 1 (py "p"); JLink 1; JName true 1] =
    [OName (Err ValueError); OLink (Ok (py "p", 10)); ONone (Ok tt); OReg (Err ValueError); ONew (Ok (py "p", Some 10)); ONone (Ok tt); OLink (Ok (py "p", 10)); OName (Err ValueError)].
Proof.
  split; [split|split; [|reflexivity]].
  - reflexivity.
  - intros [H|[]]. discriminate.
  - intros d [<-|[]] e [<-|[]]. now left.
  - intros d [<-|[<-|[]]]; repeat (constructor; [cbn; intuition discriminate|]); constructor.
  - intros d [<-|[]] m b. discriminate.
  - split; [repeat (constructor; [cbn; intuition discriminate|]); constructor|]. split.
    + intros d [<-|[<-|[<-|[]]]]; [now exists []|now exists [3]|now exists [3; 1]].
    + intros d [<-|[<-|[<-|[]]]]; eexists; reflexivity.
Qed.

(** ** C130. [ordinary a]: what the lookup of the attribute [a] gives before [__getattr__] is called; [own]: the instance's own attributes *)
(** an absent attribute raises ValueError: no read ever raises AttributeError *)
Theorem C130_never_attribute_error : forall X (ordinary : pystr -> res X) own a, inst_getattr ordinary own a <> Err AttributeError.
Proof. intros X ordinary own a. unfold inst_getattr. destruct (ordinary a) as [x|[]]; try discriminate. destruct (d_get a own); discriminate. Qed.
Print Assumptions C130_never_attribute_error.
Theorem C130_absent : forall X (ordinary : pystr -> res X) own a, (inst_getattr ordinary own a = Err ValueError <-> (ordinary a = Err ValueError \/ (ordinary a = Err AttributeError /\ d_get a own = None))).
Proof.
  intros X ordinary own a. unfold inst_getattr. destruct (ordinary a) as [x|[]]; try (split; [discriminate|intros [H|[H _]]; discriminate]).
  all: destruct (d_get a own) as [y|]; (split; [intros H; first [discriminate H|now left|right; split; reflexivity]|intros [H|[H H']]; first [discriminate H|discriminate H'|reflexivity]]).
Qed.
Print Assumptions C130_absent.
(** so hasattr never returns False, and the default of getattr is never used: both raise instead. copy.copy, copy.deepcopy and unpickling ask an instance for such optional attributes. *)
Theorem C130_hasattr_never_false : forall X (ordinary : pystr -> res X) own a, inst_hasattr ordinary own a <> Ok false.
Proof. intros X ordinary own a. unfold inst_hasattr. pose proof (C130_never_attribute_error X ordinary own a) as H. destruct (inst_getattr ordinary own a) as [x|[]]; discriminate || (now elim H). Qed.
Print Assumptions C130_hasattr_never_false.
Theorem C130_default_never_used : forall X (ordinary : pystr -> res X) own a default, inst_getattr_default ordinary own a default = inst_getattr ordinary own a.
Proof. intros X ordinary own a d. unfold inst_getattr_default. pose proof (C130_never_attribute_error X ordinary own a) as H. destruct (inst_getattr ordinary own a) as [x|[]]; try reflexivity. now elim H. Qed.
Print Assumptions C130_default_never_used.
(** present attributes are read as usual; a property that raises AttributeError is taken from the instance's own attributes if they have its name *)
Theorem C130_present : forall X (ordinary : pystr -> res X) own a x, inst_getattr ordinary own a = Ok x <-> (ordinary a = Ok x \/ (ordinary a = Err AttributeError /\ d_get a own = Some x)).
Proof.
  intros X ordinary own a x. unfold inst_getattr. destruct (ordinary a) as [y|[]]; try (split; [discriminate|intros [H|[H _]]; discriminate]).
  - split; [now left|]. intros [H|[H _]]; [exact H|discriminate].
  - destruct (d_get a own) as [y|]; split; try discriminate; try (intros [H|[_ H]]; [discriminate|congruence]). intros [= ->]. now right.
Qed.
Print Assumptions C130_present.
Example C130_case : let ordinary := fun a => if str_eqb a (py "__property_name__") then Ok 1 else if str_eqb a (py "p") then Err TypeError else Err AttributeError in
  let own := [(py "__property_name__", 1); (py "q", 2)] in
  map (inst_getattr ordinary own) [py "__property_name__"; py "p"; py "q"; py "__deepcopy__"] = [Ok 1; Err TypeError; Ok 2; Err ValueError] /\
  map (inst_hasattr ordinary own) [py "q"; py "__deepcopy__"] = [Ok true; Err ValueError] /\ inst_getattr_default ordinary own (py "__context__") 7 = Err ValueError.
Proof. vm_compute. auto. Qed.
