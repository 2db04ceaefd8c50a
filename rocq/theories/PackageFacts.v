(** packages: namespaces, property links *)
From Coq Require Import String Permutation.
From Verif Require Import Base BaseFacts Dict DictFacts PyClass PyClassFacts Kamino KaminoOrder KaminoFacts KaminoMro KaminoAttrs KaminoExact KaminoResolve KaminoDone KaminoMarks KaminoNames Package.
Open Scope list_scope.

Section Facts.
Variables P V : Type.
Notation world := (world P V).
Notation attr := (attr P V).
Variable none_ref : V.
Variable show : nat -> attr -> pystr.
Notation own := (own P V).
Notation get_namespace := (get_namespace P V show).
Notation get_namespaces := (get_namespaces P V show).
Notation get_registration := (get_registration P V none_ref).
Notation link_property := (link_property P V none_ref).
Notation link_names := (link_names P V none_ref).
Notation link_mapping := (link_mapping P V none_ref).
Notation gp := (py "__get_properties__").
Notation gpn := (py "__get_property_name__").
Notation pn := (py "__property_name__").
Notation pp := (py "__properties__").
Notation rg := (py "__registration__").

(** ** evaluating namespaces *)
Definition quiet (w w' : world) : Prop := same_shape P V w w' /\ (forall c, c_name (get_cls w' c) = c_name (get_cls w c)) /\ (forall a n, n <> pn -> own w' a n = own w a n) /\
  (forall a, own w' a pn = own w a pn \/ (own w a pn = None /\ exists s, own w' a pn = Some (AStr s))).
Lemma quiet_refl w : quiet w w.
Proof. split; [apply same_refl|]. repeat split; auto. Qed.
Lemma quiet_trans w1 w2 w3 : quiet w1 w2 -> quiet w2 w3 -> quiet w1 w3.
Proof.
  intros (A & B & C & D) (A' & B' & C' & D'). split; [eapply same_trans; eauto|]. split; [intros c; now rewrite B', B|]. split; [intros a n Hn; now rewrite C', C|].
  intros a. destruct (D a) as [E|[E1 (s & E2)]], (D' a) as [E'|[E1' (s' & E2')]].
  - left. congruence.
  - right. split; [congruence|eauto].
  - right. split; [exact E1|]. exists s. congruence.
  - congruence.
Qed.
Lemma quiet_set w c s : (own w c pn = None) -> quiet w (set_attr w c pn (AStr s)).
Proof.
  intros H. split; [apply same_set|]. split; [intros d; apply set_attr_shape|]. split; [intros a n Hn; apply own_set_other; now right|].
  intros a. destruct (Nat.eq_dec a c) as [->|Hne]; [|left; apply own_set_other; now left]. destruct (Nat.lt_ge_cases c (List.length w)) as [Hc|Hc].
  - right. split; [exact H|]. exists s. now apply own_set_same.
  - left. now rewrite set_attr_out.
Qed.
Lemma get_property_name_cases (w : world) c : c < List.length w -> (exists m, mro w c = c :: m) ->
  (exists s, lookup w c pn = Some (AStr s) /\ get_property_name P V w c = (w, Ok s)) \/ (exists e, get_property_name P V w c = (w, Err e) /\ (e = TypeError \/ e = ValueError)) \/
  (exists s, own w c pn = None /\ get_property_name P V w c = (set_attr w c pn (AStr s), Ok s)).
Proof.
  intros Hc (m & Em). unfold get_property_name. destruct (lookup w c pn) as [a|] eqn:E.
  - destruct a; eauto 6.
  - destruct (filter _ _) as [|[n a] [|? ?]]; eauto 6. right. right. exists n. split; [|reflexivity]. unfold lookup in E. rewrite Em in E. apply (proj1 (find_attr_none P V w _ _) E). now left.
Qed.
Definition proper (w : world) : Prop := wf P V w /\ dicts P V w.
Lemma proper_mro w c : proper w -> c < List.length w -> exists m, mro w c = c :: m /\ NoDup (c :: m).
Proof. intros [Hw _] Hc. destruct (wf_mro P V w Hw c Hc) as (m & E & H & _). eauto. Qed.
Lemma proper_set w c n v : proper w -> proper (set_attr w c n v).
Proof. intros [H1 H2]. split; [eapply wf_same; [apply same_set|exact H1]|now apply dicts_set]. Qed.
Lemma get_namespace_quiet (w : world) c w' r : proper w -> c < List.length w -> get_namespace w c = (w', r) -> quiet w w' /\ proper w' /\ match r with Err e => e = TypeError \/ e = ValueError \/ e = AttributeError | Ok _ => True end.
Proof.
  intros Hp Hc. destruct (proper_mro w c Hp Hc) as (m & Em & _). unfold Package.get_namespace.
  assert (Hsame : forall r', (w, r') = (w', r) -> match r' with Err e => e = TypeError \/ e = ValueError \/ e = AttributeError | Ok _ => True end -> quiet w w' /\ proper w' /\ match r with Err e => e = TypeError \/ e = ValueError \/ e = AttributeError | Ok _ => True end).
  { intros r' E H. assert (w' = w) by congruence. assert (r' = r) by congruence. subst. split; [apply quiet_refl|]. split; assumption. }
  destruct (lookup w c (py "__get_namespace__")) as [a|]; [|intros E; apply (Hsame _ E); auto]. destruct a as [| | | | |k|]; try (intros E; apply (Hsame _ E); auto). destruct k as [|pre|pre].
  - intros E; apply (Hsame _ E); auto.
  - destruct (find_owner P V w (mro w c) (py "type")) as [[o v]|]; [destruct v|]; intros E; apply (Hsame _ E); auto.
  - destruct (lookup w c gpn); [|intros E; apply (Hsame _ E); auto].
    destruct (get_property_name_cases w c Hc (ex_intro _ m Em)) as [(s & _ & ->)|[(e & -> & He)|(s & Hs & ->)]].
    + intros E; apply (Hsame _ E); auto.
    + intros E; apply (Hsame _ E). tauto.
    + intros E. assert (w' = set_attr w c pn (AStr s)) by congruence. subst w'. split; [now apply quiet_set|]. split; [now apply proper_set|]. destruct r; [exact I|discriminate].
Qed.
Lemma get_namespaces_quiet cs : forall (w : world) w' r, proper w -> (forall c, In c cs -> c < List.length w) -> get_namespaces w cs = (w', r) ->
  quiet w w' /\ proper w' /\ match r with Err e => e = TypeError \/ e = ValueError \/ e = AttributeError | Ok l => List.length l = List.length cs end.
Proof.
  induction cs as [|c cs IH]; intros w w' r Hp Hlt; cbn [Package.get_namespaces].
  - intros E. assert (w' = w) by congruence. subst w'. assert (r = Ok []) by congruence. subst r. split; [apply quiet_refl|]. now split.
  - destruct (get_namespace w c) as [w1 r1] eqn:E1. destruct (get_namespace_quiet w c w1 r1 Hp (Hlt c (or_introl eq_refl)) E1) as (Q1 & P1 & R1).
    destruct r1 as [n|e]; [|intros E; assert (w' = w1) by congruence; assert (r = Err e) by congruence; subst; auto].
    destruct (get_namespaces w1 cs) as [w2 r2] eqn:E2. assert (Hlt1 : forall d, In d cs -> d < List.length w1) by (intros d Hd; rewrite (proj1 (proj1 Q1)); apply Hlt; now right).
    destruct (IH w1 w2 r2 P1 Hlt1 E2) as (Q2 & P2 & R2). intros E. assert (w' = w2) by (destruct r2; congruence). subst w'. split; [eapply quiet_trans; eauto|]. split; [exact P2|].
    destruct r2 as [l|e]; [assert (r = Ok (n :: l)) by congruence; subst r; cbn; now rewrite R2|assert (r = Err e) by congruence; subst r; exact R2].
Qed.
Lemma quiet_lookup w w' c n : quiet w w' -> n <> pn -> lookup w' c n = lookup w c n.
Proof. intros ((_ & Hm & _) & _ & H & _) Hn. unfold lookup. rewrite Hm. apply find_attr_ext. intros a _. now apply H. Qed.
Definition cached (w : world) (q : nat) : Prop := exists s, lookup w q pn = Some (AStr s).
Lemma quiet_cached w w' c : quiet w w' -> cached w c -> cached w' c.
Proof.
  intros ((_ & Hm & _) & _ & _ & H) (s & Hs). unfold cached, lookup in *. rewrite Hm. induction (mro w c) as [|a l IH]; [discriminate|]. cbn [find_attr] in *. specialize (H a). unfold KaminoAttrs.own in H.
  destruct H as [H|[_ (s' & H)]]; rewrite H; [|eauto]. destruct (d_get pn (c_attrs (get_cls w a))); eauto.
Qed.
Lemma quiet_properties w w' c n : dicts P V w -> dicts P V w' -> quiet w w' -> n <> pn -> (In n (property_names P V w' c) <-> In n (property_names P V w c)).
Proof.
  intros Hd Hd' ((_ & Hm & _) & _ & H & _) Hn. rewrite !property_names_in by assumption. rewrite Hm. split; intros (a & p & Ha & Ea); exists a, p; (split; [exact Ha|]); [rewrite <- H|rewrite H]; auto.
Qed.

(** ** linking *)
Definition reserved (n : pystr) : Prop := special n \/ n = rg \/ n = gpn.
(** what one successful link does *)
Lemma link_property_ok (w : world) q j w' : proper w -> q < List.length w -> cached w q -> link_property w q j = (w', Ok tt) ->
  exists s p w2, lookup w q pn = Some (AStr s) /\ (w2 = w \/ (lookup w q rg = None /\ lookup w q s = Some (AProp p) /\ w2 = set_attr w q rg (AReg p))) /\ lookup w2 q rg = Some (AReg p) /\ w' = set_attr w2 j s (AProp p).
Proof.
  intros Hp Hq (s & Hs). destruct (proper_mro w q Hp Hq) as (m & Em & _). unfold Package.link_property. intros E. destruct (lookup w q gpn) as [g|]; [|discriminate].
  unfold get_property_name at 1 in E. rewrite Hs in E. unfold Package.get_registration, get_property_name in E. rewrite Hs in E.
  destruct (lookup w q rg) as [rv|] eqn:Er.
  - destruct rv; try discriminate. exists s, p, w. split; [exact Hs|]. split; [now left|]. split; [exact Er|congruence].
  - destruct (lookup w q s) as [v|] eqn:Ev; [|discriminate]. destruct v; try discriminate. exists s, p, (set_attr w q rg (AReg p)). split; [exact Hs|]. split; [right; auto|].
    split; [|congruence]. rewrite (lookup_own P V _ q m) by (now rewrite mro_set). now rewrite own_set_same.
Qed.
Definition loud (w w' : world) : Prop := same_shape P V w w' /\ (forall c, c_name (get_cls w' c) = c_name (get_cls w c)).
Lemma loud_set w c n v : loud w (set_attr w c n v).
Proof. split; [apply same_set|intros d; apply set_attr_shape]. Qed.
Lemma loud_trans w1 w2 w3 : loud w1 w2 -> loud w2 w3 -> loud w1 w3.
Proof. intros (A & B) (C & D). split; [eapply same_trans; eauto|intros c; now rewrite D, B]. Qed.
Lemma loud_refl w : loud w w. Proof. split; [apply same_refl|auto]. Qed.
Fixpoint link_seq (w : world) (L : list (nat * nat)) : world * res unit :=
  match L with [] => (w, Ok tt) | (q, j) :: r => match link_property w q j with (w1, Err e) => (w1, Err e) | (w1, Ok _) => link_seq w1 r end end.
(** the classes the mapping's names stand for *)
Fixpoint resolve_names (d : nsdict) (names : list pystr) (j : nat) : option (list (nat * nat)) :=
  match names with [] => Some [] | n :: r => match ns_get (Some n) d, resolve_names d r j with Some q, Some l => Some ((q, j) :: l) | _, _ => None end end.
Fixpoint resolve (d : nsdict) (m : list (pystr * list pystr)) : option (list (nat * nat)) :=
  match m with
  | [] => Some []
  | (o, names) :: r => match ns_get (Some o) d with
                       | None => None
                       | Some j => match resolve_names d names j, resolve d r with Some a, Some b => Some (a ++ b) | _, _ => None end
                       end
  end.
Lemma link_seq_app a : forall w b, link_seq w (a ++ b) = match link_seq w a with (w1, Err e) => (w1, Err e) | (w1, Ok _) => link_seq w1 b end.
Proof. induction a as [|[q j] a IH]; intros w b; cbn; [reflexivity|]. destruct (link_property w q j) as [w1 [u|e]]; [apply IH|reflexivity]. Qed.
Lemma link_names_seq d names j : forall w, match resolve_names d names j with Some L => link_names w d names j = link_seq w L | None => True end.
Proof.
  induction names as [|n names IH]; intros w; cbn; [reflexivity|]. destruct (ns_get (Some n) d) as [q|]; [|exact I]. destruct (resolve_names d names j) as [L|]; [|exact I]. cbn.
  destruct (link_property w q j) as [w1 [u|e]]; [apply IH|reflexivity].
Qed.
Lemma link_names_none d names j : forall w, resolve_names d names j = None -> exists e, snd (link_names w d names j) = Err e.
Proof.
  induction names as [|n names IH]; intros w; cbn; [discriminate|]. destruct (ns_get (Some n) d) as [q|]; [|intros _; now exists ValueError]. destruct (resolve_names d names j) as [L|]; [discriminate|]. intros _.
  destruct (link_property w q j) as [w1 [u|e]]; [now apply IH|now exists e].
Qed.
Lemma link_mapping_seq d m : forall w, match resolve d m with Some L => link_mapping w d m = link_seq w L | None => exists e, snd (link_mapping w d m) = Err e end.
Proof.
  induction m as [|[o names] m IH]; intros w; cbn; [reflexivity|]. unfold link_properties. destruct (ns_get (Some o) d) as [j|]; [|now exists ValueError].
  pose proof (link_names_seq d names j w) as H1. pose proof (link_names_none d names j w) as H2. destruct (resolve_names d names j) as [A|].
  - rewrite H1. destruct (link_seq w A) as [w1 [u|e]] eqn:E.
    + specialize (IH w1). destruct (resolve d m) as [B|]; [|exact IH]. rewrite link_seq_app, E. exact IH.
    + destruct (resolve d m) as [B|]; [rewrite link_seq_app, E; reflexivity|now exists e].
  - destruct (H2 eq_refl) as (e & He). destruct (link_names w d names j) as [w1 [u|e']]; [discriminate|]. now exists e'.
Qed.
Lemma resolve_names_in d names j : forall L, resolve_names d names j = Some L -> forall q i, In (q, i) L <-> i = j /\ exists n, In n names /\ ns_get (Some n) d = Some q.
Proof.
  induction names as [|n names IH]; intros L; cbn; [intros [= <-] q i; split; [intros []|intros (_ & x & [] & _)]|].
  destruct (ns_get (Some n) d) as [q0|] eqn:E; [|discriminate]. destruct (resolve_names d names j) as [L'|]; [|discriminate]. intros [= <-] q i. split.
  - intros [H|H]; [injection H as <- <-; split; [reflexivity|]; exists n; auto|]. apply (IH L' eq_refl) in H as (Hi & x & Hx & Hq). split; [exact Hi|]. exists x. auto.
  - intros (-> & x & [<-|Hx] & Hq); [left; congruence|]. right. apply (IH L' eq_refl). eauto.
Qed.
Lemma resolve_in d m : forall L, resolve d m = Some L -> forall q j, In (q, j) L <-> exists o names n, In (o, names) m /\ In n names /\ ns_get (Some o) d = Some j /\ ns_get (Some n) d = Some q.
Proof.
  induction m as [|[o names] m IH]; intros L; cbn; [intros [= <-] q j; split; [intros []|intros (? & ? & ? & [] & _)]|].
  destruct (ns_get (Some o) d) as [j0|] eqn:E; [|discriminate]. destruct (resolve_names d names j0) as [A|] eqn:EA; [|discriminate]. destruct (resolve d m) as [B|]; [|discriminate]. intros [= <-] q j. rewrite in_app_iff, (IH B eq_refl), (resolve_names_in _ _ _ _ EA). split.
  - intros [(-> & n & Hn & Hq)|(o' & ns' & n & H1 & H2 & H3 & H4)]; [exists o, names, n; auto|exists o', ns', n; auto].
  - intros (o' & ns' & n & [H1|H1] & H2 & H3 & H4); [injection H1 as -> ->; left; split; [congruence|eauto]|right; eauto 8].
Qed.
Lemma resolve_some d m : resolve d m <> None <-> forall o names, In (o, names) m -> ns_get (Some o) d <> None /\ forall n, In n names -> ns_get (Some n) d <> None.
Proof.
  assert (Hn : forall names j, resolve_names d names j <> None <-> forall n, In n names -> ns_get (Some n) d <> None).
  { induction names as [|x names IH]; intros j; cbn; [split; [intros _ y []|discriminate]|]. destruct (ns_get (Some x) d) eqn:E.
    - specialize (IH j). destruct (resolve_names d names j); [split; [intros _ y [<-|Hy]; [congruence|now apply IH]|discriminate]|]. split; [congruence|]. intros H. exfalso. apply (proj2 IH); [auto|reflexivity].
    - split; [congruence|]. intros H. exfalso. apply (H x); auto. }
  induction m as [|[o names] m IH]; cbn; [split; [intros _ ? ? []|discriminate]|]. destruct (ns_get (Some o) d) as [j|] eqn:E.
  - specialize (Hn names j). destruct (resolve_names d names j) as [A|].
    + destruct (resolve d m) as [B|].
      * split; [intros _ o' ns' [H|H]; [injection H as <- <-; split; [congruence|apply Hn; discriminate]|now apply IH]|discriminate].
      * split; [congruence|]. intros H. exfalso. apply (proj2 IH); [intros; now apply H; auto|reflexivity].
    + split; [congruence|]. intros H. exfalso. apply (proj2 Hn); [apply (H o names); auto|reflexivity].
  - split; [congruence|]. intros H. exfalso. apply (H o names); auto.
Qed.

(** ** the effect of a sequence of links *)
Section Seq.
Variable D : nat -> Prop.          (* the classes that are linked *)
Definition all_cached (w : world) : Prop := forall q, D q -> q < List.length w /\ (lookup w q gpn <> None -> cached w q).
Definition name_of (w : world) (q : nat) (s : pystr) : Prop := lookup w q pn = Some (AStr s).
Lemma set_names (w : world) c x v q s : x <> pn -> (name_of (set_attr w c x v) q s <-> name_of w q s).
Proof. intros H. unfold name_of. now rewrite lookup_set_other by congruence. Qed.
Lemma link_property_some_gpn (w : world) q j w' u : link_property w q j = (w', Ok u) -> lookup w q gpn <> None.
Proof. unfold Package.link_property. destruct (lookup w q gpn); [discriminate|congruence]. Qed.
Lemma link_step (w : world) q j w' : proper w -> q < List.length w -> cached w q -> (forall s, name_of w q s -> ~ reserved s) -> link_property w q j = (w', Ok tt) ->
  exists s p, name_of w q s /\ loud w w' /\ proper w' /\ (forall i t, name_of w' i t <-> name_of w i t) /\
    (forall a n, n <> rg -> own w' a n = if (Nat.eqb a j && Nat.ltb a (List.length w) && str_eqb n s)%bool then Some (AProp p) else own w a n) /\
    (own w q rg = Some (AReg p) \/ (lookup w q rg = None /\ lookup w q s = Some (AProp p)) \/ (own w q rg = None /\ lookup w q rg = Some (AReg p))) /\
    (lookup w q rg = None -> own w' q rg = Some (AReg p)) /\ (forall a, a <> q -> own w' a rg = own w a rg) /\ (lookup w q rg <> None -> forall a, own w' a rg = own w a rg).
Proof.
  intros Hp Hq Hc Hres E. destruct (link_property_ok w q j w' Hp Hq Hc E) as (s & p & w2 & Hs & Hw2 & Hr & ->). exists s, p. assert (Hn : ~ reserved s) by now apply Hres.
  assert (Hsr : s <> rg) by (intros ->; apply Hn; right; now left). assert (Hsp : s <> pn) by (intros ->; apply Hn; left; right; now left).
  assert (Hl2 : loud w w2 /\ proper w2 /\ (forall i t, name_of w2 i t <-> name_of w i t) /\ (forall a n, n <> rg -> own w2 a n = own w a n)).
  { destruct Hw2 as [->|(_ & _ & ->)]; [split; [apply loud_refl|]; split; [exact Hp|]; split; [reflexivity|reflexivity]|]. split; [apply loud_set|]. split; [now apply proper_set|]. split; [intros; now apply set_names|]. intros a n Hnr. apply own_set_other. now right. }
  destruct Hl2 as (L2 & P2 & N2 & O2). split; [exact Hs|]. split; [eapply loud_trans; [exact L2|apply loud_set]|]. split; [now apply proper_set|]. split; [intros i t; rewrite set_names by congruence; apply N2|].
  assert (Hlen : List.length w2 = List.length w) by apply (proj1 L2).
  split. { intros a n Hnr. destruct (Nat.eqb a j) eqn:Ej; [apply Nat.eqb_eq in Ej; subst a|apply Nat.eqb_neq in Ej; rewrite own_set_other by (now left); now apply O2].
    destruct (Nat.ltb j (List.length w)) eqn:El; [apply Nat.ltb_lt in El|apply Nat.ltb_ge in El; rewrite set_attr_out by lia; now apply O2].
    destruct (str_eqb n s) eqn:En; [apply str_eqb_eq in En as ->; apply own_set_same; lia|apply str_eqb_neq in En; rewrite own_set_other by (now right); now apply O2]. }
  destruct (proper_mro w q Hp Hq) as (m & Em & _).
  split. { destruct Hw2 as [->|(A & B & C)]; [|right; left; auto]. rewrite (lookup_own P V w q m) in Hr by exact Em. destruct (own w q rg) as [v|] eqn:Eo; [left; congruence|]. right. right. split; [reflexivity|]. rewrite (lookup_own P V w q m), Eo by exact Em. exact Hr. }
  split. { intros Hnone. destruct Hw2 as [->|(A & B & ->)]; [congruence|]. rewrite own_set_other by (right; congruence). now apply own_set_same. }
  split. { intros a Ha. rewrite own_set_other by (right; congruence). destruct Hw2 as [->|(A & B & ->)]; [reflexivity|]. apply own_set_other. now left. }
  intros Hsome a. rewrite own_set_other by (right; congruence). destruct Hw2 as [->|(A & B & ->)]; [reflexivity|contradiction].
Qed.
Lemma classic_links (L : list (nat * nat)) (w : world) a s : (exists q, In (q, a) L /\ name_of w q s) \/ (forall q, In (q, a) L -> ~ name_of w q s).
Proof.
  assert (Hd : forall q, name_of w q s \/ ~ name_of w q s).
  { intros q. unfold name_of. destruct (lookup w q pn) as [v|]; [|right; congruence]. destruct v; try (right; congruence). destruct (str_dec s0 s); [left|right]; congruence. }
  induction L as [|[q j] L IH]; [right; intros q []|]. destruct IH as [(x & H1 & H2)|IH]; [left; exists x; split; [now right|exact H2]|]. destruct (Nat.eq_dec j a) as [->|Hne].
  - destruct (Hd q) as [H|H]; [left; exists q; split; [now left|exact H]|]. right. intros x [E|Hx]; [injection E as <-; exact H|now apply IH].
  - right. intros x [E|Hx]; [congruence|now apply IH].
Qed.
(** which property names the classes have afterwards *)
Lemma link_seq_own L : forall (w : world) w', proper w -> all_cached w -> (forall q j, In (q, j) L -> D q) -> (forall q s, D q -> name_of w q s -> ~ reserved s) -> link_seq w L = (w', Ok tt) ->
  loud w w' /\ proper w' /\ all_cached w' /\ (forall i t, name_of w' i t <-> name_of w i t) /\
  (forall a n, n <> rg -> a < List.length w ->
    ((forall q, In (q, a) L -> ~ name_of w q n) -> own w' a n = own w a n) /\
    ((exists q, In (q, a) L /\ name_of w q n) -> exists p, own w' a n = Some (AProp p))).
Proof.
  induction L as [|[q j] L IH]; intros w w' Hp Hac HL Hres; cbn [link_seq].
  - intros E. assert (w' = w) by congruence. subst. split; [apply loud_refl|]. split; [exact Hp|]. split; [exact Hac|]. split; [reflexivity|]. intros a n _ _. split; [reflexivity|intros (q & [] & _)].
  - destruct (link_property w q j) as [w1 [u|e]] eqn:E1; [|discriminate]. destruct u. pose proof (HL q j (or_introl eq_refl)) as HDq. destruct (Hac q HDq) as [Hql Hqc]. specialize (Hqc (link_property_some_gpn _ _ _ _ _ E1)).
    destruct (link_step w q j w1 Hp Hql Hqc (fun s => Hres q s HDq) E1) as (s & p & Hs & L1 & P1 & N1 & O1 & _). intros E2.
    assert (Hlen : List.length w1 = List.length w) by apply (proj1 L1).
    assert (Hsg : s <> gpn) by (intros ->; apply (Hres q gpn HDq Hs); right; now right).
    assert (Hgpn : forall i, lookup w1 i gpn = lookup w i gpn).
    { intros i. unfold lookup. rewrite (proj1 (proj2 (proj1 L1))). apply find_attr_ext. intros a _. rewrite O1 by discriminate. assert (str_eqb gpn s = false) as -> by (apply str_eqb_neq; congruence). now rewrite andb_false_r. }
    assert (Hac1 : all_cached w1) by (intros i Hi; rewrite Hgpn, Hlen; destruct (Hac i Hi) as [A B]; split; [exact A|]; intros C; destruct (B C) as (t & Ht); exists t; now apply N1).
    destruct (IH w1 w' P1 Hac1 (fun a b H => HL a b (or_intror H)) (fun a t Ha Ht => Hres a t Ha (proj1 (N1 a t) Ht)) E2) as (L2 & P2 & A2 & N2 & O2).
    split; [eapply loud_trans; eauto|]. split; [exact P2|]. split; [exact A2|]. split; [intros i t; rewrite N2; apply N1|]. intros a n Hnr Hal. rewrite Hlen in O2. destruct (O2 a n Hnr Hal) as [O3 O4]. rewrite O1 in O3 by exact Hnr. split.
    + intros H. rewrite O3 by (intros i Hi Hn; apply (H i (or_intror Hi)), N1, Hn). destruct (Nat.eqb a j) eqn:Ea; [|reflexivity]. apply Nat.eqb_eq in Ea. subst a. destruct (str_eqb n s) eqn:En; [|now rewrite andb_false_r].
      apply str_eqb_eq in En. subst n. exfalso. apply (H q (or_introl eq_refl) Hs).
    + intros (i & [Hi|Hi] & Hn); [|apply O4; exists i; split; [exact Hi|now apply N1]]. injection Hi as -> ->. assert (n = s) by (unfold name_of in *; congruence). subst n.
      (* either a later link has the same name or this one stays *)
      destruct (classic_links L w1 a s) as [Hl|Hl]; [apply O4, Hl|]. exists p. rewrite O3 by exact Hl. rewrite Nat.eqb_refl, str_eqb_refl. apply Nat.ltb_lt in Hal. now rewrite Hal.
Qed.
End Seq.
End Facts.
