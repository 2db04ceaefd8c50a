(** Registrations of classes that inherit no property, and where every answer comes from (PropReg.v) *)
From Coq Require Import String.
From Verif Require Import Base Dict DictFacts PropReg PropRegFacts.
Open Scope list_scope.
Set Implicit Arguments.

(** the ancestors of [c], none of which defines a property: JsonProperty, NamespacedObject, object, plain mixins *)
Record direct {A} (mro : nat -> list nat) (own : nat -> dict (entry A)) (c : nat) (rest : list nat) : Prop := {
  d_mro : mro c = c :: rest;
  d_new : ~ In c rest;
  d_above : forall d, In d rest -> forall e, In e (mro d) -> In e rest;
  d_nodup : forall d, In d (mro c) -> NoDup (d_keys (own d));
  d_bare : forall d, In d rest -> forall m b, d_get m (own d) <> Some (EProp b) }.

Section Direct.
Variables (A : Type) (mro : nat -> list nat) (own : nat -> dict (entry A)) (c : nat) (rest : list nat).
Hypothesis (D : direct mro own c rest).
Notation ask_name := (@ask_name A mro).
Notation ask_reg := (@ask_reg A mro).
Notation j_step := (@j_step A mro).
Notation j_run := (@j_run A mro).
Variables (name : option (pystr * A)).
(** the class's only property, if it has exactly one *)
Hypothesis (Hname : match name with Some (n, a) => sole (own c) n /\ d_get n (own c) = Some (EProp a) | None => forall n, ~ sole (own c) n end).
Definition okw (w : jworld A) : Prop :=
  (forall d, In d (mro c) -> j_own w d = own d) /\ (forall d, In d rest -> j_name w d = None /\ j_reg w d = None) /\
  (j_name w c = None \/ exists n a, name = Some (n, a) /\ j_name w c = Some n) /\ (j_reg w c = None \/ exists n a, name = Some (n, a) /\ j_reg w c = Some (Some a)).
Lemma c_in : In c (mro c).
Proof. rewrite (d_mro D). now left. Qed.
Lemma rest_in d : In d rest -> In d (mro c).
Proof. rewrite (d_mro D). now right. Qed.
Lemma props_c : own_props (own c) = match name with Some (n, _) => [n] | None => own_props (own c) end /\
  (name = None -> forall n, own_props (own c) <> [n]).
Proof.
  pose proof (d_nodup D _ c_in) as Hn. destruct name as [[n a]|].
  - split; [|discriminate]. apply sole_props; [exact Hn|]. apply Hname.
  - split; [reflexivity|]. intros _ n E. apply (Hname n). now apply sole_props.
Qed.
Lemma props_rest d : In d rest -> own_props (own d) = [].
Proof.
  intros Hd. destruct (own_props (own d)) as [|m l] eqn:E; [reflexivity|]. exfalso.
  assert (In m (own_props (own d))) as Hm by (rewrite E; now left). apply in_own_props in Hm; [|apply (d_nodup D); now apply rest_in].
  destruct Hm as [b Hb]. exact (d_bare D _ Hd _ Hb).
Qed.
Lemma near {X} (f : nat -> option X) : (forall d, In d rest -> f d = None) -> nearest f (mro c) = f c.
Proof. intros H. rewrite (d_mro D). cbn. replace (nearest f rest) with (@None X) by (symmetry; now apply nearest_none). now destruct (f c). Qed.
Definition answer {X : Type} (f : pystr -> A -> X) : res X := match name with Some (n, a) => Ok (f n a) | None => Err ValueError end.

Lemma okw_ext w w' : okw w -> (forall d, In d (mro c) -> j_own w' d = j_own w d /\ j_name w' d = j_name w d /\ j_reg w' d = j_reg w d) -> okw w'.
Proof.
  intros (H1 & H2 & H3 & H4) H. repeat split.
  - intros d Hd. destruct (H d Hd) as (-> & _). now apply H1.
  - intros. destruct (H d) as (_ & -> & _); [now apply rest_in|]. now apply H2.
  - intros. destruct (H d) as (_ & _ & ->); [now apply rest_in|]. now apply H2.
  - destruct (H c c_in) as (_ & -> & _). exact H3.
  - destruct (H c c_in) as (_ & _ & ->). exact H4.
Qed.
Lemma name_true w : okw w -> okw (fst (ask_name true c w)) /\ snd (ask_name true c w) = answer (fun n _ => n) /\
  (name <> None -> j_name (fst (ask_name true c w)) c <> None) /\ j_reg (fst (ask_name true c w)) = j_reg w.
Proof.
  intros Hw. pose proof Hw as (H1 & H2 & H3 & H4). unfold PropReg.ask_name, answer. rewrite (H1 c c_in). destruct props_c as [Ep En]. destruct name as [[n a]|] eqn:Enm.
  - rewrite Ep. cbn [fst snd j_name j_reg]. repeat split; try (intros d Hd).
    + now apply H1.
    + cbn. rewrite upd_other; [now apply H2|]. intros ->. now apply (d_new D).
    + now apply H2.
    + right. exists n, a. split; [exact Enm|]. cbn. now rewrite upd_same.
    + rewrite Enm. exact H4.
    + rewrite upd_same in Hd. discriminate.
  - destruct (own_props (own c)) as [|x [|y l]]; [|now destruct (En eq_refl x)|]; cbn [fst snd]; (split; [exact Hw|]; split; [reflexivity|]; split; [now intros []|reflexivity]).
Qed.
Lemma name_any f w : okw w -> okw (fst (ask_name f c w)) /\ snd (ask_name f c w) = answer (fun n _ => n).
Proof.
  intros Hw. destruct f; [now destruct (name_true Hw) as (? & ? & _)|]. pose proof Hw as (H1 & H2 & H3 & H4).
  destruct H3 as [E|(n & a & En & E)].
  - replace (ask_name false c w) with (ask_name true c w); [now destruct (name_true Hw) as (? & ? & _)|].
    unfold PropReg.ask_name. rewrite near by (intros; now apply H2). now rewrite E.
  - rewrite (@ask_name_hit A mro c w n); [|rewrite near by (intros; now apply H2); exact E]. split; [exact Hw|]. unfold answer. now rewrite En.
Qed.
Lemma reg_any f w : okw w -> okw (fst (ask_reg f c w)) /\ snd (ask_reg f c w) = answer (fun _ a => Some a).
Proof.
  intros Hw. unfold PropReg.ask_reg.
  assert (exists w1, (if f then ask_name true c w else match nearest (j_name w) (mro c) with Some n => (w, Ok n) | None => ask_name true c w end) = (w1, answer (fun n _ => n)) /\
    okw w1 /\ (name <> None -> j_name w1 c <> None)) as (w1 & -> & Hw1 & Hc).
  { destruct (name_true Hw) as (Ha & Hb & Hc & _). destruct (ask_name true c w) as [w1 r] eqn:E; cbn [fst snd] in *. subst r. destruct f; [exists w1; auto|].
    pose proof Hw as (H1 & H2 & H3 & _). rewrite near by (intros; now apply H2). destruct H3 as [E3|(n & a & En & E3)]; rewrite E3; [exists w1; auto|].
    exists w. split; [unfold answer; now rewrite En|]. split; [exact Hw|]. intros _. rewrite E3. discriminate. }
  pose proof Hw1 as (H1 & H2 & H3 & H4). unfold answer in *. destruct name as [[n a]|] eqn:En; [|now split].
  assert (j_name w1 c = Some n) as Hn.
  { destruct H3 as [E|(n' & a' & E1 & E2)]; [now destruct (Hc ltac:(discriminate))|]. injection E1 as <- <-. exact E2. }
  assert (nearest (j_reg w1) (mro c) = j_reg w1 c) as Er by (apply near; intros; now apply H2).
  assert (nearest (fun d => d_get n (j_own w1 d)) (mro c) = Some (EProp a)) as Ee.
  { rewrite (d_mro D). cbn [nearest]. rewrite (H1 c c_in). now rewrite (proj2 Hname). }
  rewrite (near (j_name w1)) by (intros; now apply H2). rewrite Hn, Ee.
  assert (okw (mkJ (j_own w1) (j_name w1) (upd (j_reg w1) c (Some (Some a))))) as Hk.
  { repeat split; cbn [j_own j_name j_reg]; auto.
    - intros. now apply H2.
    - rewrite upd_other; [now apply H2|]. intros ->. now apply (d_new D).
    - rewrite En. exact H3.
    - right. exists n, a. split; [exact En|]. now rewrite upd_same. }
  destruct f; [now split|]. rewrite Er. destruct H4 as [E4|(n' & a' & E1 & E4)]; rewrite E4; [now split|]. injection E1 as <- <-. now split.
Qed.
Lemma link_any w : okw w -> okw (fst (ask_link mro c w)) /\ snd (ask_link mro c w) = answer (fun n a => (n, a)).
Proof.
  intros Hw. unfold ask_link. destruct (name_any false Hw) as [Hw1 E1]. destruct (ask_name false c w) as [w1 r1]; cbn [fst snd] in *. subst r1.
  destruct (reg_any false Hw1) as [Hw2 E2]. destruct (ask_reg false c w1) as [w2 r2]; cbn [fst snd] in *. subst r2.
  unfold answer in *. destruct name as [[n a]|]; now split.
Qed.

(** asking any other class, or changing one that [c] does not inherit from *)
Lemma rest_fails d w : okw w -> In d rest -> forall f, ask_name f d w = (w, Err ValueError) /\ ask_reg f d w = (w, Err ValueError).
Proof.
  intros (H1 & H2 & _) Hd f. assert (ask_name true d w = (w, Err ValueError)) as Ht.
  { unfold PropReg.ask_name. now rewrite (H1 d (rest_in _ Hd)), (props_rest _ Hd). }
  assert (nearest (j_name w) (mro d) = None) as Hn by (apply nearest_none; intros e He; apply H2; eapply (d_above D); eauto).
  assert (ask_name false d w = (w, Err ValueError)) as Hf.
  { unfold PropReg.ask_name in *. now rewrite Hn. }
  split; [destruct f; assumption|]. unfold PropReg.ask_reg. rewrite Ht, Hn. destruct f; reflexivity.
Qed.
Lemma okw_step o w : okw w -> (forall d, In d (mro c) -> ~ changes o d) -> okw (fst (j_step o w)).
Proof.
  intros Hw Hch.
  assert (forall d, asks o d -> In d rest \/ d = c \/ ~ In d (mro c)) as Hcase.
  { intros d _. destruct (in_dec Nat.eq_dec d (mro c)) as [Hi|Hi]; [|auto]. rewrite (d_mro D) in Hi. destruct Hi; auto. }
  assert (forall d, In d (mro c) -> j_own (fst (j_step o w)) d = j_own w d) as Hown.
  { intros d Hd. destruct o as [f e|f e|e|e|e n x|e n]; cbn [PropReg.j_step].
    - pose proof (ask_name_own mro f e w) as [E _]. destruct (ask_name f e w); cbn in *. now rewrite E.
    - pose proof (ask_reg_own mro f e w) as E. destruct (ask_reg f e w); cbn in *. now rewrite E.
    - unfold ask_link. pose proof (ask_name_own mro false e w) as [E _]. destruct (ask_name false e w) as [w1 [n|x]]; cbn in *; [|now rewrite E].
      pose proof (ask_reg_own mro false e w1) as E1. destruct (ask_reg false e w1) as [w2 [[a|]|x]]; cbn in *; now rewrite E1, E.
    - pose proof (ask_name_own mro false e w) as [E _]. destruct (ask_name false e w) as [w1 [n|x]]; cbn in *; [|now rewrite E].
      pose proof (ask_reg_own mro false e w1) as E1. destruct (ask_reg false e w1) as [w2 r]; cbn in *; now rewrite E1, E.
    - cbn [fst j_own]. apply upd_other. intros ->. now apply (Hch e).
    - destruct (d_mem n (j_own w e)); [|reflexivity]. cbn [fst j_own]. apply upd_other. intros ->. now apply (Hch e). }
  assert ((exists e, asks o e /\ In e (mro c)) \/ (forall e, In e (mro c) -> ~ asks o e)) as [(e & Ha & He)|Hno].
  { assert (forall e, asks o e \/ ~ asks o e) as Hdec by (intros e; destruct o; cbn; try (destruct (Nat.eq_dec c0 e); auto); auto).
    assert (forall l, (exists e, asks o e /\ In e l) \/ (forall e, In e l -> ~ asks o e)) as HH.
    { induction l as [|x l [ (e & ? & ?)|IH]]; [right; contradiction|left; exists e; cbn; auto|]. destruct (Hdec x); [left; exists x; cbn; auto|]. right. intros e [<-|He]; auto. }
    apply HH. }
  - rewrite (d_mro D) in He. destruct He as [<-|He].
    + destruct o as [f e|f e|e|e|e n x|e n]; cbn [asks] in Ha; try contradiction; subst e; cbn [PropReg.j_step].
      * destruct (name_any f Hw) as [H _]. now destruct (ask_name f c w).
      * destruct (reg_any f Hw) as [H _]. now destruct (ask_reg f c w).
      * destruct (link_any Hw) as [H _]. now destruct (ask_link mro c w).
      * destruct (name_any false Hw) as [Hw1 E1]. destruct (ask_name false c w) as [w1 [n|x]]; cbn [fst snd] in *; [|exact Hw1].
        destruct (reg_any false Hw1) as [Hw2 E2]. now destruct (ask_reg false c w1) as [w2 r2].
    + destruct o as [f d|f d|d|d|d n x|d n]; cbn [asks] in Ha; try contradiction; subst d; cbn [PropReg.j_step].
      * destruct (rest_fails _ Hw He f) as [-> _]. exact Hw.
      * destruct (rest_fails _ Hw He f) as [_ ->]. exact Hw.
      * unfold ask_link. destruct (rest_fails _ Hw He false) as [-> _]. exact Hw.
      * destruct (rest_fails _ Hw He false) as [-> _]. exact Hw.
  - apply (okw_ext _ Hw). intros d Hd. destruct (@step_at A mro o w d (Hno d Hd)) as [E1 E2]. split; [now apply Hown|now split].
Qed.
Lemma okw_run ops : forall w, okw w -> (forall o d, In o ops -> In d (mro c) -> ~ changes o d) -> okw (fst (j_run ops w)).
Proof.
  induction ops as [|o ops IH]; intros w Hw H; cbn [PropReg.j_run]; [exact Hw|].
  pose proof (@okw_step o w Hw (fun d => H o d (or_introl eq_refl))) as H1. destruct (j_step o w) as [w1 r]; cbn [fst] in *.
  specialize (IH w1 H1 (fun o' d Ho => H o' d (or_intror Ho))). now destruct (j_run ops w1).
Qed.
Lemma okw_unasked : okw (unasked own).
Proof. repeat split; auto. Qed.
Lemma C129_direct_lemma ops : (forall o d, In o ops -> In d (mro c) -> ~ changes o d) -> let w := fst (j_run ops (unasked own)) in
  forall f, snd (j_step (JName f c) w) = OName (answer (fun n _ => n)) /\ snd (j_step (JReg f c) w) = OReg (answer (fun _ a => Some a)) /\
    snd (j_step (JLink c) w) = OLink (answer (fun n a => (n, a))) /\ snd (j_step (JNew c) w) = ONew (answer (fun n a => (n, Some a))).
Proof.
  intros H w f. assert (okw w) as Hw by (apply okw_run; [apply okw_unasked|exact H]). cbn [PropReg.j_step].
  destruct (name_any f Hw) as [_ E1]. destruct (reg_any f Hw) as [_ E2]. destruct (link_any Hw) as [_ E3].
  destruct (name_any false Hw) as [Hw1 E4]. destruct (ask_name f c w), (ask_reg f c w), (ask_link mro c w); cbn [fst snd] in *. subst.
  split; [reflexivity|]. split; [reflexivity|]. split; [reflexivity|].
  destruct (ask_name false c w) as [w1 r1]; cbn [fst snd] in *. subst r1. destruct (reg_any false Hw1) as [_ E5]. destruct (ask_reg false c w1) as [w2 r2]; cbn [fst snd] in *. subst r2.
  unfold answer. now destruct name as [[n a]|].
Qed.
End Direct.

(** ** where every answer comes from *)
Section Source.
Variables (A : Type) (mro : nat -> list nat).
Hypothesis Hself : forall c, exists l, mro c = c :: l.
Notation ask_name := (@ask_name A mro).
Notation ask_reg := (@ask_reg A mro).
Notation j_step := (@j_step A mro).
Notation j_run := (@j_run A mro).
(** the class dicts at the start of the history or after some of its operations *)
Definition seen (own0 : nat -> dict (entry A)) (ops : list (jop A)) (own : nat -> dict (entry A)) : Prop :=
  exists h0 h1, ops = h0 ++ h1 /\ own = j_own (fst (j_run h0 (unasked own0))).
(** at some time, some class that [c] is or inherits from had [n] as its only property *)
Definition was_sole (P : (nat -> dict (entry A)) -> Prop) (c : nat) (n : pystr) : Prop := exists own d, P own /\ In d (mro c) /\ sole (own d) n.
(** at some time, reading such an [n] from such a class gave the property [a] *)
Definition was_read (P : (nat -> dict (entry A)) -> Prop) (c : nat) (a : A) : Prop :=
  exists own d n, P own /\ In d (mro c) /\ nearest (fun e => d_get n (own e)) (mro d) = Some (EProp a) /\ was_sole P d n.
Definition inv (P : (nat -> dict (entry A)) -> Prop) (w : jworld A) : Prop :=
  P (j_own w) /\ (forall d n, j_name w d = Some n -> exists own, P own /\ sole (own d) n) /\
  (forall d a, j_reg w d = Some (Some a) -> exists own n, P own /\ nearest (fun e => d_get n (own e)) (mro d) = Some (EProp a) /\ was_sole P d n).
Section P.
Variable P : (nat -> dict (entry A)) -> Prop.
Hypothesis Pn : forall own d, P own -> NoDup (d_keys (own d)).
Lemma inv_name f c w : inv P w -> inv P (fst (ask_name f c w)).
Proof.
  intros (H1 & H2 & H3). unfold PropReg.ask_name. destruct (if f then None else nearest (j_name w) (mro c)); [now repeat split|].
  destruct (own_props (j_own w c)) as [|x [|y l]] eqn:E; cbn [fst]; try (split; [exact H1|now split]).
  split; [exact H1|]. split; [|exact H3]. cbn [j_name]. intros d n. destruct (Nat.eq_dec d c) as [->|Hd].
  - rewrite upd_same. intros [= <-]. exists (j_own w). split; [exact H1|]. now apply sole_props; [apply Pn|].
  - rewrite upd_other by exact Hd. apply H2.
Qed.
Lemma inv_reg f c w : inv P w -> inv P (fst (ask_reg f c w)).
Proof.
  intros Hw. unfold PropReg.ask_reg.
  assert (forall w1 r, (if f then ask_name true c w else match nearest (j_name w) (mro c) with Some n => (w, Ok n) | None => ask_name true c w end) = (w1, r) -> inv P w1) as Hs.
  { intros w1 r E. pose proof (inv_name true c Hw) as H. destruct f; [now rewrite E in H|]. destruct (nearest (j_name w) (mro c)); [now injection E as <- _|now rewrite E in H]. }
  destruct (if f then ask_name true c w else _) as [w1 [n|x]]; pose proof (Hs _ _ eq_refl) as Hw1; cbn [fst]; [|exact Hw1].
  destruct (if f then None else nearest (j_reg w1) (mro c)); [exact Hw1|].
  destruct (nearest (j_name w1) (mro c)) as [m|] eqn:Em; [|exact Hw1].
  destruct Hw1 as (H1 & H2 & H3).
  assert (was_sole P c m) as Hm.
  { apply nearest_some in Em as (d & Hd & Ed). destruct (H2 _ _ Ed) as (own & Ho & Hso). exists own, d. auto. }
  destruct (nearest (fun e => d_get _ (j_own w1 e)) (mro c)) as [[a|[|]]|] eqn:Ea; cbn [fst]; try (split; [exact H1|]; split; [exact H2|]; cbn [j_reg]; try exact H3; intros d b);
    (destruct (Nat.eq_dec d c) as [->|Hd]; [rewrite upd_same; intros [= ?]|rewrite upd_other by exact Hd; apply H3]).
  subst b. exists (j_own w1), m. auto.
Qed.
Lemma inv_read c w f : inv P w -> (forall n, snd (ask_name f c w) = Ok n -> was_sole P c n) /\ (forall a, snd (ask_reg f c w) = Ok (Some a) -> was_read P c a).
Proof.
  intros Hw. split.
  - intros n E. apply (ask_name_cached mro) in E; [|apply Hself]. destruct (inv_name f c Hw) as (_ & H2 & _).
    apply nearest_some in E as (d & Hd & Ed). destruct (H2 _ _ Ed) as (own & Ho & Hso). exists own, d. auto.
  - intros a E. apply (ask_reg_cached mro) in E; [|apply Hself]. destruct E as [E _]. destruct (inv_reg f c Hw) as (_ & _ & H3).
    apply nearest_some in E as (d & Hd & Ed). destruct (H3 _ _ Ed) as (own & n & Ho & Hr & Hso). exists own, d, n. auto.
Qed.
End P.
Lemma seen_app own0 ops ops' own : seen own0 ops own -> seen own0 (ops ++ ops') own.
Proof. intros (h0 & h1 & -> & ->). exists h0, (h1 ++ ops'). now rewrite app_assoc. Qed.
Lemma inv_mono (P Q : (nat -> dict (entry A)) -> Prop) w : (forall own, P own -> Q own) -> Q (j_own w) -> inv P w -> inv Q w.
Proof.
  intros H Hq (H1 & H2 & H3). split; [exact Hq|]. split.
  - intros d n E. destruct (H2 _ _ E) as (own & ? & ?). eauto.
  - intros d a E. destruct (H3 _ _ E) as (own & n & ? & ? & (own' & d' & ? & ? & ?)). exists own, n. split; [auto|]. split; [auto|]. exists own', d'. auto.
Qed.
Lemma step_own o (w : jworld A) d : NoDup (d_keys (j_own w d)) -> NoDup (d_keys (j_own (fst (j_step o w)) d)).
Proof.
  intros H. destruct o as [f e|f e|e|e|e n x|e n]; cbn [PropReg.j_step].
  - pose proof (ask_name_own mro f e w) as [E _]. destruct (ask_name f e w); cbn in *. now rewrite E.
  - pose proof (ask_reg_own mro f e w) as E. destruct (ask_reg f e w); cbn in *. now rewrite E.
  - unfold ask_link. pose proof (ask_name_own mro false e w) as [E _]. destruct (ask_name false e w) as [w1 [n|x]]; cbn in *; [|now rewrite E].
    pose proof (ask_reg_own mro false e w1) as E1. destruct (ask_reg false e w1) as [w2 [[a|]|x]]; cbn in *; now rewrite E1, E.
  - pose proof (ask_name_own mro false e w) as [E _]. destruct (ask_name false e w) as [w1 [n|x]]; cbn in *; [|now rewrite E].
    pose proof (ask_reg_own mro false e w1) as E1. destruct (ask_reg false e w1) as [w2 r]; cbn in *; now rewrite E1, E.
  - cbn [fst j_own]. unfold upd. destruct (Nat.eqb d e) eqn:E; [|exact H]. apply Nat.eqb_eq in E as ->. now apply d_set_nodup.
  - destruct (d_mem n (j_own w e)); [|exact H]. cbn [fst j_own]. unfold upd. destruct (Nat.eqb d e) eqn:E; [|exact H]. apply Nat.eqb_eq in E as ->. now apply d_del_nodup.
Qed.
Lemma inv_run own0 ops : (forall d, NoDup (d_keys (own0 d))) ->
  (forall own d, seen own0 ops own -> NoDup (d_keys (own d))) /\ inv (seen own0 ops) (fst (j_run ops (unasked own0))).
Proof.
  intros Hn. induction ops as [|o ops [IH1 IH2]] using rev_ind.
  - split.
    + intros own d (h0 & h1 & E & ->). symmetry in E. apply app_eq_nil in E as [-> ->]. apply Hn.
    + split; [exists [], []; now split|]. split; [discriminate|discriminate].
  - assert (forall own d, seen own0 (ops ++ [o]) own -> NoDup (d_keys (own d))) as H1.
    { intros own d (h0 & h1 & E & ->). destruct h1 as [|x h1] using rev_ind.
      - rewrite app_nil_r in E. subst h0. rewrite run_app. assert (forall e, NoDup (d_keys (j_own (fst (j_run ops (unasked own0))) e))) as Hx.
        { intros e. apply IH1. exists ops, []. rewrite app_nil_r. now split. }
        destruct (j_run ops (unasked own0)) as [w rs]; cbn [fst] in *. cbn [PropReg.j_run]. pose proof (step_own o w d (Hx d)) as G. now destruct (j_step o w).
      - rewrite app_assoc in E. apply app_inj_tail in E as [-> ->]. apply IH1. exists h0, h1. now split. }
    split; [exact H1|].
    assert (seen own0 (ops ++ [o]) (j_own (fst (j_run (ops ++ [o]) (unasked own0))))) as Hlast by (exists (ops ++ [o]), []; rewrite app_nil_r; now split).
    rewrite run_app in *. assert (inv (seen own0 (ops ++ [o])) (fst (j_run ops (unasked own0)))) as IH2b by (eapply inv_mono; [apply seen_app|apply seen_app; apply IH2|exact IH2]); clear IH2; rename IH2b into IH2.
    destruct (j_run ops (unasked own0)) as [w rs]; cbn [fst] in *. cbn [PropReg.j_run] in *.
    destruct o as [f e|f e|e|e|e n x|e n]; cbn [PropReg.j_step] in *.
    + pose proof (inv_name H1 f e IH2) as G. now destruct (ask_name f e w).
    + pose proof (inv_reg H1 f e IH2) as G. now destruct (ask_reg f e w).
    + unfold ask_link in *. pose proof (inv_name H1 false e IH2) as G. destruct (ask_name false e w) as [w1 [n|x]]; [|exact G].
      cbn [fst] in G; pose proof (inv_reg H1 false e G) as G1. destruct (ask_reg false e w1) as [w2 [[a|]|x]]; exact G1.
    + pose proof (inv_name H1 false e IH2) as G. destruct (ask_name false e w) as [w1 [n|x]]; [|exact G].
      cbn [fst] in G; pose proof (inv_reg H1 false e G) as G1. destruct (ask_reg false e w1) as [w2 r]; exact G1.
    + destruct IH2 as (G1 & G2 & G3). split; [exact Hlast|]. now split.
    + destruct (d_mem n (j_own w e)); [|exact IH2]. destruct IH2 as (G1 & G2 & G3). split; [exact Hlast|]. now split.
Qed.
Lemma C129_source_lemma own0 ops f c : (forall d, NoDup (d_keys (own0 d))) -> let w := fst (j_run ops (unasked own0)) in
  (forall n, snd (ask_name f c w) = Ok n -> was_sole (seen own0 ops) c n) /\ (forall a, snd (ask_reg f c w) = Ok (Some a) -> was_read (seen own0 ops) c a).
Proof. intros Hn w. destruct (inv_run own0 ops Hn) as [H1 H2]. now apply inv_read. Qed.
End Source.
