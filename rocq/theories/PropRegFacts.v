(** Facts about registrations of JsonProperty classes (PropReg.v) *)
From Coq Require Import String.
From Verif Require Import Base Dict DictFacts PropReg.
Open Scope list_scope.
Set Implicit Arguments.

(** [n] is the only name that the dict [d] binds to a property *)
Definition sole {A} (d : dict (entry A)) (n : pystr) : Prop :=
  (exists a, d_get n d = Some (EProp a)) /\ forall m b, d_get m d = Some (EProp b) -> m = n.
(** [o] asks the class [d] something; with refresh; or changes its attributes *)
Definition asks {A} (o : jop A) (d : nat) : Prop :=
  match o with JName _ c | JReg _ c | JLink c | JNew c => c = d | JSet _ _ _ | JDel _ _ => False end.
Definition refreshes {A} (o : jop A) (d : nat) : Prop := match o with JName true c | JReg true c => c = d | _ => False end.
Definition changes {A} (o : jop A) (d : nat) : Prop := match o with JSet c _ _ | JDel c _ => c = d | _ => False end.

Section Facts.
Variables (A : Type) (mro : nat -> list nat).
Notation ask_name := (@ask_name A mro).
Notation ask_reg := (@ask_reg A mro).
Notation ask_link := (@ask_link A mro).
Notation j_step := (@j_step A mro).
Notation j_run := (@j_run A mro).

Lemma upd_same {X} (f : nat -> X) c x : upd f c x c = x.
Proof. unfold upd. now rewrite Nat.eqb_refl. Qed.
Lemma upd_other {X} (f : nat -> X) c x d : d <> c -> upd f c x d = f d.
Proof. intros H. unfold upd. now apply Nat.eqb_neq in H as ->. Qed.

Lemma in_own_props (d : dict (entry A)) m : NoDup (d_keys d) -> In m (own_props d) <-> exists a, d_get m d = Some (EProp a).
Proof.
  intros Hn. unfold own_props. rewrite in_map_iff. split.
  - intros ([k e] & <- & H). apply filter_In in H as [H He]. destruct e as [a|]; [|discriminate]. exists a. now apply d_get_nodup.
  - intros [a H]. apply d_get_some_in in H. exists (m, EProp a). split; [reflexivity|]. apply filter_In. now split.
Qed.
Lemma own_props_nodup (d : dict (entry A)) : NoDup (d_keys d) -> NoDup (own_props d).
Proof.
  induction d as [|[k e] d IH]; intros H; [constructor|]. inversion H as [|? ? Hk Hd]; subst. unfold own_props. cbn [filter snd].
  destruct e as [a|]; [|now apply IH]. cbn [map fst]. constructor; [|now apply IH].
  intros Hin. apply Hk. unfold d_keys. apply in_map_iff in Hin as (p & <- & Hp). apply filter_In in Hp as [Hp _]. now apply in_map.
Qed.
Lemma sole_props (d : dict (entry A)) n : NoDup (d_keys d) -> own_props d = [n] <-> sole d n.
Proof.
  intros Hn. split.
  - intros E. split; [apply in_own_props; [exact Hn|]; rewrite E; now left|]. intros m b Hm.
    assert (In m (own_props d)) as Hi by (apply in_own_props; eauto). rewrite E in Hi. destruct Hi as [->|[]]. reflexivity.
  - intros [Ha Hu]. apply in_own_props in Ha; [|exact Hn]. pose proof (own_props_nodup d Hn) as Hd.
    assert (forall m, In m (own_props d) -> m = n) as Hall by (intros m Hm; apply in_own_props in Hm as [b Hb]; [|exact Hn]; eauto).
    destruct (own_props d) as [|x [|y l]]; [contradiction| |].
    + rewrite (Hall x); [reflexivity|now left].
    + exfalso. inversion Hd as [|? ? Hx _]; subst. apply Hx. rewrite (Hall x), (Hall y); [now left|right; now left|now left].
Qed.
Lemma C129_refresh_lemma (w : jworld A) c : NoDup (d_keys (j_own w c)) ->
  (forall n, snd (ask_name true c w) = Ok n <-> sole (j_own w c) n) /\ ((forall n, ~ sole (j_own w c) n) -> ask_name true c w = (w, Err ValueError)).
Proof.
  intros Hn. split.
  - intros n. rewrite <- sole_props by exact Hn. unfold PropReg.ask_name. destruct (own_props (j_own w c)) as [|x [|y l]]; cbn; split; intros H; try discriminate; congruence.
  - intros H. unfold PropReg.ask_name. destruct (own_props (j_own w c)) as [|x [|y l]] eqn:E; try reflexivity.
    exfalso. apply (H x). now apply sole_props.
Qed.

(** ** what asking leaves unchanged *)
Lemma ask_name_own f c w : j_own (fst (ask_name f c w)) = j_own w /\ j_reg (fst (ask_name f c w)) = j_reg w.
Proof.
  unfold PropReg.ask_name. destruct (if f then None else nearest (j_name w) (mro c)); [now split|].
  destruct (own_props (j_own w c)) as [|x [|y l]]; now split.
Qed.
Lemma ask_reg_own f c w : j_own (fst (ask_reg f c w)) = j_own w.
Proof.
  unfold PropReg.ask_reg.
  assert (forall w1 r, (if f then ask_name true c w else match nearest (j_name w) (mro c) with Some n => (w, Ok n) | None => ask_name true c w end) = (w1, r) ->
    j_own w1 = j_own w) as H.
  { intros w1 r E. destruct f.
    - pose proof (ask_name_own true c w) as [H _]. now rewrite E in H.
    - destruct (nearest (j_name w) (mro c)); [injection E as <- <-; reflexivity|]. pose proof (ask_name_own true c w) as [H _]. now rewrite E in H. }
  destruct (if f then ask_name true c w else _) as [w1 [n|e]]; [|cbn; eapply H; reflexivity].
  specialize (H _ _ eq_refl). destruct (if f then None else nearest (j_reg w1) (mro c)); [exact H|].
  destruct (nearest (j_name w1) (mro c)); [|exact H]. destruct (nearest (fun e => d_get _ (j_own w1 e)) (mro c)) as [[a|[|]]|]; exact H.
Qed.

(** ** the caches only grow *)
Inductive grows {X} (c : nat) : (nat -> option X) -> (nat -> option X) -> Prop :=
| grows_refl f : grows c f f
| grows_step f d x f' : (In d (mro c) -> nearest f (mro d) = None) -> grows c (upd f d (Some x)) f' -> grows c f f'.
Lemma grows_trans {X} c (f g h : nat -> option X) : grows c f g -> grows c g h -> grows c f h.
Proof. induction 1; [auto|]. intros. econstructor; eauto. Qed.
Lemma ask_name_grows c f d w : (f = true -> ~ In d (mro c)) -> grows c (j_name w) (j_name (fst (ask_name f d w))).
Proof.
  intros H. unfold PropReg.ask_name. destruct f.
  - destruct (own_props (j_own w d)) as [|x [|y l]]; try apply grows_refl. cbn. eapply grows_step; [|apply grows_refl]. intros Hd. now apply H in Hd.
  - destruct (nearest (j_name w) (mro d)) eqn:E; [apply grows_refl|].
    destruct (own_props (j_own w d)) as [|x [|y l]]; try apply grows_refl. cbn. eapply grows_step; [|apply grows_refl]. auto.
Qed.
Lemma ask_reg_grows c f d w : (f = true -> ~ In d (mro c)) ->
  grows c (j_name w) (j_name (fst (ask_reg f d w))) /\ grows c (j_reg w) (j_reg (fst (ask_reg f d w))).
Proof.
  intros H. unfold PropReg.ask_reg.
  assert (forall w1 r, (if f then ask_name true d w else match nearest (j_name w) (mro d) with Some n => (w, Ok n) | None => ask_name true d w end) = (w1, r) ->
    grows c (j_name w) (j_name w1) /\ j_reg w1 = j_reg w) as Hs.
  { intros w1 r E. destruct f.
    - pose proof (@ask_name_grows c true d w H) as G. pose proof (ask_name_own true d w) as [_ R]. rewrite E in *. now split.
    - destruct (nearest (j_name w) (mro d)) eqn:En; [injection E as <- <-; split; [apply grows_refl|reflexivity]|].
      pose proof (ask_name_own true d w) as [_ R]. unfold PropReg.ask_name in E, R. cbn in E.
      pose proof (@ask_name_grows c false d w) as G. unfold PropReg.ask_name in G. rewrite En in G.
      rewrite E in *. split; [apply G; discriminate|exact R]. }
  destruct (if f then ask_name true d w else _) as [w1 [n|e]]; destruct (Hs _ _ eq_refl) as [G R]; cbn [fst]; [|rewrite R; split; [exact G|apply grows_refl]].
  destruct (if f then None else nearest (j_reg w1) (mro d)) eqn:Er; [cbn [fst]; rewrite R; split; [exact G|apply grows_refl]|].
  assert (In d (mro c) -> nearest (j_reg w) (mro d) = None) as Hg.
  { intros Hd. destruct f; [now apply H in Hd|]. now rewrite <- R. }
  destruct (nearest (j_name w1) (mro d)); [|cbn [fst]; rewrite R; split; [exact G|apply grows_refl]].
  destruct (nearest (fun e => d_get _ (j_own w1 e)) (mro d)) as [[a|[|]]|]; cbn [fst j_name j_reg]; rewrite R; split; try exact G; try apply grows_refl; (eapply grows_step; [exact Hg|apply grows_refl]).
Qed.
Lemma step_grows c o w : (forall d, refreshes o d -> ~ In d (mro c)) ->
  grows c (j_name w) (j_name (fst (j_step o w))) /\ grows c (j_reg w) (j_reg (fst (j_step o w))).
Proof.
  intros H. destruct o as [f d|f d|d|d|d n e|d n]; cbn [PropReg.j_step].
  - pose proof (@ask_name_grows c f d w) as G. pose proof (ask_name_own f d w) as [_ R].
    destruct (ask_name f d w) as [w1 r]; cbn [fst] in *. rewrite R. split; [apply G; intros ->; now apply H|apply grows_refl].
  - pose proof (@ask_reg_grows c f d w) as G. destruct (ask_reg f d w) as [w1 r]; cbn [fst] in *. apply G; intros ->; now apply H.
  - unfold PropReg.ask_link. pose proof (@ask_name_grows c false d w) as G. pose proof (ask_name_own false d w) as [_ R].
    destruct (ask_name false d w) as [w1 [n|e]]; cbn [fst] in *; [|rewrite R; split; [apply G; discriminate|apply grows_refl]].
    pose proof (@ask_reg_grows c false d w1) as G1. destruct (ask_reg false d w1) as [w2 [[a|]|e]]; cbn [fst] in *; destruct (G1 ltac:(discriminate)) as [Ga Gb]; rewrite R in Gb;
      (split; [eapply grows_trans; [apply G; discriminate|exact Ga]|exact Gb]).
  - pose proof (@ask_name_grows c false d w) as G. pose proof (ask_name_own false d w) as [_ R].
    destruct (ask_name false d w) as [w1 [n|e]]; cbn [fst] in *; [|rewrite R; split; [apply G; discriminate|apply grows_refl]].
    pose proof (@ask_reg_grows c false d w1) as G1. destruct (ask_reg false d w1) as [w2 r]; cbn [fst] in *. destruct (G1 ltac:(discriminate)) as [Ga Gb]; rewrite R in Gb.
    split; [eapply grows_trans; [apply G; discriminate|exact Ga]|exact Gb].
  - split; apply grows_refl.
  - destruct (d_mem n (j_own w d)); split; apply grows_refl.
Qed.

Lemma nearest_app {X} (f : nat -> option X) l1 l2 : nearest f (l1 ++ l2) = match nearest f l1 with Some x => Some x | None => nearest f l2 end.
Proof. induction l1 as [|d l IH]; cbn; [reflexivity|]. destruct (f d); [reflexivity|exact IH]. Qed.
Lemma nearest_ext {X} (f g : nat -> option X) l : (forall d, In d l -> f d = g d) -> nearest f l = nearest g l.
Proof. induction l as [|d l IH]; cbn; intros H; [reflexivity|]. rewrite (H d) by now left. destruct (g d); [reflexivity|]. apply IH. intros; apply H; now right. Qed.
Lemma nearest_some {X} (f : nat -> option X) l x : nearest f l = Some x -> exists d, In d l /\ f d = Some x.
Proof. induction l as [|d l IH]; cbn; intros H; [discriminate|]. destruct (f d) eqn:E; [injection H as ->; eauto|]. destruct (IH H) as (d' & ? & ?). eauto. Qed.
Lemma nearest_none {X} (f : nat -> option X) l : nearest f l = None <-> forall d, In d l -> f d = None.
Proof.
  induction l as [|d l IH]; cbn; [split; [contradiction|reflexivity]|]. destruct (f d) eqn:E.
  - split; [discriminate|]. intros H. rewrite (H d) in E; [discriminate|now left].
  - rewrite IH. split; [intros H e [<-|He]; auto|intros H e He; apply H; now right].
Qed.
(** single inheritance: attribute lookup on an ancestor goes on where lookup on the class would *)
Definition chain (c : nat) : Prop := NoDup (mro c) /\ (forall d, In d (mro c) -> exists pre, mro c = pre ++ mro d) /\ forall d, In d (mro c) -> exists l, mro d = d :: l.
Lemma grows_nearest {X} c (f f' : nat -> option X) x : chain c -> grows c f f' -> nearest f (mro c) = Some x -> nearest f' (mro c) = Some x.
Proof.
  intros (Hn & Hs & Hh) G. induction G as [f|f d y f' Hd G IH]; intros E; [exact E|]. apply IH. clear IH G.
  destruct (in_dec Nat.eq_dec d (mro c)) as [Hi|Hi].
  - specialize (Hd Hi). destruct (Hs d Hi) as [pre Hp]. destruct (Hh d Hi) as [l Hl]. rewrite Hp in *. rewrite nearest_app in *. rewrite Hd in E.
    destruct (nearest f pre) as [z|] eqn:Ez; [|discriminate]. injection E as ->.
    rewrite (@nearest_ext _ (upd f d (Some y)) f pre); [now rewrite Ez|]. intros e He. apply upd_other. intros ->.
    rewrite Hl in Hn. apply NoDup_remove_2 in Hn. apply Hn. apply in_or_app. now left.
  - rewrite <- E. apply nearest_ext. intros e He. apply upd_other. intros ->. contradiction.
Qed.
Lemma run_app ops1 ops2 w : j_run (ops1 ++ ops2) w = let (w1, r1) := j_run ops1 w in let (w2, r2) := j_run ops2 w1 in (w2, r1 ++ r2).
Proof.
  revert w. induction ops1 as [|o ops IH]; intros w; cbn [app PropReg.j_run]; [now destruct (j_run ops2 w)|].
  destruct (j_step o w) as [w1 r]. rewrite IH. destruct (j_run ops w1) as [w2 rs]. destruct (j_run ops2 w2). reflexivity.
Qed.
Lemma run_grows c ops : forall w, (forall o d, In o ops -> refreshes o d -> ~ In d (mro c)) ->
  grows c (j_name w) (j_name (fst (j_run ops w))) /\ grows c (j_reg w) (j_reg (fst (j_run ops w))).
Proof.
  induction ops as [|o ops IH]; intros w H; cbn [PropReg.j_run]; [split; apply grows_refl|].
  destruct (@step_grows c o w) as [G1 G2]; [intros d; apply H; now left|].
  destruct (j_step o w) as [w1 r]; cbn [fst] in *. destruct (IH w1) as [G3 G4]; [intros o' d Ho; apply H; now right|].
  destruct (j_run ops w1) as [w2 rs]; cbn [fst] in *. split; eapply grows_trans; eauto.
Qed.
(** an answered question leaves its answer in a cache *)
Lemma ask_name_cached f c w n : (exists l, mro c = c :: l) -> snd (ask_name f c w) = Ok n -> nearest (j_name (fst (ask_name f c w))) (mro c) = Some n.
Proof.
  intros [l Hl]. unfold PropReg.ask_name. destruct f.
  - destruct (own_props (j_own w c)) as [|x [|y l']]; cbn [fst snd j_name]; try discriminate. intros [= ->]. rewrite Hl. cbn [nearest]. now rewrite upd_same.
  - destruct (nearest (j_name w) (mro c)) eqn:E; cbn [fst snd]; [now intros [= <-]|].
    destruct (own_props (j_own w c)) as [|x [|y l']]; cbn [fst snd j_name]; try discriminate. intros [= ->]. rewrite Hl. cbn [nearest]. now rewrite upd_same.
Qed.
Lemma ask_name_hit c w n : nearest (j_name w) (mro c) = Some n -> ask_name false c w = (w, Ok n).
Proof. intros E. unfold PropReg.ask_name. now rewrite E. Qed.
Lemma ask_reg_hit c w n r : nearest (j_name w) (mro c) = Some n -> nearest (j_reg w) (mro c) = Some r -> ask_reg false c w = (w, Ok r).
Proof. intros E E'. unfold PropReg.ask_reg. now rewrite E, E'. Qed.
Lemma ask_reg_cached f c w r : (exists l, mro c = c :: l) -> snd (ask_reg f c w) = Ok r ->
  nearest (j_reg (fst (ask_reg f c w))) (mro c) = Some r /\ exists n, nearest (j_name (fst (ask_reg f c w))) (mro c) = Some n.
Proof.
  intros Hl. unfold PropReg.ask_reg.
  assert (forall w1 n, (if f then ask_name true c w else match nearest (j_name w) (mro c) with Some n => (w, Ok n) | None => ask_name true c w end) = (w1, Ok n) ->
    nearest (j_name w1) (mro c) = Some n) as Hs.
  { intros w1 n E. pose proof (@ask_name_cached true c w n Hl) as H. destruct f; [rewrite E in H; now apply H|].
    destruct (nearest (j_name w) (mro c)) eqn:En; [now injection E as <- <-|]. rewrite E in H. now apply H. }
  destruct (if f then ask_name true c w else _) as [w1 [n|e]]; [|discriminate]. specialize (Hs _ _ eq_refl).
  destruct (if f then None else nearest (j_reg w1) (mro c)) as [r0|] eqn:Er.
  - cbn [fst snd]. intros [= ->]. destruct f; [discriminate|]. eauto.
  - rewrite Hs. destruct Hl as [l Hl]. destruct (nearest (fun e => d_get _ (j_own w1 e)) (mro c)) as [[a|[|]]|]; cbn [fst snd j_name j_reg]; try discriminate; intros [= <-];
      (split; [rewrite Hl; cbn [nearest]; now rewrite upd_same|eauto]).
Qed.
Lemma C129_stable_lemma c w ops : chain c -> In c (mro c) -> (forall o d, In o ops -> refreshes o d -> ~ In d (mro c)) ->
  (forall f n, snd (ask_name f c w) = Ok n -> snd (ask_name false c (fst (j_run ops (fst (ask_name f c w))))) = Ok n) /\
  (forall f r, snd (ask_reg f c w) = Ok r -> snd (ask_reg false c (fst (j_run ops (fst (ask_reg f c w))))) = Ok r).
Proof.
  intros Hc Hi Hr. assert (exists l, mro c = c :: l) as Hl by now apply Hc. split.
  - intros f n E. apply ask_name_cached in E; [|exact Hl]. destruct (@run_grows c ops (fst (ask_name f c w)) Hr) as [G _].
    rewrite (ask_name_hit _ _ (grows_nearest Hc G E)). reflexivity.
  - intros f r E. apply ask_reg_cached in E; [|exact Hl]. destruct E as [E [n En]]. destruct (@run_grows c ops (fst (ask_reg f c w)) Hr) as [G G'].
    rewrite (ask_reg_hit _ _ (grows_nearest Hc G En) (grows_nearest Hc G' E)). reflexivity.
Qed.

(** ** classes nobody asked *)
Lemma ask_name_at f d w e : e <> d -> j_name (fst (ask_name f d w)) e = j_name w e.
Proof.
  intros H. unfold PropReg.ask_name. destruct (if f then None else nearest (j_name w) (mro d)); [reflexivity|].
  destruct (own_props (j_own w d)) as [|x [|y l]]; try reflexivity. cbn. now apply upd_other.
Qed.
Lemma ask_reg_at f d w e : e <> d -> j_name (fst (ask_reg f d w)) e = j_name w e /\ j_reg (fst (ask_reg f d w)) e = j_reg w e.
Proof.
  intros H. unfold PropReg.ask_reg.
  assert (forall w1 r, (if f then ask_name true d w else match nearest (j_name w) (mro d) with Some n => (w, Ok n) | None => ask_name true d w end) = (w1, r) ->
    j_name w1 e = j_name w e /\ j_reg w1 = j_reg w) as Hs.
  { intros w1 r E. pose proof (@ask_name_at true d w e H) as Hn. pose proof (ask_name_own true d w) as [_ R]. destruct f; [rewrite E in *; now split|].
    destruct (nearest (j_name w) (mro d)); [injection E as <- <-; now split|]. rewrite E in *. now split. }
  destruct (if f then ask_name true d w else _) as [w1 [n|x]]; destruct (Hs _ _ eq_refl) as [Hn R]; cbn [fst]; [|rewrite R; now split].
  destruct (if f then None else nearest (j_reg w1) (mro d)); [cbn [fst]; rewrite R; now split|].
  destruct (nearest (j_name w1) (mro d)); [|cbn [fst]; rewrite R; now split].
  destruct (nearest (fun e => d_get _ (j_own w1 e)) (mro d)) as [[a|[|]]|]; cbn [fst j_name j_reg]; rewrite ?(@upd_other _ _ d _ e H); rewrite ?R; now split.
Qed.
Lemma step_at o w e : ~ asks o e -> j_name (fst (j_step o w)) e = j_name w e /\ j_reg (fst (j_step o w)) e = j_reg w e.
Proof.
  intros H. destruct o as [f d|f d|d|d|d n x|d n]; cbn [asks] in H; cbn [PropReg.j_step]; try (assert (e <> d) as He by (intros ->; now apply H)).
  - pose proof (@ask_name_at f d w e He) as G. pose proof (ask_name_own f d w) as [_ R]. destruct (ask_name f d w); cbn [fst] in *. now rewrite R.
  - pose proof (@ask_reg_at f d w e He) as G. destruct (ask_reg f d w); exact G.
  - unfold PropReg.ask_link. pose proof (@ask_name_at false d w e He) as G. pose proof (ask_name_own false d w) as [_ R]. destruct (ask_name false d w) as [w1 [n|x]]; cbn [fst] in *; [|now rewrite R].
    pose proof (@ask_reg_at false d w1 e He) as [G1 G2]. destruct (ask_reg false d w1) as [w2 [[a|]|x]]; cbn [fst] in *; rewrite G1, G2, R; now split.
  - pose proof (@ask_name_at false d w e He) as G. pose proof (ask_name_own false d w) as [_ R]. destruct (ask_name false d w) as [w1 [n|x]]; cbn [fst] in *; [|now rewrite R].
    pose proof (@ask_reg_at false d w1 e He) as [G1 G2]. destruct (ask_reg false d w1) as [w2 r]; cbn [fst] in *; rewrite G1, G2, R; now split.
  - now split.
  - destruct (d_mem n (j_own w d)); now split.
Qed.
Lemma run_at ops : forall w e, (forall o, In o ops -> ~ asks o e) -> j_name (fst (j_run ops w)) e = j_name w e /\ j_reg (fst (j_run ops w)) e = j_reg w e.
Proof.
  induction ops as [|o ops IH]; intros w e H; cbn [PropReg.j_run]; [now split|].
  destruct (@step_at o w e) as [E1 E2]; [apply H; now left|]. destruct (j_step o w) as [w1 r]; cbn [fst] in *.
  destruct (IH w1 e) as [E3 E4]; [intros; apply H; now right|]. destruct (j_run ops w1); cbn [fst] in *. now rewrite E3, E4.
Qed.
Lemma C129_unasked_lemma own ops c : (forall o d, In o ops -> In d (mro c) -> ~ asks o d) -> let w := fst (j_run ops (unasked own)) in ask_name false c w = ask_name true c w.
Proof.
  intros H w. unfold PropReg.ask_name. replace (nearest (j_name w) (mro c)) with (@None pystr); [reflexivity|]. symmetry. apply nearest_none.
  intros d Hd. unfold w. destruct (@run_at ops (unasked own) d) as [-> _]; [|reflexivity]. intros o Ho. now apply H.
Qed.
(** an ancestor that was asked before answers for its descendants *)
Lemma C129_ancestor_lemma own ops ops' c d f n pre : mro c = pre ++ mro d -> chain d -> In d (mro d) ->
  (forall o e, In o (ops ++ ops') -> In e pre -> ~ asks o e) -> ~ In d pre -> (forall o e, In o ops' -> refreshes o e -> ~ In e (mro d)) ->
  snd (ask_name f d (fst (j_run ops (unasked own)))) = Ok n -> snd (ask_name false c (fst (j_run (ops ++ JName f d :: ops') (unasked own)))) = Ok n.
Proof.
  intros Hm Hc Hi Ha Hd Hr E. rewrite run_app. set (w := fst (j_run ops (unasked own))) in *.
  assert (forall e, In e pre -> j_name w e = None) as Hw.
  { intros e He. unfold w. destruct (@run_at ops (unasked own) e) as [-> _]; [|reflexivity]. intros o Ho. apply Ha; [apply in_or_app; now left|exact He]. }
  unfold w in *. destruct (j_run ops (unasked own)) as [w0 r0]; cbn [fst] in *. cbn [PropReg.j_run PropReg.j_step].
  assert (nearest (j_name (fst (ask_name f d w0))) (mro d) = Some n) as E1 by (apply ask_name_cached; [apply Hc; exact Hi|exact E]).
  assert (forall e, In e pre -> j_name (fst (ask_name f d w0)) e = None) as Hw1.
  { intros e He. rewrite ask_name_at; [now apply Hw|]. intros ->. contradiction. }
  destruct (ask_name f d w0) as [w1 r1]; cbn [fst snd] in *. destruct (@run_grows d ops' w1 Hr) as [G _].
  assert (forall e, In e pre -> j_name (fst (j_run ops' w1)) e = None) as Hw2.
  { intros e He. destruct (@run_at ops' w1 e) as [-> _]; [|now apply Hw1]. intros o Ho. apply Ha; [apply in_or_app; now right|exact He]. }
  destruct (j_run ops' w1) as [w2 r2]; cbn [fst] in *. erewrite ask_name_hit; [reflexivity|]. rewrite Hm, nearest_app.
  replace (nearest (j_name w2) pre) with (@None pystr) by (symmetry; apply nearest_none; exact Hw2). now apply (grows_nearest Hc G).
Qed.
End Facts.

(** ** registrations that are not cached *)
(** attribute lookup of [n] on the class [c] ends at a class that binds it to [e] *)
Definition found {A} (mro : nat -> list nat) (own : nat -> dict (entry A)) (c : nat) (n : pystr) (e : entry A) : Prop :=
  exists pre d post, mro c = pre ++ d :: post /\ (forall x, In x pre -> d_get n (own x) = None) /\ d_get n (own d) = Some e.
Lemma found_nearest {A} mro (own : nat -> dict (entry A)) c n e : found mro own c n e -> nearest (fun d => d_get n (own d)) (mro c) = Some e.
Proof.
  intros (pre & d & post & -> & Hp & Hd). induction pre as [|x pre IH]; cbn; [now rewrite Hd|]. rewrite (Hp x) by now left. apply IH. intros y Hy. apply Hp. now right.
Qed.
Lemma C129_registration_lemma {A} mro (w : jworld A) c n : nearest (j_name w) (mro c) = Some n -> (forall d, In d (mro c) -> j_reg w d = None) ->
  (forall a, found mro (j_own w) c n (EProp a) -> snd (j_step mro (JReg false c) w) = OReg (Ok (Some a)) /\ snd (j_step mro (JLink c) w) = OLink (Ok (n, a)) /\ snd (j_step mro (JNew c) w) = ONew (Ok (n, Some a))) /\
  (found mro (j_own w) c n (EOther true) -> snd (j_step mro (JReg false c) w) = OReg (Err AttributeError) /\ snd (j_step mro (JLink c) w) = OLink (Err AttributeError) /\ snd (j_step mro (JNew c) w) = ONew (Err AttributeError)) /\
  (found mro (j_own w) c n (EOther false) \/ (forall d, In d (mro c) -> d_get n (j_own w d) = None) ->
     snd (j_step mro (JReg false c) w) = OReg (Ok None) /\ snd (j_step mro (JLink c) w) = OLink (Err TypeError) /\ snd (j_step mro (JNew c) w) = ONew (Ok (n, None))).
Proof.
  intros Hn Hr. assert (nearest (j_reg w) (mro c) = None) as Hr' by now apply nearest_none.
  assert (exists o, nearest (fun d => d_get n (j_own w d)) (mro c) = o) as [o Ho] by (eexists; reflexivity).
  assert (snd (ask_reg mro false c w) = match o with Some (EProp a) => Ok (Some a) | Some (EOther true) => Err AttributeError | _ => Ok None end) as E.
  { unfold ask_reg. rewrite Hn. cbv iota beta zeta. rewrite Hr', Hn, Ho. destruct o as [[a|[|]]|]; reflexivity. }
  cbn [j_step]. unfold ask_link. rewrite (ask_name_hit mro c w Hn). destruct (ask_reg mro false c w) as [w2 r]; cbn [snd] in E; subst r.
  split; [|split].
  - intros a F. apply found_nearest in F. rewrite F in Ho. subst o. now repeat split.
  - intros F. apply found_nearest in F. rewrite F in Ho. subst o. now repeat split.
  - intros F. assert (o = Some (EOther false) \/ o = None) as [-> | ->].
    { destruct F as [F|F]; rewrite <- Ho; [left; now apply found_nearest|right; now apply nearest_none]. }
    all: now repeat split.
Qed.
Lemma C129_refresh_reg_lemma {A} mro (w : jworld A) c : (exists l, mro c = c :: l) -> NoDup (d_keys (j_own w c)) ->
  (forall n a, sole (j_own w c) n -> d_get n (j_own w c) = Some (EProp a) -> snd (ask_reg mro true c w) = Ok (Some a)) /\ ((forall n, ~ sole (j_own w c) n) -> ask_reg mro true c w = (w, Err ValueError)).
Proof.
  intros [l Hl] Hd. split.
  - intros n a Hs Ha. apply sole_props in Hs; [|exact Hd]. unfold ask_reg, ask_name. rewrite Hs. cbn [j_own j_name]. rewrite Hl. cbn [nearest j_own j_name]. rewrite upd_same, Ha. reflexivity.
  - intros Hs. unfold ask_reg. destruct (@C129_refresh_lemma A mro w c Hd) as [_ H]. now rewrite (H Hs).
Qed.
