(** Proofs about validated setters *)
From Verif Require Import Base BaseFacts Validate.


Fixpoint pv_ind2 (P : pv -> Prop) (h1 : forall cs i, P (Leaf cs i)) (h2 : forall l, Forall P l -> P (VL l)) (h3 : forall l, Forall P l -> P (VT l)) (h4 : forall l, Forall P l -> P (VS l)) (v : pv) : P v :=
  let fix go (l : list pv) : Forall P l := match l with [] => Forall_nil P | x :: l' => Forall_cons x (pv_ind2 P h1 h2 h3 h4 x) (go l') end in
  match v with Leaf cs i => h1 cs i | VL l => h2 l (go l) | VT l => h3 l (go l) | VS l => h4 l (go l) end.

(** ** specification *)
(** which containers are allowed: lists unless the property is functional and [list] is not named; the others only if named *)
Definition lists_allowed (types : list pytype) (functional : bool) : Prop := functional = false \/ In TList types \/ In TObject types.
Inductive allowed (types : list pytype) (functional : bool) (additional : list validator) : pv -> Prop :=
| al_leaf cs i : (In TObject types \/ exists n, In (TClass n) types /\ In n cs) -> (forall f, In f additional -> f i cs = Ok tt) ->
    allowed types functional additional (Leaf cs i)
| al_list l : lists_allowed types functional -> Forall (allowed types functional additional) l -> allowed types functional additional (VL l)
| al_tuple l : In TTuple types \/ In TObject types -> Forall (allowed types functional additional) l -> allowed types functional additional (VT l)
| al_set l : In TSet types \/ In TObject types -> Forall (allowed types functional additional) l -> allowed types functional additional (VS l).
(** what is stored: tuples and sets become lists *)
Fixpoint stored (v : pv) : pv := match v with Leaf cs i => Leaf cs i | VL l | VT l | VS l => VL (map stored l) end.
(** nested lists of leaves *)
Inductive list_tree : pv -> Prop := lt_leaf cs i : list_tree (Leaf cs i) | lt_list l : Forall list_tree l -> list_tree (VL l).

Lemma in_effective t types fn : In t (effective types fn) <-> In t types \/ (t = TList /\ (fn = false \/ In TList types)).
Proof.
  unfold effective. assert (Hx : existsb is_tlist types = true <-> In TList types).
  { rewrite existsb_exists. split; [intros ([| | | |n] & H & E); try discriminate; exact H|intros H; exists TList; auto]. }
  destruct fn; simpl.
  - destruct (existsb is_tlist types) eqn:E; simpl.
    + rewrite in_app_iff. simpl. assert (In TList types) by now apply Hx. intuition (subst; auto).
    + split; [auto|]. intros [H|[-> [H|H]]]; [auto|discriminate|exact H].
  - rewrite in_app_iff. simpl. intuition (subst; auto).
Qed.
Lemma effective_idem types fn t : In t (effective (effective types fn) fn) <-> In t (effective types fn).
Proof. rewrite !in_effective. intuition (subst; auto). Qed.
Lemma isinstance_in v types : isinstance v types = true <-> exists t, In t types /\ isinst v t = true.
Proof. apply existsb_exists. Qed.
Lemma isinstance_ext v t1 t2 : (forall t, In t t1 <-> In t t2) -> isinstance v t1 = isinstance v t2.
Proof.
  intros H. destruct (isinstance v t1) eqn:E1, (isinstance v t2) eqn:E2; auto.
  - apply isinstance_in in E1 as (t & Ht & Hi). apply H in Ht. assert (isinstance v t2 = true) by (apply isinstance_in; eauto). congruence.
  - apply isinstance_in in E2 as (t & Ht & Hi). apply H in Ht. assert (isinstance v t1 = true) by (apply isinstance_in; eauto). congruence.
Qed.
Lemma map_ok_ext {A B} (f g : A -> res B) l : Forall (fun x => f x = g x) l -> map_ok f l = map_ok g l.
Proof. intros H. induction H as [|x l Hx Hl IH]; simpl; [reflexivity|]. now rewrite Hx, IH. Qed.
Lemma effective_ext t1 t2 fn : (forall t, In t t1 <-> In t t2) -> forall t, In t (effective t1 fn) <-> In t (effective t2 fn).
Proof. intros H t. rewrite !in_effective. rewrite (H t), (H TList). reflexivity. Qed.
Lemma evaluate_ext fn ad v : forall t1 t2, (forall t, In t t1 <-> In t t2) -> evaluate t1 fn ad v = evaluate t2 fn ad v.
Proof.
  induction v as [cs i|l IH|l IH|l IH] using pv_ind2; intros t1 t2 H; simpl;
    rewrite (isinstance_ext _ _ _ (effective_ext _ _ fn H)); destruct (negb _); auto;
    rewrite (@map_ok_ext _ _ (evaluate (effective t1 fn) fn ad) (evaluate (effective t2 fn) fn ad) l); auto;
    (eapply Forall_impl; [|exact IH]; intros x Hx; apply Hx; now apply effective_ext).
Qed.
Lemma evaluate_eff types fn ad v : evaluate (effective types fn) fn ad v = evaluate types fn ad v.
Proof.
  destruct v as [cs i|l|l|l]; simpl; rewrite (isinstance_ext _ _ _ (effective_idem types fn)); destruct (negb _); auto;
    rewrite (@map_ok_ext _ _ (evaluate (effective (effective types fn) fn) fn ad) (evaluate (effective types fn) fn ad) l); auto;
    apply Forall_forall; intros x _; apply evaluate_ext; intros t; apply effective_idem.
Qed.
Lemma map_ok_eff types fn ad l : map_ok (evaluate (effective types fn) fn ad) l = map_ok (evaluate types fn ad) l.
Proof. apply map_ok_ext, Forall_forall. intros x _. apply evaluate_eff. Qed.
Lemma run_all_ok ad cs i : run_all ad cs i = Ok tt <-> forall f, In f ad -> f i cs = Ok tt.
Proof.
  induction ad as [|f ad IH]; simpl.
  - split; [intros _ f []|auto].
  - destruct (f i cs) as [[]|e] eqn:E.
    + rewrite IH. split; [intros H g [<-|Hg]; auto|auto].
    + split; [discriminate|]. intros H. rewrite (H f (or_introl eq_refl)) in E. discriminate.
Qed.
Lemma leaf_inst cs i types fn : isinstance (Leaf cs i) (effective types fn) = true <-> In TObject types \/ exists n, In (TClass n) types /\ In n cs.
Proof.
  rewrite isinstance_in. split.
  - intros (t & Ht & Hi). apply in_effective in Ht as [Ht|[-> _]]; [|discriminate]. destruct t as [| | | |n]; try discriminate; [now left|].
    right. exists n. split; [exact Ht|]. simpl in Hi. apply existsb_exists in Hi as (m & Hm & E). apply N.eqb_eq in E. now subst.
  - intros [H|(n & H1 & H2)].
    + exists TObject. split; [apply in_effective; now left|reflexivity].
    + exists (TClass n). split; [apply in_effective; now left|]. simpl. apply existsb_exists. exists n. split; [exact H2|apply N.eqb_refl].
Qed.
Lemma list_inst l types fn : isinstance (VL l) (effective types fn) = true <-> lists_allowed types fn.
Proof.
  rewrite isinstance_in. unfold lists_allowed. split.
  - intros (t & Ht & Hi). apply in_effective in Ht. destruct t as [| | | |n]; try discriminate; intuition (subst; auto; discriminate).
  - intros [H|[H|H]]; [exists TList|exists TList|exists TObject]; (split; [apply in_effective; auto|reflexivity]).
Qed.
Lemma tuple_inst l types fn : isinstance (VT l) (effective types fn) = true <-> In TTuple types \/ In TObject types.
Proof.
  rewrite isinstance_in. split.
  - intros (t & Ht & Hi). apply in_effective in Ht as [Ht|[-> _]]; [|discriminate]. destruct t as [| | | |n]; try discriminate; auto.
  - intros [H|H]; [exists TTuple|exists TObject]; (split; [apply in_effective; auto|reflexivity]).
Qed.
Lemma set_inst l types fn : isinstance (VS l) (effective types fn) = true <-> In TSet types \/ In TObject types.
Proof.
  rewrite isinstance_in. split.
  - intros (t & Ht & Hi). apply in_effective in Ht as [Ht|[-> _]]; [|discriminate]. destruct t as [| | | |n]; try discriminate; auto.
  - intros [H|H]; [exists TSet|exists TObject]; (split; [apply in_effective; auto|reflexivity]).
Qed.
Lemma map_ok_allowed types fn ad l : Forall (fun v => forall w, evaluate types fn ad v = Ok w <-> allowed types fn ad v /\ w = stored v) l ->
  forall ys, map_ok (evaluate types fn ad) l = Ok ys <-> Forall (allowed types fn ad) l /\ ys = map stored l.
Proof.
  intros H. induction H as [|x l Hx Hl IH]; intros ys; simpl.
  - split; [intros [= <-]; auto|intros [_ ->]; reflexivity].
  - destruct (evaluate types fn ad x) as [y|e] eqn:Ey.
    + destruct (proj1 (Hx y) eq_refl) as [Hax ->]. destruct (map_ok (evaluate types fn ad) l) as [ys'|e] eqn:El.
      * destruct (proj1 (IH ys') eq_refl) as [Hl' ->]. split; [intros [= <-]; auto|intros [_ ->]; reflexivity].
      * split; [discriminate|]. intros [Hf ->]. apply Forall_cons_iff in Hf as [_ Hf].
        assert (Hbad : Err e = Ok (map stored l)) by (apply IH; auto). discriminate.
    + split; [discriminate|]. intros [Hf _]. apply Forall_cons_iff in Hf as [Hf _]. assert (Hbad : Err e = Ok (stored x)) by (apply Hx; auto). discriminate.
Qed.
Lemma evaluate_spec types fn ad v : forall w, evaluate types fn ad v = Ok w <-> allowed types fn ad v /\ w = stored v.
Proof.
  induction v as [cs i|l IH|l IH|l IH] using pv_ind2; intros w; simpl.
  - destruct (isinstance (Leaf cs i) (effective types fn)) eqn:E; simpl.
    + destruct (run_all ad cs i) as [[]|e] eqn:Er.
      * split; [intros [= <-]; split; [constructor; [now apply (leaf_inst cs i types fn)|now apply run_all_ok]|reflexivity]|intros [_ ->]; reflexivity].
      * split; [discriminate|]. intros [H _]. inversion H as [cs0 i0 H1 H2| | |]; subst. apply run_all_ok in H2. congruence.
    + split; [discriminate|]. intros [H _]. inversion H as [cs0 i0 H1 H2| | |]; subst. apply (leaf_inst cs i types fn) in H1. congruence.
  - rewrite map_ok_eff. destruct (isinstance (VL l) (effective types fn)) eqn:E; simpl.
    + destruct (map_ok (evaluate types fn ad) l) as [ys|e] eqn:El.
      * apply (map_ok_allowed _ _ _ _ IH) in El as [Hl ->]. split; [intros [= <-]; split; [constructor; [now apply (list_inst l types fn)|exact Hl]|reflexivity]|intros [_ ->]; reflexivity].
      * split; [discriminate|]. intros [H ->]. inversion H as [|l0 H1 H2| |]; subst. assert (Hbad : Err e = Ok (map stored l)) by (rewrite <- El; apply (map_ok_allowed _ _ _ _ IH); auto). discriminate.
    + split; [discriminate|]. intros [H _]. inversion H as [|l0 H1 H2| |]; subst. apply (list_inst l types fn) in H1. congruence.
  - rewrite map_ok_eff. destruct (isinstance (VT l) (effective types fn)) eqn:E; simpl.
    + destruct (map_ok (evaluate types fn ad) l) as [ys|e] eqn:El.
      * apply (map_ok_allowed _ _ _ _ IH) in El as [Hl ->]. split; [intros [= <-]; split; [constructor; [now apply (tuple_inst l types fn)|exact Hl]|reflexivity]|intros [_ ->]; reflexivity].
      * split; [discriminate|]. intros [H ->]. inversion H as [| |l0 H1 H2|]; subst. assert (Hbad : Err e = Ok (map stored l)) by (rewrite <- El; apply (map_ok_allowed _ _ _ _ IH); auto). discriminate.
    + split; [discriminate|]. intros [H _]. inversion H as [| |l0 H1 H2|]; subst. apply (tuple_inst l types fn) in H1. congruence.
  - rewrite map_ok_eff. destruct (isinstance (VS l) (effective types fn)) eqn:E; simpl.
    + destruct (map_ok (evaluate types fn ad) l) as [ys|e] eqn:El.
      * apply (map_ok_allowed _ _ _ _ IH) in El as [Hl ->]. split; [intros [= <-]; split; [constructor; [now apply (set_inst l types fn)|exact Hl]|reflexivity]|intros [_ ->]; reflexivity].
      * split; [discriminate|]. intros [H ->]. inversion H as [| | |l0 H1 H2]; subst. assert (Hbad : Err e = Ok (map stored l)) by (rewrite <- El; apply (map_ok_allowed _ _ _ _ IH); auto). discriminate.
    + split; [discriminate|]. intros [H _]. inversion H as [| | |l0 H1 H2]; subst. apply (set_inst l types fn) in H1. congruence.
Qed.
Lemma map_ok_err {A B} (f : A -> res B) (P : exn -> Prop) l : Forall (fun x => forall e, f x = Err e -> P e) l -> forall e, map_ok f l = Err e -> P e.
Proof.
  intros H. induction H as [|x l Hx Hl IH]; simpl; intros e E; [discriminate|]. destruct (f x) as [y|e'] eqn:Ef.
  - destruct (map_ok f l) as [ys|e'']; [discriminate|]. injection E as ->. now apply IH.
  - injection E as ->. now apply Hx.
Qed.
(** errors: ValueError, or what an extra validator raised *)
Lemma evaluate_err types fn ad v : forall e, evaluate types fn ad v = Err e -> e = ValueError \/ exists f cs i, In f ad /\ f i cs = Err e.
Proof.
  induction v as [cs i|l IH|l IH|l IH] using pv_ind2; intros e; simpl; destruct (negb _); try (intros [= <-]; now left).
  - destruct (run_all ad cs i) as [u|e'] eqn:E; [discriminate|]. intros [= <-]. right. clear -E. induction ad as [|f ad IH]; simpl in E; [discriminate|].
    destruct (f i cs) as [u|e2] eqn:Ef.
    + destruct (IH E) as (g & cs' & i' & Hg & H). exists g, cs', i'. split; [now right|exact H].
    + injection E as ->. exists f, cs, i. split; [now left|exact Ef].
  - rewrite map_ok_eff. destruct (map_ok _ l) as [ys|e'] eqn:E; [discriminate|]. intros [= <-]. revert E. apply (map_ok_err _ (fun e0 => e0 = ValueError \/ exists f cs i, In f ad /\ f i cs = Err e0) _ IH).
  - rewrite map_ok_eff. destruct (map_ok _ l) as [ys|e'] eqn:E; [discriminate|]. intros [= <-]. revert E. apply (map_ok_err _ (fun e0 => e0 = ValueError \/ exists f cs i, In f ad /\ f i cs = Err e0) _ IH).
  - rewrite map_ok_eff. destruct (map_ok _ l) as [ys|e'] eqn:E; [discriminate|]. intros [= <-]. revert E. apply (map_ok_err _ (fun e0 => e0 = ValueError \/ exists f cs i, In f ad /\ f i cs = Err e0) _ IH).
Qed.
Lemma C59_set {O} types fn none ad (set_prop : O -> pv -> O * res unit) o v :
  (allowed (validator_types types none) fn ad v -> checked_set types fn none ad set_prop o v = set_prop o (stored v)) /\
  (~ allowed (validator_types types none) fn ad v -> exists e, checked_set types fn none ad set_prop o v = (o, Err e) /\
     (e = ValueError \/ exists f cs i, In f ad /\ f i cs = Err e)).
Proof.
  unfold checked_set. split.
  - intros H. assert (E : evaluate (validator_types types none) fn ad v = Ok (stored v)) by (apply evaluate_spec; auto). now rewrite E.
  - intros H. destruct (evaluate (validator_types types none) fn ad v) as [w|e] eqn:E; [apply evaluate_spec in E as [E _]; contradiction|].
    exists e. split; [reflexivity|]. now apply evaluate_err in E.
Qed.
Lemma stored_lists v : list_tree v -> stored v = v.
Proof.
  induction v as [cs i|l IH|l IH|l IH] using pv_ind2; intros H; simpl; auto; inversion H as [|l0 H0]; subst.
  f_equal. clear H. induction IH as [|x l Hx Hl IHl]; simpl; [reflexivity|]. apply Forall_cons_iff in H0 as [H1 H2]. rewrite Hx, IHl; auto.
Qed.
Lemma C59_none types fn ad : (forall f, In f ad -> f 0%N [0%N] = Ok tt) -> allowed (validator_types types true) fn ad pv_none.
Proof. intros H. constructor; [|exact H]. right. exists 0%N. split; [apply in_app_iff; right; now left|now left]. Qed.
