(** Specification and proofs for stringify *)
From Coq Require Import String.
From Verif Require Import Base BaseFacts Duration DateTime Stringify.
Set Implicit Arguments.
Open Scope list_scope.

(** What a value becomes. A dict made of [ps] has every key once, with the value given last. *)
Definition last_given (k v : sval) (ps : list (sval * sval)) : Prop := exists ps1 ps2, ps = ps1 ++ (k, v) :: ps2 /\ ~ In k (map fst ps2).
Inductive renders : sval -> sval -> Prop :=
| RStr s : renders (XStr s) (XStr s)
| RInt z : renders (XInt z) (XInt z)
| RFloat f : renders (XFloat f) (XFloat f)
| RDate d : renders (XDate d) (XStr (datetime_str d))
| RDelta d : renders (XDelta d) (XStr (timedelta_str d))
| ROther s : renders (XOther (Ok s)) (XStr s)
| RList l l' : Forall2 renders l l' -> renders (XList l) (XList l')
| RTuple l l' : Forall2 renders l l' -> renders (XTuple l) (XList l')
| RSet l l' : Forall2 renders l l' -> renders (XSet l) (XList l')
| RDict l ps d : Forall2 renders (map fst l) (map fst ps) -> Forall2 renders (map snd l) (map snd ps) ->
    NoDup (map fst d) -> (forall k v, In (k, v) d <-> last_given k v ps) -> renders (XDict l) (XDict d).

(** what json.dumps takes: texts, numbers, lists and dicts with texts and numbers for keys *)
Inductive key : sval -> Prop := KStr s : key (XStr s) | KInt z : key (XInt z) | KFloat f : key (XFloat f).
Inductive plain : sval -> Prop :=
| PKey x : key x -> plain x
| PList l : Forall plain l -> plain (XList l)
| PDict d : Forall key (map fst d) -> NoDup (map fst d) -> Forall plain (map snd d) -> plain (XDict d).

(** no [str()] raises, and no key of a dict is a tuple (or another container) *)
Inductive sound : sval -> Prop :=
| SStr s : sound (XStr s)
| SInt z : sound (XInt z)
| SFloat f : sound (XFloat f)
| SDate d : sound (XDate d)
| SDelta d : sound (XDelta d)
| SOther s : sound (XOther (Ok s))
| SList l : Forall sound l -> sound (XList l)
| STuple l : Forall sound l -> sound (XTuple l)
| SSet l : Forall sound l -> sound (XSet l)
| SDict d : Forall (fun k => sound k /\ match k with XList _ | XTuple _ | XSet _ | XDict _ => False | _ => True end) (map fst d) ->
    Forall sound (map snd d) -> sound (XDict d).

(** induction on nested values *)
Section Ind.
Variable P : sval -> Prop.
Hypothesis Hs : forall s, P (XStr s).
Hypothesis Hi : forall z, P (XInt z).
Hypothesis Hf : forall f, P (XFloat f).
Hypothesis Hd : forall d, P (XDate d).
Hypothesis Ht : forall d, P (XDelta d).
Hypothesis Hl : forall l, Forall P l -> P (XList l).
Hypothesis Hu : forall l, Forall P l -> P (XTuple l).
Hypothesis He : forall l, Forall P l -> P (XSet l).
Hypothesis Hm : forall l, Forall P (map fst l) -> Forall P (map snd l) -> P (XDict l).
Hypothesis Ho : forall r, P (XOther r).
Fixpoint sval_all (x : sval) : P x :=
  let all := fix all (l : list sval) : Forall P l := match l with [] => Forall_nil P | y :: l' => Forall_cons y (sval_all y) (all l') end in
  match x with
  | XStr s => Hs s | XInt z => Hi z | XFloat f => Hf f | XDate d => Hd d | XDelta d => Ht d
  | XList l => @Hl l (all l) | XTuple l => @Hu l (all l) | XSet l => @He l (all l)
  | XDict l =>
      @Hm l ((fix ks (l : list (sval * sval)) : Forall P (map fst l) := match l with [] => Forall_nil P | p :: l' => Forall_cons (fst p) (sval_all (fst p)) (ks l') end) l)
         ((fix vs (l : list (sval * sval)) : Forall P (map snd l) := match l with [] => Forall_nil P | p :: l' => Forall_cons (snd p) (sval_all (snd p)) (vs l') end) l)
  | XOther r => Ho r
  end.
End Ind.

(** the two loops, by themselves *)
Fixpoint each (l : list sval) : res (list sval) :=
  match l with
  | [] => Ok []
  | y :: l' => rbind (stringify y) (fun y1 => rbind (each l') (fun l1 => Ok (y1 :: l1)))
  end.
Fixpoint pairs (l : list (sval * sval)) (d : list (sval * sval)) : res (list (sval * sval)) :=
  match l with
  | [] => Ok d
  | (k, v) :: l' => rbind (stringify k) (fun k1 => rbind (stringify v) (fun v1 => if hashable k1 then pairs l' (put k1 v1 d) else Err TypeError))
  end.
Lemma stringify_eq x : stringify x =
  match x with
  | XStr s => Ok (XStr s)
  | XInt z => Ok (XInt z)
  | XFloat f => Ok (XFloat f)
  | XDate d => Ok (XStr (datetime_str d))
  | XDelta d => Ok (XStr (timedelta_str d))
  | XList l | XTuple l | XSet l => rbind (each l) (fun l1 => Ok (XList l1))
  | XDict l => rbind (pairs l []) (fun d => Ok (XDict d))
  | XOther r => rbind r (fun s => Ok (XStr s))
  end.
Proof. destruct x; reflexivity. Qed.

Lemma hashable_key x : hashable x = true <-> key x.
Proof. split; [destruct x; try discriminate; constructor|intros []; reflexivity]. Qed.
Lemma same_key_eq a b : same_key a b = true -> a = b.
Proof.
  destruct a, b; cbn; try discriminate; intro H; f_equal.
  - now apply str_eqb_eq.
  - now apply Z.eqb_eq.
  - now apply N.eqb_eq.
Qed.
Lemma same_key_refl a : key a -> same_key a a = true.
Proof. intros []; cbn; [now apply str_eqb_eq|apply Z.eqb_refl|apply N.eqb_refl]. Qed.
Lemma put_keys k v d : key k -> (In k (map fst d) /\ map fst (put k v d) = map fst d) \/ (~ In k (map fst d) /\ put k v d = d ++ [(k, v)]).
Proof.
  intro K. induction d as [|[k' v'] d IH]; cbn; [right; auto|]. destruct (same_key k' k) eqn:E.
  - apply same_key_eq in E. subst. left. auto.
  - destruct IH as [[A B]|[A B]].
    + left. cbn. rewrite B. auto.
    + right. rewrite B. split; auto. intros [<-|H]; [|auto]. now rewrite same_key_refl in E.
Qed.
Lemma put_in k v d : key k -> NoDup (map fst d) -> forall k1 v1, In (k1, v1) (put k v d) <-> (k1 = k /\ v1 = v) \/ (k1 <> k /\ In (k1, v1) d).
Proof.
  intros K. induction d as [|[k' v'] d IH]; intros N k1 v1; cbn.
  - split; [intros [H|[]]; injection H as <- <-; auto|intros [[-> ->]|[_ []]]; auto].
  - cbn in N. inversion N as [|? ? N1 N2]; subst. destruct (same_key k' k) eqn:E.
    + apply same_key_eq in E. subst. cbn. split.
      * intros [H|H]; [injection H as <- <-; auto|]. right. split; auto. intros ->. apply N1. now apply (in_map fst) in H.
      * intros [[-> ->]|[A [H|H]]]; [auto|injection H as <- <-; now elim A|auto].
    + assert (A : k' <> k) by (intros ->; now rewrite same_key_refl in E). cbn. rewrite (IH N2). split.
      * intros [H|[[-> ->]|[B H]]]; [injection H as <- <-; auto|auto|auto].
      * intros [[-> ->]|[B [H|H]]]; auto.
Qed.
Lemma put_nodup k v d : key k -> NoDup (map fst d) -> NoDup (map fst (put k v d)).
Proof.
  intros K N. destruct (put_keys v d K) as [[_ ->]|[A ->]]; auto. rewrite map_app. cbn. apply NoDup_rev in N.
  rewrite <- (rev_involutive (map fst d ++ [k])). apply NoDup_rev. rewrite rev_app_distr. cbn. constructor; auto. now rewrite <- in_rev.
Qed.

(** a loop over the pairs: [d] first, then the pairs, the last wins *)
Definition dict_of (ps : list (sval * sval)) (d : list (sval * sval)) : list (sval * sval) := fold_left (fun d p => put (fst p) (snd p) d) ps d.
Lemma pairs_some l : forall d r, pairs l d = Ok r -> exists ps, Forall2 (fun x y => stringify x = Ok y) (map fst l) (map fst ps) /\
  Forall2 (fun x y => stringify x = Ok y) (map snd l) (map snd ps) /\ Forall key (map fst ps) /\ r = dict_of ps d.
Proof.
  induction l as [|[k v] l IH]; intros d r H; cbn in H.
  - injection H as <-. exists []. repeat split; constructor.
  - destruct (stringify k) as [k1|] eqn:Ek; cbn in H; [|discriminate]. destruct (stringify v) as [v1|] eqn:Ev; cbn in H; [|discriminate].
    destruct (hashable k1) eqn:K; [|discriminate]. apply hashable_key in K. destruct (IH _ _ H) as (ps & A & B & C & D). exists ((k1, v1) :: ps). cbn.
    repeat split; auto.
Qed.
Lemma dict_of_in ps : forall d, Forall key (map fst ps) -> NoDup (map fst d) ->
  NoDup (map fst (dict_of ps d)) /\ forall k v, In (k, v) (dict_of ps d) <-> last_given k v ps \/ (~ In k (map fst ps) /\ In (k, v) d).
Proof.
  induction ps as [|[k0 v0] ps IH]; intros d K N.
  - split; [exact N|]. intros k v. cbn. split; [auto|]. intros [(p1 & p2 & E & _)|[_ H]]; [now destruct p1|auto].
  - inversion K as [|? ? K1 K2]; subst. cbn in K1. destruct (IH (put k0 v0 d) K2 (put_nodup v0 d K1 N)) as [A B]. split; [exact A|].
    intros k v. cbn [dict_of fold_left fst snd]. fold (dict_of ps (put k0 v0 d)). rewrite B, (put_in v0 d K1 N). cbn. split.
    + intros [(p1 & p2 & -> & H)|[H [[-> ->]|[H1 H2]]]].
      * left. exists ((k0, v0) :: p1), p2. auto.
      * left. exists [], ps. auto.
      * right. split; auto. intros [E|E]; auto.
    + intros [(p1 & p2 & E & H)|[H H1]].
      * destruct p1 as [|q p1]; cbn in E; [injection E as -> -> ->; auto|]. injection E as _ ->. left. exists p1, p2. auto.
      * right. split; [auto|]. right. split; auto.
Qed.

Lemma each_some l : forall r, each l = Ok r <-> Forall2 (fun x y => stringify x = Ok y) l r.
Proof.
  induction l as [|x l IH]; intro r; cbn.
  - split; [intro H; injection H as <-; constructor|]. intro H. now inversion H.
  - destruct (stringify x) as [y|] eqn:E; cbn.
    + destruct (each l) as [l1|] eqn:El; cbn.
      * split; [intro H; injection H as <-; constructor; [auto|now apply IH]|]. intro H. inversion H as [|? y' ? r' H1 H2]; subst. assert (y' = y) by congruence. subst. apply IH in H2. congruence.
      * split; [discriminate|]. intro H. inversion H as [|? y' ? r' H1 H2]; subst. apply IH in H2. discriminate.
    + split; [discriminate|]. intro H. inversion H; subst. congruence.
Qed.

Lemma forall2_weaken (l : list sval) : forall r, Forall (fun x => forall y, stringify x = Ok y -> renders x y) l ->
  Forall2 (fun x y => stringify x = Ok y) l r -> Forall2 renders l r.
Proof. induction l as [|x l IH]; intros r F H; inversion H; subst; constructor; inversion F; subst; auto. Qed.
Lemma stringify_renders x : forall y, stringify x = Ok y -> renders x y.
Proof.
  induction x using sval_all; intros y E; rewrite stringify_eq in E.
  - injection E as <-. constructor.
  - injection E as <-. constructor.
  - injection E as <-. constructor.
  - injection E as <-. constructor.
  - injection E as <-. constructor.
  - destruct (each l) as [l1|] eqn:El; [|discriminate]. injection E as <-. apply each_some in El. constructor. now apply forall2_weaken.
  - destruct (each l) as [l1|] eqn:El; [|discriminate]. injection E as <-. apply each_some in El. constructor. now apply forall2_weaken.
  - destruct (each l) as [l1|] eqn:El; [|discriminate]. injection E as <-. apply each_some in El. constructor. now apply forall2_weaken.
  - destruct (pairs l []) as [d|] eqn:Ep; [|discriminate]. injection E as <-. destruct (pairs_some _ _ Ep) as (ps & A & B & C & ->).
    destruct (@dict_of_in ps [] C) as [D I]; [constructor|]. apply RDict with ps; auto; [now apply forall2_weaken|now apply forall2_weaken|].
    intros k v. rewrite I. cbn. intuition.
  - destruct r as [s|e]; [|discriminate]. injection E as <-. constructor.
Qed.

Lemma forall2_plain (l : list sval) : forall r, Forall (fun x => forall y, stringify x = Ok y -> plain y) l ->
  Forall2 (fun x y => stringify x = Ok y) l r -> Forall plain r.
Proof. induction l as [|x l IH]; intros r F H; inversion H; subst; constructor; inversion F; subst; eauto. Qed.
Lemma dict_of_vals ps : forall d (P : sval -> Prop), Forall P (map snd ps) -> Forall P (map snd d) -> Forall P (map snd (dict_of ps d)).
Proof.
  induction ps as [|[k v] ps IH]; intros d P A B; [exact B|]. inversion A as [|? ? A1 A2]; subst. cbn. apply IH; auto. cbn in A1. clear - A1 B.
  induction d as [|[k' v'] d IH]; cbn; [repeat constructor; auto|]. inversion B; subst. destruct (same_key k' k); cbn; constructor; auto.
Qed.
Lemma dict_of_keys ps : forall d, Forall key (map fst ps) -> Forall key (map fst d) -> Forall key (map fst (dict_of ps d)).
Proof.
  induction ps as [|[k v] ps IH]; intros d A B; [exact B|]. inversion A as [|? ? A1 A2]; subst. cbn. apply IH; auto. cbn in A1.
  destruct (put_keys v d A1) as [[_ ->]|[_ ->]]; auto. rewrite map_app. apply Forall_app. split; auto. repeat constructor. exact A1.
Qed.
Lemma stringify_plain x : forall y, stringify x = Ok y -> plain y.
Proof.
  induction x using sval_all; intros y E; rewrite stringify_eq in E.
  - injection E as <-. apply PKey. constructor.
  - injection E as <-. apply PKey. constructor.
  - injection E as <-. apply PKey. constructor.
  - injection E as <-. apply PKey. constructor.
  - injection E as <-. apply PKey. constructor.
  - destruct (each l) as [l1|] eqn:El; [|discriminate]. injection E as <-. apply each_some in El. apply PList. eapply forall2_plain; eauto.
  - destruct (each l) as [l1|] eqn:El; [|discriminate]. injection E as <-. apply each_some in El. apply PList. eapply forall2_plain; eauto.
  - destruct (each l) as [l1|] eqn:El; [|discriminate]. injection E as <-. apply each_some in El. apply PList. eapply forall2_plain; eauto.
  - destruct (pairs l []) as [d|] eqn:Ep; [|discriminate]. injection E as <-. destruct (pairs_some _ _ Ep) as (ps & A & B & C & ->).
    destruct (@dict_of_in ps [] C) as [D I]; [constructor|]. apply PDict; auto.
    + apply dict_of_keys; auto. constructor.
    + apply dict_of_vals; [eapply forall2_plain; eauto|constructor].
  - destruct r as [s|e]; [|discriminate]. injection E as <-. apply PKey. constructor.
Qed.

Lemma key_self x : key x -> stringify x = Ok x.
Proof. intros []; reflexivity. Qed.
Lemma pairs_self d : forall acc, Forall key (map fst d) -> NoDup (map fst (acc ++ d)) -> Forall (fun x => stringify x = Ok x) (map snd d) -> pairs d acc = Ok (acc ++ d).
Proof.
  induction d as [|[k v] d IH]; intros acc K N V; cbn; [now rewrite app_nil_r|]. inversion K as [|? ? K1 K2]; subst. inversion V as [|? ? V1 V2]; subst. cbn in K1, V1.
  rewrite (key_self K1), V1. cbn. rewrite (proj2 (hashable_key _) K1).
  assert (F : ~ In k (map fst acc)). { rewrite map_app in N. cbn in N. apply NoDup_remove_2 in N. intro H. apply N. apply in_or_app. auto. }
  destruct (put_keys v acc K1) as [[H _]|[_ ->]]; [now elim F|]. rewrite IH; auto.
  - now rewrite <- app_assoc.
  - now rewrite <- app_assoc.
Qed.
Lemma plain_self x : plain x -> stringify x = Ok x.
Proof.
  induction x using sval_all; intro P; try reflexivity; rewrite stringify_eq.
  - inversion P as [x0 Hk | l0 F | d0 F1 F2 F3]. inversion Hk.
  - inversion P as [x0 Hk | l0 F | d0 F1 F2 F3]. inversion Hk.
  - assert (A : Forall plain l). { inversion P as [x0 Hk | l0 F | d0 F1 F2 F3]; subst; [inversion Hk|exact F]. }
    replace (each l) with (Ok l); [reflexivity|]. symmetry. apply each_some. clear P. induction l; inversion A; inversion H; subst; constructor; auto.
  - inversion P as [x0 Hk | l0 F | d0 F1 F2 F3]. inversion Hk.
  - inversion P as [x0 Hk | l0 F | d0 F1 F2 F3]. inversion Hk.
  - inversion P as [x0 Hk | l0 F | d0 F1 F2 F3]; subst; [inversion Hk|].
    rewrite (@pairs_self l []); [reflexivity|exact F1|exact F2|]. clear - F3 H0. induction (map snd l); inversion F3; inversion H0; subst; constructor; auto.
  - inversion P as [x0 Hk | l0 F | d0 F1 F2 F3]. inversion Hk.
Qed.

(** when it succeeds *)
Definition scalar (k : sval) : Prop := match k with XList _ | XTuple _ | XSet _ | XDict _ => False | _ => True end.
Lemma scalar_key k k1 : stringify k = Ok k1 -> (key k1 <-> scalar k).
Proof.
  destruct k; cbn [scalar]; rewrite stringify_eq.
  - intro E. injection E as <-. split; [auto|constructor].
  - intro E. injection E as <-. split; [auto|constructor].
  - intro E. injection E as <-. split; [auto|constructor].
  - intro E. injection E as <-. split; [auto|constructor].
  - intro E. injection E as <-. split; [auto|constructor].
  - destruct (each l); cbn; [|discriminate]. intro E. injection E as <-. split; [intro H; inversion H|intros []].
  - destruct (each l); cbn; [|discriminate]. intro E. injection E as <-. split; [intro H; inversion H|intros []].
  - destruct (each l); cbn; [|discriminate]. intro E. injection E as <-. split; [intro H; inversion H|intros []].
  - destruct (pairs l []); cbn; [|discriminate]. intro E. injection E as <-. split; [intro H; inversion H|intros []].
  - destruct r; cbn; [|discriminate]. intro E. injection E as <-. split; [auto|constructor].
Qed.
Lemma pairs_ok l : forall d, Forall (fun k => sound k -> exists y, stringify k = Ok y) (map fst l) -> Forall (fun v => sound v -> exists y, stringify v = Ok y) (map snd l) ->
  Forall (fun k => sound k /\ scalar k) (map fst l) -> Forall sound (map snd l) -> exists r, pairs l d = Ok r.
Proof.
  induction l as [|[k v] l IH]; intros d A B C D; cbn; [eauto|]. inversion A as [|? ? A1 A2]; inversion B as [|? ? B1 B2]; inversion C as [|? ? [C1 C3] C2]; inversion D as [|? ? D1 D2]; subst.
  cbn in A1, B1, C1, C3, D1. destruct (A1 C1) as (k1 & Ek). destruct (B1 D1) as (v1 & Ev). rewrite Ek, Ev. cbn. apply (scalar_key _ Ek) in C3. rewrite (proj2 (hashable_key _) C3). auto.
Qed.
Lemma each_ok l : Forall (fun k => sound k -> exists y, stringify k = Ok y) l -> Forall sound l -> exists r, each l = Ok r.
Proof.
  induction l as [|x l IH]; intros A B; cbn; [eauto|]. inversion A as [|? ? A1 A2]; inversion B as [|? ? B1 B2]; subst. destruct (A1 B1) as (y & ->). destruct (IH A2 B2) as (r & ->). cbn. eauto.
Qed.
Lemma sound_ok x : sound x -> exists y, stringify x = Ok y.
Proof.
  induction x using sval_all; intro P; rewrite stringify_eq; try (eexists; reflexivity).
  - assert (A : Forall sound l) by (inversion P; auto). destruct (each_ok H A) as (r & ->). cbn. eauto.
  - assert (A : Forall sound l) by (inversion P; auto). destruct (each_ok H A) as (r & ->). cbn. eauto.
  - assert (A : Forall sound l) by (inversion P; auto). destruct (each_ok H A) as (r & ->). cbn. eauto.
  - inversion P as [ | | | | | | | | |d0 F1 F2]; subst. destruct (@pairs_ok l [] H H0 F1 F2) as (r & ->). cbn. eauto.
  - destruct r; inversion P. cbn. eauto.
Qed.
Lemma each_sound l : forall r, Forall (fun k => forall y, stringify k = Ok y -> sound k) l -> each l = Ok r -> Forall sound l.
Proof. intros r A E. apply each_some in E. revert r E. induction l as [|x l IH]; intros r E; inversion E; inversion A; subst; constructor; eauto. Qed.
Lemma ok_sound x : forall y, stringify x = Ok y -> sound x.
Proof.
  induction x using sval_all; intros y E; rewrite stringify_eq in E; try (constructor; fail).
  - destruct (each l) as [l1|] eqn:El; [|discriminate]. constructor. eapply each_sound; eauto.
  - destruct (each l) as [l1|] eqn:El; [|discriminate]. constructor. eapply each_sound; eauto.
  - destruct (each l) as [l1|] eqn:El; [|discriminate]. constructor. eapply each_sound; eauto.
  - destruct (pairs l []) as [d|] eqn:Ep; [|discriminate]. destruct (pairs_some _ _ Ep) as (ps & A & B & C & _). constructor.
    + clear - A C H. revert A C. generalize (map fst ps). induction (map fst l) as [|k ks IH]; intros kp A C; [constructor|].
      inversion A as [|? k1 ? kp' A1 A2]; inversion H as [|? ? Q1 Q2]; subst. inversion C as [|? ? C1 C2]; subst. constructor; [|eapply IH; eauto].
      split; [eapply Q1; eauto|]. now apply (scalar_key _ A1).
    + clear - B H0. revert B. generalize (map snd ps). induction (map snd l) as [|k ks IH]; intros kp B; [constructor|].
      inversion B as [|? k1 ? kp' A1 A2]; inversion H0 as [|? ? Q1 Q2]; subst. constructor; [eapply Q1; eauto|eapply IH; eauto].
  - destruct r as [s|e]; [constructor|discriminate].
Qed.
Lemma stringify_ok_iff x : (exists y, stringify x = Ok y) <-> sound x.
Proof. split; [intros (y & E); eapply ok_sound; eauto|apply sound_ok]. Qed.
Lemma stringify_idem x y : stringify x = Ok y -> stringify y = Ok y.
Proof. intro E. apply plain_self. eapply stringify_plain; eauto. Qed.
(** when the keys stay different, the dict keeps its entries in their order *)
Lemma dict_of_distinct ps : forall d, Forall key (map fst ps) -> NoDup (map fst (d ++ ps)) -> dict_of ps d = d ++ ps.
Proof.
  induction ps as [|[k v] ps IH]; intros d K N; cbn; [now rewrite app_nil_r|]. inversion K as [|? ? K1 K2]; subst. cbn in K1. fold (dict_of ps (put k v d)).
  assert (F : ~ In k (map fst d)). { rewrite map_app in N. cbn in N. apply NoDup_remove_2 in N. intro H. apply N. apply in_or_app. auto. }
  destruct (put_keys v d K1) as [[H _]|[_ ->]]; [now elim F|]. rewrite IH; auto; now rewrite <- app_assoc.
Qed.
Lemma forall2_len {A B} (R : A -> B -> Prop) l m : Forall2 R l m -> length l = length m.
Proof. induction 1; cbn; auto. Qed.
Lemma stringify_dict_distinct l ks vs : Forall2 (fun x y => stringify x = Ok y) (map fst l) ks -> Forall2 (fun x y => stringify x = Ok y) (map snd l) vs ->
  Forall key ks -> NoDup ks -> stringify (XDict l) = Ok (XDict (combine ks vs)).
Proof.
  intros A B K N. rewrite stringify_eq.
  assert (E : forall acc, pairs l acc = Ok (dict_of (combine ks vs) acc)).
  { clear N. revert ks vs A B K. induction l as [|[k v] l IH]; intros ks vs A B K acc; inversion A; inversion B; subst; [reflexivity|]. inversion K; subst. cbn [pairs]. cbn [fst snd] in *.
    repeat match goal with H : stringify _ = Ok _ |- _ => rewrite H; clear H end. cbn [rbind]. rewrite (proj2 (hashable_key _)) by assumption. cbn [combine]. rewrite IH with (ks := l') (vs := l'0); auto. }
  rewrite E. cbn. f_equal. f_equal. assert (L : length vs = length ks). { apply forall2_len in A, B. rewrite !map_length in *. congruence. }
  assert (M : map fst (combine ks vs) = ks). { clear - L. revert vs L. induction ks as [|k ks IH]; intros [|v vs] L; try discriminate; cbn; auto. now rewrite IH by (cbn in L; lia). }
  rewrite dict_of_distinct; auto; cbn; now rewrite M.
Qed.
