From Coq Require Import String.
From Verif Require Import Base BaseFacts Dict DictFacts GroupOpen.
Open Scope list_scope.

(** ** C101 opening the connections of a group *)
Section Spec.
Variables D M V C St : Type.
Variable name_of : D -> pystr.
Notation kw := (kw M V). Notation mgr := (mgr M V).
Variable zopen : D -> mgr -> kw -> kw -> St -> St * res C.
(** the manager used for every database: the group's, or a new one for each when the group has none *)
Definition group_manager (tm : kw) : mgr := match tm with KNone _ _ => New _ _ | KMgr _ _ m => Given _ _ m | KVal _ _ true v => GivenVal _ _ v | KVal _ _ false _ => New _ _ end.
(** what the caller asked for the database under its name; nothing by default *)
Definition wanted (args : dict (option (dict kw))) (b : D) (n : pystr) (k : kw) : Prop :=
  match d_get (name_of b) args with Some (Some d) => d_get n d = Some k \/ (d_get n d = None /\ k = KNone _ _) | _ => k = KNone _ _ end.
(** arguments that cannot be used: not a mapping, or with a key that is none of transaction_manager, at, before *)
Definition unusable (args : dict (option (dict kw))) (b : D) : Prop :=
  match d_get (name_of b) args with None => False | Some None => True | Some (Some d) => exists n, In n (d_keys d) /\ n <> py "transaction_manager" /\ n <> py "at" /\ n <> py "before" end.
(** the databases are opened one after the other, up to the first that cannot be: the connections opened and the exception *)
Inductive opens (m : mgr) (args : dict (option (dict kw))) : list D -> St -> St -> list C -> option exn -> Prop :=
| o_done s : opens m args [] s s [] None
| o_unusable b r s : unusable args b -> opens m args (b :: r) s s [] (Some TypeError)
| o_raise b r s s' at_ before e : ~ unusable args b -> wanted args b (py "at") at_ -> wanted args b (py "before") before -> zopen b m at_ before s = (s', Err e) -> opens m args (b :: r) s s' [] (Some e)
| o_open b r s s1 s' at_ before c l e : ~ unusable args b -> wanted args b (py "at") at_ -> wanted args b (py "before") before -> zopen b m at_ before s = (s1, Ok c) -> opens m args r s1 s' l e -> opens m args (b :: r) s s' (c :: l) e.

Lemma wanted_unique args b n k k' : wanted args b n k -> wanted args b n k' -> k = k'.
Proof. unfold wanted. destruct (d_get (name_of b) args) as [[d|]|]; try congruence. intros [A|[A ->]] [B|[B ->]]; congruence. Qed.
Lemma opens_unique m args bs s s1 l1 e1 : opens m args bs s s1 l1 e1 -> forall s2 l2 e2, opens m args bs s s2 l2 e2 -> s1 = s2 /\ l1 = l2 /\ e1 = e2.
Proof.
  induction 1 as [s|b r s U|b r s s' a f e U A F Z|b r s s1 s' a f c l e U A F Z R IH]; intros s2 l2 e2 H2; inversion H2; subst; try contradiction; try (split; [|split]; reflexivity);
    match goal with X : wanted args b (py "at") ?k |- _ => tryif constr_eq k a then fail else (pose proof (wanted_unique _ _ _ _ _ A X); subst k) | _ => idtac end;
    match goal with X : wanted args b (py "before") ?k |- _ => tryif constr_eq k f then fail else (pose proof (wanted_unique _ _ _ _ _ F X); subst k) | _ => idtac end;
    match goal with X : zopen b m _ _ s = _, Y : zopen b m _ _ s = _ |- _ => rewrite X in Y; inversion Y; subst end; auto.
  edestruct IH as [-> [-> ->]]; [eassumption|]. auto.
Qed.
Lemma known_spec (d : dict kw) : known_args M V d = true <-> forall n, In n (d_keys d) -> n = py "transaction_manager" \/ n = py "at" \/ n = py "before".
Proof.
  unfold known_args. rewrite forallb_forall. split; intros H n I; specialize (H n I).
  - apply mem_str_In in H. cbn [In] in H. intuition congruence.
  - apply mem_str_In. cbn [In]. intuition congruence.
Qed.
Lemma known_set (d : dict kw) k : known_args M V (d_set (py "transaction_manager") k d) = known_args M V d.
Proof.
  destruct (known_args M V d) eqn:E.
  - apply known_spec. rewrite known_spec in E. intros n I. rewrite d_keys_set in I. destruct (d_mem _ d); [auto|]. apply in_app_or in I. destruct I as [I|[<-|[]]]; auto.
  - destruct (known_args M V (d_set (py "transaction_manager") k d)) eqn:E2; [|reflexivity]. rewrite <- E. symmetry. apply known_spec. rewrite known_spec in E2. intros n I. apply E2. rewrite d_keys_set. destruct (d_mem _ d); [exact I|]. apply in_or_app. now left.
Qed.
Lemma open_spec tm args bs : forall s, opens (group_manager tm) args bs s (fst (fst (group_init D M V C St name_of zopen bs tm args s))) (snd (fst (group_init D M V C St name_of zopen bs tm args s))) (snd (group_init D M V C St name_of zopen bs tm args s)).
Proof.
  unfold group_init. induction bs as [|b bs IH]; intros s; cbn [open_all]; [constructor|].
  assert (B : forall d, (d_get (name_of b) args = Some (Some d) \/ (d_get (name_of b) args = None /\ d = [])) ->
    let k := d_set (py "transaction_manager") tm d in
    db_open D M V C St zopen b k s = (if known_args M V d then zopen b (group_manager tm) (kget M V "at" d) (kget M V "before" d) s else (s, Err TypeError)) /\
    (known_args M V d = false <-> unusable args b) /\ wanted args b (py "at") (kget M V "at" d) /\ wanted args b (py "before") (kget M V "before" d)).
  { intros d E k. unfold db_open, k. rewrite known_set. unfold kget. rewrite d_get_set_same. rewrite !d_get_set_other by discriminate. split; [destruct tm as [|m|[|] v]; reflexivity|]. split; [|split].
    - unfold unusable. destruct E as [->|[-> ->]].
      + split.
        * intros K. destruct (forallb_forall (fun n => mem_str n [py "transaction_manager"; py "at"; py "before"]) (d_keys d)) as [_ F].
          destruct (existsb (fun n => negb (mem_str n [py "transaction_manager"; py "at"; py "before"])) (d_keys d)) eqn:X.
          -- apply existsb_exists in X. destruct X as [n [I X]]. exists n. split; [exact I|]. apply negb_true_iff, mem_str_false in X. cbn [In] in X. repeat split; intros ->; apply X; auto.
          -- exfalso. unfold known_args in K. rewrite F in K; [discriminate K|]. intros n I. destruct (mem_str n _) eqn:Y; [reflexivity|]. assert (Z : existsb (fun n => negb (mem_str n [py "transaction_manager"; py "at"; py "before"])) (d_keys d) = true) by (apply existsb_exists; exists n; split; [exact I|now rewrite Y]). congruence.
        * intros [n [I [N1 [N2 N3]]]]. destruct (known_args M V d) eqn:K; [|reflexivity]. rewrite known_spec in K. destruct (K n I) as [->|[->| ->]]; contradiction.
      + split; [discriminate|intros []].
    - unfold wanted. destruct E as [->|[-> ->]]; [|reflexivity]. destruct (d_get (py "at") d); auto.
    - unfold wanted. destruct E as [->|[-> ->]]; [|reflexivity]. destruct (d_get (py "before") d); auto. }
  unfold details. destruct (d_get (name_of b) args) as [[d|]|] eqn:E.
  - change (d_merge d [(py "transaction_manager", tm)]) with (d_set (py "transaction_manager") tm d). destruct (B d (or_introl eq_refl)) as [B1 [B2 [B3 B4]]]. rewrite B1. destruct (known_args M V d) eqn:K.
    + assert (U : ~ unusable args b) by (rewrite <- B2; discriminate). destruct (zopen b (group_manager tm) (kget M V "at" d) (kget M V "before" d) s) as [s1 [c|e]] eqn:Z.
      * specialize (IH s1). destruct (open_all D M V C St name_of zopen [(py "transaction_manager", tm)] args bs s1) as [[s2 l] e]. cbn [fst snd] in *. eapply o_open; eassumption.
      * cbn [fst snd]. eapply o_raise; eassumption.
    + cbn [fst snd]. apply o_unusable. now apply B2.
  - cbn [fst snd]. apply o_unusable. unfold unusable. rewrite E. exact I.
  - change (d_merge [(py "transaction_manager", tm)] [(py "transaction_manager", tm)]) with (d_set (py "transaction_manager") tm []). destruct (B [] (or_intror (conj eq_refl eq_refl))) as [B1 [B2 [B3 B4]]]. rewrite B1. change (known_args M V []) with true in *. cbv iota.
    assert (U : ~ unusable args b) by (rewrite <- B2; discriminate). destruct (zopen b (group_manager tm) (kget M V "at" []) (kget M V "before" []) s) as [s1 [c|e]] eqn:Z.
    + specialize (IH s1). destruct (open_all D M V C St name_of zopen [(py "transaction_manager", tm)] args bs s1) as [[s2 l] e]. cbn [fst snd] in *. eapply o_open; eassumption.
    + cbn [fst snd]. eapply o_raise; eassumption.
Qed.
End Spec.

(** the databases are opened in their order, each once and with the group's manager, at the points asked for, up to the first that fails; the exception is that database's.
    The connections opened before it are in nobody's hands and stay open. *)
Theorem C101_opens : forall D M V C St (name_of : D -> pystr) zopen bs tm args (s s' : St) l e, group_init D M V C St name_of zopen bs tm args s = (s', l, e) ->
  opens D M V C St name_of zopen (group_manager M V tm) args bs s s' l e /\
  forall s2 l2 e2, opens D M V C St name_of zopen (group_manager M V tm) args bs s s2 l2 e2 -> s2 = s' /\ l2 = l /\ e2 = e.
Proof.
  intros D M V C St nm zo bs tm args s s' l e H. pose proof (open_spec D M V C St nm zo tm args bs s) as O. rewrite H in O. cbn [fst snd] in O. split; [exact O|].
  intros s2 l2 e2 O2. exact (opens_unique D M V C St nm zo _ _ _ _ _ _ _ O2 _ _ _ O).
Qed.
Print Assumptions C101_opens.
(** every database gives one connection when the constructor succeeds *)
Theorem C101_all : forall D M V C St (name_of : D -> pystr) zopen bs tm args (s s' : St) l, group_init D M V C St name_of zopen bs tm args s = (s', l, None) -> List.length l = List.length bs.
Proof.
  intros D M V C St nm zo bs tm args s s' l H. destruct (C101_opens _ _ _ _ _ _ _ _ _ _ _ _ _ _ H) as [O _]. clear H. remember None as e. induction O; try discriminate Heqe; [reflexivity|]. cbn. now rewrite IHO.
Qed.
Print Assumptions C101_all.
(** false of the code: "connection args overriding defaults". A transaction manager given for one database is never used *)
Theorem C101_override_refuted : forall D M V C St (name_of : D -> pystr) zopen bs tm args n d m (s : St), d_get n args = Some (Some d) ->
  group_init D M V C St name_of zopen bs tm (d_set n (Some (d_set (py "transaction_manager") m d)) args) s = group_init D M V C St name_of zopen bs tm args s.
Proof.
  intros D M V C St nm zo bs tm args n d m s E. unfold group_init. revert s. induction bs as [|b bs IH]; intros s; cbn [open_all]; [reflexivity|].
  assert (X : details D M V nm [(py "transaction_manager", tm)] (d_set n (Some (d_set (py "transaction_manager") m d)) args) b = details D M V nm [(py "transaction_manager", tm)] args b).
  { unfold details. destruct (str_eqb (nm b) n) eqn:Q.
    - apply str_eqb_eq in Q. subst n. rewrite d_get_set_same, E. f_equal. unfold d_merge. cbn [fold_left fst snd]. clear. induction d as [|[k v] d IH]; cbn [d_set].
      + rewrite str_eqb_refl. reflexivity.
      + destruct (str_eqb (py "transaction_manager") k) eqn:Q; cbn [d_set]; rewrite Q; [reflexivity|]. now rewrite IH.
    - rewrite d_get_set_other; [reflexivity|]. intros X. rewrite X, str_eqb_refl in Q. discriminate Q. }
  rewrite X. destruct (details D M V nm _ args b) as [x|x]; [|reflexivity]. destruct (db_open D M V C St zo b x s) as [s1 [c|e]]; [|reflexivity]. now rewrite IH.
Qed.
Print Assumptions C101_override_refuted.

(** three databases, the third of which cannot be opened: the first two stay open *)
Definition open3 (b : N) (m : mgr nat nat) (at_ before : kw nat nat) (s : list (N * mgr nat nat * kw nat nat)) : list (N * mgr nat nat * kw nat nat) * res N :=
  if N.eqb b 3 then (s, Err KeyError) else (s ++ [(b, m, at_)], Ok b).
Example C101_case : let named (b : N) : pystr := [b] in let args := [([1%N], Some [(py "at", KVal nat nat true 9); (py "transaction_manager", KMgr nat nat 5)])] in
  group_init N nat nat N _ named open3 [1; 2]%N (KMgr nat nat 7) args [] = ([(1%N, Given nat nat 7, KVal nat nat true 9); (2%N, Given nat nat 7, KNone nat nat)], [1; 2]%N, None) /\
  group_init N nat nat N _ named open3 [1; 3; 2]%N (KNone nat nat) args [] = ([(1%N, New nat nat, KVal nat nat true 9)], [1]%N, Some KeyError) /\
  group_init N nat nat N _ named open3 [1; 2]%N (KNone nat nat) [([2%N], Some [(py "when", KNone nat nat)])] [] = ([(1%N, New nat nat, KNone nat nat)], [1]%N, Some TypeError).
Proof. cbv zeta. split; [|split]; vm_compute; reflexivity. Qed.
