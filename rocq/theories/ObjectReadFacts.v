From Coq Require Import String.
From Verif Require Import Base BaseFacts Dict DictFacts ObjectRead ObjectReadSpec.
Open Scope list_scope.
Section Facts.
Variables St V : Type.
Notation props := (props St V).
Lemma iterate_reads (o : props) : NoDup (map fst o) -> forall s, exists s' l e, iterate St V o s = (s', l, e) /\ reads o (map fst o) s s' l e.
Proof.
  intros _. assert (H : forall p, incl p o -> forall s, exists s' l e, iterate St V p s = (s', l, e) /\ reads o (map fst p) s s' l e).
  { induction p as [|[n g] p IH]; intros I s.
    - exists s, [], None. split; [reflexivity|constructor].
    - cbn [iterate map fst]. destruct (g s) as [s1 [v|e]] eqn:G.
      + destruct (IH (fun x h => I x (or_intror h)) s1) as [s' [l [e [E R]]]]. rewrite E. exists s', ((n, v) :: l), e. split; [reflexivity|].
        eapply r_value; [|exact G|exact R]. apply I. now left.
      + exists s1, [], (Some e). split; [reflexivity|]. eapply r_raise; [|exact G]. apply I. now left. }
  apply H, incl_refl.
Qed.
Lemma reads_det (o : props) : NoDup (map fst o) -> forall ns s s1 l1 e1, reads o ns s s1 l1 e1 -> forall s2 l2 e2, reads o ns s s2 l2 e2 -> s1 = s2 /\ l1 = l2 /\ e1 = e2.
Proof.
  intros D ns s s1 l1 e1 H. assert (U : forall n g g', In (n, g) o -> In (n, g') o -> g = g').
  { intros n g g' A B. apply (d_get_nodup _ _ _ D) in A. apply (d_get_nodup _ _ _ D) in B. congruence. }
  induction H as [s|n g ns s s' e I G|n g ns s s1 v s' l e I G R IH]; intros s2 l2 e2 H2.
  - inversion H2. auto.
  - inversion H2 as [|n' g' ns' t t' e' I' G'|n' g' ns' t t1 v' t' l' e' I' G' R']; subst; pose proof (U _ _ _ I I'); subst g'; rewrite G in G'; inversion G'; auto.
  - inversion H2 as [|n' g' ns' t t' e' I' G'|n' g' ns' t t1 v' t' l' e' I' G' R']; subst; pose proof (U _ _ _ I I'); subst g'; rewrite G in G'; inversion G'; subst.
    destruct (IH _ _ _ R') as [-> [-> ->]]. auto.
Qed.
Lemma collect_reads (o : props) : forall ns acc s, (forall n, In n ns -> In n (map fst o)) ->
  exists s' l e, reads o ns s s' l e /\ (e = None -> map fst l = ns) /\
    collect St V o (map KStr ns) acc s = (s', match e with Some x => Err x | None => Ok (d_merge acc l) end).
Proof.
  induction ns as [|n ns IH]; intros acc s I.
  - exists s, [], None. repeat split. constructor.
  - cbn [map collect]. unfold read. destruct (d_get n o) as [g|] eqn:G.
    2:{ exfalso. apply d_get_none in G. apply G, I. now left. }
    apply d_get_some_in in G. destruct (g s) as [s1 [v|e]] eqn:E.
    + destruct (IH (d_set n v acc) s1) as [s' [l [e [R [M C]]]]]; [intros; apply I; now right|].
      exists s', ((n, v) :: l), e. split; [eapply r_value; eauto|]. split; [intros X; cbn [map fst]; now rewrite (M X)|]. rewrite C. reflexivity.
    + exists s1, [], (Some e). split; [eapply r_raise; eauto|]. split; [discriminate|reflexivity].
Qed.
Lemma last_of_spec n (v : V) l : last_of n l = Some v <-> last_read l n v.
Proof.
  unfold last_read. induction l as [|[k x] l IH]; cbn [last_of].
  - split; [discriminate|]. intros [a [b [E _]]]. destruct a; discriminate E.
  - destruct (last_of n l) as [y|] eqn:L.
    + rewrite IH. split.
      * intros [a [b [E N]]]. exists ((k, x) :: a), b. split; [cbn; now rewrite E|exact N].
      * intros [[|p a] [b [E N]]]; cbn in E; inversion E.
        -- exfalso. apply N. apply last_of_in. subst. rewrite L. discriminate.
        -- exists a, b. split; [reflexivity|exact N].
    + destruct (str_eqb n k) eqn:Q.
      * apply str_eqb_eq in Q. subst k. split.
        -- intros E. injection E as ->. exists [], l. split; [reflexivity|]. intros Z. apply last_of_in in Z. now apply Z.
        -- intros [[|p a] [b [E N]]]; cbn in E.
           ++ inversion E. reflexivity.
           ++ injection E as _ E. exfalso. assert (Z : In n (map fst l)) by (rewrite E, map_app; apply in_or_app; right; now left). apply last_of_in in Z. now apply Z.
      * split; [discriminate|]. intros [[|p a] [b [E N]]]; cbn in E.
        -- inversion E; subst. rewrite str_eqb_refl in Q. discriminate Q.
        -- injection E as _ E. exfalso. assert (Z : In n (map fst l)) by (rewrite E, map_app; apply in_or_app; right; now left). apply last_of_in in Z. now apply Z.
Qed.
Lemma merge_app (d : dict V) a b : d_merge d (a ++ b) = d_merge (d_merge d a) b.
Proof. unfold d_merge. now rewrite fold_left_app. Qed.
Lemma merge_firsts (l : list (pystr * V)) : firsts (map fst l) (d_keys (d_merge [] l)).
Proof.
  induction l as [|[n v] l IH] using rev_ind; [constructor|].
  rewrite map_app, merge_app. cbn [map fst]. unfold d_merge at 1. cbn [fold_left fst snd]. rewrite d_keys_set. unfold d_mem. rewrite d_get_merge.
  destruct (last_of n l) as [y|] eqn:L.
  - apply f_old; [exact IH|]. apply last_of_in. rewrite L. discriminate.
  - cbn [d_get]. apply f_new; [exact IH|]. intros Z. apply last_of_in in Z. now apply Z.
Qed.
Lemma firsts_in l r : firsts l r -> forall n, In n r <-> In n l.
Proof.
  induction 1 as [|l r n F IH N|l r n F IH I]; intros k; [tauto| |].
  - rewrite !in_app_iff, IH. tauto.
  - rewrite IH, in_app_iff. split; [auto|]. intros [K|[<-|[]]]; auto.
Qed.
Lemma firsts_nodup l r : firsts l r -> NoDup r.
Proof.
  induction 1 as [|l r n F IH N|l r n F IH I]; [constructor| |exact IH].
  apply NoDup_rev in IH. rewrite <- (rev_involutive (r ++ [n])), rev_app_distr. apply NoDup_rev. cbn. constructor; [|exact IH].
  rewrite <- in_rev, (firsts_in _ _ F). exact N.
Qed.
Lemma known_spec (o : props) k : known St V o k = true <-> exists n, k = KStr n /\ In n (map fst o).
Proof.
  destruct k as [n|n]; cbn [known].
  - rewrite mem_str_In. split; [intros H; exists n; auto|]. intros [m [E I]]. injection E as ->. exact I.
  - split; [discriminate|]. intros [m [E _]]. discriminate E.
Qed.
Lemma after_none (o : props) l : after_unknown St V o l = None <-> forall k, In k l -> exists n, k = KStr n /\ In n (map fst o).
Proof.
  induction l as [|k l IH]; cbn [after_unknown]; [split; [intros _ k []|reflexivity]|].
  destruct (known St V o k) eqn:K.
  - rewrite IH. apply known_spec in K. split; [intros H x [<-|I]; auto|intros H x I; apply H; now right].
  - split; [discriminate|]. intros H. specialize (H k (or_introl eq_refl)). apply known_spec in H. congruence.
Qed.
Lemma after_some (o : props) l rest : after_unknown St V o l = Some rest <->
  exists pre k, l = pre ++ k :: rest /\ (forall x, In x pre -> exists n, x = KStr n /\ In n (map fst o)) /\ ~ (exists n, k = KStr n /\ In n (map fst o)).
Proof.
  induction l as [|k l IH]; cbn [after_unknown].
  - split; [discriminate|]. intros [pre [k [E _]]]. destruct pre; discriminate E.
  - destruct (known St V o k) eqn:K.
    + rewrite IH. split.
      * intros [pre [x [E [A B]]]]. exists (k :: pre), x. split; [cbn; now rewrite E|]. split; [|exact B]. intros y [<-|I]; [now apply known_spec|auto].
      * intros [[|y pre] [x [E [A B]]]]; cbn in E; injection E as -> E.
        -- exfalso. apply B. now apply known_spec.
        -- exists pre, x. split; [exact E|]. split; [|exact B]. intros z I. apply A. now right.
    + split.
      * intros E. injection E as ->. exists [], k. split; [reflexivity|]. split; [intros x []|]. rewrite <- known_spec, K. discriminate.
      * intros [[|y pre] [x [E [A B]]]]; cbn in E; injection E as -> E; [now rewrite E|].
        exfalso. specialize (A y (or_introl eq_refl)). apply known_spec in A. congruence.
Qed.
Definition unknown (o : props) (k : key) : Prop := ~ (exists n, k = KStr n /\ In n (map fst o)).
Lemma complain_spec (o : props) l : (complain St V o l = KeyError /\ forall k, In k l -> unknown o k -> exists n, k = KStr n) \/
  (complain St V o l = TypeError /\ exists i, In (KOther i) l).
Proof.
  unfold complain. destruct (forallb is_str (filter (fun k => negb (known St V o k)) l)) eqn:F.
  - left. split; [reflexivity|]. intros k I U. rewrite forallb_forall in F. specialize (F k).
    assert (Z : is_str k = true). { apply F. apply filter_In. split; [exact I|]. destruct (known St V o k) eqn:K; [|reflexivity]. apply known_spec in K. now elim U. }
    destruct k as [n|n]; [eauto|discriminate Z].
  - right. split; [reflexivity|]. clear -F. induction l as [|k l IH]; [discriminate F|]. cbn [filter] in F.
    destruct (known St V o k) eqn:K; cbn [negb forallb] in F.
    + destruct (IH F) as [i I]. exists i. now right.
    + destruct k as [n|n]; cbn [is_str andb] in F; [destruct (IH F) as [i I]; exists i; now right|]. exists n. now left.
Qed.
Lemma only_str l : (forall k, In k l -> exists n : pystr, k = KStr n) -> exists ns, l = map KStr ns.
Proof.
  induction l as [|k l IH]; intros H; [exists []; reflexivity|].
  destruct IH as [ns ->]; [intros; apply H; now right|]. destruct (H k (or_introl eq_refl)) as [n ->]. now exists (n :: ns).
Qed.
Lemma index_known (o : props) ns s : (forall n, In n ns -> In n (map fst o)) ->
  exists s' l e, reads o ns s s' l e /\
  match e with
  | Some x => getitem St V o (Many (map KStr ns)) s = (s', Err x)
  | None => exists d, getitem St V o (Many (map KStr ns)) s = (s', Ok d) /\ firsts ns (d_keys d) /\ NoDup (d_keys d) /\ forall n v, d_get n d = Some v <-> last_read l n v
  end.
Proof.
  intros H. destruct (collect_reads o ns [] s H) as [s' [l [e [R [M C]]]]]. exists s', l, e. split; [exact R|].
  assert (A : after_unknown St V o (map KStr ns) = None). { apply after_none. intros k I. apply in_map_iff in I. destruct I as [n [<- I]]. exists n. auto. }
  cbn [getitem]. rewrite A, C. destruct e as [x|]; [reflexivity|]. exists (d_merge [] l). split; [reflexivity|]. rewrite <- (M eq_refl).
  pose proof (merge_firsts l) as F. split; [exact F|]. split; [eapply firsts_nodup; exact F|]. intros n v. rewrite d_get_merge, <- last_of_spec. cbn [d_get]. destruct (last_of n l); reflexivity.
Qed.
Lemma index_unknown (o : props) l s : (exists k, In k l /\ unknown o k) ->
  exists e, getitem St V o (Many l) s = (s, Err e) /\ ((e = KeyError /\ forall i, ~ In (KOther i) l) \/ (e = TypeError /\ exists i, In (KOther i) l)).
Proof.
  intros [k [I U]]. cbn [getitem]. destruct (after_unknown St V o l) as [rest|] eqn:A.
  2:{ exfalso. rewrite after_none in A. now apply U, A. }
  exists (complain St V o l). split; [reflexivity|]. destruct (complain_spec o l) as [[E H]|[E H]]; rewrite E; [left|right; auto].
  split; [reflexivity|]. intros i J. destruct (H _ J) as [n Z]; [|discriminate Z]. intros [n [Z _]]. discriminate Z.
Qed.
Lemma index_once (o : props) l s :
  ((forall k, In k l -> ~ unknown o k) -> getitem St V o (Once l) s = (s, Ok [])) /\
  (forall pre k rest, l = pre ++ k :: rest -> (forall x, In x pre -> ~ unknown o x) -> unknown o k ->
     exists e, getitem St V o (Once l) s = (s, Err e) /\ ((e = KeyError /\ forall i, ~ In (KOther i) rest) \/ (e = TypeError /\ exists i, In (KOther i) rest))).
Proof.
  assert (D : forall x, ~ unknown o x -> exists n, x = KStr n /\ In n (map fst o)).
  { intros x N. apply known_spec. destruct (known St V o x) eqn:K; [reflexivity|]. exfalso. apply N. unfold unknown. rewrite <- known_spec, K. discriminate. }
  split.
  - intros H. cbn [getitem]. destruct (after_unknown St V o l) as [r|] eqn:A; [|reflexivity].
    exfalso. apply after_some in A. destruct A as [pre [k [-> [_ B]]]]. apply (H k); [apply in_or_app; right; now left|exact B].
  - intros pre k rest E P U. cbn [getitem]. assert (A : after_unknown St V o l = Some rest) by (apply after_some; exists pre, k; auto).
    rewrite A. exists (complain St V o rest). split; [reflexivity|]. destruct (complain_spec o rest) as [[X H]|[X H]]; rewrite X; [left|right; auto].
    split; [reflexivity|]. intros i J. destruct (H _ J) as [n Z]; [|discriminate Z]. intros [n [Z _]]. discriminate Z.
Qed.
End Facts.
