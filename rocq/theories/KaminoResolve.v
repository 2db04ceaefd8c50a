(** what an attribute of a clone resolves to *)
From Coq Require Import String Permutation.
From Verif Require Import Base BaseFacts Dict DictFacts PyClass PyClassFacts Kamino KaminoOrder KaminoFacts KaminoMro KaminoAttrs KaminoExact.
Open Scope list_scope.

Section Resolve.
Variables P V : Type.
Notation world := (world P V).
Notation attr := (attr P V).
Variable wrap_prop : P -> P.
Variable wrap_call : V -> V.
Variable package_ref : V.
Notation clone_class := (clone_class P V wrap_prop wrap_call package_ref).
Notation clone_nodes := (clone_nodes P V wrap_prop wrap_call package_ref).
Notation clone_classes := (clone_classes P V wrap_prop wrap_call package_ref).
Notation wrap_attr := (wrap_attr P V wrap_call).
Notation cloned := (cloned P V).
Notation own := (own P V).
Notation attrs_ok := (attrs_ok P V wrap_prop wrap_call).
Notation exact_mro := (exact_mro P V).

(** [v'] is [v], possibly wrapped (a property any number of times) *)
Definition derives (v v' : attr) : Prop :=
  match v with
  | AProp p => exists i, v' = AProp (Nat.iter i wrap_prop p)
  | ACall f => v' = ACall f \/ v' = ACall (wrap_call f)
  | _ => v' = v
  end.
Lemma derives_refl v : derives v v.
Proof. destruct v; cbn; auto. now exists 0. Qed.
Lemma derives_wrap v : derives v (wrap_attr v).
Proof. destruct v; cbn; auto. now exists 0. Qed.
Lemma derives_prop v p : derives v (AProp p) -> exists q, v = AProp q /\ derives v (AProp (wrap_prop p)).
Proof. destruct v; cbn; try (intros [H|H]; discriminate); try discriminate. intros (i & [= ->]). exists p0. split; [reflexivity|]. now exists (S i). Qed.

Section Done.
Variables (w0 : world) (keys : list nat) (done : ref) (w : world).
Hypothesis Hw0 : wf P V w0.
Hypothesis Hkl : forall d, In d keys -> d < List.length w0.
Hypothesis Hc : cloned w0 keys done w.
Hypothesis Ha : attrs_ok w0 done w.

Lemma done_lt c k : In (c, k) done -> c < List.length w0 /\ In c keys.
Proof. intros H. assert (In c keys) by (apply (cl_in _ _ _ _ _ _ Hc); change c with (fst (c, k)); now apply in_map). auto. Qed.
Lemma own_old a n : a < List.length w0 -> own w a n = own w0 a n.
Proof. intros H. unfold KaminoAttrs.own. now rewrite (cl_old _ _ _ _ _ _ Hc a H). Qed.
Lemma source k : forall c, In (c, k) done -> forall n v', ~ special n -> own w k n = Some v' -> exists b v, In b (mro w0 c) /\ own w0 b n = Some v /\ derives v v'.
Proof.
  induction k as [k IH] using lt_wf_ind. intros c Hck n v' Hs Ho. destruct (Ha c k Hck) as (m & Em & Hn). specialize (Hn n Hs). destruct (done_lt c k Hck) as [Hcl _].
  pose proof (mro_self P V w0 Hw0 c Hcl) as Hself.
  destruct (own w0 c n) as [a|] eqn:Eo.
  - exists c, a. split; [exact Hself|]. split; [exact Eo|]. destruct a as [p|f|s|l|p|kk|v]; try (rewrite Ho in Hn; injection Hn as ->; apply derives_wrap).
    destruct Hn as [Hn|[Hn _]]; rewrite Ho in Hn; injection Hn as ->; [now exists 1|now exists 0].
  - destruct (find_attr w m n) as [a|] eqn:Ef; [|congruence]. destruct a as [q|f|s|l|p|kk|v]; try congruence. destruct Hn as [Hn|[Hn _]]; [|congruence]. rewrite Ho in Hn. injection Hn as ->.
    apply find_attr_some in Ef as (x & Hx & Ex). pose proof (cloned_snd _ _ _ _ _ _ _ _ Hc Hck) as Hkb.
    assert (Hxm : In x (mro w k)) by (rewrite Em; now right).
    assert (Hxk : x < k). { pose proof (mro_lt P V w (cl_wf _ _ _ _ _ _ Hc) k x ltac:(lia) Hxm) as [L _]. pose proof (mro_nodup P V w (cl_wf _ _ _ _ _ _ Hc) k ltac:(lia)) as N. rewrite Em in N. apply NoDup_cons_iff in N as [N _]. assert (x <> k) by (intros ->; contradiction). lia. }
    apply (cl_mro _ _ _ _ _ _ Hc c k x Hck) in Hxm as [Hxo|(a & Hax & Hac)].
    + destruct (mro_lt P V w0 Hw0 c x Hcl Hxo) as [_ Hxl]. rewrite (own_old x n Hxl) in Ex. exists x, (AProp q). split; [exact Hxo|]. split; [exact Ex|]. now exists 1.
    + destruct (IH x Hxk a Hax n (AProp q) Hs Ex) as (b & v & Hb & Eb & Hd). apply derives_prop in Hd as (q0 & -> & Hd). exists b, (AProp q0). split; [|auto]. eapply mro_trans; eauto.
Qed.
Lemma lookup_source c k n v' : In (c, k) done -> ~ special n -> lookup w k n = Some v' -> exists b v, In b (mro w0 c) /\ own w0 b n = Some v /\ derives v v'.
Proof.
  intros Hck Hs Hl. destruct (done_lt c k Hck) as [Hcl _]. apply find_attr_some in Hl as (x & Hx & Ex). apply (cl_mro _ _ _ _ _ _ Hc c k x Hck) in Hx as [Hxo|(a & Hax & Hac)].
  - destruct (mro_lt P V w0 Hw0 c x Hcl Hxo) as [_ Hxl]. rewrite (own_old x n Hxl) in Ex. exists x, v'. split; [exact Hxo|]. split; [exact Ex|apply derives_refl].
  - destruct (source x a Hax n v' Hs Ex) as (b & v & Hb & Eb & Hd). exists b, v. split; [|auto]. eapply mro_trans; eauto.
Qed.
(** a property that is visible on a clone is its own, and wrapped at least once *)
Lemma prop_wrapped c k n p' : In (c, k) done -> ~ special n -> lookup w k (py "__get_properties__") <> None -> lookup w k n = Some (AProp p') ->
  own w k n = Some (AProp p') /\ exists b p i, In b (mro w0 c) /\ own w0 b n = Some (AProp p) /\ p' = Nat.iter (S i) wrap_prop p.
Proof.
  intros Hck Hs Hg Hl. destruct (Ha c k Hck) as (m & Em & Hn). specialize (Hn n Hs). destruct (done_lt c k Hck) as [Hcl _].
  pose proof (mro_self P V w0 Hw0 c Hcl) as Hself. unfold lookup in Hl. rewrite Em in Hl. cbn [find_attr] in Hl. change (d_get n (c_attrs (get_cls w k))) with (own w k n) in Hl.
  destruct (own w0 c n) as [a|] eqn:Eo.
  - assert (Hx : own w k n = Some (AProp p')) by (destruct (own w k n); [exact Hl|]; destruct a; try discriminate; destruct Hn as [Hn|[Hn _]]; discriminate).
    split; [exact Hx|]. rewrite Hx in Hn. destruct a; try discriminate. destruct Hn as [Hn|[_ Hn]]; [|contradiction]. injection Hn as ->. exists c, p, 0. auto.
  - destruct (find_attr w m n) as [a|] eqn:Ef; [|rewrite Hn in Hl; discriminate]. destruct a as [q|f|s|l|p|kk|v]; try (rewrite Hn in Hl; discriminate).
    destruct Hn as [Hn|[_ Hn]]; [|contradiction]. rewrite Hn in Hl. injection Hl as <-. split; [exact Hn|].
    destruct (find_attr_some P V w m n (AProp q) Ef) as (x & Hx & Ex). assert (Hxm : In x (mro w k)) by (rewrite Em; now right).
    apply (cl_mro _ _ _ _ _ _ Hc c k x Hck) in Hxm as [Hxo|(a & Hax & Hac)].
    + destruct (mro_lt P V w0 Hw0 c x Hcl Hxo) as [_ Hxl]. rewrite (own_old x n Hxl) in Ex. exists x, q, 0. auto.
    + destruct (source x a Hax n (AProp q) Hs Ex) as (b & v & Hb & Eb & Hd). destruct v as [q0|f|s|l|p|kk|v]; try (cbn in Hd; intuition discriminate). destruct Hd as (i & Hi). injection Hi as ->.
      exists b, q0, i. split; [|auto]. eapply mro_trans; eauto.
Qed.
(** the same names are visible *)
Lemma visible_same c k n : In (c, k) done -> ~ special n -> (lookup w k n = None <-> lookup w0 c n = None).
Proof.
  intros Hck Hs. destruct (done_lt c k Hck) as [Hcl _]. split; intros H.
  - apply find_attr_none. intros a Hac. destruct (mro_lt P V w0 Hw0 c a Hcl Hac) as [_ Hal]. rewrite <- (own_old a n Hal). apply (proj1 (find_attr_none _ _ w _ n) H). apply (cl_mro _ _ _ _ _ _ Hc c k a Hck). now left.
  - destruct (lookup w k n) as [v'|] eqn:E; [|reflexivity]. destruct (lookup_source c k n v' Hck Hs E) as (b & v & Hb & Eb & _). pose proof (proj1 (find_attr_none _ _ w0 _ n) H b Hb). congruence.
Qed.
(** the same properties *)
Lemma properties_same c k n : dicts P V w0 -> dicts P V w -> In (c, k) done -> ~ special n -> (In n (property_names P V w k) <-> In n (property_names P V w0 c)).
Proof.
  intros Hd0 Hd Hck Hs. destruct (done_lt c k Hck) as [Hcl _]. rewrite !property_names_in by assumption. split.
  - intros (x & p & Hx & Ex). apply (cl_mro _ _ _ _ _ _ Hc c k x Hck) in Hx as [Hxo|(a & Hax & Hac)].
    + destruct (mro_lt P V w0 Hw0 c x Hcl Hxo) as [_ Hxl]. rewrite (own_old x n Hxl) in Ex. eauto.
    + destruct (source x a Hax n _ Hs Ex) as (b & v & Hb & Eb & Hdv). apply derives_prop in Hdv as (q & -> & _). exists b, q. split; [|exact Eb]. eapply mro_trans; eauto.
  - intros (x & p & Hx & Ex). destruct (mro_lt P V w0 Hw0 c x Hcl Hx) as [_ Hxl]. exists x, p. split; [|now rewrite (own_old x n Hxl)]. apply (cl_mro _ _ _ _ _ _ Hc c k x Hck). now left.
Qed.

(** ** exact resolution *)
Section ExactRes.
Hypothesis Hex : exact_mro w0 keys done w.
Lemma clone_of_in c a : In c (map fst done) -> In a keys -> In a (mro w0 c) -> In (a, the_clone done a) done.
Proof. intros H1 H2 H3. pose proof (cl_closed _ _ _ _ _ _ Hc c a H1 H2 H3) as Hi. destruct (r_get_some a done Hi) as [j Hj]. unfold the_clone. rewrite Hj. now apply r_get_in. Qed.
Lemma find_attr_app (x : world) a b n : find_attr x (a ++ b) n = match find_attr x a n with Some v => Some v | None => find_attr x b n end.
Proof. induction a as [|y a IH]; cbn; [reflexivity|]. destruct (d_get n (c_attrs (get_cls x y))); [reflexivity|exact IH]. Qed.
(** a name that is no property anywhere: the package's definitions first, then the ones outside *)
Lemma resolve_plain c k n : In (c, k) done -> ~ special n -> ~ In n (property_names P V w0 c) -> dicts P V w0 ->
  lookup w k n = match find_attr w0 (filter (fun x => mem x keys) (mro w0 c)) n with Some v => Some (wrap_attr v) | None => lookup w0 c n end.
Proof.
  intros Hck Hs Hnp Hd0. destruct (done_lt c k Hck) as [Hcl Hck0]. assert (Hcd : In c (map fst done)) by (change c with (fst (c, k)); now apply in_map).
  unfold lookup at 1. rewrite (Hex c k Hck), find_attr_app.
  assert (H1 : find_attr w (mro w0 c) n = lookup w0 c n). { apply find_attr_ext. intros a Hac. apply own_old. apply (mro_lt P V w0 Hw0 c a Hcl Hac). }
  rewrite H1. clear H1.
  assert (Hp : forall a q, In a (mro w0 c) -> own w0 a n <> Some (AProp q)) by (intros a q Hac Eo; apply Hnp, property_names_in; eauto).
  assert (Hall : forall a, In a (filter (fun x => mem x keys) (mro w0 c)) -> own w (the_clone done a) n = match own w0 a n with Some v => Some (wrap_attr v) | None => None end).
  { intros a Hfa. apply filter_In in Hfa as [Hac Hak]. apply mem_in in Hak. pose proof (clone_of_in c a Hcd Hak Hac) as Hi. destruct (Ha a _ Hi) as (m & Em & Hn). specialize (Hn n Hs).
    destruct (own w0 a n) as [v|] eqn:Eo; [destruct v as [q|f|s|l|q|kk|v]; [exfalso; exact (Hp a q Hac Eo)|exact Hn..]|].
    destruct (find_attr w m n) as [v|] eqn:Ef; [destruct v as [q|f|s|l|q|kk|v]; try exact Hn|exact Hn].
    exfalso. destruct (own w (the_clone done a) n) as [u|] eqn:Eu.
    - destruct Hn as [Hn|[Hn _]]; [|discriminate]. injection Hn as ->. destruct (source _ a Hi n _ Hs Eu) as (b & v & Hb & Eb & Hdv). apply derives_prop in Hdv as (q0 & -> & _). apply (Hp b q0); [eapply mro_trans; eauto|exact Eb].
    - apply find_attr_some in Ef as (x & Hx & Exx). assert (Hxm : In x (mro w (the_clone done a))) by (rewrite Em; now right). apply (cl_mro _ _ _ _ _ _ Hc a _ x Hi) in Hxm as [Hxo|(b & Hbx & Hba)].
      + pose proof (mro_trans P V w0 Hw0 c a x Hcl Hac Hxo) as Hxc. rewrite (own_old x n) in Exx by apply (mro_lt P V w0 Hw0 c x Hcl Hxc). exact (Hp x q Hxc Exx).
      + destruct (source x b Hbx n _ Hs Exx) as (b' & v & Hb & Eb & Hdv). apply derives_prop in Hdv as (q0 & -> & _). apply (Hp b' q0); [|exact Eb]. eapply mro_trans; [exact Hw0|exact Hcl|exact Hac|]. eapply mro_trans; [exact Hw0| |exact Hba|exact Hb]. apply (mro_lt P V w0 Hw0 c a Hcl Hac). }
  revert Hall. generalize (filter (fun x => mem x keys) (mro w0 c)). induction l as [|a l IH]; intros Hall; [reflexivity|]. cbn [map find_attr].
  pose proof (Hall a (or_introl eq_refl)) as Hh. unfold KaminoAttrs.own in Hh. rewrite Hh. destruct (d_get n (c_attrs (get_cls w0 a))); [reflexivity|]. apply IH. intros b Hb. apply Hall. now right.
Qed.

(** ** single inheritance *)
Definition linear (c : nat) : Prop := forall a, In a (mro w0 c) -> List.length (bases w0 a) <= 1.
Lemma linear_mro a : a < List.length w0 -> (bases w0 a = [] /\ mro w0 a = [a]) \/ (exists b, bases w0 a = [b] /\ mro w0 a = a :: mro w0 b /\ b < a) \/ 1 < List.length (bases w0 a).
Proof.
  intros H. destruct (Hw0 a H) as (m & E & Hb & Hlt & Em). destruct (bases w0 a) as [|b [|b' t]]; [left|right; left|right; right; cbn; lia].
  - cbn in Em. injection Em as <-. auto.
  - exists b. assert (Hba : b < a) by (apply Hlt; now left). split; [reflexivity|]. split; [|exact Hba]. rewrite E. f_equal. unfold c3 in Em. rewrite merge_absorb with (L := mro w0 b) in Em.
    + now injection Em as ->.
    + apply mro_nodup; [exact Hw0|lia].
    + unfold total. cbn. rewrite app_length. lia.
    + intros l [<-|[<-|[]]]; [apply ss_refl|]. destruct (wf_mro P V w0 Hw0 b ltac:(lia)) as (t & -> & _). constructor. clear. induction t; constructor; auto.
    + now left.
Qed.
(** the tail of a linear order from any of its classes is that class's order *)
Lemma linear_split c : c < List.length w0 -> linear c -> forall pre x post, mro w0 c = pre ++ x :: post -> mro w0 x = x :: post.
Proof.
  induction c as [c IH] using lt_wf_ind. intros Hcl Hlin pre x post E. destruct (linear_mro c Hcl) as [[Eb Em]|[(b & Eb & Em & Hbc)|Hgt]].
  - rewrite Em in E. destruct pre as [|y pre]; [injection E as <- <-; exact Em|]. destruct pre; discriminate.
  - rewrite Em in E. destruct pre as [|y pre]; [injection E as <- <-; exact Em|]. injection E as <- E. apply (IH b Hbc ltac:(lia)) with pre; [|exact E]. intros a Hab. apply Hlin. rewrite Em. now right.
  - pose proof (Hlin c (mro_self P V w0 Hw0 c Hcl)). lia.
Qed.
Lemma resolve_linear_own k : forall c, In (c, k) done -> linear c -> pkg_first P V w0 keys c -> forall n v', ~ special n -> own w k n = Some v' -> exists v, lookup w0 c n = Some v /\ derives v v'.
Proof.
  induction k as [k IH] using lt_wf_ind. intros c Hck Hlin Hpf n v' Hs Ho. destruct (Ha c k Hck) as (m & Em & Hn). specialize (Hn n Hs). destruct (done_lt c k Hck) as [Hcl Hckk].
  destruct (wf_mro P V w0 Hw0 c Hcl) as (t & Et & Hnt & Hltt & _). assert (Hlk : lookup w0 c n = match own w0 c n with Some v => Some v | None => find_attr w0 t n end) by (unfold lookup; rewrite Et; reflexivity).
  rewrite Hlk. clear Hlk. destruct (own w0 c n) as [a|] eqn:Eo.
  - exists a. split; [reflexivity|]. destruct a as [p|f|s|l|p|kk|v]; try (rewrite Ho in Hn; injection Hn as ->; apply derives_wrap).
    destruct Hn as [Hn|[Hn _]]; rewrite Ho in Hn; injection Hn as ->; [now exists 1|now exists 0].
  - destruct (find_attr w m n) as [a|] eqn:Ef; [|congruence]. destruct a as [q|f|s|l|p|kk|v]; try congruence. destruct Hn as [Hn|[Hn _]]; [|congruence]. rewrite Ho in Hn. injection Hn as ->.
    assert (Hcd : In c (map fst done)) by (change c with (fst (c, k)); now apply in_map).
    pose proof (Hex c k Hck) as Hm. rewrite Em, Et in Hm. cbn [filter] in Hm. assert (mem c keys = true) as Hmc by now apply mem_in. rewrite Hmc in Hm. cbn [map app] in Hm. injection Hm as _ Hm. subst m.
    assert (Hres : exists v, find_attr w0 t n = Some v /\ derives v (AProp q)); [|destruct Hres as (v & Hv & Hdv); exists v; split; [exact Hv|]; now apply derives_prop in Hdv as (q0 & -> & Hdv)].
    (* t = in-package ones, then the others *)
    destruct Hpf as (A & B & EAB & HA & HB). rewrite Et in EAB. destruct A as [|a0 A].
    { cbn in EAB. subst B. cbn in HB. rewrite Hmc in HB. discriminate. }
    cbn in EAB. injection EAB as <- ->. cbn in HA. apply andb_true_iff in HA as [_ HA].
    rewrite (fronted_filter (fun x => mem x keys) A B HA HB) in Ef.
    rewrite find_attr_app in Ef. rewrite find_attr_app.
    assert (Hlow : find_attr w (c :: A ++ B) n = find_attr w0 (A ++ B) n).
    { cbn [find_attr]. change (d_get n (c_attrs (get_cls w c))) with (own w c n). rewrite (own_old c n Hcl), Eo. apply find_attr_ext. intros x Hx. apply own_old. apply (mro_lt P V w0 Hw0 c x Hcl). rewrite Et. now right. }
    (* walk along A *)
    assert (Hwalk : forall A1 A2, A = A1 ++ A2 -> find_attr w0 A1 n = None -> match find_attr w (map (the_clone done) A2) n with Some v => Some v | None => find_attr w0 (A ++ B) n end = Some (AProp q) ->
      exists v, match find_attr w0 A2 n with Some v => Some v | None => find_attr w0 B n end = Some v /\ derives v (AProp q)).
    { intros A1 A2. revert A1. induction A2 as [|x A2 IHA]; intros A1 EA H1 H2.
      - cbn in H2 |- *. rewrite app_nil_r in EA. subst A1. rewrite find_attr_app, H1 in H2. eexists. split; [exact H2|]. now exists 0.
      - cbn [map find_attr] in H2. assert (Hxc : In x (mro w0 c)) by (rewrite Et, EA; right; apply in_or_app; left; apply in_or_app; right; now left).
        assert (Hxk : In x keys). { apply mem_in. rewrite forallb_forall in HA. apply HA. rewrite EA. apply in_or_app. right. now left. }
        pose proof (clone_of_in c x Hcd Hxk Hxc) as Hxi.
        assert (Hxne : x <> c). { intros ->. apply NoDup_cons_iff in Hnt as [Hnt _]. apply Hnt. rewrite EA. apply in_or_app. left. apply in_or_app. right. now left. }
        change (d_get n (c_attrs (get_cls w (the_clone done x)))) with (own w (the_clone done x) n) in H2.
        destruct (own w (the_clone done x) n) as [u|] eqn:Eu.
        + injection H2 as ->. assert (Hsp : mro w0 x = x :: A2 ++ B). { apply (linear_split c Hcl Hlin (c :: A1)). rewrite Et, EA. cbn. now rewrite <- app_assoc. }
          assert (Hlt : the_clone done x < k).
          { pose proof (cloned_snd _ _ _ _ _ _ _ _ Hc Hck) as Hkb. assert (Hin : In (the_clone done x) (mro w k)) by (apply (cl_mro _ _ _ _ _ _ Hc c k _ Hck); right; eauto).
            pose proof (mro_lt P V w (cl_wf _ _ _ _ _ _ Hc) k _ ltac:(lia) Hin) as [L _]. assert (the_clone done x <> k); [|lia]. intros E. rewrite E in Hxi.
            assert (Hsn : NoDup (map snd done)) by (rewrite (cl_new _ _ _ _ _ _ Hc); apply seq_NoDup). apply Hxne. clear - Hsn Hxi Hck. induction done as [|[a b] d IH]; [destruct Hck|]. cbn in Hsn. apply NoDup_cons_iff in Hsn as [N1 N2].
            destruct Hck as [E1|E1], Hxi as [E2|E2]; auto; [congruence| |]; exfalso; apply N1; [injection E1 as <- <-|injection E2 as <- <-]; match goal with H : In _ d |- _ => apply (in_map snd) in H; exact H end. }
          assert (Hlx : linear x) by (intros a Hax; apply Hlin; eapply mro_trans; eauto).
          assert (Hpx : pkg_first P V w0 keys x). { exists (x :: A2), B. rewrite Hsp. split; [reflexivity|]. split; [|exact HB]. rewrite EA, forallb_app in HA. apply andb_true_iff in HA. apply HA. }
          destruct (IH _ Hlt x Hxi Hlx Hpx n _ Hs Eu) as (v & Hv & Hdv).
          exists v. split; [|exact Hdv]. unfold lookup in Hv. rewrite Hsp in Hv. change (x :: A2 ++ B) with ((x :: A2) ++ B) in Hv. now rewrite find_attr_app in Hv.
        + assert (Exn : own w0 x n = None). { destruct (Ha x _ Hxi) as (mx & _ & Hnx). specialize (Hnx n Hs). destruct (own w0 x n) as [u|]; [|reflexivity]. exfalso. destruct u; try congruence. destruct Hnx as [H|[H _]]; congruence. }
          unfold KaminoAttrs.own in Exn. cbn [find_attr]. rewrite Exn. apply (IHA (A1 ++ [x])); [rewrite <- app_assoc; exact EA| |exact H2]. rewrite find_attr_app, H1. cbn [find_attr]. now rewrite Exn. }
    apply (Hwalk [] A eq_refl eq_refl). rewrite <- Ef. now rewrite Hlow.
Qed.
Lemma resolve_linear c k n v' : In (c, k) done -> linear c -> pkg_first P V w0 keys c -> ~ special n -> lookup w k n = Some v' -> exists v, lookup w0 c n = Some v /\ derives v v'.
Proof.
  intros Hck Hlin Hpf Hs Hl. destruct (done_lt c k Hck) as [Hcl Hckk]. destruct (Ha c k Hck) as (m & Em & Hn). specialize (Hn n Hs).
  destruct (own w k n) as [u|] eqn:Eu.
  - assert (Hu : lookup w k n = Some u) by (unfold lookup; rewrite Em; cbn [find_attr]; unfold KaminoAttrs.own in Eu; now rewrite Eu). rewrite Hu in Hl. injection Hl as <-. eapply resolve_linear_own; eauto.
  - (* the clone itself does not have it: no property, so the plain rule *)
    assert (Hfm : find_attr w m n = Some v') by (unfold lookup in Hl; rewrite Em in Hl; cbn [find_attr] in Hl; unfold KaminoAttrs.own in Eu; now rewrite Eu in Hl).
    destruct (own w0 c n) as [a|] eqn:Eo. { exfalso. destruct a; try congruence. destruct Hn as [H|[H _]]; congruence. }
    destruct (wf_mro P V w0 Hw0 c Hcl) as (t & Et & Hnt & Hltt & _). assert (Hcd : In c (map fst done)) by (change c with (fst (c, k)); now apply in_map).
    pose proof (Hex c k Hck) as Hm. rewrite Em, Et in Hm. cbn [filter] in Hm. assert (mem c keys = true) as Hmc by now apply mem_in. rewrite Hmc in Hm. cbn [map app] in Hm. injection Hm as _ Hm. subst m.
    destruct Hpf as (A & B & EAB & HA & HB). rewrite Et in EAB. destruct A as [|a0 A].
    { cbn in EAB. subst B. cbn in HB. rewrite Hmc in HB. discriminate. }
    cbn in EAB. injection EAB as <- ->. cbn in HA. apply andb_true_iff in HA as [_ HA]. rewrite (fronted_filter (fun x => mem x keys) A B HA HB) in Hfm. rewrite find_attr_app in Hfm.
    assert (Hlow : find_attr w (c :: A ++ B) n = find_attr w0 (A ++ B) n).
    { cbn [find_attr]. change (d_get n (c_attrs (get_cls w c))) with (own w c n). rewrite (own_old c n Hcl), Eo. apply find_attr_ext. intros x Hx. apply own_old. apply (mro_lt P V w0 Hw0 c x Hcl). rewrite Et. now right. }
    rewrite Hlow in Hfm. assert (Hlk : lookup w0 c n = find_attr w0 (A ++ B) n) by (unfold lookup; rewrite Et; cbn [find_attr]; unfold KaminoAttrs.own in Eo; now rewrite Eo). rewrite Hlk.
    assert (Hwalk : forall A1 A2, A = A1 ++ A2 -> find_attr w0 A1 n = None -> match find_attr w (map (the_clone done) A2) n with Some v => Some v | None => find_attr w0 (A ++ B) n end = Some v' ->
      exists v, match find_attr w0 A2 n with Some v => Some v | None => find_attr w0 B n end = Some v /\ derives v v').
    { intros A1 A2. revert A1. induction A2 as [|x A2 IHA]; intros A1 EA H1 H2.
      - cbn in H2 |- *. rewrite app_nil_r in EA. subst A1. rewrite find_attr_app, H1 in H2. eexists. split; [exact H2|]. apply derives_refl.
      - cbn [map find_attr] in H2. assert (Hxc : In x (mro w0 c)) by (rewrite Et, EA; right; apply in_or_app; left; apply in_or_app; right; now left).
        assert (Hxk : In x keys). { apply mem_in. rewrite forallb_forall in HA. apply HA. rewrite EA. apply in_or_app. right. now left. }
        pose proof (clone_of_in c x Hcd Hxk Hxc) as Hxi.
        change (d_get n (c_attrs (get_cls w (the_clone done x)))) with (own w (the_clone done x) n) in H2.
        destruct (own w (the_clone done x) n) as [u|] eqn:Eux.
        + injection H2 as ->. assert (Hsp : mro w0 x = x :: A2 ++ B). { apply (linear_split c Hcl Hlin (c :: A1)). rewrite Et, EA. cbn. now rewrite <- app_assoc. }
          assert (Hlx : linear x) by (intros a Hax; apply Hlin; eapply mro_trans; eauto).
          assert (Hpx : pkg_first P V w0 keys x). { exists (x :: A2), B. rewrite Hsp. split; [reflexivity|]. split; [|exact HB]. rewrite EA, forallb_app in HA. apply andb_true_iff in HA. apply HA. }
          destruct (resolve_linear_own _ x Hxi Hlx Hpx n _ Hs Eux) as (v & Hv & Hdv).
          exists v. split; [|exact Hdv]. unfold lookup in Hv. rewrite Hsp in Hv. change (x :: A2 ++ B) with ((x :: A2) ++ B) in Hv. now rewrite find_attr_app in Hv.
        + assert (Exn : own w0 x n = None). { destruct (Ha x _ Hxi) as (mx & _ & Hnx). specialize (Hnx n Hs). destruct (own w0 x n) as [u|]; [|reflexivity]. exfalso. destruct u; try congruence. destruct Hnx as [H|[H _]]; congruence. }
          unfold KaminoAttrs.own in Exn. cbn [find_attr]. rewrite Exn. apply (IHA (A1 ++ [x])); [rewrite <- app_assoc; exact EA| |exact H2]. rewrite find_attr_app, H1. cbn [find_attr]. now rewrite Exn. }
    rewrite find_attr_app. apply (Hwalk [] A eq_refl eq_refl Hfm).
Qed.
End ExactRes.
End Done.
End Resolve.
