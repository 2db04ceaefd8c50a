(** The log of the older transaction manager as an audit trail *)
From Verif Require Import Base BaseFacts Value Dict DictFacts SpecMap RoutingFacts Txn TxnFacts Legacy LegacyFacts LegacyConn LegacyConnFacts Audit.
From Verif Require Multi.
Open Scope list_scope.
Set Implicit Arguments.

(** ** Specification *)
(** what the [j]-th entry may be, given those before it: a transaction starts under a new uuid; its calls and its end come after its start and not after its end *)
Definition about (u : nat) (e : entry) : Prop := match e with LStart v | LCall v _ _ | LGood (Some v) | LBad (Some v) => v = u | _ => False end.
Definition ends (u : nat) (e : entry) : Prop := e = LGood (Some u) \/ e = LBad (Some u).
Definition proper (e : entry) (before : list entry) : Prop :=
  forall u, about u e -> match e with LStart _ => Forall (fun x => ~ about u x) before | _ => In (LStart u) before /\ Forall (fun x => ~ ends u x) before end.
Definition orderly (l : list entry) : Prop := forall l1 e l2, l = l1 ++ e :: l2 -> proper e l1.
(** [id] is named by a call logged under [u] after the start of [u] *)
Definition names (u : nat) (id : pystr) (l : list entry) : Prop := exists l1 l2 l3 fn, l = l1 ++ LStart u :: l2 ++ LCall u fn id :: l3.
(** [h]: committed states, newest first. Each SUCCESSFUL entry stands for one committed state, which differs from the one before it only at ids named under its uuid *)
Inductive audited (h0 : list lroot) : list lroot -> list entry -> Prop :=
| au_start : audited h0 h0 []
| au_other h l e : (forall u, e <> LGood u) -> audited h0 h l -> audited h0 h (l ++ [e])
| au_commit h s s' l u : audited h0 (s :: h) l -> (forall id, l_map s' id <> l_map s id -> names u id l) -> audited h0 (s' :: s :: h) (l ++ [LGood (Some u)])
| au_empty h s s' l : audited h0 (s :: h) l -> (forall id, l_map s' id = l_map s id) -> audited h0 (s' :: s :: h) (l ++ [LGood None]).

(** ** Facts *)
Lemma snoc_split A (l : list A) e l1 x l2 : l ++ [e] = l1 ++ x :: l2 -> (l1 = l /\ x = e /\ l2 = []) \/ exists l2', l2 = l2' ++ [e] /\ l = l1 ++ x :: l2'.
Proof.
  intros H. destruct l2 as [|y l2] using rev_ind; [left|right].
  - apply app_inj_tail in H. destruct H as [-> ->]. auto.
  - exists l2. rewrite app_comm_cons, app_assoc in H. apply app_inj_tail in H. destruct H as [-> ->]. auto.
Qed.
Lemma orderly_nil : orderly [].
Proof. intros l1 e l2 H. destruct l1; discriminate H. Qed.
Lemma orderly_snoc l e : orderly l -> proper e l -> orderly (l ++ [e]).
Proof. intros O P l1 x l2 H. apply snoc_split in H. destruct H as [(-> & -> & _)|(l2' & _ & H)]; [exact P|exact (O _ _ _ H)]. Qed.
Lemma names_more u id l e : names u id l -> names u id (l ++ [e]).
Proof. intros (l1 & l2 & l3 & fn & ->). exists l1, l2, (l3 ++ [e]), fn. rewrite <- !app_assoc. cbn. rewrite <- !app_assoc. reflexivity. Qed.
Lemma names_new u id fn l : In (LStart u) l -> names u id (l ++ [LCall u fn id]).
Proof. intros I. apply in_split in I. destruct I as (l1 & l2 & ->). exists l1, l2, [], fn. rewrite <- app_assoc. reflexivity. Qed.
(** a call changes its own id only *)
Definition cmd_id (cmd : lcmd) : pystr := match cmd with LcCreate id _ | LcUpdate id _ | LcDelete id => id | _ => [] end.
Lemma lchange_frame (f : dbc -> dbc * res unit) id r : (forall c j, j <> id -> l_abs (fst (f c)) j = l_abs c j) -> forall j, j <> id -> l_map (fst (lchange f r)) j = l_map r j.
Proof. intros F j N. unfold lchange, l_map. destruct (r_container r) as [c|] eqn:E; [|cbn; now rewrite E]. specialize (F c j N). destruct (f c) as [c1 x]. exact F. Qed.
Lemma write_frame id v c j : j <> id -> l_abs (fst (dbc_write id v c)) j = l_abs c j.
Proof.
  intros N. unfold dbc_write. destruct (locate id c) as [i|e] eqn:L; [|reflexivity]. pose proof (locate_lt _ _ L) as LI. cbn [fst]. rewrite abs_replace by auto. unfold l_abs.
  destruct (locate j c) as [x|e]; auto. destruct (Nat.eqb_spec i x) as [<-|]; auto. now apply d_get_set_other.
Qed.
Lemma delete_frame id c j : j <> id -> l_abs (fst (dbc_delete id c)) j = l_abs c j.
Proof.
  intros N. unfold dbc_delete. destruct (locate id c) as [i|e] eqn:L; [|reflexivity]. pose proof (locate_lt _ _ L) as LI. destruct (d_get id (at_ i c)); [|reflexivity]. cbn [fst]. rewrite abs_replace by auto. unfold l_abs.
  destruct (locate j c) as [x|e]; auto. destruct (Nat.eqb_spec i x) as [<-|]; auto. now apply d_get_del_other.
Qed.
Lemma lsem_frame cmd r j : lis_read cmd = false -> j <> cmd_id cmd -> l_map (fst (lsem cmd r)) j = l_map r j.
Proof.
  intros R N. destruct cmd as [id v|id v|id|id|i]; try discriminate R; cbn [lsem cmd_id] in *; apply lchange_frame with id; auto; intros c j' N'; [now apply write_frame|now apply write_frame|now apply delete_frame].
Qed.
Lemma named_call u cmd : lis_read cmd = false -> exists fn, named u cmd = LCall u fn (cmd_id cmd).
Proof. destruct cmd; cbn; intros R; try discriminate R; eauto. Qed.

(** the log does not change what programs do *)
Lemma call_same m b cmd c t : fst (fst (a_call m b cmd (c, t))) = fst (lexec m b cmd c) /\ snd (a_call m b cmd (c, t)) = snd (lexec m b cmd c).
Proof.
  unfold a_call, lexec. destruct (lis_read cmd); [destruct (perform legacy_calls cmd c); auto|]. destruct m; [auto|]. unfold autocommitted. destruct (n_auto c).
  - cbn [a_enter]. destruct (perform legacy_calls cmd (tm_enter c)) as [c1 r]. unfold a_exit, tm_exit. destruct r as [x|e]; [|auto]. destruct (tm_commit b c1) as [c2 [y|e]]; auto.
  - destruct (perform legacy_calls cmd c); auto.
Qed.
Lemma exit_same A b (r : res A) c t : fst (fst (a_exit b r (c, t))) = fst (tm_exit b r c) /\ snd (a_exit b r (c, t)) = snd (tm_exit b r c).
Proof. unfold a_exit, tm_exit. destruct r as [x|e]; [|auto]. destruct (tm_commit b c) as [c2 [y|e]]; auto. Qed.
Theorem run_same m b p : forall c t, fst (fst (a_run m b p (c, t))) = fst (lrun m b p c) /\ snd (a_run m b p (c, t)) = snd (lrun m b p c).
Proof.
  induction p as [r|cmd k IH|v k IH|body IHb k IH]; intros c t; cbn [a_run lrun].
  - auto.
  - pose proof (call_same m b cmd c t) as [H1 H2]. destruct (a_call m b cmd (c, t)) as [[c1 t1] r]. destruct (lexec m b cmd c) as [c2 r2]. cbn [fst snd] in *. subst. apply IH.
  - apply IH.
  - cbn [a_enter]. match goal with |- context [a_run m b body (_, ?t0)] => pose proof (IHb (tm_enter c) t0) as [H1 H2]; destruct (a_run m b body (tm_enter c, t0)) as [[c1 t1] r] end.
    destruct (lrun m b body (tm_enter c)) as [c2 r2]. cbn [fst snd] in *. subst. pose proof (exit_same b r2 c2 t1) as [H1 H2]. destruct (a_exit b r2 (c2, t1)) as [[c3 t3] r3]. destruct (tm_exit b r2 c2) as [c4 r4]. cbn [fst snd] in *. subst. apply IH.
Qed.

(** ** The invariant *)
(** [l]: the entries since the beginning, when the next uuid was [n0] *)
Record inv (h0 : list lroot) (l0 : list entry) (n0 : nat) (s : astate) (l : list entry) : Prop := mkInv {
  i_log : t_log (snd s) = l0 ++ l;
  i_aud : audited h0 (history (fst s)) l;
  i_pend : forall id, l_map (n_work (fst s)) id <> l_map (n_saved (fst s)) id -> exists u, t_uuid (snd s) = Some u /\ names u id l;
  i_auto : n_auto (fst s) = true -> n_work (fst s) = n_saved (fst s);
  i_off : n_auto (fst s) = false -> exists u, t_uuid (snd s) = Some u;
  i_ord : orderly l;
  i_cur : forall u, t_uuid (snd s) = Some u -> In (LStart u) l /\ Forall (fun x => ~ ends u x) l;
  i_next : forall u, Exists (about u) l -> (n0 <= u < t_next (snd s))%nat;
  i_low : (n0 <= t_next (snd s))%nat }.
Lemma proper_end u l e : (forall v, t_uuid u = Some v -> In (LStart v) l /\ Forall (fun x => ~ ends v x) l) -> (e = LGood (t_uuid u) \/ e = LBad (t_uuid u)) -> proper e l.
Proof. intros H [-> | ->] v A; cbn [about] in A; destruct (t_uuid u) as [w|] eqn:E; try contradiction; subst w; now apply H. Qed.
Lemma inv_enter h0 l0 n0 s l : inv h0 l0 n0 s l -> inv h0 l0 n0 (a_enter s) (l ++ [LStart (t_next (snd s))]).
Proof.
  destruct s as [c t]. intros [I1 I2 I3 I4 I5 I6 I7 I8 I9]. cbn [fst snd] in *.
  assert (FR : Forall (fun x => ~ about (t_next t) x) l) by (apply Forall_forall; intros x J A; assert (X : Exists (about (t_next t)) l) by (apply Exists_exists; eauto); apply I8 in X; lia).
  constructor; cbn [a_enter fst snd t_log t_uuid t_next].
  - rewrite I1, app_assoc. reflexivity.
  - apply au_other; [discriminate|exact I2].
  - intros id N. exfalso. apply N. reflexivity.
  - intros H. discriminate H.
  - eauto.
  - apply orderly_snoc; [exact I6|]. intros u A. cbn in A. subst u. exact FR.
  - intros u H. injection H as <-. split; [apply in_or_app; right; now left|]. apply Forall_app. split; [|repeat constructor; intros [H|H]; discriminate H].
    apply Forall_forall. intros x J E. rewrite Forall_forall in FR. apply (FR x J). destruct E as [-> | ->]; reflexivity.
  - intros u H. apply Exists_app in H. destruct H as [H|H]; [apply I8 in H; lia|]. apply Exists_cons in H. destruct H as [H|H]; [cbn in H; lia|inversion H].
  - lia.
Qed.
Lemma inv_call h0 l0 n0 c t l u cmd : inv h0 l0 n0 (c, t) l -> n_auto c = false -> t_uuid t = Some u -> lis_read cmd = false ->
  inv h0 l0 n0 (fst (perform legacy_calls cmd c), say (named u cmd) t) (l ++ [named u cmd]).
Proof.
  intros [I1 I2 I3 I4 I5 I6 I7 I8 I9] Au U R. cbn [fst snd] in *. destruct (@named_call u cmd R) as [fn NC]. rewrite NC. destruct (I7 u U) as [J1 J2].
  assert (P : exists k, fst (perform legacy_calls cmd c) = put k c /\ forall j, j <> cmd_id cmd -> l_map k j = l_map (n_work c) j).
  { unfold perform. cbn [is_read legacy_calls sem]. rewrite R. destruct (n_failed c); [exists (n_work c); split; [now destruct c|auto]|]. pose proof (@lsem_frame cmd (n_work c)) as F. destruct (lsem cmd (n_work c)) as [k r]. exists k. split; [reflexivity|]. intros j N. now apply F. }
  destruct P as (k & -> & FR). constructor; cbn [fst snd say t_log t_uuid t_next put n_work n_saved n_auto].
  - rewrite I1, app_assoc. reflexivity.
  - apply au_other; [discriminate|]. exact I2.
  - intros id N. exists u. split; [exact U|]. destruct (str_dec id (cmd_id cmd)) as [->|NE]; [now apply names_new|]. rewrite (FR id NE) in N. destruct (I3 id N) as (v & V1 & V2). rewrite U in V1. injection V1 as <-. now apply names_more.
  - rewrite Au. discriminate.
  - eauto.
  - apply orderly_snoc; [exact I6|]. intros v A. cbn in A. subst v. auto.
  - intros v V. rewrite U in V. injection V as <-. split; [apply in_or_app; now left|]. apply Forall_app. split; [exact J2|]. repeat constructor. intros [H|H]; discriminate H.
  - intros v H. apply Exists_app in H. destruct H as [H|H]; [now apply I8|]. apply Exists_cons in H. destruct H as [H|H]; [cbn in H; subst v|inversion H]. apply I8. apply Exists_exists. exists (LStart u). split; [exact J1|reflexivity].
  - exact I9.
Qed.
Lemma inv_exit A h0 l0 n0 b (r : res A) c t l : inv h0 l0 n0 (c, t) l -> exists l', inv h0 l0 n0 (fst (a_exit b r (c, t))) (l ++ l') /\
  (l' = match r with Err _ => [LBad (t_uuid t)] | Ok _ => match snd (tm_commit b c) with Ok _ => [LGood (t_uuid t)] | Err _ => [] end end).
Proof.
  intros [I1 I2 I3 I4 I5 I6 I7 I8 I9]. cbn [fst snd] in *.
  assert (CN : forall e, (e = LGood (t_uuid t) \/ e = LBad (t_uuid t)) -> forall u, Exists (about u) (l ++ [e]) -> (n0 <= u < t_next t)%nat).
  { intros e E u H. apply Exists_app in H. destruct H as [H|H]; [now apply I8|]. apply Exists_cons in H. destruct H as [H|H]; [|inversion H]. destruct (t_uuid t) as [w|] eqn:Q; destruct E as [-> | ->]; cbn in H; try contradiction; subst w;
      apply I8; apply Exists_exists; exists (LStart u); (split; [now apply I7|reflexivity]). }
  unfold a_exit, tm_commit. destruct r as [x|e].
  - destruct (n_failed c) eqn:F; cbn [fst snd].
    + exists []. split; [|reflexivity]. rewrite app_nil_r. now constructor.
    + destruct (b (n_calls c)) as [e|] eqn:B; cbn [fst snd].
      * exists []. split; [|reflexivity]. rewrite app_nil_r. constructor; cbn; auto; intros id N; now destruct N.
      * exists [LGood (t_uuid t)]. split; [|reflexivity]. constructor; cbn [fst snd set_auto t_log t_uuid t_next n_work n_saved n_auto].
        -- rewrite I1, app_assoc. reflexivity.
        -- unfold history in *. cbn [n_saved n_past]. destruct (t_uuid t) as [w|] eqn:Q.
           ++ apply au_commit; [exact I2|]. intros id N. destruct (I3 id N) as (u & U1 & U2). injection U1 as <-. exact U2.
           ++ apply au_empty; [exact I2|]. intros id. destruct (n_auto c) eqn:Au; [rewrite I4; auto|]. destruct (I5 eq_refl) as (u & U). discriminate U.
        -- intros id N. now destruct N.
        -- auto.
        -- discriminate.
        -- apply orderly_snoc; [exact I6|]. apply proper_end with t; auto.
        -- discriminate.
        -- apply CN. auto.
        -- exact I9.
  - cbn [fst snd]. exists [LBad (t_uuid t)]. split; [|reflexivity]. constructor; cbn [fst snd set_auto tm_abort t_log t_uuid t_next n_work n_saved n_auto].
    + rewrite I1, app_assoc. reflexivity.
    + apply au_other; [discriminate|exact I2].
    + intros id N. now destruct N.
    + auto.
    + discriminate.
    + apply orderly_snoc; [exact I6|]. apply proper_end with t; auto.
    + discriminate.
    + apply CN. auto.
    + exact I9.
Qed.
Lemma inv_a_call h0 l0 n0 m b cmd s l : inv h0 l0 n0 s l -> exists l', inv h0 l0 n0 (fst (a_call m b cmd s)) (l ++ l').
Proof.
  destruct s as [c t]. intros I. unfold a_call. destruct (lis_read cmd) eqn:R.
  - assert (X : fst (perform legacy_calls cmd c) = c) by (unfold perform; cbn [is_read legacy_calls]; now rewrite R). destruct (perform legacy_calls cmd c) as [c1 r]. cbn [fst] in X |- *. subst c1. exists []. now rewrite app_nil_r.
  - destruct m; [exists []; now rewrite app_nil_r|]. destruct (n_auto c) eqn:Au.
    + pose proof (inv_enter I) as I1. cbn [a_enter fst snd] in I1 |- *.
      pose proof (@inv_call _ _ _ _ _ _ (t_next t) cmd I1 eq_refl eq_refl R) as I2. destruct (perform legacy_calls cmd (tm_enter c)) as [c1 r]. cbn [fst snd] in *. destruct (inv_exit b r I2) as (l' & I3 & _). exists ([LStart (t_next t)] ++ [named (t_next t) cmd] ++ l'). rewrite !app_assoc in *. exact I3.
    + destruct (i_off I Au) as (u & U). cbn [snd] in U. rewrite U. pose proof (@inv_call _ _ _ _ _ _ u cmd I Au U R) as I2. destruct (perform legacy_calls cmd c) as [c1 r]. cbn [fst] in *. eauto.
Qed.
Lemma inv_run h0 l0 n0 m b p : forall s l, inv h0 l0 n0 s l -> exists l', inv h0 l0 n0 (fst (a_run m b p s)) (l ++ l').
Proof.
  induction p as [r|cmd k IH|v k IH|body IHb k IH]; intros s l I; cbn [a_run].
  - exists []. now rewrite app_nil_r.
  - destruct (inv_a_call m b cmd I) as (l1 & I1). destruct (a_call m b cmd s) as [s1 r]. cbn [fst] in I1. destruct (IH r s1 _ I1) as (l2 & I2). exists (l1 ++ l2). now rewrite app_assoc.
  - eauto.
  - destruct (IHb _ _ (inv_enter I)) as (l1 & I1). destruct (a_run m b body (a_enter s)) as [[c1 t1] r]. cbn [fst] in I1. destruct (inv_exit b r I1) as (l2 & I2 & _). destruct (a_exit b r (c1, t1)) as [s2 r2]. cbn [fst] in I2.
    destruct (IH r2 _ _ I2) as (l3 & I3). exists ([LStart (t_next (snd s))] ++ l1 ++ l2 ++ l3). now rewrite !app_assoc in *.
Qed.

Lemma inv_start c t : n_work c = n_saved c -> n_auto c = true -> t_uuid t = None -> inv (history c) (t_log t) (t_next t) (c, t) [].
Proof.
  intros W A U. constructor; cbn [fst snd]; auto.
  - now rewrite app_nil_r.
  - constructor.
  - intros id N. rewrite W in N. now destruct N.
  - rewrite A. discriminate.
  - apply orderly_nil.
  - rewrite U. discriminate.
  - intros u H. inversion H.
Qed.
Theorem audit_run m b p c t : n_work c = n_saved c -> n_auto c = true -> t_uuid t = None ->
  exists l, t_log (snd (fst (a_run m b p (c, t)))) = t_log t ++ l /\ audited (history c) (history (fst (fst (a_run m b p (c, t))))) l /\ orderly l /\ (forall u, Exists (about u) l -> (t_next t <= u)%nat).
Proof.
  intros W A U. destruct (inv_run m b p (inv_start _ _ W A U)) as (l & [I1 I2 I3 I4 I5 I6 I7 I8 I9]). exists l. cbn [app] in *. split; [exact I1|]. split; [exact I2|]. split; [exact I6|]. intros u H. now apply I8.
Qed.
(** consequences of [audited] *)
Lemma audited_changes h0 h l : audited h0 h l -> forall s0 r0, h0 = s0 :: r0 -> exists s r, h = s :: r /\ forall id, l_map s id <> l_map s0 id ->
  exists u l1 l2 l3 l4 fn, l = l1 ++ LStart u :: l2 ++ LCall u fn id :: l3 ++ LGood (Some u) :: l4.
Proof.
  assert (MORE : forall l e id, (exists u l1 l2 l3 l4 fn, l = l1 ++ LStart u :: l2 ++ LCall u fn id :: l3 ++ LGood (Some u) :: l4) -> exists u l1 l2 l3 l4 fn, l ++ [e] = l1 ++ LStart u :: l2 ++ LCall u fn id :: l3 ++ LGood (Some u) :: l4).
  { intros k e id (u & l1 & l2 & l3 & l4 & fn & ->). exists u, l1, l2, l3, (l4 ++ [e]), fn. rewrite <- !app_assoc. cbn. rewrite <- !app_assoc. cbn. rewrite <- !app_assoc. reflexivity. }
  assert (DEC : forall s s' id, l_map s' id = l_map s id \/ l_map s' id <> l_map s id).
  { intros s s' id. destruct (l_map s' id) as [v|], (l_map s id) as [w|]; try (right; discriminate); [|now left]. destruct (Multi.pyval_dec v w) as [->|N]; [now left|right; congruence]. }
  induction 1 as [|h l e NG A IH|h s s' l u A IH NM|h s s' l A IH E]; intros s0 r0 E0.
  - exists s0, r0. split; [exact E0|]. intros id N. now destruct N.
  - destruct (IH _ _ E0) as (s & r & -> & H). exists s, r. split; [reflexivity|]. intros id N. apply MORE. auto.
  - destruct (IH _ _ E0) as (s1 & r1 & Q & H). injection Q as -> ->. exists s', (s1 :: r1). split; [reflexivity|]. intros id N. destruct (DEC s1 s' id) as [X|X].
    + apply MORE, H. now rewrite <- X.
    + destruct (NM id X) as (l1 & l2 & l3 & fn & ->). exists u, l1, l2, l3, [], fn. rewrite <- !app_assoc. cbn. rewrite <- !app_assoc. reflexivity.
  - destruct (IH _ _ E0) as (s1 & r1 & Q & H). injection Q as -> ->. exists s', (s1 :: r1). split; [reflexivity|]. intros id N. apply MORE, H. now rewrite <- E.
Qed.
Definition is_good (e : entry) : bool := match e with LGood _ => true | _ => false end.
Lemma audited_count h0 h l : audited h0 h l -> length h = (length h0 + length (filter is_good l))%nat.
Proof.
  induction 1 as [|h l e NG A IH|h s s' l u A IH NM|h s s' l A IH E]; rewrite ?filter_app, ?app_length; cbn [filter is_good length] in *; try lia.
  destruct e; cbn [is_good filter length]; try lia. now destruct (NG u).
Qed.

(** one autocommitted call: what it logs, by how it ends *)
Theorem call_entries b cmd c t : lis_read cmd = false -> n_auto c = true -> let u := t_next t in
  t_log (snd (fst (a_call Explicit b cmd (c, t)))) = t_log t ++ [LStart u; named u cmd] ++
    match snd (lsem cmd (n_saved c)), b (n_calls c) with Err _, _ => [LBad (Some u)] | Ok _, None => [LGood (Some u)] | Ok _, Some _ => [] end.
Proof.
  intros R A u. unfold a_call. rewrite R, A. cbn [a_enter]. unfold perform. cbn [is_read legacy_calls sem]. rewrite R. unfold tm_enter, tm_abort, set_auto. cbn [n_failed n_work n_saved].
  destruct (lsem cmd (n_saved c)) as [k [x|e]]; cbn [snd].
  - unfold a_exit, tm_commit. cbn [put n_failed n_calls]. destruct (b (n_calls c)) as [e|]; cbn [fst snd t_log say t_uuid]; rewrite <- !app_assoc; reflexivity.
  - unfold a_exit. cbn [fst snd t_log say t_uuid]. rewrite <- !app_assoc. reflexivity.
Qed.

(** programs whose blocks contain no blocks, when no commit fails: every transaction that starts is logged as SUCCESSFUL or FAILED *)
Fixpoint blockless (p : prog lcmd lres) : Prop :=
  match p with Done _ => True | Do _ k => forall r, blockless (k r) | SetAuto _ k => forall r, blockless (k r) | Block _ _ => False end.
Fixpoint flat (p : prog lcmd lres) : Prop :=
  match p with Done _ => True | Do _ k => forall r, flat (k r) | SetAuto _ k => forall r, flat (k r) | Block body k => blockless body /\ forall r, flat (k r) end.
Definition ended (l : list entry) : Prop := forall u, In (LStart u) l -> Exists (ends u) l.
Definition ended_but (o : option nat) (l : list entry) : Prop := forall u, In (LStart u) l -> o = Some u \/ Exists (ends u) l.
Definition fine (s : astate) : Prop := n_failed (fst s) = false /\ n_auto (fst s) = match t_uuid (snd s) with Some _ => false | None => true end /\ ended_but (t_uuid (snd s)) (t_log (snd s)).
Lemma fine_call cmd c t u : lis_read cmd = false -> fine (c, t) -> t_uuid t = Some u -> fine (fst (perform legacy_calls cmd c), say (named u cmd) t).
Proof.
  intros R (F & A & E) U. destruct (@named_call u cmd R) as [fn NC]. rewrite NC. cbn [fst snd] in *. split; [|split].
  - unfold perform. cbn [is_read legacy_calls sem]. rewrite R, F. destruct (lsem cmd (n_work c)). exact F.
  - unfold perform. cbn [is_read legacy_calls sem]. rewrite R, F. destruct (lsem cmd (n_work c)). exact A.
  - cbn [fst snd say t_uuid t_log]. intros v I. apply in_app_or in I. destruct I as [I|[I|[]]]; [|discriminate I]. destruct (E v I) as [X|X]; [now left|right]. apply Exists_app. now left.
Qed.
Lemma fine_exit A b (r : res A) c t : (forall n, b n = None) -> fine (c, t) -> fine (fst (a_exit b r (c, t))) /\ t_uuid (snd (fst (a_exit b r (c, t)))) = None.
Proof.
  intros B (F & Au & E). cbn [fst snd] in *.
  assert (X : forall e, (forall u, t_uuid t = Some u -> ends u e) -> ended_but None (t_log t ++ [e]) \/ exists v, e = LStart v).
  { intros e H. destruct e as [v|v fn id|v|v]; [right; eauto| | |]; left; intros u I; (apply in_app_or in I; destruct I as [I|[I|[]]]; [|discriminate I]); right; apply Exists_app; (destruct (E u I) as [Q|Q]; [right; constructor; now apply H|now left]). }
  unfold a_exit, tm_commit. destruct r as [x|e]; [rewrite F, B|]; cbn [fst snd t_uuid]; (split; [|reflexivity]); unfold fine; cbn [fst snd set_auto tm_abort n_failed n_auto t_uuid t_log]; (split; [reflexivity|]); (split; [reflexivity|]).
  - destruct (X (LGood (t_uuid t))) as [Y|[v Y]]; [intros u ->; now left|exact Y|discriminate Y].
  - destruct (X (LBad (t_uuid t))) as [Y|[v Y]]; [intros u ->; now right|exact Y|discriminate Y].
Qed.
Lemma fine_enter s : fine s -> t_uuid (snd s) = None -> fine (a_enter s).
Proof.
  destruct s as [c t]. intros (F & A & E) U. cbn [fst snd] in *. rewrite U in E. split; [reflexivity|]. split; [reflexivity|]. cbn [a_enter fst snd t_uuid t_log]. intros u I. apply in_app_or in I. destruct I as [I|[I|[]]].
  - right. apply Exists_app. left. destruct (E u I) as [X|X]; [discriminate X|exact X].
  - injection I as ->. now left.
Qed.
Lemma fine_a_call m b cmd s : (forall n, b n = None) -> fine s -> fine (fst (a_call m b cmd s)) /\ (t_uuid (snd s) = None -> t_uuid (snd (fst (a_call m b cmd s))) = None) /\ (t_uuid (snd s) <> None -> t_uuid (snd (fst (a_call m b cmd s))) <> None).
Proof.
  destruct s as [c t]. intros B F. unfold a_call. destruct (lis_read cmd) eqn:R.
  - assert (X : fst (perform legacy_calls cmd c) = c) by (unfold perform; cbn [is_read legacy_calls]; now rewrite R). destruct (perform legacy_calls cmd c) as [c1 r]. cbn [fst] in X |- *. subst c1. auto.
  - destruct m; [auto|]. pose proof F as (_ & A & _). cbn [fst snd] in A. destruct (t_uuid t) as [u|] eqn:U; rewrite A.
    + pose proof (@fine_call cmd c t u R F U) as G. destruct (perform legacy_calls cmd c) as [c1 r]. cbn [fst snd say t_uuid] in *. rewrite U. split; [exact G|]. split; [discriminate|auto].
    + pose proof (@fine_enter (c, t) F U) as F1. cbn [a_enter] in F1 |- *. pose proof (@fine_call cmd _ _ (t_next t) R F1 eq_refl) as F2. cbn [a_enter fst snd] in F2. destruct (perform legacy_calls cmd (tm_enter c)) as [c1 r]. cbn [fst] in F2.
      destruct (@fine_exit _ b r _ _ B F2) as [F3 F4]. split; [exact F3|]. split; [auto|]. cbn [snd]. intros N. now destruct N.
Qed.
Lemma fine_body m b p : (forall n, b n = None) -> blockless p -> forall s, fine s -> fine (fst (a_run m b p s)).
Proof.
  intros B. induction p as [r|cmd k IH|v k IH|body IHb k IH]; cbn [blockless a_run]; intros BL s F; [exact F| | |contradiction].
  - destruct (@fine_a_call m b cmd s B F) as [F1 _]. destruct (a_call m b cmd s) as [s1 r]. cbn [fst] in F1. apply IH; auto.
  - apply IH; auto.
Qed.
Lemma fine_run m b p : (forall n, b n = None) -> flat p -> forall s, fine s -> t_uuid (snd s) = None -> fine (fst (a_run m b p s)) /\ t_uuid (snd (fst (a_run m b p s))) = None.
Proof.
  intros B. induction p as [r|cmd k IH|v k IH|body IHb k IH]; cbn [flat a_run]; intros FL s F U; [auto| | |].
  - destruct (@fine_a_call m b cmd s B F) as [F1 [F2 _]]. destruct (a_call m b cmd s) as [s1 r]. cbn [fst] in F1, F2. apply IH; auto.
  - apply IH; auto.
  - destruct FL as [BL FL]. pose proof (@fine_body m b body B BL _ (fine_enter F U)) as F1. destruct (a_run m b body (a_enter s)) as [[c1 t1] r]. cbn [fst] in F1. destruct (@fine_exit _ b r _ _ B F1) as [F2 F3]. destruct (a_exit b r (c1, t1)) as [s2 r2]. cbn [fst] in F2, F3. apply IH; auto.
Qed.
Theorem all_end m b p c : (forall n, b n = None) -> flat p -> n_auto c = true -> n_failed c = false -> ended (t_log (snd (fst (a_run m b p (c, mkT None 0 []))))).
Proof.
  intros B FL A F. destruct (@fine_run m b p B FL (c, mkT None 0 [])) as [(_ & _ & E) U]; [|reflexivity|].
  - split; [exact F|]. split; [exact A|]. intros u I. destruct I.
  - rewrite U in E. intros u I. destruct (E u I) as [X|X]; [discriminate X|exact X].
Qed.
