(** DbContainer and expand_containers *)
From Verif Require Import Base BaseFacts Value Collection SpecMap RoutingFacts Dict DictFacts Txn TxnFacts Legacy.
Open Scope Z_scope.
Set Implicit Arguments.

(** ** Specification *)
(** the number a string id stands for: its UTF-8 bytes as a big-endian number; with [n] containers the id is looked for in
    container (number mod n) *)
Definition id_number (id : pystr) (h : N) : Prop := exists bs, encode id = Ok bs /\ h = from_bytes bs.
(** what can be read *)
Definition l_abs (c : dbc) (id : pystr) : option pyval := match locate id c with Ok i => d_get id (at_ i c) | Err _ => None end.
Definition lop_id (o : lop) : pystr := match o with LWrite id _ | LDelete id | LRead id | LHas id => id end.
(** one call on a map *)
Inductive map_lop (m : amap) : lop -> amap -> res lout -> Prop :=
| ml_write id v m' : bound m id v m' -> map_lop m (LWrite id v) m' (Ok LNone)
| ml_delete id w m' : m id = Some w -> removed m id m' -> map_lop m (LDelete id) m' (Ok LNone)
| ml_missing id m' : m id = None -> same m m' -> map_lop m (LDelete id) m' (Err KeyError)
| ml_read id m' : same m m' -> map_lop m (LRead id) m' (Ok (LVal (match m id with Some v => v | None => VNone end)))
| ml_has id m' : same m m' -> map_lop m (LHas id) m' (Ok (LBool (match m id with Some _ => true | None => false end))).
Inductive map_lops : amap -> list lop -> amap -> list (res lout) -> Prop :=
| mls_nil m m' : same m m' -> map_lops m [] m' []
| mls_cons m m1 m2 o ops r rs : map_lop m o m1 r -> map_lops m1 ops m2 rs -> map_lops m (o :: ops) m2 (r :: rs).

(** ** Proof *)
Definition l_wf (c : dbc) : Prop :=
  (0 < length c)%nat /\ forall i d, nth_error c i = Some d -> NoDup (d_keys d) /\ forall id, In id (d_keys d) -> locate id c = Ok i.

Lemma locate_len id c c' : length c' = length c -> locate id c' = locate id c.
Proof. unfold locate. destruct (encode id); auto. intros H. rewrite H. destruct c, c'; simpl in H; try discriminate; auto. Qed.
Lemma locate_lt id c i : locate id c = Ok i -> (i < length c)%nat.
Proof.
  unfold locate. destruct (encode id) as [bs|e]; [|discriminate]. destruct c as [|d c]; [discriminate|]. intros [= <-].
  assert (B : (from_bytes bs mod N.of_nat (length (d :: c)) < N.of_nat (length (d :: c)))%N) by (apply N.mod_lt; cbn [length]; lia). cbn [length] in *. lia.
Qed.
Lemma locate_enc id c : encodable id -> (0 < length c)%nat -> exists i, locate id c = Ok i.
Proof.
  intros E L. destruct (proj1 (encode_spec id) E) as [bs B]. unfold locate. rewrite B. destruct c; [simpl in L; lia|]. eauto.
Qed.
Lemma replace_len i d c : length (replace_at i d c) = length c.
Proof. revert i. induction c as [|x c IH]; intros [|i]; simpl; auto. Qed.
Lemma at_replace_same i d c : (i < length c)%nat -> at_ i (replace_at i d c) = d.
Proof. revert i. unfold at_. induction c as [|x c IH]; intros [|i] L; simpl in *; try lia; auto. apply IH. lia. Qed.
Lemma at_replace_other i j d c : i <> j -> at_ j (replace_at i d c) = at_ j c.
Proof. revert i j. unfold at_. induction c as [|x c IH]; intros [|i] [|j] N; simpl; auto; try congruence. Qed.
Lemma nth_at c i : (i < length c)%nat -> nth_error c i = Some (at_ i c).
Proof. intros L. unfold at_. now apply nth_error_nth'. Qed.
Lemma at_nth c i d : nth_error c i = Some d -> at_ i c = d.
Proof. unfold at_. intros H. now apply nth_error_nth. Qed.
Lemma wf_replace c i d : l_wf c -> (i < length c)%nat -> NoDup (d_keys d) -> (forall id, In id (d_keys d) -> locate id c = Ok i) -> l_wf (replace_at i d c).
Proof.
  intros [L W] LI ND RT. split; [now rewrite replace_len|]. intros j e H. assert (LJ : (j < length c)%nat) by (rewrite <- (replace_len i d c); apply nth_error_Some; congruence).
  apply at_nth in H. destruct (Nat.eq_dec i j) as [<-|N].
  - rewrite at_replace_same in H by auto. subst e. split; auto. intros id J. rewrite (@locate_len id c); auto. apply replace_len.
  - rewrite at_replace_other in H by auto. subst e. destruct (W j _ (nth_at c LJ)) as [N1 N2]. split; auto. intros id J. rewrite (@locate_len id c); auto. apply replace_len.
Qed.
Lemma abs_replace c i d id : (i < length c)%nat -> l_abs (replace_at i d c) id = match locate id c with Ok j => if Nat.eqb i j then d_get id d else d_get id (at_ j c) | Err _ => None end.
Proof.
  intros L. unfold l_abs. rewrite (@locate_len id c) by apply replace_len. destruct (locate id c) as [j|e]; auto. destruct (Nat.eqb_spec i j) as [<-|N].
  - now rewrite at_replace_same. - now rewrite at_replace_other.
Qed.
Lemma l_step_spec o c : l_wf c -> encodable (lop_id o) -> map_lop (l_abs c) o (l_abs (fst (l_step o c))) (snd (l_step o c)) /\ l_wf (fst (l_step o c)).
Proof.
  intros W E. pose proof W as [L WF]. assert (SM : same (l_abs c) (l_abs c)) by (intros j; reflexivity). destruct (locate_enc c E L) as [i EI]. pose proof (locate_lt _ _ EI) as LI.
  destruct (WF i _ (nth_at c LI)) as [ND RT].
  destruct o as [id v|id|id|id]; simpl in E, EI |- *.
  - unfold dbc_write. rewrite EI. simpl. split.
    + apply ml_write. split.
      * rewrite abs_replace, EI, Nat.eqb_refl by auto. apply d_get_set_same.
      * intros j N. rewrite abs_replace by auto. unfold l_abs. destruct (locate j c) as [x|e]; auto. destruct (Nat.eqb_spec i x) as [<-|]; auto. now apply d_get_set_other.
    + apply wf_replace; auto; [now apply d_set_nodup|]. intros j. rewrite d_keys_set. destruct (d_mem id (at_ i c)); auto. intros H. apply in_app_iff in H. destruct H as [H|[<-|[]]]; auto.
  - unfold dbc_delete. rewrite EI. destruct (d_get id (at_ i c)) as [w|] eqn:G; simpl.
    + split.
      * apply ml_delete with (w := w); [unfold l_abs; now rewrite EI|]. split.
        -- rewrite abs_replace, EI, Nat.eqb_refl by auto. now apply d_get_del_same.
        -- intros j N. rewrite abs_replace by auto. unfold l_abs. destruct (locate j c) as [x|e]; auto. destruct (Nat.eqb_spec i x) as [<-|]; auto. now apply d_get_del_other.
      * apply wf_replace; auto; [now apply d_del_nodup|]. intros j H. apply RT. eapply d_del_incl; eauto.
    + split; auto. apply ml_missing; auto. unfold l_abs. now rewrite EI.
  - unfold dbc_read. rewrite EI. simpl. split; auto. replace (d_get id (at_ i c)) with (l_abs c id) by (unfold l_abs; now rewrite EI). now apply ml_read.
  - unfold dbc_has, d_mem. rewrite EI. simpl. split; auto. replace (d_get id (at_ i c)) with (l_abs c id) by (unfold l_abs; now rewrite EI). now apply ml_has.
Qed.
Lemma l_run_spec ops : forall c, l_wf c -> Forall (fun o => encodable (lop_id o)) ops ->
  map_lops (l_abs c) ops (l_abs (fst (l_run ops c))) (snd (l_run ops c)) /\ l_wf (fst (l_run ops c)).
Proof.
  induction ops as [|o ops IH]; intros c W F; simpl; [split; auto; constructor; intros j; reflexivity|]. apply Forall_cons_iff in F. destruct F as [E F].
  destruct (l_step_spec o W E) as [M W1]. destruct (l_step o c) as [c1 r]. simpl in *. destruct (IH c1 W1 F) as [M2 W2]. destruct (l_run ops c1) as [c2 rs]. simpl in *.
  split; auto. econstructor; eauto.
Qed.

(** size *)
Lemma nodup_flat (f : pystr -> option nat) (c : dbc) : forall k, (forall i d, nth_error c i = Some d -> NoDup (d_keys d) /\ forall id, In id (d_keys d) -> f id = Some (k + i)%nat) ->
  NoDup (flat_map d_keys c).
Proof.
  induction c as [|d c IH]; intros k H; simpl; [constructor|]. destruct (H 0%nat d eq_refl) as [ND RT].
  assert (NC : NoDup (flat_map d_keys c)). { apply (IH (S k)). intros i e G. destruct (H (S i) e G) as [A B]. split; auto. intros id J. rewrite B by auto. f_equal. lia. }
  clear IH. induction (d_keys d) as [|x l IHl]; simpl; auto. apply NoDup_cons_iff in ND. destruct ND as [NI ND]. constructor; [|apply IHl; auto; intros; apply RT; simpl; auto].
  intros J. apply in_app_iff in J. destruct J as [J|J]; [tauto|]. apply in_flat_map in J. destruct J as (e & J1 & J2). apply In_nth_error in J1. destruct J1 as [i J1].
  destruct (H (S i) e J1) as [_ B]. specialize (B x J2). rewrite (RT x) in B by (simpl; auto). injection B. lia.
Qed.
Lemma size_flat c : dbc_size c = Z.of_nat (length (flat_map d_keys c)).
Proof. unfold dbc_size, d_keys. induction c as [|d c IH]; auto. simpl. rewrite IH, app_length, map_length. lia. Qed.
Lemma l_size c : l_wf c -> has_size (l_abs c) (dbc_size c).
Proof.
  intros [L W]. exists (flat_map d_keys c). split; [|split; [|apply size_flat]].
  - apply (@nodup_flat (fun id => match locate id c with Ok i => Some i | Err _ => None end) c 0%nat). intros i d H. destruct (W i d H) as [A B]. split; auto. intros id J. now rewrite B.
  - intros id. rewrite in_flat_map. unfold l_abs. split.
    + intros (d & J1 & J2). apply In_nth_error in J1. destruct J1 as [i J1]. destruct (W i d J1) as [_ B]. rewrite (B id J2). rewrite (@at_nth c i d J1). now apply d_get_in.
    + destruct (locate id c) as [i|e] eqn:E; [|congruence]. intros H. exists (at_ i c). split; [|now apply d_get_in]. apply nth_error_In with (n := i). apply nth_at. eapply locate_lt; eauto.
Qed.
Lemma fresh_wf n : (0 < n)%nat -> l_wf (repeat [] n).
Proof.
  intros H. split; [now rewrite repeat_length|]. intros i d E. apply nth_error_In in E. apply repeat_spec in E. subst d. split; [constructor|]. intros id [].
Qed.
Lemma fresh_abs n id : l_abs (repeat [] n) id = None.
Proof.
  unfold l_abs. destruct (locate id (repeat [] n)) as [i|e] eqn:E; auto. apply locate_lt in E. assert (X : at_ i (repeat [] n) = @nil (pystr * pyval)); [|now rewrite X].
  unfold at_. generalize (nth_In (repeat [] n) [] E). intros J. now apply repeat_spec in J.
Qed.
Lemma map_lop_ext m m' o m1 r : same m m' -> map_lop m o m1 r -> map_lop m' o m1 r.
Proof.
  intros S H. destruct H as [id v m1 [B1 B2]|id w m1 HW [B1 B2]|id m1 HW HS|id m1 HS|id m1 HS].
  - apply ml_write. split; auto. intros j N. rewrite S. auto.
  - apply ml_delete with (w := w); [now rewrite S|]. split; auto. intros j N. rewrite S. auto.
  - apply ml_missing; [now rewrite S|]. intros j. rewrite S. auto.
  - rewrite <- (S id). apply ml_read. intros j. rewrite S. auto.
  - rewrite <- (S id). apply ml_has. intros j. rewrite S. auto.
Qed.
Lemma C44_lemma n ops c rs : (0 < n)%nat -> Forall (fun o => encodable (lop_id o)) ops -> l_run ops (repeat [] n) = (c, rs) ->
  map_lops empty_map ops (l_abs c) rs /\ has_size (l_abs c) (dbc_size c) /\ length c = n.
Proof.
  intros H F E. destruct (l_run_spec (fresh_wf H) F) as [M W]. rewrite E in *. simpl in *. split; [|split].
  - inversion M; subst.
    + apply mls_nil. intros j. rewrite H0. apply fresh_abs.
    + eapply mls_cons; eauto. eapply map_lop_ext; eauto. intros j. symmetry. apply fresh_abs.
  - now apply l_size.
  - clear - E. revert E. assert (G : forall ops c c' rs, l_run ops c = (c', rs) -> length c' = length c).
    { clear. induction ops as [|o ops IH]; intros c c' rs E; simpl in E; [now injection E as <- _|]. destruct (l_step o c) as [c1 r] eqn:S. destruct (l_run ops c1) as [c2 rs2] eqn:R.
      injection E as <- _. apply IH in R. rewrite R. clear - S. destruct o as [id v|id|id|id]; simpl in S; try (injection S as <- _; auto).
      - unfold dbc_write in S. destruct (locate id c); injection S as <- _; auto. apply replace_len.
      - unfold dbc_delete in S. destruct (locate id c); [destruct (d_get id (at_ a c))|]; injection S as <- _; auto. apply replace_len. }
    intros E. apply G in E. now rewrite repeat_length in E.
Qed.
Lemma C44_unencodable o c : ~ encodable (lop_id o) -> l_step o c = (c, Err UnicodeEncodeError).
Proof.
  intros N. assert (X : encode (lop_id o) = Err UnicodeEncodeError) by now apply encode_spec.
  assert (Y : locate (lop_id o) c = Err UnicodeEncodeError) by (unfold locate; now rewrite X).
  destruct o; simpl in *; unfold dbc_write, dbc_delete, dbc_read, dbc_has; now rewrite Y.
Qed.

(** ** C45 *)
Lemma expand_app m c : (length c <= m)%nat -> map (fun i => at_ i c) (seq 0 m) = c ++ repeat [] (m - length c).
Proof.
  revert m. induction c as [|d c IH]; intros m L; simpl.
  - rewrite Nat.sub_0_r. clear. assert (X : forall k, map (fun i => at_ i []) (seq k m) = repeat [] m); [|apply X].
    induction m as [|m IH]; intros k; simpl; auto. rewrite IH. unfold at_. now destruct k.
  - destruct m as [|m]; [simpl in L; lia|]. simpl in *. f_equal. rewrite <- IH by lia. rewrite <- seq_shift, map_map. reflexivity.
Qed.
Lemma at_app_nil i c k : at_ i (c ++ repeat [] k) = at_ i c.
Proof.
  unfold at_. destruct (lt_dec i (length c)) as [L|L]; [now rewrite app_nth1|]. rewrite app_nth2 by lia. rewrite (nth_overflow c) by lia.
  destruct (lt_dec (i - length c) k) as [L2|L2]; [|apply nth_overflow; rewrite repeat_length; lia]. generalize (nth_In (repeat (@nil (pystr * pyval)) k) [] (n := i - length c)).
  rewrite repeat_length. intros J. specialize (J L2). now apply repeat_spec in J.
Qed.
Lemma size_app_nil c k : dbc_size (c ++ repeat [] k) = dbc_size c.
Proof. rewrite !size_flat. f_equal. f_equal. rewrite flat_map_app. assert (X : flat_map (@d_keys pyval) (repeat [] k) = []) by (induction k; simpl; auto). etransitivity; [apply (f_equal (app _)); exact X|apply app_nil_r]. Qed.
Lemma locate_number id h c : id_number id h -> (0 < length c)%nat -> locate id c = Ok (N.to_nat (h mod N.of_nat (length c))).
Proof. intros (bs & E & ->) L. unfold locate. rewrite E. destruct c; [simpl in L; lia|]. reflexivity. Qed.

Lemma size_set_new id w : forall (c : dbc) j, d_get id (at_ j c) = None -> (j < length c)%nat -> dbc_size (replace_at j (d_set id w (at_ j c)) c) = dbc_size c + 1.
Proof.
  intros c. unfold at_. induction c as [|d c IH]; intros j G L; simpl in L; [lia|]. destruct j as [|j]; simpl in *.
  - unfold dbc_size. simpl. rewrite d_len_set. unfold d_mem. rewrite G. lia.
  - unfold dbc_size in *. simpl. rewrite IH; auto; lia.
Qed.
Lemma C45_refused m c : m <= containers_size c -> expand_size m c = (c, Err ValueError).
Proof. intros H. unfold expand_size. apply Z.leb_le in H. now rewrite H. Qed.
Lemma expand_ok m c : containers_size c < m -> exists k, expand_size m c = (c ++ repeat [] k, Ok tt) /\ containers_size (c ++ repeat [] k) = m.
Proof.
  intros H. unfold expand_size. apply Z.leb_gt in H. rewrite H. apply Z.leb_gt in H. unfold containers_size in *. exists (Z.to_nat m - length c)%nat.
  split; [f_equal; apply expand_app; lia|]. rewrite app_length, repeat_length. lia.
Qed.
Definition holds_copy (c : dbc) (id : pystr) (i : nat) : Prop := In id (d_keys (at_ i c)).
Lemma C45_lemma n ops c rs m : (0 < n)%nat -> Forall (fun o => encodable (lop_id o)) ops -> l_run ops (repeat [] n) = (c, rs) -> Z.of_nat n < m ->
  exists c', expand_size m c = (c', Ok tt) /\ containers_size c' = m /\ dbc_size c' = dbc_size c /\
    (forall i, at_ i c' = at_ i c) /\
    forall id h v, id_number id h -> dbc_read id c = Ok v ->
      ((h mod N.of_nat n = h mod Z.to_N m)%N -> dbc_read id c' = Ok v) /\
      ((h mod N.of_nat n <> h mod Z.to_N m)%N -> dbc_read id c' = Ok VNone /\ dbc_has id c' = Ok false /\
         (dbc_has id c = Ok true -> forall w, exists c2 i j, dbc_write id w c' = (c2, Ok tt) /\ dbc_size c2 = dbc_size c + 1 /\ i <> j /\ holds_copy c2 id i /\ holds_copy c2 id j)).
Proof.
  intros Hn F E HM. destruct (C44_lemma Hn F E) as (_ & _ & LN). destruct (l_run_spec (fresh_wf Hn) F) as [_ W]. rewrite E in W. simpl in W. clear E F.
  destruct (@expand_ok m c) as (k & EX & SZ); [unfold containers_size; lia|]. exists (c ++ repeat [] k). split; auto. split; auto. split; [apply size_app_nil|]. split; [intros i; apply at_app_nil|].
  intros id h v ID RD. pose proof W as [LC WF].
  set (c' := c ++ repeat [] k) in *. assert (LM : N.of_nat (length c') = Z.to_N m) by (unfold containers_size in SZ; lia).
  assert (LC' : (0 < length c')%nat) by (unfold c'; rewrite app_length; lia).
  assert (L1 : locate id c = Ok (N.to_nat (h mod N.of_nat n))) by (rewrite <- LN; now apply locate_number).
  assert (L2 : locate id c' = Ok (N.to_nat (h mod Z.to_N m))) by (rewrite <- LM; now apply locate_number).
  unfold dbc_read in *. rewrite L1 in RD. rewrite L2. split.
  - intros EQ. rewrite <- EQ. unfold c'. now rewrite at_app_nil.
  - intros NE. set (j := N.to_nat (h mod Z.to_N m)) in *. set (i := N.to_nat (h mod N.of_nat n)) in *. assert (NIJ : i <> j) by (unfold i, j; lia).
    assert (G : d_get id (at_ j c') = None).
    { unfold c'. rewrite at_app_nil. apply d_get_none. intros J. assert (LJ : (j < length c)%nat).
      { destruct (lt_dec j (length c)); auto. exfalso. unfold at_ in J. rewrite nth_overflow in J by lia. destruct J. }
      destruct (WF j _ (nth_at c LJ)) as [_ B]. specialize (B id J). rewrite L1 in B. injection B as B. congruence. }
    rewrite G. split; auto. split; [unfold dbc_has, d_mem; now rewrite L2, G|]. intros HC w. unfold dbc_has, d_mem in HC. rewrite L1 in HC.
    assert (JI : In id (d_keys (at_ i c))) by (apply d_get_in; destruct (d_get id (at_ i c)); congruence).
    unfold dbc_write. rewrite L2. exists (replace_at j (d_set id w (at_ j c')) c'), i, j. split; auto. split; [|split; [exact NIJ|split]].
    + rewrite <- (size_app_nil c k). fold c'. apply locate_lt in L2. now apply size_set_new.
    + unfold holds_copy. rewrite at_replace_other by auto. unfold c'. now rewrite at_app_nil.
    + unfold holds_copy. apply locate_lt in L2. rewrite at_replace_same by auto. rewrite d_keys_set. unfold d_mem. rewrite G. apply in_app_iff. simpl. auto.
Qed.

(** ** C46 *)
Lemma C46_ok b num c : 1 <= num -> b (n_calls c) = None ->
  exists c' k, expand_containers b num c = (c', Ok tt) /\ n_saved c' = n_saved c ++ repeat [] k /\ n_work c' = n_saved c' /\
    containers_size (n_saved c') = containers_size (n_saved c) + num /\ dbc_size (n_saved c') = dbc_size (n_saved c) /\ history c' = n_saved c' :: history c.
Proof.
  intros H B. unfold expand_containers. simpl. destruct (@expand_ok (containers_size (n_saved c) + num) (n_saved c)) as (k & E & S); [lia|]. rewrite E. simpl.
  unfold tm_commit. simpl. rewrite B. simpl. eexists _, k. split; [reflexivity|]. simpl. split; auto. split; auto. split; auto. split; auto. apply size_app_nil.
Qed.
Lemma C46_refused b num c : num <= 0 -> exists c', expand_containers b num c = (c', Err ValueError) /\ n_work c' = n_saved c /\ history c' = history c.
Proof.
  intros H. unfold expand_containers. simpl. rewrite C45_refused by lia. simpl. eexists. split; [reflexivity|]. auto.
Qed.
