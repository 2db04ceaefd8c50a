(** Expanding an older container in the course of a program *)
From Verif Require Import Base BaseFacts Value Collection SpecMap RoutingFacts Dict DictFacts Txn TxnFacts Legacy LegacyFacts LegacyGrow.
Open Scope Z_scope.
Open Scope list_scope.
Set Implicit Arguments.

(** ** Specification *)
(** the number of containers after some calls, from [n] on: an expansion to more sets it, everything else leaves it *)
Fixpoint count (n : Z) (ops : list gop) : Z :=
  match ops with [] => n | GExpand m :: r => count (if n <? m then m else n) r | GCall _ :: r => count n r end.
(** [o] writes [id], giving it [Some v], or deletes it, giving [None] *)
Inductive acts (id : pystr) : gop -> option pyval -> Prop :=
| a_write v : acts id (GCall (LWrite id v)) (Some v)
| a_delete : acts id (GCall (LDelete id)) None.
(** the calls on [id] among [ops], from [n] containers on, that count when there are [k] in the end: those at which the number of the id had the same residue *)
Definition counts_at (h : N) (n k : Z) (before : list gop) : Prop := (h mod Z.to_N (count n before) = h mod Z.to_N k)%N.
(** what there is to be read of [id]: what the last of these calls gave it; nothing if there is none *)
Inductive visible (id : pystr) (h : N) (n : Z) (ops : list gop) (k : Z) : option pyval -> Prop :=
| v_none : (forall before o after x, ops = before ++ o :: after -> acts id o x -> ~ counts_at h n k before) -> visible id h n ops k None
| v_last before o after x : ops = before ++ o :: after -> acts id o x -> counts_at h n k before ->
    (forall b' o' a' y, after = b' ++ o' :: a' -> acts id o' y -> ~ counts_at h n k (before ++ o :: b')) -> visible id h n ops k x.

(** ** Proof *)
Definition sane (c : dbc) : Prop := (0 < length c)%nat /\ forall i, NoDup (d_keys (at_ i c)).
Lemma sane_replace i d c : sane c -> NoDup (d_keys d) -> sane (replace_at i d c).
Proof.
  intros [L W] H. split; [now rewrite replace_len|]. intros j. destruct (Nat.eq_dec i j) as [<- |N].
  - destruct (lt_dec i (length c)) as [LT|GE]; [now rewrite at_replace_same|]. unfold at_. rewrite nth_overflow by (rewrite replace_len; lia). constructor.
  - now rewrite at_replace_other.
Qed.
Lemma acts_dec id o : (exists x, acts id o x) \/ ~ (exists x, acts id o x).
Proof.
  destruct o as [[j v|j|j|j]|m].
  - destruct (str_dec j id) as [-> |N]; [left; eexists; constructor|right; intros [x H]; inversion H; congruence].
  - destruct (str_dec j id) as [-> |N]; [left; eexists; constructor|right; intros [x H]; inversion H; congruence].
  - right; intros [x H]; inversion H.
  - right; intros [x H]; inversion H.
  - right; intros [x H]; inversion H.
Qed.
Lemma g_step_sane o c : sane c -> sane (fst (g_step o c)) /\ containers_size (fst (g_step o c)) = count (containers_size c) [o].
Proof.
  intros W. destruct o as [[id v|id|id|id]|m]; cbn [g_step l_step count].
  - unfold dbc_write. destruct (locate id c) as [i|e]; [|auto]. cbn [fst]. split; [apply sane_replace; [exact W|apply d_set_nodup, W]|unfold containers_size; now rewrite replace_len].
  - unfold dbc_delete. destruct (locate id c) as [i|e]; [|auto]. destruct (d_get id (at_ i c)); [|auto]. cbn [fst]. split; [apply sane_replace; [exact W|apply d_del_nodup, W]|unfold containers_size; now rewrite replace_len].
  - auto.
  - auto.
  - destruct (Z.ltb_spec (containers_size c) m) as [H|H].
    + destruct (expand_ok _ H) as (k & -> & E). cbn [fst]. split; [|exact E]. destruct W as [L W]. split; [rewrite app_length; lia|]. intros i. rewrite at_app_nil. apply W.
    + rewrite C45_refused by exact H. auto.
Qed.
Lemma count_app n a b : count n (a ++ b) = count (count n a) b.
Proof. revert n. induction a as [|[o|m] a IH]; intros n; cbn [app count]; auto. Qed.
Lemma g_run_sane ops : forall c, sane c -> sane (fst (g_run ops c)) /\ containers_size (fst (g_run ops c)) = count (containers_size c) ops.
Proof.
  induction ops as [|o ops IH]; intros c W; cbn [g_run]; [auto|]. destruct (g_step_sane o W) as [W1 E1]. destruct (g_step o c) as [c1 r]. cbn [fst] in *.
  destruct (IH c1 W1) as [W2 E2]. destruct (g_run ops c1) as [c2 rs]. cbn [fst] in *. split; [exact W2|]. rewrite E2, E1. change (o :: ops) with ([o] ++ ops). now rewrite count_app.
Qed.
(** one slot under one call *)
Definition slot (id : pystr) (i : nat) (c : dbc) : option pyval := d_get id (at_ i c).
Definition place (h : N) (n : Z) : nat := N.to_nat (h mod Z.to_N n).
Lemma place_locate id h c : id_number id h -> sane c -> locate id c = Ok (place h (containers_size c)).
Proof. intros H [L _]. rewrite (locate_number c H L). unfold place, containers_size. do 3 f_equal. lia. Qed.
Lemma place_eq h n m : place h n = place h m <-> (h mod Z.to_N n = h mod Z.to_N m)%N.
Proof. unfold place. split; [apply N2Nat.inj|congruence]. Qed.
Lemma slot_acts id h o x c i : id_number id h -> sane c -> acts id o x -> slot id i (fst (g_step o c)) = if Nat.eqb i (place h (containers_size c)) then x else slot id i c.
Proof.
  intros H W A. pose proof (place_locate H W) as L. pose proof (locate_lt _ _ L) as LT. set (p := place h (containers_size c)) in *. destruct A as [v|]; cbn [g_step l_step].
  - unfold dbc_write. rewrite L. cbn [fst]. unfold slot. destruct (Nat.eqb_spec i p) as [-> |N]; [rewrite at_replace_same by exact LT; apply d_get_set_same|]. rewrite at_replace_other by congruence. reflexivity.
  - unfold dbc_delete. rewrite L. destruct (d_get id (at_ p c)) as [w|] eqn:G; cbn [fst]; unfold slot.
    + destruct (Nat.eqb_spec i p) as [-> |N]; [rewrite at_replace_same by exact LT; apply d_get_del_same, W|]. rewrite at_replace_other by congruence. reflexivity.
    + destruct (Nat.eqb_spec i p) as [-> |N]; [exact G|reflexivity].
Qed.
Lemma slot_other id o c i : sane c -> ~ (exists x, acts id o x) -> slot id i (fst (g_step o c)) = slot id i c.
Proof.
  intros W N. destruct o as [[j v|j|j|j]|m]; cbn [g_step l_step]; try reflexivity.
  - assert (J : j <> id) by (intros ->; apply N; eexists; constructor). unfold dbc_write. destruct (locate j c) as [p|e] eqn:L; [|reflexivity]. cbn [fst]. unfold slot. destruct (Nat.eq_dec p i) as [<- |D].
    + rewrite at_replace_same by exact (locate_lt _ _ L). apply d_get_set_other. congruence.
    + now rewrite at_replace_other.
  - assert (J : j <> id) by (intros ->; apply N; eexists; constructor). unfold dbc_delete. destruct (locate j c) as [p|e] eqn:L; [|reflexivity]. destruct (d_get j (at_ p c)); [|reflexivity]. cbn [fst]. unfold slot. destruct (Nat.eq_dec p i) as [<- |D].
    + rewrite at_replace_same by exact (locate_lt _ _ L). apply d_get_del_other. congruence.
    + now rewrite at_replace_other.
  - destruct (Z.ltb_spec (containers_size c) m) as [H|H]; [|rewrite C45_refused by exact H; reflexivity]. destruct (expand_ok _ H) as (k & -> & E). cbn [fst]. unfold slot. now rewrite at_app_nil.
Qed.
(** the slot of residue [k] after all calls *)
Lemma slot_run id h k : id_number id h -> forall ops c, sane c -> slot id (place h k) (fst (g_run ops c)) = slot id (place h k) c /\ (forall before o after x, ops = before ++ o :: after -> acts id o x -> ~ counts_at h (containers_size c) k before) \/
  exists before o after x, ops = before ++ o :: after /\ acts id o x /\ counts_at h (containers_size c) k before /\ slot id (place h k) (fst (g_run ops c)) = x /\
    (forall b' o' a' y, after = b' ++ o' :: a' -> acts id o' y -> ~ counts_at h (containers_size c) k (before ++ o :: b')).
Proof.
  intros H. induction ops as [|o ops IH]; intros c W; cbn [g_run].
  - left. split; [reflexivity|]. intros [|a b] o l x E; discriminate E.
  - destruct (g_step_sane o W) as [W1 E1]. pose proof (slot_other (id := id) (o := o) (place h k) W) as SO. pose proof (fun x => @slot_acts id h o x c (place h k) H W) as SA. destruct (g_step o c) as [c1 r]. cbn [fst] in *.
    assert (CC : forall l, counts_at h (containers_size c1) k l <-> counts_at h (containers_size c) k (o :: l)). { intros l. unfold counts_at. change (o :: l) with ([o] ++ l). rewrite count_app, <- E1. tauto. }
    specialize (IH c1 W1). destruct (g_run ops c1) as [c2 rs]. cbn [fst] in *. destruct IH as [[S N]|(b & o1 & a & x & E & A & C & S & N)].
    + destruct (acts_dec id o) as [[x A]|NA].
      * specialize (SA x A). destruct (Nat.eqb_spec (place h k) (place h (containers_size c))) as [P|P].
        -- right. exists [], o, ops, x. split; [reflexivity|]. split; [exact A|]. split; [unfold counts_at; cbn [count]; symmetry; now apply place_eq|]. split; [congruence|]. intros b' o' a' y E' A'. cbn [app]. rewrite <- CC. eapply N; eassumption.
        -- left. split; [congruence|]. intros [|o0 b] o1 a y E A1; cbn [app] in E; injection E as <- E.
           ++ unfold counts_at. cbn [count]. intros Q. apply P. symmetry. now apply place_eq.
           ++ rewrite <- CC. eapply N; eassumption.
      * left. split; [rewrite S; now apply SO|]. intros [|o0 b] o1 a y E A1; cbn [app] in E; injection E as <- E; [exfalso; apply NA; eauto|]. rewrite <- CC. eapply N; eassumption.
    + right. exists (o :: b), o1, a, x. split; [now rewrite E|]. split; [exact A|]. split; [now apply CC|]. split; [exact S|]. intros b' o' a' y E' A'. cbn [app]. rewrite <- CC. eapply N; eassumption.
Qed.
Lemma fresh_sane n : 0 < n -> sane (repeat [] (Z.to_nat n)) /\ containers_size (repeat [] (Z.to_nat n)) = n.
Proof.
  intros L. split; [|unfold containers_size; rewrite repeat_length; lia]. split; [rewrite repeat_length; lia|]. intros i.
  assert (X : at_ i (repeat [] (Z.to_nat n)) = @nil (pystr * pyval)); [|rewrite X; constructor]. rewrite <- (app_nil_l (repeat [] (Z.to_nat n))). rewrite at_app_nil. unfold at_. now destruct i.
Qed.
Lemma grow_reads n ops id h : 0 < n -> id_number id h -> let c := fst (g_run ops (repeat [] (Z.to_nat n))) in
  exists x, visible id h n ops (count n ops) x /\ dbc_read id c = Ok (match x with Some v => v | None => VNone end) /\ dbc_has id c = Ok (match x with Some _ => true | None => false end) /\
    snd (dbc_delete id c) = match x with Some _ => Ok tt | None => Err KeyError end.
Proof.
  intros L H c. destruct (fresh_sane L) as [W E]. destruct (g_run_sane ops W) as [W' E']. fold c in W', E'. rewrite E in E'.
  pose proof (place_locate H W') as LO. rewrite E' in LO. pose proof (slot_run (count n ops) H ops W) as SR. rewrite E in SR. fold c in SR.
  exists (slot id (place h (count n ops)) c). split.
  - destruct SR as [[S N]|(b & o & a & x & Eo & A & C & S & N)].
    + assert (F : slot id (place h (count n ops)) (repeat [] (Z.to_nat n)) = None). { unfold slot. rewrite <- (app_nil_l (repeat [] (Z.to_nat n))), at_app_nil. unfold at_. now destruct (place h (count n ops)). }
      rewrite S, F. now apply v_none.
    + rewrite S. eapply v_last; eassumption.
  - unfold dbc_read, dbc_has, dbc_delete, d_mem. rewrite LO. unfold slot. destruct (d_get id (at_ (place h (count n ops)) c)); auto.
Qed.
(** the specification determines it *)
Lemma visible_unique id h n ops k x y : visible id h n ops k x -> visible id h n ops k y -> x = y.
Proof.
  assert (AU : forall o a b, acts id o a -> acts id o b -> a = b) by (intros o a b A B; destruct A; inversion B; reflexivity).
  intros [N|b o a x' E A C N] [M|b2 o2 a2 y' E2 A2 C2 M].
  - reflexivity.
  - exfalso. eapply N; eassumption.
  - exfalso. eapply M; eassumption.
  - assert (T : forall (b : list gop) o a b2 o2 a2, b ++ o :: a = b2 ++ o2 :: a2 -> (b = b2 /\ o = o2 /\ a = a2) \/ (exists l, a = l ++ o2 :: a2 /\ b2 = b ++ o :: l) \/ (exists l, a2 = l ++ o :: a /\ b = b2 ++ o2 :: l)).
    { clear. induction b as [|u b IH]; intros o a [|w b2] o2 a2 E; cbn [app] in E; injection E as <- E.
      - auto.
      - right. left. exists b2. now rewrite E.
      - right. right. exists b. now rewrite <- E.
      - apply IH in E. destruct E as [(-> & -> & ->)|[(l & -> & ->)|(l & -> & ->)]]; [auto|right; left; now exists l|right; right; now exists l]. }
    destruct (T b o a b2 o2 a2) as [(-> & -> & ->)|[(l & -> & ->)|(l & -> & ->)]]; [congruence|eapply AU; eassumption| |].
    + exfalso. eapply N; [reflexivity|exact A2|exact C2].
    + exfalso. eapply M; [reflexivity|exact A|exact C].
Qed.
(** nothing that is stored is lost: the size never shrinks but by a delete that succeeds *)
Lemma count_mono ops : forall n, n <= count n ops.
Proof. induction ops as [|[o|m] ops IH]; intros n; cbn [count]; [lia|apply IH|]. specialize (IH (if n <? m then m else n)). destruct (Z.ltb_spec n m); lia. Qed.
(** how each call changes the size *)
Lemma size_replace i d c : (i < length c)%nat -> dbc_size (replace_at i d c) = dbc_size c - Z.of_nat (length (at_ i c)) + Z.of_nat (length d).
Proof.
  revert i. unfold at_. induction c as [|e c IH]; intros i L; cbn [length] in L; [lia|]. destruct i as [|i]; cbn [replace_at nth]; unfold dbc_size in *; cbn [map fold_right]; [lia|]. rewrite IH by lia. lia.
Qed.
Lemma size_step o c : sane c -> dbc_size (fst (g_step o c)) = dbc_size c +
  match o, snd (g_step o c) with
  | GCall (LWrite id v), Ok _ => match dbc_has id c with Ok false => 1 | _ => 0 end
  | GCall (LDelete id), Ok _ => -1
  | _, _ => 0
  end.
Proof.
  intros W. destruct o as [[id v|id|id|id]|m]; cbn [g_step l_step].
  - unfold dbc_write, dbc_has, d_mem. destruct (locate id c) as [i|e] eqn:L; cbn [fst snd rbind]; [|lia]. rewrite size_replace by exact (locate_lt _ _ L). rewrite d_len_set. unfold d_mem. destruct (d_get id (at_ i c)); lia.
  - unfold dbc_delete. destruct (locate id c) as [i|e] eqn:L; cbn [fst snd rbind]; [|lia]. destruct (d_get id (at_ i c)) as [w|] eqn:G; cbn [fst snd rbind]; [|lia]. rewrite size_replace by exact (locate_lt _ _ L).
    assert (X : d_get id (at_ i c) <> None) by congruence. apply d_len_del in X. lia.
  - cbn [fst]. symmetry. apply Z.add_0_r.
  - cbn [fst]. symmetry. apply Z.add_0_r.
  - destruct (Z.ltb_spec (containers_size c) m) as [H|H]; [|rewrite C45_refused by exact H; cbn [fst]; symmetry; apply Z.add_0_r]. destruct (expand_ok _ H) as (k & -> & E). cbn [fst snd rbind]. rewrite size_app_nil. lia.
Qed.
