(** Proofs about contextual properties and context switching *)
From Verif Require Import Base BaseFacts Context.
Set Implicit Arguments.

Lemma ctx_eqb_eq a b : ctx_eqb a b = true <-> a = b.
Proof. destruct a, b; simpl; split; intros H; try discriminate; auto; [apply str_eqb_eq in H; congruence|injection H as ->; apply str_eqb_refl]. Qed.
Lemma ctx_eqb_refl a : ctx_eqb a a = true.
Proof. now apply ctx_eqb_eq. Qed.
Lemma ctx_eqb_neq a b : ctx_eqb a b = false <-> a <> b.
Proof. destruct (ctx_eqb a b) eqn:E; split; intros H; try congruence; [apply ctx_eqb_eq in E; congruence|intros ->; rewrite ctx_eqb_refl in E; discriminate]. Qed.

Section Facts.
Variables (Ow V : Type) (context_of : Ow -> ctx).
Notation fn := (fn Ow V).
Notation table := (table Ow V).

Lemma t_get_set c f (t : table) d : t_get d (t_set c f t) = if ctx_eqb d c then Some f else t_get d t.
Proof.
  induction t as [|[e g] t IH]; simpl; [reflexivity|]. destruct (ctx_eqb c e) eqn:E; simpl.
  - apply ctx_eqb_eq in E. subst e. now destruct (ctx_eqb d c).
  - destruct (ctx_eqb d e) eqn:E2; [|exact IH]. apply ctx_eqb_eq in E2. subst e. destruct (ctx_eqb d c) eqn:E3; [|reflexivity].
    apply ctx_eqb_eq in E3. subst d. rewrite ctx_eqb_refl in E. discriminate.
Qed.
Lemma cell_put a b (t : table) s : (a < length s)%nat -> cell (put_cell a t s) b = if Nat.eqb a b then t else cell s b.
Proof.
  revert a b. induction s as [|x s IH]; intros a b H; simpl in H; [lia|]. destruct a, b; simpl; auto.
  apply (IH a b). lia.
Qed.
Lemma put_len a (t : table) s : length (put_cell a t s) = length s.
Proof. revert a. induction s as [|x s IH]; intros [|a]; simpl; auto. Qed.
Lemma cell_app (t : list table) s b : (b < length s)%nat -> cell (s ++ t) b = cell s b.
Proof. intros H. unfold cell. now apply app_nth1. Qed.
Lemma cell_last (t : table) s : cell (s ++ [t]) (length s) = t.
Proof. unfold cell. rewrite app_nth2, Nat.sub_diag by lia. reflexivity. Qed.

(** what a property does: for each kind of access and each context, the function registered for it *)
Definition registered (s : store Ow V) (p : prop) (k : slot) (c : ctx) : option fn := t_get c (cell s (ref k p)).

(** ** C53 *)
Lemma pick_spec k p (s : store Ow V) c : pick k p s c =
  match registered s p k c with Some f => f | None => match registered s p k None with Some f => f | None => NoFn _ _ end end.
Proof. unfold pick, registered. destruct (t_get c (cell s (ref k p))) as [f|] eqn:E; [now rewrite E|reflexivity]. Qed.

(** ** C54 *)
Definition refs (p : prop) : list nat := [p_get p; p_set p; p_del p].
(** no two properties share a dict *)
Definition apart (w : world Ow V) : Prop :=
  NoDup (flat_map refs (snd w)) /\ forall p, In p (snd w) -> forall a, In a (refs p) -> (a < length (fst w))%nat.
Lemma ref_in k p : In (ref k p) (refs p).
Proof. destruct k; simpl; auto. Qed.
Lemma ref_bound w p k : apart w -> In p (snd w) -> (ref k p < length (fst w))%nat.
Proof. intros [_ H] Hp. apply (H p Hp), ref_in. Qed.
Lemma slots_distinct w p k k' : apart w -> In p (snd w) -> k <> k' -> ref k p <> ref k' p.
Proof.
  intros [Hd _] Hp Hk. assert (Hr : NoDup (refs p)).
  { clear -Hd Hp. revert Hd Hp. generalize (snd w). induction l as [|q l IH]; [intros _ []|]. simpl flat_map. intros Hd [->|Hp].
    - revert Hd. unfold refs at 1. simpl. intros Hd. apply NoDup_cons_iff in Hd as [H1 Hd]. apply NoDup_cons_iff in Hd as [H2 Hd]. apply NoDup_cons_iff in Hd as [H3 _].
      simpl in H1, H2. unfold refs. repeat constructor; simpl; intuition.
    - apply IH; [|exact Hp]. simpl in Hd. do 3 (apply NoDup_cons_iff in Hd as [_ Hd]). exact Hd. }
  unfold refs in Hr. apply NoDup_cons_iff in Hr as [H1 Hr]. apply NoDup_cons_iff in Hr as [H2 _]. simpl in H1, H2.
  destruct k, k'; simpl; intuition congruence.
Qed.
Lemma props_distinct ps i j p q a : NoDup (flat_map refs ps) -> nth_error ps i = Some p -> nth_error ps j = Some q -> i <> j -> In a (refs p) -> ~ In a (refs q).
Proof.
  revert i j. induction ps as [|x ps IH]; intros i j Hd Hi Hj Hn Ha Hb; [destruct i; discriminate|].
  change (flat_map refs (x :: ps)) with (refs x ++ flat_map refs ps) in Hd.
  assert (Hsep : forall y b, In y ps -> In b (refs x) -> In b (refs y) -> False).
  { intros y b Hy Hx Hby. simpl in Hd. apply NoDup_cons_iff in Hd as [H1 Hd]. apply NoDup_cons_iff in Hd as [H2 Hd]. apply NoDup_cons_iff in Hd as [H3 _].
    assert (Hf : In b (flat_map refs ps)) by (apply in_flat_map; eauto). simpl in H1, H2. destruct Hx as [<-|[<-|[<-|[]]]]; tauto. }
  destruct i, j; simpl in Hi, Hj; try congruence.
  - injection Hi as ->. apply nth_error_In in Hj. now apply (Hsep q a).
  - injection Hj as ->. apply nth_error_In in Hi. now apply (Hsep p a).
  - apply (IH i j); auto. simpl in Hd. do 3 (apply NoDup_cons_iff in Hd as [_ Hd]). exact Hd.
Qed.

Lemma apart_add (s : store Ow V) ps ts a b c : apart (s, ps) -> (length s <= a < b)%nat -> (b < c < length s + length ts)%nat -> apart (s ++ ts, ps ++ [mkProp a b c]).
Proof.
  intros [Hd Hb] H1 H2. split; simpl in *.
  - rewrite flat_map_app. simpl. assert (Hlt : forall x, In x (flat_map refs ps) -> (x < length s)%nat).
    { intros x Hx. apply in_flat_map in Hx as [p [Hp Hx]]. now apply (Hb p). }
    revert Hd Hlt. generalize (flat_map refs ps). intros l Hd Hlt. induction l as [|x l IH]; simpl.
    + repeat constructor; simpl; intuition lia.
    + apply NoDup_cons_iff in Hd as [Hx Hd]. constructor; [|apply IH; auto; intros y Hy; apply Hlt; now right].
      intros Hi. apply in_app_iff in Hi as [Hi|Hi]; [contradiction|]. specialize (Hlt x (or_introl eq_refl)). simpl in Hi. intuition lia.
  - intros p Hp x Hx. rewrite app_length. apply in_app_iff in Hp as [Hp|[<-|[]]].
    + specialize (Hb p Hp x Hx). lia.
    + simpl in Hx. intuition lia.
Qed.

Lemma new_prop_eq g t d (s : store Ow V) : new_prop g t d s =
  (s ++ [[(None, g)]; [(None, t)]; [(None, d)]], mkProp (length s) (S (length s)) (S (S (length s)))).
Proof. unfold new_prop, alloc. rewrite !app_length, <- !app_assoc. cbn [app length]. rewrite !Nat.add_1_r. reflexivity. Qed.
Lemma copy_eq p (s : store Ow V) : (forall a, In a (refs p) -> (a < length s)%nat) -> copy_prop p s =
  (s ++ [[(None, NoFn _ _)]; [(None, NoFn _ _)]; [(None, NoFn _ _)]; cell s (p_get p); cell s (p_set p); cell s (p_del p)],
   mkProp (3 + length s) (4 + length s) (5 + length s)).
Proof.
  intros Hb. unfold copy_prop. rewrite new_prop_eq. unfold alloc. rewrite !app_length, <- !app_assoc. simpl length. cbn [app].
  rewrite !cell_app by (apply Hb; simpl; auto). f_equal. f_equal; lia.
Qed.

Definition nth_slot (s : store Ow V) (ps : list prop) (i : nat) (k : slot) (c : ctx) : option fn :=
  match nth_error ps i with Some p => registered s p k c | None => None end.

Lemma nth_cell_at (s : store Ow V) ts j t : nth_error ts j = Some t -> cell (s ++ ts) (j + length s) = t.
Proof. intros H. unfold cell. rewrite app_nth2 by lia. replace (j + length s - length s)%nat with j by lia. revert j H. induction ts as [|x ts IH]; intros [|j] H; simpl in *; try discriminate; [congruence|auto]. Qed.

Definition slot_eqb (a b : slot) : bool := match a, b with Getting, Getting | Setting, Setting | Deleting, Deleting => true | _, _ => false end.
Lemma slot_eqb_eq a b : slot_eqb a b = true <-> a = b.
Proof. destruct a, b; split; intros H; try discriminate; auto. Qed.

(** what each decorator does to what each property [i] has registered *)
Inductive d_effect (n : nat) (old new : nat -> slot -> ctx -> option fn) : dop Ow V -> Prop :=
| de_new g t d :
    (forall i k c, (i < n)%nat -> new i k c = old i k c) ->
    (forall k c, new n k c = match c with None => Some (match k with Getting => g | Setting => t | Deleting => d end) | Some _ => None end) ->
    d_effect n old new (DNew g t d)
| de_copy k f p : (p < n)%nat ->
    (forall i k' c, (i < n)%nat -> new i k' c = old i k' c) ->
    (forall k' c, new n k' c = if slot_eqb k' k && ctx_eqb c None then Some f else old p k' c) ->
    d_effect n old new (DCopy k f p)
| de_context k c f p : (p < n)%nat ->
    (forall i k' c', (i < n)%nat -> new i k' c' = if Nat.eqb i p && slot_eqb k' k && ctx_eqb c' c then Some f else old i k' c') ->
    d_effect n old new (DContext k c f p).

Definition valid_dop (n : nat) (o : dop Ow V) : Prop := match o with DNew _ _ _ => True | DCopy _ _ p | DContext _ _ _ p => (p < n)%nat end.

Lemma d_step_spec o s ps : apart (s, ps) -> valid_dop (length ps) o ->
  let w := d_step o (s, ps) in
  apart w /\ d_effect (length ps) (nth_slot s ps) (nth_slot (fst w) (snd w)) o /\
  length (snd w) = match o with DContext _ _ _ _ => length ps | _ => S (length ps) end.
Proof.
  intros Ha Hv. destruct o as [g t d|k f p|k c f p]; cbv zeta.
  - unfold d_step. rewrite new_prop_eq. simpl fst. simpl snd. split; [apply apart_add; simpl; auto; lia|]. split; [|rewrite app_length; simpl; lia]. constructor.
    + intros i k c Hi. unfold nth_slot. rewrite nth_error_app1 by exact Hi. destruct (nth_error ps i) as [p|] eqn:E; [|reflexivity].
      unfold registered. rewrite cell_app; [reflexivity|]. apply nth_error_In in E. apply (@ref_bound _ _ k Ha E).
    + intros k c. unfold nth_slot. rewrite nth_error_app2, Nat.sub_diag by lia. simpl. unfold registered.
      destruct k; simpl ref.
      * erewrite (@nth_cell_at s _ 0) by reflexivity. simpl. now destruct c.
      * erewrite (@nth_cell_at s _ 1) by reflexivity. simpl. now destruct c.
      * erewrite (@nth_cell_at s _ 2) by reflexivity. simpl. now destruct c.
  - simpl in Hv. destruct (nth_error ps p) as [q|] eqn:E; [|apply nth_error_None in E; lia].
    unfold d_step. rewrite E. pose proof (nth_error_In _ _ E) as Hin. assert (Hb : forall a, In a (refs q) -> (a < length s)%nat) by (destruct Ha as [_ Hb]; apply (Hb q Hin)).
    unfold decorate. rewrite (@copy_eq q s Hb). set (ts := [[(None, NoFn Ow V)]; [(None, NoFn Ow V)]; [(None, NoFn Ow V)]; cell s (p_get q); cell s (p_set q); cell s (p_del q)]). set (q' := mkProp (3 + length s) (4 + length s) (5 + length s)). simpl fst. simpl snd.
    assert (Hap : apart (s ++ ts, ps ++ [q'])) by (apply apart_add; simpl; auto; lia).
    assert (Hq' : In q' (ps ++ [q'])) by (apply in_app_iff; right; now left).
    assert (Hlen : (ref k q' < length (s ++ ts))%nat) by (apply (@ref_bound _ _ k Hap Hq')).
    split.
    { destruct Hap as [H1 H2]. split; [exact H1|]. simpl in *. intros x Hx a Hax. rewrite put_len. now apply (H2 x). }
    split; [|rewrite app_length; simpl; lia]. constructor; [exact Hv| |].
    + intros i k' c Hi. unfold nth_slot. rewrite nth_error_app1 by exact Hi. destruct (nth_error ps i) as [x|] eqn:Ei; [|reflexivity].
      unfold registered. rewrite cell_put by exact Hlen. assert (Hlt : (ref k' x < length s)%nat) by (apply nth_error_In in Ei; apply (@ref_bound _ _ k' Ha Ei)).
      assert (Hne : Nat.eqb (ref k q') (ref k' x) = false) by (apply Nat.eqb_neq; unfold q'; destruct k; simpl; lia).
      rewrite Hne, cell_app by exact Hlt. reflexivity.
    + intros k' c. unfold nth_slot. rewrite nth_error_app2, Nat.sub_diag by lia. simpl nth_error. rewrite E. unfold registered. rewrite cell_put by exact Hlen.
      assert (Hcell : forall k0, cell (s ++ ts) (ref k0 q') = cell s (ref k0 q)).
      { intros [| |]; [exact (@nth_cell_at s ts 3 _ eq_refl)|exact (@nth_cell_at s ts 4 _ eq_refl)|exact (@nth_cell_at s ts 5 _ eq_refl)]. }
      destruct (slot_eqb k' k) eqn:Ek.
      * apply slot_eqb_eq in Ek. subst k'. rewrite Nat.eqb_refl, t_get_set, Hcell. reflexivity.
      * assert (Hne : Nat.eqb (ref k q') (ref k' q') = false). { apply Nat.eqb_neq. apply (@slots_distinct _ _ _ _ Hap Hq'). intros ->. destruct k'; discriminate. }
        rewrite Hne, Hcell. reflexivity.
  - simpl in Hv. destruct (nth_error ps p) as [q|] eqn:E; [|apply nth_error_None in E; lia].
    unfold d_step, decorate_context. rewrite E. pose proof (nth_error_In _ _ E) as Hin. pose proof (@ref_bound _ _ k Ha Hin) as Hlen. simpl in Hlen. simpl fst. simpl snd.
    split.
    { destruct Ha as [H1 H2]. split; [exact H1|]. simpl in *. intros x Hx a Hax. rewrite put_len. now apply (H2 x). }
    split; [|reflexivity]. constructor; [exact Hv|]. intros i k' c' Hi. unfold nth_slot. destruct (nth_error ps i) as [x|] eqn:Ei; [|apply nth_error_None in Ei; lia].
    unfold registered. rewrite cell_put by exact Hlen. destruct (Nat.eqb_spec i p) as [->|Hip].
    + rewrite E in Ei. injection Ei as <-. simpl. destruct (slot_eqb k' k) eqn:Ek.
      * apply slot_eqb_eq in Ek. subst k'. now rewrite Nat.eqb_refl, t_get_set.
      * assert (Hne : Nat.eqb (ref k q) (ref k' q) = false). { apply Nat.eqb_neq. apply (@slots_distinct _ _ _ _ Ha Hin). intros ->. destruct k'; discriminate. }
        now rewrite Hne.
    + simpl. assert (Hne : Nat.eqb (ref k q) (ref k' x) = false).
      { apply Nat.eqb_neq. intros Hx. destruct Ha as [Hd _]. simpl in Hd. apply (@props_distinct ps p i q x (ref k q) Hd E Ei); [congruence|apply ref_in|]. rewrite Hx. apply ref_in. }
      now rewrite Hne.
Qed.

(** a whole sequence of decorator calls *)
Inductive d_history : nat -> (nat -> slot -> ctx -> option fn) -> list (dop Ow V) -> (nat -> slot -> ctx -> option fn) -> Prop :=
| dh_nil n f g : (forall i k c, (i < n)%nat -> g i k c = f i k c) -> d_history n f [] g
| dh_cons n f o mid ops g : d_effect n f mid o -> d_history (match o with DContext _ _ _ _ => n | _ => S n end) mid ops g -> d_history n f (o :: ops) g.
Fixpoint valid_dops (n : nat) (ops : list (dop Ow V)) : Prop :=
  match ops with [] => True | o :: ops' => valid_dop n o /\ valid_dops (match o with DContext _ _ _ _ => n | _ => S n end) ops' end.
Lemma C54_from ops : forall s ps, apart (s, ps) -> valid_dops (length ps) ops ->
  d_history (length ps) (nth_slot s ps) ops (nth_slot (fst (d_run ops (s, ps))) (snd (d_run ops (s, ps)))).
Proof.
  induction ops as [|o ops IH]; intros s ps Ha Hv.
  - constructor. reflexivity.
  - destruct Hv as [Hv1 Hv2]. destruct (d_step_spec o Ha Hv1) as (H1 & H2 & H3). cbv zeta in *. change (d_run (o :: ops) (s, ps)) with (d_run ops (d_step o (s, ps))). destruct (d_step o (s, ps)) as [s1 ps1]. simpl fst in *. simpl snd in *.
    econstructor; [exact H2|]. rewrite <- H3. apply IH; [exact H1|]. now rewrite H3.
Qed.
Lemma C54_lemma ops : valid_dops 0 ops ->
  d_history 0 (fun _ _ _ => None) ops (nth_slot (fst (d_run ops ([], []))) (snd (d_run ops ([], [])))).
Proof.
  intros Hv. assert (Ha : apart (([], []) : world Ow V)) by (split; [constructor|intros ? []]). pose proof (C54_from ops Ha Hv) as H.
  inversion H as [n f g Hs|n f o mid ops' g He Hh]; subst.
  - constructor. intros i k c Hi. lia.
  - econstructor; [|exact Hh]. clear -He. destruct He; constructor; auto; intros; try lia. simpl in H; lia.
Qed.
End Facts.

(** ** C55 *)
(** lexical scoping: the context a statement sees is that of the innermost enclosing block *)
Definition l_seq (f : wstmt -> ctx -> list ctx * option exn) := fix go (p : list wstmt) (c : ctx) : list ctx * option exn :=
  match p with
  | [] => ([], None)
  | x :: p' => match f x c with
               | (seen, Some e) => (seen, Some e)
               | (seen, None) => let (seen2, e) := go p' c in (seen ++ seen2, e)
               end
  end.
Fixpoint lexical (x : wstmt) (c : ctx) : list ctx * option exn :=
  match x with
  | See => ([c], None)
  | Throw e => ([], Some e)
  | With d body => l_seq lexical body d
  | Catch body => (fst (l_seq lexical body c), None)
  end.
Fixpoint w_ind2 (P : wstmt -> Prop) (h1 : P See) (h2 : forall e, P (Throw e)) (h3 : forall c b, Forall P b -> P (With c b)) (h4 : forall b, Forall P b -> P (Catch b)) (x : wstmt) : P x :=
  let fix go (l : list wstmt) : Forall P l := match l with [] => Forall_nil P | y :: l' => Forall_cons y (@w_ind2 P h1 h2 h3 h4 y) (go l') end in
  match x with See => h1 | Throw e => h2 e | With c b => h3 c b (go b) | Catch b => h4 b (go b) end.
Definition scoped (x : wstmt) : Prop := forall m, exists a, w_stmt x m = (mkMgr (m_stack m) (m_context m) a, fst (lexical x (m_context m)), snd (lexical x (m_context m))).
Lemma seq_scoped p : Forall scoped p -> forall m, exists a, w_seq w_stmt p m = (mkMgr (m_stack m) (m_context m) a, fst (l_seq lexical p (m_context m)), snd (l_seq lexical p (m_context m))).
Proof.
  intros H. induction H as [|x p Hx Hp IH]; intros m; simpl.
  - exists (m_active m). now destruct m.
  - destruct (Hx m) as [a E]. rewrite E. destruct (lexical x (m_context m)) as [seen [e|]]; simpl.
    + now exists a.
    + destruct (IH (mkMgr (m_stack m) (m_context m) a)) as [a' E']. rewrite E'. simpl. destruct (l_seq lexical p (m_context m)) as [seen2 e2]. simpl. now exists a'.
Qed.
Lemma all_scoped x : scoped x.
Proof.
  induction x as [|e|c b IH|b IH] using w_ind2; intros m; simpl.
  - exists (m_active m). now destruct m.
  - exists (m_active m). now destruct m.
  - destruct (seq_scoped IH (mgr_enter (mgr_call c m))) as [a E]. rewrite E. exists false. reflexivity.
  - destruct (seq_scoped IH m) as [a E]. rewrite E. now exists a.
Qed.
Lemma C55_lemma p m : exists a, w_run p m = (mkMgr (m_stack m) (m_context m) a, fst (l_seq lexical p (m_context m)), snd (l_seq lexical p (m_context m))).
Proof. apply seq_scoped. apply Forall_forall. intros x _. apply all_scoped. Qed.
