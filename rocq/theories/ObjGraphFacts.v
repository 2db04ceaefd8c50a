(** Facts about [data] on object graphs. *)
From Verif Require Import Base BaseFacts Dict DictFacts Context JsonData JsonDataFacts ObjGraph.
From Coq Require Import String Lia Relations.
Open Scope list_scope.

(** ** Specification *)
(** which properties are put in the output: the same condition as for trees *)
Definition h_wants (a : hargs) (n : pystr) (v : hval) : Prop :=
  (h_none a = true \/ v <> HVal LNone) /\ (empty_sel (h_include a) \/ within n (h_include a)) /\
  ~ (~ empty_sel (h_exclude a) /\ within n (h_exclude a)) /\ h_reject a v = false.
(** [v] mentions the object [o], directly or inside lists and dicts *)
Inductive mentions : hval -> nat -> Prop :=
| m_ref o : mentions (HRef o) o
| m_seq l v o : In v l -> mentions v o -> mentions (HSeq l) o
| m_dict d k v o : In (k, v) d -> mentions v o -> mentions (HDict d) o.
(** writing [o] with the arguments [a] writes [o'] inside *)
Definition leads (H : heap) (a : hargs) (o o' : nat) : Prop :=
  exists n g v, In (n, g) (H o) /\ g (h_context a) = Ok v /\ h_wants a n v /\ mentions v o'.
(** ... for objects that are themselves inside another *)
Definition inside (H : heap) : nat -> nat -> Prop := leads H h_nested.
(** [o] can be written: every chain of objects inside objects ends *)
Definition ends (H : heap) (o : nat) : Prop := Acc (fun x y => inside H y x) o.
(** no getter of [o] raises in context [c] *)
Definition quiet (H : heap) (c : ctx) (o : nat) : Prop := forall n g, In (n, g) (H o) -> exists v, g c = Ok v.
(** the same managers, up to the [active] flag *)
Definition same_mgrs (ms ms' : managers) : Prop := forall o, m_context (ms' o) = m_context (ms o) /\ m_stack (ms' o) = m_stack (ms o).

(** the tree a value unfolds to *)
Inductive unfolds (H : heap) : hval -> jval -> Prop :=
| u_val x : unfolds H (HVal x) (leaf_val x)
| u_seq l l' : Forall2 (unfolds H) l l' -> unfolds H (HSeq l) (JList l')
| u_dict d d' : Forall2 (fun p q => fst p = fst q /\ unfolds H (snd p) (snd q)) d d' -> unfolds H (HDict d) (JDict d')
| u_ref o props : Forall2 (fun (p : pystr * (ctx -> res hval)) (q : pystr * (ctx -> res jval)) => fst p = fst q /\
      forall c, (exists e, snd p c = Err e /\ snd q c = Err e) \/ (exists v t, snd p c = Ok v /\ snd q c = Ok t /\ unfolds H v t)) (H o) props ->
    unfolds H (HRef o) (JObj props).

(** ** Without the managers *)
Definition p_collect (handler : hval -> outcome jval) (a : hargs) (c : ctx) :=
  fix go (props : hprops) (acc : dict jval) : outcome (dict jval) :=
  match props with
  | [] => Done (Ok acc)
  | (n, get) :: rest =>
      match h_selected a n (get c) with
      | Err e => Done (Err e)
      | Ok false => go rest acc
      | Ok true => match get c with
                   | Err e => Done (Err e)
                   | Ok v => match handler v with
                             | Done (Ok w) => go rest (d_set (h_key a n) w acc)
                             | Done (Err e) => Done (Err e)
                             | Deep => Deep
                             end
                   end
      end
  end.
Definition p_wrap {A B} (f : A -> B) (r : outcome A) : outcome B :=
  match r with Done (Ok x) => Done (Ok (f x)) | Done (Err e) => Done (Err e) | Deep => Deep end.
Definition p_map {A B} (f : A -> outcome B) := fix go (l : list A) : outcome (list B) :=
  match l with
  | [] => Done (Ok [])
  | x :: l' => match f x with
               | Done (Ok y) => match go l' with Done (Ok ys) => Done (Ok (y :: ys)) | r => r end
               | Done (Err e) => Done (Err e)
               | Deep => Deep
               end
  end.
Definition p_with (handler : hval -> outcome jval) (H : heap) (a : hargs) (o : nat) : outcome (dict jval) :=
  p_wrap (h_drop_none a) (p_collect handler a (h_context a) (H o) []).
Fixpoint p_handle (H : heap) (n : nat) (v : hval) : outcome jval :=
  match n with
  | O => Deep
  | S n => match v with
           | HVal x => Done (handle (leaf_val x))
           | HSeq l => p_wrap JList (p_map (p_handle H n) l)
           | HDict d => p_wrap JDict (p_map (fun p => p_wrap (fun w => (fst p, w)) (p_handle H n (snd p))) d)
           | HRef o => p_wrap JDict (p_with (p_handle H n) H h_nested o)
           end
  end.

Lemma same_refl ms : same_mgrs ms ms.
Proof. intro o. auto. Qed.
Lemma same_trans a b c : same_mgrs a b -> same_mgrs b c -> same_mgrs a c.
Proof. intros P Q o. destruct (P o), (Q o). split; congruence. Qed.

(** what a call does to the managers and what it returns, for calls that put the managers back *)
Definition puts_back {A} (f : step A) (r : outcome A) : Prop := forall ms, same_mgrs ms (fst (f ms)) /\ snd (f ms) = r.

Lemma map_back {A B} (f : A -> step B) (g : A -> outcome B) : (forall x, puts_back (f x) (g x)) -> forall l, puts_back (h_map f l) (p_map g l).
Proof.
  intros K l. induction l as [|x l IH]; intro ms; simpl; [split; [apply same_refl|reflexivity]|].
  destruct (K x ms) as [S1 R1]. destruct (f x ms) as [ms1 r1]. cbn [fst snd] in S1, R1. subst r1.
  destruct (g x) as [[y|e]|]; [|cbn; auto|cbn; auto].
  destruct (IH ms1) as [S2 R2]. destruct (h_map f l ms1) as [ms2 r2]. cbn [fst snd] in S2, R2. subst r2.
  assert (S3 := same_trans _ _ _ S1 S2).
  destruct (p_map g l) as [[ys|e]|]; cbn; auto.
Qed.
Lemma wrap_back {A B} (h : A -> B) (f : step A) r : puts_back f r -> puts_back (fun ms => h_wrap h (f ms)) (p_wrap h r).
Proof. intros K ms. destruct (K ms) as [S1 R1]. destruct (f ms) as [ms1 r1]. cbn [fst snd] in *. subst r1. destruct r as [[x|e]|]; cbn; auto. Qed.
Lemma collect_back handler ph a o : (forall v, puts_back (handler v) (ph v)) -> forall props acc ms,
  same_mgrs ms (fst (h_collect handler a o props acc ms)) /\ snd (h_collect handler a o props acc ms) = p_collect ph a (m_context (ms o)) props acc.
Proof.
  intros K props. induction props as [|[n g] props IH]; intros acc ms; simpl; [split; [apply same_refl|reflexivity]|].
  destruct (h_selected a n (g (m_context (ms o)))) as [[|]|e]; [|apply IH|split; [apply same_refl|reflexivity]].
  destruct (g (m_context (ms o))) as [v|e]; [|split; [apply same_refl|reflexivity]].
  destruct (K v ms) as [S1 R1]. destruct (handler v ms) as [ms1 r1]. cbn [fst snd] in S1, R1. subst r1.
  destruct (ph v) as [[w|e]|]; [|cbn; auto|cbn; auto].
  destruct (IH (d_set (h_key a n) w acc) ms1) as [S2 R2]. destruct (S1 o) as [C _]. rewrite C in R2. split; [eapply same_trans; eauto|exact R2].
Qed.
Lemma with_back handler ph H a o : (forall v, puts_back (handler v) (ph v)) -> puts_back (h_with handler H a o) (p_with ph H a o).
Proof.
  intros K ms. unfold h_with, p_with. set (ms0 := set_mgr ms o (mgr_enter (mgr_call (h_context a) (ms o)))).
  destruct (collect_back handler ph a o K (H o) [] ms0) as [S1 R1].
  destruct (h_collect handler a o (H o) [] ms0) as [ms1 r1]. cbn [fst snd] in *. subst r1.
  replace (m_context (ms0 o)) with (h_context a) by (unfold ms0, set_mgr; now rewrite Nat.eqb_refl).
  split.
  - intro x. destruct (S1 x) as [C S]. unfold set_mgr at 1 2. destruct (Nat.eqb_spec x o) as [->|D].
    + unfold ms0, set_mgr in C, S. rewrite Nat.eqb_refl in C, S. cbn in C, S. unfold mgr_exit. rewrite S. cbn. auto.
    + rewrite C, S. unfold ms0, set_mgr. apply Nat.eqb_neq in D. rewrite D. auto.
  - destruct (p_collect ph a (h_context a) (H o) []) as [[d|e]|]; reflexivity.
Qed.
Lemma handle_back H n : forall v, puts_back (h_handle H n v) (p_handle H n v).
Proof.
  induction n as [|n IH]; intro v; [intro ms; cbn; split; [apply same_refl|reflexivity]|].
  destruct v as [v|l|d|o].
  - intro ms. cbn. split; [apply same_refl|reflexivity].
  - apply (wrap_back JList (h_map (h_handle H n) l)). apply map_back, IH.
  - apply (wrap_back JDict (h_map (fun p ms => h_wrap (fun w => (fst p, w)) (h_handle H n (snd p) ms)) d)). apply map_back. intro p.
    apply (wrap_back (fun w => (fst p, w)) (h_handle H n (snd p))), IH.
  - apply (wrap_back JDict (h_with (h_handle H n) H h_nested o)), with_back, IH.
Qed.
Lemma data_back H n a o : puts_back (h_data H n a o) (p_with (p_handle H n) H a o).
Proof. apply with_back, handle_back. Qed.

(** ** A deeper limit changes nothing but RecursionErrors *)
Definition below {A} (r r' : outcome A) : Prop := r = Deep \/ r = r'.
Lemma below_refl {A} (r : outcome A) : below r r. Proof. right. reflexivity. Qed.
Lemma map_below {A B} (f g : A -> outcome B) l : (forall x, below (f x) (g x)) -> below (p_map f l) (p_map g l).
Proof.
  intros K. induction l as [|x l IH]; simpl; [apply below_refl|]. destruct (K x) as [->| ->]; [left; reflexivity|].
  destruct (g x) as [[y|e]|]; [|apply below_refl|apply below_refl]. destruct IH as [->| ->]; [left; reflexivity|apply below_refl].
Qed.
Lemma wrap_below {A B} (h : A -> B) r r' : below r r' -> below (p_wrap h r) (p_wrap h r').
Proof. intros [->| ->]; [left; reflexivity|apply below_refl]. Qed.
Lemma collect_below f g a c : (forall v, below (f v) (g v)) -> forall props acc, below (p_collect f a c props acc) (p_collect g a c props acc).
Proof.
  intros K props. induction props as [|[n get] props IH]; intro acc; simpl; [apply below_refl|].
  destruct (h_selected a n (get c)) as [[|]|e]; [|apply IH|apply below_refl]. destruct (get c) as [v|e]; [|apply below_refl].
  destruct (K v) as [->| ->]; [left; reflexivity|]. destruct (g v) as [[w|e]|]; [apply IH|apply below_refl|apply below_refl].
Qed.
Lemma with_below f g H a o : (forall v, below (f v) (g v)) -> below (p_with f H a o) (p_with g H a o).
Proof. intro K. apply wrap_below, collect_below, K. Qed.
Lemma handle_below H n : forall m v, n <= m -> below (p_handle H n v) (p_handle H m v).
Proof.
  induction n as [|n IH]; intros m v L; [left; reflexivity|]. destruct m as [|m]; [lia|]. assert (L' : n <= m) by lia.
  destruct v as [v|l|d|o]; cbn [p_handle]; [apply below_refl| | |].
  - apply wrap_below, map_below. intro x. now apply IH.
  - apply wrap_below, map_below. intro p. apply wrap_below. now apply IH.
  - apply wrap_below, with_below. intro x. now apply IH.
Qed.
Lemma data_below H n m a o : n <= m -> below (p_with (p_handle H n) H a o) (p_with (p_handle H m) H a o).
Proof. intro L. apply with_below. intro v. now apply handle_below. Qed.
Lemma below_done {A} (r r' : outcome A) x : below r r' -> r = Done x -> r' = Done x.
Proof. intros [->| ->] E; [discriminate|exact E]. Qed.

(** ** What ends *)
Fixpoint hval_ind2 (P : hval -> Prop) (hv : forall x, P (HVal x)) (hs : forall l, Forall P l -> P (HSeq l))
  (hd : forall d, Forall (fun p => P (snd p)) d -> P (HDict d)) (hr : forall o, P (HRef o)) (v : hval) : P v.
Proof.
  destruct v as [x|l|d|o]; [apply hv| | |apply hr].
  - apply hs. induction l as [|x l IHl]; constructor; [now apply hval_ind2|exact IHl].
  - apply hd. induction d as [|p l IHl]; constructor; [now apply hval_ind2|exact IHl].
Qed.
Lemma is_hnone_spec v : is_hnone v = true <-> v = HVal LNone.
Proof. destruct v as [[]| | |]; cbn; split; congruence. Qed.
Lemma h_selected_ok a n v : exists b, h_selected a n (Ok v) = Ok b /\ (b = true <-> h_wants a n v).
Proof.
  unfold h_selected, h_wants.
  assert (X : (if h_none a then Ok true else Ok (negb (is_hnone v))) = Ok (h_none a || negb (is_hnone v))) by (destruct (h_none a); reflexivity).
  rewrite X. clear X.
  set (c1 := h_none a || negb (is_hnone v)). set (c2 := negb (sel_truthy (h_include a)) || sel_mem n (h_include a)).
  set (c3 := sel_truthy (h_exclude a) && sel_mem n (h_exclude a)).
  assert (K1 : c1 = true <-> h_none a = true \/ v <> HVal LNone).
  { unfold c1. rewrite Bool.orb_true_iff, Bool.negb_true_iff, <- Bool.not_true_iff_false, is_hnone_spec. tauto. }
  assert (K2 : c2 = true <-> empty_sel (h_include a) \/ within n (h_include a)).
  { unfold c2. rewrite Bool.orb_true_iff, Bool.negb_true_iff, sel_truthy_spec, sel_mem_spec. tauto. }
  assert (K3 : c3 = true <-> ~ empty_sel (h_exclude a) /\ within n (h_exclude a)).
  { unfold c3. rewrite Bool.andb_true_iff, sel_mem_spec, <- sel_truthy_spec, Bool.not_false_iff_true. tauto. }
  destruct c1, c2, c3, (h_reject a v); cbn; eexists; (split; [reflexivity|]); intuition congruence.
Qed.
Lemma p_map_ok {A B} (f : A -> outcome B) l ys : p_map f l = Done (Ok ys) -> forall x, In x l -> exists y, f x = Done (Ok y).
Proof.
  revert ys. induction l as [|x l IH]; intros ys E z I; [destruct I|]. simpl in E. destruct (f x) as [[y|e]|] eqn:F; [|discriminate|discriminate].
  destruct (p_map f l) as [[ys'|e]|]; [|discriminate|discriminate]. destruct I as [->|I]; [eauto|]. eapply IH; eauto.
Qed.
Lemma p_wrap_ok {A B} (h : A -> B) r y : p_wrap h r = Done (Ok y) -> exists x, r = Done (Ok x) /\ y = h x.
Proof. destruct r as [[x|e]|]; cbn; intro E; [|discriminate|discriminate]. injection E as <-. eauto. Qed.
Lemma p_collect_ok f a c : forall props acc d, p_collect f a c props acc = Done (Ok d) ->
  forall n g v, In (n, g) props -> g c = Ok v -> h_wants a n v -> exists w, f v = Done (Ok w).
Proof.
  induction props as [|[m h] props IH]; intros acc d E n g v I G W; [destruct I|]. simpl in E. destruct I as [I|I].
  - injection I as -> ->. rewrite G in E. destruct (h_selected_ok a n v) as (b & S & K). rewrite S in E. apply K in W. subst b.
    destruct (f v) as [[w|e]|]; [eauto|discriminate|discriminate].
  - destruct (h_selected a m (h c)) as [[|]|e]; [|eapply IH; eauto|discriminate].
    destruct (h c) as [u|e]; [|discriminate]. destruct (f u) as [[w|e]|]; [|discriminate|discriminate]. eapply IH; eauto.
Qed.
Lemma handle_ok_ends H n : forall v w, p_handle H n v = Done (Ok w) -> forall o, mentions v o -> ends H o.
Proof.
  induction n as [|n IH]; intros v w E o M; [discriminate|]. cbn [p_handle] in E. destruct v as [x|l|d|o'].
  - inversion M.
  - apply p_wrap_ok in E. destruct E as (ys & E & _). inversion M as [|l' v o' I M'|]; subst. destruct (p_map_ok _ _ _ E _ I) as [y Y]. eapply IH; eauto.
  - apply p_wrap_ok in E. destruct E as (ys & E & _). inversion M as [| |d' k v o' I M']; subst. destruct (p_map_ok _ _ _ E _ I) as [y Y].
    apply p_wrap_ok in Y. destruct Y as (u & Y & _). eapply IH; eauto.
  - inversion M as [o2 E1 E2| |]; subst. apply p_wrap_ok in E. destruct E as (d & E & _). unfold p_with in E. apply p_wrap_ok in E. destruct E as (d' & E & _).
    constructor. intros y (m & g & v & I & G & W & My). destruct (p_collect_ok _ _ _ _ _ _ E _ _ _ I G W) as [u U]. eapply IH; eauto.
Qed.
Lemma data_ok_ends H n a o d : p_with (p_handle H n) H a o = Done (Ok d) -> forall y, leads H a o y -> ends H y.
Proof.
  unfold p_with. intros E y (m & g & v & I & G & W & M). apply p_wrap_ok in E. destruct E as (d' & E & _).
  destruct (p_collect_ok _ _ _ _ _ _ E _ _ _ I G W) as [u U]. eapply handle_ok_ends; eauto.
Qed.

(** the other direction *)
Lemma p_map_enough {A B} (f : nat -> A -> outcome B) l : (forall n m x, n <= m -> below (f n x) (f m x)) ->
  Forall (fun x => exists n y, f n x = Done (Ok y)) l -> exists n ys, p_map (f n) l = Done (Ok ys).
Proof.
  intros Mo F. induction F as [|x l (n & y & E) _ (m & ys & IH)]; [exists 0, []; reflexivity|].
  exists (max n m), (y :: ys). simpl. rewrite (below_done _ _ _ (Mo n (max n m) x (Nat.le_max_l n m)) E).
  rewrite (below_done _ _ _ (map_below (f m) (f (max n m)) l (fun z => Mo m (max n m) z (Nat.le_max_r n m))) IH). reflexivity.
Qed.
Lemma p_collect_enough H a c : forall props acc, (forall n g, In (n, g) props -> exists v, g c = Ok v /\ (h_wants a n v -> exists k w, p_handle H k v = Done (Ok w))) ->
  exists k d, p_collect (p_handle H k) a c props acc = Done (Ok d).
Proof.
  induction props as [|[n g] props IH]; intros acc K; [exists 0, acc; reflexivity|].
  destruct (K n g (or_introl eq_refl)) as (v & G & V). assert (K' : forall n g, In (n, g) props -> exists v, g c = Ok v /\ (h_wants a n v -> exists k w, p_handle H k v = Done (Ok w))) by (intros n' g' I; apply K; now right).
  destruct (h_selected_ok a n v) as (b & S & B). destruct b.
  - destruct (V (proj1 B eq_refl)) as (k & w & E). destruct (IH (d_set (h_key a n) w acc) K') as (k' & d & E').
    exists (max k k'), d. simpl. rewrite G, S. rewrite (below_done _ _ _ (handle_below H k (max k k') v (Nat.le_max_l k k')) E).
    exact (below_done _ _ _ (collect_below _ _ a c (fun z => handle_below H k' (max k k') z (Nat.le_max_r k k')) props _) E').
  - destruct (IH acc K') as (k & d & E). exists k, d. simpl. rewrite G, S. exact E.
Qed.
Lemma with_enough H a o : quiet H (h_context a) o -> (forall y, leads H a o y -> exists k d, p_with (p_handle H k) H h_nested y = Done (Ok d)) ->
  exists k d, p_with (p_handle H k) H a o = Done (Ok d).
Proof.
  intros Q L. assert (V : forall v, (forall y, mentions v y -> exists k d, p_with (p_handle H k) H h_nested y = Done (Ok d)) -> exists k w, p_handle H k v = Done (Ok w)).
  { intro v. induction v as [x|l IH|d IH|y] using hval_ind2; intro M.
    - assert (X : exists w, handle (leaf_val x) = Ok w) by (destruct x; eexists; reflexivity). destruct X as [w X]. exists 1, w. cbn. now rewrite X.
    - assert (F : Forall (fun x => exists n y, p_handle H n x = Done (Ok y)) l).
      { apply Forall_forall. intros x I. rewrite Forall_forall in IH. apply (IH x I). intros y My. apply M. econstructor; eauto. }
      destruct (p_map_enough (p_handle H) l (fun n m x => handle_below H n m x) F) as (n & ys & E). exists (S n), (JList ys). cbn [p_handle]. now rewrite E.
    - assert (F : Forall (fun p => exists n y, p_wrap (fun w => (fst p, w)) (p_handle H n (snd p)) = Done (Ok y)) d).
      { apply Forall_forall. intros [k x] I. rewrite Forall_forall in IH. destruct (IH (k, x) I) as (n & y & E); [intros y My; apply M; econstructor; eauto|].
        exists n, (k, y). cbn [fst snd] in *. now rewrite E. }
      destruct (p_map_enough (fun n (p : pystr * hval) => p_wrap (fun w => (fst p, w)) (p_handle H n (snd p))) d
        (fun n m p L => wrap_below _ _ _ (handle_below H n m (snd p) L)) F) as (n & ys & E).
      exists (S n), (JDict ys). cbn [p_handle]. now rewrite E.
    - destruct (M y (m_ref y)) as (k & d & E). exists (S k), (JDict d). cbn [p_handle]. now rewrite E. }
  destruct (p_collect_enough H a (h_context a) (H o) []) as (k & d & E).
  - intros n g I. destruct (Q n g I) as [v G]. exists v. split; [exact G|]. intro W. apply V. intros y M. apply L. exists n, g, v. auto.
  - exists k, (h_drop_none a d). unfold p_with. now rewrite E.
Qed.
(** no getter raises in any object written inside [o] *)
Definition all_quiet (H : heap) (a : hargs) (o : nat) : Prop :=
  quiet H (h_context a) o /\ forall x y, leads H a o x -> clos_refl_trans nat (inside H) x y -> quiet H json_context y.
Lemma ends_enough H y : ends H y -> (forall z, clos_refl_trans nat (inside H) y z -> quiet H json_context z) ->
  exists k d, p_with (p_handle H k) H h_nested y = Done (Ok d).
Proof.
  intro E. induction E as [y _ IH]. intro Q. apply with_enough; [apply Q, rt_refl|]. intros z L. apply IH; [exact L|]. intros t T. apply Q. eapply rt_trans; [apply rt_step; exact L|exact T].
Qed.
(** it returns, or it reaches the limit: it raises nothing else *)
Definition fine {A} (r : outcome A) : Prop := r = Deep \/ exists x, r = Done (Ok x).
Lemma wrap_fine {A B} (h : A -> B) r : fine r -> fine (p_wrap h r).
Proof. intros [->|[x ->]]; [left; reflexivity|right; eexists; reflexivity]. Qed.
Lemma map_fine {A B} (f : A -> outcome B) l : (forall x, In x l -> fine (f x)) -> fine (p_map f l).
Proof.
  induction l as [|x l IH]; intro K; [right; eexists; reflexivity|]. simpl. destruct (K x (or_introl eq_refl)) as [->|[y ->]]; [left; reflexivity|].
  destruct IH as [->|[ys ->]]; [intros z I; apply K; now right|left; reflexivity|right; eexists; reflexivity].
Qed.
Lemma collect_fine f a c : forall props acc, (forall n g, In (n, g) props -> exists v, g c = Ok v /\ (h_wants a n v -> fine (f v))) -> fine (p_collect f a c props acc).
Proof.
  induction props as [|[n g] props IH]; intros acc Q; [right; exists acc; reflexivity|]. simpl.
  assert (Q' : forall n g, In (n, g) props -> exists v, g c = Ok v /\ (h_wants a n v -> fine (f v))) by (intros n' g' I; apply Q; now right).
  destruct (Q n g (or_introl eq_refl)) as (v & G & K). rewrite G. destruct (h_selected_ok a n v) as (b & S & B). rewrite S. destruct b; [|now apply IH].
  destruct (K (proj1 B eq_refl)) as [->|[w ->]]; [left; reflexivity|now apply IH].
Qed.
Lemma with_fine f H a o : quiet H (h_context a) o -> (forall v, (forall y, mentions v y -> leads H a o y) -> fine (f v)) -> fine (p_with f H a o).
Proof.
  intros Q K. apply wrap_fine, collect_fine. intros n g I. destruct (Q n g I) as [v G]. exists v. split; [exact G|]. intro W. apply K. intros y M. exists n, g, v. auto.
Qed.
Lemma handle_fine H n : forall v, (forall y z, mentions v y -> clos_refl_trans nat (inside H) y z -> quiet H json_context z) -> fine (p_handle H n v).
Proof.
  induction n as [|n IH]; intros v Q; [left; reflexivity|]. cbn [p_handle]. destruct v as [x|l|d|o].
  - right. destruct x; eexists; reflexivity.
  - apply wrap_fine, map_fine. intros x I. apply IH. intros y z M. apply Q. econstructor; eauto.
  - apply wrap_fine, map_fine. intros [k x] I. apply wrap_fine, IH. intros y z M. apply Q. econstructor; eauto.
  - apply wrap_fine, with_fine; [apply (Q o o (m_ref o)), rt_refl|]. intros v L. apply IH. intros y z M R. apply (Q o z (m_ref o)).
    eapply rt_trans; [apply rt_step; exact (L y M)|exact R].
Qed.
Lemma data_fine H n a o : all_quiet H a o -> fine (p_with (p_handle H n) H a o).
Proof. intros [Q1 Q2]. apply with_fine; [exact Q1|]. intros v L. apply handle_fine. intros y z M R. eapply Q2; eauto. Qed.

(** ** The theorems *)
Lemma C118_restored H n a o ms : same_mgrs ms (fst (h_data H n a o ms)).
Proof. apply data_back. Qed.
Lemma C118_result H n a o ms : snd (h_data H n a o ms) = p_with (p_handle H n) H a o.
Proof. apply data_back. Qed.
Lemma C118_limit_lemma H n m a o ms ms' r : snd (h_data H n a o ms) = Done r -> n <= m -> snd (h_data H m a o ms') = Done r.
Proof. rewrite !C118_result. intros E L. exact (below_done _ _ _ (data_below H n m a o L) E). Qed.
Lemma C118_ends_lemma H a o : all_quiet H a o -> (forall y, leads H a o y -> ends H y) ->
  exists n d, forall m ms', n <= m -> snd (h_data H m a o ms') = Done (Ok d).
Proof.
  intros [Q1 Q2] E. destruct (with_enough H a o Q1) as (n & d & K).
  - intros y L. apply ends_enough; [now apply E|]. intros z R. eapply Q2; eauto.
  - exists n, d. intros m ms' L. apply C118_limit_lemma with (n := n) (ms := ms'); [now rewrite C118_result|exact L].
Qed.
Lemma C118_converse_lemma H n a o ms d : snd (h_data H n a o ms) = Done (Ok d) -> forall y, leads H a o y -> ends H y.
Proof. rewrite C118_result. apply data_ok_ends. Qed.
Lemma ends_no_cycle H y : ends H y -> ~ clos_trans nat (inside H) y y.
Proof.
  intro E. assert (A : Acc (fun x y => clos_trans nat (inside H) y x) y).
  { induction E as [y _ IH]. constructor. intros z T. apply clos_trans_t1n in T. destruct T as [z S|x z S T]; [now apply IH|].
    apply (IH x S). now apply clos_t1n_trans. }
  induction A as [y _ IH]. intro C. exact (IH y C E C).
Qed.
Lemma ends_reach H x y : ends H x -> clos_refl_trans nat (inside H) x y -> ends H y.
Proof. intros E R. apply clos_rt_rt1n in R. revert E. induction R as [x|x z y S R IH]; [auto|]. intros [E]. apply IH, E, S. Qed.
Lemma C118_cycle_lemma H a o x y ms : leads H a o x -> clos_refl_trans nat (inside H) x y -> clos_trans nat (inside H) y y ->
  forall n, (forall d, snd (h_data H n a o ms) <> Done (Ok d)) /\ (all_quiet H a o -> snd (h_data H n a o ms) = Deep).
Proof.
  intros L R C n. assert (N : forall d, snd (h_data H n a o ms) <> Done (Ok d)).
  { intros d E. apply (ends_no_cycle H y); [|exact C]. eapply ends_reach; [|exact R]. eapply C118_converse_lemma; eauto. }
  split; [exact N|]. intro Q. rewrite C118_result in *. destruct (data_fine H n a o Q) as [D|[d D]]; [exact D|]. destruct (N d D).
Qed.

(** ** Agreement with the trees of C56-C58 *)
Definition args_agree (H : heap) (a : hargs) (b : dargs) : Prop :=
  h_include a = a_include b /\ h_exclude a = a_exclude b /\ h_rename a = a_rename b /\ h_none a = a_none b /\ h_context a = a_context b /\
  forall v t, unfolds H v t -> h_reject a v = a_reject b t.
Definition prop_unfolds (H : heap) (p : pystr * (ctx -> res hval)) (q : pystr * (ctx -> res jval)) : Prop := fst p = fst q /\
  forall c, (exists e, snd p c = Err e /\ snd q c = Err e) \/ (exists v t, snd p c = Ok v /\ snd q c = Ok t /\ unfolds H v t).
Lemma unfolds_none H v t : unfolds H v t -> is_hnone v = is_jnone t.
Proof. intro U. destruct U; try reflexivity. destruct x; reflexivity. Qed.
Lemma nested_agree H : args_agree H h_nested nested_args.
Proof. repeat (split; [reflexivity|]). reflexivity. Qed.
Lemma selected_agree H a b n g g' : args_agree H a b ->
  (exists e, g = Err e /\ g' = Err e) \/ (exists v t, g = Ok v /\ g' = Ok t /\ unfolds H v t) -> h_selected a n g = selected b n g'.
Proof.
  intros (Hi & He & Hr & Hn & Hc & Hj) [(e & -> & ->)|(v & t & -> & -> & U)]; unfold h_selected, selected; rewrite Hi, He, Hn; [reflexivity|].
  rewrite (unfolds_none H v t U), (Hj v t U). reflexivity.
Qed.
(** [n] calls inside each other are enough for the value [v], which unfolds to [t] *)
Definition agrees (H : heap) (v : hval) (t : jval) : Prop :=
  (forall n, below (p_handle H n v) (Done (handle t))) /\ exists n, p_handle H n v = Done (handle t).
Definition of_res {A} (r : res A) : outcome A := Done r.
Lemma p_map_agree {A A' B} (f : nat -> A -> outcome B) (g : A' -> res B) l l' :
  (forall n m x, n <= m -> below (f n x) (f m x)) ->
  Forall2 (fun x y => exists n, f n x = Done (g y)) l l' -> exists n, p_map (f n) l = Done (map_res g l').
Proof.
  intros Mo F. induction F as [|x y l l' (n & E) _ (m & IH)]; [exists 0; reflexivity|].
  exists (max n m). simpl. rewrite (below_done _ _ _ (Mo n (max n m) x (Nat.le_max_l n m)) E). destruct (g y) as [z|e]; [|reflexivity].
  rewrite (below_done _ _ _ (map_below (f m) (f (max n m)) l (fun z => Mo m (max n m) z (Nat.le_max_r n m))) IH). destruct (map_res g l'); reflexivity.
Qed.
Lemma p_collect_agree H a b c : args_agree H a b -> c = a_context b -> forall props qs, Forall2 (prop_unfolds H) props qs ->
  (forall n g v t, In (n, g) qs -> g c = Ok t -> unfolds H v t -> exists k, p_handle H k v = Done (handle t)) ->
  forall acc, exists k, p_collect (p_handle H k) a c props acc = Done (collect handle b qs acc).
Proof.
  intros G Ec props qs F. induction F as [|[n g] [n' g'] props qs [N U] F IH]; intros K acc; [exists 0; reflexivity|].
  cbn [fst snd] in N, U. subst n'.
  assert (K' : forall n g v t, In (n, g) qs -> g c = Ok t -> unfolds H v t -> exists k, p_handle H k v = Done (handle t)) by (intros; eapply K; [right; eassumption|eassumption|assumption]).
  simpl. rewrite <- Ec. rewrite <- (selected_agree H a b n (g c) (g' c) G (U c)).
  destruct (h_selected a n (g c)) as [[|]|e] eqn:S; [|now apply IH|exists 0; reflexivity].
  destruct (U c) as [(e & E1 & E2)|(v & t & E1 & E2 & T)]; rewrite E1, E2; [exists 0; reflexivity|].
  destruct (K n g' v t (or_introl eq_refl) E2 T) as [k E]. destruct (handle t) as [w|e] eqn:W.
  - assert (X : h_key a n = out_key b n) by (unfold h_key, out_key; destruct G as (_ & _ & -> & _); reflexivity). rewrite <- X.
    destruct (IH K' (d_set (h_key a n) w acc)) as [k' E']. exists (max k k').
    rewrite (below_done _ _ _ (handle_below H k (max k k') v (Nat.le_max_l k k')) E).
    exact (below_done _ _ _ (collect_below _ _ a c (fun z => handle_below H k' (max k k') z (Nat.le_max_r k k')) props _) E').
  - exists k. rewrite E. reflexivity.
Qed.
Lemma with_agree H a b o qs : args_agree H a b -> Forall2 (prop_unfolds H) (H o) qs ->
  (forall n g v t, In (n, g) qs -> g (a_context b) = Ok t -> unfolds H v t -> exists k, p_handle H k v = Done (handle t)) ->
  exists k, p_with (p_handle H k) H a o = Done (data b qs).
Proof.
  intros G F K. destruct (p_collect_agree H a b (a_context b) G eq_refl (H o) qs F K []) as [k E].
  exists k. unfold p_with, data. replace (h_context a) with (a_context b) by (destruct G as (_ & _ & _ & _ & -> & _); reflexivity).
  rewrite E. destruct (collect handle b qs []); [|reflexivity]. cbn. unfold h_drop_none, drop_none. destruct G as (_ & _ & _ & -> & _). reflexivity.
Qed.
Lemma handle_agree H t : forall v, unfolds H v t -> exists k, p_handle H k v = Done (handle t).
Proof.
  induction t as [|b|z|r|s|l IH|l IH|l IH|d IH|l IH|s|props IH] using jval_ind2; intros v U;
    try (inversion U as [x E1 E2| | |]; subst; exists 1; destruct x; discriminate E2 || (injection E2; intros; subst; reflexivity) || reflexivity).
  - inversion U as [x E1 E2|l0 l' F E1 E2| |]; subst; [destruct x; discriminate|].
    assert (F' : Forall2 (fun x y => exists n, p_handle H n x = Done (handle y)) l0 l).
    { clear U. induction F as [|x y l0 l Uxy F IHF]; [constructor|]. inversion IH; subst. constructor; [now auto|now apply IHF]. }
    destruct (p_map_agree (p_handle H) handle l0 l (fun n m x => handle_below H n m x) F') as [n E]. exists (S n). cbn [p_handle]. rewrite E.
    cbn [handle]. destruct (map_res handle l); reflexivity.
  - inversion U as [x E1 E2| |d0 d' F E1 E2|]; subst; [destruct x; discriminate|].
    set (g := fun p : pystr * jval => match handle (snd p) with Ok w => Ok (fst p, w) | Err e => Err e end).
    assert (F' : Forall2 (fun x y => exists n, p_wrap (fun w => (fst x, w)) (p_handle H n (snd x)) = Done (g y)) d0 d).
    { clear U. induction F as [|x y l0 l [Nxy Uxy] F IHF]; [constructor|]. inversion IH as [|? ? IHy IHl]; subst. constructor; [|now apply IHF].
      destruct (IHy _ Uxy) as [n E]. exists n. rewrite E. unfold g. destruct x as [k x], y as [k' y]. cbn [fst snd] in *. subst k'. destruct (handle y); reflexivity. }
    destruct (p_map_agree (fun n (p : pystr * hval) => p_wrap (fun w => (fst p, w)) (p_handle H n (snd p))) g d0 d
        (fun n m p L => wrap_below _ _ _ (handle_below H n m (snd p) L)) F') as [n E].
    exists (S n). cbn [p_handle]. rewrite E. cbn [handle]. fold g. destruct (map_res g d); reflexivity.
  - inversion U as [x E1 E2| | |o qs F E1 E2]; subst; [destruct x; discriminate|].
    destruct (with_agree H h_nested nested_args o props (nested_agree H) F) as [k E].
    + intros n g v t I G T. rewrite Forall_forall in IH. exact (IH (n, g) I json_context t G v T).
    + exists (S k). cbn [p_handle]. rewrite E. cbn [handle]. unfold data. destruct (collect handle nested_args props []); reflexivity.
Qed.
Lemma C118_tree_lemma H a b o props : args_agree H a b -> unfolds H (HRef o) (JObj props) ->
  exists n, forall m ms, (n <= m -> snd (h_data H m a o ms) = Done (data b props)) /\
    (snd (h_data H m a o ms) = Deep \/ snd (h_data H m a o ms) = Done (data b props)).
Proof.
  intros G U. inversion U as [| | |o' qs F E1 E2]; subst.
  destruct (with_agree H a b o props G F) as [n E]; [intros; eapply handle_agree; eauto|].
  exists n. intros m ms. rewrite C118_result. split; [intro L; exact (below_done _ _ _ (data_below H n m a o L) E)|].
  destruct (Nat.le_ge_cases n m) as [L|L]; [right; exact (below_done _ _ _ (data_below H n m a o L) E)|].
  destruct (data_below H m n a o L) as [->| ->]; [left; reflexivity|right; exact E].
Qed.

(** ** A shared object is written once for every mention *)
(** object [S k] mentions object [k] twice *)
Definition doubled (k : nat) : hprops :=
  match k with
  | O => [(py "name", fun _ => Ok (HVal (LStr (py "x"))))]
  | S k => [(py "subject", fun _ => Ok (HRef k)); (py "object", fun _ => Ok (HRef k))]
  end.
Fixpoint written (k : nat) : dict jval :=
  match k with O => [(py "name", JStr (py "x"))] | S k => [(py "subject", JDict (written k)); (py "object", JDict (written k))] end.
(** [o.data()] *)
Definition h_default : hargs := mkHArgs (Names []) (Names []) [] false (fun _ => false) json_context.
(** the number of dicts in a value *)
Fixpoint dicts (v : jval) : nat :=
  match v with
  | JDict d => S ((fix go (l : list (pystr * jval)) := match l with [] => 0 | (_, x) :: l' => dicts x + go l' end) d)
  | JList l => (fix go (l : list jval) := match l with [] => 0 | x :: l' => dicts x + go l' end) l
  | _ => 0
  end.
Lemma doubled_with n a k w : a = h_nested \/ a = h_default -> p_handle doubled n (HRef k) = Done (Ok w) ->
  p_with (p_handle doubled n) doubled a (S k) = Done (Ok [(py "subject", w); (py "object", w)]).
Proof.
  intros A E. assert (X : is_jnone w = false).
  { destruct n; [discriminate|]. cbn [p_handle] in E. apply p_wrap_ok in E. destruct E as (d & _ & ->). reflexivity. }
  unfold p_with. cbn [doubled].
  destruct A as [->| ->]; cbn [p_collect];
    (match goal with |- context [h_selected ?a ?n ?g] => replace (h_selected a n g) with (@Ok bool true) by (vm_compute; reflexivity) end; cbv beta iota; rewrite E);
    (match goal with |- context [h_selected ?a ?n ?g] => replace (h_selected a n g) with (@Ok bool true) by (vm_compute; reflexivity) end; cbv beta iota);
    (match goal with |- context [h_key ?a (py "subject")] => replace (h_key a (py "subject")) with (py "subject") by (vm_compute; reflexivity) end);
    (match goal with |- context [h_key ?a (py "object")] => replace (h_key a (py "object")) with (py "object") by (vm_compute; reflexivity) end);
    (replace (d_set (py "object") w (d_set (py "subject") w [])) with [(py "subject", w); (py "object", w)] by reflexivity);
    cbn [p_wrap]; unfold h_drop_none; cbn [filter snd h_none h_nested h_default orb]; rewrite X; reflexivity.
Qed.
Lemma doubled_written a k : a = h_nested \/ a = h_default -> p_with (p_handle doubled (S k)) doubled a k = Done (Ok (written k)).
Proof.
  revert a. induction k as [|k IH]; intros a A; [destruct A as [->| ->]; vm_compute; reflexivity|].
  apply doubled_with; [exact A|]. change (p_handle doubled (S (S k)) (HRef k)) with (p_wrap JDict (p_with (p_handle doubled (S k)) doubled h_nested k)). rewrite (IH h_nested (or_introl eq_refl)). reflexivity.
Qed.
Lemma dicts_written k : dicts (JDict (written k)) + 1 = 2 ^ (k + 1).
Proof. induction k as [|k IH]; [reflexivity|]. cbn [written dicts Nat.add Nat.pow] in *. lia. Qed.
Lemma C118_doubling_lemma k ms m : k < m -> exists d, snd (h_data doubled m h_default k ms) = Done (Ok d) /\ dicts (JDict d) + 1 = 2 ^ (k + 1).
Proof.
  intro L. exists (written k). split; [|apply dicts_written]. rewrite C118_result.
  exact (below_done _ _ _ (data_below doubled (S k) m h_default k L) (doubled_written h_default k (or_intror eq_refl))).
Qed.
