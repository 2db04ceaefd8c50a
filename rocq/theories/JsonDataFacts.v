(** Proofs about data() *)
From Coq Require Import String.
From Verif Require Import Base BaseFacts Dict DictFacts Context JsonData.
Open Scope list_scope.
Set Implicit Arguments.

Definition getter := ctx -> res jval.
(** induction over values, reaching into lists, dicts and what the getters of objects return *)
Fixpoint jval_ind2 (P : jval -> Prop)
  (hnone : P JNone) (hbool : forall b, P (JBool b)) (hint : forall z, P (JInt z)) (hfloat : forall r, P (JFloat r)) (hstr : forall s, P (JStr s))
  (hlist : forall l, Forall P l -> P (JList l)) (htuple : forall l, Forall P l -> P (JTuple l)) (hset : forall l, Forall P l -> P (JSet l))
  (hdict : forall d, Forall (fun p => P (snd p)) d -> P (JDict d)) (hiter : forall l, Forall P l -> P (JIter l)) (hother : forall s, P (JOther s))
  (hobj : forall props, Forall (fun p : pystr * getter => forall c v, snd p c = Ok v -> P v) props -> P (JObj props)) (v : jval) : P v.
Proof.
  pose (go := jval_ind2 P hnone hbool hint hfloat hstr hlist htuple hset hdict hiter hother hobj).
  assert (L : forall l, Forall P l -> Forall P l) by auto.
  destruct v as [|b|z|r|s|l|l|l|d|l|s|props].
  - exact hnone. - apply hbool. - apply hint. - apply hfloat. - apply hstr.
  - apply hlist. exact ((fix f l := match l return Forall P l with [] => Forall_nil P | x :: l' => Forall_cons x (go x) (f l') end) l).
  - apply htuple. exact ((fix f l := match l return Forall P l with [] => Forall_nil P | x :: l' => Forall_cons x (go x) (f l') end) l).
  - apply hset. exact ((fix f l := match l return Forall P l with [] => Forall_nil P | x :: l' => Forall_cons x (go x) (f l') end) l).
  - apply hdict. exact ((fix f (l : list (pystr * jval)) := match l return Forall (fun p => P (snd p)) l with [] => Forall_nil _
       | (k, x) :: l' => @Forall_cons _ (fun p => P (snd p)) (k, x) l' (go x) (f l') end) d).
  - apply hiter. exact ((fix f l := match l return Forall P l with [] => Forall_nil P | x :: l' => Forall_cons x (go x) (f l') end) l).
  - apply hother.
  - apply hobj. exact ((fix f (l : list (pystr * getter)) := match l return Forall (fun p : pystr * getter => forall c v, snd p c = Ok v -> P v) l with
       | [] => Forall_nil _
       | (k, g) :: l' => @Forall_cons _ (fun p : pystr * getter => forall c v, snd p c = Ok v -> P v) (k, g) l'
           (fun c v => match g c as r return r = Ok v -> P v with
                       | Ok w => fun E => match (match E in _ = y return (match y with Ok x => w = x | Err _ => False end) with eq_refl => eq_refl end) in _ = x return P x with eq_refl => go w end
                       | Err e => fun E => match (match E in _ = y return (match y with Ok _ => False | Err _ => True end) with eq_refl => Logic.I end) return P v with end
                       end) (f l') end) props).
Defined.

(** ** specification vocabulary *)
(** [n] is named by an include/exclude argument: a member of the collection, or a substring of the string *)
Definition within (n : pystr) (x : sel) : Prop := match x with Names l => In n l | Sub s => exists a b, s = a ++ n ++ b end.
Definition empty_sel (x : sel) : Prop := x = Names [] \/ x = Sub [].
(** a property called [n] whose value is [v] is to be output *)
Definition wants (a : dargs) (n : pystr) (v : jval) : Prop :=
  (a_none a = true \/ v <> JNone) /\ (empty_sel (a_include a) \/ within n (a_include a)) /\ ~ (~ empty_sel (a_exclude a) /\ within n (a_exclude a)) /\ a_reject a v = false.
(** under this key *)
Definition renamed (a : dargs) (n : pystr) : pystr :=
  match last_of n (a_rename a) with Some m => m | None => match d_get n keymap with Some m => m | None => n end end.

(** ** lemmas *)
Lemma startswith_app p s : startswith p s = true <-> exists t, s = p ++ t.
Proof.
  revert s. induction p as [|a p IH]; intros s; simpl; [split; eauto|]. destruct s as [|b s]; [split; [discriminate|intros [t H]; discriminate]|].
  split.
  - intros H. apply andb_true_iff in H as [H1 H2]. apply N.eqb_eq in H1. apply IH in H2 as [t ->]. exists t. now rewrite H1.
  - intros [t [= -> ->]]. rewrite N.eqb_refl. apply IH. eauto.
Qed.
Lemma is_substr_spec n s : is_substr n s = true <-> exists a b, s = a ++ n ++ b.
Proof.
  induction s as [|c s IH]; simpl.
  - rewrite orb_false_r, startswith_app. split; [intros [t H]; exists [], t; exact H|]. intros (a & b & H). symmetry in H. apply app_eq_nil in H as [-> H]. eauto.
  - rewrite orb_true_iff, startswith_app, IH. split.
    + intros [[t H]|(a & b & H)]; [exists [], t; exact H|exists (c :: a), b; simpl; now rewrite H].
    + intros (a & b & H). destruct a as [|x a]; [left; eauto|]. right. injection H as -> ->. eauto.
Qed.
Lemma sel_mem_spec n x : sel_mem n x = true <-> within n x.
Proof.
  destruct x as [l|s]; simpl; [|apply is_substr_spec]. unfold mem_str. rewrite existsb_exists. split.
  - intros (y & Hy & E). apply str_eqb_eq in E. now subst.
  - intros H. exists n. split; [exact H|apply str_eqb_refl].
Qed.
Lemma sel_truthy_spec x : sel_truthy x = false <-> empty_sel x.
Proof. unfold empty_sel. destruct x as [[|y l]|[|y s]]; simpl; split; intros H; auto; try discriminate; destruct H; discriminate. Qed.
Lemma is_jnone_spec v : is_jnone v = true <-> v = JNone.
Proof. destruct v; simpl; split; intros H; congruence || discriminate || reflexivity. Qed.
Lemma out_key_renamed a n : out_key a n = renamed a n.
Proof. unfold out_key, renamed. rewrite d_get_merge. now destruct (last_of n (a_rename a)). Qed.

Lemma selected_ok a n v : exists b, selected a n (Ok v) = Ok b /\ (b = true <-> wants a n v).
Proof.
  unfold selected, wants.
  assert (H1 : exists c1, (if a_none a then Ok true else Ok (negb (is_jnone v))) = Ok c1 /\ (c1 = true <-> a_none a = true \/ v <> JNone)).
  { destruct (a_none a); [exists true; split; [reflexivity|tauto]|]. exists (negb (is_jnone v)). split; [reflexivity|].
    rewrite negb_true_iff. destruct (is_jnone v) eqn:E; [apply is_jnone_spec in E|]; split; intros H; auto; try discriminate; [destruct H; [discriminate|congruence]|].
    right. intros ->. discriminate. }
  destruct H1 as (c1 & E & H1). cbv iota. rewrite E. clear E.
  all: set (c2 := negb (sel_truthy (a_include a)) || sel_mem n (a_include a)); set (c3 := sel_truthy (a_exclude a) && sel_mem n (a_exclude a)).
  all: assert (H2 : c2 = true <-> empty_sel (a_include a) \/ within n (a_include a)) by (unfold c2; now rewrite orb_true_iff, negb_true_iff, sel_truthy_spec, sel_mem_spec).
  all: assert (H3 : c3 = true <-> ~ empty_sel (a_exclude a) /\ within n (a_exclude a)) by
    (unfold c3; rewrite andb_true_iff, sel_mem_spec, <- sel_truthy_spec; destruct (sel_truthy (a_exclude a)); intuition congruence).
  all: destruct c1; simpl; [|exists false; split; [reflexivity|]; split; [discriminate|intros (H & _); apply H1 in H; discriminate]].
  all: destruct c2; simpl; [|exists false; split; [reflexivity|]; split; [discriminate|intros (_ & H & _); apply H2 in H; discriminate]].
  all: destruct c3; simpl; [exists false; split; [reflexivity|]; split; [discriminate|intros (_ & _ & H & _); exfalso; apply H, H3; reflexivity]|].
  all: exists (negb (a_reject a v)); split; [reflexivity|]; rewrite negb_true_iff; split; [|tauto].
  all: intros Hr; split; [now apply H1|]; split; [now apply H2|]; split; [|exact Hr]; intros H; apply H3 in H; discriminate.
Qed.
Lemma selected_true a n g : selected a n g = Ok true -> exists v, g = Ok v /\ wants a n v.
Proof.
  intros H. destruct g as [v|e].
  - destruct (selected_ok a n v) as (b & E & Hb). exists v. split; [reflexivity|]. apply Hb. congruence.
  - exfalso. unfold selected in H. destruct (a_none a); [|discriminate]. simpl in H. destruct (negb _); discriminate.
Qed.

(** [live a props n v]: property [n] has value [v] and is to be output *)
Definition live (a : dargs) (props : list (pystr * getter)) (n : pystr) (v : jval) : Prop :=
  exists g, In (n, g) props /\ g (a_context a) = Ok v /\ wants a n v.

Lemma collect_spec h a : forall props acc d, collect h a props acc = Ok d -> NoDup (d_keys acc) ->
  NoDup (d_keys d) /\
  (forall k, In k (d_keys d) <-> In k (d_keys acc) \/ exists n v, live a props n v /\ k = out_key a n) /\
  (forall k w, d_get k d = Some w -> (exists l1 n g l2 v, props = l1 ++ (n, g) :: l2 /\ g (a_context a) = Ok v /\ wants a n v /\ k = out_key a n /\ h v = Ok w /\
       forall n' v', live a l2 n' v' -> out_key a n' <> k) \/
     (d_get k acc = Some w /\ forall n v, live a props n v -> out_key a n <> k)).
Proof.
  induction props as [|[n g] props IH]; intros acc d H Hn.
  - simpl in H. injection H as <-. split; [exact Hn|]. split.
    + intros k. split; [auto|]. intros [H|(n & v & (g & [] & _) & _)]. exact H.
    + intros k w Hk. right. split; [exact Hk|]. intros n v (g & [] & _).
  - simpl in H. destruct (selected a n (g (a_context a))) as [b|e] eqn:Es; [|discriminate]. destruct b.
    + destruct (selected_true _ _ _ Es) as (v & Eg & Hw). rewrite Eg in H. destruct (h v) as [w|e] eqn:Eh; [|discriminate].
      destruct (IH _ _ H (d_set_nodup (out_key a n) w acc Hn)) as (H1 & H2 & H3). split; [exact H1|]. split.
      * intros k. rewrite H2, d_keys_set. split.
        -- intros [Hk|(n' & v' & (g' & Hi & Hg' & Hw') & ->)].
           ++ unfold d_mem in Hk. destruct (d_get (out_key a n) acc); [now left|]. apply in_app_iff in Hk as [Hk|[<-|[]]]; [now left|].
              right. exists n, v. split; [exists g; split; [now left|auto]|reflexivity].
           ++ right. exists n', v'. split; [|reflexivity]. exists g'. split; [now right|auto].
        -- intros [Hk|(n' & v' & (g' & [[= <- <-]|Hi] & Hg' & Hw') & ->)].
           ++ left. unfold d_mem. destruct (d_get (out_key a n) acc); [exact Hk|apply in_app_iff; now left].
           ++ left. unfold d_mem. destruct (d_get (out_key a n) acc) eqn:Ea; [apply d_get_in; congruence|apply in_app_iff; right; now left].
           ++ right. exists n', v'. split; [exists g'; auto|reflexivity].
      * intros k w' Hk. destruct (H3 k w' Hk) as [(l1 & n' & g' & l2 & v' & -> & Hg' & Hw' & -> & Hh & Hl)|[Ha Hl]].
        -- left. exists ((n, g) :: l1), n', g', l2, v'. auto 10.
        -- destruct (str_dec k (out_key a n)) as [->|Hk'].
           ++ rewrite d_get_set_same in Ha. injection Ha as <-. left. exists [], n, g, props, v. repeat split; auto; apply Hw.
           ++ right. rewrite d_get_set_other in Ha by exact Hk'. split; [exact Ha|]. intros n' v' (g' & [[= <- <-]|Hi] & Hg' & Hw'); [congruence|].
              apply Hl with v'. exists g'. auto.
    + destruct (IH _ _ H Hn) as (H1 & H2 & H3). split; [exact H1|].
      assert (Hnot : forall v, g (a_context a) = Ok v -> ~ wants a n v).
      { intros v Eg Hw. rewrite Eg in Es. destruct (selected_ok a n v) as (b & E & Hb). apply Hb in Hw. congruence. }
      assert (Hlive : forall n' v', live a ((n, g) :: props) n' v' <-> live a props n' v').
      { intros n' v'. split; intros (g' & Hi & Hg' & Hw'); exists g'.
        - destruct Hi as [[= <- <-]|Hi]; [exfalso; now apply (Hnot v')|auto].
        - split; [now right|auto]. }
      split.
      * intros k. rewrite H2. split; (intros [Hk|(n' & v' & Hl & ->)]; [now left|]; right; exists n', v'; split; [now apply Hlive|reflexivity]).
      * intros k w Hk. destruct (H3 k w Hk) as [(l1 & n' & g' & l2 & v' & -> & R)|[Ha Hl]].
        -- left. exists ((n, g) :: l1), n', g', l2, v'. split; [reflexivity|exact R].
        -- right. split; [exact Ha|]. intros n' v' Hl'. apply (Hl n' v'). now apply Hlive.
Qed.

(** handled values are plain *)
Inductive plain : jval -> Prop :=
| pl_str s : plain (JStr s) | pl_int z : plain (JInt z) | pl_float r : plain (JFloat r)
| pl_list l : Forall plain l -> plain (JList l)
| pl_dict d : Forall (fun p => plain (snd p)) d -> plain (JDict d).

Lemma map_res_forall {A B} (f : A -> res B) (P : A -> Prop) (Q : B -> Prop) l ys :
  (forall x y, P x -> f x = Ok y -> Q y) -> Forall P l -> map_res f l = Ok ys -> Forall Q ys.
Proof.
  intros Hf H. revert ys. induction H as [|x l Hx Hl IH]; simpl; intros ys E.
  - injection E as <-. constructor.
  - destruct (f x) as [y|] eqn:Ey; [|discriminate]. destruct (map_res f l) as [ys'|] eqn:El; [|discriminate]. injection E as <-.
    constructor; [now apply (Hf x)|now apply IH].
Qed.
Lemma collect_vals h a (Q : jval -> Prop) : forall props acc d, Forall (fun p : pystr * getter => forall c v w, snd p c = Ok v -> h v = Ok w -> Q w) props ->
  Forall (fun p => Q (snd p)) acc -> collect h a props acc = Ok d -> Forall (fun p => Q (snd p)) d.
Proof.
  induction props as [|[n g] props IH]; intros acc d H Ha E; simpl in E.
  - injection E as <-. exact Ha.
  - apply Forall_cons_iff in H as [Hg H]. destruct (selected a n (g (a_context a))) as [[|]|e]; try discriminate.
    + destruct (g (a_context a)) as [v|e] eqn:Eg; [|discriminate]. destruct (h v) as [w|e] eqn:Eh; [|discriminate]. apply (IH _ _ H) in E; [exact E|].
      clear -Ha Hg Eg Eh. assert (Hw : Q w) by (apply (Hg (a_context a) v w); auto). induction acc as [|[k x] acc IH]; simpl; [repeat constructor; auto|].
      apply Forall_cons_iff in Ha as [H1 H2]. destruct (str_eqb _ k); constructor; simpl in *; auto.
    + now apply (IH acc).
Qed.
Lemma drop_none_plain a d : Forall (fun p => plain (snd p)) d -> drop_none a d = d.
Proof.
  induction d as [|[k v] d IH]; intros H; simpl; [reflexivity|]. apply Forall_cons_iff in H as [H1 H2]. simpl in H1.
  assert (E : is_jnone v = false) by (destruct H1; reflexivity). rewrite E, orb_true_r. f_equal. exact (IH H2).
Qed.
Lemma handle_plain v : forall w, handle v = Ok w -> plain w.
Proof.
  induction v as [|b|z|r|s|l IH|l IH|l IH|d IH|l IH|s|props IH] using jval_ind2; intros w E; simpl in E.
  1,2,3,4,5,11: injection E as <-; constructor.
  1,2,3,5: destruct (map_res handle l) as [ys|e] eqn:El; [|discriminate]; injection E as <-; constructor;
    apply (@map_res_forall _ _ handle (fun v => forall w, handle v = Ok w -> plain w) plain l ys); auto.
  - destruct (map_res _ d) as [ys|e] eqn:El; [|discriminate]; injection E as <-; constructor.
    refine (@map_res_forall _ _ _ (fun p : pystr * jval => forall w, handle (snd p) = Ok w -> plain w) (fun p => plain (snd p)) d ys _ IH El).
    intros [k x] y Hx Hy. simpl in *. destruct (handle x) as [w|]; [|discriminate]. injection Hy as <-. simpl. now apply Hx.
  - destruct (collect handle nested_args props []) as [d|e] eqn:Ec; [|discriminate]. injection E as <-.
    assert (Hp : Forall (fun p => plain (snd p)) d).
    { apply (@collect_vals handle nested_args plain props [] d); auto. eapply Forall_impl; [|exact IH]. intros [n g] Hg c v w. simpl in *. intros Hv. exact (Hg c v Hv w). }
    rewrite (drop_none_plain _ Hp). now constructor.
Qed.
Lemma collect_plain a props d : collect handle a props [] = Ok d -> Forall (fun p => plain (snd p)) d.
Proof.
  intros E. apply (@collect_vals handle a plain props [] d); auto. apply Forall_forall. intros [n g] _ c v w _ Hw. now apply (handle_plain v).
Qed.
Lemma map_res_id {A} (f : A -> res A) l : Forall (fun x => f x = Ok x) l -> map_res f l = Ok l.
Proof. intros H. induction H as [|x l Hx Hl IH]; simpl; [reflexivity|]. now rewrite Hx, IH. Qed.
Lemma plain_handle v : plain v -> handle v = Ok v.
Proof.
  induction v as [|b|z|r|s|l IH|l IH|l IH|d IH|l IH|s|props IH] using jval_ind2; intros H; simpl; auto; try (exfalso; inversion H; fail).
  - inversion H as [| | |l0 H0|]; subst. rewrite map_res_id; [reflexivity|]. clear H. induction H0; constructor; apply Forall_cons_iff in IH as [H1 H2]; auto.
  - inversion H as [| | | |l0 H0]; subst. rewrite map_res_id; [reflexivity|]. clear H. induction H0 as [|[k x] l Hx Hl IHl]; constructor; apply Forall_cons_iff in IH as [H1 H2]; auto.
    simpl in *. now rewrite H1.
Qed.

(** ** C56 *)
Lemma C56_lemma a props d : data a props = Ok d ->
  NoDup (d_keys d) /\
  (forall k, In k (d_keys d) <-> exists n v, live a props n v /\ k = renamed a n) /\
  (forall k w, d_get k d = Some w -> exists before n g after v, props = before ++ (n, g) :: after /\ g (a_context a) = Ok v /\ wants a n v /\
     k = renamed a n /\ handle v = Ok w /\ forall n' v', live a after n' v' -> renamed a n' <> k).
Proof.
  unfold data. intros H. destruct (collect handle a props []) as [d'|e] eqn:E; [|discriminate]. injection H as <-.
  rewrite (drop_none_plain a (@collect_plain _ _ _ E)). destruct (@collect_spec _ _ _ _ _ E (NoDup_nil _)) as (H1 & H2 & H3).
  split; [exact H1|]. split.
  - intros k. rewrite H2. split.
    + intros [[]|(n & v & Hl & ->)]. exists n, v. split; [exact Hl|apply out_key_renamed].
    + intros (n & v & Hl & ->). right. exists n, v. split; [exact Hl|symmetry; apply out_key_renamed].
  - intros k w Hk. destruct (H3 k w Hk) as [(l1 & n & g & l2 & v & -> & Hg & Hw & -> & Hh & Hl)|[Ha _]]; [|discriminate].
    exists l1, n, g, l2, v. rewrite out_key_renamed in *. repeat split; auto; try apply Hw. intros n' v' Hlive. rewrite <- out_key_renamed. now apply (Hl n' v').
Qed.
(** with distinct output keys, every selected property is there with its own value *)
Lemma C56_values a props d n v w : data a props = Ok d -> NoDup (map fst props) -> live a props n v ->
  (forall n' v', live a props n' v' -> renamed a n' = renamed a n -> n' = n) -> handle v = Ok w -> d_get (renamed a n) d = Some w.
Proof.
  intros H Hnd Hl Hinj Hh. destruct (@C56_lemma _ _ _ H) as (_ & H2 & H3).
  assert (Hin : In (renamed a n) (d_keys d)) by (apply H2; eauto). apply d_get_in in Hin. destruct (d_get (renamed a n) d) as [w'|] eqn:E; [|congruence].
  destruct (H3 _ _ E) as (l1 & n' & g' & l2 & v' & -> & Hg' & Hw' & Hk & Hh' & _).
  assert (Hn : n' = n). { apply (Hinj n' v'); [|auto]. exists g'. split; [apply in_app_iff; right; now left|auto]. }
  subst n'. destruct Hl as (g & Hi & Hg & Hw). assert (Hgg : g = g').
  { clear -Hnd Hi. rewrite map_app in Hnd. simpl in Hnd. apply NoDup_remove_2 in Hnd. apply in_app_iff in Hi as [Hi|[[= ->]|Hi]]; auto; exfalso; apply Hnd, in_app_iff; [left|right]; apply (in_map fst) in Hi; exact Hi. }
  subst g'. rewrite Hg in Hg'. injection Hg' as <-. congruence.
Qed.
Lemma C56_context m a props : let (m', r) := data_call m a props in m_context m' = m_context m /\ m_stack m' = m_stack m /\ r = data a props.
Proof. unfold data_call, mgr_exit. simpl. repeat split; destruct a; reflexivity. Qed.

(** when data() succeeds: every getter it reads, here and in nested objects, returns a value *)
Fixpoint readable (v : jval) : Prop :=
  match v with
  | JList l | JTuple l | JSet l | JIter l => (fix all l := match l with [] => True | x :: l' => readable x /\ all l' end) l
  | JDict d => (fix all (l : list (pystr * jval)) := match l with [] => True | (_, x) :: l' => readable x /\ all l' end) d
  | JObj props => (fix all (l : list (pystr * getter)) := match l with [] => True
      | (_, g) :: l' => (match g json_context with Ok w => readable w | Err _ => False end) /\ all l' end) props
  | _ => True
  end.
Lemma collect_total h a : forall props acc, (forall n g, In (n, g) props -> exists v w, g (a_context a) = Ok v /\ h v = Ok w) -> exists d, collect h a props acc = Ok d.
Proof.
  induction props as [|[n g] props IH]; intros acc H; simpl; [eauto|]. destruct (H n g (or_introl eq_refl)) as (v & w & Eg & Eh). rewrite Eg.
  destruct (selected_ok a n v) as (b & E & _). rewrite E. destruct b; [rewrite Eh|]; apply IH; intros n' g' Hi; apply (H n' g'); now right.
Qed.
Lemma map_res_total {A B} (f : A -> res B) l : Forall (fun x => exists y, f x = Ok y) l -> exists ys, map_res f l = Ok ys.
Proof. intros H. induction H as [|x l [y Hy] Hl [ys IH]]; simpl; [eauto|]. rewrite Hy, IH. eauto. Qed.
Lemma readable_handle v : readable v -> exists w, handle v = Ok w.
Proof.
  induction v as [|b|z|r|s|l IH|l IH|l IH|d IH|l IH|s|props IH] using jval_ind2; intros H; simpl; eauto.
  1,2,3,5: assert (Hl : Forall (fun x => exists y, handle x = Ok y) l) by
     (simpl in H; induction IH as [|x l Hx Hl IHl]; constructor; destruct H as [H1 H2]; auto);
     destruct (map_res_total _ Hl) as [ys E]; rewrite E; eauto.
  - assert (Hl : Forall (fun p => exists y, (fun p : pystr * jval => match handle (snd p) with Ok w => Ok (fst p, w) | Err e => Err e end) p = Ok y) d).
    { simpl in H. induction IH as [|[k x] l Hx Hl IHl]; constructor; destruct H as [H1 H2]; auto. simpl in *. destruct (Hx H1) as [w E]. rewrite E. eauto. }
    destruct (map_res_total _ Hl) as [ys E]. rewrite E. eauto.
  - assert (Hl : forall n (g : getter), In (n, g) props -> exists v w, g (a_context nested_args) = Ok v /\ handle v = Ok w).
    { simpl in H. intros n g. induction IH as [|[k x] l Hx Hl IHl]; [intros []|]. destruct H as [H1 H2]. intros [[= -> ->]|Hi]; [|auto].
      simpl in Hx. change (a_context nested_args) with json_context. destruct (g json_context) as [v|e] eqn:E; [|destruct H1]. destruct (Hx _ _ E H1) as [w Hw]. eauto. }
    destruct (@collect_total handle nested_args props [] Hl) as [d E]. rewrite E. eauto.
Qed.
Lemma C56_total a props : (forall n (g : getter), In (n, g) props -> exists v, g (a_context a) = Ok v /\ readable v) -> exists d, data a props = Ok d.
Proof.
  intros H. unfold data. destruct (@collect_total handle a props []) as [d E].
  - intros n g Hi. destruct (H n g Hi) as (v & Eg & Hr). destruct (readable_handle _ Hr) as [w Hw]. eauto.
  - rewrite E. eauto.
Qed.

(** ** C57 *)
Lemma C57_data a props d : data a props = Ok d -> plain (JDict d).
Proof.
  unfold data. intros H. destruct (collect handle a props []) as [d'|e] eqn:E; [|discriminate]. injection H as <-. pose proof (@collect_plain _ _ _ E) as Hp.
  rewrite (drop_none_plain a Hp). now constructor.
Qed.

(** ** C58 *)
Lemma C58_lemma props w : handle (JObj props) = Ok w -> exists d, w = JDict d /\
  forall k, In k (d_keys d) <-> exists n g v, In (n, g) props /\ g json_context = Ok v /\ v <> JNone /\
     ~ (exists x y, py "acontext" = x ++ n ++ y) /\ k = match d_get n keymap with Some m => m | None => n end.
Proof.
  intros H.
  assert (E : exists d, data nested_args props = Ok d /\ w = JDict d).
  { unfold data. simpl in H. destruct (collect handle nested_args props []) as [d|e]; [|discriminate]. injection H as <-. eauto. }
  destruct E as (d & E & ->). exists d. split; [reflexivity|]. destruct (@C56_lemma _ _ _ E) as (_ & H2 & _). intros k. rewrite H2. split.
  - intros (n & v & (g & Hi & Hg & (Hn & _ & He & _)) & ->). exists n, g, v. split; [exact Hi|]. split; [exact Hg|]. split; [destruct Hn; [discriminate|exact H0]|].
    split; [|reflexivity]. intros Hs. apply He. split; [intros [X|X]; discriminate|exact Hs].
  - intros (n & g & v & Hi & Hg & Hn & Hs & ->). exists n, v. split; [|reflexivity]. exists g. split; [exact Hi|]. split; [exact Hg|].
    split; [now right|]. split; [left; now left|]. split; [|reflexivity]. intros [_ Hw]. now apply Hs.
Qed.
