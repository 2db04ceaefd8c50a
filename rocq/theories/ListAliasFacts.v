(** Facts about lists shared between objects and their callers. *)
From Coq Require Import String Lia.
From Verif Require Import Base BaseFacts ListAlias.
Open Scope list_scope.
Set Implicit Arguments.

Section Facts.
Variable L : Type.
(** ** Specification *)
(** a value as it is read, all the way down: a finite tree *)
Inductive tree := TLeaf (l : L) | TList (ts : list tree).
(** in the present state of the lists [v] reads as the tree, and the list objects met on the way are these *)
Inductive spells (h : lheap L) : lval L -> tree -> list nat -> Prop :=
  | sp_leaf l : spells h (Leaf l) (TLeaf l) []
  | sp_list r vs ts rs : nth_error h r = Some vs -> spells_all h vs ts rs -> spells h (Ref r) (TList ts) (r :: rs)
with spells_all (h : lheap L) : list (lval L) -> list tree -> list nat -> Prop :=
  | sp_nil : spells_all h [] [] []
  | sp_cons v t r1 vs ts r2 : spells h v t r1 -> spells_all h vs ts r2 -> spells_all h (v :: vs) (t :: ts) (r1 ++ r2).
Scheme spells_mut := Induction for spells Sort Prop with spells_all_mut := Induction for spells_all Sort Prop.
(** what a guarded property stores for a tree: every leaf checked and converted in order; the first failure is the result; no lists unless they are allowed *)
Definition conv_list (c : tree -> res tree) := fix go (ts : list tree) : res (list tree) :=
  match ts with [] => Ok [] | t :: ts' => match c t with Err e => Err e | Ok t1 => match go ts' with Err e => Err e | Ok l => Ok (t1 :: l) end end end.
Fixpoint conv (lists : bool) (leaf : L -> res L) (t : tree) : res tree :=
  match t with
  | TLeaf l => match leaf l with Ok l' => Ok (TLeaf l') | Err e => Err e end
  | TList ts => if lists then match conv_list (conv lists leaf) ts with Ok ts' => Ok (TList ts') | Err e => Err e end else Err ValueError
  end.
Fixpoint depth (t : tree) : nat := match t with TLeaf _ => 1 | TList ts => S (list_max (map depth ts)) end.

(** ** Lists that exist *)
Definition exists_in (h : lheap L) (v : lval L) : Prop := match v with Leaf _ => True | Ref r => r < List.length h end.
Definition wf (h : lheap L) : Prop := forall r vs, nth_error h r = Some vs -> Forall (exists_in h) vs.

Lemma exists_app h e v : exists_in h v -> exists_in (h ++ e) v.
Proof. destruct v; cbn; [auto|]. rewrite app_length. lia. Qed.
(** agreement on the lists met is enough *)
Lemma spells_frame h h' : (forall v t rs, spells h v t rs -> (forall r, In r rs -> nth_error h' r = nth_error h r) -> spells h' v t rs) /\
  (forall vs ts rs, spells_all h vs ts rs -> (forall r, In r rs -> nth_error h' r = nth_error h r) -> spells_all h' vs ts rs).
Proof.
  split.
  - apply (@spells_mut h (fun v t rs _ => (forall r, In r rs -> nth_error h' r = nth_error h r) -> spells h' v t rs) (fun vs ts rs _ => (forall r, In r rs -> nth_error h' r = nth_error h r) -> spells_all h' vs ts rs)).
    + constructor.
    + intros r vs ts rs E _ IH H. apply sp_list with vs; [rewrite H; [exact E|now left]|]. apply IH. intros r' I. apply H. now right.
    + constructor.
    + intros v t r1 vs ts r2 _ IH1 _ IH2 H. constructor; [apply IH1|apply IH2]; intros r I; apply H, in_or_app; auto.
  - apply (@spells_all_mut h (fun v t rs _ => (forall r, In r rs -> nth_error h' r = nth_error h r) -> spells h' v t rs) (fun vs ts rs _ => (forall r, In r rs -> nth_error h' r = nth_error h r) -> spells_all h' vs ts rs)).
    + constructor.
    + intros r vs ts rs E _ IH H. apply sp_list with vs; [rewrite H; [exact E|now left]|]. apply IH. intros r' I. apply H. now right.
    + constructor.
    + intros v t r1 vs ts r2 _ IH1 _ IH2 H. constructor; [apply IH1|apply IH2]; intros r I; apply H, in_or_app; auto.
Qed.
Lemma spells_bound h : (forall v t rs, spells h v t rs -> Forall (fun r => r < List.length h) rs) /\ (forall vs ts rs, spells_all h vs ts rs -> Forall (fun r => r < List.length h) rs).
Proof.
  split.
  - apply (@spells_mut h (fun v t rs _ => Forall (fun r => r < List.length h) rs) (fun vs ts rs _ => Forall (fun r => r < List.length h) rs)); [constructor| |constructor|intros; apply Forall_app; auto].
    intros r vs ts rs E _ IH. constructor; [apply nth_error_Some; congruence|exact IH].
  - apply (@spells_all_mut h (fun v t rs _ => Forall (fun r => r < List.length h) rs) (fun vs ts rs _ => Forall (fun r => r < List.length h) rs)); [constructor| |constructor|intros; apply Forall_app; auto].
    intros r vs ts rs E _ IH. constructor; [apply nth_error_Some; congruence|exact IH].
Qed.
Lemma spells_more h e v t rs : spells h v t rs -> spells (h ++ e) v t rs.
Proof.
  intro S. apply (proj1 (spells_frame h (h ++ e)) v t rs S). intros r I. assert (B := proj1 (spells_bound h) v t rs S). rewrite Forall_forall in B. now rewrite nth_error_app1 by now apply B.
Qed.
Lemma spells_all_more h e v t rs : spells_all h v t rs -> spells_all (h ++ e) v t rs.
Proof.
  intro S. apply (proj2 (spells_frame h (h ++ e)) v t rs S). intros r I. assert (B := proj2 (spells_bound h) v t rs S). rewrite Forall_forall in B. now rewrite nth_error_app1 by now apply B.
Qed.
(** what existed reads as it did *)
Lemma spells_less h e : wf h -> (forall v t rs, spells (h ++ e) v t rs -> exists_in h v -> spells h v t rs) /\ (forall vs ts rs, spells_all (h ++ e) vs ts rs -> Forall (exists_in h) vs -> spells_all h vs ts rs).
Proof.
  intro W. assert (X : forall r vs, nth_error (h ++ e) r = Some vs -> r < List.length h -> nth_error h r = Some vs) by (intros r vs E B; now rewrite nth_error_app1 in E by exact B).
  split.
  - apply (@spells_mut (h ++ e) (fun v t rs _ => exists_in h v -> spells h v t rs) (fun vs ts rs _ => Forall (exists_in h) vs -> spells_all h vs ts rs)); [constructor| |constructor|].
    + intros r vs ts rs E _ IH B. apply X in E; [|exact B]. apply sp_list with vs; [exact E|]. apply IH. exact (W r vs E).
    + intros v t r1 vs ts r2 _ IH1 _ IH2 B. inversion B; subst. constructor; auto.
  - apply (@spells_all_mut (h ++ e) (fun v t rs _ => exists_in h v -> spells h v t rs) (fun vs ts rs _ => Forall (exists_in h) vs -> spells_all h vs ts rs)); [constructor| |constructor|].
    + intros r vs ts rs E _ IH B. apply X in E; [|exact B]. apply sp_list with vs; [exact E|]. apply IH. exact (W r vs E).
    + intros v t r1 vs ts r2 _ IH1 _ IH2 B. inversion B; subst. constructor; auto.
Qed.
Lemma spells_fun h : (forall v t rs, spells h v t rs -> forall t' rs', spells h v t' rs' -> t' = t /\ rs' = rs) /\ (forall vs ts rs, spells_all h vs ts rs -> forall ts' rs', spells_all h vs ts' rs' -> ts' = ts /\ rs' = rs).
Proof.
  split.
  - apply (@spells_mut h (fun v t rs _ => forall t' rs', spells h v t' rs' -> t' = t /\ rs' = rs) (fun vs ts rs _ => forall ts' rs', spells_all h vs ts' rs' -> ts' = ts /\ rs' = rs)).
    + intros l t' rs' S. inversion S; auto.
    + intros r vs ts rs E _ IH t' rs' S. inversion S; subst. assert (vs0 = vs) by congruence. subst. destruct (IH _ _ ltac:(eassumption)) as [-> ->]. auto.
    + intros t' rs' S. inversion S; auto.
    + intros v t r1 vs ts r2 _ IH1 _ IH2 t' rs' S. inversion S; subst. destruct (IH1 _ _ ltac:(eassumption)) as [-> ->]. destruct (IH2 _ _ ltac:(eassumption)) as [-> ->]. auto.
  - apply (@spells_all_mut h (fun v t rs _ => forall t' rs', spells h v t' rs' -> t' = t /\ rs' = rs) (fun vs ts rs _ => forall ts' rs', spells_all h vs ts' rs' -> ts' = ts /\ rs' = rs)).
    + intros l t' rs' S. inversion S; auto.
    + intros r vs ts rs E _ IH t' rs' S. inversion S; subst. assert (vs0 = vs) by congruence. subst. destruct (IH _ _ ltac:(eassumption)) as [-> ->]. auto.
    + intros t' rs' S. inversion S; auto.
    + intros v t r1 vs ts r2 _ IH1 _ IH2 t' rs' S. inversion S; subst. destruct (IH1 _ _ ltac:(eassumption)) as [-> ->]. destruct (IH2 _ _ ltac:(eassumption)) as [-> ->]. auto.
Qed.
Lemma wf_snoc h vs : wf h -> Forall (exists_in h) vs -> wf (h ++ [vs]).
Proof.
  intros W F r ws E. assert (X : forall v, exists_in h v -> exists_in (h ++ [vs]) v) by (intros v; apply exists_app).
  destruct (Nat.lt_ge_cases r (List.length h)) as [B|B]; [rewrite nth_error_app1 in E by exact B; eapply Forall_impl; [exact X|exact (W r ws E)]|].
  rewrite nth_error_app2 in E by exact B. destruct (r - List.length h) as [|k]; cbn in E; [injection E as <-; eapply Forall_impl; [exact X|exact F]|destruct k; discriminate].
Qed.

(** ** Assigning *)
Definition between (a b : nat) (rs : list nat) : Prop := NoDup rs /\ Forall (fun r => a <= r < b) rs.
Lemma between_app a b c rs qs : between a b rs -> between b c qs -> a <= b -> b <= c -> between a c (rs ++ qs).
Proof.
  intros [N1 F1] [N2 F2] A B. rewrite Forall_forall in F1, F2. split.
  - revert N1 F1. induction rs as [|r rs IH]; intros N1 F1; cbn; [exact N2|]. inversion N1; subst. constructor; [|apply IH; [assumption|intros x I; apply F1; now right]].
    rewrite in_app_iff. intros [I|I]; [contradiction|]. specialize (F1 r (or_introl eq_refl)). apply F2 in I. lia.
  - apply Forall_forall. intros x I. apply in_app_iff in I as [I|I]; [apply F1 in I|apply F2 in I]; lia.
Qed.
(** a successful check: the value read as a tree, what is stored reads as its conversion, and is made of new lists, none twice *)
Definition stored (lists : bool) (leaf : L -> res L) (h h' : lheap L) (v v' : lval L) : Prop :=
  exists t rs0 t' rs, spells h v t rs0 /\ conv lists leaf t = Ok t' /\ spells h' v' t' rs /\ between (List.length h) (List.length h') rs /\ exists_in h' v'.
Lemma eval_ok lists leaf limit : forall h v h' out, wf h -> exists_in h v -> eval limit lists leaf h v = (h', out) ->
  (exists e, h' = h ++ e) /\ wf h' /\ match out with Some (Ok v') => stored lists leaf h h' v v' | _ => True end.
Proof.
  induction limit as [|limit IH]; intros h v h' out W X E; cbn in E; [injection E as <- <-; split; [exists []; now rewrite app_nil_r|auto]|].
  destruct v as [l|r].
  - injection E as <- <-. split; [exists []; now rewrite app_nil_r|]. split; [exact W|]. destruct (leaf l) as [l'|e] eqn:F; [|exact I].
    exists (TLeaf l), [], (TLeaf l'), []. split; [constructor|]. split; [cbn; now rewrite F|]. split; [constructor|]. split; [split; constructor|exact I].
  - destruct lists; [|injection E as <- <-; split; [exists []; now rewrite app_nil_r|auto]].
    assert (Go : forall vs h h' out, wf h -> Forall (exists_in h) vs -> eval_list (eval limit true leaf) h vs = (h', out) ->
      (exists e, h' = h ++ e) /\ wf h' /\ match out with Some (Ok ws) => exists ts rs0 ts' rs, spells_all h vs ts rs0 /\ conv_list (conv true leaf) ts = Ok ts' /\ spells_all h' ws ts' rs /\ between (List.length h) (List.length h') rs /\ Forall (exists_in h') ws | _ => True end).
    { clear - IH. induction vs as [|v vs IHv]; intros h h' out W F E; cbn in E.
      - injection E as <- <-. split; [exists []; now rewrite app_nil_r|]. split; [exact W|]. exists [], [], [], []. split; [constructor|]. split; [reflexivity|]. split; [constructor|]. split; [split; constructor|constructor].
      - inversion F; subst. destruct (eval limit true leaf h v) as [h1 o1] eqn:E1. destruct (IH h v h1 o1 W ltac:(assumption) E1) as ((e1 & ->) & W1 & S1).
        destruct o1 as [[v1|er]|]; [|injection E as <- <-; split; [now exists e1|auto]|injection E as <- <-; split; [now exists e1|auto]].
        destruct (eval_list (eval limit true leaf) (h ++ e1) vs) as [h2 o2] eqn:E2.
        assert (F2 : Forall (exists_in (h ++ e1)) vs) by (eapply Forall_impl; [intros a; apply exists_app|assumption]).
        destruct (IHv (h ++ e1) h2 o2 W1 F2 E2) as ((e2 & ->) & W2 & S2). assert (Ext : exists e, (h ++ e1) ++ e2 = h ++ e) by (exists (e1 ++ e2); now rewrite app_assoc).
        destruct o2 as [[ws|er]|]; [|injection E as <- <-; auto|injection E as <- <-; auto]. injection E as <- <-. split; [exact Ext|]. split; [exact W2|].
        destruct S1 as (t & q0 & t' & q & A1 & A2 & A3 & A4 & A5). destruct S2 as (ts & p0 & ts' & p & B1 & B2 & B3 & B4 & B5).
        exists (t :: ts), (q0 ++ p0), (t' :: ts'), (q ++ p). split; [constructor; [exact A1|]; apply (proj2 (spells_less e1 W)); assumption|].
        split; [cbn; now rewrite A2, B2|]. split; [constructor; [apply spells_more; exact A3|exact B3]|]. split; [eapply between_app; [exact A4|exact B4| |]; rewrite !app_length; lia|].
        constructor; [now apply exists_app|exact B5]. }
    destruct (nth_error h r) as [vs|] eqn:N; [|exfalso; apply nth_error_None in N; cbn in X; lia].
    destruct (eval_list (eval limit true leaf) h vs) as [h1 o1] eqn:E1. destruct (Go vs h h1 o1 W (W r vs N) E1) as ((e1 & ->) & W1 & S1).
    destruct o1 as [[ws|er]|]; [|injection E as <- <-; split; [now exists e1|auto]|injection E as <- <-; split; [now exists e1|auto]].
    injection E as <- <-. destruct S1 as (ts & p0 & ts' & p & B1 & B2 & B3 & B4 & B5).
    split; [exists (e1 ++ [ws]); now rewrite app_assoc|]. split; [now apply wf_snoc|].
    exists (TList ts), (r :: p0), (TList ts'), (List.length (h ++ e1) :: p). split; [now apply sp_list with vs|]. split; [cbn; now rewrite B2|].
    split; [apply sp_list with ws; [rewrite nth_error_app2 by lia; now rewrite Nat.sub_diag|now apply spells_all_more]|]. split; [|cbn; rewrite (app_length (h ++ e1)); cbn; lia].
    destruct B4 as [N4 F4]. rewrite Forall_forall in F4. rewrite !app_length in *. cbn [List.length]. split.
    + constructor; [|exact N4]. intro I. apply F4 in I. lia.
    + constructor; [lia|]. apply Forall_forall. intros x I. apply F4 in I. lia.
Qed.

Lemma spells_exists h v t rs : spells h v t rs -> exists_in h v.
Proof. intros [l|r vs ts rs' N _]; cbn; [exact I|]. apply nth_error_Some. congruence. Qed.
(** within the recursion limit the outcome is that of the conversion *)
Lemma eval_complete lists leaf limit : forall h v t rs, wf h -> spells h v t rs -> depth t <= limit ->
  match conv lists leaf t with Ok _ => exists h' v', eval limit lists leaf h v = (h', Some (Ok v')) | Err e => exists h', eval limit lists leaf h v = (h', Some (Err e)) end.
Proof.
  induction limit as [|limit IH]; intros h v t rs W S D; [destruct t; cbn in D; lia|].
  destruct S as [l|r vs ts rs N S]; cbn [eval conv].
  - destruct (leaf l); eauto.
  - destruct lists; [|eauto]. cbn [depth] in D. rewrite N.
    assert (Go : forall vs h ts rs, wf h -> spells_all h vs ts rs -> list_max (map depth ts) <= limit ->
      match conv_list (conv true leaf) ts with Ok _ => exists h' ws, eval_list (eval limit true leaf) h vs = (h', Some (Ok ws)) | Err e => exists h', eval_list (eval limit true leaf) h vs = (h', Some (Err e)) end).
    { clear - IH. induction vs as [|v vs IHv]; intros h ts rs W S D; inversion S; subst; cbn [conv_list eval_list]; [eauto|].
      cbn [map list_max fold_right] in D. change (fold_right Nat.max 0 (map depth ts0)) with (list_max (map depth ts0)) in D. assert (Y : exists_in h v) by (eapply spells_exists; eassumption).
      specialize (IH h v t r1 W ltac:(assumption) ltac:(lia)). destruct (conv true leaf t) as [t1|e].
      - destruct IH as (h1 & v1 & E1). rewrite E1. destruct (@eval_ok true leaf limit h v _ _ W Y E1) as ((e1 & ->) & W1 & _). specialize (IHv (h ++ e1) ts0 r2 W1 (spells_all_more e1 ltac:(eassumption)) ltac:(lia)).
        destruct (conv_list (conv true leaf) ts0); [destruct IHv as (h2 & ws & E2)|destruct IHv as (h2 & E2)]; rewrite E2; eauto.
      - destruct IH as (h1 & E1). rewrite E1. eauto. }
    specialize (Go vs h ts rs W S ltac:(lia)). destruct (conv_list (conv true leaf) ts); [destruct Go as (h1 & ws & E1)|destruct Go as (h1 & E1)]; rewrite E1; eauto.
Qed.

(** ** Histories *)
Variable limit : nat.
Variable kinds : nat -> kind L.
Variable none : L.
Notation run := (l_run limit kinds none).
Notation step := (l_step limit kinds).
Definition checked (p : nat) : Prop := kinds p <> Raw.
(** a guarded property holds, somewhere inside its value, the list [r] *)
Definition holds_list (st : lstate L) (r : nat) : Prop := exists p t rs, checked p /\ spells (l_heap st) (l_slot st p) t rs /\ In r rs.
(** the guarded properties read as [T] and hold the lists [R]; the lists [own] are the callers' *)
Record inv (st : lstate L) (own : list nat) (T : nat -> tree) (R : nat -> list nat) : Prop := mkInv {
  i_wf : wf (l_heap st);
  i_slots : forall p, exists_in (l_heap st) (l_slot st p);
  i_own : Forall (fun r => r < List.length (l_heap st)) own;
  i_reads : forall p, checked p -> spells (l_heap st) (l_slot st p) (T p) (R p);
  i_nodup : forall p, checked p -> NoDup (R p);
  i_apart : forall p q r, checked p -> checked q -> p <> q -> In r (R p) -> ~ In r (R q);
  i_theirs : forall p r, checked p -> In r (R p) -> ~ In r own }.
Definition own_of (o : lop L) (y : lout L) : list nat := match o, y with OMake _, RVal (Ref r) => [r] | _, _ => [] end.
(** the properties are unchanged, or the one assigned reads as the conversion of what the value read as *)
Definition becomes (st : lstate L) (o : lop L) (y : lout L) (T T' : nat -> tree) : Prop :=
  forall p, match o, y with
            | OSet q v, RDone => if Nat.eqb p q then forall lists leaf, kinds p = Checked lists leaf -> exists t rs, spells (l_heap st) v t rs /\ conv lists leaf t = Ok (T' p) else T' p = T p
            | _, _ => T' p = T p
            end.
Lemma replace_len r vs (h : lheap L) : List.length (replace r vs h) = List.length h.
Proof. revert r. induction h as [|x h IH]; intros [|r]; cbn; auto. Qed.
Lemma replace_nth r vs (h : lheap L) k : nth_error (replace r vs h) k = match nth_error h k with Some x => Some (if Nat.eqb k r then vs else x) | None => None end.
Proof. revert r k. induction h as [|x h IH]; intros [|r] [|k]; cbn; auto. destruct (nth_error h k); reflexivity. Qed.
Lemma refs_exist (h : lheap L) v : forallb (fun r => Nat.ltb r (List.length h)) (refs v) = true -> exists_in h v.
Proof. destruct v as [l|r]; cbn; [auto|]. rewrite andb_true_r. apply Nat.ltb_lt. Qed.
Lemma refs_all_exist (h : lheap L) vs : forallb (fun r => Nat.ltb r (List.length h)) (flat_map (@refs L) vs) = true -> Forall (exists_in h) vs.
Proof. induction vs as [|v vs IH]; cbn; [constructor|]. rewrite forallb_app, andb_true_iff. intros [A B]. constructor; [now apply refs_exist|auto]. Qed.
Lemma inv_grow st own T R e : inv st own T R -> wf (l_heap st ++ e) -> inv (mkL (l_heap st ++ e) (l_slot st)) own T R.
Proof.
  intros [A B C D E F G] W. constructor; cbn [l_heap l_slot]; auto; [intro p; now apply exists_app| |intros p K; now apply spells_more, D].
  eapply Forall_impl; [|exact C]. intro r. cbn. rewrite app_length. lia.
Qed.
Lemma inv_step st own T R o : inv st own T R -> (forall r vs, o = OChange r vs -> forall p, checked p -> ~ In r (R p)) ->
  let (st', y) := step st o in exists T' R', inv st' (own_of o y ++ own) T' R' /\ becomes st o y T T'.
Proof.
  intros V Hc. unfold l_step. destruct (forallb (fun r => Nat.ltb r (List.length (l_heap st))) (op_refs o)) eqn:Ex.
  2:{ exists T, R. split; [destruct o; exact V|]. intro p. destruct o; reflexivity. }
  destruct o as [vs|r vs|r|p v|p]; cbn [l_do op_refs] in *.
  - exists T, R. split; [|intro p; reflexivity]. apply refs_all_exist in Ex. cbn [own_of app]. assert (V' := inv_grow [vs] V (wf_snoc (i_wf V) Ex)). destruct V' as [A B C D E F G]. constructor; auto.
    + constructor; [cbn; rewrite app_length; cbn; lia|exact C].
    + intros q r K I [<-|I']; [|now apply (G q r K I)]. assert (X := proj1 (spells_bound (l_heap st)) _ _ _ (i_reads V K)). rewrite Forall_forall in X. apply X in I. lia.
  - exists T, R. split; [|intro p; reflexivity]. apply andb_true_iff in Ex as [Er Ex]. apply refs_all_exist in Ex. specialize (Hc r vs eq_refl). destruct V as [A B C D E F G]. cbn [own_of app].
    assert (Xi : forall v, exists_in (l_heap st) v -> exists_in (replace r vs (l_heap st)) v) by (intros [l|k]; cbn; [auto|now rewrite replace_len]).
    constructor; cbn [l_heap l_slot]; auto.
    + intros k ws N. rewrite replace_nth in N. destruct (nth_error (l_heap st) k) as [x|] eqn:Nk; [|discriminate]. injection N as <-. destruct (Nat.eqb k r); [eapply Forall_impl; [exact Xi|exact Ex]|eapply Forall_impl; [exact Xi|exact (A k x Nk)]].
    + now rewrite replace_len.
    + intros p K. apply (proj1 (spells_frame (l_heap st) (replace r vs (l_heap st))) _ _ _ (D p K)). intros k I. rewrite replace_nth. destruct (nth_error (l_heap st) k); [|reflexivity].
      destruct (Nat.eqb_spec k r) as [->|]; [exfalso; exact (Hc p K I)|reflexivity].
  - exists T, R. split; [exact V|intro p; reflexivity].
  - apply refs_exist in Ex. destruct (kinds p) as [lists leaf|] eqn:Kp.
    + destruct (eval limit lists leaf (l_heap st) v) as [h' out] eqn:Ev. destruct (@eval_ok lists leaf limit (l_heap st) v _ _ (i_wf V) Ex Ev) as ((e & ->) & W & S).
      destruct out as [[v'|er]|]; [|exists T, R; split; [now apply inv_grow|intro q; reflexivity]|exists T, R; split; [now apply inv_grow|intro q; reflexivity]].
      destruct S as (t & rs0 & t' & rs & S1 & S2 & S3 & [S4 S5] & S6). exists (fun q => if Nat.eqb q p then t' else T q), (fun q => if Nat.eqb q p then rs else R q). cbn [own_of app].
      rewrite Forall_forall in S5. destruct V as [A B C D E F G].
      assert (Bd : forall q r, checked q -> In r (R q) -> r < List.length (l_heap st)) by (intros q r K I; assert (X := proj1 (spells_bound (l_heap st)) _ _ _ (D q K)); rewrite Forall_forall in X; now apply X).
      split.
      * constructor; cbn [l_heap l_slot store].
        -- exact W.
        -- intro q. destruct (Nat.eqb q p); [exact S6|now apply exists_app].
        -- eapply Forall_impl; [|exact C]. intro r. cbn. rewrite app_length. lia.
        -- intros q K. destruct (Nat.eqb q p); [exact S3|now apply spells_more, D].
        -- intros q K. destruct (Nat.eqb q p); [exact S4|now apply E].
        -- intros q q' r K K' Ne I I'. destruct (Nat.eqb_spec q p) as [->|N1], (Nat.eqb_spec q' p) as [->|N2]; [congruence| | |now apply (F q q' r)].
           ++ apply Bd in I'; [|exact K']. apply S5 in I. lia.
           ++ apply Bd in I; [|exact K]. apply S5 in I'. lia.
        -- intros q r K I Io. destruct (Nat.eqb q p); [|now apply (G q r)]. rewrite Forall_forall in C. apply C in Io. apply S5 in I. lia.
      * intro q. cbn. destruct (Nat.eqb_spec q p) as [->|]; [|reflexivity]. intros lists' leaf' Kp'. rewrite Kp in Kp'. injection Kp' as <- <-. exists t, rs0. auto.
    + exists T, R. cbn [own_of app]. split.
      * destruct V as [A B C D E F G]. constructor; auto; cbn [l_heap l_slot store]; intros q; [destruct (Nat.eqb q p); auto|]. intro K. destruct (Nat.eqb_spec q p) as [->|]; [contradiction|now apply D].
      * intro q. cbn. destruct (Nat.eqb_spec q p) as [->|]; [|reflexivity]. intros lists' leaf' Kp'. congruence.
  - exists T, R. split; [exact V|intro q; reflexivity].
Qed.
Lemma run_snoc ops o : run (ops ++ [o]) = let (st, y) := step (fst (run ops)) o in (st, snd (run ops) ++ [y]).
Proof. unfold l_run. now rewrite fold_left_app. Qed.
Lemma run_len ops : List.length (snd (run ops)) = List.length ops.
Proof. induction ops as [|o ops IH] using rev_ind; [reflexivity|]. rewrite run_snoc. destruct (step (fst (run ops)) o) as [st y]. cbn. rewrite !app_length, IH. reflexivity. Qed.
(** callers change in place only lists that no guarded property holds at that time *)
Definition respectful (ops : list (lop L)) : Prop := forall pre r vs post, ops = pre ++ OChange r vs :: post -> ~ holds_list (fst (run pre)) r.
Lemma respectful_pre a b : respectful (a ++ b) -> respectful a.
Proof. intros H pre r vs post ->. apply (H pre r vs (post ++ b)). now rewrite <- app_assoc. Qed.
(** the lists callers have made *)
Definition made_by_caller (ops : list (lop L)) (r : nat) : Prop := exists i vs, nth_error ops i = Some (OMake vs) /\ nth_error (snd (run ops)) i = Some (RVal (Ref r)).
Lemma nth_old {A} (l : list A) x j y : nth_error l j = Some y -> nth_error (l ++ [x]) j = Some y.
Proof. intro E. rewrite nth_error_app1; [exact E|]. apply nth_error_Some. congruence. Qed.
Lemma nth_snoc {A} (l : list A) x j y : nth_error (l ++ [x]) j = Some y -> (j < List.length l /\ nth_error l j = Some y) \/ (j = List.length l /\ x = y).
Proof.
  intro E. destruct (Nat.lt_ge_cases j (List.length l)) as [B|B]; [left; split; [exact B|]; now rewrite nth_error_app1 in E|].
  right. rewrite nth_error_app2 in E by exact B. destruct (j - List.length l) as [|k] eqn:K; cbn in E; [injection E as <-; split; [lia|reflexivity]|destruct k; discriminate].
Qed.
(** the last assignment to [p] that returned normally: what its value read as *)
Inductive assigned (p : nat) (lists : bool) (leaf : L -> res L) : list (lop L) -> tree -> Prop :=
  | as_none ops : (forall i v, nth_error ops i = Some (OSet p v) -> nth_error (snd (run ops)) i <> Some (RDone)) -> assigned p lists leaf ops (TLeaf none)
  | as_last pre v post t rs t' : nth_error (snd (run (pre ++ OSet p v :: post))) (List.length pre) = Some (RDone) ->
      (forall i w, List.length pre < i -> nth_error (pre ++ OSet p v :: post) i = Some (OSet p w) -> nth_error (snd (run (pre ++ OSet p v :: post))) i <> Some (RDone)) ->
      spells (l_heap (fst (run pre))) v t rs -> conv lists leaf t = Ok t' -> assigned p lists leaf (pre ++ OSet p v :: post) t'.
Lemma inv_run ops : respectful ops -> exists own T R, inv (fst (run ops)) own T R /\ (forall r, made_by_caller ops r -> In r own) /\ (forall p lists leaf, kinds p = Checked lists leaf -> assigned p lists leaf ops (T p)).
Proof.
  induction ops as [|o ops IH] using rev_ind; intro H.
  - exists [], (fun _ => TLeaf none), (fun _ => []). split; [|split].
    + constructor; cbn; auto; [intros [|r]; discriminate|intros; constructor|intros; constructor].
    + intros r (i & vs & E & _). destruct i; discriminate.
    + intros p lists leaf K. constructor. intros [|i]; discriminate.
  - destruct (IH (@respectful_pre _ _ H)) as (own & T & R & V & O & A). assert (Hc : forall r vs, o = OChange r vs -> forall p, checked p -> ~ In r (R p)).
    { intros r vs -> p K I. apply (H ops r vs [] eq_refl). exists p, (T p), (R p). split; [exact K|]. split; [exact (i_reads V K)|exact I]. }
    assert (St := @inv_step (fst (run ops)) own T R o V Hc). assert (Rl := run_len ops). assert (Rs := run_snoc ops o). destruct (step (fst (run ops)) o) as [st' y] eqn:Es. destruct St as (T' & R' & V' & Bc). rewrite Rs. cbn [fst].
    exists (own_of o y ++ own), T', R'. split; [exact V'|]. split.
    + intros r (i & vs & E1 & E2). rewrite Rs in E2. cbn [snd] in E2. apply in_or_app. apply nth_snoc in E2 as [[B E2]|[-> ->]]; [right|left].
      * rewrite Rl in B. rewrite nth_error_app1 in E1 by exact B. apply O. exists i, vs. auto.
      * rewrite Rl in E1. apply nth_snoc in E1 as [[B _]|[_ ->]]; [lia|]. cbn. auto.
    + intros p lists leaf K. specialize (Bc p). assert (Keep : T' p = T p -> (forall v, o = OSet p v -> y <> RDone) -> assigned p lists leaf (ops ++ [o]) (T' p)).
      { intros -> Ny. clear - A K Ny Rs Rl. revert Rs Rl. destruct (A p lists leaf K) as [ops0 Nn|pre v post t rs t' E1 E2 E3 E4]; intros Rs Rl.
        - constructor. intros i v E. rewrite Rs. cbn [snd]. intro E'. apply nth_snoc in E as [[B E]|[-> ->]].
          + apply (Nn i v E). apply nth_snoc in E' as [[_ E']|[X _]]; [exact E'|]. rewrite Rl in X. lia.
          + apply nth_snoc in E' as [[B _]|[_ E']]; [rewrite Rl in B; lia|]. exact (Ny v eq_refl E').
        - rewrite <- app_assoc. cbn [app]. apply as_last with t rs; auto.
          + replace (pre ++ OSet p v :: post ++ [o]) with ((pre ++ OSet p v :: post) ++ [o]) by now rewrite <- app_assoc. rewrite Rs. cbn [snd]. now apply nth_old.
          + intros i w B. replace (pre ++ OSet p v :: post ++ [o]) with ((pre ++ OSet p v :: post) ++ [o]) by now rewrite <- app_assoc. intro E. rewrite Rs. cbn [snd]. intro E'. apply nth_snoc in E as [[B' E]|[-> ->]].
            * apply (E2 i w B E). apply nth_snoc in E' as [[_ E']|[X _]]; [exact E'|]. rewrite Rl in X. lia.
            * apply nth_snoc in E' as [[B' _]|[_ E']]; [rewrite Rl in B'; lia|]. exact (Ny w eq_refl E'). }
      destruct o as [vs|r vs|r|q v|q]; try (apply Keep; [exact Bc|intros; discriminate]).
      destruct y as [v1|v1| |e|]; try (apply Keep; [exact Bc|intros; discriminate]). destruct (Nat.eqb_spec p q) as [Epq|N]; [subst q|apply Keep; [exact Bc|congruence]].
      destruct (Bc lists leaf K) as (t & rs & S & C). apply as_last with t rs; auto.
      * rewrite Rs. cbn [snd]. rewrite <- Rl. rewrite nth_error_app2 by lia. now rewrite Nat.sub_diag.
      * intros i w B E. apply nth_snoc in E as [[B' _]|[-> _]]; lia.
Qed.

(** ** The theorems *)
Lemma C123_reads_lemma ops p lists leaf : respectful ops -> kinds p = Checked lists leaf ->
  exists t rs, assigned p lists leaf ops t /\ spells (l_heap (fst (run ops))) (l_slot (fst (run ops)) p) t rs.
Proof.
  intros H K. destruct (inv_run H) as (own & T & R & V & _ & A). exists (T p), (R p). split; [exact (A p lists leaf K)|]. apply (i_reads V). unfold checked. congruence.
Qed.
Lemma C123_apart_lemma ops p t rs : respectful ops -> checked p -> spells (l_heap (fst (run ops))) (l_slot (fst (run ops)) p) t rs ->
  NoDup rs /\ forall r, In r rs -> ~ made_by_caller ops r /\ forall q t' rs', q <> p -> checked q -> spells (l_heap (fst (run ops))) (l_slot (fst (run ops)) q) t' rs' -> ~ In r rs'.
Proof.
  intros H K S. destruct (inv_run H) as (own & T & R & V & O & _). assert (E : forall q t' rs', checked q -> spells (l_heap (fst (run ops))) (l_slot (fst (run ops)) q) t' rs' -> rs' = R q).
  { intros q t' rs' Kq Sq. exact (proj2 (proj1 (spells_fun (l_heap (fst (run ops)))) _ _ _ (i_reads V Kq) _ _ Sq)). }
  rewrite (E p t rs K S). split; [exact (i_nodup V K)|]. intros r I. split; [intro M; exact (@i_theirs _ _ _ _ V p r K I (O r M))|].
  intros q t' rs' N Kq Sq. rewrite (E q t' rs' Kq Sq). apply (@i_apart _ _ _ _ V p q r K Kq); [congruence|exact I].
Qed.
Lemma wf_step st o : wf (l_heap st) -> (forall p, exists_in (l_heap st) (l_slot st p)) -> wf (l_heap (fst (step st o))) /\ (forall p, exists_in (l_heap (fst (step st o))) (l_slot (fst (step st o)) p)).
Proof.
  intros W X. unfold l_step. destruct (forallb (fun r => Nat.ltb r (List.length (l_heap st))) (op_refs o)) eqn:Ex; [|auto].
  destruct o as [vs|r vs|r|p v|p]; cbn [l_do op_refs] in *; [| |auto| |auto].
  - apply refs_all_exist in Ex. cbn. split; [now apply wf_snoc|]. intro p. now apply exists_app.
  - apply andb_true_iff in Ex as [Er Ex]. apply refs_all_exist in Ex. cbn. assert (Xi : forall v, exists_in (l_heap st) v -> exists_in (replace r vs (l_heap st)) v) by (intros [l|k]; cbn; [auto|now rewrite replace_len]).
    split; [|auto]. intros k ws N. rewrite replace_nth in N. destruct (nth_error (l_heap st) k) as [x|] eqn:Nk; [|discriminate]. injection N as <-. destruct (Nat.eqb k r); [eapply Forall_impl; [exact Xi|exact Ex]|eapply Forall_impl; [exact Xi|exact (W k x Nk)]].
  - apply refs_exist in Ex. destruct (kinds p) as [lists leaf|] eqn:Kp; [|cbn; split; [exact W|]; intro q; destruct (Nat.eqb q p); auto].
    destruct (eval limit lists leaf (l_heap st) v) as [h' out] eqn:Ev. destruct (@eval_ok lists leaf limit (l_heap st) v _ _ W Ex Ev) as ((e & ->) & W' & S).
    destruct out as [[v'|er]|]; cbn; (split; [exact W'|]); intro q; [|now apply exists_app|now apply exists_app]. destruct S as (t & rs0 & t' & rs & _ & _ & _ & _ & S6). destruct (Nat.eqb q p); [exact S6|now apply exists_app].
Qed.
Lemma wf_run ops : wf (l_heap (fst (run ops))) /\ forall p, exists_in (l_heap (fst (run ops))) (l_slot (fst (run ops)) p).
Proof.
  induction ops as [|o ops [W X]] using rev_ind; [split; [intros [|r]; discriminate|cbn; auto]|]. rewrite run_snoc. assert (Y := wf_step (fst (run ops)) o W X). destruct (step (fst (run ops)) o). exact Y.
Qed.
Lemma refs_ok (h : lheap L) v : exists_in h v -> forallb (fun r => Nat.ltb r (List.length h)) (refs v) = true.
Proof. destruct v as [l|r]; cbn; [auto|]. rewrite andb_true_r. apply Nat.ltb_lt. Qed.
Lemma C123_outcome_lemma ops p lists leaf v t rs : kinds p = Checked lists leaf -> spells (l_heap (fst (run ops))) v t rs -> depth t <= limit ->
  snd (run (ops ++ [OSet p v])) = snd (run ops) ++ [match conv lists leaf t with Ok _ => RDone | Err e => RErr e end].
Proof.
  intros K S D. rewrite run_snoc. destruct (wf_run ops) as [W _]. unfold l_step. cbn [op_refs l_do]. rewrite (refs_ok _ _ (spells_exists S)), K.
  assert (C := eval_complete lists leaf W S D). destruct (conv lists leaf t); [destruct C as (h' & v' & ->)|destruct C as (h' & ->)]; reflexivity.
Qed.
Lemma C123_refused_lemma ops p v : snd (run (ops ++ [OSet p v])) <> snd (run ops) ++ [RDone] ->
  (forall q, l_slot (fst (run (ops ++ [OSet p v]))) q = l_slot (fst (run ops)) q) /\
  (forall w t rs, spells (l_heap (fst (run ops))) w t rs -> spells (l_heap (fst (run (ops ++ [OSet p v])))) w t rs).
Proof.
  rewrite run_snoc. destruct (wf_run ops) as [W _]. unfold l_step. cbn [op_refs l_do]. destruct (forallb (fun r => Nat.ltb r (List.length (l_heap (fst (run ops))))) (refs v)) eqn:Ex; [|auto].
  apply refs_exist in Ex. destruct (kinds p) as [lists leaf|]; [|cbn; congruence]. destruct (eval limit lists leaf (l_heap (fst (run ops))) v) as [h' out] eqn:Ev.
  destruct (@eval_ok lists leaf limit _ v _ _ W Ex Ev) as ((e & ->) & _ & _). destruct out as [[v'|er]|]; cbn; [congruence| |]; intros _; (split; [reflexivity|]); intros w t rs; apply spells_more.
Qed.
Lemma C123_endless_lemma ops p lists leaf v : kinds p = Checked lists leaf -> (forall t rs, ~ spells (l_heap (fst (run ops))) v t rs) -> snd (run (ops ++ [OSet p v])) <> snd (run ops) ++ [RDone].
Proof.
  intros K H. rewrite run_snoc. destruct (wf_run ops) as [W _]. unfold l_step. cbn [op_refs l_do]. destruct (forallb (fun r => Nat.ltb r (List.length (l_heap (fst (run ops))))) (refs v)) eqn:Ex.
  2:{ cbn. intro E. apply app_inj_tail in E as [_ E]. discriminate. }
  apply refs_exist in Ex. rewrite K. destruct (eval limit lists leaf (l_heap (fst (run ops))) v) as [h' out] eqn:Ev.
  destruct (@eval_ok lists leaf limit _ v _ _ W Ex Ev) as (_ & _ & S). destruct out as [[v'|er]|]; cbn; intro E; [|apply app_inj_tail in E as [_ E]; discriminate|apply app_inj_tail in E as [_ E]; discriminate].
  destruct S as (t & rs0 & _ & _ & S & _). exact (H t rs0 S).
Qed.
Lemma C123_shares_lemma ops p r vs : l_slot (fst (run ops)) p = Ref r -> Forall (exists_in (l_heap (fst (run ops)))) vs ->
  snd (run (ops ++ [OGet p; OChange r vs; OGet p; OItems r])) = snd (run ops) ++ [RVal (Ref r); RDone; RVal (Ref r); RItems vs].
Proof.
  intros E F. destruct (wf_run ops) as [_ X]. specialize (X p). rewrite E in X. cbn in X.
  replace (ops ++ [OGet p; OChange r vs; OGet p; OItems r]) with ((((ops ++ [OGet p]) ++ [OChange r vs]) ++ [OGet p]) ++ [OItems r]) by now rewrite <- !app_assoc.
  rewrite !run_snoc. destruct (run ops) as [st rs]. cbn [fst snd] in *.
  assert (G : forallb (fun k => Nat.ltb k (List.length (l_heap st))) (op_refs (OChange r vs)) = true).
  { cbn [op_refs forallb]. apply andb_true_iff. split; [now apply Nat.ltb_lt|]. clear - F. induction F as [|v vs Hv _ IH]; cbn [flat_map]; [reflexivity|]. rewrite forallb_app, IH, (refs_ok _ _ Hv). reflexivity. }
  set (st1 := mkL (replace r vs (l_heap st)) (l_slot st)). assert (S1 : forall s, step s (OGet p) = (s, RVal (l_slot s p))) by reflexivity.
  assert (S2 : step st (OChange r vs) = (st1, RDone)) by (unfold l_step; now rewrite G).
  assert (S3 : step st1 (OItems r) = (st1, RItems vs)).
  { unfold l_step. cbn [op_refs forallb st1 l_heap]. rewrite replace_len. assert (X' := X). apply Nat.ltb_lt in X'. rewrite X'. cbn [andb l_do]. unfold st1. cbn [l_heap]. rewrite replace_nth.
    destruct (nth_error (l_heap st) r) eqn:N; [|apply nth_error_None in N; lia]. now rewrite Nat.eqb_refl. }
  rewrite (S1 st). cbn [fst snd]. rewrite S2. cbn [fst snd]. rewrite (S1 st1). cbn [fst snd]. rewrite S3. cbn [fst snd]. unfold st1. cbn [l_slot]. rewrite E, <- !app_assoc. reflexivity.
Qed.
Lemma C123_raw_lemma ops p v : kinds p = Raw -> exists_in (l_heap (fst (run ops))) v -> snd (run (ops ++ [OSet p v; OGet p])) = snd (run ops) ++ [RDone; RVal v].
Proof.
  intros K X. replace (ops ++ [OSet p v; OGet p]) with ((ops ++ [OSet p v]) ++ [OGet p]) by now rewrite <- app_assoc. rewrite !run_snoc. destruct (run ops) as [st rs]. cbn [fst snd] in *.
  set (st1 := store st (l_heap st) p v). assert (S2 : step st (OSet p v) = (st1, RDone)) by (unfold l_step; cbn [op_refs l_do]; now rewrite (refs_ok _ _ X), K).
  assert (S3 : step st1 (OGet p) = (st1, RVal v)) by (unfold l_step, st1; cbn; now rewrite Nat.eqb_refl). rewrite S2. cbn [fst snd]. rewrite S3. cbn [fst snd]. now rewrite <- app_assoc.
Qed.
(** what was converted passes again, if that is so of the leaves *)
Fixpoint conv_again lists leaf (Id : forall l l', leaf l = Ok l' -> leaf l' = Ok l') (t : tree) {struct t} : forall t', conv lists leaf t = Ok t' -> conv lists leaf t' = Ok t'.
Proof.
  destruct t as [l|ts]; cbn [conv].
  - destruct (leaf l) as [l'|e] eqn:E; intros t' [= <-]. cbn. now rewrite (Id l l' E).
  - destruct lists; [|discriminate]. intro t'. destruct (conv_list (conv true leaf) ts) as [ts'|e] eqn:E; intros [= <-]. cbn.
    assert (G : conv_list (conv true leaf) ts' = Ok ts'); [|now rewrite G]. revert ts' E. induction ts as [|t ts IH]; intros ts' E; cbn in E; [injection E as <-; reflexivity|].
    destruct (conv true leaf t) as [t1|e] eqn:E1; [|discriminate]. destruct (conv_list (conv true leaf) ts) as [l|e]; [|discriminate]. injection E as <-. cbn.
    rewrite (conv_again true leaf Id t t1 E1), (IH l eq_refl). reflexivity.
Qed.
Lemma C123_valid_lemma ops p lists leaf : respectful ops -> kinds p = Checked lists leaf -> (forall l l', leaf l = Ok l' -> leaf l' = Ok l') -> leaf none = Ok none ->
  exists t rs, spells (l_heap (fst (run ops))) (l_slot (fst (run ops)) p) t rs /\ conv lists leaf t = Ok t.
Proof.
  intros H K Id Nn. destruct (@C123_reads_lemma ops p lists leaf H K) as (t & rs & A & S). exists t, rs. split; [exact S|]. destruct A as [ops0 _|pre v post t0 rs0 t' _ _ _ C]; [cbn; now rewrite Nn|exact (@conv_again lists leaf Id t0 _ C)].
Qed.
End Facts.
