(** Facts about the vocabulary model. *)
From Coq Require Import String.
From Verif Require Import Base BaseFacts Dict DictFacts Duration DateTime Url JsonData VocabTables Vocab.
Open Scope list_scope.

(** ** induction on values *)
Section ValueInd.
Variable Q : value -> Prop.
Hypothesis H1 : Q VNone.
Hypothesis H2 : forall b, Q (VBool b).
Hypothesis H3 : forall z, Q (VInt z).
Hypothesis H4 : forall n r, Q (VFloat n r).
Hypothesis H5 : forall s, Q (VStr s).
Hypothesis H6 : forall d, Q (VDatetime d).
Hypothesis H7 : forall d, Q (VTimedelta d).
Hypothesis H8 : forall l, Forall Q l -> Q (VList l).
Hypothesis H9 : forall l, Forall Q l -> Q (VTuple l).
Hypothesis H10 : forall l, Forall Q l -> Q (VSet l).
Hypothesis H11 : forall d, Forall (fun p => Q (snd p)) d -> Q (VDict d).
Hypothesis H12 : forall l c a, Forall (fun p => Q (snd p)) a -> Q (VObj l c a).
Hypothesis H13 : Q VPropObject.
Hypothesis H14 : forall n z, Q (VOther n z).
Fixpoint value_tree_ind (v : value) : Q v :=
  let list_ind := fix go (l : list value) : Forall Q l := match l with [] => Forall_nil _ | x :: l' => Forall_cons x (value_tree_ind x) (go l') end in
  let dict_ind := fix go (d : list (pystr * value)) : Forall (fun p => Q (snd p)) d := match d with [] => Forall_nil _ | p :: d' => Forall_cons p (value_tree_ind (snd p)) (go d') end in
  match v with
  | VNone => H1 | VBool b => H2 b | VInt z => H3 z | VFloat n r => H4 n r | VStr s => H5 s | VDatetime d => H6 d | VTimedelta d => H7 d
  | VList l => H8 l (list_ind l) | VTuple l => H9 l (list_ind l) | VSet l => H10 l (list_ind l)
  | VDict d => H11 d (dict_ind d) | VObj l c a => H12 l c a (dict_ind a)
  | VPropObject => H13 | VOther n z => H14 n z
  end.
End ValueInd.

(** ** tables *)
Lemma class_no_inj c k : class_no c = class_no k -> c = k.
Proof. intros H. assert (E : forall x, nth (N.to_nat (class_no x)) all_classes Object = x) by (intros []; reflexivity). rewrite <- (E c), <- (E k), H. reflexivity. Qed.
Lemma class_eqb_eq c k : class_eqb c k = true <-> c = k.
Proof. unfold class_eqb. rewrite N.eqb_eq. split; [apply class_no_inj|congruence]. Qed.
Lemma all_classes_all c : In c all_classes.
Proof. destruct c; cbn; tauto. Qed.
(** what must hold of every class, checked class by class *)
Lemma by_class (Q : cname -> bool) : forallb Q all_classes = true -> forall c, Q c = true.
Proof. intros H c. rewrite forallb_forall in H. apply H, all_classes_all. Qed.
Lemma find_pdef_name n p : find_pdef n = Some p -> pd_name p = n /\ In p properties_py.
Proof. unfold find_pdef. intros H. apply find_some in H as [H1 H2]. apply str_eqb_eq in H2. auto. Qed.
Lemma prop_of_name l c n p : prop_of l c n = Some p -> pd_name p = n.
Proof.
  unfold prop_of. destruct (str_eqb n (py "acontext")) eqn:E; [intros [= <-]; apply str_eqb_eq in E; now rewrite E|].
  destruct (l && _ && _); [|discriminate]. intros H. now apply find_pdef_name in H.
Qed.
(** every property has its own storage, which is the one it reads, except hreflang's *)
Definition keys_ok (p : pdef) : bool := str_eqb (pd_get p) (pd_set p) || str_eqb (pd_name p) (py "hreflang").
Lemma keys_table : forallb keys_ok properties_py = true. Proof. vm_compute. reflexivity. Qed.
Lemma prop_of_table l c n p : prop_of l c n = Some p -> p = acontext_def \/ In p properties_py.
Proof.
  unfold prop_of. destruct (str_eqb n (py "acontext")); [intros [= <-]; now left|]. destruct (l && _ && _); [|discriminate]. intros H. right. now apply find_pdef_name in H.
Qed.
Lemma prop_keys l c n p : prop_of l c n = Some p -> n <> py "hreflang" -> pd_get p = pd_set p.
Proof.
  intros H Hn. destruct (prop_of_table l c n p H) as [-> |Hin]; [reflexivity|]. pose proof keys_table as K. rewrite forallb_forall in K. specialize (K p Hin). unfold keys_ok in K. apply orb_true_iff in K as [K|K]; apply str_eqb_eq in K; [exact K|]. rewrite (prop_of_name l c n p H) in K. congruence.
Qed.

(** ** list functions *)
Lemma map_ok_cons {A B} (f : A -> res B) x l : map_ok f (x :: l) = match f x with Err e => Err e | Ok y => match map_ok f l with Err e => Err e | Ok ys => Ok (y :: ys) end end.
Proof. reflexivity. Qed.
Lemma map_ok_Forall2 {A B} (f : A -> res B) l : forall ys, map_ok f l = Ok ys <-> Forall2 (fun x y => f x = Ok y) l ys.
Proof.
  induction l as [|x l IH]; intros ys.
  - cbn. split; [intros [= <-]; constructor|intros H; inversion H; reflexivity].
  - rewrite map_ok_cons. split.
    + destruct (f x) as [y|e] eqn:E; [|discriminate]. destruct (map_ok f l) as [zs|e] eqn:E2; [|discriminate]. intros [= <-]. constructor; [exact E|now apply IH].
    + intros H. inversion H as [|? y ? zs Hy Hl]; subst. rewrite Hy. apply IH in Hl. now rewrite Hl.
Qed.
Lemma map_ok_cases {A B} (f : A -> res B) l : (exists ys, map_ok f l = Ok ys) \/ (exists x e, In x l /\ f x = Err e /\ map_ok f l = Err e).
Proof.
  induction l as [|x l IH]; [left; eexists; reflexivity|]. rewrite map_ok_cons. destruct (f x) as [y|e] eqn:E; [|right; exists x, e; cbn; auto].
  destruct IH as [[ys IH]|(z & e & H1 & H2 & IH)]; rewrite IH; [left; eexists; reflexivity|right; exists z, e; cbn; auto].
Qed.
Lemma map_ok_ext {A B} (f g : A -> res B) l : (forall x, In x l -> f x = g x) -> map_ok f l = map_ok g l.
Proof. induction l as [|x l IH]; intros H; [reflexivity|]. rewrite !map_ok_cons, (H x) by now left. rewrite IH; [reflexivity|]. intros y Hy. apply H. now right. Qed.

Section Facts.
Variable netloc_ok : pystr -> bool.
Variable nd : N -> option N.
Notation set_attr := (set_attr netloc_ok nd).
Notation evaluate := (evaluate netloc_ok nd).
Notation parse_time := (parse_time nd).
Notation run_step := (run_step netloc_ok nd).
Notation run_steps := (run_steps netloc_ok nd).
Notation run_stages := (run_stages netloc_ok nd).
Notation construct_with := (construct_with netloc_ok nd).

(** ** what a setter stores, and where *)
Definition key (l : bool) (c : cname) (n : pystr) : pystr := match prop_of l c n with Some p => pd_set p | None => n end.
Definition norm (l : bool) (c : cname) (n : pystr) (raw : value) (co : res value) : res value :=
  if str_eqb n (py "__namespace__") then Err AttributeError
  else match prop_of l c n with
       | None => Ok raw
       | Some p => match (if pd_link p then co else Ok raw) with
                   | Err e => Err e
                   | Ok v => match (if pd_checked p then evaluate (pd_types p ++ [TyNone]) (pd_functional p) (pd_checks p) v else Ok v) with
                             | Err e => Err e
                             | Ok w => if pd_parse p then parse_time w else Ok w
                             end
                   end
       end.
Lemma set_attr_norm l c attrs n raw co : set_attr l c attrs n raw co = match norm l c n raw co with Ok x => Ok (d_set (key l c n) x attrs) | Err e => Err e end.
Proof.
  unfold Vocab.set_attr, norm, key. destruct (str_eqb n (py "__namespace__")); [reflexivity|]. destruct (prop_of l c n) as [p|]; [|reflexivity].
  destruct (if pd_link p then co else Ok raw) as [v|e]; [|reflexivity]. destruct (if pd_checked p then evaluate _ _ _ v else Ok v) as [w|e]; [|reflexivity]. destruct (if pd_parse p then parse_time w else Ok w); reflexivity.
Qed.
Definition step_name (x : step) : pystr := match x with SArg n => py n | SType => py "type" | SItems => py "items" | STotal => py "totalItems" | SStart => py "startIndex" end.
(** the value a step assigns, if it gets that far *)
Definition step_raw (l : bool) (c : cname) (args attrs : dict value) (x : step) : option value :=
  match x with
  | SArg n => Some (arg args (py n))
  | SType => Some (match peek l c attrs (py "type") with Some v => v | None => arg args (py "type") end)
  | SItems => Some (match peek l c attrs (py "items") with Some v => v | None => arg args (py "items") end)
  | STotal => match peek l c attrs (py "items") with None => None | Some v => Some (if truthy (arg args (py "totalItems")) then arg args (py "totalItems") else VInt (size_or_0 v)) end
  | SStart => Some (if truthy (arg args (py "startIndex")) then arg args (py "startIndex") else VInt 0)
  end.
Lemma run_step_raw co l c args attrs x : run_step co l c args attrs x = match step_raw l c args attrs x with None => Err AttributeError | Some raw => set_attr l c attrs (step_name x) raw (co (step_name x) raw) end.
Proof. destruct x; try reflexivity. cbn [Vocab.run_step step_raw step_name]. now destruct (peek l c attrs (py "items")). Qed.
Definition keys (l : bool) (c : cname) (xs : list step) : list pystr := map (fun x => key l c (step_name x)) xs.
Lemma run_step_ok co l c args attrs x a : run_step co l c args attrs x = Ok a -> exists raw y, step_raw l c args attrs x = Some raw /\ norm l c (step_name x) raw (co (step_name x) raw) = Ok y /\ a = d_set (key l c (step_name x)) y attrs.
Proof.
  rewrite run_step_raw. destruct (step_raw l c args attrs x) as [raw|]; [|discriminate]. rewrite set_attr_norm. destruct (norm _ _ _ _ _) as [y|e] eqn:E; [|discriminate]. intros [= <-]. exists raw, y. auto.
Qed.
Lemma run_steps_keep co l c args xs : forall attrs a, run_steps co l c args xs attrs = Ok a -> forall k, ~ In k (keys l c xs) -> d_get k a = d_get k attrs.
Proof.
  induction xs as [|x xs IH]; intros attrs a; cbn [Vocab.run_steps]; [intros [= <-]; reflexivity|]. destruct (run_step co l c args attrs x) as [a1|e] eqn:E; [|discriminate]. intros E2 k Hk. cbn in Hk.
  rewrite (IH a1 a E2 k) by tauto. apply run_step_ok in E as (raw & y & _ & _ & ->). apply d_get_set_other. intros ->. apply Hk. now left.
Qed.
Lemma run_steps_app co l c args xs ys : forall attrs, run_steps co l c args (xs ++ ys) attrs = match run_steps co l c args xs attrs with Ok a => run_steps co l c args ys a | Err e => Err e end.
Proof. induction xs as [|x xs IH]; intros attrs; [reflexivity|]. cbn [app Vocab.run_steps]. destruct (run_step co l c args attrs x); [apply IH|reflexivity]. Qed.
(** the value assigned in a step is what ends up stored, if no other step writes there *)
Lemma run_steps_at co l c args xs x ys attrs a : run_steps co l c args (xs ++ x :: ys) attrs = Ok a -> ~ In (key l c (step_name x)) (keys l c ys) ->
  exists a1 raw y, run_steps co l c args xs attrs = Ok a1 /\ step_raw l c args a1 x = Some raw /\ norm l c (step_name x) raw (co (step_name x) raw) = Ok y /\ d_get (key l c (step_name x)) a = Some y.
Proof.
  rewrite run_steps_app. destruct (run_steps co l c args xs attrs) as [a1|e] eqn:E1; [|discriminate]. cbn [Vocab.run_steps]. destruct (run_step co l c args a1 x) as [a2|e] eqn:E2; [|discriminate]. intros E3 Hk.
  apply run_step_ok in E2 as (raw & y & H1 & H2 & ->). exists a1, raw, y. repeat split; auto. rewrite (run_steps_keep co l c args ys _ a E3 _ Hk). apply d_get_set_same.
Qed.
Fixpoint nodupb (l : list pystr) : bool := match l with [] => true | x :: r => negb (mem_str x r) && nodupb r end.
Lemma mem_str_in x l : mem_str x l = true <-> In x l.
Proof. unfold mem_str. rewrite existsb_exists. split; [intros (y & H1 & H2); apply str_eqb_eq in H2; now subst|intros H; exists x; split; [exact H|apply str_eqb_refl]]. Qed.
Lemma nodupb_spec l : nodupb l = true -> NoDup l.
Proof. induction l as [|x l IH]; intros H; [constructor|]. cbn in H. apply andb_true_iff in H as [H1 H2]. constructor; [|now apply IH]. intros Hin. apply mem_str_in in Hin. now rewrite Hin in H1. Qed.
(** ** every attribute has its own storage *)
(** the attributes: names without a leading underscore *)
Definition plain (n : pystr) : bool := match n with c :: _ => negb (N.eqb c 95) | [] => false end.
Definition set_table : bool := nodupb (map pd_set (acontext_def :: properties_py)) && forallb (fun p => negb (plain (pd_set p))) (acontext_def :: properties_py).
Lemma set_table_ok : set_table = true. Proof. vm_compute. reflexivity. Qed.
Lemma nodup_map_eq {A B} (f : A -> B) l x y : NoDup (map f l) -> In x l -> In y l -> f x = f y -> x = y.
Proof.
  induction l as [|z l IH]; intros Hn Hx Hy E; [contradiction|]. cbn in Hn. apply NoDup_cons_iff in Hn as [H1 H2]. destruct Hx as [<-|Hx], Hy as [<-|Hy]; auto.
  - destruct H1. rewrite E. now apply in_map.
  - destruct H1. rewrite <- E. now apply in_map.
Qed.
Lemma prop_of_in l c n p : prop_of l c n = Some p -> In p (acontext_def :: properties_py).
Proof. intros H. apply prop_of_table in H as [-> |H]; [now left|now right]. Qed.
Lemma set_plain l c n p : prop_of l c n = Some p -> plain (pd_set p) = false.
Proof. intros H. pose proof set_table_ok as T. apply andb_true_iff in T as [_ T]. rewrite forallb_forall in T. apply negb_true_iff, T. eapply prop_of_in, H. Qed.
Lemma key_inj l c n m : plain n = true -> plain m = true -> key l c n = key l c m -> n = m.
Proof.
  unfold key. intros Hn Hm. destruct (prop_of l c n) as [p|] eqn:En, (prop_of l c m) as [q|] eqn:Em; intros E; [| | |exact E].
  - pose proof set_table_ok as T. apply andb_true_iff in T as [T _]. apply nodupb_spec in T. assert (p = q) by (eapply nodup_map_eq; [exact T|eapply prop_of_in, En|eapply prop_of_in, Em|exact E]). subst q.
    apply prop_of_name in En, Em. congruence.
  - apply set_plain in En. congruence.
  - apply set_plain in Em. congruence.
Qed.
Definition step_names (xs : list step) : list pystr := map step_name xs.
Lemma keys_in l c n xs : plain n = true -> forallb plain (step_names xs) = true -> In (key l c n) (keys l c xs) -> In n (step_names xs).
Proof.
  intros Hn Hx H. unfold keys in H. apply in_map_iff in H as (x & E & Hin). assert (Hp : In (step_name x) (step_names xs)) by now apply in_map. rewrite forallb_forall in Hx. specialize (Hx _ Hp). apply key_inj in E; auto. now subst n.
Qed.
(** the last stage that assigns n: is it an assignment of the argument n itself, which that stage gets? *)
Definition has_arg (n : pystr) (xs : list step) : bool := existsb (fun x => match x with SArg m => str_eqb (py m) n | _ => false end) xs.
Fixpoint last_write (n : pystr) (st : list (option (list string) * list step)) : option bool :=
  match st with
  | [] => None
  | (names, xs) :: r => match last_write n r with
                        | Some b => Some b
                        | None => if mem_str n (step_names xs) then Some (has_arg n xs && match names with None => true | Some ns => mem_str n (map py ns) end) else None
                        end
  end.
Definition steps_ok (xs : list step) : bool := nodupb (step_names xs) && forallb plain (step_names xs).
Definition stages_ok (st : list (option (list string) * list step)) : bool := forallb (fun s => steps_ok (snd s)) st.
Lemma arg_restrict names args n : match names with None => true | Some ns => mem_str n (map py ns) end = true -> arg (restrict names args) n = arg args n.
Proof.
  destruct names as [ns|]; [|reflexivity]. intros H. unfold arg, restrict. assert (E : d_get n (filter (fun p => mem_str (fst p) (map py ns)) args) = d_get n args); [|now rewrite E].
  induction args as [|[m v] args IH]; [reflexivity|]. cbn. destruct (str_eqb n m) eqn:E.
  - apply str_eqb_eq in E. subst m. rewrite H. cbn. now rewrite str_eqb_refl.
  - destruct (mem_str m (map py ns)); cbn; rewrite ?E; exact IH.
Qed.
Lemma last_write_none l c n st : plain n = true -> stages_ok st = true -> last_write n st = None -> forall co args attrs a, run_stages co l c args st attrs = Ok a -> d_get (key l c n) a = d_get (key l c n) attrs.
Proof.
  intros Hn. induction st as [|[names xs] st IH]; intros Hs H co args attrs a; cbn [Vocab.run_stages]; [intros [= <-]; reflexivity|]. cbn in H, Hs. apply andb_true_iff in Hs as [Hx Hs]. apply andb_true_iff in Hx as [_ Hx].
  destruct (last_write n st) eqn:E; [discriminate|]. destruct (mem_str n (step_names xs)) eqn:E2; [discriminate|].
  destruct (run_steps co l c (restrict names args) xs attrs) as [a1|e] eqn:E1; [|discriminate]. intros E3. rewrite (IH Hs eq_refl co args a1 a E3). apply (run_steps_keep co l c _ xs attrs a1 E1). intros Hin. apply keys_in in Hin; auto. apply mem_str_in in Hin. congruence.
Qed.
Lemma steps_last l c co args xs x ys attrs a : steps_ok (xs ++ x :: ys) = true -> run_steps co l c args (xs ++ x :: ys) attrs = Ok a ->
  exists a1 raw y, run_steps co l c args xs attrs = Ok a1 /\ step_raw l c args a1 x = Some raw /\ norm l c (step_name x) raw (co (step_name x) raw) = Ok y /\ d_get (key l c (step_name x)) a = Some y.
Proof.
  intros Hs E. apply run_steps_at with (1 := E). apply andb_true_iff in Hs as [H1 H2]. apply nodupb_spec in H1. unfold step_names in *. rewrite map_app in H1, H2. cbn [map] in H1, H2. rewrite forallb_app in H2. apply andb_true_iff in H2 as [_ H2]. cbn [forallb] in H2. apply andb_true_iff in H2 as [H2 H3].
  apply NoDup_remove_2 in H1. intros Hin. apply keys_in in Hin; auto. apply H1, in_or_app. now right.
Qed.
Lemma last_write_arg l c n st : plain n = true -> stages_ok st = true -> last_write n st = Some true -> forall co args attrs a, run_stages co l c args st attrs = Ok a -> exists y, norm l c n (arg args n) (co n (arg args n)) = Ok y /\ d_get (key l c n) a = Some y.
Proof.
  intros Hp. induction st as [|[names xs] st IH]; intros Hs H co args attrs a; cbn [Vocab.run_stages]; [discriminate|]. cbn in H, Hs. apply andb_true_iff in Hs as [Hx Hs].
  destruct (run_steps co l c (restrict names args) xs attrs) as [a1|e] eqn:E1; [|discriminate]. intros E3. destruct (last_write n st) as [b|] eqn:E.
  - injection H as ->. exact (IH Hs eq_refl co args a1 a E3).
  - destruct (mem_str n (step_names xs)); [|discriminate]. injection H as H. apply andb_true_iff in H as [H1 H3]. rewrite (last_write_none l c n st Hp Hs E co args a1 a E3).
    unfold has_arg in H1. apply existsb_exists in H1 as (x & Hin & H1). destruct x as [m| | | |]; try discriminate. apply str_eqb_eq in H1. apply in_split in Hin as (xs1 & xs2 & ->). cbn [snd] in Hx.
    destruct (steps_last l c co _ xs1 (SArg m) xs2 attrs a1 Hx E1) as (a0 & raw & y & _ & Hr & Hn & Hg).
    cbn [step_raw step_name] in *. rewrite H1 in *. injection Hr as <-. rewrite (arg_restrict names args n H3) in Hn. exists y. auto.
Qed.
Lemma construct_with_ok co l c args o : construct_with co l c args = Ok o -> exists a, run_stages co l c args (stages c) [] = Ok a /\ o = VObj l c a /\ d_mem (py "self") args = false /\ (needs_id c = true -> d_mem (py "id") args = true).
Proof.
  unfold Vocab.construct_with. destruct (d_mem (py "self") args) eqn:E1; [discriminate|]. destruct (needs_id c && negb (d_mem (py "id") args)) eqn:E2; [discriminate|]. destruct (run_stages co l c args (stages c) []) as [a|e]; [|discriminate]. intros [= <-]. exists a. repeat split; auto.
  intros H. rewrite H in E2. cbn in E2. now apply negb_false_iff in E2.
Qed.
End Facts.
