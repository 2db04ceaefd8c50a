(** C125: calling the methods of cloned classes. *)
From Coq Require Import String Lia.
From Verif Require Import Base BaseFacts Dict DictFacts PyClass PyClassFacts Kamino KaminoOrder KaminoAttrs KaminoFacts PropsKamino MethodBind.
Open Scope list_scope.

Lemma find_skip {P V} (w : world P V) m n (keep : nat -> bool) inside outside : m = inside ++ outside -> (forall a, In a inside -> keep a = true) -> (forall a, In a outside -> keep a = false) ->
  find_attr w (filter keep m) n = find_attr w inside n /\ (find_attr w inside n <> None -> find_attr w m n = find_attr w inside n).
Proof.
  intros -> Hi Ho. rewrite filter_app. assert (E1 : filter keep inside = inside).
  { clear Ho. induction inside as [|a l IH]; [reflexivity|]. cbn. rewrite (Hi a) by now left. f_equal. apply IH. intros b Hb. apply Hi. now right. }
  assert (E2 : filter keep outside = []) by (clear Hi; induction outside as [|a l IH]; [reflexivity|]; cbn; rewrite (Ho a) by (now left); apply IH; intros b Hb; apply Ho; now right).
  rewrite E1, E2, app_nil_r. split; [reflexivity|]. clear. induction inside as [|a l IH]; [contradiction|]. cbn. destruct (d_get n (c_attrs (get_cls w a))); auto.
Qed.

(** The class that defines the name is the first in the MRO that has it. *)
Definition defined_by {P V} (w : world P V) (c d : nat) (n : pystr) : Prop :=
  exists before after, mro w c = before ++ d :: after /\ (forall b, In b before -> d_get n (c_attrs (get_cls w b)) = None) /\ d_get n (c_attrs (get_cls w d)) <> None.
Lemma find_defined {P V} (w : world P V) before d after n : (forall b, In b before -> d_get n (c_attrs (get_cls w b)) = None) -> d_get n (c_attrs (get_cls w d)) <> None ->
  find_attr w (before ++ d :: after) n = d_get n (c_attrs (get_cls w d)).
Proof. intros Hb Hd. induction before as [|b l IH]; cbn; [destruct (d_get n (c_attrs (get_cls w d))); [reflexivity|contradiction]|]. rewrite (Hb b) by now left. apply IH. intros x Hx. apply Hb. now right. Qed.

Section C125.
Context {P A S : Type} (code : nat -> list A -> S -> S * res A) (convert : A -> S -> S * res A) (class_of : nat -> A).
Notation world := (world P member).
Notation call := (method_call code convert class_of).
Variables (wrap_prop : P -> P) (package_ref : member) (w : world) (classes : list nat) (w' : world) (rf : list (nat * nat)).
(** the package is made as in C80, its classes' attributes sorted by [callable] *)
Definition cloned_methods : Prop :=
  py_world P member w /\ (forall c, In c classes -> c < List.length w /\ package_first w classes c /\ unrelated_bases w c) /\
  clone_classes P member wrap_prop Wrapped package_ref w classes = (w', Ok rf) /\ callables_marked w.
Lemma resolve_method : cloned_methods -> forall c k n d, In (c, k) rf -> ~ special n -> ~ In n (property_names P member w c) -> defined_by w c d n ->
  lookup w' k n = if mem d classes then option_map (wrap_attr P member Wrapped) (lookup w c n) else lookup w c n.
Proof.
  intros (Hw & Hc & E & Hm) c k n d Hck Hs Hn (before & after & M & B1 & B2). pose proof (C80_methods P member wrap_prop Wrapped package_ref w classes w' rf Hw Hc E c k n Hck Hs Hn) as L.
  assert (Inc : In c classes).
  { pose proof (C66_clone_classes P member wrap_prop Wrapped package_ref w classes w' _ Hw (fun c Hc0 => proj1 (Hc c Hc0)) E) as (_ & K & _). apply K. change c with (fst (c, k)). now apply in_map. }
  destruct (Hc c Inc) as (_ & (inside & outside & Mi & I1 & I2) & _).
  destruct (find_skip w (mro w c) n (fun x => mem x classes) inside outside Mi (fun a Ha => proj2 (mem_in a classes) (I1 a Ha)) ) as [S1 S2].
  { intros a Ha. destruct (mem a classes) eqn:X; [|reflexivity]. apply mem_in in X. exfalso. exact (I2 a Ha X). }
  rewrite S1 in L. assert (Ld : lookup w c n = d_get n (c_attrs (get_cls w d))) by (unfold lookup; rewrite M; now apply find_defined).
  destruct (mem d classes) eqn:Md.
  - assert (X : find_attr w inside n = d_get n (c_attrs (get_cls w d))).
    { assert (Y : find_attr w inside n <> None).
      { intro N. assert (Di : In d inside). { assert (Z : In d (mro w c)) by (rewrite M; apply in_or_app; right; now left). rewrite Mi in Z. apply in_app_or in Z as [Z|Z]; [exact Z|]. apply mem_in in Md. exfalso. exact (I2 d Z Md). }
        rewrite (find_attr_none P member) in N. apply B2. exact (N d Di). }
      rewrite <- (S2 Y). exact Ld. }
    rewrite X in L. rewrite Ld. destruct (d_get n (c_attrs (get_cls w d))) eqn:Z; [exact L|contradiction].
  - destruct (find_attr w inside n) as [v|] eqn:X; [|exact L]. exfalso.
    apply (find_attr_some P member) in X as (a & Ha & Ea). unfold own in Ea.
    (* d is not in [inside], so it comes after all of it *)
    assert (Nd : ~ In d inside) by (intro Z; apply I1, mem_in in Z; congruence).
    assert (Ab : In a before).
    { rewrite M in Mi. clear -Mi Nd Ha. revert before Mi. induction inside as [|i l IH]; intros before Mi; [destruct Ha|]. destruct before as [|b before]; cbn in Mi; injection Mi as E1 E2; [exfalso; apply Nd; now left|].
      destruct Ha as [->|Ha]; [now left|]. right. apply IH; auto. intro Z. apply Nd. now right. }
    rewrite (B1 a Ab) in Ea. discriminate.
Qed.

(** what the attribute [n] of [c] is, when it is a member: the class [d] defines it *)
Definition is_member (c d : nat) (n : pystr) (m : member) : Prop := defined_by w c d n /\ (lookup w c n = Some (ACall m) \/ lookup w c n = Some (AOther m)).
Lemma member_callable c n m : callables_marked w -> (exists b, d_get n (c_attrs (get_cls w b)) = lookup w c n) -> (lookup w c n = Some (ACall m) -> callable m = true) /\ (lookup w c n = Some (AOther m) -> callable m = false).
Proof. intros H (b & E). split; intro L; rewrite L in E; exact (H b n _ E). Qed.
Lemma defined_lookup c d n : defined_by w c d n -> lookup w c n = d_get n (c_attrs (get_cls w d)).
Proof. intros (before & after & M & B1 & B2). unfold lookup. rewrite M. now apply find_defined. Qed.
Lemma C125_lemma : cloned_methods -> forall c k n d m, In (c, k) rf -> ~ special n -> ~ In n (property_names P member w c) -> is_member c d n m ->
  exists m', (lookup w' k n = Some (ACall m') \/ lookup w' k n = Some (AOther m')) /\ m' = if mem d classes && callable m then Wrapped m else m.
Proof.
  intros H c k n d m Hck Hs Hn (D & L). pose proof (resolve_method H c k n d Hck Hs Hn D) as R. destruct H as (_ & _ & _ & Hm).
  destruct (member_callable c n m Hm (ex_intro _ d (eq_sym (defined_lookup c d n D)))) as [M1 M2].
  destruct (mem d classes); [|exists m; split; [rewrite R; exact L|reflexivity]]. destruct L as [L|L]; rewrite L in R; cbn in R.
  - rewrite (M1 L). exists (Wrapped m). auto.
  - rewrite (M2 L). exists m. auto.
Qed.
Lemma call_lookup (x : world) k inst n m args s : lookup x k n = Some (ACall m) \/ lookup x k n = Some (AOther m) -> call x k inst n args s = bound_call code convert class_of k inst m args s.
Proof. intros [L|L]; unfold method_call; now rewrite L. Qed.
End C125.

(** Reading aid. [cloned_methods … w classes w' rf]: a package is made of [classes] (under C80's conditions); [rf] gives the clone of every class, [w'] are all classes then. [n] is a name that is no property,
    [is_member w c d n m]: the class [c] gets it from the class [d] of its MRO, where it is [m]. [method_call … w k (Some x) n args s]: [x.n( *args )], [x] an instance of class [k]; [None]: [k.n( *args )].
    [converted]: a result is converted, if it is an instance of one of the package's classes; an exception passes. *)
Definition converted {A S : Type} (convert : A -> S -> S * res A) (x : S * res A) : S * res A := match snd x with Ok v => convert v (fst x) | Err e => (fst x, Err e) end.
Lemma then_convert_converted {A S} (convert : A -> S -> S * res A) x : then_convert convert x = converted convert x.
Proof. destruct x as [s [v|e]]; reflexivity. Qed.
(** called on the class, or a function called on an instance: what a class of the package defines gives the original's result, converted *)
Theorem C125_functions : forall P A S code convert class_of (wrap_prop : P -> P) package_ref w classes w' rf, cloned_methods wrap_prop package_ref w classes w' rf ->
  forall c k n d m inst args (s : S), In (c, k) rf -> ~ special n -> ~ In n (property_names P member w c) -> is_member w c d n m -> In d classes -> (exists f, m = Fun f) \/ (inst = None /\ callable m = true) ->
  method_call code convert class_of w' k inst n args s = converted convert (method_call code convert class_of w c inst n (args : list A) s).
Proof.
  intros P A S code convert class_of wp pr w classes w' rf H c k n d m inst args s Hck Hs Hn Hm Hd Hk. destruct (C125_lemma wp pr w classes w' rf H c k n d m Hck Hs Hn Hm) as (m' & L & Em). destruct Hm as [_ L0].
  rewrite (call_lookup code convert class_of w' k inst n m' args s L), (call_lookup code convert class_of w c inst n m args s L0). apply mem_in in Hd. rewrite Hd in Em.
  destruct Hk as [[f ->]|[-> Cm]]; [cbn in Em; subst m'; apply then_convert_converted|]. rewrite Cm in Em. cbn in Em. subst m'. destruct m; try discriminate Cm; apply then_convert_converted.
Qed.
Print Assumptions C125_functions.
(** a static method, a nested class or another callable gets the instance as an additional first argument when it is called on an instance of the clone *)
Theorem C125_static : forall P A S code convert class_of (wrap_prop : P -> P) package_ref w classes w' rf, cloned_methods wrap_prop package_ref w classes w' rf ->
  forall c k n d m f x args (s : S), In (c, k) rf -> ~ special n -> ~ In n (property_names P member w c) -> is_member w c d n m -> In d classes -> m = Static f \/ m = Callee f ->
  method_call code convert class_of w c (Some x) n (args : list A) s = code f args s /\
  method_call code convert class_of w' k (Some x) n args s = converted convert (code f (x :: args) s).
Proof.
  intros P A S code convert class_of wp pr w classes w' rf H c k n d m f x args s Hck Hs Hn Hm Hd Hk. destruct (C125_lemma wp pr w classes w' rf H c k n d m Hck Hs Hn Hm) as (m' & L & Em). destruct Hm as [_ L0].
  rewrite (call_lookup code convert class_of w' k (Some x) n m' args s L), (call_lookup code convert class_of w c (Some x) n m args s L0). apply mem_in in Hd. rewrite Hd in Em.
  destruct Hk as [-> | ->]; cbn in Em; subst m'; (split; [reflexivity|apply then_convert_converted]).
Qed.
Print Assumptions C125_static.
(** a class method runs with the clone as its class, its result is not converted; and nothing changes for what a class outside the package defines *)
Theorem C125_kept : forall P A S code convert class_of (wrap_prop : P -> P) package_ref w classes w' rf, cloned_methods wrap_prop package_ref w classes w' rf ->
  forall c k n d m inst args (s : S), In (c, k) rf -> ~ special n -> ~ In n (property_names P member w c) -> is_member w c d n m ->
  (forall f, m = ClassM f -> method_call code convert class_of w' k inst n args s = code f (class_of k :: args : list A) s) /\
  (m = Datum -> method_call code convert class_of w' k inst n args s = (s, Err TypeError)) /\
  (~ In d classes -> (forall f, m <> ClassM f) -> method_call code convert class_of w' k inst n args s = method_call code convert class_of w c inst n args s).
Proof.
  intros P A S code convert class_of wp pr w classes w' rf H c k n d m inst args s Hck Hs Hn Hm. destruct (C125_lemma wp pr w classes w' rf H c k n d m Hck Hs Hn Hm) as (m' & L & Em). destruct Hm as [_ L0].
  rewrite (call_lookup code convert class_of w' k inst n m' args s L), (call_lookup code convert class_of w c inst n m args s L0). split; [|split].
  - intros f ->. cbn in Em. rewrite andb_false_r in Em. subst m'. reflexivity.
  - intros ->. cbn in Em. rewrite andb_false_r in Em. subst m'. reflexivity.
  - intros Nd Nc. assert (X : mem d classes = false) by (destruct (mem d classes) eqn:X; [apply mem_in in X; contradiction|reflexivity]). rewrite X in Em. cbn in Em. subst m'. destruct m; try reflexivity. exfalso. eapply Nc. reflexivity.
Qed.
Print Assumptions C125_kept.
(** and calls on the originals do what they did *)
Theorem C125_originals : forall P A S code convert class_of (wrap_prop : P -> P) package_ref w classes w' rf, cloned_methods wrap_prop package_ref w classes w' rf ->
  forall c inst n args (s : S), c < List.length w -> method_call code convert class_of w' c inst n (args : list A) s = method_call code convert class_of w c inst n args s.
Proof.
  intros P A S code convert class_of wp pr w classes w' rf (Hw & Hc & E & _) c inst n args s Hl.
  destruct (C81_originals_unchanged P member wp Wrapped pr w classes w' _ Hw (fun c0 Hc0 => proj1 (Hc c0 Hc0)) E c Hl) as [_ L]. unfold method_call. now rewrite L.
Qed.
Print Assumptions C125_originals.

(** ** An example: a class outside the package and a class of the package, with one attribute of every kind *)
Definition add_m (w : world nat member) (s : string) (bs : list nat) (attrs : dict (attr nat member)) : world nat member := match new_class w (py s) bs attrs with Ok (w', _) => w' | Err _ => w end.
Definition base_attrs : dict (attr nat member) := [(py "helper", ACall (Fun 9))].
Definition note_attrs : dict (attr nat member) :=
  [(py "reply", ACall (Fun 1)); (py "parse", ACall (Static 2)); (py "Inner", ACall (Callee 3)); (py "make", AOther (ClassM 4)); (py "limit", AOther Datum)].
Definition w_m : world nat member := add_m (add_m (object_world []) "Base" [0] base_attrs) "Note" [1] note_attrs.
(* functions return their number and arguments; converting adds 1000 *)
Definition code_m (f : nat) (args : list (list nat)) (s : unit) : unit * res (list nat) := (s, Ok (f :: List.concat args)).
Definition conv_m (v : list nat) (s : unit) : unit * res (list nat) := (s, Ok (1000 :: v)).
Definition cls_m (k : nat) : list nat := [100 + k].
Definition w_m' : world nat member := fst (clone_classes nat member (fun p => p) Wrapped Datum w_m [2]).
Lemma add_m_py w s bs attrs : py_world nat member w -> (if list_eq_dec Nat.eq_dec bs [] then false else true) = true -> NoDup (d_keys attrs) -> forallb (fun b => Nat.ltb b (List.length w)) bs = true -> py_world nat member (add_m w s bs attrs).
Proof.
  intros H H1 H2 H3. unfold add_m. destruct (new_class w (py s) bs attrs) as [[w' c]|e] eqn:E; [|exact H]. eapply pw_class; [exact H| |exact H2| |exact E]; [destruct (list_eq_dec Nat.eq_dec bs []); congruence|].
  intros b Hb. rewrite forallb_forall in H3. apply Nat.ltb_lt, H3, Hb.
Qed.
Lemma ex_cloned : cloned_methods (fun p : nat => p) Datum w_m [2] w_m' [(2, 3)].
Proof.
  split; [unfold w_m; repeat (apply add_m_py; [|reflexivity|nodup|reflexivity]); constructor; constructor|]. split; [|split; [reflexivity|]].
  - intros c [<-|[]]. split; [vm_compute; lia|]. split.
    + exists [2], [1; 0]. split; [reflexivity|]. split; intros a I; cbn in *; intuition lia.
    + intros b b' H1 H2. vm_compute in H1, H2. destruct H1 as [<-|[]], H2 as [<-|[]]. reflexivity.
  - intros c n a E. destruct c as [|[|[|c]]]; cbn in E; [discriminate| | |destruct c; discriminate];
      repeat match type of E with (if ?b then _ else _) = _ => destruct b; [injection E as <-; reflexivity|] end; discriminate.
Qed.
Lemma ex_defines n m : In (n, m) note_attrs -> defined_by w_m 2 2 n.
Proof. intro I. exists [], [1; 0]. split; [reflexivity|]. split; [intros b []|]. cbn in I. repeat (destruct I as [I|I]; [injection I as <- _; discriminate|]). destruct I. Qed.
Notation ex_call w k inst n args := (snd (method_call code_m conv_m cls_m w k inst (py n) args tt)).
Example C125_case : is_member w_m 2 2 (py "reply") (Fun 1) /\ ~ In (py "reply") (property_names nat member w_m 2) /\ ~ special (py "reply") /\
  ex_call w_m' 3 (Some [50]) "reply" [[7]] = Ok [1000; 1; 50; 7] /\ ex_call w_m' 3 None "parse" [[7]] = Ok [1000; 2; 7] /\ ex_call w_m' 3 (Some [50]) "parse" [[7]] = Ok [1000; 2; 50; 7] /\
  ex_call w_m' 3 (Some [50]) "make" [[7]] = Ok [4; 103; 7] /\ ex_call w_m' 3 (Some [50]) "helper" [[7]] = Ok [9; 50; 7] /\ ex_call w_m' 3 (Some [50]) "limit" [] = Err TypeError.
Proof.
  split; [split; [exact (ex_defines _ _ (or_introl eq_refl))|left; reflexivity]|]. split; [intros []|]. split; [intros [X|[X|X]]; discriminate X|]. vm_compute. auto 10.
Qed.
(** not so: a static method called on an instance does what it does for instances of the original, the result converted *)
Theorem C125_static_refuted : exists P A S code convert class_of (wrap_prop : P -> P) package_ref w classes w' rf c k n d f x args (s : S), cloned_methods wrap_prop package_ref w classes w' rf /\ In (c, k) rf /\
  ~ special n /\ ~ In n (property_names P member w c) /\ is_member w c d n (Static f) /\ In d classes /\
  method_call code convert class_of w' k (Some x) n (args : list A) s <> converted convert (method_call code convert class_of w c (Some x) n args s).
Proof.
  exists nat, (list nat), unit, code_m, conv_m, cls_m, (fun p => p), Datum, w_m, [2], w_m', [(2, 3)], 2, 3, (py "parse"), 2, 2, [50], [[7]], tt. split; [exact ex_cloned|]. split; [now left|].
  split; [intros [X|[X|X]]; discriminate X|]. split; [intros []|]. split; [split; [exact (ex_defines _ _ (or_intror (or_introl eq_refl)))|left; reflexivity]|]. split; [now left|]. vm_compute. discriminate.
Qed.
Print Assumptions C125_static_refuted.
(** not so: every method of the clone gives the original's result, converted *)
Theorem C125_classmethod_refuted : exists P A S code convert class_of (wrap_prop : P -> P) package_ref w classes w' rf c k n d f args (s : S), cloned_methods wrap_prop package_ref w classes w' rf /\ In (c, k) rf /\
  ~ special n /\ ~ In n (property_names P member w c) /\ is_member w c d n (ClassM f) /\ In d classes /\
  method_call code convert class_of w' k None n (args : list A) s <> converted convert (method_call code convert class_of w c None n args s).
Proof.
  exists nat, (list nat), unit, code_m, conv_m, cls_m, (fun p => p), Datum, w_m, [2], w_m', [(2, 3)], 2, 3, (py "make"), 2, 4, [[7]], tt. split; [exact ex_cloned|]. split; [now left|].
  split; [intros [X|[X|X]]; discriminate X|]. split; [intros []|]. split; [split; [exact (ex_defines _ _ (or_intror (or_intror (or_intror (or_introl eq_refl)))))|right; reflexivity]|]. split; [now left|]. vm_compute. discriminate.
Qed.
Print Assumptions C125_classmethod_refuted.
