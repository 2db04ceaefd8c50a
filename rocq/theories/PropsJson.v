(** Property theorems C53-C59: contextual properties, context switching, [data()], validated setters. *)
From Coq Require Import String.
From Verif Require Import Base BaseFacts Dict DictFacts Context ContextFacts JsonData JsonDataFacts Validate ValidateFacts.
Open Scope Z_scope.
Open Scope list_scope.

(** ** C53. [registered s p k c]: the function registered with property [p] for getting/setting/deleting ([k]) in context [c].
    [effective_fn]: the one registered for the owner's current context, else the default one, else none. *)
Definition effective_fn {Ow V} (s : store Ow V) p k c : fn Ow V :=
  match registered s p k c with Some f => f | None => match registered s p k None with Some f => f | None => NoFn _ _ end end.
Theorem C53_read : forall Ow V (context_of : Ow -> ctx) (s : store Ow V) p o,
  (forall f, effective_fn s p Getting (context_of o) = GetFn f -> read_attr context_of s p o = f o) /\
  (effective_fn s p Getting (context_of o) = NoFn _ _ -> read_attr context_of s p o = (o, Err AttributeError)).
Proof. intros Ow V co s p o. unfold read_attr, effective_fn. rewrite pick_spec. split; [intros f E|intros E]; now rewrite E. Qed.
Print Assumptions C53_read.
Theorem C53_assign : forall Ow V (context_of : Ow -> ctx) (s : store Ow V) p o v,
  (forall f, effective_fn s p Setting (context_of o) = SetFn f -> assign_attr context_of s p o v = f o v) /\
  (effective_fn s p Setting (context_of o) = NoFn _ _ -> assign_attr context_of s p o v = (o, Err AttributeError)).
Proof. intros Ow V co s p o v. unfold assign_attr, effective_fn. rewrite pick_spec. split; [intros f E|intros E]; now rewrite E. Qed.
Print Assumptions C53_assign.
Theorem C53_delete : forall Ow V (context_of : Ow -> ctx) (s : store Ow V) p o,
  (forall f, effective_fn s p Deleting (context_of o) = DelFn _ f -> delete_attr context_of s p o = f o) /\
  (effective_fn s p Deleting (context_of o) = NoFn _ _ -> delete_attr context_of s p o = (o, Err AttributeError)).
Proof. intros Ow V co s p o. unfold delete_attr, effective_fn. rewrite pick_spec. split; [intros f E|intros E]; now rewrite E. Qed.
Print Assumptions C53_delete.
(* owners: (context, value). A property with a default getter 1, a getter for context "j", no setter. *)
Definition ex_get (n : Z) : fn (ctx * Z) Z := GetFn (fun o => (o, Ok (snd o + n))).
Definition ex_ops : list (dop (ctx * Z) Z) :=
  [DNew (ex_get 1) (NoFn _ _) (NoFn _ _); DContext Getting (Some (py "j")) (ex_get 2) 0;
   DCopy Setting (SetFn (fun o v => ((fst o, v), Ok tt))) 0; DContext Getting (Some (py "j")) (ex_get 3) 1].
Definition ex_world := d_run ex_ops ([], []).
Definition ex_p (i : nat) : prop := nth i (snd ex_world) (mkProp 0 0 0).
Example C53_case : snd (read_attr fst (fst ex_world) (ex_p 0) (None, 10)) = Ok 11 /\ snd (read_attr fst (fst ex_world) (ex_p 0) (Some (py "j"), 10)) = Ok 12 /\
  snd (read_attr fst (fst ex_world) (ex_p 0) (Some (py "k"), 10)) = Ok 11 /\ assign_attr fst (fst ex_world) (ex_p 0) (None, 10) 5 = ((None, 10), Err AttributeError) /\
  assign_attr fst (fst ex_world) (ex_p 1) (None, 10) 5 = ((None, 5), Ok tt).
Proof. vm_compute. auto. Qed.

(** ** C54. The properties created so far are numbered; [d_effect] (ContextFacts) says, for each decorator, what every property has
    registered after it in terms of what it had before; [d_history] chains these along a sequence of decorator uses. *)
Theorem C54_copy_on_decorate : forall Ow V (ops : list (dop Ow V)), valid_dops 0 ops ->
  d_history 0 (fun _ _ _ => None) ops (nth_slot (fst (d_run ops ([], []))) (snd (d_run ops ([], [])))).
Proof. exact C54_lemma. Qed.
Print Assumptions C54_copy_on_decorate.
Example C54_case : valid_dops 0 ex_ops /\ snd (read_attr fst (fst ex_world) (ex_p 1) (Some (py "j"), 10)) = Ok 13 /\
  snd (read_attr fst (fst ex_world) (ex_p 0) (Some (py "j"), 10)) = Ok 12.
Proof. split; [simpl; lia|vm_compute; auto]. Qed.

(** ** C55. [l_seq lexical]: what a program sees and raises when the context of a statement is that of the innermost enclosing
    [with] block. Only the [active] flag (which nothing reads) differs afterwards. *)
Theorem C55_contexts_nest : forall p m, exists a,
  w_run p m = (mkMgr (m_stack m) (m_context m) a, fst (l_seq lexical p (m_context m)), snd (l_seq lexical p (m_context m))).
Proof. exact C55_lemma. Qed.
Print Assumptions C55_contexts_nest.
Example C55_case : w_run [See; Catch [With (Some (py "a")) [See; With None [See; Throw KeyError]; See]]; See; With (Some (py "b")) [See]; See] mgr_new =
  (mgr_new, [None; Some (py "a"); None; None; Some (py "b"); None], None).
Proof. vm_compute. reflexivity. Qed.
(** the [active] flag is on at the start of every block, in which the context is the one asked for, and off at its end *)
Theorem C55_active_flag : forall c m, (m_active (mgr_enter (mgr_call c m)) = true /\ m_context (mgr_enter (mgr_call c m)) = c) /\ m_active (mgr_exit m) = false.
Proof. intros c m. split; [auto|]. destruct m as [[|x l] y a]; reflexivity. Qed.
Print Assumptions C55_active_flag.
(** the [active] flag is off inside an outer block once an inner block has ended *)
Theorem C55_active_flag_refuted : exists m, m_active (mgr_exit (mgr_enter (mgr_call (Some [1%N]) (mgr_enter (mgr_call (Some [0%N]) m))))) = false.
Proof. exists mgr_new. reflexivity. Qed.
Print Assumptions C55_active_flag_refuted.

(** ** C56. [live a props n v]: property [n] has value [v] in the requested context and passes the filters; [renamed]: its output key *)
Theorem C56_exactly_the_selected : forall a props d, data a props = Ok d ->
  NoDup (d_keys d) /\
  (forall k, In k (d_keys d) <-> exists n v, live a props n v /\ k = renamed a n) /\
  (forall k w, d_get k d = Some w -> exists before n g after v, props = before ++ (n, g) :: after /\ g (a_context a) = Ok v /\ wants a n v /\
     k = renamed a n /\ handle v = Ok w /\ forall n' v', live a after n' v' -> renamed a n' <> k).
Proof. exact C56_lemma. Qed.
Print Assumptions C56_exactly_the_selected.
Theorem C56_values_of_selected : forall a props d n v w, data a props = Ok d -> NoDup (map fst props) -> live a props n v ->
  (forall n' v', live a props n' v' -> renamed a n' = renamed a n -> n' = n) -> handle v = Ok w -> d_get (renamed a n) d = Some w.
Proof. exact C56_values. Qed.
Print Assumptions C56_values_of_selected.
Theorem C56_context_restored : forall m a props, let (m', r) := data_call m a props in m_context m' = m_context m /\ m_stack m' = m_stack m /\ r = data a props.
Proof. exact C56_context. Qed.
Print Assumptions C56_context_restored.
Theorem C56_succeeds : forall a props, (forall n (g : getter), In (n, g) props -> exists v, g (a_context a) = Ok v /\ readable v) -> exists d, data a props = Ok d.
Proof. exact C56_total. Qed.
Print Assumptions C56_succeeds.
Definition ex_const (v : jval) : ctx -> res jval := fun _ => Ok v.
Definition ex_props : list (pystr * (ctx -> res jval)) :=
  [(py "aid", ex_const (JStr (py "x"))); (py "name", ex_const JNone); (py "context", ex_const (JStr (py "c"))); (py "acontext", ex_const (JStr (py "u")));
   (py "tag", ex_const (JList [JBool true; JTuple [JInt 1; JNone]])); (py "secret", ex_const (JInt 7))].
Definition ex_args := mkArgs (Names []) (Names [py "secret"]) [(py "tag", py "tags")] false (fun v => match v with JStr s => str_eqb s (py "zz") | _ => false end) json_context.
Example C56_case : data ex_args ex_props =
  Ok [(py "@id", JStr (py "x")); (py "context", JStr (py "c")); (py "@context", JStr (py "u")); (py "tags", JList [JStr (py "True"); JList [JInt 1; JStr (py "None")]])] /\
  live ex_args ex_props (py "aid") (JStr (py "x")).
Proof.
  split; [vm_compute; reflexivity|]. exists (ex_const (JStr (py "x"))). split; [now left|]. split; [reflexivity|]. split; [right; discriminate|]. split; [left; now left|].
  split; [|reflexivity]. intros [_ [H|[]]]. discriminate.
Qed.

(** ** C57. [plain]: strings, numbers, and lists and dicts of plain values *)
Theorem C57_output_is_plain : forall a props d, data a props = Ok d -> plain (JDict d).
Proof. exact C57_data. Qed.
Print Assumptions C57_output_is_plain.
Theorem C57_plain_is_unchanged : forall v, plain v -> handle v = Ok v.
Proof. exact plain_handle. Qed.
Print Assumptions C57_plain_is_unchanged.
Theorem C57_booleans_become_strings : forall b, handle (JBool b) = Ok (JStr (py (if b then "True" else "False"))).
Proof. reflexivity. Qed.
Print Assumptions C57_booleans_become_strings.
Example C57_case : plain (JDict [(py "k", JList [JInt 1; JStr (py "a")])]).
Proof. apply pl_dict. constructor; [|constructor]. apply pl_list. repeat constructor. Qed.

(** ** C58 *)
Theorem C58_nested_objects : forall props w, handle (JObj props) = Ok w -> exists d, w = JDict d /\
  forall k, In k (d_keys d) <-> exists n g v, In (n, g) props /\ g json_context = Ok v /\ v <> JNone /\
     ~ (exists x y, py "acontext" = x ++ n ++ y) /\ k = match d_get n keymap with Some m => m | None => n end.
Proof. exact C58_lemma. Qed.
Print Assumptions C58_nested_objects.
(** a concrete object whose [context] property is lost *)
Theorem C58_context_lost_refuted : exists props, handle (JObj props) = Ok (JDict [(py "@id", JStr (py "x"))]) /\
  In (py "context", ex_const (JStr (py "c"))) props.
Proof. exists [(py "aid", ex_const (JStr (py "x"))); (py "context", ex_const (JStr (py "c"))); (py "acontext", ex_const (JStr (py "u")))]. split; [vm_compute; reflexivity|simpl; auto]. Qed.
Print Assumptions C58_context_lost_refuted.
Example C58_case : handle (JObj ex_props) = Ok (JDict [(py "@id", JStr (py "x")); (py "tag", JList [JStr (py "True"); JList [JInt 1; JStr (py "None")]]); (py "secret", JInt 7)]).
Proof. vm_compute. reflexivity. Qed.

(** ** C59. [allowed] and [stored] are in ValidateFacts *)
Theorem C59_accepts_exactly_the_allowed : forall Ow types functional none additional (set_prop : Ow -> pv -> Ow * res unit) o v,
  (allowed (validator_types types none) functional additional v -> checked_set types functional none additional set_prop o v = set_prop o (stored v)) /\
  (~ allowed (validator_types types none) functional additional v -> exists e, checked_set types functional none additional set_prop o v = (o, Err e) /\
     (e = ValueError \/ exists f cs i, In f additional /\ f i cs = Err e)).
Proof. exact @C59_set. Qed.
Print Assumptions C59_accepts_exactly_the_allowed.
Theorem C59_lists_stored_as_they_are : forall v, list_tree v -> stored v = v.
Proof. exact stored_lists. Qed.
Print Assumptions C59_lists_stored_as_they_are.
Theorem C59_none_accepted : forall types functional additional, (forall f, In f additional -> f 0%N [0%N] = Ok tt) -> allowed (validator_types types true) functional additional pv_none.
Proof. exact C59_none. Qed.
Print Assumptions C59_none_accepted.
(** "on success the stored value equals the input" fails for tuples and sets: they are stored as lists *)
Theorem C59_tuple_stored_as_list_refuted : exists types v, evaluate types true [] v = Ok (VL []) /\ v <> VL [].
Proof. exists [TTuple], (VT []). split; [reflexivity|discriminate]. Qed.
Print Assumptions C59_tuple_stored_as_list_refuted.
(** an extra validator that answers False instead of raising (such as validate_url) never rejects anything *)
Theorem C59_returning_validators_ignored : forall types functional additional v, (forall f i cs, In f additional -> f i cs = Ok tt) ->
  forall w, evaluate types functional additional v = Ok w <-> evaluate types functional [] v = Ok w.
Proof.
  intros types fn ad v Hf w. rewrite !evaluate_spec. assert (H : allowed types fn ad v <-> allowed types fn [] v).
  { clear w. induction v as [cs i|l IH|l IH|l IH] using pv_ind2; split; intros H; inversion H as [? ? H1 H2|? H1 H2|? H1 H2|? H1 H2]; subst.
    1,2: constructor; auto; try (intros f []).
    all: constructor; auto; clear H H1; induction IH as [|x l Hx Hl IHl]; constructor; apply Forall_cons_iff in H2 as [H2 H3]; [now apply Hx|now apply IHl]. }
  now rewrite H.
Qed.
Print Assumptions C59_returning_validators_ignored.
(* class 1 = str, class 2 = Link *)
(** is_nonnegative as an extra validator, on a value of an allowed type: None and numbers that are not negative are accepted (0 included), negative ones give ValueError, anything else TypeError *)
Theorem C59_nonnegative : forall types functional num cs i, isinstance (Leaf cs i) (effective types functional) = true ->
  (evaluate types functional [is_nonnegative num] (Leaf cs i) = Ok (Leaf cs i) <-> In 0%N cs \/ exists z, num i = Some z /\ 0 <= z) /\
  (evaluate types functional [is_nonnegative num] (Leaf cs i) = Err ValueError <-> ~ In 0%N cs /\ exists z, num i = Some z /\ z < 0) /\
  (evaluate types functional [is_nonnegative num] (Leaf cs i) = Err TypeError <-> ~ In 0%N cs /\ num i = None).
Proof.
  intros types functional num cs i H. cbn [evaluate]. rewrite H. cbn [negb run_all]. unfold is_nonnegative. destruct (existsb (N.eqb 0) cs) eqn:E.
  - assert (I : In 0%N cs) by (apply existsb_exists in E as (x & I & X); apply N.eqb_eq in X; now subst). repeat split; auto; try discriminate; intros [X _]; contradiction.
  - assert (I : ~ In 0%N cs) by (intros X; assert (existsb (N.eqb 0) cs = true) by (apply existsb_exists; exists 0%N; split; [exact X|reflexivity]); congruence).
    destruct (num i) as [z|]; [destruct (Z.ltb_spec z 0)|].
    + repeat split; try discriminate; eauto; try (intros [X|(w & X & Y)]; [contradiction|assert (z = w) as -> by congruence; lia]); intros [_ X]; discriminate.
    + repeat split; eauto; try discriminate; try (intros (_ & w & X & Y); assert (z = w) as -> by congruence; lia); intros [_ X]; discriminate.
    + repeat split; auto; try discriminate; [intros [X|(w & X & Y)]; [contradiction|discriminate]|intros (_ & w & X & Y); discriminate].
Qed.
Print Assumptions C59_nonnegative.
Example C59_case : evaluate (validator_types [TClass 1; TClass 2] true) false [] (VL [Leaf [1%N] 5; VL [Leaf [2%N] 6; pv_none]]) = Ok (VL [Leaf [1%N] 5; VL [Leaf [2%N] 6; pv_none]]) /\
  evaluate (validator_types [TClass 1] true) true [] (VL [Leaf [1%N] 5]) = Err ValueError /\
  evaluate (validator_types [TClass 1] true) false [] (VL [Leaf [3%N] 5]) = Err ValueError /\
  evaluate [TClass 1] false [is_nonnegative (fun i => Some (Z.of_N i - 10))] (Leaf [1%N] 5) = Err ValueError.
Proof. vm_compute. auto. Qed.
