From Coq Require Import String.
From Verif Require Import Base BaseFacts Dict DictFacts PyClass PyClassFacts Kamino Package Engine ObjectReadSpec ObjectReadFacts PropsPackage.
Open Scope list_scope.

(** ** C100 the classes as attributes of the engine *)
(** the registered classes by their names, in the order of registration *)
Definition named {P V} (w : world P V) (r : nsdict) : list (pystr * nat) := map (fun x => (c_name (get_cls w (snd x)), snd x)) r.
(** the engine's own read-only attributes *)
Definition taken (n : pystr) : Prop := n = py "packages" \/ n = py "class_registry" \/ n = py "property_registry".
Lemma read_only_taken n : read_only n = true <-> taken n.
Proof. unfold read_only, taken. rewrite mem_str_In. cbn [In]. intuition congruence. Qed.
Lemma set_attrs_spec P V (w : world P V) r : forall acc,
  ((exists n c, In (n, c) (named w r) /\ taken n) /\ set_class_attrs P V w r acc = Err AttributeError) \/
  ((forall n c, In (n, c) (named w r) -> ~ taken n) /\ set_class_attrs P V w r acc = Ok (d_merge acc (named w r))).
Proof.
  induction r as [|[k c] r IH]; intros acc; cbn [set_class_attrs]; [right; split; [intros n c []|reflexivity]|].
  destruct (read_only (c_name (get_cls w c))) eqn:R.
  - left. split; [|reflexivity]. exists (c_name (get_cls w c)), c. split; [now left|now apply read_only_taken].
  - destruct (IH (d_set (c_name (get_cls w c)) c acc)) as [[[n [d [I T]]] E]|[I E]].
    + left. split; [|exact E]. exists n, d. split; [now right|exact T].
    + right. split; [|exact E]. intros n d [X|X]; [|exact (I n d X)]. injection X as <- <-. rewrite <- read_only_taken, R. discriminate.
Qed.

(** engine.Name is the class registered last under that class name (classes of other names do not matter); engine.Name for any other name is no class. No class has a taken name. *)
Theorem C100_attributes : forall P V show engine_ref (w : world P V) arg w' e, engine_init P V show engine_ref w arg = (w', Ok e) ->
  (forall n c, d_get n (e_attrs e) = Some c <-> last_read (named w' (e_registry e)) n c) /\ NoDup (d_keys (e_attrs e)) /\ firsts (map fst (named w' (e_registry e))) (d_keys (e_attrs e)) /\
  forall k c, In (k, c) (e_registry e) -> ~ taken (c_name (get_cls w' c)).
Proof.
  intros P V show er w arg w' e H. destruct arg as [p|l|]; try discriminate H. cbn [engine_init] in H.
  destruct (register_all P V show er w [] (p_objects p)) as [[w1 r] [u|x]]; [|discriminate H].
  destruct (set_attrs_spec P V w1 r []) as [[_ E]|[T E]]; rewrite E in H; [discriminate H|]. injection H as <- <-. cbn [e_attrs e_registry].
  pose proof (merge_firsts nat (named w1 r)) as F.
  split; [|split; [eapply firsts_nodup; exact F|split; [exact F|]]].
  - intros n c. rewrite d_get_merge, <- (last_of_spec nat). cbn [d_get]. destruct (last_of n (named w1 r)); reflexivity.
  - intros k c I. apply (T _ c). apply in_map_iff. exists (k, c). auto.
Qed.
Print Assumptions C100_attributes.
(** a package whose classes get registered makes an engine unless one of them has a taken name; then AttributeError, although its classes already refer to the engine *)
Theorem C100_construction : forall P V show engine_ref (w : world P V) p w1 r, register_all P V show engine_ref w [] (p_objects p) = (w1, r, Ok tt) ->
  ((exists k c, In (k, c) r /\ taken (c_name (get_cls w1 c))) -> engine_init P V show engine_ref w (EPackage p) = (w1, Err AttributeError)) /\
  ((forall k c, In (k, c) r -> ~ taken (c_name (get_cls w1 c))) -> exists e, engine_init P V show engine_ref w (EPackage p) = (w1, Ok e) /\ e_registry e = r /\ e_package e = p).
Proof.
  intros P V show er w p w1 r E. cbn [engine_init]. rewrite E. destruct (set_attrs_spec P V w1 r []) as [[[n [d [I T]]] ->]|[T ->]].
  - split; [reflexivity|]. intros H. exfalso. apply in_map_iff in I. destruct I as [[k c] [X I]]. injection X as <- <-. exact (H k c I T).
  - split; [|intros _; eexists; repeat split]. intros [k [c [I X]]]. exfalso. apply (T (c_name (get_cls w1 c)) c); [|exact X]. apply in_map_iff. exists (k, c). auto.
Qed.
Print Assumptions C100_construction.

(** two registered classes of the same name: the later one is the attribute *)
Definition ex_named : world nat nat := [mkCls (py "object") [] [0%nat] [(py "__get_namespace__", ANs (NsType (py "v"))); (py "type", AStr (py "o"))]; mkCls (py "Note") [0%nat] [1%nat; 0%nat] [(py "type", AStr (py "a"))]; mkCls (py "Note") [0%nat] [2%nat; 0%nat] [(py "type", AStr (py "b"))];
  mkCls (py "packages") [0%nat] [3%nat; 0%nat] [(py "type", AStr (py "c"))]].
Example C100_case :
  match engine_init nat nat (fun _ _ => []) 5 ex_named (EPackage (mkPackage (py "v") [(1%nat, 1%nat); (2%nat, 2%nat)] [] [] None)) with
  | (_, Ok e) => e_attrs e = [(py "Note", 2%nat)] /\ e_registry e = [(Some (py "v#a"), 1%nat); (Some (py "v#b"), 2%nat)] | _ => False end /\
  snd (engine_init nat nat (fun _ _ => []) 5 ex_named (EPackage (mkPackage (py "v") [(1%nat, 1%nat); (3%nat, 3%nat)] [] [] None))) = Err AttributeError.
Proof. split; [split|]; vm_compute; reflexivity. Qed.
