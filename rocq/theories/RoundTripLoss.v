(** Proofs for C87: what does not survive. *)
From Coq Require Import String Lia.
From Verif Require Import Base BaseFacts Dict DictFacts Package Intake IntakeFacts PropsIntake Duration DateTime DateTimeFacts DateTimeMore Url UrlFacts JsonData VocabTables Vocab VocabFacts VocabStore VocabConstruct VocabLinks VocabRead VocabClean PropsVocab RoundTrip RoundTripSpec RoundTripFacts RoundTripBack.
Open Scope list_scope.

Section Loss.
Variable netloc_ok : pystr -> bool.
Variable nd : N -> option N.
Variable email : pystr -> res bool.
Variable props_order : bool -> cname -> list pystr.
Variable show : value -> pystr.
Variable int_text : Z -> pystr.
Variable num : pystr -> value.
Variable ctx : pystr.
Variable St : Type.
Variable expand : St -> pv -> St * res (list (option (list pystr))).
Variable registry : nsdict.
Variable loads : pystr -> res pv.
Notation create_link := (create_link netloc_ok nd email).
Notation json_read := (json_read netloc_ok nd email props_order).
Notation json_handle := (json_handle netloc_ok nd email props_order show).
Notation json_data := (json_data netloc_ok nd email props_order show).
Notation construct := (construct netloc_ok nd email).
Notation assign := (assign netloc_ok nd email).
Notation pv_of := (pv_of int_text).
Notation arg_of := (arg_of num).
Notation engine_construct := (engine_construct netloc_ok nd email num St).
Notation engine_properties := (engine_properties props_order).
Notation unpack := (unpack St value expand engine_construct engine_properties registry).
Notation read_text := (read_text netloc_ok nd email props_order num St expand registry loads).
Hypothesis Ho : orders props_order.
Hypothesis Hctx : ctx <> [].
Hypothesis Hexp : understands St expand registry number ctx.

(** the entry of a property in the data *)
Lemma data_entry fuel c a d n v : In n (property_set true c) -> n <> py "acontext" -> json_read true c a n = Ok v -> json_data fuel default_args true c a = Ok d ->
  if is_none v then d_get n d = None else exists w, json_handle fuel v = Ok w /\ d_get n d = Some w.
Proof.
  intros Hn Hn2 Hr Hd. pose proof (json_data_get netloc_ok nd email props_order (fun _ _ => true) (fun _ _ => []) show (fun l c => proj2 (Ho l c)) fuel default_args true c a d n v (default_nodup props_order c Ho) Hn Hr Hd) as H.
  rewrite (default_out c n Hn) in H. assert (str_eqb n (py "acontext") = false) as E by now apply str_eqb_neq. rewrite E in H. unfold kept in H. cbn [v_none v_reject default_args orb negb andb] in H. destruct (is_none v); exact H.
Qed.
Lemma read_doc fuel c a d t : c <> Object -> c <> Link -> peek true c a (py "acontext") = Some (VStr ctx) -> peek true c a (py "type") = Some (VStr (name_of c)) ->
  json_data fuel default_args true c a = Ok d -> loads t = Ok (document_of int_text d) -> forall s s' r, read_text t s = (s', r) ->
  (exists e, r = Err e) \/ (exists args, r = construct true c args /\ forall n, In n (property_set true c) -> n <> py "acontext" ->
    match d_get n d with None => d_get n args = Some VNone | Some j => exists o s1 s2, d_get n args = Some (arg_of o) /\ unpack (pv_of j) (PStr ctx) s1 = (s2, Ok o) end).
Proof.
  intros Hc1 Hc2 Hac Hty Hd Ht s s' r. destruct (specials c) as (_ & _ & _ & Sp4 & _).
  assert (Hx : d_get (py "@context") d = Some (JStr ctx)).
  { assert (In (py "acontext") (property_set true c)) as Hi by now left.
    assert (Hr : json_read true c a (py "acontext") = Ok (VStr ctx)). { unfold VocabRead.json_read. change (str_eqb (py "acontext") (py "__namespace__")) with false. cbv iota. change (prop_of true c (py "acontext")) with (Some acontext_def). rewrite (peek_prop true c a (py "acontext") acontext_def eq_refl) in Hac. cbv iota beta. rewrite Hac. reflexivity. }
    pose proof (json_data_get netloc_ok nd email props_order (fun _ _ => true) (fun _ _ => []) show (fun l c => proj2 (Ho l c)) fuel default_args true c a d (py "acontext") (VStr ctx) (default_nodup props_order c Ho) Hi Hr Hd) as H.
    change (kept default_args (py "acontext") (VStr ctx)) with true in H. destruct H as (w & Hw & H). change (out_name default_args (py "acontext")) with (py "@context") in H. rewrite H. destruct fuel; [discriminate Hw|]. cbn in Hw. injection Hw as <-. reflexivity. }
  assert (Hy : d_get (py "type") d = Some (JStr (name_of c))).
  { assert (Hr : json_read true c a (py "type") = Ok (VStr (name_of c))). { unfold VocabRead.json_read. destruct (str_eqb (py "type") (py "__namespace__")) eqn:E; [discriminate|]. rewrite (row_type_prop c Hc1 Hc2). now rewrite Hty. }
    pose proof (data_entry fuel c a d (py "type") _ Sp4 ltac:(discriminate) Hr Hd) as H. cbn [is_none] in H. destruct H as (w & Hw & H). rewrite H. destruct fuel; [discriminate Hw|]. cbn in Hw. injection Hw as <-. reflexivity. }
  unfold RoundTrip.read_text, from_text. rewrite Ht. change (document_of int_text d) with (PDict (pvd int_text d)).
  assert (Hx2 : d_get (py "@context") (pvd int_text d) = Some (PStr ctx)) by (rewrite pvd_get, Hx; reflexivity).
  assert (Hy2 : d_get (py "type") (pvd int_text d) = Some (PStr (name_of c))) by (rewrite pvd_get, Hy; reflexivity).
  assert (Hdoc : document (pvd int_text d) = pvd int_text d). { unfold document. rewrite Hx2. assert (Intake.truthy (PStr ctx) = true) as ->; [cbn; destruct ctx; [contradiction|reflexivity]|reflexivity]. }
  assert (Hcx : context_of (pvd int_text d) = PStr ctx) by (unfold context_of; now rewrite Hx2).
  destruct (Hexp s (pvd int_text d) c Hx2 Hy2 Hc1 Hc2) as (s1 & u & us & rest & E1 & E2). intros E.
  destruct (C72_constructor_call St value expand engine_construct engine_properties registry (pvd int_text d) s s1 (Some (u :: us) :: rest) (number c) (props_order true c) s' r) as [(k & v & x & y & e & _ & _ & _ & ->)|(s2 & args & A & _ & B & _ & C)].
  - rewrite Hdoc. exact E1.
  - exact I.
  - unfold class_of_type. cbn [first_type]. now rewrite E2.
  - unfold RoundTrip.engine_properties. now rewrite number_class.
  - apply Ho.
  - exact E.
  - left. eauto.
  - right. unfold RoundTrip.engine_construct in A. rewrite number_class in A. apply pair_equal_spec in A as [_ A]. exists (map (fun p => (fst p, arg_of (snd p))) args). split; [symmetry; exact A|].
    intros n Hn Hn2. specialize (C n (proj2 (proj2 (Ho true c) n) Hn) Hn2). rewrite pvd_get in C. destruct (d_get n d) as [j|].
    + rewrite Hcx in C. destruct C as (o & x & y & Ga & U). exists o, x, y. rewrite d_get_map, Ga. auto.
    + rewrite d_get_map, C. reflexivity.
Qed.
(** a property that is sent as a text comes back as that text *)
Lemma text_back fuel c a d t n v x : c <> Object -> c <> Link -> peek true c a (py "acontext") = Some (VStr ctx) -> peek true c a (py "type") = Some (VStr (name_of c)) ->
  json_data fuel default_args true c a = Ok d -> loads t = Ok (document_of int_text d) -> In n (property_set true c) -> n <> py "acontext" ->
  json_read true c a n = Ok v -> is_none v = false -> (forall f w, json_handle f v = Ok w -> w = JStr x) ->
  forall s s' r, read_text t s = (s', r) -> (exists e, r = Err e) \/ (exists args, r = construct true c args /\ d_get n args = Some (VStr x)).
Proof.
  intros Hc1 Hc2 Hac Hty Hd Ht Hn Hn2 Hr Hv Hw s s' r E. destruct (read_doc fuel c a d t Hc1 Hc2 Hac Hty Hd Ht s s' r E) as [H|(args & Er & H)]; [now left|]. right. exists args. split; [exact Er|].
  specialize (H n Hn Hn2). pose proof (data_entry fuel c a d n v Hn Hn2 Hr Hd) as He. rewrite Hv in He. destruct He as (w & H1 & H2). apply Hw in H1. subst w. rewrite H2 in H. destruct H as (o & s1 & s2 & Ga & U). cbn in U. assert (ORaw (PStr x) = o) as <- by congruence. exact Ga.
Qed.
Lemma refused_text c n p x : In n (property_set true c) -> ~ In n (ignored c) -> ~ In n [py "totalItems"; py "startIndex"] -> prop_of true c n = Some p -> n <> py "__namespace__" -> pd_checked p = true -> pd_parse p = false ->
  (pd_link p = true -> create_link true (VStr x) = Ok (VStr x)) -> isinstance (VStr x) (effective (pd_types p ++ [TyNone]) (pd_functional p)) = false ->
  forall args o, d_get n args = Some (VStr x) -> construct true c args <> Ok o.
Proof.
  intros Hin Hi Hsp Hp Hn Hck Hpa Hl Hno args o Ha H. destruct (proj1 (C75_succeeds netloc_ok nd email c args) (ex_intro _ o H)) as (_ & _ & H3). destruct (H3 n Hin Hi []) as [b Hs].
  assert (E : effective_arg args n = VStr x). { unfold effective_arg, arg. rewrite Ha. destruct (str_eqb n (py "totalItems") || str_eqb n (py "startIndex")) eqn:E; [|reflexivity]. exfalso. apply Hsp. apply orb_true_iff in E as [E|E]; apply str_eqb_eq in E; subst n; cbn; auto. }
  rewrite E, assign_norm in Hs. unfold VocabFacts.norm in Hs. destruct (str_eqb n (py "__namespace__")) eqn:E1; [apply str_eqb_eq in E1; contradiction|]. rewrite Hp in Hs.
  assert (Ec : (if pd_link p then create_link true (VStr x) else Ok (VStr x)) = Ok (VStr x)) by (destruct (pd_link p); [now apply Hl|reflexivity]). rewrite Ec, Hck, evaluate_eq, Hno in Hs. discriminate.
Qed.
End Loss.
