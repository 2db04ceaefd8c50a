(** Proofs for C87. *)
From Coq Require Import String Lia.
From Verif Require Import Base BaseFacts Dict DictFacts Package Intake IntakeFacts Duration DateTime DateTimeFacts DateTimeMore Url UrlFacts JsonData VocabTables Vocab VocabFacts VocabStore VocabConstruct VocabLinks VocabRead VocabClean PropsVocab RoundTrip RoundTripSpec.
Open Scope list_scope.

(** ** same *)
Lemma same_all_iff l m : same_all l m <-> Forall2 same l m.
Proof. split; induction 1; constructor; auto. Qed.
Lemma same_str s v : same (VStr s) v -> v = VStr s.
Proof. intros H. inversion H. reflexivity. Qed.
Lemma same_none v : same VNone v -> v = VNone.
Proof. intros H. inversion H. reflexivity. Qed.
Lemma same_int z v : same (VInt z) v -> v = VInt z.
Proof. intros H. inversion H. reflexivity. Qed.

Section Facts.
Variable netloc_ok : pystr -> bool.
Variable nd : N -> option N.
Variable email : pystr -> res bool.
Variable props_order : bool -> cname -> list pystr.
Variable show : value -> pystr.
Variable int_text : Z -> pystr.
Variable num : pystr -> value.
Variable ctx : pystr.
Notation create_link := (create_link netloc_ok nd email).
Notation evaluate := (evaluate netloc_ok nd).
Notation run_checks := (run_checks netloc_ok nd).
Notation norm := (norm netloc_ok nd).
Notation portable := (portable netloc_ok nd email num ctx).
Notation all_portable := (all_portable netloc_ok nd email num ctx).
Notation portable_at := (portable_at netloc_ok nd email num ctx).
Notation portable_ref := (portable_ref netloc_ok nd email num ctx).
Notation portable_refs := (portable_refs netloc_ok nd email num ctx).
Notation json_read := (json_read netloc_ok nd email props_order).
Notation json_handle := (json_handle netloc_ok nd email props_order show).
Notation json_data := (json_data netloc_ok nd email props_order show).
Notation json_collect := (json_collect netloc_ok nd email props_order).
Notation construct := (construct netloc_ok nd email).
Notation pv_of := (pv_of int_text).
Notation arg_of := (arg_of num).

Lemma run_checks_obj ks c a b : run_checks ks (VObj true c a) = match run_checks ks (VObj true c b) with Ok x => Ok x | Err e => Err e end.
Proof. induction ks as [|k ks IH]; [reflexivity|]. destruct k; cbn; try reflexivity. exact IH. Qed.
Lemma evaluate_same v : forall w, same v w -> forall ts f ks, evaluate ts f ks v = Ok v -> evaluate ts f ks w = Ok w.
Proof.
  induction v using value_tree_ind; intros w Hs ts f ks E; try (inversion Hs; subst; exact E).
  - inversion Hs; subst; [exact E|]. match goal with Hx : same_all _ _ |- _ => apply same_all_iff in Hx; rename Hx into F end. rewrite evaluate_eq in E |- *.
    change (isinstance (VList m) (effective ts f)) with (isinstance (VList l) (effective ts f)). destruct (isinstance (VList l) (effective ts f)); cbn [negb] in *; [|discriminate].
    destruct (map_ok (evaluate (effective ts f) f ks) l) as [ys|e] eqn:M; [|discriminate]. assert (ys = l) as -> by congruence. apply map_ok_Forall2 in M.
    assert (M2 : map_ok (evaluate (effective ts f) f ks) m = Ok m); [|now rewrite M2]. apply map_ok_Forall2. clear - H F M. revert H M. induction F as [|x y l m Hxy F IH]; intros H M; constructor.
    + inversion M; subst. inversion H; subst. eauto.
    + inversion M; subst. inversion H; subst. auto.
  - inversion Hs; subst; [exact E|]. rewrite evaluate_eq in E |- *. change (isinstance (VObj true c b) (effective ts f)) with (isinstance (VObj true c a) (effective ts f)). destruct (isinstance (VObj true c a) (effective ts f)); cbn [negb] in *; [|discriminate].
    rewrite (run_checks_obj ks c b a). destruct (run_checks ks (VObj true c a)); [reflexivity|discriminate].
Qed.

(** ** links *)
Lemma link_made s : exists b, construct_with netloc_ok nd (fun _ x => Ok x) true Link [(py "href", VStr s)] = Ok (VObj true Link b) /\
  forall n, In n (property_set true Link) -> n <> py "__namespace__" -> peek true Link b n = Some (if str_eqb n (py "href") then VStr s else if str_eqb n (py "acontext") then VStr as_ns else VNone).
Proof.
  eexists. split; [vm_compute; reflexivity|]. intros n H Hn. vm_compute in H. repeat (destruct H as [<-|H]; [try (vm_compute; reflexivity); now destruct Hn|]). destruct H.
Qed.
Lemma link_text_link s : http_url netloc_ok false s \/ account netloc_ok email s -> link_text netloc_ok email s = Ok true.
Proof. intros H. apply link_text_true. destruct H as [H|H]; [left; now apply C63_lemma|now right]. Qed.
Lemma plain_link_back a s : (http_url netloc_ok false s \/ account netloc_ok email s) ->
  (forall n, In n (property_set true Link) -> n <> py "__namespace__" -> peek true Link a n = Some (if str_eqb n (py "href") then VStr s else if str_eqb n (py "acontext") then VStr as_ns else VNone)) ->
  exists b, create_link true (VStr s) = Ok (VObj true Link b) /\ same (VObj true Link a) (VObj true Link b).
Proof.
  intros Hs Ha. destruct (link_made s) as (b & E & Hb). exists b. split; [cbn [Vocab.create_link]; now rewrite (link_text_link s Hs)|].
  eapply same_obj. intros n Hn1 Hn2. split; [apply Ha; assumption|]. split; [apply Hb; assumption|]. apply same_eq.
Qed.

(** ** one property: written, and read back *)
Lemma portable_kind v : portable v -> match v with VStr _ | VInt _ | VFloat _ _ | VList _ => True | VObj l c a => l = true /\ subclass c Link = false | _ => False end.
Proof. intros H. inversion H; subst; cbn; auto. Qed.
Lemma json_value_portable k v : match v with VDatetime _ | VTimedelta _ => False | _ => True end -> json_value k v = v.
Proof. destruct k, v; try reflexivity; intros []. Qed.
Definition ref_back (v w : value) : Prop := portable w /\ w <> VNone /\ href_of v = Ok w /\ forall raw, same w raw -> exists v', create_link true raw = Ok v' /\ same v v'.
Lemma ref_back_ok v : portable_ref v -> exists w, ref_back v w.
Proof.
  intros H. inversion H as [a (s & Hs & Ha)|s Hn|c a Hp]; subst.
  - exists (VStr s). split; [constructor|]. split; [discriminate|]. split.
    + unfold href_of. change (subclass Link Link) with true. cbv iota. rewrite (Ha (py "href")); [reflexivity| |discriminate]. apply mem_str_in. vm_compute. reflexivity.
    + intros raw Hr. apply same_str in Hr. subst raw. destruct (plain_link_back a s Hs Ha) as (b & E & Hb). eauto.
  - exists (VStr s). split; [constructor|]. split; [discriminate|]. split; [reflexivity|]. intros raw Hr. apply same_str in Hr. subst raw. exists (VStr s). split; [exact Hn|apply same_eq].
  - exists (VObj true c a). split; [exact Hp|]. split; [discriminate|]. split.
    + unfold href_of. destruct (portable_kind _ Hp) as [_ E]. now rewrite E.
    + intros raw Hr. exists raw. split; [|exact Hr]. inversion Hr; subst; reflexivity.
Qed.
Lemma refs_back_ok l : portable_refs l -> exists ws, map_ok href_of l = Ok ws /\ all_portable ws /\ forall raws, same_all ws raws -> exists vs, map_ok (create_link true) raws = Ok vs /\ same_all l vs.
Proof.
  induction l as [|x l IH]; intros H.
  - exists []. split; [reflexivity|]. split; [constructor|]. intros raws Hr. inversion Hr; subst. exists []. split; [reflexivity|constructor].
  - inversion H; subst. destruct (IH H3) as (ws & E & P & B). destruct (ref_back_ok x H2) as (w & Pw & _ & Ew & Bw). exists (w :: ws). split; [cbn; now rewrite Ew, E|]. split; [constructor; assumption|].
    intros raws Hr. inversion Hr; subst. destruct (Bw y H4) as (v' & C1 & S1). destruct (B m H6) as (vs & C2 & S2). exists (v' :: vs). split; [cbn; now rewrite C1, C2|constructor; assumption].
Qed.
Definition time_row (p : pdef) : bool := negb (pd_parse p) || (negb (pd_link p) && match pd_json p with JTime => true | _ => false end && pd_checked p && pd_functional p &&
  match pd_types p with [TyDatetime; TyStr] => true | _ => false end && match pd_checks p with [CkTime] => true | _ => false end).
Lemma time_rows : forallb time_row (acontext_def :: properties_py) = true. Proof. vm_compute. reflexivity. Qed.
Lemma time_row_of n p : row n = Some p -> pd_parse p = true -> pd_link p = false /\ pd_json p = JTime /\ pd_checked p = true /\ pd_functional p = true /\ pd_types p = [TyDatetime; TyStr] /\ pd_checks p = [CkTime].
Proof.
  intros H Hp. apply row_in in H as [H _]. pose proof time_rows as T. rewrite forallb_forall in T. specialize (T p H). unfold time_row in T. rewrite Hp in T. cbn [negb orb] in T. repeat rewrite andb_true_iff in T. destruct T as [[[[[T1 T2] T3] T4] T5] T6].
  split; [now apply negb_true_iff in T1|]. split; [destruct (pd_json p); try discriminate; reflexivity|]. split; [exact T3|]. split; [exact T4|]. split.
  - destruct (pd_types p) as [|t1 [|t2 [|t3 ts]]]; try discriminate; destruct t1; try discriminate; destruct t2; try discriminate; reflexivity.
  - destruct (pd_checks p) as [|k [|k2 ks]]; try discriminate; destruct k; try discriminate; reflexivity.
Qed.
Definition checked_rows : forallb pd_checked properties_py = true. Proof. vm_compute. reflexivity. Qed.
Lemma checked_row n p : row n = Some p -> n <> py "acontext" -> pd_checked p = true.
Proof.
  intros H Hn. apply row_in in H as [[<-|H] E]; [now subst n|]. pose proof checked_rows as T. rewrite forallb_forall in T. now apply T.
Qed.
Hypothesis Hnd : ascii_ok nd.
Lemma sent c a n p v : prop_of true c n = Some p -> n <> py "__namespace__" -> n <> py "acontext" -> peek true c a n = Some v -> portable_at p v ->
  exists w, json_read true c a n = Ok w /\ ((v = VNone /\ w = VNone) \/ (w <> VNone /\ portable w /\ forall raw, same w raw -> exists v', norm true c n raw (create_link true raw) = Ok v' /\ same v v')).
Proof.
  intros Hp Hn1 Hn2 Hs P. rewrite (peek_prop _ _ _ _ _ Hp) in Hs. pose proof (prop_of_row _ _ _ _ Hp) as Hr. pose proof (checked_row n p Hr Hn2) as Hc. pose proof (row_okn n p Hr) as Ho. unfold row_ok in Ho. repeat rewrite andb_true_iff in Ho. destruct Ho as [[[Ho _] _] _].
  assert (Er : json_read true c a n = match (if pd_link p then href_only else @Ok value) (json_value (pd_json p) v) with Ok w => wrap_get netloc_ok nd email props_order true w | Err e => Err e end).
  { unfold VocabRead.json_read. destruct (str_eqb n _) eqn:E; [apply str_eqb_eq in E; congruence|]. now rewrite Hp, Hs. }
  assert (En : forall raw co, norm true c n raw co = match (if pd_link p then co else Ok raw) with Err e => Err e | Ok v => match evaluate (pd_types p ++ [TyNone]) (pd_functional p) (pd_checks p) v with Err e => Err e | Ok w => if pd_parse p then parse_time nd w else Ok w end end).
  { intros raw co. unfold VocabFacts.norm. destruct (str_eqb n _) eqn:E; [apply str_eqb_eq in E; congruence|]. rewrite Hp, Hc. destruct (if pd_link p then co else Ok raw); [|reflexivity]. destruct (evaluate _ _ _ _); [|reflexivity]. destruct (pd_parse p); [|reflexivity]. destruct (parse_time nd a1); reflexivity. }
  rewrite Er. inversion P as [? |? d Hpp Hv Hy Hm Hz|? ? Hl Hpp Hpo Hac|? ? Hl Hre Hac|? l Hl Hre Hac]; subst.
  - exists VNone. split; [|now left]. assert (json_value (pd_json p) VNone = VNone) as -> by (destruct (pd_json p); reflexivity). destruct (pd_link p); reflexivity.
  - destruct (time_row_of n p Hr Hpp) as (R1 & R2 & _ & R4 & R5 & R6). exists (VStr (datetime_str d)). rewrite R1, R2. split; [reflexivity|]. right. split; [discriminate|]. split; [constructor|].
    intros raw Hra. apply same_str in Hra. subst raw. exists (VDatetime d). split; [|apply same_eq]. rewrite En, R1, R4, R5, R6, Hpp. destruct (C61_lemma nd Hnd d Hv Hy) as [V1 V2].
    assert (evaluate ([TyDatetime; TyStr] ++ [TyNone]) true [CkTime] (VStr (datetime_str d)) = Ok (VStr (datetime_str d))) as ->.
    { rewrite evaluate_eq. change (isinstance (VStr (datetime_str d)) _) with true. cbn [negb Vocab.run_checks Vocab.run_check dval_of]. now rewrite V1. }
    unfold parse_time. cbn [dval_of]. rewrite V2. do 2 f_equal. unfold without_micro_and_offset. destruct d; cbn in *. now subst.
  - exists v. pose proof (portable_kind v Hpo) as K. rewrite Hl. rewrite json_value_portable by (destruct v; auto). split; [destruct v; try reflexivity; destruct K as [-> _]; reflexivity|]. right. split; [intros ->; exact K|]. split; [exact Hpo|].
    intros raw Hra. exists raw. split; [|exact Hra]. rewrite En, Hl, Hpp. now rewrite (evaluate_same v raw Hra _ _ _ Hac).
  - destruct (ref_back_ok v Hre) as (w & Pw & Nw & Ew & Bw). exists w. rewrite Hl in Ho |- *. destruct (pd_parse p) eqn:Hpp; [discriminate|].
    assert (K : match v with VStr _ | VObj true _ _ => True | _ => False end) by (inversion Hre; subst; auto). rewrite json_value_portable by (destruct v; auto; contradiction).
    assert (Eh : href_only v = href_of v) by (destruct v; try reflexivity; contradiction). rewrite Eh, Ew. split.
    + pose proof (portable_kind w Pw) as Kw. destruct w; try reflexivity; destruct Kw as [-> _]; reflexivity.
    + right. split; [exact Nw|]. split; [exact Pw|]. intros raw Hra. destruct (Bw raw Hra) as (v' & E1 & S1). exists v'. split; [|exact S1]. rewrite En, Hl, E1. now rewrite (evaluate_same v v' S1 _ _ _ Hac).
  - destruct (refs_back_ok l Hre) as (ws & E & Pw & B). exists (VList ws). rewrite Hl in Ho |- *. destruct (pd_parse p) eqn:Hpp; [discriminate|]. rewrite json_value_portable by exact I. cbn [href_only]. rewrite E. split; [reflexivity|]. right. split; [discriminate|].
    split; [constructor; exact Pw|]. intros raw Hra. assert (exists raws, raw = VList raws /\ same_all ws raws) as (raws & -> & Hra2).
    { inversion Hra; subst; [exists ws; split; [reflexivity|apply same_all_iff; clear; induction ws; constructor; [apply same_eq|assumption]]|eauto]. }
    destruct (B raws Hra2) as (vs & C & S2). exists (VList vs). assert (S3 : same (VList l) (VList vs)) by now apply same_list. split; [|exact S3]. rewrite En, Hl. cbn [Vocab.create_link]. rewrite C. now rewrite (evaluate_same _ _ S3 _ _ _ Hac).
Qed.
End Facts.
