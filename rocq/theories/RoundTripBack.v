(** Proofs for C87: whole objects. *)
From Coq Require Import String Lia.
From Verif Require Import Base BaseFacts Dict DictFacts Package Intake IntakeFacts Duration DateTime DateTimeFacts DateTimeMore Url UrlFacts JsonData VocabTables Vocab VocabFacts VocabStore VocabConstruct VocabLinks VocabRead VocabClean PropsVocab RoundTrip RoundTripSpec RoundTripFacts.
Open Scope list_scope.

(** ** tables *)
Lemma number_class c : class_of_number (number c) = Some c.
Proof. destruct c; vm_compute; reflexivity. Qed.
Definition name_table (c : cname) : bool := forallb (fun n => (str_eqb n (py "acontext") || negb (is_substr n (py "acontext"))) && negb (str_eqb n (py "@context")) && negb (str_eqb n (py "self"))) (property_set true c).
Lemma name_tables : forallb name_table all_classes = true. Proof. vm_compute. reflexivity. Qed.
Lemma names_ok c n : In n (property_set true c) -> (n <> py "acontext" -> is_substr n (py "acontext") = false) /\ n <> py "@context" /\ n <> py "self".
Proof.
  intros H. pose proof (by_class _ name_tables c) as T. unfold name_table in T. rewrite forallb_forall in T. specialize (T n H). repeat rewrite andb_true_iff in T. destruct T as [[T1 T2] T3].
  split; [|split; intros ->; discriminate]. intros Hn. apply orb_true_iff in T1 as [T1|T1]; [apply str_eqb_eq in T1; contradiction|now apply negb_true_iff in T1].
Qed.
Definition special_table (c : cname) : bool := (negb (mem_str (py "totalItems") (property_set true c)) || is_collection c) && (negb (mem_str (py "startIndex") (property_set true c)) || class_eqb c OrderedCollectionPage) &&
  (negb (needs_id c) || mem_str (py "id") (property_set true c)) && mem_str (py "type") (property_set true c) && (subclass c Link || negb (mem_str (py "hreflang") (property_set true c))).
Lemma special_tables : forallb special_table all_classes = true. Proof. vm_compute. reflexivity. Qed.
Lemma class_eqb_eq a b : class_eqb a b = true -> a = b.
Proof. unfold class_eqb. intros H. apply N.eqb_eq in H. destruct a, b; try discriminate H; reflexivity. Qed.
Lemma specials c : (In (py "totalItems") (property_set true c) -> is_collection c = true) /\ (In (py "startIndex") (property_set true c) -> c = OrderedCollectionPage) /\
  (needs_id c = true -> In (py "id") (property_set true c)) /\ In (py "type") (property_set true c) /\ (subclass c Link = false -> ~ In (py "hreflang") (property_set true c)).
Proof.
  pose proof (by_class _ special_tables c) as T. unfold special_table in T. repeat rewrite andb_true_iff in T. destruct T as [[[[T1 T2] T3] T4] T5].
  split; [intros H; apply mem_str_in in H; rewrite H in T1; exact T1|]. split; [intros H; apply mem_str_in in H; rewrite H in T2; now apply class_eqb_eq|]. split; [intros H; rewrite H in T3; now apply mem_str_in|].
  split; [now apply mem_str_in|]. intros H Hi. apply mem_str_in in Hi. rewrite H, Hi in T5. discriminate.
Qed.
Lemma row_type_prop c : c <> Object -> c <> Link -> prop_of true c (py "type") = None.
Proof. intros H1 H2. unfold prop_of. destruct (str_eqb (py "type") (py "acontext")) eqn:E; [discriminate|]. assert (plain_type c (py "type") = true) as -> by (unfold plain_type; destruct c; try reflexivity; contradiction). now rewrite andb_false_r. Qed.

Section Back.
Variable netloc_ok : pystr -> bool.
Variable nd : N -> option N.
Variable email : pystr -> res bool.
Variable props_order : bool -> cname -> list pystr.
Variable show : value -> pystr.
Variable int_text : Z -> pystr.
Variable num : pystr -> value.
Variable ctx : pystr.
Variable St : Type.
Variable expand : St -> pv -> St * res (list (option (list pystr))).
Variable registry : nsdict.
Notation create_link := (create_link netloc_ok nd email).
Notation portable := (portable netloc_ok nd email num ctx).
Notation all_portable := (all_portable netloc_ok nd email num ctx).
Notation portable_at := (portable_at netloc_ok nd email num ctx).
Notation json_read := (json_read netloc_ok nd email props_order).
Notation json_handle := (json_handle netloc_ok nd email props_order show).
Notation json_data := (json_data netloc_ok nd email props_order show).
Notation json_collect := (json_collect netloc_ok nd email props_order).
Notation construct := (construct netloc_ok nd email).
Notation pv_of := (pv_of int_text).
Notation arg_of := (arg_of num).
Notation engine_construct := (engine_construct netloc_ok nd email num St).
Notation engine_properties := (engine_properties props_order).
Notation unpack := (unpack St value expand engine_construct engine_properties registry).
Notation from_value := (from_value St value expand engine_construct engine_properties registry).
Hypothesis Hnd : ascii_ok nd.
Hypothesis Ho : orders props_order.
Hypothesis Hnum : forall z, num (int_text z) = VInt z.
Hypothesis Hctx : ctx <> [].
Hypothesis Hexp : understands St expand registry number ctx.

Definition back (f : nat) : Prop := forall v j, portable v -> json_handle f v = Ok j -> forall s, exists s' o, unpack (pv_of j) (PStr ctx) s = (s', Ok o) /\ same v (arg_of o).
Definition pvd (d : dict jval) : dict pv := map (fun p => (fst p, pv_of (snd p))) d.
Lemma pvd_get d k : d_get k (pvd d) = match d_get k d with Some j => Some (pv_of j) | None => None end.
Proof. apply d_get_map. Qed.
Lemma in_order c n : In n (props_order true c) <-> In n (property_set true c).
Proof. apply Ho. Qed.
Lemma data_nodup f a l c at' names : forall acc d, NoDup (d_keys acc) -> json_collect (json_handle f) a l c at' names acc = Ok d -> NoDup (d_keys d).
Proof.
  induction names as [|n names IH]; intros acc d Hn; cbn [VocabRead.json_collect]; [intros [= <-]; exact Hn|].
  destruct (if v_none a then Ok true else _) as [c1|e]; [|discriminate]. destruct (negb _); [apply IH; exact Hn|]. destruct (json_read l c at' n) as [v|e]; [|discriminate]. destruct (v_reject a v); [apply IH; exact Hn|].
  destruct (json_handle f v) as [w|e]; [|discriminate]. apply IH. now apply d_set_nodup.
Qed.

Lemma special_int n p v : In n [py "totalItems"; py "startIndex"] -> row n = Some p -> portable_at p v -> v <> VNone -> exists z, v = VInt z.
Proof.
  intros Hi Hrow Pa Nn. assert (pd_link p = false /\ pd_parse p = false /\ pd_types p = [TyInt] /\ pd_functional p = true) as (H1 & H2 & H3 & H4) by (destruct Hi as [<-|[<-|[]]]; vm_compute in Hrow; injection Hrow as <-; repeat split).
  inversion Pa as [? E|? dd X|? ? _ _ Po Acc|? ? X|? ? X]; subst; try congruence; try (now destruct Nn).
  unfold accepted in Acc. rewrite H3, H4 in Acc. inversion Po; subst; cbn in Acc; try discriminate Acc; eauto.
Qed.
(** the values that the constructor gets *)
Lemma obj_back f args c a d cv : back f -> args = nested \/ args = default_args -> portable (VObj true c a) -> json_data f args true c a = Ok d ->
  (forall k, d_get k cv = if str_eqb k (py "@context") then Some (PStr ctx) else d_get k (pvd d)) -> forall s, exists s' o, from_value (PDict cv) s = (s', Ok o) /\ same (VObj true c a) o.
Proof.
  intros IH Ha P Hd Hcv s. inversion P as [| | | |? ? g Hc1 Hc2 Hg Hgc Hgt Hgi Hgs Hgp]; subst c0 a0.
  assert (HcL : c <> Link) by (intros ->; discriminate Hc2).
  assert (Hout : forall n, out_name args n = out_name default_args n) by (intros n; destruct Ha as [-> | ->]; reflexivity).
  assert (HND : NoDup (map (out_name args) (props_order true c))) by (rewrite (map_ext _ _ Hout); now apply default_nodup).
  assert (Hrn : v_none args = false /\ forall v, v_reject args v = false) by (destruct Ha as [-> | ->]; split; reflexivity).
  assert (Hw : forall n, In n (property_set true c) -> n <> py "acontext" -> wanted args n = true).
  { intros n Hn Hn2. destruct (names_ok c n Hn) as (T & _). destruct Ha as [-> | ->]; [|reflexivity]. unfold wanted. cbn [v_include v_exclude nested sel_truthy negb orb andb sel_mem]. rewrite (T Hn2). reflexivity. }
  assert (Hk : forall n v, In n (property_set true c) -> n <> py "acontext" -> json_read true c a n = Ok v -> if is_none v then d_get n d = None else exists j, json_handle f v = Ok j /\ d_get n d = Some j).
  { intros n v Hn Hn2 Hr. pose proof (json_data_get netloc_ok nd email props_order (fun _ _ => true) (fun _ _ => []) show (fun l c => proj2 (Ho l c)) f args true c a d n v HND Hn Hr Hd) as H. unfold kept in H. rewrite (proj1 Hrn), (proj2 Hrn), (Hw n Hn Hn2) in H. cbn [orb negb andb] in H. rewrite andb_true_r, andb_true_r in H.
    rewrite Hout, (default_out c n Hn) in H. destruct (str_eqb n (py "acontext")) eqn:E; [apply str_eqb_eq in E; contradiction|]. now destruct (is_none v). }
  (* the keys that are absent *)
  assert (Hac : d_get (py "acontext") d = None).
  { unfold VocabRead.json_data in Hd. destruct (json_collect (json_handle f) args true c a (props_order true c) []) as [d0|e] eqn:E; [|discriminate]. injection Hd as <-.
    rewrite drop_nones_id by exact (json_collect_somes netloc_ok nd email props_order (json_handle f) args true c a (props_order true c) (fun v w => json_handle_some netloc_ok nd email props_order show f v w) [] d0 eq_refl E).
    refine (json_collect_keep netloc_ok nd email props_order (fun _ _ => true) (fun _ _ => []) show (json_handle f) args true c a (props_order true c) (py "acontext") _ [] d0 E).
    intros Hi. apply in_map_iff in Hi as (m & E2 & Hm). apply in_order in Hm. rewrite Hout, (default_out c m Hm) in E2. destruct (str_eqb m (py "acontext")) eqn:E3; [discriminate|]. subst m. discriminate. }
  assert (Hns : d_get (py "__namespace__") d = None).
  { assert (In (py "__namespace__") (property_set true c)) as Hi by (right; now left). exact (Hk (py "__namespace__") VNone Hi ltac:(discriminate) eq_refl). }
  destruct (specials c) as (Sp1 & Sp2 & Sp3 & Sp4 & Sp5).
  assert (Hty : d_get (py "type") d = Some (JStr (name_of c))).
  { assert (Hr : json_read true c a (py "type") = Ok (VStr (name_of c))). { unfold VocabRead.json_read. destruct (str_eqb (py "type") (py "__namespace__")) eqn:E; [discriminate|]. rewrite (row_type_prop c Hc1 HcL). rewrite (Hg (py "type") Sp4) by discriminate. now rewrite Hgt. }
    pose proof (Hk _ _ Sp4 ltac:(discriminate) Hr) as H. cbn [is_none] in H. destruct H as (j & Hj & Hd2). destruct f; [discriminate Hj|]. cbn in Hj. injection Hj as <-. exact Hd2. }
  (* what is read back for each property *)
  assert (Hsub : forall n, In n (property_set true c) -> n <> py "__namespace__" -> n <> py "acontext" -> n <> py "type" -> exists p w, prop_of true c n = Some p /\ row n = Some p /\ json_read true c a n = Ok w /\
    ((g n = VNone /\ w = VNone) \/ (w <> VNone /\ portable w /\ forall raw, same w raw -> exists v', norm netloc_ok nd true c n raw (create_link true raw) = Ok v' /\ same (g n) v'))).
  { intros n Hn H1 H2 H3. assert (Hpt : plain_type c n = false) by (unfold plain_type; destruct (str_eqb n (py "type")) eqn:E; [apply str_eqb_eq in E; contradiction|reflexivity]).
    destruct (property_set_prop c n Hn H1 Hpt) as (p & Hr & Hp). destruct (sent netloc_ok nd email props_order num ctx Hnd c a n p (g n) Hp H1 H2 (Hg n Hn H1) (Hgp n p Hn H1 H2 H3 Hr)) as (w & Hw1 & Hw2). eauto 6. }
  (* the class *)
  assert (Hcx : d_get (py "@context") cv = Some (PStr ctx)) by (rewrite Hcv; reflexivity).
  assert (Hct : d_get (py "type") cv = Some (PStr (name_of c))) by (rewrite Hcv; change (str_eqb (py "type") (py "@context")) with false; cbv iota; now rewrite pvd_get, Hty).
  assert (Htr : Intake.truthy (PStr ctx) = true) by (cbn; destruct ctx; [contradiction|reflexivity]).
  cbn [Intake.from_value]. unfold from_dict. rewrite Hcx, Htr. cbv zeta. unfold get_object_class.
  destruct (Hexp s cv c Hcx Hct Hc1 HcL) as (s1 & t & ts & rest & E1 & E2). rewrite E1. cbv iota. change (@Some (list N) t) with (@Some pystr t). rewrite E2. change (@Some (list N) t) with (@Some pystr t). rewrite E2. unfold RoundTrip.engine_properties at 1. rewrite number_class.
  set (sub := fun k => match d_get k cv with Some x => Some (unpack x) | None => None end).
  assert (Hsub1 : forall k j, In k (property_set true c) -> k <> py "acontext" -> d_get k d = Some j -> forall s0, exists s' o, unpack (pv_of j) (PStr ctx) s0 = (s', Ok o)).
  { intros k j Hk1 Hk2 Hk3 s0. destruct (str_dec k (py "__namespace__")) as [-> |Hk4]; [congruence|]. destruct (str_dec k (py "type")) as [-> |Hk5]; [rewrite Hty in Hk3; injection Hk3 as <-; exists s0, (ORaw (PStr (name_of c))); reflexivity|].
    destruct (Hsub k Hk1 Hk4 Hk2 Hk5) as (p & w & _ & _ & Hr & Hcase). pose proof (Hk k w Hk1 Hk2 Hr) as H. destruct Hcase as [[_ ->]|(Nw & Pw & _)]; [cbn in H; congruence|]. assert (is_none w = false) as E by (destruct w; try reflexivity; congruence). rewrite E in H. destruct H as (j' & Hj & Hd2).
    assert (j' = j) as -> by congruence. destruct (IH w j Pw Hj s0) as (s' & o & U & _). eauto. }
  destruct (fill_total St value sub (PStr ctx) (props_order true c)) with (s := s1) (acc := @nil (pystr * out value)) as (s2 & args' & Ef).
  { intros k f0 Hk1 Hk2 s0. apply in_order in Hk1. unfold sub in Hk2. rewrite Hcv in Hk2. destruct (str_eqb k (py "@context")) eqn:E; [apply str_eqb_eq in E; subst k; destruct (names_ok c _ Hk1) as (_ & X & _); now destruct X|].
    rewrite pvd_get in Hk2. destruct (d_get k d) as [j|] eqn:Ej; [|discriminate]. injection Hk2 as <-. destruct (str_dec k (py "acontext")) as [-> |N]; [congruence|]. exact (Hsub1 k j Hk1 N Ej s0). }
  rewrite Ef. destruct (fill_ok St value sub (PStr ctx) (props_order true c) s1 s2 [] args' (proj1 (Ho true c)) (fun _ _ => eq_refl) Ef) as (K1 & K2 & K3). cbn in K1.
  unfold RoundTrip.engine_construct. rewrite number_class. set (vals := map (fun p => (fst p, arg_of (snd p))) (d_set (py "acontext") (ORaw (PStr ctx)) args')).
  assert (Hv : forall k, d_get k vals = match d_get k (d_set (py "acontext") (ORaw (PStr ctx)) args') with Some o => Some (arg_of o) | None => None end) by (intros k; apply d_get_map).
  assert (Hvc : d_get (py "acontext") vals = Some (VStr ctx)) by (rewrite Hv, d_get_set_same; reflexivity).
  assert (Hargs : forall n, In n (property_set true c) -> n <> py "__namespace__" -> n <> py "acontext" -> n <> py "type" -> exists raw v', d_get n vals = Some raw /\ norm netloc_ok nd true c n raw (create_link true raw) = Ok v' /\ same (g n) v' /\ (g n = VNone -> raw = VNone)).
  { intros n Hn H1 H2 H3. rewrite Hv, d_get_set_other by exact H2. destruct (K3 n (proj2 (in_order c n) Hn)) as (o & Ho1 & Ho2). rewrite Ho1. exists (arg_of o). unfold sub in Ho2. rewrite Hcv in Ho2.
    destruct (str_eqb n (py "@context")) eqn:E; [apply str_eqb_eq in E; subst n; destruct (names_ok c _ Hn) as (_ & X & _); now destruct X|]. rewrite pvd_get in Ho2. destruct (Hsub n Hn H1 H2 H3) as (p & w & Hp & Hr & Hw1 & Hcase). pose proof (Hk n w Hn H2 Hw1) as Hd2.
    destruct Hcase as [[Gn ->]|(Nw & Pw & B)].
    - cbn in Hd2. rewrite Hd2 in Ho2. subst o. exists VNone. split; [reflexivity|]. rewrite Gn. split; [|split; [apply same_eq|reflexivity]]. cbn [RoundTrip.arg_of raw_of Vocab.create_link].
      destruct (accept_default netloc_ok nd (fun _ x => create_link true x) (fun _ => eq_refl) c n) as [w0 Hw0]; [pose proof (row_okn n p Hr) as T; unfold row_ok in T; repeat rewrite andb_true_iff in T; destruct T as [[[_ T] _] _]; now rewrite (proj2 (row_in n p Hr)) in T|].
      unfold accept in Hw0. assert (arg [] n = VNone) as Ea by (unfold arg; cbn [d_get]; destruct (str_eqb n (py "acontext")) eqn:E3; [apply str_eqb_eq in E3; contradiction|reflexivity]). rewrite Ea in Hw0. cbn [Vocab.create_link] in Hw0.
      rewrite Hw0. f_equal. apply (norm_none netloc_ok nd true c n (Ok VNone) w0 eq_refl Hw0).
    - assert (is_none w = false) as Ew by (destruct w; try reflexivity; congruence). rewrite Ew in Hd2. destruct Hd2 as (j & Hj & Hd3). rewrite Hd3 in Ho2. destruct Ho2 as (x & y & U). destruct (IH w j Pw Hj x) as (s' & o' & U' & Sm). rewrite U in U'. apply pair_equal_spec in U' as [_ U'].
      assert (o' = o) as -> by congruence. destruct (B (arg_of o) Sm) as (v' & N1 & S1). exists v'. split; [reflexivity|]. split; [exact N1|]. split; [exact S1|]. intros Gn. exfalso. rewrite Gn in S1. apply same_none in S1. subst v'.
      assert (portable_at p VNone) by constructor. rewrite Gn in *. revert Hw1. unfold VocabRead.json_read. destruct (str_eqb n (py "__namespace__")) eqn:E4; [apply str_eqb_eq in E4; contradiction|]. rewrite Hp. pose proof (Hg n Hn H1) as Hg1. rewrite (peek_prop _ _ _ _ _ Hp), Gn in Hg1. rewrite Hg1.
      assert (json_value (pd_json p) VNone = VNone) as -> by (destruct (pd_json p); reflexivity). destruct (pd_link p); cbn; congruence. }
  assert (Hself : d_mem (py "self") vals = false).
  { unfold d_mem. rewrite Hv, d_get_set_other by discriminate. assert (d_get (py "self") args' = None) as ->; [|reflexivity]. rewrite K2; [reflexivity|]. intros Hi. apply in_order in Hi. destruct (names_ok c _ Hi) as (_ & _ & X). now destruct X. }
  assert (Hspecial : forall n, In n [py "totalItems"; py "startIndex"] -> In n (property_set true c) -> exists z, g n = VInt z /\ d_get n vals = Some (VInt z)).
  { intros n Hi Hn. assert (n <> py "__namespace__" /\ n <> py "acontext" /\ n <> py "type") as (H1 & H2 & H3) by (destruct Hi as [<-|[<-|[]]]; repeat split; discriminate).
    destruct (Hargs n Hn H1 H2 H3) as (raw & v' & Hr & N1 & S1 & _). destruct (Hsub n Hn H1 H2 H3) as (p & w & Hp & Hrow & _ & _). pose proof (Hgp n p Hn H1 H2 H3 Hrow) as Pa. pose proof (Hgs n Hi Hn) as Nn.
    assert (Hz : exists z, g n = VInt z) by exact (special_int n p (g n) Hi Hrow Pa Nn).
    destruct Hz as [z Hz]. exists z. split; [exact Hz|]. rewrite Hz in S1. apply same_int in S1. subst v'. rewrite Hr. f_equal.
    pose proof (norm_prop netloc_ok nd true c n p raw _ _ Hp N1) as Q. destruct Hi as [<-|[<-|[]]]; vm_compute in Hrow; injection Hrow as <-; cbn in Q; congruence. }
  assert (Hargn : forall n v, d_get n vals = Some v -> arg vals n = v) by (intros n v H; unfold arg; now rewrite H).
  destruct (proj2 (C75_succeeds netloc_ok nd email c vals)) as [o Hcon].
  { split; [exact Hself|]. split.
    - intros Hni. apply needs_id_spec in Hni. assert (Hid : In (py "id") (property_set true c)) by auto. destruct (Hargs (py "id") Hid) as (raw & _ & Hr & _); [discriminate|discriminate|discriminate|]. unfold d_mem. now rewrite Hr.
    - intros n Hn Hi attrs. rewrite assign_norm.
      assert (n <> py "__namespace__") as H1 by (intros ->; apply Hi; now left). assert (n <> py "type") as H3 by (intros ->; apply Hi; right; now left).
      destruct (str_dec n (py "acontext")) as [-> |H2].
      + assert (effective_arg vals (py "acontext") = VStr ctx) as -> by (unfold effective_arg; rewrite (Hargn _ _ Hvc); reflexivity). unfold VocabFacts.norm. change (str_eqb (py "acontext") (py "__namespace__")) with false. cbv iota. change (prop_of true c (py "acontext")) with (Some acontext_def). cbn. eexists. reflexivity.
      + assert (effective_arg vals n = arg vals n) as ->.
        { unfold effective_arg. destruct (str_eqb n (py "totalItems") || str_eqb n (py "startIndex")) eqn:E; [|reflexivity]. assert (In n [py "totalItems"; py "startIndex"]) as Hin by (apply orb_true_iff in E as [E|E]; apply str_eqb_eq in E; subst n; cbn; auto).
          destruct (Hspecial n Hin Hn) as (z & _ & Hz). rewrite (Hargn _ _ Hz). cbn [truthy]. destruct (Z.eqb z 0) eqn:Ez; [apply Z.eqb_eq in Ez; subst z; reflexivity|reflexivity]. }
        destruct (Hargs n Hn H1 H2 H3) as (raw & v' & Hr & N1 & _). rewrite (Hargn _ _ Hr), N1. eexists. reflexivity. }
  rewrite Hcon. exists s2, o. split; [reflexivity|]. pose proof Hcon as Hcon0. apply construct_with_ok in Hcon0 as (b & _ & -> & _).
  (* property by property *)
  assert (HH : forall n, In n (property_set true c) -> n <> py "__namespace__" -> exists v', peek true c b n = Some v' /\ same (g n) v').
  { intros n Hn H1. destruct (str_dec n (py "type")) as [-> |H3].
    - exists (VStr (name_of c)). rewrite (C75_type netloc_ok nd email true c vals b Hcon), Hgt. split; [|apply same_eq]. assert (class_eqb c Object || class_eqb c Link = false) as ->; [|reflexivity]. apply orb_false_iff. split; (destruct (class_eqb c _) eqn:E; [apply class_eqb_eq in E; contradiction|reflexivity]).
    - destruct (str_dec n (py "acontext")) as [-> |H2].
      + destruct (C75_stored netloc_ok nd email c vals b (py "acontext") Hcon Hn) as (v' & Hp & Hh); [destruct c; intros X; apply mem_str_in in X; vm_compute in X; discriminate|intros X; apply mem_str_in in X; vm_compute in X; discriminate|].
        exists v'. split; [exact Hp|]. rewrite Hgc. unfold held in Hh. change (row (py "acontext")) with (Some acontext_def) in Hh. cbn [pd_link pd_parse acontext_def] in Hh. rewrite Hh, (Hargn _ _ Hvc). apply same_eq.
      + destruct (in_dec str_dec n (ignored c)) as [Hi|Hi].
        * exists VNone. split; [exact (C75_lost netloc_ok nd email c vals b n Hcon (or_intror Hi) Hn H3 H1)|]. rewrite (Hgi n Hi Hn H1 H3). apply same_eq.
        * destruct (in_dec str_dec n [py "totalItems"; py "startIndex"]) as [Hs|Hs].
          -- destruct (Hspecial n Hs Hn) as (z & Gz & Vz). exists (VInt z). rewrite Gz. split; [|apply same_eq]. destruct Hs as [<-|[<-|[]]].
             ++ rewrite (C76_package netloc_ok nd email c vals b (Sp1 Hn) Hcon), (Hargn _ _ Vz). cbn [truthy]. destruct (Z.eqb z 0) eqn:Ez; [apply Z.eqb_eq in Ez; now subst z|reflexivity].
             ++ assert (c = OrderedCollectionPage) as -> by auto. rewrite (C75_start_index netloc_ok nd email true vals b Hcon), (Hargn _ _ Vz). cbn [truthy]. destruct (Z.eqb z 0) eqn:Ez; [apply Z.eqb_eq in Ez; now subst z|reflexivity].
          -- destruct (C75_stored netloc_ok nd email c vals b n Hcon Hn Hi) as (v' & Hp & Hh).
             { intros [X|X]; [subst n; exact (Sp5 Hc2 Hn)|exact (Hs X)]. }
             exists v'. split; [exact Hp|]. destruct (Hargs n Hn H1 H2 H3) as (raw & v2 & Hr & N1 & S1 & _). rewrite (Hargn _ _ Hr) in Hh. destruct (Hsub n Hn H1 H2 H3) as (p & _ & Hpp & Hrow & _).
             pose proof (norm_prop netloc_ok nd true c n p raw _ _ Hpp N1) as Q. unfold held in Hh. rewrite Hrow in Hh. unfold result_of in Q. destruct (pd_link p); [congruence|]. destruct (pd_parse p); congruence. }
  apply same_obj with (f := g) (g := fun n => match peek true c b n with Some v => v | None => VNone end). intros n Hn H1. destruct (HH n Hn H1) as (v' & Hp & Hs). rewrite Hp. split; [now apply Hg|]. split; [reflexivity|exact Hs].
Qed.

(** ** nested values *)
Lemma no_context_name k names : engine_properties k = Some names -> ~ In (py "@context") names.
Proof. unfold RoundTrip.engine_properties. destruct (class_of_number k) as [c|]; [|discriminate]. intros [= <-] Hi. apply in_order in Hi. destruct (names_ok c _ Hi) as (_ & X & _). now destruct X. Qed.
Lemma pvd_nodup d : NoDup (d_keys d) -> NoDup (d_keys (pvd d)).
Proof. unfold d_keys, pvd. rewrite map_map. intros H. exact H. Qed.
Lemma json_data_nodup f a c at' d : json_data f a true c at' = Ok d -> NoDup (d_keys d).
Proof.
  unfold VocabRead.json_data. destruct (json_collect (json_handle f) a true c at' (props_order true c) []) as [d0|e] eqn:E; [|discriminate]. intros H. assert (drop_nones a d0 = d) as <- by congruence.
  rewrite drop_nones_id by exact (json_collect_somes netloc_ok nd email props_order (json_handle f) a true c at' (props_order true c) (fun v w => json_handle_some netloc_ok nd email props_order show f v w) [] d0 eq_refl E).
  refine (data_nodup f a true c at' (props_order true c) [] d0 _ E). constructor.
Qed.
Lemma nested_no_context f c a d : json_data f nested true c a = Ok d -> d_get (py "@context") d = None.
Proof.
  unfold VocabRead.json_data. destruct (json_collect (json_handle f) nested true c a (props_order true c) []) as [d0|e] eqn:E; [|discriminate]. intros H. assert (drop_nones nested d0 = d) as <- by congruence.
  rewrite drop_nones_id by exact (json_collect_somes netloc_ok nd email props_order (json_handle f) nested true c a (props_order true c) (fun v w => json_handle_some netloc_ok nd email props_order show f v w) [] d0 eq_refl E). clear H.
  assert (G : forall names acc d1, (forall n, In n names -> In n (property_set true c)) -> json_collect (json_handle f) nested true c a names acc = Ok d1 -> d_get (py "@context") acc = None -> d_get (py "@context") d1 = None).
  { induction names as [|n names IH]; intros acc d1 Hn; cbn [VocabRead.json_collect]; [intros [= <-]; auto|].
    destruct (if v_none nested then Ok true else _) as [c1|e]; [|discriminate]. destruct (c1 && wanted nested n) eqn:Ew; cbn [negb]; [|apply IH; intros m Hm; apply Hn; now right].
    destruct (json_read true c a n) as [v|e]; [|discriminate]. destruct (v_reject nested v); [apply IH; intros m Hm; apply Hn; now right|].
    destruct (json_handle f v) as [w|e]; [|discriminate]. intros H Ha. refine (IH _ _ (fun m Hm => Hn m (or_intror Hm)) H _). rewrite d_get_set_other; [exact Ha|].
    apply andb_true_iff in Ew as [_ Ew]. pose proof (Hn n (or_introl eq_refl)) as Hi. change (out_name nested n) with (out_name default_args n). rewrite (default_out c n Hi). destruct (str_eqb n (py "acontext")) eqn:E1.
    - exfalso. apply str_eqb_eq in E1. subst n. vm_compute in Ew. discriminate.
    - intros E2. destruct (names_ok c n Hi) as (_ & X & _). now apply X. }
  exact (G _ [] d0 (fun n => proj1 (in_order c n)) E eq_refl).
Qed.
Lemma handle_obj f c a : json_handle (S f) (VObj true c a) = match json_data f nested true c a with Ok d => Ok (JDict d) | Err e => Err e end.
Proof. cbn [VocabRead.json_handle]. unfold VocabRead.json_data. destruct (json_collect _ _ _ _ _ _ _); reflexivity. Qed.
Lemma obj_type f args c a d : args = nested \/ args = default_args -> portable (VObj true c a) -> json_data f args true c a = Ok d -> f <> O -> d_get (py "type") d = Some (JStr (name_of c)).
Proof.
  intros Ha P Hd Hf. inversion P as [| | | |? ? g Hc1 Hc2 Hg Hgc Hgt Hgi Hgs Hgp]; subst c0 a0. assert (HcL : c <> Link) by (intros ->; discriminate Hc2).
  assert (Hout : forall n, out_name args n = out_name default_args n) by (intros n; destruct Ha as [-> | ->]; reflexivity).
  assert (HND : NoDup (map (out_name args) (props_order true c))) by (rewrite (map_ext _ _ Hout); now apply default_nodup).
  destruct (specials c) as (_ & _ & _ & Sp4 & _).
  assert (Hr : json_read true c a (py "type") = Ok (VStr (name_of c))). { unfold VocabRead.json_read. destruct (str_eqb (py "type") (py "__namespace__")) eqn:E; [discriminate|]. rewrite (row_type_prop c Hc1 HcL). rewrite (Hg (py "type") Sp4) by discriminate. now rewrite Hgt. }
  pose proof (json_data_get netloc_ok nd email props_order (fun _ _ => true) (fun _ _ => []) show (fun l c => proj2 (Ho l c)) f args true c a d (py "type") (VStr (name_of c)) HND Sp4 Hr Hd) as H.
  assert (kept args (py "type") (VStr (name_of c)) = true) as Hk by (destruct Ha as [-> | ->]; reflexivity). rewrite Hk in H. destruct H as (w & Hw & H). rewrite Hout in H. change (out_name default_args (py "type")) with (py "type") in H.
  destruct f; [contradiction|]. cbn in Hw. injection Hw as <-. exact H.
Qed.
Lemma back_all f : back f.
Proof.
  induction f as [|f IH]; intros v j P Hj s; [discriminate|]. inversion P as [t Ev|z Ev|n r Hr Ev|l Hl Ev|c a g Hc1 Hc2 _ _ _ _ _ _ Ev]; subst v.
  - cbn in Hj. injection Hj as <-. exists s, (ORaw (PStr t)). split; [reflexivity|apply same_eq].
  - cbn in Hj. injection Hj as <-. exists s, (ORaw (PNum (int_text z))). split; [reflexivity|]. cbn. rewrite Hnum. apply same_eq.
  - cbn in Hj. injection Hj as <-. exists s, (ORaw (PNum r)). split; [reflexivity|]. cbn. rewrite Hr. apply same_eq.
  - cbn [VocabRead.json_handle] in Hj. destruct (map_ok (json_handle f) l) as [ys|e] eqn:E; [|discriminate]. assert (JList ys = j) as <- by congruence. clear Hj P. cbn [RoundTrip.pv_of Intake.unpack].
    assert (G : forall l ys, all_portable l -> map_ok (json_handle f) l = Ok ys -> forall s, exists s' os, unpack_items St value (fun x => unpack x (PStr ctx)) (map pv_of ys) s = (s', Ok os) /\ same_all l (map arg_of os)).
    { clear - IH. induction l as [|x l IHl]; intros ys Hl E s.
      - cbn in E. injection E as <-. exists s, []. split; [reflexivity|constructor].
      - inversion Hl as [|? ? Px Pl]; subst. rewrite map_ok_cons in E. destruct (json_handle f x) as [y|e] eqn:Ex; [|discriminate]. destruct (map_ok (json_handle f) l) as [zs|e] eqn:El; [|discriminate]. assert (y :: zs = ys) as <- by congruence.
        destruct (IH x y Px Ex s) as (s1 & o & U & Sx). destruct (IHl zs Pl eq_refl s1) as (s2 & os & Us & Sl). exists s2, (o :: os). cbn [map Intake.unpack_items]. rewrite U. rewrite Us. split; [reflexivity|now constructor]. }
    destruct (G l ys Hl E s) as (s' & os & U & Sl). rewrite U. exists s', (OList os). split; [reflexivity|]. cbn. now apply same_list.
  - rewrite handle_obj in Hj. destruct (json_data f nested true c a) as [d|e] eqn:Ed; [|discriminate]. assert (JDict d = j) as <- by congruence. clear Hj.
    assert (Hf : f <> O). { intros ->. destruct (specials c) as (_ & _ & _ & Sp4 & _). inversion P as [| | | |? ? g' _ _ Hg' _ Hgt' _ _ _]; subst c0 a0. assert (HcL : c <> Link) by (intros ->; discriminate Hc2).
      assert (Hr : json_read true c a (py "type") = Ok (VStr (name_of c))). { unfold VocabRead.json_read. destruct (str_eqb (py "type") (py "__namespace__")) eqn:E; [discriminate|]. rewrite (row_type_prop c Hc1 HcL). rewrite (Hg' (py "type") Sp4) by discriminate. now rewrite Hgt'. }
      pose proof (json_data_get netloc_ok nd email props_order (fun _ _ => true) (fun _ _ => []) show (fun l c => proj2 (Ho l c)) O nested true c a d (py "type") (VStr (name_of c)) (default_nodup props_order c Ho) Sp4 Hr Ed) as H.
      change (kept nested (py "type") (VStr (name_of c))) with true in H. destruct H as (w & Hw & _). discriminate Hw. }
    change (pv_of (JDict d)) with (PDict (pvd d)). pose proof (json_data_nodup _ _ _ _ _ Ed) as Hd. pose proof (pvd_nodup d Hd) as Hd2.
    rewrite (unpack_dict St value expand engine_construct engine_properties registry (pvd d) (PStr ctx) s Hd2 no_context_name).
    set (cv := Intake.with_context (PStr ctx) (pvd d)).
    assert (Hcv : forall k, d_get k cv = if str_eqb k (py "@context") then Some (PStr ctx) else d_get k (pvd d)).
    { intros k. unfold cv. rewrite with_context_get by exact Hd2. destruct (str_eqb k (py "@context")) eqn:E; [|reflexivity]. apply str_eqb_eq in E. subst k. rewrite pvd_get, (nested_no_context _ _ _ _ Ed). reflexivity. }
    assert (HcL : c <> Link) by (intros ->; discriminate Hc2).
    assert (H1 : d_get (py "@context") cv = Some (PStr ctx)) by (rewrite Hcv; reflexivity).
    assert (H2 : d_get (py "type") cv = Some (PStr (name_of c))) by (rewrite Hcv; change (str_eqb (py "type") (py "@context")) with false; cbv iota; now rewrite pvd_get, (obj_type f nested c a d (or_introl eq_refl) P Ed Hf)).
    destruct (Hexp s cv c H1 H2 Hc1 HcL) as (s1 & t & ts & rest & E1 & E2). rewrite E1. cbn [untyped]. unfold get_object_class.
    destruct (Hexp s1 cv c H1 H2 Hc1 HcL) as (s2 & t2 & ts2 & rest2 & E3 & E4). rewrite E3. cbv iota. change (@Some (list N) t2) with (@Some pystr t2). rewrite E4. change (@Some (list N) t2) with (@Some pystr t2). rewrite E4.
    destruct (obj_back f nested c a d cv IH (or_introl eq_refl) P Ed Hcv s2) as (s3 & o & U & So). rewrite U. exists s3, (OObj o). split; [reflexivity|exact So].
Qed.
(** ** the document *)
Variable loads : pystr -> res pv.
Lemma read_back fuel c a d t s : portable (VObj true c a) -> json_data fuel default_args true c a = Ok d -> loads t = Ok (document_of int_text d) ->
  exists s' o, read_text netloc_ok nd email props_order num St expand registry loads t s = (s', Ok o) /\ same (VObj true c a) o.
Proof.
  intros P Hd Ht. unfold read_text, from_text. rewrite Ht. change (document_of int_text d) with (PDict (pvd d)).
  destruct (obj_back fuel default_args c a d (pvd d) (back_all fuel) (or_intror eq_refl) P Hd) with (s := s) as (s' & o & U & So); [|exists s', o; split; [exact U|exact So]].
  intros k. destruct (str_eqb k (py "@context")) eqn:E; [|reflexivity]. apply str_eqb_eq in E. subst k. rewrite pvd_get.
  inversion P as [| | | |? ? g Hc1 Hc2 Hg Hgc Hgt Hgi Hgs Hgp]; subst c0 a0. assert (In (py "acontext") (property_set true c)) as Hi by now left. pose proof (Hg (py "acontext") Hi ltac:(discriminate)) as Hp.
  assert (Hr : json_read true c a (py "acontext") = Ok (VStr ctx)). { unfold VocabRead.json_read. change (str_eqb (py "acontext") (py "__namespace__")) with false. cbv iota. change (prop_of true c (py "acontext")) with (Some acontext_def). rewrite (peek_prop true c a (py "acontext") acontext_def eq_refl) in Hp. cbv iota beta. rewrite Hp, Hgc. reflexivity. }
  pose proof (json_data_get netloc_ok nd email props_order (fun _ _ => true) (fun _ _ => []) show (fun l c => proj2 (Ho l c)) fuel default_args true c a d (py "acontext") (VStr ctx) (default_nodup props_order c Ho) Hi Hr Hd) as H.
  change (kept default_args (py "acontext") (VStr ctx)) with true in H. destruct H as (w & Hw & H). change (out_name default_args (py "acontext")) with (py "@context") in H. rewrite H. destruct fuel; [discriminate Hw|]. cbn in Hw. injection Hw as <-. reflexivity.
Qed.
End Back.
