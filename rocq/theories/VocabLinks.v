(** Links: what the setters make of strings, dicts and sequences. *)
From Coq Require Import String Lia.
From Verif Require Import Base BaseFacts Dict DictFacts Duration DateTime Url JsonData VocabTables Vocab VocabFacts VocabStore VocabConstruct.
Open Scope list_scope.

Section Links.
Variable netloc_ok : pystr -> bool.
Variable nd : N -> option N.
Variable email : pystr -> res bool.
Notation create_link := (create_link netloc_ok nd email).
Notation construct_with := (construct_with netloc_ok nd).
Notation construct := (construct netloc_ok nd email).
Notation assign := (assign netloc_ok nd email).
Notation norm := (norm netloc_ok nd).

Lemma create_none l : create_link l VNone = Ok VNone. Proof. reflexivity. Qed.
(** the link made from a string *)
Lemma string_link l s : exists a, construct_with (fun _ x => Ok x) l Link [(py "href", VStr s)] = Ok (VObj l Link a) /\ peek l Link a (py "href") = Some (VStr s) /\
  (forall n, In n (map py ["rel"; "mediaType"; "name"; "hreflang"; "height"; "width"; "preview"]%string) -> peek l Link a n = Some VNone).
Proof.
  destruct l; eexists; (split; [vm_compute; reflexivity|]); (split; [vm_compute; reflexivity|]); intros n Hn; cbn [map In] in Hn; repeat (destruct Hn as [<-|Hn]; [vm_compute; reflexivity|]); contradiction.
Qed.
(** constructing with values that are converted alike *)
Lemma run_steps_ext co co2 l c args xs : (forall n p v, prop_of l c n = Some p -> pd_link p = true -> v = arg args n -> co n v = co2 n v) -> (forall x, In x xs -> match x with SArg _ => True | _ => match prop_of l c (step_name x) with Some p => pd_link p = false | None => True end end) ->
  forall attrs, run_steps netloc_ok nd co l c args xs attrs = run_steps netloc_ok nd co2 l c args xs attrs.
Proof.
  intros Hc. induction xs as [|x xs IH]; intros Hx attrs; [reflexivity|]. cbn [run_steps]. rewrite !run_step_raw. destruct (step_raw l c args attrs x) as [raw|] eqn:Er; [|reflexivity].
  assert (E : set_attr netloc_ok nd l c attrs (step_name x) raw (co (step_name x) raw) = set_attr netloc_ok nd l c attrs (step_name x) raw (co2 (step_name x) raw)).
  { pose proof (Hx x (or_introl eq_refl)) as Hx1. unfold set_attr. destruct (str_eqb (step_name x) _); [reflexivity|]. destruct x as [m| | | |]; try (destruct (prop_of l c (step_name _)); [rewrite Hx1; reflexivity|reflexivity]). cbn [step_name step_raw] in *. destruct (prop_of l c (py m)) as [p|] eqn:Ep; [|reflexivity]. destruct (pd_link p) eqn:El; [|reflexivity]. rewrite (Hc (py m) p raw Ep El); [reflexivity|congruence]. }
  rewrite E. destruct (set_attr netloc_ok nd l c attrs (step_name x) raw (co2 (step_name x) raw)); [|reflexivity]. apply IH. intros y Hy. apply Hx. now right.
Qed.
Lemma d_get_map_snd {A B} (f : A -> B) (d : dict A) n : d_get n (map (fun p => (fst p, f (snd p))) d) = match d_get n d with Some v => Some (f v) | None => None end.
Proof. induction d as [|[m v] d IH]; [reflexivity|]. cbn [map fst snd d_get]. destruct (str_eqb n m); [reflexivity|exact IH]. Qed.
(** a dict with an href is used exactly like the keyword arguments of Link *)
Lemma dict_link d : link_dict netloc_ok d = Ok true -> create_link true (VDict d) = construct true Link d.
Proof.
  intros H. cbn [Vocab.create_link]. rewrite H. unfold Vocab.construct, Vocab.construct_with. destruct (d_mem (py "self") d); [reflexivity|]. cbn [needs_id andb stages run_stages restrict].
  rewrite (run_steps_ext _ (fun _ x => create_link true x) true Link d link_steps); [reflexivity| |].
  - intros n p v Hp Hl ->. rewrite d_get_map_snd. unfold arg. destruct (d_get n d) as [v|]; [reflexivity|]. destruct (str_eqb n (py "acontext")) eqn:E; [|reflexivity]. apply str_eqb_eq in E. subst n. vm_compute in Hp. injection Hp as <-. discriminate.
  - intros x Hx. repeat (destruct Hx as [<-|Hx]; [first [exact I|vm_compute; reflexivity]|]). contradiction.
Qed.
Lemma create_seq l v xs : In v [VList xs; VTuple xs; VSet xs] -> create_link l v = match map_ok (create_link l) xs with Err e => Err e | Ok ys => Ok (VList ys) end.
Proof. intros [<-|[<-|[<-|[]]]]; reflexivity. Qed.
Lemma create_seq_ok l v xs w : In v [VList xs; VTuple xs; VSet xs] -> (create_link l v = Ok w <-> exists ys, w = VList ys /\ Forall2 (fun x y => create_link l x = Ok y) xs ys).
Proof.
  intros Hv. rewrite (create_seq l v xs Hv). split.
  - destruct (map_ok (create_link l) xs) as [ys|e] eqn:E; [|discriminate]. intros [= <-]. exists ys. split; [reflexivity|now apply map_ok_Forall2].
  - intros (ys & -> & H). apply map_ok_Forall2 in H. now rewrite H.
Qed.
Lemma create_seq_err l v xs e : In v [VList xs; VTuple xs; VSet xs] -> create_link l v = Err e -> exists x, In x xs /\ create_link l x = Err e.
Proof.
  intros Hv. rewrite (create_seq l v xs Hv). destruct (map_ok_cases (create_link l) xs) as [[ys E]|(x & e2 & H1 & H2 & E)]; rewrite E; [discriminate|]. intros [= <-]. eauto.
Qed.
Lemma link_text_true s : link_text netloc_ok email s = Ok true <-> validate_url netloc_ok s false = Ok true \/ (validate_url netloc_ok s false = Ok false /\ email (if startswith (py "acct:") s then skipn 5 s else s) = Ok true).
Proof.
  unfold link_text, validate_acct_or_email. destruct (validate_url netloc_ok s false) as [[|]|e]; split; intros H; auto; try discriminate; try (destruct H as [H|[H _]]; discriminate); destruct H as [H|[_ H]]; [discriminate|exact H].
Qed.
(** what is stored in an attribute by an assignment *)
Lemma assign_norm l c a n v : assign l c a n v = match norm l c n v (create_link true v) with Ok x => Ok (d_set (key l c n) x a) | Err e => Err e end.
Proof. apply set_attr_norm. Qed.
Lemma assign_read c a a2 n p v : n <> py "hreflang" -> prop_of true c n = Some p -> assign true c a n v = Ok a2 -> exists w, peek true c a2 n = Some w /\ result_of nd p v (create_link true v) w.
Proof.
  intros Hh Hp H. rewrite assign_norm in H. destruct (norm true c n v (create_link true v)) as [w|e] eqn:E; [|discriminate]. injection H as <-. exists w. split; [apply peek_set; [exact Hh|apply d_get_set_same]|]. exact (norm_prop netloc_ok nd true c n p _ _ _ Hp E).
Qed.
Lemma assign_other l c a a2 n m v : plain n = true -> plain m = true -> m <> n -> assign l c a n v = Ok a2 -> peek l c a2 m = peek l c a m.
Proof.
  intros Hn Hm Hne H. rewrite assign_norm in H. destruct (norm l c n v (create_link true v)) as [w|e] eqn:E; [|discriminate]. injection H as <-.
  assert (Hk : key l c m <> key l c n) by (intros Hk; apply key_inj in Hk; auto).
  unfold peek, stored. destruct (prop_of l c m) as [p|] eqn:Ep.
  - destruct (str_dec m (py "hreflang")) as [-> |Hh].
    + pose proof (prop_of_row l c _ p Ep) as Hr. vm_compute in Hr. injection Hr as <-. cbn [pd_get pd_strict]. match goal with |- context [d_get ?k a] => change k with (py "___hreflang___") end. rewrite d_get_set_other; [reflexivity|]. intros Hc. exact (hreflang_key l c n Hn (eq_sym Hc)).
    + rewrite (prop_keys l c m p Ep Hh). unfold key in Hk at 1. rewrite Ep in Hk. rewrite d_get_set_other by exact Hk. reflexivity.
  - unfold key in Hk at 1. rewrite Ep in Hk. rewrite d_get_set_other by exact Hk. reflexivity.
Qed.
End Links.
