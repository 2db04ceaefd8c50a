(** Objects made from Python data by the package's constructors and setters can be serialised. *)
From Coq Require Import String Lia.
From Verif Require Import Base BaseFacts Dict DictFacts Duration DateTime Url JsonData VocabTables Vocab VocabFacts VocabStore VocabConstruct VocabLinks VocabRead.
Open Scope nat_scope.
Open Scope list_scope.

Section Clean.
Variable netloc_ok : pystr -> bool.
Variable nd : N -> option N.
Variable email : pystr -> res bool.
Notation create_link := (create_link netloc_ok nd email).
Notation construct_with := (construct_with netloc_ok nd).
Notation construct := (construct netloc_ok nd email).
Notation assign := (assign netloc_ok nd email).
Notation norm := (norm netloc_ok nd).
Notation run_steps := (run_steps netloc_ok nd).
Notation run_stages := (run_stages netloc_ok nd).
Definition clean_attrs (a : dict value) : bool := forallb (fun p => clean (snd p)) a.

Lemma parse_clean v w : clean v = true -> parse_time nd v = Ok w -> clean w = true.
Proof. intros Hv. unfold parse_time. destruct (parse_activitystream_datetime nd (dval_of v)) as [[| | |]|e]; intros [= <-]; auto. Qed.
Lemma norm_clean l c n raw co v : clean raw = true -> (forall w, co = Ok w -> clean w = true) -> norm l c n raw co = Ok v -> clean v = true.
Proof.
  intros Hr Hc H. destruct (prop_of l c n) as [p|] eqn:E; [|apply norm_plain in H; [now subst|exact E]]. apply (norm_prop netloc_ok nd l c n p) in H; [|exact E]. unfold result_of in H. destruct (pd_link p); [now apply Hc|]. destruct (pd_parse p); [now apply (parse_clean raw)|now subst].
Qed.
Lemma set_clean k v a : clean v = true -> clean_attrs a = true -> clean_attrs (d_set k v a) = true.
Proof. intros Hv. induction a as [|[m w] a IH]; intros H; cbn; [now rewrite Hv|]. cbn in H. apply andb_true_iff in H as [H1 H2]. destruct (str_eqb k m); cbn; [rewrite Hv; exact H2|]. rewrite H1. exact (IH H2). Qed.
Lemma get_clean a n v : clean_attrs a = true -> d_get n a = Some v -> clean v = true.
Proof. intros H E. now apply (clean_attr a n v). Qed.
Lemma arg_clean args n : clean_attrs args = true -> clean (arg args n) = true.
Proof. intros H. unfold arg. destruct (d_get n args) as [v|] eqn:E; [now apply (get_clean args n)|]. destruct (str_eqb n _); reflexivity. Qed.
Lemma peek_clean l c a n v : clean_attrs a = true -> peek l c a n = Some v -> clean v = true.
Proof.
  intros H. unfold peek, stored. destruct (prop_of l c n) as [p|].
  - destruct (d_get (pd_get p) a) as [w|] eqn:E; [intros [= <-]; now apply (get_clean a (pd_get p))|]. destruct (pd_strict p); [discriminate|intros [= <-]; reflexivity].
  - destruct (d_get n a) as [w|] eqn:E; [intros [= <-]; now apply (get_clean a n)|]. destruct (str_eqb n _); [intros [= <-]; reflexivity|discriminate].
Qed.
Lemma raw_clean l c args a x v : clean_attrs args = true -> clean_attrs a = true -> step_raw l c args a x = Some v -> clean v = true.
Proof.
  intros Ha Hb. assert (Hs : forall x y : value, Some x = Some y -> y = x) by congruence. destruct x; cbn [step_raw].
  - intros H. apply Hs in H. subst v. now apply arg_clean.
  - intros H. apply Hs in H. subst v. destruct (peek l c a (py "type")) as [w|] eqn:E; [now apply (peek_clean l c a (py "type"))|now apply arg_clean].
  - intros H. apply Hs in H. subst v. destruct (peek l c a (py "items")) as [w|] eqn:E; [now apply (peek_clean l c a (py "items"))|now apply arg_clean].
  - destruct (peek l c a (py "items")) as [w|]; [|discriminate]. intros H. apply Hs in H. subst v. destruct (truthy _); [now apply arg_clean|reflexivity].
  - intros H. apply Hs in H. subst v. destruct (truthy _); [now apply arg_clean|reflexivity].
Qed.
Lemma steps_clean co l c args xs : (forall n v w, clean v = true -> co n v = Ok w -> clean w = true) -> clean_attrs args = true -> forall attrs a, clean_attrs attrs = true -> run_steps co l c args xs attrs = Ok a -> clean_attrs a = true.
Proof.
  intros Hc Ha. induction xs as [|x xs IH]; intros attrs a Hat; cbn [Vocab.run_steps]; [intros [= <-]; exact Hat|]. destruct (run_step netloc_ok nd co l c args attrs x) as [a1|e] eqn:E; [|discriminate]. apply IH. apply run_step_ok in E as (raw & y & H1 & H2 & ->).
  apply set_clean; [|exact Hat]. pose proof (raw_clean l c args attrs x raw Ha Hat H1) as Hr. apply (norm_clean l c (step_name x) raw _ y Hr) with (2 := H2). intros w Hw. now apply (Hc _ _ _ Hr Hw).
Qed.
Lemma restrict_clean names args : clean_attrs args = true -> clean_attrs (restrict names args) = true.
Proof.
  intros H. destruct names as [ns|]; [|exact H]. unfold restrict, clean_attrs in *. rewrite forallb_forall in *. intros p Hp. apply filter_In in Hp as [Hp _]. now apply H.
Qed.
Lemma stages_clean co l c args st : (forall n v w, clean v = true -> co n v = Ok w -> clean w = true) -> clean_attrs args = true -> forall attrs a, clean_attrs attrs = true -> run_stages co l c args st attrs = Ok a -> clean_attrs a = true.
Proof.
  intros Hc Ha. induction st as [|[names xs] st IH]; intros attrs a Hat; cbn [Vocab.run_stages]; [intros [= <-]; exact Hat|]. destruct (run_steps co l c (restrict names args) xs attrs) as [a1|e] eqn:E; [|discriminate]. apply IH. apply (steps_clean co l c (restrict names args) xs Hc (restrict_clean names args Ha) attrs a1 Hat E).
Qed.
Lemma height_table : forallb (fun c => negb (subclass c Link) || match last_write (py "height") (stages c) with Some true => true | _ => false end) all_classes = true. Proof. vm_compute. reflexivity. Qed.
Lemma height_key c : subclass c Link = true -> key true c (py "height") = py "_Height__height".
Proof.
  intros H. destruct (height_classes c) as [H1 _]. rewrite H in H1. unfold has_prop in H1. unfold key. destruct (prop_of true c (py "height")) as [p|] eqn:E; [|discriminate]. apply prop_of_row in E. vm_compute in E. injection E as <-. reflexivity.
Qed.
Lemma construct_clean co c args o : (forall n v w, clean v = true -> co n v = Ok w -> clean w = true) -> clean_attrs args = true -> construct_with co true c args = Ok o -> clean o = true.
Proof.
  intros Hc Ha H. apply construct_with_ok in H as (a & H & -> & _). cbn [clean andb]. apply andb_true_iff. split.
  - destruct (subclass c Link) eqn:E; [|reflexivity]. cbn [negb orb]. pose proof (by_class _ height_table c) as T. cbv beta in T. rewrite E in T. cbn [negb orb] in T. destruct (last_write (py "height") (stages c)) as [[|]|] eqn:El; try discriminate.
    destruct (last_write_arg netloc_ok nd true c (py "height") (stages c) eq_refl (stages_fine c) El co args [] a H) as (y & _ & Hg). rewrite (height_key c E) in Hg. unfold d_mem. now rewrite Hg.
  - exact (stages_clean co true c args (stages c) Hc Ha [] a eq_refl H).
Qed.
Lemma create_clean v : forall w, clean v = true -> create_link true v = Ok w -> clean w = true.
Proof.
  assert (Hseq : forall l, Forall (fun v => forall w, clean v = true -> create_link true v = Ok w -> clean w = true) l -> forallb clean l = true -> forall w, match map_ok (create_link true) l with Err e => Err e | Ok ys => Ok (VList ys) end = Ok w -> clean w = true).
  { intros l H Hl w. destruct (map_ok (create_link true) l) as [ys|e] eqn:E; [|discriminate]. intros [= <-]. cbn [clean]. apply map_ok_Forall2 in E. revert ys E. induction H as [|x l Hx Hf IH]; intros ys E; inversion E as [|? y ? zs Hy Hz]; subst; [reflexivity|]. cbn [forallb] in *. apply andb_true_iff in Hl as [Hl1 Hl2]. rewrite (Hx y Hl1 Hy). now apply IH. }
  induction v using value_tree_ind; intros w Hv; cbn [Vocab.create_link]; try (intros [= <-]; exact Hv).
  - destruct (link_text netloc_ok email s) as [[|]|e]; [|intros [= <-]; reflexivity|discriminate]. intros H. apply (construct_clean (fun _ x => Ok x)) with (3 := H); [intros n v w0 Hc [= <-]; exact Hc|reflexivity].
  - now apply Hseq.
  - now apply Hseq.
  - now apply Hseq.
  - destruct (link_dict netloc_ok d) as [[|]|e]; [|intros [= <-]; exact Hv|discriminate]. intros Hw. cbn [clean] in Hv. apply (construct_clean _) with (3 := Hw); [|exact Hv]. intros n v0 w0 Hc. rewrite d_get_map_snd. destruct (d_get n d) as [u|] eqn:E; [|intros [= <-]; exact Hc].
    intros Hu. apply d_get_in_pair in E. rewrite Forall_forall in H. rewrite forallb_forall in Hv. exact (H (n, u) E w0 (Hv (n, u) E) Hu).
Qed.
Lemma made_clean c args o : clean_attrs args = true -> construct true c args = Ok o -> clean o = true.
Proof. intros Ha H. apply (construct_clean (fun _ x => create_link true x)) with (3 := H); [|exact Ha]. intros n v w. apply create_clean. Qed.
Lemma d_mem_set {A} k m (v : A) a : d_mem k a = true -> d_mem k (d_set m v a) = true.
Proof. unfold d_mem. destruct (str_dec k m) as [-> |Hn]; [now rewrite d_get_set_same|now rewrite d_get_set_other]. Qed.
Lemma assign_clean c a n v a2 : clean (VObj true c a) = true -> clean v = true -> assign true c a n v = Ok a2 -> clean (VObj true c a2) = true.
Proof.
  intros Hc Hv H. rewrite assign_norm in H. destruct (norm true c n v (create_link true v)) as [w|e] eqn:E; [|discriminate]. injection H as <-. cbn [clean andb] in *. apply andb_true_iff in Hc as [H1 H2]. apply andb_true_iff. split.
  - apply orb_true_iff in H1 as [H1|H1]; [now rewrite H1|]. rewrite (d_mem_set _ _ w a H1). apply orb_true_r.
  - apply set_clean; [|exact H2]. apply (norm_clean true c n v (create_link true v) w Hv) with (2 := E). intros u Hu. now apply (create_clean v).
Qed.
End Clean.
