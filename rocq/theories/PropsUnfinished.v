(** C112-C114: operators without a body, sizes of databases, the request for a document. *)
From Coq Require Import String ZArith Lia.
From Verif Require Import Base BaseFacts Value BTree Utils RoutingFacts Dict DictFacts SpecMap Collection Group GroupFacts Container ContainerFacts ContainerThms ContainerTx PropsContainer Url Unfinished.
Open Scope Z_scope.
Open Scope list_scope.

(** ** C112 [in], iteration and [+] of a container *)
(** what [id in container] ought to say: that one of the container's groups holds the id *)
Definition holds (k : container) (id : pystr) : Prop := Exists (fun m => m id <> None) (maps k).
(** [in] never claims an id that is not held, but denies every id that is; iterating raises TypeError and adding gives None, whatever is stored *)
Theorem C112_what_happens : forall k id, k_reachable k ->
  (k_in id k = true -> holds k id) /\ k_in id k = false /\ k_iterate k = Err TypeError /\ forall A (x : A), k_plus k x = None.
Proof. intros k id _. unfold k_in, k_iterate, k_plus. cbn. repeat split; discriminate. Qed.
Print Assumptions C112_what_happens.
(** so [in] is right about exactly the ids that are not held; [has] is the test to use *)
Theorem C112_in_is_right_only_about_absent : forall k id, k_reachable k -> encodable id ->
  ((k_in id k = true <-> holds k id) <-> ~ holds k id) /\
  (holds k id <-> exists n, k_has id k = Ok n /\ 0 < n).
Proof.
  intros k id R E. split.
  - unfold k_in. cbn. split; [intros [_ H] X; specialize (H X); discriminate|intros N; split; [discriminate|contradiction]].
  - destruct (C25_lemma (id := id) VNone R E) as [_ [H Z]]. rewrite H. unfold holds. clear H R Z.
    assert (P : 0 < holders id (maps k) <-> Exists (fun m => m id <> None) (maps k)).
    { unfold holders. induction (maps k) as [|m ms IH]; cbn; [split; [lia|intros X; inversion X]|].
      rewrite Exists_cons. destruct (m id) eqn:G; cbn [length].
      - split; [intros _; left; discriminate|intros _; lia].
      - rewrite IH. split; [now right|intros [X|X]; [now elim X|exact X]]. }
    rewrite <- P. split; [intros X; eauto|intros (n & X & Y); injection X as <-; exact Y].
Qed.
Print Assumptions C112_in_is_right_only_about_absent.
Example C112_case : k_reachable (ex_k false) /\ k_has (py "a") (ex_k false) = Ok 3 /\ k_in (py "a") (ex_k false) = false /\ holds (ex_k false) (py "a").
Proof.
  split; [apply ex_k_reach|]. split; [vm_compute; reflexivity|]. split; [reflexivity|].
  apply (C112_in_is_right_only_about_absent (ex_k false) (py "a") (ex_k_reach false)); [repeat (apply Forall_cons; [unfold encodable_char; cbn; lia|]); apply Forall_nil|]. exists 3. split; [vm_compute; reflexivity|lia].
Qed.

(** ** C113 the size of a module and of a group of databases *)
(** a connection's opening and closing for one module *)
Definition once (m : module) : list ev := [Opened (fst m); Closed (fst m)].
(** the module's database opens and its connection says n *)
Definition sized (m : module) (n : Z) : Prop := exists c, snd m = Ok c /\ conn_size c = Ok n.
Lemma sum_sizes_ok : forall ms ns acc, Forall2 sized ms ns -> sum_sizes acc ms = (flat_map once ms, Ok (acc + zsum ns)).
Proof.
  induction ms as [|m ms IH]; intros ns acc F; inversion F as [|x n l ns' S F' E1 E2]; subst; cbn [sum_sizes flat_map]; [unfold zsum; cbn; now rewrite Z.add_0_r|].
  destruct S as (c & E & C). unfold module_size. rewrite E, C, (IH _ (acc + n) F'). unfold zsum. cbn [fold_right]. rewrite Z.add_assoc. reflexivity.
Qed.
Lemma sum_sizes_app : forall a ns b acc, Forall2 sized a ns -> sum_sizes acc (a ++ b) = (flat_map once a ++ fst (sum_sizes (acc + zsum ns) b), snd (sum_sizes (acc + zsum ns) b)).
Proof.
  induction a as [|m ms IH]; intros ns b acc F; inversion F as [|x n l ns' S F' E1 E2]; subst; cbn [sum_sizes flat_map app].
  - unfold zsum. cbn. rewrite Z.add_0_r. now destruct (sum_sizes acc b).
  - destruct S as (c & E & C). unfold module_size. rewrite E, C, (IH _ b (acc + n) F'). unfold once, zsum. cbn [fold_right]. rewrite Z.add_assoc. reflexivity.
Qed.
(** with every database open and saying its size, the group's size is their sum; every connection has been closed again, one at a time *)
Theorem C113_sum : forall ms ns, Forall2 sized ms ns -> group_size ms = (flat_map once ms, Ok (zsum ns)).
Proof. intros ms ns F. apply (sum_sizes_ok ms ns 0 F). Qed.
Print Assumptions C113_sum.
(** the first module that fails decides: its exception is raised, the later databases are not opened, and the connections opened so far, also the one that failed, are closed *)
Theorem C113_first_failure : forall a m b ns, Forall2 sized a ns ->
  (forall e, snd m = Err e -> group_size (a ++ m :: b) = (flat_map once a, Err e)) /\
  (forall c e, snd m = Ok c -> conn_size c = Err e -> group_size (a ++ m :: b) = (flat_map once a ++ once m, Err e)).
Proof.
  intros a m b ns F. unfold group_size. rewrite (sum_sizes_app a ns (m :: b) 0 F). cbn [sum_sizes]. unfold module_size. split.
  - intros e ->. cbn. now rewrite app_nil_r.
  - intros c e -> ->. reflexivity.
Qed.
Print Assumptions C113_first_failure.
(** the databases of this project do not say their size: for a group of them the size is an AttributeError, unless there are none; nor can they be entered in the registry, and an entry keeps its old size *)
Theorem C113_container_databases_refuted : forall ms, Forall (fun m => exists k, snd m = Ok (CContainer k)) ms ->
  (snd (group_size ms) = match ms with [] => Ok 0 | _ => Err AttributeError end) /\
  forall m, In m ms -> fst (module_size m) = once m /\ snd (module_size m) = Err AttributeError /\
    (forall path, from_dbmodule path m = Err AttributeError) /\ (forall r, update_from_dbmodule r m = (r, Err AttributeError)).
Proof.
  intros ms F. split.
  - destruct F as [|m ms (k & E) F]; [reflexivity|]. unfold group_size. cbn [sum_sizes]. unfold module_size. now rewrite E.
  - intros m I. rewrite Forall_forall in F. destruct (F m I) as (k & E). unfold from_dbmodule, update_from_dbmodule, module_size. rewrite E. cbn. repeat split; reflexivity.
Qed.
Print Assumptions C113_container_databases_refuted.
(** an entry made of a module that says its size has its name and size and the path; updating changes nothing but the size *)
Theorem C113_registry : forall m n, sized m n ->
  (forall path, from_dbmodule path m = Ok (mkR path (fst m) n)) /\ (forall r, update_from_dbmodule r m = (mkR (r_path r) (r_name r) n, Ok tt)).
Proof. intros m n (c & E & C). unfold from_dbmodule, update_from_dbmodule, module_size. rewrite E, C. split; reflexivity. Qed.
Print Assumptions C113_registry.
Example C113_case : group_size [(py "a", Ok (CSized (Ok 2))); (py "b", Ok (CSized (Ok 5)))] = ([Opened (py "a"); Closed (py "a"); Opened (py "b"); Closed (py "b")], Ok 7) /\
  snd (group_size [(py "a", Ok (CSized (Ok 2))); (py "b", Ok (CContainer (ex_k false)))]) = Err AttributeError /\ k_size (ex_k false) = 6.
Proof. vm_compute. auto. Qed.

(** ** C114 the request for a document *)
(** requests sends one header per name, names compared without regard to case, the last one given counting *)
Fixpoint wire (name : pystr) (h : dict pystr) : option pystr :=
  match h with [] => None | (k, v) :: h' => match wire name h' with Some w => Some w | None => if str_eqb (Url.lower k) (Url.lower name) then Some v else None end end.
Lemma merge_front : forall (h : dict pystr) k v d, NoDup (d_keys h) -> (forall x, In x (d_keys d) -> ~ In x (d_keys h)) -> ~ In k (d_keys d) ->
  d_merge ((k, v) :: d) h = (k, match d_get k h with Some w => w | None => v end) :: d ++ d_del k h.
Proof.
  induction h as [|[j w] h IH]; intros k v d ND DJ NK; [cbn; now rewrite app_nil_r|].
  unfold d_merge. cbn [fold_left fst snd d_set d_get d_del]. fold (@d_merge pystr). unfold d_keys in ND. cbn [map fst] in ND. apply NoDup_cons_iff in ND. destruct ND as [NJ ND].
  rewrite (str_eqb_sym j k). destruct (str_eqb k j) eqn:E.
  - apply str_eqb_eq in E. subst j. change (fold_left (fun (d0 : dict pystr) (p : pystr * pystr) => d_set (fst p) (snd p) d0) h ((k, w) :: d)) with (d_merge ((k, w) :: d) h).
    rewrite IH; [|exact ND|intros x I J; apply (DJ x I); now right|exact NK].
    replace (d_get k h) with (@None pystr) by (symmetry; apply d_get_none; exact NJ).
    f_equal. f_equal. clear - NJ. induction h as [|[i u] h IH]; [reflexivity|]. cbn [d_del]. destruct (str_eqb k i) eqn:E.
    + apply str_eqb_eq in E. subst. elim NJ. now left.
    + f_equal. apply IH. intros X. apply NJ. now right.
  - assert (DS : d_set j w d = d ++ [(j, w)]).
    { assert (NI : ~ In j (d_keys d)) by (intros I; apply (DJ j I); now left). clear - NI. induction d as [|[i u] d IH]; [reflexivity|]. cbn [d_set app]. destruct (str_eqb j i) eqn:E.
      - apply str_eqb_eq in E. subst. elim NI. now left.
      - f_equal. apply IH. intros X. apply NI. now right. }
    rewrite DS. change (fold_left (fun (d0 : dict pystr) (p : pystr * pystr) => d_set (fst p) (snd p) d0) h ((k, v) :: d ++ [(j, w)])) with (d_merge ((k, v) :: d ++ [(j, w)]) h).
    rewrite IH; [now rewrite <- app_assoc|exact ND| |].
    + intros x I. unfold d_keys in I. rewrite map_app in I. apply in_app_or in I. destruct I as [I|[I|[]]]; [intros J; apply (DJ x I); now right|cbn in I; subst x; exact NJ].
    + unfold d_keys. rewrite map_app. intros I. apply in_app_or in I. destruct I as [I|[I|[]]]; [exact (NK I)|]. cbn in I. subst j. now rewrite (proj2 (str_eqb_eq k k) eq_refl) in E.
Qed.
(** the request's headers are the project's Accept, or the caller's, first, then the caller's others in his order *)
Theorem C114_headers : forall h, NoDup (d_keys h) ->
  request_headers None = [(py "Accept", accept)] /\
  request_headers (Some h) = (py "Accept", match d_get (py "Accept") h with Some v => v | None => accept end) :: d_del (py "Accept") h /\
  forall name, d_get name (request_headers (Some h)) = match d_get name h with Some v => Some v | None => if str_eqb name (py "Accept") then Some accept else None end.
Proof.
  intros h ND. split; [reflexivity|]. assert (E := merge_front h (py "Accept") accept [] ND (fun x I => False_ind _ I) (fun I => I)). split; [exact E|].
  intros name. unfold request_headers. rewrite d_get_merge, (last_of_nodup name h ND). destruct (d_get name h); [reflexivity|]. cbn [default_headers d_of]. change (d_of default_headers) with default_headers. cbn [default_headers d_get]. reflexivity.
Qed.
Print Assumptions C114_headers.
Lemma wire_in name v : forall h, NoDup (map (fun p => lower (fst p)) h) -> wire name h = Some v <-> exists k, In (k, v) h /\ lower k = lower name.
Proof.
  induction h as [|[j w] h IH]; intros ND; cbn [wire]; [split; [discriminate|intros (k & [] & _)]|]. cbn [map fst] in ND. apply NoDup_cons_iff in ND. destruct ND as [NI ND]. specialize (IH ND).
  destruct (wire name h) as [u|] eqn:W.
  - rewrite IH. split; intros (k & I & L); [exists k; split; [now right|exact L]|]. destruct I as [I|I]; [|exists k; auto]. injection I as -> ->. exfalso. apply NI. rewrite L.
    assert (X : exists k', In (k', u) h /\ lower k' = lower name).
    { clear - W. induction h as [|[i x] h IH]; [discriminate|]. cbn [wire] in W. destruct (wire name h) as [y|].
      - destruct (IH W) as (k' & I & L). exists k'. split; [now right|exact L].
      - destruct (str_eqb (lower i) (lower name)) eqn:E; [|discriminate]. injection W as ->. apply str_eqb_eq in E. exists i. split; [now left|exact E]. }
    destruct X as (k' & I & L'). rewrite <- L'. apply (in_map (fun p => lower (fst p)) _ _ I).
  - destruct (str_eqb (lower j) (lower name)) eqn:E.
    + apply str_eqb_eq in E. split; [intros X; injection X as ->; exists j; split; [now left|exact E]|]. intros (k & [I|I] & L); [now injection I as _ ->|]. discriminate (proj2 IH (ex_intro _ k (conj I L))).
    + split; [discriminate|]. intros (k & [I|I] & L); [injection I as -> ->; rewrite L, (proj2 (str_eqb_eq _ _) eq_refl) in E; discriminate|]. discriminate (proj2 IH (ex_intro _ k (conj I L))).
Qed.
(** on the wire: if the caller's names differ also without regard to case, his value is sent for every name he gives, however he spells it, and otherwise Accept is the project's *)
Theorem C114_on_the_wire : forall (h : dict pystr) name, NoDup (map (fun p => lower (fst p)) h) ->
  wire name (request_headers (Some h)) = match wire name h with Some v => Some v | None => if str_eqb (lower name) (py "accept") then Some accept else None end.
Proof.
  intros h name ND.
  assert (NK : NoDup (d_keys h)).
  { clear name. induction h as [|[j w] h IH]; [constructor|]. cbn [map fst] in ND. apply NoDup_cons_iff in ND. destruct ND as [NI ND]. unfold d_keys. cbn [map fst]. constructor; [|apply IH; exact ND].
    intros I. apply NI. apply in_map_iff in I. destruct I as ((k & v) & E & I). cbn in E. subst k. apply (in_map (fun p => lower (fst p)) _ _ I). }
  destruct (C114_headers h NK) as (_ & EH & _). rewrite EH. clear EH. cbn [wire]. replace (str_eqb (lower (py "Accept")) (lower name)) with (str_eqb (lower name) (py "accept")) by (rewrite str_eqb_sym; reflexivity).
  destruct (d_get (py "Accept") h) as [a|] eqn:G.
  - assert (I : In (py "Accept", a) h). { clear - G. induction h as [|[j w] h IH]; [discriminate|]. cbn [d_get] in G. destruct (str_eqb (py "Accept") j) eqn:E; [apply str_eqb_eq in E; subst; injection G as ->; now left|right; auto]. }
    assert (D : wire name (d_del (py "Accept") h) = if str_eqb (lower name) (py "accept") then None else wire name h).
    { clear NK. induction h as [|[j w] h IH]; [discriminate|]. cbn [map fst] in ND. apply NoDup_cons_iff in ND. destruct ND as [NI ND]. cbn [d_del d_get] in *. destruct (str_eqb (py "Accept") j) eqn:E.
      - apply str_eqb_eq in E. subst j. cbn [wire]. replace (str_eqb (lower (py "Accept")) (lower name)) with (str_eqb (lower name) (py "accept")) by (rewrite str_eqb_sym; reflexivity). destruct (str_eqb (lower name) (py "accept")) eqn:L.
        + apply str_eqb_eq in L. destruct (wire name h) as [u|] eqn:W; [|reflexivity]. apply (wire_in name u h ND) in W. destruct W as (k & J & LK). exfalso. apply NI.
          change (lower (py "Accept")) with (py "accept"). rewrite <- L, <- LK. apply (in_map (fun p => lower (fst p)) _ _ J).
        + now destruct (wire name h).
      - destruct I as [I|I]; [injection I as -> ->; rewrite (proj2 (str_eqb_eq _ _) eq_refl) in E; discriminate|]. cbn [wire]. rewrite (IH ND G I). destruct (str_eqb (lower name) (py "accept")) eqn:L; [|reflexivity].
        apply str_eqb_eq in L. rewrite L. destruct (str_eqb (lower j) (py "accept")) eqn:M; [|reflexivity]. apply str_eqb_eq in M. exfalso. apply NI. rewrite M. apply (in_map (fun p => lower (fst p)) _ _ I). }
    rewrite D. destruct (str_eqb (lower name) (py "accept")) eqn:L; [|now destruct (wire name h)]. apply str_eqb_eq in L.
    assert (W : wire name h = Some a) by (apply (wire_in name a h ND); exists (py "Accept"); split; [exact I|now rewrite L]). now rewrite W.
  - assert (D : d_del (py "Accept") h = h). { clear - G. induction h as [|[j w] h IH]; [reflexivity|]. cbn [d_get d_del] in *. destruct (str_eqb (py "Accept") j); [discriminate|]. now rewrite IH. }
    rewrite D. reflexivity.
Qed.
Print Assumptions C114_on_the_wire.
(** a caller who gives Accept in two spellings does not always send what he would send without the project's default: of his two values the other one counts *)
Theorem C114_two_spellings_refuted : exists h name, NoDup (d_keys h) /\ wire name h = Some (py "b") /\ wire name (request_headers (Some h)) = Some (py "a").
Proof.
  exists [(py "accept", py "a"); (py "Accept", py "b")], (py "accept"). split; [|split; reflexivity]. constructor; [|constructor; [intros []|constructor]]. intros [X|[]]. discriminate X.
Qed.
Print Assumptions C114_two_spellings_refuted.
(** one request is made, with these headers; its failure, or the failure to parse the answer, is raised; without [json] the answer is returned unparsed *)
Theorem C114_answer : forall R J (get : pystr -> dict pystr -> res R) (parse : R -> res J) url h,
  (forall e, get url (request_headers h) = Err e -> forall json, jsonld_get R J get parse url h json = Err e) /\
  (forall r, get url (request_headers h) = Ok r -> jsonld_get R J get parse url h false = Ok (Raw R J r) /\
     jsonld_get R J get parse url h true = match parse r with Ok j => Ok (Json R J j) | Err e => Err e end).
Proof. intros R J get parse url h. unfold jsonld_get. split; [intros e -> json; reflexivity|intros r ->; split; reflexivity]. Qed.
Print Assumptions C114_answer.
Example C114_case : NoDup (map (fun p : pystr * pystr => lower (fst p)) [(py "X-Id", py "1"); (py "ACCEPT", py "text/html")]) /\
  request_headers (Some [(py "X-Id", py "1"); (py "ACCEPT", py "text/html")]) = [(py "Accept", accept); (py "X-Id", py "1"); (py "ACCEPT", py "text/html")] /\
  wire (py "accept") (request_headers (Some [(py "X-Id", py "1"); (py "ACCEPT", py "text/html")])) = Some (py "text/html") /\
  wire (py "accept") (request_headers (Some [(py "X-Id", py "1")])) = Some accept.
Proof. split; [|split; [|split]; reflexivity]. constructor; [|constructor; [intros []|constructor]]. intros [X|[]]. discriminate X. Qed.
