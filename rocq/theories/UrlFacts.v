(** Proofs about validate_url and the document loaders *)
From Coq Require Import String.
From Verif Require Import Base BaseFacts Dict DictFacts Url DocLoader.
Open Scope list_scope.

(** ** specification *)
Definition host_char (c : N) : Prop := (97 <= c <= 122)%N \/ (65 <= c <= 90)%N \/ (48 <= c <= 57)%N \/ In c (py "_.:-").
Definition ends_authority (c : N) : Prop := In c (py "/?#").
(** [url] (without leading spaces and control characters, and without tabs and line ends) is scheme://authority... with scheme http or https
    in any case; only the first character of the authority must be a host character *)
Definition http_url (netloc_ok : pystr -> bool) (secure : bool) (url : pystr) : Prop :=
  exists scheme authority rest, clean url = scheme ++ py "://" ++ authority ++ rest /\
    (lower scheme = py "http" \/ lower scheme = py "https") /\ (secure = true -> lower scheme = py "https") /\
    (exists c t, authority = c :: t /\ host_char c) /\ (forall c, In c authority -> ~ ends_authority c) /\
    (rest = [] \/ exists c t, rest = c :: t /\ ends_authority c) /\ netloc_ok authority = true.

Lemma allowed_host c : allowed_char c = true <-> host_char c.
Proof.
  unfold allowed_char, host_char, ascii_alpha, ascii_upper, ascii_lower, ascii_num. rewrite !orb_true_iff, !andb_true_iff, !N.leb_le.
  assert (E : existsb (N.eqb c) (py "_.:-") = true <-> In c (py "_.:-")).
  { rewrite existsb_exists. split; [intros (x & Hx & E); apply N.eqb_eq in E; now subst|intros H; exists c; split; [exact H|apply N.eqb_refl]]. }
  rewrite E. tauto.
Qed.
Lemma delim_spec c : delim c = true <-> ends_authority c.
Proof. unfold delim, ends_authority. rewrite existsb_exists. split; [intros (x & Hx & E); apply N.eqb_eq in E; now subst|intros H; exists c; split; [exact H|apply N.eqb_refl]]. Qed.
Lemma before_colon_some s a b : before_colon s = Some (a, b) <-> s = a ++ 58%N :: b /\ ~ In 58%N a.
Proof.
  revert a b. induction s as [|c s IH]; intros a b; cbn [before_colon].
  - split; [discriminate|]. intros [E _]. destruct a; discriminate.
  - destruct (N.eqb_spec c 58) as [-> |Hc].
    + split; [intros [= <- <-]; split; [reflexivity|intros []]|]. intros [E Hn]. destruct a as [|x a]; cbn in E; [injection E as ->; reflexivity|]. injection E as <- _. elim Hn. now left.
    + destruct (before_colon s) as [[a' b']|] eqn:E.
      * split.
        -- intros [= <- <-]. destruct (proj1 (IH a' b') eq_refl) as [-> Hn]. split; [reflexivity|]. intros [H|H]; [congruence|contradiction].
        -- intros [E1 Hn]. destruct a as [|x a]; cbn in E1; [congruence|]. injection E1 as <- E1.
           assert (H : Some (a', b') = Some (a, b)) by (apply IH; split; [exact E1|intros H; apply Hn; now right]). now injection H as -> ->.
      * split; [discriminate|]. intros [E1 Hn]. destruct a as [|x a]; cbn in E1; [congruence|]. injection E1 as <- E1.
        assert (H : None = Some (a, b)) by (apply IH; split; [exact E1|intros H; apply Hn; now right]). discriminate.
Qed.
Lemma lower_alpha s t : lower s = t -> forallb ascii_lower t = true -> forallb ascii_alpha s = true /\ ~ In 58%N s.
Proof.
  intros <-. induction s as [|c s IH]; cbn; intros H; [auto|]. apply andb_true_iff in H as [Hc H]. destruct (IH H) as [H1 H2].
  assert (Ha : ascii_alpha c = true).
  { unfold ascii_alpha. destruct (ascii_upper c) eqn:E; [reflexivity|]. exact Hc. }
  split; [now rewrite Ha, H1|]. intros [-> |Hin]; [discriminate|contradiction].
Qed.
Lemma alpha_scheme c : ascii_alpha c = true -> scheme_char c = true.
Proof. unfold scheme_char. intros ->. reflexivity. Qed.
Lemma split_scheme_http u scheme rest : (scheme = py "http" \/ scheme = py "https") ->
  split_scheme u = (scheme, rest) <-> exists a, u = a ++ 58%N :: rest /\ lower a = scheme.
Proof.
  intros Hs. assert (Hl : forallb ascii_lower scheme = true) by (destruct Hs as [-> | ->]; reflexivity). assert (Hne : scheme <> []) by (destruct Hs as [-> | ->]; discriminate). unfold split_scheme. split.
  - destruct (before_colon u) as [[a b]|] eqn:E; [|intros [= <- _]; congruence]. apply before_colon_some in E as [-> _]. destruct a as [|c a]; [intros [= <- _]; congruence|].
    destruct (ascii_alpha c && forallb scheme_char (c :: a))%bool; [|intros [= <- _]; congruence]. intros [= <- <-]. exists (c :: a). auto.
  - intros (a & -> & El). destruct (lower_alpha a scheme El Hl) as [Ha Hn].
    assert (E : before_colon (a ++ 58%N :: rest) = Some (a, rest)) by (apply before_colon_some; auto). rewrite E.
    destruct a as [|c a]; [cbn in El; congruence|]. assert (Hc : ascii_alpha c = true) by (cbn in Ha; apply andb_true_iff in Ha; tauto).
    assert (Hf : forallb scheme_char (c :: a) = true). { apply forallb_forall. intros x Hx. rewrite forallb_forall in Ha. apply alpha_scheme. auto. }
    rewrite Hc, Hf. cbn [andb]. now rewrite El.
Qed.
Lemma until_delim_spec s : exists rest, s = until_delim s ++ rest /\ (forall c, In c (until_delim s) -> ~ ends_authority c) /\ (rest = [] \/ exists c t, rest = c :: t /\ ends_authority c).
Proof.
  induction s as [|c s IH]; [exists []; cbn; auto|]. cbn [until_delim]. destruct (delim c) eqn:E.
  - exists (c :: s). split; [reflexivity|]. split; [intros x []|]. right. exists c, s. split; [reflexivity|now apply delim_spec].
  - destruct IH as (rest & Es & H1 & H2). exists rest. split; [cbn; now rewrite <- Es|]. split; [|exact H2]. intros x [<-|Hx]; [|auto]. intros H. apply delim_spec in H. congruence.
Qed.
Lemma until_delim_unique a rest : (forall c, In c a -> ~ ends_authority c) -> (rest = [] \/ exists c t, rest = c :: t /\ ends_authority c) -> until_delim (a ++ rest) = a.
Proof.
  intros Ha Hr. induction a as [|c a IH]; cbn [app until_delim].
  - destruct Hr as [-> |(c & t & -> & Hc)]; [reflexivity|]. cbn [app until_delim]. apply delim_spec in Hc. now rewrite Hc.
  - destruct (delim c) eqn:E; [apply delim_spec in E; elim (Ha c); auto; now left|]. f_equal. apply IH. intros x Hx. apply Ha. now right.
Qed.
Lemma starts_slashes s : startswith (py "//") s = true <-> exists t, s = 47%N :: 47%N :: t.
Proof.
  change (py "//") with [47%N; 47%N]. destruct s as [|a [|b s]]; cbn [startswith].
  - split; [discriminate|intros (t & E); discriminate].
  - split; [rewrite andb_false_r; discriminate|intros (t & E); discriminate].
  - rewrite andb_true_r, andb_true_iff, !N.eqb_eq. split.
    + intros [<- <-]. eauto.
    + intros (t & E). injection E as -> -> ->. auto.
Qed.

Section Facts.
Variable netloc_ok : pystr -> bool.
(** the test that validate_url and the loaders share *)
Lemma url_test url secure scheme netloc : urlparse netloc_ok url = Ok (scheme, netloc) ->
  (is_empty scheme || negb (mem_str scheme [py "http"; py "https"]) = false /\ is_empty netloc = false /\ bad_start netloc = false /\ (secure && negb (str_eqb scheme (py "https")))%bool = false)
  <-> http_url netloc_ok secure url.
Proof.
  unfold urlparse. destruct (split_scheme (clean url)) as [sch rest] eqn:Es. remember (if startswith (py "//") rest then until_delim (skipn 2 rest) else []) as netloc0 eqn:Enet0.
  destruct (netloc_ok _) eqn:En; [|discriminate]. intros H. injection H as <- <-. rename netloc0 into netloc.
  assert (Hmem : mem_str sch [py "http"; py "https"] = true <-> sch = py "http" \/ sch = py "https").
  { unfold mem_str. cbn [existsb]. rewrite orb_false_r, orb_true_iff, !str_eqb_eq. reflexivity. }
  split.
  - intros (H1 & H2 & H3 & H4). apply orb_false_iff in H1 as [_ H1]. apply negb_false_iff in H1. apply Hmem in H1. apply (split_scheme_http _ _ _ H1) in Es as (a & Ea & El).
    destruct (startswith (py "//") rest) eqn:Er; [|subst netloc; discriminate H2]. subst netloc. apply starts_slashes in Er as (t & ->). cbn [skipn] in *.
    destruct (until_delim_spec t) as (r & Et & Hd & Hr). exists a, (until_delim t), r. split; [rewrite Ea, Et at 1; reflexivity|]. split; [now rewrite El|].
    split; [intros ->; cbn [andb] in H4; apply negb_false_iff in H4; apply str_eqb_eq in H4; now rewrite El|].
    split; [|auto]. destruct (until_delim t) as [|c u]; [discriminate|]. exists c, u. split; [reflexivity|]. apply allowed_host. cbn in H3. now apply negb_false_iff in H3.
  - intros (a & auth & r & Ec & Hl & Hsec & (c & t & Eauth & Hc) & Hd & Hr & _).
    assert (Es' : split_scheme (clean url) = (lower a, 47%N :: 47%N :: auth ++ r)) by (apply split_scheme_http; [exact Hl|exists a; split; [rewrite Ec; reflexivity|reflexivity]]).
    rewrite Es in Es'. injection Es' as -> ->. assert (Enet : netloc = auth) by (rewrite Enet0; change (startswith (py "//") (47%N :: 47%N :: auth ++ r)) with true; cbn [skipn]; now apply until_delim_unique).
    rewrite Enet, Eauth. split; [|split; [reflexivity|split]].
    + apply orb_false_iff. split; [destruct Hl as [-> | ->]; reflexivity|]. apply negb_false_iff, Hmem, Hl.
    + cbn. apply negb_false_iff. now apply allowed_host.
    + destruct secure; [cbn; apply negb_false_iff, str_eqb_eq, Hsec; reflexivity|reflexivity].
Qed.
Lemma http_parses secure url : http_url netloc_ok secure url -> exists sch net, urlparse netloc_ok url = Ok (sch, net).
Proof.
  intros (a & auth & r & Ec & Hl & Hsec & (c & t & Eauth & Hc) & Hd & Hr & Hn).
  assert (Es' : split_scheme (clean url) = (lower a, 47%N :: 47%N :: auth ++ r)) by (apply split_scheme_http; [exact Hl|exists a; split; [rewrite Ec; reflexivity|reflexivity]]).
  unfold urlparse. rewrite Es'. change (startswith (py "//") (47%N :: 47%N :: auth ++ r)) with true. cbn [skipn]. rewrite until_delim_unique by auto. rewrite Hn. eauto.
Qed.
Lemma C63_lemma url secure : validate_url netloc_ok url secure = Ok true <-> http_url netloc_ok secure url.
Proof.
  unfold validate_url. destruct (urlparse netloc_ok url) as [[sch net]|e] eqn:E.
  - rewrite <- (url_test url secure sch net E).
    destruct (is_empty sch || _)%bool; [split; [discriminate|intros [H _]; discriminate]|]. destruct (is_empty net); [split; [discriminate|intros (_ & H & _); discriminate]|].
    destruct (bad_start net); [split; [discriminate|intros (_ & _ & H & _); discriminate]|]. destruct (secure && _)%bool; [split; [discriminate|intros (_ & _ & _ & H); discriminate]|]. tauto.
  - split; [discriminate|]. intros H. apply http_parses in H as (sch & net & H). congruence.
Qed.
Lemma C63_result url secure : validate_url netloc_ok url secure = Ok true \/ validate_url netloc_ok url secure = Ok false \/ validate_url netloc_ok url secure = Err ValueError.
Proof.
  unfold validate_url. destruct (urlparse netloc_ok url) as [[sch net]|e] eqn:E.
  - destruct (is_empty sch || _)%bool; auto. destruct (is_empty net); auto. destruct (bad_start net); auto. destruct (secure && _)%bool; auto.
  - unfold urlparse in E. destruct (split_scheme (clean url)). destruct (netloc_ok _); [discriminate|]. injection E as <-. auto.
Qed.

(** ** the loaders *)
Variable J : Type.
Variable json_type : pystr -> bool.
Variable prepend_base : pystr -> pystr -> pystr.
Variable server : nat -> pystr -> res (response J).
Local Notation get := (get netloc_ok json_type prepend_base server).
Local Notation cached_call := (cached_call netloc_ok json_type prepend_base server).
Local Notation calls := (calls netloc_ok json_type prepend_base server).
Lemma get_spec secure url log :
  (http_url netloc_ok secure url -> fst (get secure url log) = log ++ [url]) /\
  (~ http_url netloc_ok secure url -> get secure url log = (log, Err ValueError)).
Proof.
  unfold get. destruct (urlparse netloc_ok url) as [[sch net]|e] eqn:E.
  - rewrite <- !(url_test url secure sch net E).
    destruct (is_empty sch || _)%bool; [split; [intros [H _]; discriminate|auto]|]. destruct (is_empty net); [split; [intros (_ & H & _); discriminate|auto]|].
    destruct (bad_start net); [split; [intros (_ & _ & H & _); discriminate|auto]|]. destruct (secure && _)%bool; [split; [intros (_ & _ & _ & H); discriminate|auto]|].
    split; [reflexivity|]. intros H. elim H. auto.
  - split; [intros H; apply http_parses in H as (sch & net & H); congruence|intros _].
    unfold urlparse in E. destruct (split_scheme (clean url)). destruct (netloc_ok _); [discriminate|]. now injection E as <-.
Qed.
Lemma get_cases secure url log : (http_url netloc_ok secure url /\ fst (get secure url log) = log ++ [url]) \/ (~ http_url netloc_ok secure url /\ get secure url log = (log, Err ValueError)).
Proof.
  assert (D : validate_url netloc_ok url secure = Ok true \/ validate_url netloc_ok url secure <> Ok true) by (destruct (C63_result url secure) as [H|[H|H]]; rewrite H; auto; right; discriminate).
  destruct (get_spec secure url log) as [H1 H2]. destruct D as [D|D]; rewrite C63_lemma in D; auto.
Qed.
Lemma wrap_err {A} (r : res A) e : wrap r = Err e -> e = JsonLdError \/ (e = SystemExit /\ r = Err SystemExit).
Proof. destruct r as [a|[]]; cbn; intros [= <-]; auto. Qed.
Lemma C64_call secure url log log' r : call netloc_ok json_type prepend_base server secure url log = (log', r) ->
  (log' = log \/ (log' = log ++ [url] /\ http_url netloc_ok secure url)) /\
  (forall e, r = Err e -> e = JsonLdError \/ (e = SystemExit /\ server (List.length log) url = Err SystemExit) \/ (e = SystemExit /\ exists x, server (List.length log) url = Ok x /\ r_json x = Err SystemExit)).
Proof.
  unfold call. destruct (get secure url log) as [l r0] eqn:E. intros [= <- <-]. split.
  - destruct (get_cases secure url log) as [[H1 H2]|[H1 H2]]; rewrite E in H2; cbn in H2; [right; auto|left; congruence].
  - intros e He. apply wrap_err in He as [He|[-> He]]; [auto|right]. subst r0. unfold DocLoader.get in E. destruct (urlparse netloc_ok url) as [[sch net]|e'] eqn:Eu.
    + destruct (is_empty sch || _)%bool; [discriminate|]. destruct (is_empty net); [discriminate|]. destruct (bad_start net); [discriminate|]. destruct (secure && _)%bool; [discriminate|].
      injection E as _ E. destruct (server (List.length log) url) as [x|e'] eqn:Es; [right|left; split; [reflexivity|congruence]]. split; [reflexivity|]. exists x. split; [reflexivity|].
      unfold build_doc in E. destruct (r_json x) as [j|e'] eqn:Ej; [|congruence]. destruct (r_link x) as [[cx alt]|]; [|discriminate].
      destruct cx as [|tg ty|]; try destruct (str_eqb _ (py "application/ld+json")); try discriminate; destruct alt as [|tg2 ty2|]; try discriminate; destruct (_ && _)%bool; discriminate.
    + injection E as _ ->. unfold urlparse in Eu. destruct (split_scheme (clean url)). destruct (netloc_ok _); discriminate.
Qed.

(** ** the cache *)
Lemma skipn_app_len {A} (a b : list A) : skipn (List.length a) (a ++ b) = b.
Proof. rewrite skipn_app, Nat.sub_diag, skipn_all. reflexivity. Qed.
Lemma skipn_len {A} (a : list A) : skipn (List.length a) a = [].
Proof. apply skipn_all. Qed.
Lemma cached_spec secure url st st' r : cached_call secure url st = (st', r) ->
  match d_get url (ls_cache st) with
  | Some d => st' = st /\ r = Ok d
  | None => ((http_url netloc_ok secure url /\ ls_log st' = ls_log st ++ [url]) \/ (~ http_url netloc_ok secure url /\ ls_log st' = ls_log st /\ r = Err JsonLdError)) /\
            ((exists d, r = Ok d /\ d_get url (ls_cache st') = Some d /\ forall u, u <> url -> d_get u (ls_cache st') = d_get u (ls_cache st)) \/
             (exists e, r = Err e /\ ls_cache st' = ls_cache st))
  end.
Proof.
  unfold DocLoader.cached_call. destruct (d_get url (ls_cache st)) as [d|] eqn:Ed; [intros [= <- <-]; auto|].
  destruct (get_cases secure url (ls_log st)) as [[H1 H2]|[H1 H2]].
  - destruct (get secure url (ls_log st)) as [log' [d|e]]; cbn in H2; subst log'; intros [= <- <-]; cbn [ls_log ls_cache]; (split; [left; auto|]).
    + left. exists d. rewrite d_get_set_same. split; [reflexivity|]. split; [reflexivity|]. intros u Hu. now apply d_get_set_other.
    + right. destruct e; eexists; (split; reflexivity).
  - rewrite H2. intros [= <- <-]. cbn [ls_log ls_cache]. split; [right; auto|right; eauto].
Qed.
(** what a history of calls must look like: [known u] is the document already obtained for [u] *)
Inductive loads : (pystr -> option (document J)) -> list (bool * pystr) -> list (res (document J) * list pystr) -> Prop :=
| ld_nil known : loads known [] []
| ld_hit known secure u d cs rs : known u = Some d -> loads known cs rs -> loads known ((secure, u) :: cs) ((Ok d, []) :: rs)
| ld_rejected known secure u cs rs : known u = None -> ~ http_url netloc_ok secure u -> loads known cs rs -> loads known ((secure, u) :: cs) ((Err JsonLdError, []) :: rs)
| ld_failed known secure u e cs rs : known u = None -> http_url netloc_ok secure u -> loads known cs rs -> loads known ((secure, u) :: cs) ((Err e, [u]) :: rs)
| ld_fetched known known' secure u d cs rs : known u = None -> http_url netloc_ok secure u -> known' u = Some d -> (forall v, v <> u -> known' v = known v) ->
    loads known' cs rs -> loads known ((secure, u) :: cs) ((Ok d, [u]) :: rs).
Lemma calls_loads cs : forall st st' rs, calls cs st = (st', rs) -> loads (fun u => d_get u (ls_cache st)) cs rs.
Proof.
  induction cs as [|[secure u] cs IH]; intros st st' rs; cbn [DocLoader.calls]; [intros [= _ <-]; constructor|].
  destruct (cached_call secure u st) as [st1 r] eqn:Ec. destruct (calls cs st1) as [st2 rs2] eqn:Er. intros [= _ <-]. pose proof (IH _ _ _ Er) as Hl. pose proof (cached_spec _ _ _ _ _ Ec) as Hs.
  destruct (d_get u (ls_cache st)) as [d|] eqn:Ed.
  - destruct Hs as [-> ->]. rewrite skipn_len. now apply ld_hit.
  - destruct Hs as [[[Hv El]|(Hv & El & ->)] Hc].
    + rewrite El, skipn_app_len. destruct Hc as [(d & -> & Hd & Ho)|(e & -> & Ee)].
      * apply (ld_fetched _ (fun v => d_get v (ls_cache st1))); auto.
      * apply ld_failed; auto. now rewrite Ee in Hl.
    + rewrite El, skipn_len. destruct Hc as [(d & E & _)|(e & _ & Ee)]; [discriminate|]. apply ld_rejected; auto. now rewrite Ee in Hl.
Qed.
Lemma C65_lemma cs st' rs : calls cs (mkLs [] []) = (st', rs) -> loads (fun _ => None) cs rs.
Proof. intros H. apply calls_loads in H. exact H. Qed.
(** consequence: once a call for [u] has succeeded, every later call for [u] returns the same document without any request *)
Lemma loads_known known cs rs : loads known cs rs -> forall u d, known u = Some d -> forall secure r q j, nth_error cs j = Some (secure, u) -> nth_error rs j = Some (r, q) -> r = Ok d /\ q = [].
Proof.
  induction 1 as [known|known secure u d cs rs Hk Hl IH|known secure u cs rs Hk Hv Hl IH|known secure u e cs rs Hk Hv Hl IH|known known' secure u d cs rs Hk Hv Hk' Ho Hl IH]; intros u0 d0 H0 s0 r q [|j] H1 H2; cbn in *; try discriminate.
  - injection H1 as <- <-. injection H2 as <- <-. split; [congruence|reflexivity].
  - eauto.
  - injection H1 as <- <-. congruence.
  - eauto.
  - injection H1 as <- <-. congruence.
  - eauto.
  - injection H1 as <- <-. congruence.
  - eapply (IH u0 d0); eauto. destruct (str_dec u0 u) as [-> |Hne]; [congruence|]. now rewrite Ho.
Qed.
Lemma loads_once known cs rs : loads known cs rs -> forall i j s1 s2 u d q1 r q, (i < j)%nat -> nth_error cs i = Some (s1, u) -> nth_error rs i = Some (Ok d, q1) ->
  nth_error cs j = Some (s2, u) -> nth_error rs j = Some (r, q) -> r = Ok d /\ q = [].
Proof.
  induction 1 as [known|known secure u d cs rs Hk Hl IH|known secure u cs rs Hk Hv Hl IH|known secure u e cs rs Hk Hv Hl IH|known known' secure u d cs rs Hk Hv Hk' Ho Hl IH];
    intros [|i] [|j] s1 s2 u0 d0 q1 r q Hij H1 H2 H3 H4; cbn in *; try discriminate; try lia; try (eapply (IH i j); eauto; lia).
  - injection H1 as <- <-. injection H2 as <- <-. eapply loads_known; eauto.
  - injection H1 as <- <-. injection H2 as <- <-. eapply loads_known; eauto.
Qed.
End Facts.

(** only the first character of the authority matters *)
Lemma C63_later netloc_ok c t : host_char c -> (forall x, In x t -> ~ ends_authority x /\ ~ In x [9; 10; 13]%N) -> netloc_ok (c :: t) = true ->
  validate_url netloc_ok (py "https://" ++ c :: t) true = Ok true.
Proof.
  intros Hc Ht Hn. apply C63_lemma. exists (py "https"), (c :: t), [].
  assert (Hhc : ~ ends_authority c /\ ~ In c [9; 10; 13]%N) by (unfold host_char, ends_authority in *; cbn in *; lia).
  split; [|split; [auto|split; [auto|split; [eauto|split; [|split; [auto|exact Hn]]]]]].
  - rewrite app_nil_r. change (py "https" ++ py "://" ++ c :: t) with (py "https://" ++ c :: t).
    change (clean (py "https://" ++ c :: t)) with (py "https://" ++ filter (fun c => negb (existsb (N.eqb c) [9; 10; 13]%N)) (c :: t)). f_equal.
    assert (H : forall x, In x (c :: t) -> ~ In x [9; 10; 13]%N) by (intros x [<-|Hx]; [apply Hhc|now apply Ht]). clear - H.
    induction (c :: t) as [|y s IH]; [reflexivity|]. cbn [filter]. destruct (negb (existsb (N.eqb y) [9; 10; 13]%N)) eqn:E; [f_equal; apply IH; intros x Hx; apply H; now right|].
    exfalso. apply negb_false_iff, existsb_exists in E as (z & Hz & E). apply N.eqb_eq in E. subst z. apply (H y); [now left|exact Hz].
  - intros x [<-|Hx]; [apply Hhc|now apply Ht].
Qed.
(** no success before call [j], and the url is acceptable: a request *)
Lemma loads_refetch netloc_ok J known cs rs : loads netloc_ok J known cs rs ->
  forall j s u r q, known u = None -> nth_error cs j = Some (s, u) -> nth_error rs j = Some (r, q) -> http_url netloc_ok s u ->
  (forall i s' d q', (i < j)%nat -> nth_error cs i = Some (s', u) -> nth_error rs i <> Some (Ok d, q')) -> q = [u].
Proof.
  induction 1 as [known|known secure u d cs rs Hk Hl IH|known secure u cs rs Hk Hv Hl IH|known secure u e cs rs Hk Hv Hl IH|known known' secure u d cs rs Hk Hv Hk' Ho Hl IH];
    intros [|j] s0 u0 r q H0 H1 H2 H3 H4; cbn in H1, H2; try discriminate.
  - injection H1 as <- <-. congruence.
  - eapply IH; eauto. intros i s' d0 q' Hi. apply (H4 (S i)). lia.
  - injection H1 as <- <-. contradiction.
  - eapply IH; eauto. intros i s' d0 q' Hi. apply (H4 (S i)). lia.
  - injection H1 as <- <-. now injection H2 as _ <-.
  - eapply IH; eauto. intros i s' d0 q' Hi. apply (H4 (S i)). lia.
  - injection H1 as <- <-. now injection H2 as _ <-.
  - eapply IH; eauto; [|intros i s' d0 q' Hi; apply (H4 (S i)); lia].
    destruct (str_dec u0 u) as [-> |Hne]; [|now rewrite Ho]. exfalso. apply (H4 O secure d [u]); [lia|reflexivity|reflexivity].
Qed.
Lemma C65_refetch netloc_ok J json_type prepend_base (server : nat -> pystr -> res (response J)) cs st' rs :
  calls netloc_ok json_type prepend_base server cs (mkLs [] []) = (st', rs) ->
  forall j s u r q, nth_error cs j = Some (s, u) -> nth_error rs j = Some (r, q) -> http_url netloc_ok s u ->
  (forall i s' d q', (i < j)%nat -> nth_error cs i = Some (s', u) -> nth_error rs i <> Some (Ok d, q')) -> q = [u].
Proof. intros H j s u r q. apply loads_refetch with (1 := C65_lemma _ _ _ _ _ _ _ _ H). reflexivity. Qed.
