(** Facts about loaders used by several threads. *)
From Coq Require Import String Lia.
From Verif Require Import Base BaseFacts Dict DictFacts Url DocLoader UrlFacts LoaderThreads.
Open Scope list_scope.

Lemma nth_set_same {A} i (x : A) l t : nth_error l i = Some t -> nth_error (set_nth i x l) i = Some x.
Proof. revert i. induction l as [|y l IH]; intros [|i] E; simpl in *; try discriminate; auto. Qed.
Lemma nth_set_other {A} i j (x : A) l : i <> j -> nth_error (set_nth i x l) j = nth_error l j.
Proof. revert i j. induction l as [|y l IH]; intros [|i] [|j] N; simpl; try reflexivity; try congruence. apply IH. congruence. Qed.

Lemma d_get_set {A} u v (x : A) d : d_get u (d_set v x d) = if str_eqb u v then Some x else d_get u d.
Proof. destruct (str_eqb u v) eqn:E; [apply str_eqb_eq in E; subst v; apply d_get_set_same|]. apply d_get_set_other. intros ->. rewrite str_eqb_refl in E. discriminate. Qed.

Section Threads.
Variable J : Type.
Variable netloc_ok : pystr -> bool.
Variable json_type : pystr -> bool.
Variable prepend_base : pystr -> pystr -> pystr.
Variable server : nat -> pystr -> res (response J).
Notation build_doc := (build_doc json_type prepend_base).
Notation get := (DocLoader.get netloc_ok json_type prepend_base server).
Notation th_step := (th_step netloc_ok json_type prepend_base server).
Notation ts_step := (ts_step netloc_ok json_type prepend_base server).
Notation ts_run := (ts_run netloc_ok json_type prepend_base server).
Notation tstate := (tstate J).
Notation thread := (thread J).
Notation document := (document J).

(** [d] is what the server gave in answer to one of the requests for [u] in the log *)
Definition given (u : pystr) (d : document) (log : list pystr) : Prop :=
  exists k r, nth_error log k = Some u /\ server k u = Ok r /\ build_doc u r = Ok d.
(** the number of requests for [u] *)
Definition requests (u : pystr) (log : list pystr) : nat := List.length (filter (str_eqb u) log).
(** a call for [u] is about to make its request; ... or about to store the answer *)
Definition asks (u : pystr) (t : thread) : bool :=
  match th_phase t, th_calls t with Missing _, (_, v) :: _ => str_eqb u v | _, _ => false end.
Definition stores (u : pystr) (t : thread) : bool :=
  match th_phase t, th_calls t with Storing _, (_, v) :: _ => str_eqb u v | _, _ => false end.
Definition asking (u : pystr) (st : tstate) : nat := List.length (filter (asks u) (ts_threads st)).

Lemma get_ok s u log log' d : get s u log = (log', Ok d) -> log' = log ++ [u] /\ http_url netloc_ok s u /\ exists r, server (List.length log) u = Ok r /\ build_doc u r = Ok d.
Proof.
  intro E. destruct (get_cases netloc_ok J json_type prepend_base server s u log) as [[A B]|[_ B]]; rewrite E in B; [|discriminate]. cbn in B. split; [exact B|]. split; [exact A|].
  unfold DocLoader.get in E. destruct (urlparse netloc_ok u) as [[sc ne]|e]; [|discriminate].
  repeat (match type of E with (if ?b then _ else _) = _ => destruct b; [discriminate|] end). injection E as _ E.
  destruct (server (List.length log) u) as [r|e]; [|discriminate]. eauto.
Qed.
Lemma get_err s u log log' e : get s u log = (log', Err e) -> (log' = log ++ [u] /\ http_url netloc_ok s u) \/ log' = log.
Proof.
  intro E. destruct (get_cases netloc_ok J json_type prepend_base server s u log) as [[A B]|[_ B]]; rewrite E in B; [left; cbn in B; auto|right]. now injection B.
Qed.
Lemma get_log s u log : fst (get s u log) = log ++ [u] /\ http_url netloc_ok s u \/ fst (get s u log) = log.
Proof. destruct (get s u log) as [log' [d|e]] eqn:E; cbn; [apply get_ok in E; tauto|apply get_err in E; tauto]. Qed.
Lemma given_more u d log x : given u d log -> given u d (log ++ x).
Proof. intros (k & r & A & B & C). exists k, r. split; [|auto]. rewrite nth_error_app1; [exact A|]. apply nth_error_Some. congruence. Qed.
Lemma given_new u r d log : server (List.length log) u = Ok r -> build_doc u r = Ok d -> given u d (log ++ [u]).
Proof. intros A B. exists (List.length log), r. split; [|auto]. rewrite nth_error_app2, Nat.sub_diag; [reflexivity|lia]. Qed.

(** ** What one step does *)
Lemma step_eq st i t : nth_error (ts_threads st) i = Some t ->
  exists t' cache log, th_step t (ts_cache st) (ts_log st) = (t', cache, log) /\ ts_step st i = mkTs cache log (set_nth i t' (ts_threads st)).
Proof.
  intro E. unfold LoaderThreads.ts_step. rewrite E. destruct (th_step t (ts_cache st) (ts_log st)) as [[t' cache] log] eqn:F. eauto.
Qed.
Lemma step_none st i : nth_error (ts_threads st) i = None -> ts_step st i = st.
Proof. intro E. unfold LoaderThreads.ts_step. now rewrite E. Qed.
(** the four kinds of step *)
Inductive stepped (t : thread) (cache : dict document) (log : list pystr) : thread -> dict document -> list pystr -> Prop :=
| s_done : th_calls t = [] -> stepped t cache log t cache log
| s_look s u rest : th_calls t = (s, u) :: rest -> th_phase t = Looking _ ->
    stepped t cache log (mkTh (match d_get u cache with Some _ => Reading _ | None => Missing _ end) (th_calls t) (th_results t)) cache log
| s_got s u rest d r : th_calls t = (s, u) :: rest -> th_phase t = Missing _ -> http_url netloc_ok s u ->
    server (List.length log) u = Ok r -> build_doc u r = Ok d ->
    stepped t cache log (mkTh (Storing d) (th_calls t) (th_results t)) cache (log ++ [u])
| s_failed s u rest e log' : th_calls t = (s, u) :: rest -> th_phase t = Missing _ -> (log' = log ++ [u] /\ http_url netloc_ok s u) \/ log' = log ->
    stepped t cache log (mkTh (Looking _) rest ((s, u, Err e) :: th_results t)) cache log'
| s_store s u rest d : th_calls t = (s, u) :: rest -> th_phase t = Storing d ->
    stepped t cache log (mkTh (Reading _) (th_calls t) (th_results t)) (d_set u d cache) log
| s_read s u rest : th_calls t = (s, u) :: rest -> th_phase t = Reading _ ->
    stepped t cache log (mkTh (Looking _) rest ((s, u, Ok (d_get u cache)) :: th_results t)) cache log.
Lemma wrap_err {A} e : exists e', @wrap A (Err e) = Err e'.
Proof. destruct e; eexists; reflexivity. Qed.
Lemma th_step_spec t cache log t' cache' log' : th_step t cache log = (t', cache', log') -> stepped t cache log t' cache' log'.
Proof.
  unfold LoaderThreads.th_step. destruct (th_calls t) as [|[s u] rest] eqn:C; [intros [= <- <- <-]; now constructor|].
  destruct (th_phase t) as [| |d|] eqn:P.
  - intros [= <- <- <-]. rewrite <- C. eapply s_look; eauto.
  - destruct (get s u log) as [l [d|e]] eqn:G.
    + intros [= <- <- <-]. apply get_ok in G. destruct G as (-> & A & r & B1 & B2). rewrite <- C. eapply s_got; eauto.
    + destruct (@wrap_err (option document) e) as [e' ->]. intros [= <- <- <-]. apply get_err in G. eapply s_failed; eauto.
  - intros [= <- <- <-]. rewrite <- C. eapply s_store; eauto.
  - intros [= <- <- <-]. eapply s_read; eauto.
Qed.

(** ** The invariant *)
Definition thread_ok (cache : dict document) (log : list pystr) (prog : list (bool * pystr)) (t : thread) : Prop :=
  match th_calls t, th_phase t with
  | (_, u) :: _, Storing d => given u d log
  | (_, u) :: _, Reading _ => d_get u cache <> None
  | _, _ => True
  end /\
  (forall c r, In (c, Ok r) (th_results t) -> exists d, r = Some d /\ given (snd c) d log) /\
  prog = rev (map fst (th_results t)) ++ th_calls t.
Definition ts_ok (progs : list (list (bool * pystr))) (st : tstate) : Prop :=
  (forall u d, d_get u (ts_cache st) = Some d -> given u d (ts_log st)) /\
  (forall i, match nth_error progs i, nth_error (ts_threads st) i with
             | Some p, Some t => thread_ok (ts_cache st) (ts_log st) p t
             | None, None => True
             | _, _ => False
             end) /\
  (forall u, In u (ts_log st) -> exists s i p, nth_error progs i = Some p /\ In (s, u) p /\ http_url netloc_ok s u).

Lemma start_ok progs : ts_ok progs (ts_start J progs).
Proof.
  split; [intros u d E; discriminate|]. split; [|intros u []]. intro i. cbn. rewrite nth_error_map. destruct (nth_error progs i) as [p|]; [|exact I].
  cbn. split; [destruct p as [|[] ?]; exact I|]. split; [intros c r []|reflexivity].
Qed.
Lemma thread_ok_more cache log cache' log' p t : (forall u, d_get u cache <> None -> d_get u cache' <> None) -> (exists x, log' = log ++ x) ->
  thread_ok cache log p t -> thread_ok cache' log' p t.
Proof.
  intros C [x ->] (A & B & D). split; [|split; [|exact D]].
  - destruct (th_calls t) as [|[s u] rest]; [exact I|]. destruct (th_phase t); auto. now apply given_more.
  - intros c r K. destruct (B c r K) as (d & E & G). exists d. split; [exact E|now apply given_more].
Qed.
Lemma stepped_grows t cache log t' cache' log' : stepped t cache log t' cache' log' ->
  (forall u, d_get u cache <> None -> d_get u cache' <> None) /\ exists x, log' = log ++ x.
Proof.
  intro S. destruct S as [| |s u rest d r|s u rest e log' E P [[-> H]| ->]|s u rest d E P|]; (split; [|try (exists []; now rewrite app_nil_r); eexists; reflexivity]); auto.
  intros v K. rewrite d_get_set. destruct (str_eqb v u); congruence.
Qed.
Lemma stepped_ok cache log p t t' cache' log' : stepped t cache log t' cache' log' -> (forall u d, d_get u cache = Some d -> given u d log) ->
  thread_ok cache log p t -> thread_ok cache' log' p t'.
Proof.
  intros S C K. destruct S as [N|s u rest N P|s u rest d r N P H R B|s u rest e log' N P H|s u rest d N P|s u rest N P]; [exact K| | | | |].
  - destruct K as (_ & K2 & K3). split; [|split; [exact K2|exact K3]]. cbn. rewrite N. destruct (d_get u cache) eqn:D; [|exact I]. congruence.
  - destruct K as (_ & K2 & K3). split; [cbn; rewrite N; eapply given_new; eauto|]. split; [|exact K3].
    intros c x X. destruct (K2 c x X) as (d' & E & G). exists d'. split; [exact E|now apply given_more].
  - destruct K as (_ & K2 & K3). split; [destruct rest as [|[] ?]; exact I|]. split.
    + intros c x [X|X]; [discriminate|]. destruct (K2 c x X) as (d' & E & G). exists d'. split; [exact E|]. destruct H as [[-> _]| ->]; [now apply given_more|exact G].
    + cbn. rewrite K3, N, <- app_assoc. reflexivity.
  - destruct K as (K1 & K2 & K3). rewrite N, P in K1. split; [|split; [exact K2|exact K3]]. cbn. rewrite N, d_get_set, str_eqb_refl. discriminate.
  - destruct K as (K1 & K2 & K3). rewrite N, P in K1. split; [destruct rest as [|[] ?]; exact I|]. split.
    + intros c x [X|X]; [|now apply K2]. injection X as <- <-. cbn. destruct (d_get u cache) as [d|] eqn:D; [|now destruct K1]. exists d. split; [reflexivity|now apply C].
    + cbn. rewrite K3, N, <- app_assoc. reflexivity.
Qed.
Lemma step_ok progs st i : ts_ok progs st -> ts_ok progs (ts_step st i).
Proof.
  intros (C & T & L). destruct (nth_error (ts_threads st) i) as [t|] eqn:E; [|rewrite step_none by exact E; repeat split; assumption].
  destruct (step_eq _ _ _ E) as (t' & cache & log & S & ->). apply th_step_spec in S.
  assert (Ki := T i). rewrite E in Ki. destruct (nth_error progs i) as [p|] eqn:Ep; [|contradiction].
  destruct (stepped_grows _ _ _ _ _ _ S) as [G1 G2]. split; [|split].
  - cbn. intros u d D. destruct S as [| |s u' rest d' r|s u' rest e log' N P [[-> H]| ->]|s u' rest d' N P|]; try (now apply C); try (apply given_more; now apply C).
    rewrite d_get_set in D. destruct (str_eqb u u') eqn:Q; [|now apply C]. apply str_eqb_eq in Q. subst u'. injection D as <-.
    destruct Ki as (K1 & _). now rewrite N, P in K1.
  - cbn. intro j. destruct (Nat.eq_dec i j) as [<-|N].
    + rewrite (nth_set_same i t' _ t E), Ep. eapply stepped_ok; eauto.
    + rewrite nth_set_other by exact N. specialize (T j). destruct (nth_error progs j); [|exact T]. destruct (nth_error (ts_threads st) j); [|exact T].
      eapply thread_ok_more; eauto.
  - cbn. intros u I. assert (New : forall s u' rest, th_calls t = (s, u') :: rest -> http_url netloc_ok s u' -> In u (ts_log st ++ [u']) ->
        exists s i p, nth_error progs i = Some p /\ In (s, u) p /\ http_url netloc_ok s u).
    { intros s u' rest N H K. apply in_app_iff in K. destruct K as [K|[<-|[]]]; [now apply L|]. exists s, i, p. split; [exact Ep|]. split; [|exact H].
      destruct Ki as (_ & _ & ->). rewrite N. apply in_app_iff. right. left. reflexivity. }
    destruct S as [| |s u' rest d' r|s u' rest e log' N P [[-> H]| ->]|s u' rest d' N P|]; try (now apply L); eapply New; eauto.
Qed.
Lemma run_app s1 s2 st : ts_run (s1 ++ s2) st = ts_run s2 (ts_run s1 st).
Proof. apply fold_left_app. Qed.
Lemma run_ind (P : tstate -> Prop) : (forall st i, P st -> P (ts_step st i)) -> forall sched st, P st -> P (ts_run sched st).
Proof. intros K sched. induction sched as [|i sched IH]; intros st S; [exact S|]. cbn. apply IH, K, S. Qed.
Lemma run_ok progs sched : ts_ok progs (ts_run sched (ts_start J progs)).
Proof. apply run_ind; [intros; now apply step_ok|apply start_ok]. Qed.

(** ** The theorems *)
Lemma C119_genuine_lemma progs sched i t s u r : let st := ts_run sched (ts_start J progs) in
  nth_error (ts_threads st) i = Some t -> In (s, u, Ok r) (th_results t) -> exists d, r = Some d /\ given u d (ts_log st).
Proof.
  intros st E I. destruct (run_ok progs sched) as (_ & T & _). specialize (T i). fold st in T. rewrite E in T. destruct (nth_error progs i); [|contradiction].
  destruct T as (_ & T & _). exact (T (s, u) r I).
Qed.
Lemma C119_calls_lemma progs sched i p : nth_error progs i = Some p -> exists t, nth_error (ts_threads (ts_run sched (ts_start J progs))) i = Some t /\
  p = rev (map fst (th_results t)) ++ th_calls t.
Proof.
  intro E. destruct (run_ok progs sched) as (_ & T & _). specialize (T i). rewrite E in T. destruct (nth_error (ts_threads _) i) as [t|]; [|contradiction].
  exists t. split; [reflexivity|]. apply T.
Qed.
Lemma C119_requests_lemma progs sched u : In u (ts_log (ts_run sched (ts_start J progs))) -> exists s i p, nth_error progs i = Some p /\ In (s, u) p /\ http_url netloc_ok s u.
Proof. apply (run_ok progs sched). Qed.

(** counting *)
Definition sum_threads (f : thread -> nat) (st : tstate) : nat := list_sum (map f (ts_threads st)).
Lemma sum_set f i (t t' : thread) l : nth_error l i = Some t -> list_sum (map f (set_nth i t' l)) + f t = list_sum (map f l) + f t'.
Proof. revert i. induction l as [|y l IH]; intros [|i] E; simpl in *; try discriminate; [injection E as ->; lia|]. specialize (IH i E). lia. Qed.
Lemma requests_app u l v : requests u (l ++ [v]) = requests u l + (if str_eqb u v then 1 else 0).
Proof. unfold requests. rewrite filter_app, app_length. cbn. destruct (str_eqb u v); reflexivity. Qed.
Lemma filter_sum {A} (p : A -> bool) l : List.length (filter p l) = list_sum (map (fun x => if p x then 1 else 0) l).
Proof. induction l as [|x l IH]; simpl; [reflexivity|]. destruct (p x); simpl; lia. Qed.
(** the calls for [u] of a thread that may still make a request *)
Definition to_ask (u : pystr) (t : thread) : nat :=
  List.length (filter (fun c => str_eqb u (snd c)) (match th_phase t with Storing _ | Reading _ => tl (th_calls t) | _ => th_calls t end)).
Lemma to_ask_step u t cache log t' cache' log' : stepped t cache log t' cache' log' -> requests u log' + to_ask u t' <= requests u log + to_ask u t.
Proof.
  intro S. destruct S as [N|s v rest N P|s v rest d r N P H R B|s v rest e log' N P H|s v rest d N P|s v rest N P]; [lia|..]; unfold to_ask; cbn [th_phase th_calls].
  - rewrite N, P. destruct (d_get v cache); [|lia]. cbn. destruct (str_eqb u v); cbn; lia.
  - rewrite N, P, requests_app. cbn. destruct (str_eqb u v); cbn; lia.
  - rewrite N, P. cbn. destruct H as [[-> _]| ->]; [rewrite requests_app|]; destruct (str_eqb u v); cbn; lia.
  - rewrite N, P. lia.
  - rewrite N, P. cbn. lia.
Qed.
Lemma C119_one_request_lemma progs sched u :
  requests u (ts_log (ts_run sched (ts_start J progs))) <= List.length (filter (fun c => str_eqb u (snd c)) (List.concat progs)).
Proof.
  assert (K : forall st, requests u (ts_log (ts_run sched st)) + sum_threads (to_ask u) (ts_run sched st) <= requests u (ts_log st) + sum_threads (to_ask u) st).
  { induction sched as [|i sched IH]; intro st; [cbn; lia|]. cbn. etransitivity; [apply IH|].
    destruct (nth_error (ts_threads st) i) as [t|] eqn:E; [|rewrite step_none by exact E; lia].
    destruct (step_eq _ _ _ E) as (t' & cache & log & S & ->). apply th_step_spec in S. apply (to_ask_step u) in S. unfold sum_threads. cbn [ts_log ts_threads].
    assert (X := sum_set (to_ask u) i t t' _ E). lia. }
  specialize (K (ts_start J progs)). cbn [ts_start ts_log] in K. 
  assert (X : sum_threads (to_ask u) (ts_start J progs) = List.length (filter (fun c => str_eqb u (snd c)) (List.concat progs))).
  { unfold sum_threads. cbn. clear K. induction progs as [|p progs IH]; [reflexivity|]. cbn. rewrite IH, filter_app, app_length. reflexivity. }
  rewrite X in K. unfold requests at 2 in K. cbn in K. lia.
Qed.
(** once a document for [u] is stored, only calls that had already missed the cache make a request *)
Lemma C119_after_stored_lemma sched st u : d_get u (ts_cache st) <> None ->
  d_get u (ts_cache (ts_run sched st)) <> None /\ requests u (ts_log (ts_run sched st)) <= requests u (ts_log st) + asking u st.
Proof.
  assert (K : d_get u (ts_cache st) <> None -> d_get u (ts_cache (ts_run sched st)) <> None /\ requests u (ts_log (ts_run sched st)) + asking u (ts_run sched st) <= requests u (ts_log st) + asking u st).
  { revert st. induction sched as [|i sched IH]; intros st D; [cbn; split; [exact D|lia]|]. cbn.
    destruct (nth_error (ts_threads st) i) as [t|] eqn:E; [|rewrite step_none by exact E; apply IH, D].
    destruct (step_eq _ _ _ E) as (t' & cache & log & S & Q). apply th_step_spec in S. rewrite Q.
    destruct (stepped_grows _ _ _ _ _ _ S) as [G _]. destruct (IH (mkTs cache log (set_nth i t' (ts_threads st))) (G u D)) as [I1 I2]. split; [exact I1|].
    etransitivity; [exact I2|]. unfold asking. cbn [ts_log ts_threads]. rewrite !filter_sum.
    assert (X := sum_set (fun x => if asks u x then 1 else 0) i t t' _ E). cbn beta in X.
    assert (Y : requests u log + (if asks u t' then 1 else 0) <= requests u (ts_log st) + (if asks u t then 1 else 0)); [|lia].
    clear - S D. destruct S as [N|s v rest N P|s v rest d r N P H R B|s v rest e log' N P H|s v rest d N P|s v rest N P]; [lia|..]; unfold asks; cbn [th_phase th_calls].
    - rewrite N, P. destruct (d_get v (ts_cache st)) eqn:Dv; [lia|]. destruct (str_eqb u v) eqn:Q; [|lia]. apply str_eqb_eq in Q. congruence.
    - rewrite N, P, requests_app. destruct (str_eqb u v); lia.
    - rewrite N, P. destruct H as [[-> _]| ->]; [rewrite requests_app|]; destruct (str_eqb u v); lia.
    - rewrite P. lia.
    - rewrite P. lia. }
  intro D. destruct (K D) as [A B]. split; [exact A|lia].
Qed.
(** when no call for [u] is between missing the cache and storing, the document stays *)
Definition settled (u : pystr) (d : document) (st : tstate) : Prop :=
  d_get u (ts_cache st) = Some d /\ forall t, In t (ts_threads st) -> asks u t = false /\ stores u t = false.
Lemma in_set {A} i (x y : A) l : In y (set_nth i x l) -> y = x \/ In y l.
Proof. revert i. induction l as [|z l IH]; intros [|i] I; simpl in *; auto; destruct I as [<-|I]; auto. destruct (IH i I); auto. Qed.
Lemma settled_step u d st i : settled u d st -> settled u d (ts_step st i) /\
  forall j t', nth_error (ts_threads (ts_step st i)) j = Some t' -> exists t new, nth_error (ts_threads st) j = Some t /\ th_results t' = new ++ th_results t /\
    forall s r, In (s, u, r) new -> r = Ok (Some d).
Proof.
  intros [C T]. destruct (nth_error (ts_threads st) i) as [t|] eqn:E.
  2:{ rewrite step_none by exact E. split; [split; assumption|]. intros j t' Ej. exists t', []. repeat split; auto. intros s r []. }
  destruct (step_eq _ _ _ E) as (t' & cache & log & S & ->). apply th_step_spec in S. destruct (T t (nth_error_In _ _ E)) as [T1 T2].
  assert (K : d_get u cache = Some d /\ asks u t' = false /\ stores u t' = false /\ exists new, th_results t' = new ++ th_results t /\ forall s r, In (s, u, r) new -> r = Ok (Some d)).
  { destruct S as [N|s v rest N P|s v rest d' r N P H R B|s v rest e log' N P H|s v rest d' N P|s v rest N P].
    - repeat split; auto. exists []. split; [reflexivity|intros s r []].
    - split; [exact C|]. unfold asks, stores. cbn. rewrite N.
      assert (X : match (match d_get v (ts_cache st) with Some _ => Reading J | None => Missing J end) with Missing _ => str_eqb u v | _ => false end = false).
      { destruct (d_get v (ts_cache st)) eqn:D; [reflexivity|]. destruct (str_eqb u v) eqn:Q; [|reflexivity]. apply str_eqb_eq in Q. congruence. }
      split; [exact X|]. split; [destruct (d_get v (ts_cache st)); reflexivity|]. exists []. split; [reflexivity|intros s0 r []].
    - unfold asks in T1. rewrite N, P in T1. split; [exact C|]. unfold asks, stores. cbn. rewrite N. repeat split; auto. exists []. split; [reflexivity|intros s0 r0 []].
    - unfold asks in T1. rewrite N, P in T1. split; [exact C|]. repeat split; auto. exists [(s, v, Err e)]. split; [reflexivity|].
      intros s0 r0 [X|[]]. injection X as <- -> <-. rewrite str_eqb_refl in T1. discriminate.
    - unfold stores in T2. rewrite N, P in T2. split; [rewrite d_get_set, T2; exact C|]. unfold asks, stores. cbn. repeat split; auto. exists []. split; [reflexivity|intros s0 r []].
    - split; [exact C|]. repeat split; auto. exists [(s, v, Ok (d_get v (ts_cache st)))]. split; [reflexivity|].
      intros s0 r0 [X|[]]. injection X as <- -> <-. now rewrite C. }
  destruct K as (K1 & K2 & K3 & new & K4 & K5). split.
  - split; [exact K1|]. intros x I. destruct (in_set _ _ _ _ I) as [->|I']; [auto|now apply T].
  - cbn. intros j x Ej. destruct (Nat.eq_dec i j) as [<-|N].
    + rewrite (nth_set_same i t' _ t E) in Ej. injection Ej as <-. exists t, new. auto.
    + rewrite nth_set_other in Ej by exact N. exists x, []. repeat split; auto. intros s r [].
Qed.
Lemma C119_settled_lemma sched u d : forall st, settled u d st -> settled u d (ts_run sched st) /\
  forall j t', nth_error (ts_threads (ts_run sched st)) j = Some t' -> exists t new, nth_error (ts_threads st) j = Some t /\ th_results t' = new ++ th_results t /\
    forall s r, In (s, u, r) new -> r = Ok (Some d).
Proof.
  induction sched as [|i sched IH]; intros st S; cbn.
  - split; [exact S|]. intros j t' E. exists t', []. repeat split; auto. intros s r [].
  - destruct (settled_step u d st i S) as [S1 R1]. destruct (IH _ S1) as [S2 R2]. split; [exact S2|]. intros j t' E.
    destruct (R2 j t' E) as (t1 & n1 & E1 & F1 & G1). destruct (R1 j t1 E1) as (t0 & n0 & E0 & F0 & G0). exists t0, (n1 ++ n0). split; [exact E0|].
    split; [rewrite F1, F0; apply app_assoc|]. intros s r I. apply in_app_iff in I. destruct I; eauto.
Qed.

(** progress *)
Definition left_of (t : thread) : nat :=
  4 * List.length (th_calls t) - match th_calls t, th_phase t with _ :: _, Missing _ => 1 | _ :: _, Storing _ => 2 | _ :: _, Reading _ => 3 | _, _ => 0 end.
Lemma left_step t cache log t' cache' log' : stepped t cache log t' cache' log' -> th_calls t = [] /\ t' = t \/ left_of t' < left_of t.
Proof.
  intro S. destruct S as [N|s v rest N P|s v rest d' r N P H R B|s v rest e log' N P H|s v rest d' N P|s v rest N P]; [left; auto|..]; right; unfold left_of; cbn [th_calls th_phase]; rewrite N, ?P; cbn [List.length].
  - destruct (d_get v cache); lia.
  - lia.
  - destruct rest as [|[] ?]; cbn; lia.
  - lia.
  - destruct rest as [|[] ?]; cbn; lia.
Qed.
Lemma C119_progress_gen sched i : forall st t, nth_error (ts_threads st) i = Some t -> exists t', nth_error (ts_threads (ts_run sched st)) i = Some t' /\
  (left_of t <= count_occ Nat.eq_dec sched i -> th_calls t' = []) /\ left_of t' + count_occ Nat.eq_dec sched i <= max (left_of t) (count_occ Nat.eq_dec sched i).
Proof.
  induction sched as [|j sched IH]; intros st t E.
  - exists t. split; [exact E|]. cbn. split; [|lia]. intro L. destruct (th_calls t) as [|c l] eqn:N; [reflexivity|]. cbn in L. destruct (th_phase t); lia.
  - cbn [ts_run fold_left]. fold (ts_run sched (ts_step st j)). destruct (Nat.eq_dec j i) as [->|N].
    + rewrite count_occ_cons_eq by reflexivity. destruct (step_eq _ _ _ E) as (t1 & cache & log & S & ->). apply th_step_spec, left_step in S.
      destruct (IH (mkTs cache log (set_nth i t1 (ts_threads st))) t1) as (t' & E' & A & B); [cbn; eapply nth_set_same; eauto|]. exists t'. split; [exact E'|].
      destruct S as [[S1 ->]|S].
      * assert (X : left_of t = 0) by (unfold left_of; now rewrite S1). split; [intros _; apply A; lia|lia].
      * split; [intro L; apply A; lia|lia].
    + rewrite count_occ_cons_neq by congruence.
      assert (E' : nth_error (ts_threads (ts_step st j)) i = Some t).
      { destruct (nth_error (ts_threads st) j) as [tj|] eqn:Ej; [|rewrite step_none by exact Ej; exact E]. destruct (step_eq _ _ _ Ej) as (t1 & cache & log & S & ->). cbn. now rewrite nth_set_other. }
      destruct (IH _ t E') as (t' & F & A & B). exists t'. split; [exact F|]. split; [exact A|exact B].
Qed.
Lemma C119_progress_lemma progs sched i p : nth_error progs i = Some p -> 4 * List.length p <= count_occ Nat.eq_dec sched i ->
  exists t, nth_error (ts_threads (ts_run sched (ts_start J progs))) i = Some t /\ map fst (th_results t) = rev p.
Proof.
  intros E L. destruct (C119_progress_gen sched i (ts_start J progs) (mkTh (Looking J) p [])) as (t & A & B & _); [cbn; now rewrite nth_error_map, E|].
  destruct (C119_calls_lemma progs sched i p E) as (t2 & A2 & C). rewrite A in A2. injection A2 as <-. exists t. split; [exact A|]. rewrite C, B, app_nil_r, rev_involutive; [reflexivity|].
  unfold left_of. cbn [th_calls th_phase]. destruct p; cbn in *; lia.
Qed.

(** one thread: C65 *)
Definition lifted (r : res document) : res (option document) := match r with Ok d => Ok (Some d) | Err e => Err e end.
Lemma one_call s u rest cache log res st' r : cached_call netloc_ok json_type prepend_base server s u (mkLs cache log) = (st', r) ->
  exists n, ts_run (repeat 0 n) (mkTs cache log [mkTh (Looking J) ((s, u) :: rest) res]) = mkTs (ls_cache st') (ls_log st') [mkTh (Looking J) rest ((s, u, lifted r) :: res)].
Proof.
  unfold cached_call. cbn [ls_cache ls_log]. destruct (d_get u cache) as [d|] eqn:D.
  - intros [= <- <-]. exists 2. cbn. unfold LoaderThreads.ts_step. cbn. rewrite D. cbn. rewrite ?D. reflexivity.
  - destruct (get s u log) as [log' [d|e]] eqn:G.
    + rewrite d_get_set, str_eqb_refl. intros [= <- <-]. exists 4. cbn. unfold LoaderThreads.ts_step. cbn. rewrite ?D. cbn. rewrite ?G. cbn. rewrite ?d_get_set, ?str_eqb_refl. reflexivity.
    + intros [= <- <-]. exists 2. cbn. unfold LoaderThreads.ts_step. cbn. rewrite ?D. cbn. rewrite ?G. cbn. destruct e; reflexivity.
Qed.
Lemma C119_one_thread_gen cs : forall cache log res st' rs, calls netloc_ok json_type prepend_base server cs (mkLs cache log) = (st', rs) ->
  exists n, ts_run (repeat 0 n) (mkTs cache log [mkTh (Looking J) cs res]) =
    mkTs (ls_cache st') (ls_log st') [mkTh (Looking J) [] (rev (combine cs (map (fun x => lifted (fst x)) rs)) ++ res)].
Proof.
  induction cs as [|[s u] cs IH]; intros cache log res st' rs E; cbn in E.
  - injection E as <- <-. exists 0. reflexivity.
  - destruct (cached_call netloc_ok json_type prepend_base server s u (mkLs cache log)) as [st1 r] eqn:C. destruct (calls netloc_ok json_type prepend_base server cs st1) as [st2 rs'] eqn:K.
    injection E as <- <-. destruct (one_call s u cs cache log res st1 r C) as [n N]. destruct st1 as [c1 l1]. destruct (IH c1 l1 ((s, u, lifted r) :: res) st2 rs' K) as [m M].
    exists (n + m). rewrite repeat_app, run_app, N. cbn [ls_cache ls_log]. rewrite M. cbn. rewrite <- app_assoc. reflexivity.
Qed.
Lemma C119_one_thread_lemma cs st' rs : calls netloc_ok json_type prepend_base server cs (mkLs [] []) = (st', rs) -> exists n, forall m, n <= m ->
  ts_run (repeat 0 m) (ts_start J [cs]) = mkTs (ls_cache st') (ls_log st') [mkTh (Looking J) [] (rev (combine cs (map (fun x => lifted (fst x)) rs)))].
Proof.
  intro E. destruct (C119_one_thread_gen cs [] [] [] st' rs E) as [n N]. exists n. intros m L. replace m with (n + (m - n)) by lia. rewrite repeat_app, run_app.
  unfold ts_start. cbn [map]. rewrite N, app_nil_r. generalize (m - n). intro k. induction k as [|k IH]; [reflexivity|]. cbn. exact IH.
Qed.
End Threads.
