(** Property theorem C119: the caching document loader used by several threads. [ts_run sched (ts_start J progs)]: thread [i] makes the calls [progs[i]]
    one after the other, and the schedule says which thread makes the next step (LoaderThreads.v). The specification is [given], [requests], [asking]
    and [settled] in LoaderThreadsFacts.v. *)
From Coq Require Import String.
From Verif Require Import Base BaseFacts Dict DictFacts Url DocLoader UrlFacts LoaderThreads LoaderThreadsFacts.
From Coq Require Import Lia.
Open Scope list_scope.

Section Props.
Variable J : Type.
Variable netloc_ok : pystr -> bool.
Variable json_type : pystr -> bool.
Variable prepend_base : pystr -> pystr -> pystr.
Variable server : nat -> pystr -> res (response J).
Notation ts_run := (ts_run netloc_ok json_type prepend_base server).

(** A call that returns gives a document the server gave in answer to a request for that very url (never None, never another url's). *)
Theorem C119_genuine : forall progs sched i t s u r, let st := ts_run sched (ts_start J progs) in
  nth_error (ts_threads st) i = Some t -> In (s, u, Ok r) (th_results t) ->
  exists d, r = Some d /\ exists k x, nth_error (ts_log st) k = Some u /\ server k u = Ok x /\ build_doc json_type prepend_base u x = Ok d.
Proof. exact (C119_genuine_lemma J netloc_ok json_type prepend_base server). Qed.
(** No request without a call for that url that may make it; no more requests than calls. *)
Theorem C119_requests : forall progs sched u, let log := ts_log (ts_run sched (ts_start J progs)) in
  (In u log -> exists s i p, nth_error progs i = Some p /\ In (s, u) p /\ http_url netloc_ok s u) /\
  requests u log <= List.length (filter (fun c => str_eqb u (snd c)) (List.concat progs)).
Proof. intros progs sched u log. split; [apply C119_requests_lemma|apply C119_one_request_lemma]. Qed.
(** Once a document is stored it may be replaced but never disappears, and only the calls that had already missed it make a request. *)
Theorem C119_after_stored : forall progs s1 s2 u, let st1 := ts_run s1 (ts_start J progs) in let st2 := ts_run (s1 ++ s2) (ts_start J progs) in
  d_get u (ts_cache st1) <> None -> d_get u (ts_cache st2) <> None /\ requests u (ts_log st2) <= requests u (ts_log st1) + asking J u st1.
Proof. intros progs s1 s2 u st1 st2 D. unfold st2. rewrite run_app. now apply C119_after_stored_lemma. Qed.
(** When no call for [u] is between missing it and storing, [u] has its final document: all calls that end later return it, without a request. *)
Theorem C119_settled : forall progs s1 s2 u d, let st1 := ts_run s1 (ts_start J progs) in let st2 := ts_run (s1 ++ s2) (ts_start J progs) in
  settled J u d st1 -> d_get u (ts_cache st2) = Some d /\ requests u (ts_log st2) <= requests u (ts_log st1) /\
  forall j t', nth_error (ts_threads st2) j = Some t' -> exists t new, nth_error (ts_threads st1) j = Some t /\ th_results t' = new ++ th_results t /\
    forall s r, In (s, u, r) new -> r = Ok (Some d).
Proof.
  intros progs s1 s2 u d st1 st2 S. unfold st2. rewrite run_app. fold st1. destruct (C119_settled_lemma J netloc_ok json_type prepend_base server s2 u d st1 S) as [[A B] C].
  split; [exact A|]. split; [|exact C]. destruct S as [S1 S2].
  destruct (C119_after_stored_lemma J netloc_ok json_type prepend_base server s2 st1 u) as [_ L]; [congruence|].
  assert (X : asking J u st1 = 0); [|lia]. unfold asking. destruct (filter (asks J u) (ts_threads st1)) as [|t l] eqn:F; [reflexivity|].
  assert (I : In t (filter (asks J u) (ts_threads st1))) by (rewrite F; left; reflexivity). apply filter_In in I. destruct I as [I1 I2]. destruct (S2 t I1) as [K _]. congruence.
Qed.
(** Nobody waits for another thread: a thread that gets four steps for every call has made all its calls. *)
Theorem C119_progress : forall progs sched i p, nth_error progs i = Some p -> 4 * List.length p <= count_occ Nat.eq_dec sched i ->
  exists t, nth_error (ts_threads (ts_run sched (ts_start J progs))) i = Some t /\ map fst (th_results t) = rev p.
Proof. exact (C119_progress_lemma J netloc_ok json_type prepend_base server). Qed.
(** One thread alone: the results, requests and cache of C65. *)
Theorem C119_one_thread : forall cs st' rs, calls netloc_ok json_type prepend_base server cs (mkLs [] []) = (st', rs) -> exists n, forall m, n <= m ->
  ts_run (repeat 0 m) (ts_start J [cs]) = mkTs (ls_cache st') (ls_log st')
    [mkTh (Looking J) [] (rev (combine cs (map (fun x => match fst x with Ok d => Ok (Some d) | Err e => Err e end) rs)))].
Proof. exact (C119_one_thread_lemma J netloc_ok json_type prepend_base server). Qed.
End Props.
Print Assumptions C119_genuine.
Print Assumptions C119_requests.
Print Assumptions C119_after_stored.
Print Assumptions C119_settled.
Print Assumptions C119_progress.
Print Assumptions C119_one_thread.

(* the server counts the requests *)
Definition ex_server (n : nat) (u : pystr) : res (response nat) := if Nat.eqb n 3 then Err IOError else Ok (mkResp (Some (py "application/ld+json")) u (Ok n) None).
Definition ex_url : pystr := py "https://a.b/c".
Definition ex_thread (n : nat) : list (bool * pystr) := repeat (true, ex_url) n.
Notation ex_run := (ts_run (fun _ => true) (fun _ => true) (fun _ u => u) ex_server).
Definition ex_doc (n : nat) : document nat := mkDoc (py "application/ld+json") None ex_url n.
(** C65's "at most one successful request per url" and "the same document for everyone" fail with two threads *)
Theorem C119_at_most_once_refuted : exists (server : nat -> pystr -> res (response nat)) progs sched st t0 t1 d0 d1,
  st = ts_run (fun _ => true) (fun _ => true) (fun _ u => u) server sched (ts_start nat progs) /\ progs = [ex_thread 1; ex_thread 1] /\
  ts_log st = [ex_url; ex_url] /\ ts_threads st = [t0; t1] /\ th_results t0 = [(true, ex_url, Ok (Some d0))] /\ th_results t1 = [(true, ex_url, Ok (Some d1))] /\ d0 <> d1.
Proof.
  exists ex_server, [ex_thread 1; ex_thread 1], [0; 1; 0; 0; 0; 1; 1; 1]. do 3 eexists. exists (ex_doc 0), (ex_doc 1).
  split; [reflexivity|]. split; [reflexivity|]. split; [vm_compute; reflexivity|]. split; [vm_compute; reflexivity|]. split; [vm_compute; reflexivity|]. split; [vm_compute; reflexivity|].
  intro E. apply (f_equal (@d_json nat)) in E. discriminate.
Qed.
Print Assumptions C119_at_most_once_refuted.
(* thread 0 stores and reads, thread 1 still asks: the hypothesis of C119_after_stored with one call asking; afterwards all is settled *)
Example C119_case : let st1 := ex_run [0; 1; 0; 0; 0] (ts_start nat [ex_thread 2; ex_thread 2]) in
  d_get ex_url (ts_cache st1) = Some (ex_doc 0) /\ requests ex_url (ts_log st1) = 1 /\ asking nat ex_url st1 = 1 /\
  let st2 := ex_run ([0; 1; 0; 0; 0] ++ [1; 1]) (ts_start nat [ex_thread 2; ex_thread 2]) in
  d_get ex_url (ts_cache st2) = Some (ex_doc 1) /\ requests ex_url (ts_log st2) = 2.
Proof. vm_compute. auto. Qed.
Example C119_case_settled : let st2 := ex_run [0; 1; 0; 0; 0; 1; 1] (ts_start nat [ex_thread 2; ex_thread 2]) in
  settled nat ex_url (ex_doc 1) st2 /\
  map (fun t => map snd (th_results t)) (ts_threads (ex_run ([0; 1; 0; 0; 0; 1; 1] ++ repeat 0 8 ++ repeat 1 8) (ts_start nat [ex_thread 2; ex_thread 2]))) =
  [[Ok (Some (ex_doc 1)); Ok (Some (ex_doc 0))]; [Ok (Some (ex_doc 1)); Ok (Some (ex_doc 1))]].
Proof.
  split; [|vm_compute; reflexivity]. split; [vm_compute; reflexivity|]. intros t I.
  assert (X : forallb (fun t => negb (asks nat ex_url t) && negb (stores nat ex_url t)) (ts_threads (ex_run [0; 1; 0; 0; 0; 1; 1] (ts_start nat [ex_thread 2; ex_thread 2]))) = true) by (vm_compute; reflexivity).
  rewrite forallb_forall in X. specialize (X t I). destruct (asks nat ex_url t), (stores nat ex_url t); auto; discriminate.
Qed.
