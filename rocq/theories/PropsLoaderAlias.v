(** C122: the documents a loader gives out are shared through its cache. *)
From Coq Require Import String Lia.
From Verif Require Import Base Dict Url DocLoader LoaderAlias LoaderAliasFacts.
Open Scope list_scope.
Set Implicit Arguments.

(** A load that succeeds returns the object made by some earlier (or this very) load [i] of the same url by a loader of the same kind; that one got it from the server; and its contents are the server's document with every change the callers made to it in place between [i] and [j] — not the document as sent. *)
Theorem C122_contents : forall (J : Type) netloc_ok json_type prepend_base (server : nat -> pystr -> res (response J)) (ops : list (aop J)) j cached secure url r d,
  let results := snd (a_run netloc_ok json_type prepend_base server ops) in
  nth_error ops j = Some (ALoad J cached secure url) -> nth_error results j = Some (Some (Ok (r, d))) ->
  exists i secure0 d0, i <= j /\ nth_error ops i = Some (ALoad J cached secure0 url) /\ nth_error results i = Some (Some (Ok (r, d0))) /\
    sent netloc_ok json_type prepend_base server secure0 url d0 /\ (cached = false -> i = j) /\
    (forall k d', k < i -> nth_error results k <> Some (Some (Ok (r, d')))) /\
    d = changed r d0 (firstn (j - S i) (skipn (S i) ops)).
Proof. intros J n t p server ops j cached secure url r d results. exact (@C122_contents_lemma J n t p server ops j cached secure url r d). Qed.
Print Assumptions C122_contents.
(** Two successful loads return the same object exactly when they are the same call, or both are calls of the caching loader with the same url. *)
Theorem C122_same_object : forall (J : Type) netloc_ok json_type prepend_base (server : nat -> pystr -> res (response J)) (ops : list (aop J)) i j ci cj si sj ui uj ri rj di dj,
  let results := snd (a_run netloc_ok json_type prepend_base server ops) in
  nth_error ops i = Some (ALoad J ci si ui) -> nth_error ops j = Some (ALoad J cj sj uj) ->
  nth_error results i = Some (Some (Ok (ri, di))) -> nth_error results j = Some (Some (Ok (rj, dj))) ->
  (ri = rj <-> i = j \/ (ci = true /\ cj = true /\ ui = uj)).
Proof. intros J n t p server ops i j ci cj si sj ui uj ri rj di dj results. exact (@C122_same_lemma J n t p server ops i j ci cj si sj ui uj ri rj di dj). Qed.
Print Assumptions C122_same_object.
(** A load returns what the server sent for that url, if nobody has changed the object it returns. *)
Theorem C122_untouched : forall (J : Type) netloc_ok json_type prepend_base (server : nat -> pystr -> res (response J)) (ops : list (aop J)) j cached secure url r d,
  nth_error ops j = Some (ALoad J cached secure url) -> nth_error (snd (a_run netloc_ok json_type prepend_base server ops)) j = Some (Some (Ok (r, d))) ->
  (forall d', ~ In (AChange r d') (firstn j ops)) -> exists secure0, sent netloc_ok json_type prepend_base server secure0 url d.
Proof. exact C122_untouched_lemma. Qed.
Print Assumptions C122_untouched.

(** Every load returns a document or raises: JsonLdError for any error the request ended in, except that SystemExit passes; and the caching loader never fails for a url it has once returned a document for. *)
Theorem C122_failed : forall (J : Type) netloc_ok json_type prepend_base (server : nat -> pystr -> res (response J)) (ops : list (aop J)) j cached secure url,
  let results := snd (a_run netloc_ok json_type prepend_base server ops) in
  nth_error ops j = Some (ALoad J cached secure url) -> exists x, nth_error results j = Some (Some x) /\
  forall e, x = Err e ->
    (exists log log' e0, get netloc_ok json_type prepend_base server secure url log = (log', Err e0) /\ (e0 = SystemExit -> e = SystemExit) /\ (e0 <> SystemExit -> e = JsonLdError)) /\
    (cached = true -> forall i secure' r d, i < j -> nth_error ops i = Some (ALoad J true secure' url) -> nth_error results i <> Some (Some (Ok (r, d)))).
Proof. intros J n t p server ops j cached secure url results. exact (@C122_failed_lemma J n t p server ops j cached secure url). Qed.
Print Assumptions C122_failed.

Definition al_url : pystr := py "https://a.b/c".
Definition al_url2 : pystr := py "https://a.b/d".
Definition al_server (n : nat) (u : pystr) : res (response nat) := Ok (mkResp (Some (py "application/ld+json")) u (Ok n) None).
Definition al_doc (u : pystr) (n : nat) : document nat := mkDoc (py "application/ld+json") None u n.
Definition al_load := ALoad nat true true.
Notation al_run := (a_run (fun _ => true) (fun _ => true) (fun _ u => u) al_server).
(* a caller changes the document it was given: the next caller gets the changed one, a loader without cache asks again *)
Definition al_ops : list (aop nat) := [al_load al_url; al_load al_url2; AChange 0 (al_doc al_url 77); al_load al_url; ALoad nat false true al_url; al_load al_url2].
Example C122_case : snd (al_run al_ops) =
  [Some (Ok (0, al_doc al_url 0)); Some (Ok (1, al_doc al_url2 1)); None; Some (Ok (0, al_doc al_url 77)); Some (Ok (2, al_doc al_url 2)); Some (Ok (1, al_doc al_url2 1))]
  /\ changed 0 (al_doc al_url 0) (firstn (3 - 1) (skipn 1 al_ops)) = al_doc al_url 77 /\ (forall d', ~ In (AChange 1 d') (firstn 5 al_ops)).
Proof. split; [vm_compute; reflexivity|]. split; [vm_compute; reflexivity|]. intros d' I. cbn in I. repeat (destruct I as [I|I]; [discriminate I|]). exact I. Qed.
(* a url without https, asked securely: nothing is sent, and a later request may still succeed *)
Example C122_failed_case : snd (al_run [al_load (py "ftp:x"); al_load al_url; al_load (py "ftp:x")]) = [Some (Err JsonLdError); Some (Ok (0, al_doc al_url 0)); Some (Err JsonLdError)].
Proof. vm_compute. reflexivity. Qed.
(** "A load returns a document the server sent for that url", without the condition, is false of the caching loader. *)
Theorem C122_as_sent_refuted : exists (server : nat -> pystr -> res (response nat)) ops j secure url r d,
  nth_error ops j = Some (ALoad nat true secure url) /\ nth_error (snd (a_run (fun _ => true) (fun _ => true) (fun _ u => u) server ops)) j = Some (Some (Ok (r, d))) /\
  forall secure0, ~ sent (fun _ => true) (fun _ => true) (fun _ u => u) server secure0 url d.
Proof.
  exists (fun _ u => Ok (mkResp (Some (py "application/ld+json")) u (Ok 5) None)), [al_load al_url; AChange 0 (al_doc al_url 77); al_load al_url], 2, true, al_url, 0, (al_doc al_url 77).
  split; [reflexivity|]. split; [vm_compute; reflexivity|]. intros s0 (log & log' & E). destruct s0; vm_compute in E; injection E as _ E; discriminate.
Qed.
Print Assumptions C122_as_sent_refuted.
