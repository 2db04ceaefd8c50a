(** Property theorems C88: the document that the loader returns. *)
From Coq Require Import String.
From Verif Require Import Base BaseFacts Dict Url UrlFacts DocLoader.
Open Scope list_scope.

(** ** Specification *)
Definition ld_json : pystr := py "application/ld+json".
(** the content type of a response *)
Definition type_of {J} (r : response J) : pystr := match r_type r with Some (c :: t) => c :: t | _ => py "application/octet-stream" end.
(** a Link header with one 'alternate' link of JSON-LD type, on a response that is no JSON *)
Definition alternate {J} (json_type : pystr -> bool) (r : response J) (target : pystr) : Prop := json_type (type_of r) = false /\ exists ctx, r_link r = Some (ctx, ROne target (Some ld_json)).
(** more links of a relation than permitted *)
Definition ambiguous {J} (r : response J) : Prop := (type_of r <> ld_json /\ exists alt, r_link r = Some (RMany, alt)) \/ exists ctx, r_link r = Some (ctx, RMany).

Section C88.
Variable J : Type.
Variable netloc_ok : pystr -> bool.
Variable json_type : pystr -> bool.
Variable prepend_base : pystr -> pystr -> pystr.
Variable server : nat -> pystr -> res (response J).
Notation call := (call netloc_ok json_type prepend_base server).
Notation build_doc := (build_doc json_type prepend_base).

Lemma type_eq (r : response J) : match r_type r with None => py "application/octet-stream" | Some [] => py "application/octet-stream" | Some t => t end = type_of r.
Proof. unfold type_of. destruct (r_type r) as [[|]|]; reflexivity. Qed.
Lemma built url (r : response J) (doc : document J) : build_doc url r = Ok doc -> r_json r = Ok (d_json doc) /\ ~ ambiguous r /\
  (forall u, d_context doc = Some u <-> type_of r <> ld_json /\ exists ty alt, r_link r = Some (ROne u ty, alt)) /\
  (forall t, alternate json_type r t -> d_type doc = ld_json /\ d_url doc = prepend_base url t) /\
  ((forall t, ~ alternate json_type r t) -> d_type doc = type_of r /\ d_url doc = r_url r).
Proof.
  unfold DocLoader.build_doc. rewrite type_eq. destruct (r_json r) as [j|e]; [|discriminate]. fold ld_json. unfold alternate, ambiguous. destruct (r_link r) as [[ctx alt]|].
  2: { intros H. assert (doc = mkDoc (type_of r) None (r_url r) j) as -> by congruence. cbn. split; [reflexivity|]. split; [intros [(_ & a & X)|(c & X)]; discriminate|]. split; [intros u; split; [discriminate|intros (_ & ty & a & X); discriminate]|]. split; [intros t (_ & c & X); discriminate|auto]. }
  assert (Hctx : forall k : option pystr -> res (document J), match (match ctx with RNone => Ok None | ROne target _ => Ok (if str_eqb (type_of r) ld_json then None else Some target) | RMany => if str_eqb (type_of r) ld_json then Ok None else Err JsonLdError end) with Err e => Err e | Ok c => k c end = Ok doc ->
    exists c, k c = Ok doc /\ ~ (type_of r <> ld_json /\ ctx = RMany) /\ forall u, c = Some u <-> type_of r <> ld_json /\ exists ty, ctx = ROne u ty).
  { intros k. destruct (str_eqb (type_of r) ld_json) eqn:E.
    - apply str_eqb_eq in E. intros H. exists None. split; [destruct ctx; exact H|]. split; [intros [X _]; contradiction|]. intros u. split; [discriminate|intros [X _]; contradiction].
    - apply str_eqb_neq in E. intros H. destruct ctx as [|target ty|]; [| |discriminate]; eexists; (split; [exact H|]); (split; [intros [_ X]; discriminate|]); intros u.
      + split; [discriminate|intros (_ & ty & X); discriminate].
      + split; [intros X; split; [exact E|exists ty; congruence]|intros (_ & ty' & X); congruence]. }
  intros H. apply Hctx in H as (c & H & Nm & Hc). clear Hctx. cbv beta in H.
  assert (Hcx : forall u, c = Some u <-> type_of r <> ld_json /\ exists ty alt0, Some (ctx, alt) = Some (ROne u ty, alt0)).
  { intros u. rewrite Hc. split; [intros (N & ty & ->); eauto|intros (N & ty & a & X); split; [exact N|exists ty; congruence]]. }
  destruct alt as [|target ty|]; [| |discriminate].
  - assert (doc = mkDoc (type_of r) c (r_url r) j) as -> by congruence. cbn. split; [reflexivity|]. split; [intros [(N & a & X)|(k & X)]; [apply Nm; split; [exact N|congruence]|discriminate]|]. split; [exact Hcx|]. split; [intros t (_ & k & X); discriminate|auto].
  - destruct ((match ty with Some t => str_eqb t ld_json | None => false end) && negb (json_type (type_of r)))%bool eqn:Ea.
    + apply andb_true_iff in Ea as [Ea1 Ea2]. apply negb_true_iff in Ea2. destruct ty as [t0|]; [|discriminate]. apply str_eqb_eq in Ea1. subst t0.
      assert (doc = mkDoc ld_json c (prepend_base url target) j) as -> by congruence. cbn. split; [reflexivity|]. split; [intros [(N & a & X)|(k & X)]; [apply Nm; split; [exact N|congruence]|discriminate]|]. split; [exact Hcx|].
      split; [intros t (_ & k & X); assert (target = t) as -> by congruence; auto|]. intros A. exfalso. apply (A target). eauto.
    + assert (doc = mkDoc (type_of r) c (r_url r) j) as -> by congruence. cbn. split; [reflexivity|]. split; [intros [(N & a & X)|(k & X)]; [apply Nm; split; [exact N|congruence]|discriminate]|]. split; [exact Hcx|].
      split; [intros t (X & k & Y); exfalso; apply (f_equal (fun o : option (rel * rel) => match o with Some (_, ROne _ q) => q | _ => None end)) in Y; cbv beta iota in Y; rewrite Y, str_eqb_refl, X in Ea; discriminate|auto].
Qed.
Lemma built_err url (r : response J) j e : r_json r = Ok j -> build_doc url r = Err e -> ambiguous r /\ e <> SystemExit.
Proof.
  unfold DocLoader.build_doc, ambiguous. rewrite type_eq. intros ->. fold ld_json. destruct (r_link r) as [[ctx alt]|]; [|discriminate].
  assert (Ha : forall c, match alt with RNone => Ok (mkDoc (type_of r) c (r_url r) j) | RMany => Err AttributeError | ROne target ty => if ((match ty with Some t => str_eqb t ld_json | None => false end) && negb (json_type (type_of r)))%bool then Ok (mkDoc ld_json c (prepend_base url target) j) else Ok (mkDoc (type_of r) c (r_url r) j) end = Err e -> alt = RMany /\ e = AttributeError).
  { intros c. destruct alt as [|target ty|]; [discriminate| |intros [= <-]; auto]. destruct (_ && _)%bool; discriminate. }
  destruct ctx as [|target ty|]; [| |destruct (str_eqb (type_of r) ld_json) eqn:E].
  - intros H. apply Ha in H as [-> ->]. split; [eauto|discriminate].
  - intros H. apply Ha in H as [-> ->]. split; [eauto|discriminate].
  - intros H. apply Ha in H as [-> ->]. split; [eauto|discriminate].
  - apply str_eqb_neq in E. intros [= <-]. split; [left; eauto|discriminate].
Qed.
(** what a document says: the body of the response to the one request; the context that the Link header names (unless the response is JSON-LD); type and address of the response, or those of its JSON-LD alternate, relative to the requested address (the alternate itself is not fetched) *)
Theorem C88_document : forall secure url log log' doc, call secure url log = (log', Ok doc) -> exists r, server (List.length log) url = Ok r /\ r_json r = Ok (d_json doc) /\ ~ ambiguous r /\
  (forall u, d_context doc = Some u <-> type_of r <> ld_json /\ exists ty alt, r_link r = Some (ROne u ty, alt)) /\
  (forall t, alternate json_type r t -> d_type doc = ld_json /\ d_url doc = prepend_base url t) /\
  ((forall t, ~ alternate json_type r t) -> d_type doc = type_of r /\ d_url doc = r_url r).
Proof.
  intros secure url log log' doc. unfold DocLoader.call, get. destruct (urlparse netloc_ok url) as [[scheme netloc]|e]; [|destruct e; discriminate].
  destruct (is_empty scheme || _); [discriminate|]. destruct (is_empty netloc); [discriminate|]. destruct (bad_start netloc); [discriminate|]. destruct (secure && _); [discriminate|].
  destruct (server (List.length log) url) as [r|e] eqn:Es; [|destruct e; discriminate]. destruct (build_doc url r) as [d|e] eqn:Eb; [|destruct e; discriminate]. cbn [wrap]. intros H. assert (d = doc) as -> by congruence. exists r. split; [reflexivity|]. exact (built url r doc Eb).
Qed.
(** a valid address and an answer with a JSON body give a document unless the Link header is ambiguous *)
Theorem C88_answered : forall secure url log r j, http_url netloc_ok secure url -> server (List.length log) url = Ok r -> r_json r = Ok j ->
  (ambiguous r /\ call secure url log = (log ++ [url], Err JsonLdError)) \/ (~ ambiguous r /\ exists doc, call secure url log = (log ++ [url], Ok doc)).
Proof.
  intros secure url log r j Hu Hs Hj. unfold DocLoader.call.
  assert (G : get netloc_ok json_type prepend_base server secure url log = (log ++ [url], build_doc url r)).
  { destruct (get_spec netloc_ok J json_type prepend_base server secure url log) as [G _]. specialize (G Hu).
    assert (X : forall e : res (document J), fst (log, e) = log ++ [url] -> (log, e) = (log ++ [url], build_doc url r)) by (intros e X; exfalso; cbn [fst] in X; apply (f_equal (@List.length pystr)) in X; rewrite app_length in X; cbn in X; clear - X; lia).
    unfold get in *. destruct (urlparse netloc_ok url) as [[scheme netloc]|e]; [|now apply X]. destruct (is_empty scheme || _)%bool; [now apply X|]. destruct (is_empty netloc); [now apply X|]. destruct (bad_start netloc); [now apply X|].
    destruct (secure && _)%bool; [now apply X|]. now rewrite Hs. }
  rewrite G. destruct (build_doc url r) as [doc|e] eqn:E.
  - right. split; [exact (proj1 (proj2 (built url r doc E)))|exists doc; reflexivity].
  - left. destruct (built_err url r j e Hj E) as [A N]. split; [exact A|]. destruct e; (congruence || reflexivity).
Qed.
End C88.
Print Assumptions C88_document.
Print Assumptions C88_answered.

(** a page that is not JSON-LD but names a context in its Link header; and one that names an alternate: the body is the page's, the address is the alternate's *)
Example C88_case : let url := py "https://example.org/a" in
  let answer ty ctx alt : response nat := mkResp (Some ty) url (Ok 7) (Some (ctx, alt)) in
  let call r := call (fun _ => true) (fun t => str_eqb t (py "application/json")) (fun base rel => rel) (fun _ _ => Ok r) true url [] in
  call (answer (py "application/json") (ROne (py "ctx") None) RNone) = ([url], Ok (mkDoc (py "application/json") (Some (py "ctx")) url 7)) /\
  call (answer (py "application/ld+json") (ROne (py "ctx") None) RNone) = ([url], Ok (mkDoc (py "application/ld+json") None url 7)) /\
  call (answer (py "text/html") RNone (ROne (py "alt") (Some ld_json))) = ([url], Ok (mkDoc ld_json None (py "alt") 7)) /\
  call (answer (py "application/json") RMany RNone) = ([url], Err JsonLdError) /\ http_url (fun _ => true) true url.
Proof. repeat split; try (vm_compute; reflexivity). apply C63_lemma. vm_compute. reflexivity. Qed.
