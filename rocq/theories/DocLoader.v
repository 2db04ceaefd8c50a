(** jsonld/docloader.py *)
From Coq Require Import String.
From Verif Require Import Base Dict Url.
Open Scope list_scope.
Set Implicit Arguments.

Section Loader.
Variable J : Type.                                   (* parsed JSON documents *)
Variable netloc_ok : pystr -> bool.                  (* urllib.parse's checks, see Url.v *)
Variable json_type : pystr -> bool.                  (* docloader.py:107: the content type matches ^application/(\w*\+)?json$ *)
Variable prepend_base : pystr -> pystr -> pystr.     (* pyld.jsonld.prepend_base *)

(** a link relation in a parsed Link header: absent, one link (its target and type), or several *)
Inductive rel := RNone | ROne (target : pystr) (ty : option pystr) | RMany.
(** a response: its content-type header, final url, json() (which may raise) and, if there is a Link header, what parse_link_header
    finds for the context relation and for 'alternate' *)
Record response := mkResp { r_type : option pystr; r_url : pystr; r_json : res J; r_link : option (rel * rel) }.
Record document := mkDoc { d_type : pystr; d_context : option pystr; d_url : pystr; d_json : J }.
(** the network: the answer to the n-th request *)
Variable server : nat -> pystr -> res response.

(** docloader.py:80-111 from the response to the document *)
Definition build_doc (url : pystr) (r : response) : res document :=
  let ct := match r_type r with None => py "application/octet-stream" | Some [] => py "application/octet-stream" | Some t => t end in
  match r_json r with
  | Err e => Err e
  | Ok j =>
      match r_link r with
      | None => Ok (mkDoc ct None (r_url r) j)
      | Some (ctx, alt) =>
          match (match ctx with
                 | RNone => Ok None
                 | ROne target _ => Ok (if str_eqb ct (py "application/ld+json") then None else Some target)
                 | RMany => if str_eqb ct (py "application/ld+json") then Ok None else Err JsonLdError
                 end) with
          | Err e => Err e
          | Ok c =>
              match alt with
              | RNone => Ok (mkDoc ct c (r_url r) j)
              | RMany => Err AttributeError                                        (* a list has no .get *)
              | ROne target ty =>
                  if (match ty with Some t => str_eqb t (py "application/ld+json") | None => false end) && negb (json_type ct)
                  then Ok (mkDoc (py "application/ld+json") c (prepend_base url target) j)
                  else Ok (mkDoc ct c (r_url r) j)
              end
          end
      end
  end.
(** docloader.py:50-111 [get]; the log records the requests made *)
Definition get (secure : bool) (url : pystr) (log : list pystr) : list pystr * res document :=
  match urlparse netloc_ok url with
  | Err e => (log, Err e)
  | Ok (scheme, netloc) =>
      if is_empty scheme || negb (mem_str scheme [py "http"; py "https"]) then (log, Err ValueError)
      else if is_empty netloc then (log, Err ValueError)
      else if bad_start netloc then (log, Err ValueError)
      else if secure && negb (str_eqb scheme (py "https")) then (log, Err ValueError)
      else (log ++ [url], match server (List.length log) url with Err e => Err e | Ok r => build_doc url r end)
  end.
(** [except Exception]: everything but SystemExit and the like *)
Definition wrap {A} (r : res A) : res A := match r with Err SystemExit => Err SystemExit | Err _ => Err JsonLdError | Ok a => Ok a end.
(** docloader.py:35-48 [RequestsJsonLoader.__call__] *)
Definition call (secure : bool) (url : pystr) (log : list pystr) : list pystr * res document :=
  let (log', r) := get secure url log in (log', wrap r).

(** docloader.py:114-144 [CachedRequestsJsonLoader]: the cache is a class attribute, shared by all instances *)
Record lstate := mkLs { ls_cache : dict document; ls_log : list pystr }.
Definition cached_call (secure : bool) (url : pystr) (st : lstate) : lstate * res document :=
  match d_get url (ls_cache st) with
  | Some d => (st, Ok d)
  | None => let (log', r) := get secure url (ls_log st) in
            match r with
            | Ok d => (mkLs (d_set url d (ls_cache st)) log', match d_get url (d_set url d (ls_cache st)) with Some d' => Ok d' | None => Ok d end)
            | Err e => (mkLs (ls_cache st) log', wrap (Err e))
            end
  end.
(** a sequence of calls by loaders with or without [secure]; for each, its result and the requests it made *)
Fixpoint calls (cs : list (bool * pystr)) (st : lstate) : lstate * list (res document * list pystr) :=
  match cs with
  | [] => (st, [])
  | (secure, url) :: cs' =>
      let (st1, r) := cached_call secure url st in
      let (st2, rs) := calls cs' st1 in
      (st2, (r, skipn (List.length (ls_log st)) (ls_log st1)) :: rs)
  end.
End Loader.
