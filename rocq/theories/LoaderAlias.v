(** jsonld/docloader.py:35-144: the documents a loader returns are mutable dicts, and the caching loader returns the dict that is in its cache. *)
From Coq Require Import String.
From Verif Require Import Base Dict Url DocLoader.
Open Scope list_scope.
Set Implicit Arguments.

Section Alias.
Variable J : Type.
Variable netloc_ok : pystr -> bool.
Variable json_type : pystr -> bool.
Variable prepend_base : pystr -> pystr -> pystr.
Variable server : nat -> pystr -> res (response J).
Notation doc := (document J).
(** a loader (caching or not, secure or not) is called; or someone changes, in place, a document it was given (the object [r]) *)
Inductive aop := ALoad (cached secure : bool) (url : pystr) | AChange (r : nat) (d : doc).
(** the document objects there are, numbered in the order of their making, with their present contents; the cache holds objects; the requests made *)
Record astate := mkA { a_heap : list doc; a_cache : dict nat; a_log : list pystr }.
Fixpoint change (r : nat) (d : doc) (h : list doc) : list doc :=
  match h, r with [], _ => [] | _ :: h', O => d :: h' | x :: h', S r => x :: change r d h' end.
(** what a load returns: an exception, or an object with the contents it has at that moment *)
Definition aout := option (res (nat * doc)).
(** docloader.py:35-48 (not caching), docloader.py:128-144 (caching); [get] makes a new dict (docloader.py:83-88) *)
Definition a_step (o : aop) (st : astate) : astate * aout :=
  match o with
  | AChange r d => (mkA (change r d (a_heap st)) (a_cache st) (a_log st), None)
  | ALoad cached secure url =>
      match (if cached then d_get url (a_cache st) else None) with
      | Some r => (st, match nth_error (a_heap st) r with Some d => Some (Ok (r, d)) | None => None end)
      | None => let (log, x) := get netloc_ok json_type prepend_base server secure url (a_log st) in
                match x with
                | Err e => (mkA (a_heap st) (a_cache st) log, Some (wrap (Err e)))
                | Ok d => let r := List.length (a_heap st) in
                          (mkA (a_heap st ++ [d]) (if cached then d_set url r (a_cache st) else a_cache st) log, Some (Ok (r, d)))
                end
      end
  end.
(** the results of a history, in order *)
Definition a_run (ops : list aop) : astate * list aout :=
  fold_left (fun x o => let (st, y) := a_step o (fst x) in (st, snd x ++ [y])) ops (mkA [] [] [], []).
End Alias.
