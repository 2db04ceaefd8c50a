(** jsonld/docloader.py [CachedRequestsJsonLoader] used by several threads: the cache is a class attribute (docloader.py:121) and nothing locks it, so calls
    of different threads interleave between looking into the cache, the request, storing the answer and reading the cache again. *)
From Coq Require Import String.
From Verif Require Import Base Dict Url DocLoader.
Open Scope list_scope.
Set Implicit Arguments.

Section Threads.
Variable J : Type.
Variable netloc_ok : pystr -> bool.
Variable json_type : pystr -> bool.
Variable prepend_base : pystr -> pystr -> pystr.
Variable server : nat -> pystr -> res (response J).

(** where a call is: before [url not in self.cached_schemas.keys()] (docloader.py:135), before [self.get(url)] (137), before the assignment (137),
    before [self.cached_schemas.get(url)] (138). Each of these is one step: a dict operation is atomic, and of [get] only the request is visible to the other threads. *)
Inductive phase := Looking | Missing | Storing (d : document J) | Reading.
(** a thread: the calls (secure, url) it still has to make, the first of them being under way, and its results so far, the latest first.
    [Ok None]: the call returned None. *)
Record thread := mkTh { th_phase : phase; th_calls : list (bool * pystr); th_results : list (bool * pystr * res (option (document J))) }.
(** the cache, the requests made by anyone, and the threads *)
Record tstate := mkTs { ts_cache : dict (document J); ts_log : list pystr; ts_threads : list thread }.

Definition finish (c : bool * pystr) (r : res (option (document J))) (rest : list (bool * pystr)) (t : thread) : thread :=
  mkTh Looking rest ((c, r) :: th_results t).
(** docloader.py:134-144: the next step of a thread *)
Definition th_step (t : thread) (cache : dict (document J)) (log : list pystr) : thread * dict (document J) * list pystr :=
  match th_calls t with
  | [] => (t, cache, log)
  | (secure, url) :: rest =>
      match th_phase t with
      | Looking => (mkTh (match d_get url cache with Some _ => Reading | None => Missing end) (th_calls t) (th_results t), cache, log)
      | Missing => match get netloc_ok json_type prepend_base server secure url log with
                   | (log', Ok d) => (mkTh (Storing d) (th_calls t) (th_results t), cache, log')
                   | (log', Err e) => (finish (secure, url) (wrap (Err e)) rest t, cache, log')
                   end
      | Storing d => (mkTh Reading (th_calls t) (th_results t), d_set url d cache, log)
      | Reading => (finish (secure, url) (Ok (d_get url cache)) rest t, cache, log)
      end
  end.
Fixpoint set_nth {A} (i : nat) (x : A) (l : list A) : list A :=
  match l, i with [], _ => [] | _ :: l', O => x :: l' | y :: l', S i => y :: set_nth i x l' end.
(** thread [i] makes a step *)
Definition ts_step (st : tstate) (i : nat) : tstate :=
  match nth_error (ts_threads st) i with
  | None => st
  | Some t => let '(t', cache, log) := th_step t (ts_cache st) (ts_log st) in mkTs cache log (set_nth i t' (ts_threads st))
  end.
(** a schedule: which thread makes the next step *)
Definition ts_run (sched : list nat) (st : tstate) : tstate := fold_left ts_step sched st.
(** threads that are about to make their calls *)
Definition ts_start (progs : list (list (bool * pystr))) : tstate := mkTs [] [] (map (fun cs => mkTh Looking cs []) progs).
End Threads.
