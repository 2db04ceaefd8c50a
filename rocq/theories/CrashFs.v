(** citrine/cluster_tools/dbmodule/dbmodule.py:17-65 [create_dbmodule] and [delete_dbmodule], one file system call at a time: a process may die between any two of them,
    and several processes may work on the same directory. *)
From Coq Require Import String.
From Verif Require Import Base Fs Cluster CtxThreads.
Open Scope list_scope.
Set Implicit Arguments.

(** where a process is. [CExists]: before line 30's [exists]; [CMkdir]: line 32; [COpen]: line 34's [open], which makes an empty file; [CWrite]: the text reaches the file (line 36 or 38,
    or when the file is closed). [DList]: line 58's [listdir]; [DScan todo acc]: lines 58-60, the names still to look at and those chosen; [DRemove]: lines 61-62, the names still to remove;
    [DAgain]: line 63's [listdir]; [DRmdir]: line 64. *)
Inductive phase := CExists | CMkdir | COpen | CWrite | DList | DScan (todo acc : list pystr) | DRemove (todo : list pystr) | DAgain | DRmdir | Done (r : res unit).
(** [JCreate p discoverable overwrite]: [p] is the joined path of line 29; [JDelete p remove_empty]: without [remove] *)
Inductive job := JCreate (p : pystr) (discoverable overwrite : bool) | JDelete (p : pystr) (remove_empty : bool).
Record proc := mkP { p_job : job; p_phase : phase }.
Definition p_new (j : job) : proc := mkP j (match j with JCreate _ _ _ => CExists | JDelete _ _ => DList end).

Definition j_create (p : pystr) (d ow : bool) (s : fs) (ph : phase) : fs * phase :=
  let init := join p init_py in
  match ph with
  | CExists => if negb ow && exists_ s p then (s, Done (Err IOError)) else (s, CMkdir)
  | CMkdir => match mkdir s p with (s1, Ok _) => (s1, COpen) | (s1, Err e) => (s1, Done (Err e)) end
  | COpen => match write_file s init (Text []) with (s1, Ok _) => (s1, CWrite) | (s1, Err e) => (s1, Done (Err e)) end
    (* if the file is no longer there, the text goes to the removed file and there is no error.
       Simplification: a file of the same name that someone else has made meanwhile is taken for it. *)
  | CWrite => match entry s (resolve s init) with
              | Some (RegFile _) => (set_ent (resolve s init) (RegFile (Generated d)) s, Done (Ok tt))
              | _ => (s, Done (Ok tt))
              end
  | _ => (s, ph)
  end.
Definition j_delete (p : pystr) (re : bool) (s : fs) (ph : phase) : fs * phase :=
  match ph with
  | DList => match listdir s p with Ok names => (s, DScan names []) | Err e => (s, Done (Err e)) end
  | DScan [] acc => (s, DRemove acc)
  | DScan (f :: todo) acc => (s, DScan todo (acc ++ (if (isfile s (join p f) && startswith (basename p) f) || str_eqb f init_py then [f] else [])))
  | DRemove [] => (s, if re then DAgain else Done (Ok tt))
  | DRemove (f :: todo) => match remove s (join p f) with (s1, Ok _) => (s1, DRemove todo) | (s1, Err e) => (s1, Done (Err e)) end
  | DAgain => match listdir s p with Ok [] => (s, DRmdir) | Ok _ => (s, Done (Ok tt)) | Err e => (s, Done (Err e)) end
  | DRmdir => let '(s1, r) := rmdir s p in (s1, Done r)
  | _ => (s, ph)
  end.
Definition j_step (j : job) (s : fs) (ph : phase) : fs * phase :=
  match j with JCreate p d ow => j_create p d ow s ph | JDelete p re => j_delete p re s ph end.

(** several processes over one file system, a schedule; a process that is not scheduled any more has died *)
Record world := mkW { w_fs : fs; w_procs : list proc }.
Definition w_step (w : world) (i : nat) : world :=
  match nth_error (w_procs w) i with
  | None => w
  | Some p => let '(s, ph) := j_step (p_job p) (w_fs w) (p_phase p) in mkW s (put_nth i (mkP (p_job p) ph) (w_procs w))
  end.
Definition w_run (sched : list nat) (w : world) : world := fold_left w_step sched w.
(** one process alone, after [n] calls *)
Fixpoint j_run (j : job) (n : nat) (x : fs * phase) : fs * phase := match n with O => x | S n => j_run j n (j_step j (fst x) (snd x)) end.
Definition j_start (j : job) (s : fs) : fs * phase := (s, p_phase (p_new j)).
