(** The part of os, os.path and shutil that citrine/cluster_tools uses, on a POSIX file system without symbolic links,
    ['..'] components, permissions or other processes. *)
From Verif Require Import Base.
Set Implicit Arguments.

(** contents of a regular file: one of the two texts of cluster_tools/dbmodule/consts.py:5-27, or any other text *)
Inductive content := Generated (discoverable : bool) | Text (t : pystr).
Definition path := list pystr.                                   (* an absolute path, as its component names *)
Inductive node := RegFile (c : content) | Directory.
(** [f_ent]: everything except the root directory, in the order in which [listdir] enumerates it; any order is possible *)
Record fs := mkFs { f_cwd : path; f_ent : list (path * node) }.

Fixpoint path_eqb (p q : path) : bool :=
  match p, q with
  | [], [] => true
  | a :: p', b :: q' => str_eqb a b && path_eqb p' q'
  | _, _ => false
  end.
Fixpoint find_ent (p : path) (l : list (path * node)) : option node :=
  match l with [] => None | (q, n) :: l' => if path_eqb p q then Some n else find_ent p l' end.
(** what is at an absolute path *)
Definition entry (s : fs) (p : path) : option node := match p with [] => Some Directory | _ => find_ent p (f_ent s) end.

(** ** path strings *)
Definition slash : N := 47%N.
Definition dot : pystr := [46%N].
(** os.path.join(a, b) *)
Definition ends_slash (a : pystr) : bool := match rev a with c :: _ => N.eqb c slash | [] => false end.
Definition join (a b : pystr) : pystr :=
  match b with
  | c :: _ => if N.eqb c slash then b else match a with [] => b | _ => if ends_slash a then a ++ b else a ++ slash :: b end
  | [] => match a with [] => b | _ => if ends_slash a then a ++ b else a ++ slash :: b end
  end.
(** the pieces of a string between slashes *)
Fixpoint pieces (s : pystr) : list pystr :=
  match s with
  | [] => [[]]
  | c :: s' => if N.eqb c slash then [] :: pieces s'
               else match pieces s' with [] => [[c]] | h :: t => (c :: h) :: t end
  end.
(** os.path.split(p)[1]: what follows the last slash *)
Definition basename (p : pystr) : pystr := last (pieces p) [].
(** the absolute path a path string means *)
Definition comps (p : pystr) : path := filter (fun x => negb (str_eqb x [] || str_eqb x dot)) (pieces p).
Definition resolve (s : fs) (p : pystr) : path :=
  match p with c :: _ => if N.eqb c slash then comps p else f_cwd s ++ comps p | [] => f_cwd s end.
(** a string that only a directory can match, as it ends in ['/'] or ['/.'] *)
Definition dir_form (p : pystr) : bool := str_eqb (basename p) [] || str_eqb (basename p) dot.
(** the empty string is not a path *)
Definition stat (s : fs) (p : pystr) : option node :=
  match p with
  | [] => None
  | _ => match entry s (resolve s p) with
         | Some (RegFile c) => if dir_form p then None else Some (RegFile c)
         | r => r
         end
  end.

(** ** operations *)
Definition exists_ (s : fs) (p : pystr) : bool := match stat s p with Some _ => true | None => false end.
Definition isfile (s : fs) (p : pystr) : bool := match stat s p with Some (RegFile _) => true | _ => false end.
(** ENOTDIR if the path goes through a regular file, otherwise ENOENT *)
Fixpoint through_file (s : fs) (done todo : path) : bool :=
  match todo with
  | [] => false
  | a :: t => match entry s (done ++ [a]) with Some (RegFile _) => true | _ => through_file s (done ++ [a]) t end
  end.
Definition missing (s : fs) (p : pystr) : exn :=
  match p with [] => FileNotFoundError | _ => if through_file s [] (resolve s p) then NotADirectoryError else FileNotFoundError end.

(** names of the children of a directory *)
Definition child_of (d p : path) : option pystr :=
  match rev p with
  | a :: r => if path_eqb d (rev r) then Some a else None
  | [] => None
  end.
Definition children (s : fs) (d : path) : list pystr :=
  flat_map (fun e => match child_of d (fst e) with Some a => [a] | None => [] end) (f_ent s).
Definition listdir (s : fs) (p : pystr) : res (list pystr) :=
  match stat s p with
  | Some Directory => Ok (children s (resolve s p))
  | Some (RegFile _) => Err NotADirectoryError
  | None => Err (missing s p)
  end.
Definition add_ent (p : path) (n : node) (s : fs) : fs := mkFs (f_cwd s) (f_ent s ++ [(p, n)]).
Definition drop_ents (f : path -> bool) (s : fs) : fs := mkFs (f_cwd s) (filter (fun e => negb (f (fst e))) (f_ent s)).
Definition parent (p : path) : path := removelast p.
Definition mkdir (s : fs) (p : pystr) : fs * res unit :=
  match p with
  | [] => (s, Err FileNotFoundError)
  | _ => match entry s (resolve s p) with
         | Some _ => (s, Err FileExistsError)
         | None => match entry s (parent (resolve s p)) with
                   | Some Directory => (add_ent (resolve s p) Directory s, Ok tt)
                   | _ => (s, Err (missing s p))
                   end
         end
  end.
(** [open(p, 'w')] and one [write] *)
Definition set_ent (p : path) (n : node) (s : fs) : fs :=
  match entry s p with
  | Some _ => mkFs (f_cwd s) (map (fun e => if path_eqb p (fst e) then (p, n) else e) (f_ent s))
  | None => add_ent p n s
  end.
Definition write_file (s : fs) (p : pystr) (c : content) : fs * res unit :=
  match p with
  | [] => (s, Err FileNotFoundError)
  | _ => if dir_form p then (s, Err IsADirectoryError)
         else match entry s (resolve s p) with
              | Some Directory => (s, Err IsADirectoryError)
              | Some (RegFile _) => (set_ent (resolve s p) (RegFile c) s, Ok tt)
              | None => match entry s (parent (resolve s p)) with
                        | Some Directory => (add_ent (resolve s p) (RegFile c) s, Ok tt)
                        | _ => (s, Err (missing s p))
                        end
              end
  end.
Definition remove (s : fs) (p : pystr) : fs * res unit :=
  match stat s p with
  | Some Directory => (s, Err IsADirectoryError)
  | Some (RegFile _) => (drop_ents (path_eqb (resolve s p)) s, Ok tt)
  | None => (s, Err (missing s p))
  end.
(** the root, and a string ending in ['.'], are refused *)
Definition rmdir (s : fs) (p : pystr) : fs * res unit :=
  match stat s p with
  | Some Directory => if str_eqb (last (filter (fun x => negb (str_eqb x [])) (pieces p)) []) dot then (s, Err IOError)
                      else match resolve s p with
                           | [] => (s, Err IOError)
                           | d => match children s d with
                                  | [] => (drop_ents (path_eqb d) s, Ok tt)
                                  | _ => (s, Err OSErrorNotEmpty)
                                  end
                           end
  | Some (RegFile _) => (s, Err NotADirectoryError)
  | None => (s, Err (missing s p))
  end.
Fixpoint under (d p : path) : bool :=
  match d, p with
  | [], _ :: _ => true
  | a :: d', b :: p' => str_eqb a b && under d' p'
  | _, _ => false
  end.
(** shutil.rmtree: everything below, then the directory itself *)
Definition rmtree (s : fs) (p : pystr) : fs * res unit :=
  match stat s p with
  | Some Directory => rmdir (drop_ents (under (resolve s p)) s) p
  | Some (RegFile _) => (s, Err NotADirectoryError)
  | None => (s, Err (missing s p))
  end.
