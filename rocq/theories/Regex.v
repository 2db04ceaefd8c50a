(** The fragment of Python's [re] that the code uses. *)
From Coq Require Import String.
From Verif Require Import Base.
Open Scope list_scope.

Inductive regex :=
| Eps
| Chr (p : N -> bool)            (* one character of a class *)
| Seq (a b : regex)
| Alt (a b : regex)              (* a|b, a tried first *)
| Grp (g : N) (a : regex)        (* a capturing group (only the groups that are looked at are marked) *)
| Eos.                           (* $ *)
(** captured groups and what is left of the string, for every way to match at the start of [s], in the order in which a backtracking
    matcher finds them *)
Definition mres := (list (N * pystr) * pystr)%type.
Fixpoint mall (r : regex) (s : pystr) : list mres :=
  match r with
  | Eps => [([], s)]
  | Chr p => match s with c :: s' => if p c then [([], s')] else [] | [] => [] end
  | Seq a b => flat_map (fun x : mres => map (fun y : mres => (fst x ++ fst y, snd y)) (mall b (snd x))) (mall a s)
  | Alt a b => mall a s ++ mall b s
  | Grp g a => map (fun x : mres => ((g, firstn (List.length s - List.length (snd x)) s) :: fst x, snd x)) (mall a s)
  | Eos => match s with [] => [([], s)] | [c] => if N.eqb c 10 then [([], s)] else [] | _ => [] end    (* the end, or before a final newline *)
  end.
(** re.match: the first way to match at the start *)
Definition re_match (r : regex) (s : pystr) : option mres := hd_error (mall r s).
(** re.search: the first position where there is a match; the second component is what is left after the match *)
Fixpoint re_search (r : regex) (s : pystr) : option (pystr * mres) :=
  match re_match r s with
  | Some x => Some (s, x)
  | None => match s with [] => None | _ :: s' => re_search r s' end
  end.
(** span()[1] - span()[0] *)
Definition span_length (x : pystr * mres) : nat := List.length (fst x) - List.length (snd (snd x)).

(** abbreviations *)
Definition lit (c : N) : regex := Chr (N.eqb c).
Definition opt (r : regex) : regex := Alt r Eps.
Definition oneof (s : string) : regex := Chr (fun c => existsb (N.eqb c) (py s)).
(** between [1] and [n] of [r], as many as possible *)
Fixpoint upto (n : nat) (r : regex) : regex := match n with O => Eps | S O => r | S n' => Seq r (opt (upto n' r)) end.
Fixpoint seqs (l : list regex) : regex := match l with [] => Eps | [r] => r | r :: l' => Seq r (seqs l') end.
