(** Property theorem C118: [data()] / [json()] on objects that share others or lead back to themselves. The specification is the first
    section of ObjGraphFacts: [leads H a o o'] (writing [o] with the arguments [a] writes [o'] inside), [inside] (the same for
    an object that is itself inside another), [ends] (every chain of [inside] ends). [n] is the recursion limit. *)
From Coq Require Import String.
From Verif Require Import Base BaseFacts Dict DictFacts Context JsonData JsonDataFacts ObjGraph ObjGraphFacts.
From Coq Require Import Lia Relations.
Open Scope list_scope.

(** Whatever happens, RecursionError included, every object is in the context it was in before. *)
Theorem C118_contexts_restored : forall H n a o ms x,
  m_context (fst (h_data H n a o ms) x) = m_context (ms x) /\ m_stack (fst (h_data H n a o ms) x) = m_stack (ms x).
Proof. intros H n a o ms x. apply C118_restored. Qed.
Print Assumptions C118_contexts_restored.
(** A result does not depend on the limit, nor on the contexts the objects are in. *)
Theorem C118_limit : forall H n m a o ms ms' r, snd (h_data H n a o ms) = Done r -> n <= m -> snd (h_data H m a o ms') = Done r.
Proof. exact C118_limit_lemma. Qed.
Print Assumptions C118_limit.
(** If no chain of objects goes on for ever (and no getter raises), a high enough limit gives a result, ... *)
Theorem C118_written : forall H a o, all_quiet H a o -> (forall y, leads H a o y -> ends H y) ->
  exists n d, forall m ms, n <= m -> snd (h_data H m a o ms) = Done (Ok d).
Proof. exact C118_ends_lemma. Qed.
Print Assumptions C118_written.
(** ... and only then. *)
Theorem C118_only_then : forall H n a o ms d, snd (h_data H n a o ms) = Done (Ok d) -> forall y, leads H a o y -> ends H y.
Proof. exact C118_converse_lemma. Qed.
Print Assumptions C118_only_then.
(** If an object written inside leads back to itself there is no result at any limit: the call raises RecursionError, unless a getter
    raises something else first. *)
Theorem C118_cycle : forall H a o x y ms, leads H a o x -> clos_refl_trans nat (inside H) x y -> clos_trans nat (inside H) y y ->
  forall n, (forall d, snd (h_data H n a o ms) <> Done (Ok d)) /\ (all_quiet H a o -> snd (h_data H n a o ms) = Deep).
Proof. exact C118_cycle_lemma. Qed.
Print Assumptions C118_cycle.
(** Sharing is not visible in the output: the result is that of the tree the object unfolds to (C56-C58 say what that is), ... *)
Theorem C118_sharing_is_copied : forall H a b o props, args_agree H a b -> unfolds H (HRef o) (JObj props) ->
  exists n, forall m ms, (n <= m -> snd (h_data H m a o ms) = Done (data b props)) /\
    (snd (h_data H m a o ms) = Deep \/ snd (h_data H m a o ms) = Done (data b props)).
Proof. exact C118_tree_lemma. Qed.
Print Assumptions C118_sharing_is_copied.
(** ... so the output can be exponentially larger than the objects: [k + 1] objects, of which each mentions the next one twice, give [2 ^ (k + 1) - 1] dicts. *)
Theorem C118_doubling : forall k ms m, k < m -> exists d, snd (h_data doubled m h_default k ms) = Done (Ok d) /\ dicts (JDict d) + 1 = 2 ^ (k + 1).
Proof. exact C118_doubling_lemma. Qed.
Print Assumptions C118_doubling.

(* 0: a collection, 1: its first page, 2: an author mentioned twice by 3 and by the page *)
Definition ex_str (s : string) : ctx -> res hval := fun _ => Ok (HVal (LStr (py s))).
Definition ex_heap (part_of : bool) : heap := fun o =>
  match o with
  | 0 => [(py "id", ex_str "https://a.b/c"); (py "first", fun _ => Ok (HRef 1))]
  | 1 => [(py "id", ex_str "https://a.b/p"); (py "partOf", fun _ => Ok (if part_of then HRef 0 else HVal LNone)); (py "items", fun _ => Ok (HSeq [HRef 2; HVal (LInt 5)]))]
  | 2 => [(py "name", ex_str "A")]
  | 3 => [(py "actor", fun _ => Ok (HRef 2)); (py "attributedTo", fun _ => Ok (HRef 2)); (py "first", fun _ => Ok (HRef 1))]
  | _ => []
  end.
Definition ex_ms : managers := fun _ => mgr_new.
(* without [partOf] *)
Example C118_case_result : snd (h_data (ex_heap false) 9 h_default 3 ex_ms) =
  Done (Ok [(py "actor", JDict [(py "name", JStr (py "A"))]); (py "attributedTo", JDict [(py "name", JStr (py "A"))]);
            (py "first", JDict [(py "id", JStr (py "https://a.b/p")); (py "items", JList [JDict [(py "name", JStr (py "A"))]; JInt 5])])]).
Proof. vm_compute. reflexivity. Qed.
Lemma ex_wants a n v : a = h_default \/ a = h_nested -> v <> HVal LNone -> is_substr (py n) (py "acontext") = false -> h_wants a (py n) v.
Proof.
  intros A V N. split; [right; exact V|]. split; [destruct A as [->| ->]; left; left; reflexivity|]. split; [|destruct A as [->| ->]; reflexivity].
  intros [E W]. destruct A as [->| ->]; [apply E; left; reflexivity|]. apply is_substr_spec in W. cbn [h_nested h_exclude] in W. congruence.
Qed.
Lemma ex_quiet b a o : all_quiet (ex_heap b) a o.
Proof.
  assert (Q : forall c o, quiet (ex_heap b) c o).
  { intros c x n g I. destruct x as [|[|[|[|x]]]]; cbn [ex_heap] in I; repeat (destruct I as [I|I]; [injection I as _ <-; eexists; reflexivity|]); destruct I. }
  split; [apply Q|]. intros x y _ _. apply Q.
Qed.
(* the hypotheses of C118_cycle, with [partOf] *)
Example C118_case_cycle : leads (ex_heap true) h_default 3 1 /\ clos_trans nat (inside (ex_heap true)) 1 1 /\ all_quiet (ex_heap true) h_default 3.
Proof.
  split; [exists (py "first"), (fun _ => Ok (HRef 1)), (HRef 1); split; [right; right; left; reflexivity|]; split; [reflexivity|]; split; [apply ex_wants; [auto|discriminate|reflexivity]|constructor]|].
  split; [|apply ex_quiet]. apply t_trans with 0; apply t_step.
  - exists (py "partOf"), (fun _ => Ok (HRef 0)), (HRef 0). split; [right; left; reflexivity|]. split; [reflexivity|]. split; [apply ex_wants; [auto|discriminate|reflexivity]|constructor].
  - exists (py "first"), (fun _ => Ok (HRef 1)), (HRef 1). split; [right; left; reflexivity|]. split; [reflexivity|]. split; [apply ex_wants; [auto|discriminate|reflexivity]|constructor].
Qed.
(* the hypotheses of C118_written, without it *)
Example C118_case_ends : all_quiet (ex_heap false) h_default 0 /\ forall y, leads (ex_heap false) h_default 0 y -> ends (ex_heap false) y.
Proof.
  split; [apply ex_quiet|].
  assert (L : forall a x y, leads (ex_heap false) a x y -> (x = 0 /\ y = 1) \/ (x = 1 /\ y = 2) \/ x = 3).
  { intros a x y (n & g & v & I & G & _ & M). destruct x as [|[|[|[|x]]]]; cbn [ex_heap] in I; [| | |auto|destruct I];
      repeat (destruct I as [I|I]; [injection I as _ <-; injection G as <-; inversion M; subst; clear M; repeat match goal with K : In _ _ |- _ => destruct K as [K|K]; subst end; try match goal with K : mentions _ _ |- _ => inversion K; subst end; try contradiction; auto|]); destruct I. }
  assert (E2 : ends (ex_heap false) 2) by (constructor; intros z Z; apply L in Z; lia).
  assert (E1 : ends (ex_heap false) 1) by (constructor; intros z Z; apply L in Z; assert (z = 2) as -> by lia; exact E2).
  intros y Y. apply L in Y. assert (y = 1) as -> by lia. exact E1.
Qed.
(* the hypotheses of C118_sharing_is_copied *)
Definition ex_const (v : jval) : ctx -> res jval := fun _ => Ok v.
Definition ex_author : jval := JObj [(py "name", ex_const (JStr (py "A")))].
Definition ex_page : jval := JObj [(py "id", ex_const (JStr (py "https://a.b/p"))); (py "partOf", ex_const JNone); (py "items", ex_const (JList [ex_author; JInt 5]))].
Example C118_case_unfolds : args_agree (ex_heap false) h_default (mkArgs (Names []) (Names []) [] false (fun _ => false) json_context) /\
  unfolds (ex_heap false) (HRef 3) (JObj [(py "actor", ex_const ex_author); (py "attributedTo", ex_const ex_author); (py "first", ex_const ex_page)]).
Proof.
  split; [repeat (split; [reflexivity|]); reflexivity|].
  assert (A : unfolds (ex_heap false) (HRef 2) ex_author).
  { constructor. constructor; [|constructor]. split; [reflexivity|]. intro c. right. exists (HVal (LStr (py "A"))), (JStr (py "A")). split; [reflexivity|]. split; [reflexivity|]. exact (u_val _ (LStr (py "A"))). }
  assert (P : unfolds (ex_heap false) (HRef 1) ex_page).
  { constructor. constructor; [|constructor; [|constructor; [|constructor]]]; (split; [reflexivity|]; intro c; right; do 2 eexists; split; [reflexivity|]; split; [reflexivity|]).
    - exact (u_val _ (LStr (py "https://a.b/p"))).
    - exact (u_val _ LNone).
    - constructor. constructor; [exact A|]. constructor; [exact (u_val _ (LInt 5))|constructor]. }
  constructor. constructor; [|constructor; [|constructor; [|constructor]]]; (split; [reflexivity|]; intro c; right; do 2 eexists; split; [reflexivity|]; split; [reflexivity|]); assumption.
Qed.
