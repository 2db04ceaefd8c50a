From Coq Require Import String.
From Verif Require Import Base BaseFacts Dict DictFacts ObjectRead ObjectReadSpec ObjectReadFacts.
Open Scope list_scope.

(** ** C97 iterating and indexing an object. A property may do anything when it is read: return a value, raise, change a state. *)
(** iterating yields the properties in their order, each read once, up to the first that raises *)
Theorem C97_iterate : forall St V (o : props St V), NoDup (map fst o) -> forall s,
  exists s' l e, iterate St V o s = (s', l, e) /\ reads o (map fst o) s s' l e /\
    forall t m f, reads o (map fst o) s t m f -> t = s' /\ m = l /\ f = e.
Proof.
  intros St V o D s. destruct (iterate_reads St V o D s) as [s' [l [e [E R]]]]. exists s', l, e. split; [exact E|]. split; [exact R|].
  intros t m f R2. exact (reads_det St V o D _ _ _ _ _ R2 _ _ _ R).
Qed.
Print Assumptions C97_iterate.
(** a list of property names gives those properties, read in that order; a name listed twice is read twice and the last value stays *)
Theorem C97_known : forall St V (o : props St V) ns s, (forall n, In n ns -> In n (map fst o)) ->
  exists s' l e, reads o ns s s' l e /\
  match e with
  | Some x => getitem St V o (Many (map KStr ns)) s = (s', Err x)
  | None => exists d, getitem St V o (Many (map KStr ns)) s = (s', Ok d) /\ firsts ns (d_keys d) /\ NoDup (d_keys d) /\ forall n v, d_get n d = Some v <-> last_read l n v
  end.
Proof. exact index_known. Qed.
Print Assumptions C97_known.
(** one name: a dict with that one property, or what reading it raises; a name that is no property: KeyError *)
Theorem C97_one : forall St V (o : props St V) n s,
  (forall g, NoDup (map fst o) -> In (n, g) o -> getitem St V o (One n) s = (fst (g s), match snd (g s) with Ok v => Ok [(n, v)] | Err e => Err e end)) /\
  (~ In n (map fst o) -> getitem St V o (One n) s = (s, Err KeyError)).
Proof.
  intros St V o n s. split.
  - intros g D I. pose proof (d_get_nodup _ _ _ D I) as G. assert (M : mem_str n (map fst o) = true) by (apply mem_str_In; change (In n (d_keys o)); apply d_get_in; rewrite G; discriminate).
    cbn [getitem after_unknown known]. rewrite M. cbn [collect]. unfold read. rewrite G. destruct (g s) as [s1 [v|e]]; reflexivity.
  - intros N. apply mem_str_false in N. cbn [getitem after_unknown known]. rewrite N. unfold complain. cbn [filter known]. rewrite N. reflexivity.
Qed.
Print Assumptions C97_one.
(** some key that is no property: an exception and no property is read. KeyError, unless a key is no str: then the message itself fails, with TypeError *)
Theorem C97_unknown : forall St V (o : props St V) l s, (exists k, In k l /\ ~ (exists n, k = KStr n /\ In n (map fst o))) ->
  exists e, getitem St V o (Many l) s = (s, Err e) /\ ((e = KeyError /\ forall i, ~ In (KOther i) l) \/ (e = TypeError /\ exists i, In (KOther i) l)).
Proof. exact index_unknown. Qed.
Print Assumptions C97_unknown.
(** false of the code: an iterator of property names does not give those properties but an empty dict, without reading any; only the keys after the first unknown one are reported *)
Theorem C97_iterator_refuted : forall St V (o : props St V) l s,
  ((forall k, In k l -> exists n, k = KStr n /\ In n (map fst o)) -> getitem St V o (Once l) s = (s, Ok [])) /\
  (forall pre k rest, l = pre ++ k :: rest -> (forall x, In x pre -> exists n, x = KStr n /\ In n (map fst o)) -> ~ (exists n, k = KStr n /\ In n (map fst o)) ->
     exists e, getitem St V o (Once l) s = (s, Err e) /\ ((e = KeyError /\ forall i, ~ In (KOther i) rest) \/ (e = TypeError /\ exists i, In (KOther i) rest))).
Proof.
  intros St V o l s. destruct (index_once St V o l s) as [A B]. split.
  - intros H. apply A. intros k I U. now apply U, H.
  - intros pre k rest E P U. refine (B pre k rest E _ U). intros x I N. now apply N, P.
Qed.
Print Assumptions C97_iterator_refuted.

(** an object whose second property counts how often it is read and whose third raises *)
Definition obj : props nat N := [(py "name", fun s => (s, Ok 7%N)); (py "count", fun s => (S s, Ok (N.of_nat s))); (py "bad", fun s => (s, Err ValueError))].
Example C97_case : NoDup (map fst obj) /\
  getitem nat N obj (Many (map KStr [py "count"; py "name"; py "count"])) 4 = (6%nat, Ok [(py "count", 5%N); (py "name", 7%N)]) /\
  getitem nat N obj (Many (map KStr [py "count"; py "bad"; py "name"])) 4 = (5%nat, Err ValueError) /\
  getitem nat N obj (Many [KStr (py "count"); KStr (py "nope")]) 4 = (4%nat, Err KeyError) /\
  getitem nat N obj (Many [KStr (py "count"); KOther 1]) 4 = (4%nat, Err TypeError) /\
  getitem nat N obj (Once [KStr (py "count"); KOther 1]) 4 = (4%nat, Err KeyError) /\
  getitem nat N obj (Once [KStr (py "count")]) 4 = (4%nat, Ok []) /\
  iterate nat N obj 4 = (5%nat, [(py "name", 7%N); (py "count", 4%N)], Some ValueError).
Proof.
  split; [repeat constructor; cbn; intuition discriminate|]. repeat split; vm_compute; reflexivity.
Qed.
