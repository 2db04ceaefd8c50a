From Coq Require Import String.
From Verif Require Import Base Dict ObjectRead CollectionIter.
Open Scope list_scope.

(** ** C102 iterating a collection. [steady]: reading the items twice in a row gives the same (every read of the vocabulary's classes after the first, C90) *)
Definition steady {St V} (get : St -> St * res (items V)) (s s' : St) (x : items V) : Prop := exists s1, get s = (s1, Ok x) /\ get s1 = (s', Ok x).
(** a list of items yields its items in order and nothing else *)
Theorem C102_items : forall St V walk (get : St -> St * res (items V)) s s' v l, steady get s s' (Items V (v :: l)) -> coll_iter St V walk get s = (s', map Some (v :: l), None).
Proof. intros St V walk get s s' v l [s1 [A B]]. unfold coll_iter. rewrite A. cbn [empty]. rewrite B. reflexivity. Qed.
Print Assumptions C102_items.
(** false of the code: that a collection yields its items. An empty list yields one None; no items yield one None and then raise TypeError; a single item yields what iterating that item yields *)
Theorem C102_other_refuted : forall St V walk (get : St -> St * res (items V)) s s',
  (steady get s s' (Items V []) -> coll_iter St V walk get s = (s', [None], None)) /\
  (steady get s s' (NoItems V) -> coll_iter St V walk get s = (s', [None], Some TypeError)) /\
  (forall v, steady get s s' (OneItem V v) -> coll_iter St V walk get s = (fst (fst (walk v s')), map Some (snd (fst (walk v s'))), snd (walk v s'))).
Proof.
  intros St V walk get s s'. split; [|split].
  - intros [s1 [A B]]. unfold coll_iter. rewrite A. cbn [empty]. rewrite B. reflexivity.
  - intros [s1 [A B]]. unfold coll_iter. rewrite A. cbn [empty]. rewrite B. reflexivity.
  - intros v [s1 [A B]]. unfold coll_iter. rewrite A. cbn [empty]. rewrite B. destruct (walk v s') as [[s3 l] e]. reflexivity.
Qed.
Print Assumptions C102_other_refuted.
(** in general the items are read exactly twice, and what the first read raises is raised before anything is yielded *)
Theorem C102_reads : forall St V walk (get : St -> St * res (items V)) s, let '(s1, r1) := get s in let '(s2, r2) := get s1 in let '(s', l, e) := coll_iter St V walk get s in
  (forall x, r1 = Err x -> s' = s1 /\ l = [] /\ e = Some x) /\ (forall x y, r1 = Ok x -> r2 = Err y -> s' = s2 /\ e = Some y /\ forall z, In z l -> z = None) /\ (forall x y, r1 = Ok x -> r2 = Ok y -> (forall v, y <> OneItem V v) -> s' = s2).
Proof.
  intros St V walk get s. destruct (get s) as [s1 [x|x]] eqn:A.
  - destruct (get s1) as [s2 [y|y]] eqn:B; unfold coll_iter; rewrite A, B.
    + destruct y as [|l|v]; cbn zeta; [..|destruct (walk v s2) as [[s3 l] e]]; (split; [discriminate|split; [discriminate|]]); auto. intros x' y' _ Hy K. injection Hy as <-. exfalso. exact (K v eq_refl).
    + split; [discriminate|]. split; [|discriminate]. intros x' y' _ Hy. injection Hy as ->. split; [reflexivity|]. split; [reflexivity|]. destruct (empty V x); intros z Z; cbn in Z; intuition.
  - destruct (get s1) as [s2 r2]. unfold coll_iter. rewrite A. split; [intros x' Hx; injection Hx as ->; auto|]. split; discriminate.
Qed.
Print Assumptions C102_reads.
(** a page with two items; one whose only item is an object with two properties *)
Example C102_case : let walk (v : N) (s : nat) := (S s, [(v + 1)%N; (v + 2)%N], None) in
  coll_iter nat N walk (fun s => (S s, Ok (Items N [5; 6]%N))) 0 = (2%nat, [Some 5%N; Some 6%N], None) /\
  coll_iter nat N walk (fun s => (S s, Ok (OneItem N 5%N))) 0 = (3%nat, [Some 6%N; Some 7%N], None) /\
  coll_iter nat N walk (fun s => (S s, Ok (NoItems N))) 0 = (2%nat, [None], Some TypeError) /\ steady (fun s => (s, Ok (NoItems N))) 0%nat 0%nat (NoItems N).
Proof. cbv zeta. split; [|split; [|split]]; try (vm_compute; reflexivity). exists 0%nat. split; reflexivity. Qed.
