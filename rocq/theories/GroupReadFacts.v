(** Proofs about GroupReadConnection.read *)
From Coq Require Import Permutation.
From Verif Require Import Base Value GroupRead.
Set Implicit Arguments.

(** [schedule] runs every task exactly once *)
Definition runs_all (dbs : list db) (schedule : list nat) : Prop := Permutation schedule (seq 0 (length dbs)).

Lemma finish_nth i r slots j : nth_error (finish i r slots) j =
  if Nat.eqb i j then match nth_error slots j with Some _ => Some (Some r) | None => None end else nth_error slots j.
Proof.
  revert i j. induction slots as [|x s IH]; intros i j.
  - destruct i, j; simpl; try reflexivity. now destruct (Nat.eqb i j).
  - destruct i, j; simpl; try reflexivity. apply IH.
Qed.

Lemma run_nth (dbs : list db) id schedule : forall slots j,
  length slots = length dbs ->
  nth_error (fold_left (fun (s : task_slots) (i : nat) => match nth_error dbs i with Some d => finish i (d id) s | None => s end) schedule slots) j =
  match nth_error dbs j with
  | None => None
  | Some d => if existsb (Nat.eqb j) schedule then Some (Some (d id)) else nth_error slots j
  end.
Proof.
  induction schedule as [|i l IH]; intros slots j Hl; simpl.
  - destruct (nth_error dbs j) eqn:E; [reflexivity|]. apply nth_error_None. rewrite Hl. now apply nth_error_None.
  - rewrite IH.
    + destruct (nth_error dbs j) as [d|] eqn:Ej; [|reflexivity].
      destruct (existsb (Nat.eqb j) l) eqn:Ex; [now rewrite orb_true_r|]. rewrite orb_false_r.
      destruct (Nat.eqb_spec j i) as [<-|Hn].
      * rewrite Ej, finish_nth, Nat.eqb_refl. destruct (nth_error slots j) eqn:Es; [reflexivity|].
        apply nth_error_None in Es. assert (j < length dbs) by (apply nth_error_Some; congruence). lia.
      * destruct (nth_error dbs i) as [d'|]; [|reflexivity]. rewrite finish_nth.
        destruct (Nat.eqb_spec i j) as [->|_]; [congruence|reflexivity].
    + destruct (nth_error dbs i) as [d'|]; [|exact Hl]. rewrite <- Hl. clear.
      revert i; induction slots as [|x s IH]; intros [|i]; simpl; auto.
Qed.

Lemma nth_error_ext {A} (l m : list A) : (forall i, nth_error l i = nth_error m i) -> l = m.
Proof.
  revert m. induction l as [|x l IH]; intros [|y m] H; try reflexivity.
  - now specialize (H 0).
  - now specialize (H 0).
  - f_equal; [specialize (H 0); simpl in H; congruence|]. apply IH. intros i. exact (H (Datatypes.S i)).
Qed.

Lemma run_tasks_all dbs id schedule : runs_all dbs schedule -> run_tasks dbs id schedule = map (fun d : db => Some (d id)) dbs.
Proof.
  intros Hp. apply nth_error_ext. intros j. unfold run_tasks. rewrite run_nth by apply map_length.
  rewrite (nth_error_map (fun d : db => Some (d id))). destruct (nth_error dbs j) as [d|] eqn:E; [|reflexivity]. simpl.
  assert (Hin : In j schedule).
  { apply (Permutation_in _ (Permutation_sym Hp)). apply in_seq. split; [lia|]. simpl. apply nth_error_Some. congruence. }
  assert (Hx : existsb (Nat.eqb j) schedule = true) by (apply existsb_exists; exists j; split; [exact Hin|apply Nat.eqb_refl]).
  now rewrite Hx.
Qed.

Lemma C48_lemma dbs id timeout multiple s1 s2 : runs_all dbs s1 -> runs_all dbs s2 ->
  group_read dbs id timeout multiple s1 = group_read dbs id timeout multiple s2.
Proof. intros H1 H2. unfold group_read. now rewrite (run_tasks_all id H1), (run_tasks_all id H2). Qed.

Lemma gather_ok dbs id : (forall d : db, In d dbs -> is_ok (d id) = true) ->
  exists vs, gather (map (fun d : db => Some (d id)) dbs) = Ok vs /\ map (fun d : db => d id) dbs = map Ok vs.
Proof.
  induction dbs as [|d l IH]; intros H; simpl.
  - exists []. split; reflexivity.
  - destruct IH as [vs [E M]]; [intros x Hx; apply H; now right|].
    specialize (H d (or_introl eq_refl)). destruct (d id) as [v|]; [|discriminate]. rewrite E.
    exists (v :: vs). split; [reflexivity|]. simpl. now rewrite M.
Qed.

Lemma gather_err dbs id : (exists d : db, In d dbs /\ is_ok (d id) = false) ->
  gather (map (fun d : db => Some (d id)) dbs) = Err ExceptionGroup.
Proof.
  induction dbs as [|d l IH]; intros [x [Hx Ex]]; [destruct Hx|]. simpl.
  destruct (d id) as [v|e] eqn:E.
  - destruct Hx as [->|Hx]; [rewrite E in Ex; discriminate|]. now rewrite IH by (exists x; auto).
  - reflexivity.
Qed.

Lemma is_none_iff v : is_none v = true <-> v = VNone.
Proof. destruct v; simpl; split; intros H; congruence || discriminate || reflexivity. Qed.

Lemma C47_lemma dbs id schedule : runs_all dbs schedule -> (forall d : db, In d dbs -> is_ok (d id) = true) ->
  (exists before d after v, dbs = before ++ d :: after /\ (forall e : db, In e before -> e id = Ok VNone) /\
     d id = Ok v /\ v <> VNone /\ group_read dbs id false false schedule = Ok v) \/
  ((forall d : db, In d dbs -> d id = Ok VNone) /\ group_read dbs id false false schedule = Ok VNone).
Proof.
  intros Hp Hok. unfold group_read. rewrite (run_tasks_all id Hp). destruct (@gather_ok dbs id Hok) as [vs [E M]]. rewrite E. clear E Hp Hok.
  revert vs M. induction dbs as [|d l IH]; intros vs M.
  - destruct vs; [|discriminate]. right. split; [intros ? []|reflexivity].
  - destruct vs as [|v vs]; [discriminate|]. injection M as Ed M. specialize (IH vs M). simpl.
    destruct (is_none v) eqn:En; simpl.
    + apply is_none_iff in En. subst v. destruct IH as [(b & x & a & w & -> & H1 & H2 & H3 & H4)|[H1 H2]].
      * left. exists (d :: b), x, a, w. repeat split; auto. intros e [<-|He]; auto.
      * right. split; [intros e [<-|He]; auto|exact H2].
    + left. exists [], d, l, v. split; [reflexivity|]. split; [intros ? []|]. split; [exact Ed|]. split; [|reflexivity].
      intros ->. discriminate.
Qed.

Lemma C47_failing dbs id multiple schedule : runs_all dbs schedule -> (exists d : db, In d dbs /\ is_ok (d id) = false) ->
  group_read dbs id false multiple schedule = Err ExceptionGroup.
Proof. intros Hp Hx. unfold group_read. rewrite (run_tasks_all id Hp), (@gather_err dbs id Hx). reflexivity. Qed.

Lemma C47_multiple dbs id schedule : runs_all dbs schedule -> (forall d : db, In d dbs -> is_ok (d id) = true) ->
  group_read dbs id false true schedule = match dbs with [] => Ok VNone | _ => Err AttributeError end.
Proof.
  intros Hp Hok. unfold group_read. rewrite (run_tasks_all id Hp). destruct (@gather_ok dbs id Hok) as [vs [E M]]. rewrite E.
  destruct dbs, vs; try discriminate; reflexivity.
Qed.

Lemma C47_timeout dbs id multiple schedule : group_read dbs id true multiple schedule = Err TypeError.
Proof. reflexivity. Qed.
