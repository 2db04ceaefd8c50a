(** C126: sessions with failing commits; C127: reading a group of databases after their sessions. *)
From Coq Require Import String.
From Verif Require Import Base BaseFacts Value BTree Collection SpecMap Group RoutingFacts GroupFacts GroupNewFacts StorageThms PropsStorage Container ContainerFacts ResizeFacts ContainerThms PropsContainer
  Txn TxnFacts Connection ConnectionFacts ConnHistory Db DbFacts GroupRead GroupReadFacts Session SessionFacts.
Open Scope Z_scope.
Open Scope list_scope.

(** Reading aid. [ops]: what a program does with a connection: calls, assignments to [conn.autocommit], entering and leaving [with conn:] blocks, closing and opening again. [b i]: whether the [i]-th commit
    asked for succeeds ([None]) or fails, and with which exception. [s_hops b ops c]: the connection afterwards and what the program saw. [session b n w s a f ops os n' m] (SessionFacts.v) is the specification:
    a map with transactions. [held k]: the objects of a container as a map, [n_saved]: the committed container. *)
(** a session on a new database is a session on a map, whatever commits fail; also what is committed in the end *)
Theorem C126_session : forall b u0 cap mcs k flag c ops c' os, sizable cap mcs -> container_new u0 cap mcs false = Ok k -> connect (Some k) true flag = Ok c -> Forall good_hop ops -> s_hops b ops c = (c', os) ->
  session b 0 empty_map empty_map true false ops os (n_calls c') (held (n_saved c')).
Proof.
  intros b u0 cap mcs k flag c ops c' os SZ E CN F R. destruct (@fresh_one _ _ _ _ SZ E) as [G HN]. simpl in CN. injection CN as <-.
  destruct (s_hops_spec b (mkConn k k [] true flag false O) G G (fun X => False_ind _ (Bool.diff_false_true X)) F R) as [S _]. eapply session_ext; [exact S| |]; intro j; cbn; unfold empty_map; now rewrite ?HN.
Qed.
Print Assumptions C126_session.
(** the specification leaves nothing open: what the program sees, the commits asked for and the committed map are determined *)
Theorem C126_determined : forall b n w s a f ops os1 os2 n1 n2 m1 m2, session b n w s a f ops os1 n1 m1 -> session b n w s a f ops os2 n2 m2 -> os1 = os2 /\ n1 = n2 /\ forall id, m1 id = m2 id.
Proof. intros b n w s a f ops os1 os2 n1 n2 m1 m2 H1 H2. destruct (session_det H1 (same_refl w) (same_refl s) H2) as (A & B & C). split; [exact A|]. split; [exact B|]. intro id. symmetry. apply C. Qed.
Print Assumptions C126_determined.
(** the second commit fails: the update is lost and autocommit is off, mutators raise until the program assigns [conn.autocommit], what was pending then is gone *)
Definition second_fails (i : nat) : option exn := if Nat.eqb i 1 then Some IOError else None.
Definition ex_ops : list hop :=
  [HCall (CCreate (py "x") (VInt 1)); HCall (CUpdate (py "x") (VInt 2)); HCall (CRead (py "x") VNone); HCall (CCreate (py "y") (VInt 3)); HExit false; HAuto true; HCall (CCreate (py "y") (VInt 4));
   HEnter; HCall (CDelete (py "x")); HExit false; HCall (CItem (IIter [py "x"; py "y"]))].
Lemma ex_ops_good : Forall good_hop ex_ops.
Proof.
  assert (EX : encodable (py "x") /\ encodable (py "y")) by (split; apply Forall_forall; intros ch [<-|[]]; vm_compute; intuition discriminate).
  destruct EX as [EX EY]. unfold ex_ops. repeat (apply Forall_cons; [simpl; auto|]); auto.
Qed.
Definition ex_box : container := mkK [ex_g false 1 1 1] [0%nat] 0.
Example C126_case : Forall good_hop ex_ops /\
  snd (s_hops second_fails ex_ops (mkConn ex_box ex_box [] true (VBool true) false 0)) =
  [SCall (Ok (RVal (VInt 1))); SCall (Err IOError); SCall (Ok (RVal (VInt 1))); SCall (Err TransactionFailedError); SExit (Err TransactionFailedError); SCall (Ok (RVal (VInt 1)));
   SCall (Ok (RTuple [VInt 1])); SExit (Ok tt); SCall (Ok (RList [VNone; VInt 4]))].
Proof. split; [exact ex_ops_good|]. vm_compute. reflexivity. Qed.

(** ** C127
    [ls]: databases, each made with [ContainerDb.new], used by a session whose commits may fail, and closed or killed at the end of it; [left_file l]: what its file holds then; [through f id]: what
    [read(id)] gives on a connection the group opens to it. *)
(** the group gives the object of the first database, in the order given, whose committed map has the id; None if there is none. Duplicates are not reported. *)
Theorem C127_first : forall ls id schedule, Forall good_life ls -> encodable id -> runs_all (map (fun l => through (left_file l)) ls) schedule ->
  exists ms : list amap, Forall2 (fun l m => exists c os n, live l = Some (c, os) /\ session (l_commits l) 0 empty_map empty_map true false (l_ops l) os n m) ls ms /\
    exists answer, group_read (map (fun l => through (left_file l)) ls) id false false schedule = Ok answer /\
      ((exists i m, nth_error ms i = Some m /\ m id = Some answer /\ forall j m', (j < i)%nat -> nth_error ms j = Some m' -> m' id = None) \/
       (answer = VNone /\ forall m, In m ms -> m id = None)).
Proof.
  intros ls id schedule F E R. destruct (group_spec F E R) as (ms & M1 & M2). exists ms. split; [exact M1|]. eexists. split; [exact M2|]. clear.
  induction ms as [|m ms IH]; cbn [find]; [right; split; [reflexivity|intros m []]|]. destruct (m id) as [v|] eqn:Q.
  - left. exists 0%nat, m. rewrite Q. split; [reflexivity|]. split; [reflexivity|]. intros j m' L. inversion L.
  - destruct IH as [(i & m0 & I1 & I2 & I3)|[I1 I2]].
    + left. exists (Datatypes.S i), m0. split; [exact I1|]. split; [exact I2|]. intros [|j] m' L N; [cbn in N; congruence|]. cbn in N. apply (I3 j m'); [lia|exact N].
    + right. split; [exact I1|]. intros m0 [<-|I]; auto.
Qed.
Print Assumptions C127_first.
(** one database: after any session, opening it again and reading gives what was committed *)
Theorem C127_reopened : forall l, good_life l -> exists c os n m, live l = Some (c, os) /\ session (l_commits l) 0 empty_map empty_map true false (l_ops l) os n m /\
  forall id, encodable id -> through (left_file l) id = Ok (match m id with Some v => v | None => VNone end).
Proof.
  intros l G. destruct (live_spec G) as (c & os & L & S & O & other & LF). exists c, os, (n_calls c), (held (n_saved c)). split; [exact L|]. split; [exact S|]. intros id E. rewrite LF. now apply through_spec.
Qed.
Print Assumptions C127_reopened.
(** other entries of the root object of an existing file are kept by the new database and by the session, unless the file is truncated *)
Theorem C127_other_entries : forall l, good_life l -> exists r, left_file l = Some r /\ rt_other r = if l_truncate l then [] else match l_file l with Some r0 => rt_other r0 | None => [] end.
Proof. exact left_other. Qed.
Print Assumptions C127_other_entries.
(** a file without any root object, or one without container, cannot be opened: the exception comes out *)
Theorem C127_unusable_file : forall id other, through None id = Err KeyError /\ through (Some (mkRoot None other)) id = Err IncompatibleDatabaseError.
Proof. intros. split; reflexivity. Qed.
Print Assumptions C127_unusable_file.
(** two databases: the first loses its update of "x" (its second commit fails) and later deletes "x"; the second has "x" and "y" *)
Definition ex_lives : list life :=
  [mkLife 7 100 false false (py "a") None second_fails ex_ops; mkLife 8 50 true true (py "b") (Some (mkRoot None [])) (fun _ => None) [HCall (CCreate (py "x") (VInt 8)); HCall (CUpdate (py "y") (VInt 9))]].
Lemma ex_lives_good : Forall good_life ex_lives.
Proof.
  assert (EX : encodable (py "x") /\ encodable (py "y")) by (split; apply Forall_forall; intros ch [<-|[]]; vm_compute; intuition discriminate).
  assert (C : 1 <= 100 < 2 ^ 53 /\ 1 <= 50 < 2 ^ 53) by (change (2 ^ 53) with 9007199254740992; lia).
  constructor; [|constructor; [|constructor]]; (split; [cbn [l_capacity]; tauto|]); [exact ex_ops_good|]. cbn [l_ops]. destruct EX. repeat (apply Forall_cons; [simpl; auto|]); auto.
Qed.
Example C127_case : let dbs := map (fun l => through (left_file l)) ex_lives in Forall good_life ex_lives /\ runs_all dbs [1%nat; 0%nat] /\
  group_read dbs (py "x") false false [1%nat; 0%nat] = Ok (VInt 8) /\ group_read dbs (py "y") false false [1%nat; 0%nat] = Ok (VInt 4) /\ group_read dbs (py "z") false false [1%nat; 0%nat] = Ok VNone.
Proof. split; [exact ex_lives_good|]. split; [apply Permutation.perm_swap|]. vm_compute. auto. Qed.
