(** C136: the log of the older transaction manager as an audit trail. *)
From Coq Require Import String.
From Verif Require Import Base BaseFacts Value Dict DictFacts SpecMap RoutingFacts Txn TxnFacts Legacy LegacyFacts LegacyConn LegacyConnFacts Audit AuditFacts.
Open Scope list_scope.

(** Reading aid. [a_run m b p (c, t)]: what a program [p] (calls, with-blocks, catching exceptions) does to a CitrineConnection [c] and to the log [t]; [b n] whether the n-th commit fails. Entries: [LStart u] "START TRANSACTION u",
    [LCall u fn id] "u: fn id", [LGood u] / [LBad u] "TRANSACTION u SUCCESSFUL" / "FAILED". [history c]: the committed states, newest first; [l_map s]: the objects of a state by id. [audited], [orderly] (AuditFacts.v) are the specification. *)
(** logging does not change what programs do and see *)
Theorem C136_same : forall m b p c t, fst (fst (a_run m b p (c, t))) = fst (lrun m b p c) /\ snd (a_run m b p (c, t)) = snd (lrun m b p c).
Proof. exact run_same. Qed.
Print Assumptions C136_same.
(** the audit trail: every committed state has its own SUCCESSFUL entry and differs from the one before only at ids named, under the same uuid, between that transaction's START and its SUCCESSFUL; uuids are new, and
    calls and end of a transaction are logged after its start and not after its end. Whatever commits fail, nested blocks or not. *)
Theorem C136_audit : forall m b p c t, n_work c = n_saved c -> n_auto c = true -> t_uuid t = None ->
  exists l, t_log (snd (fst (a_run m b p (c, t)))) = t_log t ++ l /\ audited (history c) (history (fst (fst (a_run m b p (c, t))))) l /\ orderly l /\ (forall u, Exists (about u) l -> (t_next t <= u)%nat).
Proof. exact audit_run. Qed.
Print Assumptions C136_audit.
(** so: no object is added, changed or removed without a trace *)
Theorem C136_no_change_without_trace : forall m b p c t id, n_work c = n_saved c -> n_auto c = true -> t_uuid t = None ->
  let s := fst (a_run m b p (c, t)) in l_map (n_saved (fst s)) id <> l_map (n_saved c) id ->
  exists u l1 l2 l3 l4 fn, t_log (snd s) = t_log t ++ l1 ++ LStart u :: l2 ++ LCall u fn id :: l3 ++ LGood (Some u) :: l4.
Proof.
  intros m b p c t id W A U s N. destruct (audit_run m b p c t W A U) as (l & L & AU & _ & _). destruct (audited_changes AU eq_refl) as (s1 & r & E & H). unfold s in *. injection E as <- _. specialize (H id N).
  destruct H as (u & l1 & l2 & l3 & l4 & fn & ->). exists u, l1, l2, l3, l4, fn. exact L.
Qed.
Print Assumptions C136_no_change_without_trace.
(** and the commits that succeeded are as many as the SUCCESSFUL entries *)
Theorem C136_one_entry_per_commit : forall m b p c t, n_work c = n_saved c -> n_auto c = true -> t_uuid t = None ->
  let s := fst (a_run m b p (c, t)) in exists l, t_log (snd s) = t_log t ++ l /\ length (history (fst s)) = (length (history c) + length (filter is_good l))%nat.
Proof. intros m b p c t W A U s. destruct (audit_run m b p c t W A U) as (l & L & AU & _ & _). exists l. split; [exact L|exact (audited_count AU)]. Qed.
Print Assumptions C136_one_entry_per_commit.
(** one call outside blocks: FAILED if the call raised, SUCCESSFUL if it was committed, neither if its commit failed *)
Inductive spelled : lcmd -> pystr -> pystr -> Prop :=
| sp_create id v : spelled (LcCreate id v) (py "create") id
| sp_update id v : spelled (LcUpdate id v) (py "update") id
| sp_delete id : spelled (LcDelete id) (py "delete") id.
Theorem C136_call : forall b cmd fn id c t, spelled cmd fn id -> n_auto c = true -> let u := t_next t in
  t_log (snd (fst (a_call Explicit b cmd (c, t)))) = t_log t ++ [LStart u; LCall u fn id] ++
    match snd (lsem cmd (n_saved c)), b (n_calls c) with Err _, _ => [LBad (Some u)] | Ok _, None => [LGood (Some u)] | Ok _, Some _ => [] end.
Proof. intros b cmd fn id c t H A u. destruct H; match goal with |- context [a_call _ _ ?cmd _] => exact (@call_entries b cmd c t eq_refl A) end. Qed.
Print Assumptions C136_call.
(** and inside a block, whatever the call gives: its name and id under the uuid of the block; reading logs nothing *)
Theorem C136_call_in_block : forall b cmd fn id c t u, spelled cmd fn id -> n_auto c = false -> t_uuid t = Some u -> t_log (snd (fst (a_call Explicit b cmd (c, t)))) = t_log t ++ [LCall u fn id].
Proof. intros b cmd fn id c t u H A U. destruct H; unfold a_call; cbn [lis_read]; rewrite A, U; destruct (perform legacy_calls _ c) as [c1 r]; reflexivity. Qed.
Print Assumptions C136_call_in_block.
Theorem C136_reads : forall m b cmd c t, lis_read cmd = true -> snd (fst (a_call m b cmd (c, t))) = t.
Proof. intros m b cmd c t R. unfold a_call. rewrite R. destruct (perform legacy_calls cmd c) as [c1 r]. reflexivity. Qed.
Print Assumptions C136_reads.
(** when no commit fails and no block is inside another, every transaction that starts is logged as SUCCESSFUL or FAILED *)
Theorem C136_every_transaction_ends : forall m b p c, (forall n, b n = None) -> flat p -> n_auto c = true -> n_failed c = false -> ended (t_log (snd (fst (a_run m b p (c, mkT None 0 []))))).
Proof. exact all_end. Qed.
Print Assumptions C136_every_transaction_ends.

Definition store : lroot := mkRoot (Some dbc_new) true.
Definition idle : conn lroot := mkConn store store [] true (VBool true) false 0.
Definition all_good : nat -> option exn := fun _ => None.
Definition second_bad (n : nat) : option exn := if Nat.eqb n 1 then Some IOError else None.
Definition call1 (cmd : lcmd) (p : prog lcmd lres) : prog lcmd lres := Do cmd (fun _ => p).
Definition mk (id : string) (v : Z) : lcmd := LcCreate (py id) (VInt v).
(** a create, a delete that raises, and a block of two calls *)
Definition plain_prog : prog lcmd lres :=
  call1 (mk "x" 1) (call1 (LcDelete (py "y")) (Block (call1 (mk "y" 2) (call1 (LcUpdate (py "x") (VInt 3)) (Done (Ok (LRVal VNone))))) (fun r => Done r))).
(** a block inside a block: what the outer one did before is lost, its uuid never ends and its own end is logged under None *)
Definition nested_prog : prog lcmd lres :=
  Block (call1 (mk "x" 1) (Block (call1 (mk "y" 2) (Done (Ok (LRVal VNone)))) (fun _ => call1 (mk "z" 3) (Done (Ok (LRVal VNone)))))) (fun r => Done r).
Example C136_case : (n_work idle = n_saved idle /\ n_auto idle = true /\ n_failed idle = false /\ flat plain_prog) /\
  t_log (snd (fst (a_run Explicit all_good plain_prog (idle, mkT None 0 [])))) =
    [LStart 0; LCall 0 (py "create") (py "x"); LGood (Some 0%nat); LStart 1; LCall 1 (py "delete") (py "y"); LBad (Some 1%nat);
     LStart 2; LCall 2 (py "create") (py "y"); LCall 2 (py "update") (py "x"); LGood (Some 2%nat)] /\
  t_log (snd (fst (a_run Explicit second_bad plain_prog (idle, mkT None 0 [])))) =
    [LStart 0; LCall 0 (py "create") (py "x"); LGood (Some 0%nat); LStart 1; LCall 1 (py "delete") (py "y"); LBad (Some 1%nat);
     LStart 2; LCall 2 (py "create") (py "y"); LCall 2 (py "update") (py "x")] /\
  l_map (n_saved (fst (fst (a_run Explicit all_good plain_prog (idle, mkT None 0 []))))) (py "x") <> l_map (n_saved idle) (py "x").
Proof. split; [split; [reflexivity|split; [reflexivity|split; [reflexivity|cbn; auto]]]|]. split; [vm_compute; reflexivity|]. split; [vm_compute; reflexivity|]. vm_compute. intros H. discriminate H. Qed.
(** false of the code: that every transaction ends in the log, when blocks are nested or a commit fails *)
Theorem C136_end_refuted : ~ (forall p, ended (t_log (snd (fst (a_run Explicit all_good p (idle, mkT None 0 [])))))) /\
  ~ (forall b p, flat p -> ended (t_log (snd (fst (a_run Explicit b p (idle, mkT None 0 [])))))).
Proof.
  split; intros H.
  - specialize (H nested_prog 0%nat). vm_compute in H. assert (X : LStart 0 = LStart 0) by reflexivity. specialize (H (or_introl X)). apply Exists_exists in H. destruct H as (e & I & [-> | ->]); cbn [In] in I; intuition discriminate.
  - assert (F : flat plain_prog) by (cbn; auto). specialize (H second_bad plain_prog F 2%nat). apply Exists_exists in H; [|vm_compute; tauto]. destruct H as (e & I & [-> | ->]); vm_compute in I; intuition discriminate.
Qed.
Print Assumptions C136_end_refuted.
Example C136_nested : t_log (snd (fst (a_run Explicit all_good nested_prog (idle, mkT None 0 [])))) =
    [LStart 0; LCall 0 (py "create") (py "x"); LStart 1; LCall 1 (py "create") (py "y"); LGood (Some 1%nat); LStart 2; LCall 2 (py "create") (py "z"); LGood (Some 2%nat); LGood None] /\
  map (fun id => l_map (n_saved (fst (fst (a_run Explicit all_good nested_prog (idle, mkT None 0 []))))) (py id)) ["x"; "y"; "z"]%string = [None; Some (VInt 2); Some (VInt 3)].
Proof. split; vm_compute; reflexivity. Qed.
