(** Property theorems C124: one connection used by several threads. *)
From Coq Require Import String.
From Verif Require Import Base BaseFacts Value Container ContainerFacts PropsContainer Txn TxnFacts Connection PropsConnection ConnThreads ConnThreadsFacts.
Open Scope Z_scope.
Open Scope list_scope.

(** Reading aid. [tconn]: the connection; [t_work]: the state its users see, [t_saved]: what the database holds, [t_join w = Some t]: the pending changes belong to the transaction of
    thread [t]. Events: [TCall t cmd f] a call in thread [t], [TEnter t] / [TExit t r f] the beginning of [with conn:] and its end, the body having returned or raised [r];
    [f = Some e]: a commit with something to write fails with [e]. [touches cmd s]: the call [cmd] changes a stored object; the hypothesis [untouched]: if not, the state stays the same.
    [effects], [results]: the states and results of calls made one after the other; [agree t w c]: the connection [c] of Txn.v (a connection used by one thread) looks like [w] to thread [t]. *)
Definition untouched {S C R} (cs : calls S C R) (touches : C -> S -> bool) : Prop := forall cmd s, is_read cs cmd = false -> touches cmd s = false -> fst (sem cs cmd s) = s.

(** once a thread's transaction has changes pending on the connection, whatever other threads do there - autocommitted calls and whole blocks included - is not saved; it takes effect in memory,
    and is committed or dropped when that thread's block ends, with the block *)
Theorem C124_captured : forall (S C R : Type) (cs : calls S C R) touches t w evs, t_join w = Some t -> Forall (fun e => who e <> t) evs -> t_failed w t = false ->
  let (w', l) := t_run cs touches evs w in t_saved w' = t_saved w /\ t_join w' = Some t /\ t_work w' = effects cs evs (t_work w) /\ call_results l = results cs evs (t_work w) /\
  (forall r, let w2 := fst (t_step cs touches (TExit t (Ok r) None) w') in t_saved w2 = effects cs evs (t_work w) /\ t_join w2 = None) /\
  (forall e f, let w2 := fst (t_step cs touches (TExit t (Err e) f) w') in t_saved w2 = t_saved w /\ t_work w2 = t_saved w /\ t_join w2 = None) /\
  (forall r e, let w2 := fst (t_step cs touches (TExit t (Ok r) (Some e)) w') in t_saved w2 = t_saved w /\ t_work w2 = t_saved w /\ t_join w2 = None).
Proof. intros S C R cs touches. exact (@C124_captured_lemma S C R cs touches). Qed.
Print Assumptions C124_captured.
(** what the database holds changes only when a call made outside blocks, or a block, of a thread ends normally, that thread having the pending changes or nobody; an autocommitted call adds itself to what was saved *)
Theorem C124_saved : forall (S C R : Type) (cs : calls S C R) touches, untouched cs touches -> forall w e, reachable cs touches w -> t_saved (fst (t_step cs touches e w)) <> t_saved w ->
  (t_join w = None \/ t_join w = Some (who e)) /\ fails e = None /\
  match e with
  | TCall t cmd _ => is_read cs cmd = false /\ t_auto w t = true /\ (exists a, snd (t_step cs touches e w) = OCall (Ok a) /\ snd (sem cs cmd (t_saved w)) = Ok a) /\
                     t_saved (fst (t_step cs touches e w)) = fst (sem cs cmd (t_saved w))
  | TExit t r _ => t_join w = Some t /\ (exists a, r = Ok a) /\ t_saved (fst (t_step cs touches e w)) = t_work w
  | _ => False
  end.
Proof. intros S C R cs touches U w e H. apply saved_step. exact (@reach_settled _ _ _ _ _ U _ H). Qed.
Print Assumptions C124_saved.
(** a thread that finds no other thread's changes pending gets exactly what it would if the connection were its own *)
Theorem C124_own : forall (S C R : Type) (cs : calls S C R) touches, untouched cs touches -> forall t w c e, reachable cs touches w -> (t_join w = None \/ t_join w = Some t) -> agree t w c -> who e = t ->
  exists b, (b = None \/ b = fails e) /\
  (let (w', o) := t_step cs touches e w in let (c', o') := one_step cs (fun _ => b) e c in agree t w' c' /\ o = o' /\ (t_join w' = None \/ t_join w' = Some t)).
Proof.
  intros S C R cs touches U t w c e H J A W. apply own_step; [exact U|exact (@reach_settled _ _ _ _ _ U _ H)|exact (@reach_sane _ _ _ cs touches _ H)|exact J|exact A|exact W].
Qed.
Print Assumptions C124_own.
(** so if no thread uses the connection while another is in a block, blocks are all-or-nothing and calls outside blocks take effect one by one, for any number of threads, blocks and calls.
    [serial]: the state after such sections, and the results of the calls *)
Theorem C124_one_block_at_a_time : forall (S C R : Type) (cs : calls S C R) touches, untouched cs touches -> forall l w, quiet w ->
  let (w1, o) := t_run cs touches (flat_map sect_events l) w in quiet w1 /\ (t_saved w1, call_results o) = serial cs l (t_saved w).
Proof. intros S C R cs touches U. exact (@C124_serial_lemma S C R cs touches U). Qed.
Print Assumptions C124_one_block_at_a_time.
(** [autocommit] set in a thread counts for the calls of that thread; but reading it gives what any thread set last *)
Theorem C124_autocommit_per_thread : forall (S C R : Type) (cs : calls S C R) touches t v w u, u <> t ->
  let w' := fst (t_step cs touches (@TSet C R t (VBool v)) w) in t_auto w' t = v /\ t_auto w' u = t_auto w u /\ t_flag w' = VBool v.
Proof. intros S C R cs touches t v w u N. cbn. split; [apply upd_t_same|]. split; [now apply upd_t_other|reflexivity]. Qed.
Print Assumptions C124_autocommit_per_thread.

(** ** The container's calls *)
Definition all_touch : ccmd -> container -> bool := fun _ _ => true.
Lemma all_touch_ok : untouched conn_calls all_touch.
Proof. intros cmd s _ X. discriminate X. Qed.
Definition c_run := t_run conn_calls all_touch.
Definition two : tconn container := t_open (ex_k false) (VBool true).
Definition one_call : res cres := Ok (RVal VNone).
Definition mk_x : tevent ccmd cres := TCall 1 (CCreate (py "x") (VInt 1)) None.
Definition mk_y : tevent ccmd cres := TCall 2 (CCreate (py "y") (VInt 2)) None.
(** not so: a call outside blocks that returned is saved *)
Theorem C124_returned_means_saved_refuted : ~ (forall evs cmd a w', fst (c_run evs two) = w' -> t_auto w' 2%nat = true -> snd (t_step conn_calls all_touch (TCall 2 cmd None) w') = OCall (Ok a) ->
  t_saved (fst (t_step conn_calls all_touch (TCall 2 cmd None) w')) = fst (sem conn_calls cmd (t_work w'))).
Proof.
  intro H. specialize (H [TEnter 1; mk_x] (CCreate (py "y") (VInt 2)) (RVal (VInt 1)) _ eq_refl eq_refl ltac:(vm_compute; reflexivity)). apply (f_equal (k_has (py "y"))) in H. vm_compute in H. discriminate H.
Qed.
Print Assumptions C124_returned_means_saved_refuted.
(** not so: what it did is still there once every block has ended *)
Theorem C124_lost_refuted : ~ (forall evs, let (w, l) := c_run evs two in In (OCall (Ok (RVal (VInt 1)))) (skipn 2 l) -> t_join w = None -> k_has (py "y") (t_work w) = Ok 1).
Proof. intro H. specialize (H [TEnter 1; mk_x; mk_y; TExit 1 (Err (UserError 7)) None]). vm_compute in H. specialize (H (or_introl eq_refl) eq_refl). discriminate H. Qed.
Print Assumptions C124_lost_refuted.
(** not so: a block that ended normally is saved *)
Theorem C124_block_means_saved_refuted : ~ (forall evs w', fst (c_run evs two) = w' -> snd (t_step conn_calls all_touch (TExit 2 one_call None) w') = OExit one_call ->
  t_saved (fst (t_step conn_calls all_touch (TExit 2 one_call None) w')) = t_work w').
Proof.
  intro H. specialize (H [TEnter 1; mk_x; TEnter 2; mk_y] _ eq_refl ltac:(vm_compute; reflexivity)). apply (f_equal (k_has (py "y"))) in H. vm_compute in H. discriminate H.
Qed.
Print Assumptions C124_block_means_saved_refuted.
(** not so: where [conn.autocommit] reads False, calls are not committed *)
Theorem C124_flag_refuted : ~ (forall evs cmd w', fst (c_run evs two) = w' -> t_flag w' = VBool false -> t_saved (fst (t_step conn_calls all_touch (TCall 2 cmd None) w')) = t_saved w').
Proof.
  intro H. specialize (H [TSet 1 (VBool false)] (CCreate (py "y") (VInt 2)) _ eq_refl eq_refl). apply (f_equal (k_has (py "y"))) in H. vm_compute in H. discriminate H.
Qed.
Print Assumptions C124_flag_refuted.
(** a thread's changes are seen by the others before they are saved *)
Example C124_case : let w := fst (c_run [TEnter 1; mk_x] two) in
  t_join w = Some 1%nat /\ t_failed w 1%nat = false /\ reachable conn_calls all_touch w /\
  snd (c_run [TCall 2 (CRead (py "x") VNone) None; mk_y; TEnter 2; TExit 2 one_call None] w) = [OCall (Ok (RVal (VInt 1))); OCall (Ok (RVal (VInt 1))); OEnter; OExit one_call] /\
  k_has (py "y") (t_saved (fst (c_run [mk_y; TEnter 2; TExit 2 one_call None; TExit 1 one_call None] w))) = Ok 1.
Proof. cbv zeta. split; [reflexivity|]. split; [reflexivity|]. split; [exists (ex_k false), (VBool true), [TEnter 1; mk_x]; reflexivity|]. vm_compute. auto. Qed.
Example C124_quiet : quiet two /\ agree 2 two ex_c /\
  fst (serial conn_calls [SCall 2 (CCreate (py "y") (VInt 2)); SBlock 1 [CCreate (py "x") (VInt 1)] (Err ValueError)] (ex_k false)) = fst (sem conn_calls (CCreate (py "y") (VInt 2)) (ex_k false)).
Proof. split; [|split; [|vm_compute; reflexivity]]. - split; [reflexivity|]. split; [reflexivity|]. intro; auto. - unfold agree. auto 10. Qed.
