(** C137: the older container in a program that also expands it. *)
From Coq Require Import String.
From Verif Require Import Base BaseFacts Value SpecMap RoutingFacts Dict DictFacts Txn TxnFacts Legacy LegacyFacts LegacyConn LegacyConnFacts LegacyGrow LegacyGrowFacts LegacyGrowConn LegacyGrowConnFacts.
Open Scope Z_scope.
Open Scope list_scope.

(** Reading aid. [g_run ops c]: the container after the calls [ops] (reads, writes, deletes, [has], expand_size), exceptions caught, and what they returned; [repeat [] n]: [n] empty containers; [id_number id h]: the UTF-8 bytes of [id] are
    the number [h]. From the specification (LegacyGrowFacts.v): [count n ops] the number of containers after [ops]; [visible id h n ops k x]: [x] is what the last write or delete of [id] gave it, of those made while the number of containers
    gave [h] the same residue as [k] does. *)
(** reading, testing and deleting an id find exactly that, whatever was called before *)
Theorem C137_reads : forall n ops id h, 0 < n -> id_number id h -> let c := fst (g_run ops (repeat [] (Z.to_nat n))) in
  exists x, visible id h n ops (count n ops) x /\ dbc_read id c = Ok (match x with Some v => v | None => VNone end) /\ dbc_has id c = Ok (match x with Some _ => true | None => false end) /\
    snd (dbc_delete id c) = match x with Some _ => Ok tt | None => Err KeyError end.
Proof. exact grow_reads. Qed.
Print Assumptions C137_reads.
Theorem C137_determined : forall id h n ops k x y, visible id h n ops k x -> visible id h n ops k y -> x = y.
Proof. exact visible_unique. Qed.
Print Assumptions C137_determined.
(** the number of containers is the largest asked for, and never smaller than before; the size counts every stored copy, readable or not *)
Theorem C137_containers : forall n ops, 0 < n -> let k := containers_size (fst (g_run ops (repeat [] (Z.to_nat n)))) in
  n <= k /\ (forall m, In (GExpand m) ops -> m <= k) /\ (k = n \/ In (GExpand k) ops).
Proof.
  intros n ops L k. destruct (fresh_sane L) as [W E]. destruct (g_run_sane ops W) as [_ E']. unfold k. rewrite E', E. clear. revert n. induction ops as [|[o|m] ops IH]; intros n; cbn [count].
  - split; [lia|]. split; [intros m []|auto].
  - destruct (IH n) as (A & B & C). split; [exact A|]. split; [intros m [H|H]; [discriminate H|auto]|]. destruct C as [C|C]; [auto|right; now right].
  - destruct (IH (if n <? m then m else n)) as (A & B & C). destruct (Z.ltb_spec n m) as [H|H].
    + split; [lia|]. split; [intros j [J|J]; [injection J as <-; exact A|auto]|]. right. destruct C as [C|C]; [left; now rewrite C|now right].
    + split; [lia|]. split; [intros j [J|J]; [injection J as <-; lia|auto]|]. destruct C as [C|C]; [auto|right; now right].
Qed.
Print Assumptions C137_containers.
Theorem C137_size : forall n ops o, 0 < n -> let c := fst (g_run ops (repeat [] (Z.to_nat n))) in dbc_size (fst (g_step o c)) = dbc_size c +
  match o, snd (g_step o c) with
  | GCall (LWrite id v), Ok _ => match dbc_has id c with Ok false => 1 | _ => 0 end
  | GCall (LDelete id), Ok _ => -1
  | _, _ => 0
  end.
Proof. intros n ops o L c. apply size_step. destruct (fresh_sane L) as [W _]. exact (proj1 (g_run_sane ops W)). Qed.
Print Assumptions C137_size.

(** "b" is the number 98: in one container it is in 0, in three in 98 mod 3 = 2, in seven in 98 mod 7 = 0 again, in 32 in 98 mod 32 = 2 *)
Definition put (v : Z) : gop := GCall (LWrite (py "b") (VInt v)).
Definition look : gop := GCall (LRead (py "b")).
Definition long : list gop :=
  [put 1; look; GExpand 3; look; GCall (LDelete (py "b")); put 2; look; GExpand 7; look; GExpand 5; GCall (LDelete (py "b")); look; GExpand 32; look].
Example C137_case : id_number (py "b") 98 /\ count 1 long = 32 /\
  snd (g_run long (repeat [] 1)) = [Ok LNone; Ok (LVal (VInt 1)); Ok LNone; Ok (LVal VNone); Err KeyError; Ok LNone; Ok (LVal (VInt 2)); Ok LNone; Ok (LVal (VInt 1)); Err ValueError; Ok LNone; Ok (LVal VNone); Ok LNone; Ok (LVal (VInt 2))].
Proof. split; [exists [98%N]; split; reflexivity|]. split; vm_compute; reflexivity. Qed.
(** false of the code: that a read gives the value written last, and that what was deleted stays deleted *)
Theorem C137_last_write_refuted : ~ (forall ops id v m, encodable id -> snd (g_run (ops ++ [GCall (LWrite id v); GExpand m; GCall (LRead id)]) (repeat [] 1)) = snd (g_run ops (repeat [] 1)) ++ [Ok LNone; Ok LNone; Ok (LVal v)]) /\
  ~ (forall ops id m, encodable id -> snd (g_run (ops ++ [GCall (LDelete id); GExpand m; GCall (LRead id)]) (repeat [] 1)) = snd (g_run ops (repeat [] 1)) ++ [Ok LNone; Ok LNone; Ok (LVal VNone)] \/
     In (Err KeyError) (snd (g_run (ops ++ [GCall (LDelete id)]) (repeat [] 1)))).
Proof.
  assert (E : encodable (py "b")). { unfold encodable. constructor; [|constructor]. unfold encodable_char. vm_compute. split; [reflexivity|]. intros [H _]. now apply H. }
  split; intros H.
  - specialize (H [put 1; GExpand 3] (py "b") (VInt 2) 7 E). vm_compute in H. discriminate H.
  - destruct (H [put 1; GExpand 3; put 2; GExpand 7] (py "b") 32 E) as [K|K]; vm_compute in K; [discriminate K|]. intuition discriminate.
Qed.
Print Assumptions C137_last_write_refuted.

(** the same through a CitrineConnection with a CitrineTransactionManager: its calls, and expand_containers, are the calls of the container, each committed on its own ([all_stand_for]: which calls; [n] the number of containers) *)
Theorem C137_connection : forall b os gs c n, (forall k, b k = None) -> quiet c -> 0 < n -> r_container (n_saved c) = Some (repeat [] (Z.to_nat n)) -> all_stand_for n os gs ->
  let (c1, rs) := k_run b os c in quiet c1 /\ r_container (n_saved c1) = Some (fst (g_run gs (repeat [] (Z.to_nat n)))) /\ Forall2 answers rs (snd (g_run gs (repeat [] (Z.to_nat n)))).
Proof. intros b os gs c n B Q L D A. destruct (fresh_sane L) as [W E]. apply k_run_spec; auto. now rewrite E. Qed.
Print Assumptions C137_connection.
(** so a read of the connection finds what [visible] says *)
Theorem C137_connection_reads : forall b os gs c n id h, (forall k, b k = None) -> quiet c -> 0 < n -> r_container (n_saved c) = Some (repeat [] (Z.to_nat n)) -> all_stand_for n os gs -> id_number id h ->
  exists x, visible id h n gs (count n gs) x /\ snd (k_step b (KCall (LcRead id)) (fst (k_run b os c))) = Ok (LRVal (match x with Some v => v | None => VNone end)).
Proof.
  intros b os gs c n id h B Q L D A H. destruct (grow_reads gs L H) as (x & V & R & _). exists x. split; [exact V|]. pose proof (C137_connection b os gs c n B Q L D A) as K. destruct (k_run b os c) as [c1 rs]. destruct K as (Q1 & D1 & _).
  pose proof (@k_step_spec b (KCall (LcRead id)) (GCall (LRead id)) c1 _ B Q1 D1 (sf_read _ id)) as S. cbn [fst]. destruct (k_step b (KCall (LcRead id)) c1) as [c2 r]. destruct S as (_ & _ & AN). cbn [g_step l_step snd] in *. rewrite R in AN. cbn [rbind] in AN. inversion AN. reflexivity.
Qed.
Print Assumptions C137_connection_reads.
Definition conn0 : conn lroot := mkConn (mkRoot (Some [[]]) true) (mkRoot (Some [[]]) true) [] true (VBool true) false 0.
Definition session : list kop := [KCall (LcCreate (py "b") (VInt 1)); KExpand 2; KCall (LcRead (py "b")); KCall (LcUpdate (py "b") (VInt 2)); KExpand 0; KExpand 4; KCall (LcItem (XStr (py "b")))].
Example C137_connection_case : quiet conn0 /\ r_container (n_saved conn0) = Some (repeat [] (Z.to_nat 1)) /\
  all_stand_for 1 session [put 1; GExpand 3; look; GCall (LWrite (py "b") (VInt 2)); GExpand 3; GExpand 7; look] /\
  snd (k_run (fun _ => None) session conn0) = [Ok (LRVal VNone); Ok (LRVal VNone); Ok (LRVal VNone); Ok (LRVal VNone); Err ValueError; Ok (LRVal VNone); Ok (LRVal (VInt 1))].
Proof.
  split; [now repeat split|]. split; [reflexivity|]. split; [|vm_compute; reflexivity].
  apply asf_cons; [constructor|]. apply asf_cons; [exact (sf_expand 1 2)|]. apply asf_cons; [constructor|]. apply asf_cons; [constructor|]. apply asf_cons; [exact (sf_expand 3 0)|]. apply asf_cons; [exact (sf_expand 3 4)|]. apply asf_cons; [constructor|]. constructor.
Qed.
