(** C116: stored objects that are changed in place. *)
From Coq Require Import String.
From Verif Require Import Base BaseFacts Value SpecMap Txn Connection ConnHistory InPlace InPlaceFacts.
Import ListNotations.
Open Scope list_scope.

(** changing stored objects in place saves nothing: whatever a session reads, changes in place, begins, ends normally or by an exception, and whatever the cache
    drops, what is committed stays the same - also at a normal end of a block *)
Theorem C116_unnoticed : forall near skips ops c, i_dirty c = [] ->
  Forall (fun o => match o with IHop (HCall cmd) => conn_is_read cmd = true | ISame _ => False | _ => True end) ops ->
  forall id, i_disk (fst (do_iops near skips ops c)) id = i_disk c id.
Proof. intros near skips ops c D Q. apply quiet_session; auto. Qed.
Print Assumptions C116_unnoticed.
(** read, change and update with the same object: update returns the changed object as the previous value; the change is committed if the BTree notices the assignment of
    an object it already holds, and otherwise nothing is *)
Theorem C116_same_object : forall near skips c id f v, i_dirty c = [] -> i_auto c = true -> i_mem c id = Some v ->
  let c' := fst (do_iops near skips [IChange id f; ISame id] c) in
  snd (do_iops near skips [IChange id f; ISame id] c) = [Ok (RVal (f v))] /\ i_mem c' id = Some (f v) /\
  (skips = true -> forall j, i_disk c' j = i_disk c j) /\ (skips = false -> i_disk c' id = Some (f v)).
Proof. exact same_back. Qed.
Print Assumptions C116_same_object.
(** with an id that is not stored, [read] gives None, and giving that back stores None under the id *)
Theorem C116_absent : forall near skips c id, i_dirty c = [] -> i_auto c = true -> i_mem c id = None ->
  let c' := fst (do_iops near skips [ISame id] c) in
  snd (do_iops near skips [ISame id] c) = [Ok (RVal VNone)] /\ i_mem c' id = Some VNone /\ i_disk c' id = Some VNone.
Proof.
  intros near skips c id D A M. cbn [do_iops do_iop]. unfold i_auto_call. rewrite A.
  assert (X : i_mem (i_set_auto false (i_abort near c)) id = None) by (cbn; unfold touched; rewrite D; exact M).
  unfold i_same. rewrite X. unfold i_call. cbn [map_sem writes]. unfold get. rewrite X. cbn. unfold touched, known_in, with_id. cbn. rewrite str_eqb_refl. auto.
Qed.
Print Assumptions C116_absent.
(** an update with another object commits that object, whatever was done to the old one; but the previous value it returns is the old one as changed *)
Theorem C116_other_object : forall near skips c id f v w, i_dirty c = [] -> i_auto c = true -> i_mem c id = Some v ->
  let ops := [IChange id f; IHop (HCall (CUpdate id w))] in let c' := fst (do_iops near skips ops c) in
  snd (do_iops near skips ops c) = [Ok (RVal (f v))] /\ i_mem c' id = Some w /\ i_disk c' id = Some w.
Proof. exact other_back. Qed.
Print Assumptions C116_other_object.
(** the normal end of a block: what it wrote is committed as it is in memory, and of every other id either nothing or what it is in memory *)
Theorem C116_block_end : forall near skips c id, let c' := fst (do_iop near skips (IHop (HExit false)) c) in
  (i_disk c' id = i_disk c id \/ i_disk c' id = i_mem c id) /\ (In id (i_dirty c) -> i_disk c' id = i_mem c id) /\ (i_dirty c = [] -> i_disk c' id = i_disk c id).
Proof. intros near skips c id. cbn. destruct (commit_law near c id) as (H1 & H2 & H3 & _). auto. Qed.
Print Assumptions C116_block_end.
(** a session that changes no stored object in place behaves as the map of C42, however the BTrees group their entries and whatever the cache drops *)
Theorem C116_without_changes : forall near skips ops m, Forall (fun o => match o with IHop _ | IEvict _ => True | _ => False end) ops ->
  map_history m m true (flat_map (fun o => match o with IHop h => [h] | _ => [] end) ops) (snd (do_iops near skips ops (i_open m))).
Proof.
  intros near skips ops m Q. pose proof (@by_value_session near skips ops (i_open m)) as B. cbn in B. apply B; [intros j _; reflexivity|]. eapply Forall_impl; [|exact Q]. intros [| | |]; cbn; auto.
Qed.
Print Assumptions C116_without_changes.
(** a block that ends by an exception does not undo changes in place: they are still read, and a later call that stores something else may commit them *)
Theorem C116_rollback_refuted : exists near id other v v' w,
  v <> v' /\
  let m := with_id id (Some v) empty_map in
  let ops := [IHop HEnter; IChange id (fun _ => v'); IHop (HExit true); IHop (HCall (CRead id VNone)); IHop (HCall (CCreate other w)); IHop (HReopen (VBool true)); IHop (HCall (CRead id VNone))] in
  forall skips, snd (do_iops near skips ops (i_open m)) = [Ok (RVal v'); Ok (RVal (VInt 1)); Ok (RVal v')].
Proof.
  exists (fun _ _ => true), (py "a"), (py "b"), (VObj 1 true), (VObj 2 true), (VObj 3 true). split; [discriminate|]. intros m ops skips. destruct skips; vm_compute; reflexivity.
Qed.
Print Assumptions C116_rollback_refuted.
(** ... or may not, if the entries are in different records: what is committed depends on how the BTrees group them *)
Theorem C116_grouping_refuted : exists near near' ops m skips, snd (do_iops near skips ops (i_open m)) <> snd (do_iops near' skips ops (i_open m)).
Proof.
  exists (fun _ _ => true), (fun _ _ => false),
    [IChange (py "a") (fun _ => VObj 2 true); IHop (HCall (CCreate (py "b") (VObj 3 true))); IHop (HReopen (VBool true)); IHop (HCall (CRead (py "a") VNone))],
    (with_id (py "a") (Some (VObj 1 true)) empty_map), false. vm_compute. intros E. discriminate E.
Qed.
Print Assumptions C116_grouping_refuted.
(** and a change in place may disappear at any moment *)
Theorem C116_dropped_refuted : exists near skips ops m id v v', v <> v' /\ m id = Some v /\
  ops = [IChange id (fun _ => v'); IHop (HCall (CRead id VNone)); IEvict (fun _ => true); IHop (HCall (CRead id VNone))] /\
  snd (do_iops near skips ops (i_open m)) = [Ok (RVal v'); Ok (RVal v)].
Proof.
  exists (fun _ _ => true), false, [IChange (py "a") (fun _ => VObj 2 true); IHop (HCall (CRead (py "a") VNone)); IEvict (fun _ => true); IHop (HCall (CRead (py "a") VNone))],
    (with_id (py "a") (Some (VObj 1 true)) empty_map), (py "a"), (VObj 1 true), (VObj 2 true).
  split; [discriminate|]. split; [vm_compute; reflexivity|]. split; [reflexivity|vm_compute; reflexivity].
Qed.
Print Assumptions C116_dropped_refuted.
Example C116_case : let c := fst (do_iops (fun _ _ => false) true [IHop (HCall (CCreate (py "a") (VObj 1 true))); IHop (HCall (CCreate (py "b") (VObj 5 true))); IChange (py "b") (fun _ => VObj 6 true)] (i_open empty_map)) in
  i_dirty c = [] /\ i_auto c = true /\ i_mem c (py "a") = Some (VObj 1 true) /\ i_mem c (py "b") = Some (VObj 6 true) /\ i_disk c (py "b") = Some (VObj 5 true) /\
  snd (do_iops (fun _ _ => false) true [IHop (HCall (CDelete (py "a"))); IHop (HCall (CUpdate (py "c") (VObj 7 true))); IEvict (fun _ => true); IHop (HCall (CItem (IIter [py "a"; py "b"; py "c"])))] c)
    = [Ok (RTuple [VObj 1 true]); Ok (RVal VNone); Ok (RList [VNone; VObj 5 true; VObj 7 true])].
Proof. vm_compute. repeat split; reflexivity. Qed.
