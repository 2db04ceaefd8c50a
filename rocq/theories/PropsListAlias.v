(** C123: lists shared between an object's properties and its callers. *)
From Coq Require Import String Lia.
From Verif Require Import Base ListAlias ListAliasFacts.
Open Scope list_scope.
Set Implicit Arguments.

(** In a history of any callers, who change in place only lists that no guarded property holds (their own, or detached ones), every guarded property reads, all the way down, as the
    conversion of what the last value assigned to it read as at the moment of the assignment: later changes of the caller's lists do not reach it. *)
Theorem C123_reads : forall (L : Type) limit (kinds : nat -> kind L) none ops p lists leaf,
  respectful limit kinds none ops -> kinds p = Checked lists leaf -> let st := fst (l_run limit kinds none ops) in
  exists t rs, assigned limit kinds none p lists leaf ops t /\ spells (l_heap st) (l_slot st p) t rs.
Proof. intros L limit kinds none ops p lists leaf. exact (@C123_reads_lemma L limit kinds none ops p lists leaf). Qed.
Print Assumptions C123_reads.
(** ... the lists inside a guarded property's value are no lists a caller made, occur once, and occur in no other guarded property of any object (whatever was assigned from what). *)
Theorem C123_apart : forall (L : Type) limit (kinds : nat -> kind L) none ops p t rs,
  respectful limit kinds none ops -> checked kinds p -> let st := fst (l_run limit kinds none ops) in spells (l_heap st) (l_slot st p) t rs ->
  NoDup rs /\ forall r, In r rs -> ~ made_by_caller limit kinds none ops r /\ forall q t' rs', q <> p -> checked kinds q -> spells (l_heap st) (l_slot st q) t' rs' -> ~ In r rs'.
Proof. intros L limit kinds none ops p t rs. exact (@C123_apart_lemma L limit kinds none ops p t rs). Qed.
Print Assumptions C123_apart.
(** ... so it holds something that its check accepts. *)
Theorem C123_valid : forall (L : Type) limit (kinds : nat -> kind L) none ops p lists leaf,
  respectful limit kinds none ops -> kinds p = Checked lists leaf -> (forall l l', leaf l = Ok l' -> leaf l' = Ok l') -> leaf none = Ok none ->
  let st := fst (l_run limit kinds none ops) in exists t rs, spells (l_heap st) (l_slot st p) t rs /\ conv lists leaf t = Ok t.
Proof. intros L limit kinds none ops p lists leaf. exact (@C123_valid_lemma L limit kinds none ops p lists leaf). Qed.
Print Assumptions C123_valid.
(** After any history: an assignment of a finite value (no deeper than the recursion limit) has the outcome of its conversion; *)
Theorem C123_outcome : forall (L : Type) limit (kinds : nat -> kind L) none ops p lists leaf v t rs,
  kinds p = Checked lists leaf -> spells (l_heap (fst (l_run limit kinds none ops))) v t rs -> depth t <= limit ->
  snd (l_run limit kinds none (ops ++ [OSet p v])) = snd (l_run limit kinds none ops) ++ [match conv lists leaf t with Ok _ => RDone | Err e => RErr e end].
Proof. exact C123_outcome_lemma. Qed.
Print Assumptions C123_outcome.
(** one that does not return normally changes no property, and nothing reads otherwise than before; *)
Theorem C123_refused : forall (L : Type) limit (kinds : nat -> kind L) none ops p v, let st := fst (l_run limit kinds none ops) in let st' := fst (l_run limit kinds none (ops ++ [OSet p v])) in
  snd (l_run limit kinds none (ops ++ [OSet p v])) <> snd (l_run limit kinds none ops) ++ [RDone] ->
  (forall q, l_slot st' q = l_slot st q) /\ (forall w t rs, spells (l_heap st) w t rs -> spells (l_heap st') w t rs).
Proof. intros L limit kinds none ops p v. exact (@C123_refused_lemma L limit kinds none ops p v). Qed.
Print Assumptions C123_refused.
(** and a list that contains itself is never stored. *)
Theorem C123_endless : forall (L : Type) limit (kinds : nat -> kind L) none ops p lists leaf v,
  kinds p = Checked lists leaf -> (forall t rs, ~ spells (l_heap (fst (l_run limit kinds none ops))) v t rs) ->
  snd (l_run limit kinds none (ops ++ [OSet p v])) <> snd (l_run limit kinds none ops) ++ [RDone].
Proof. exact C123_endless_lemma. Qed.
Print Assumptions C123_endless.
(** After any history: reading gives the very list the property holds, so a change of it shows in every later reading, and nothing checks it. *)
Theorem C123_shares : forall (L : Type) limit (kinds : nat -> kind L) none ops p r vs, let st := fst (l_run limit kinds none ops) in
  l_slot st p = Ref r -> Forall (exists_in (l_heap st)) vs ->
  snd (l_run limit kinds none (ops ++ [OGet p; OChange r vs; OGet p; OItems r])) = snd (l_run limit kinds none ops) ++ [RVal (Ref r); RDone; RVal (Ref r); RItems vs].
Proof. intros L limit kinds none ops p r vs. exact (@C123_shares_lemma L limit kinds none ops p r vs). Qed.
Print Assumptions C123_shares.
(** [@context] holds the very list the caller assigned. *)
Theorem C123_raw : forall (L : Type) limit (kinds : nat -> kind L) none ops p v, kinds p = Raw -> exists_in (l_heap (fst (l_run limit kinds none ops))) v ->
  snd (l_run limit kinds none (ops ++ [OSet p v; OGet p])) = snd (l_run limit kinds none ops) ++ [RDone; RVal v].
Proof. exact C123_raw_lemma. Qed.
Print Assumptions C123_raw.

(** ** Examples: property 0 and 1 accept even numbers, None is 0, property 2 is @context *)
Definition even_leaf (n : nat) : res nat := if Nat.even n then Ok n else Err ValueError.
Definition la_kinds (p : nat) : kind nat := match p with 2 => Raw | _ => Checked true even_leaf end.
Notation la_run := (l_run 50 la_kinds 0).
(* a nested list with a shared part is assigned to property 0, the caller changes its lists; what property 0 holds is assigned to property 1, then property 0 is assigned something refused *)
Definition la_ops : list (lop nat) :=
  [OMake [Leaf 2]; OMake [Ref 0; Leaf 4; Ref 0]; OSet 0 (Ref 1); OChange 0 [Leaf 3]; OGet 0; OSet 1 (Ref 4); OSet 0 (Ref 1); OGet 1].
Example C123_case_results : snd (la_run la_ops) = [RVal (Ref 0); RVal (Ref 1); RDone; RDone; RVal (Ref 4); RDone; RErr ValueError; RVal (Ref 7)].
Proof. reflexivity. Qed.
Lemma la_spells : forall p, p = 0 \/ p = 1 -> exists rs, spells (l_heap (fst (la_run la_ops))) (l_slot (fst (la_run la_ops)) p) (TList [TList [TLeaf 2]; TLeaf 4; TList [TLeaf 2]]) rs /\ rs = match p with 0 => [4; 2; 3] | _ => [7; 5; 6] end.
Proof.
  intros p [-> | ->]; (eexists; split; [repeat econstructor|reflexivity]).
Qed.
Example C123_case_respectful : respectful 50 la_kinds 0 la_ops.
Proof.
  intros pre r vs post E (p & t & rs & K & S & I).
  assert (P : pre = firstn 3 la_ops /\ r = 0).
  { unfold la_ops in E. do 3 (destruct pre as [|? pre]; [discriminate E|]; injection E as <- E). destruct pre as [|? pre]; [injection E as <- _ _; auto|]. injection E as <- E.
    do 4 (destruct pre as [|? pre]; [discriminate E|]; injection E as <- E). destruct pre; discriminate E. }
  destruct P as [-> ->]. clear E. destruct p as [|p].
  - assert (S' : exists rs, spells (l_heap (fst (la_run (firstn 3 la_ops)))) (Ref 4) (TList [TList [TLeaf 2]; TLeaf 4; TList [TLeaf 2]]) rs /\ rs = [4; 2; 3]) by (eexists; split; [repeat econstructor|reflexivity]).
    destruct S' as (rs' & S' & ->).
    destruct (proj1 (spells_fun _) _ _ _ S' t rs S) as [_ ->]. cbn in I. repeat (destruct I as [I|I]; [discriminate I|]). exact I.
  - change (l_slot (fst (la_run (firstn 3 la_ops))) (Datatypes.S p)) with (@Leaf nat 0) in S. inversion S; subst. exact I.
Qed.
(** "A property never holds a value that its check would refuse" is false: one reads the list and changes it. *)
Theorem C123_valid_refuted : exists (limit : nat) (kinds : nat -> kind nat) none ops p leaf t rs, let st := fst (l_run limit kinds none ops) in
  kinds p = Checked true leaf /\ (forall l l', leaf l = Ok l' -> leaf l' = Ok l') /\ leaf none = Ok none /\ spells (l_heap st) (l_slot st p) t rs /\ conv true leaf t = Err ValueError.
Proof.
  exists 50, la_kinds, 0, [OMake [Leaf 2]; OSet 0 (Ref 0); OGet 0; OChange 1 [Leaf 3]], 0, even_leaf, (TList [TLeaf 3]), [1]. cbv zeta.
  split; [reflexivity|]. split; [unfold even_leaf; intros l l'; destruct (Nat.even l) eqn:E; intros [= <-]; now rewrite E|]. split; [reflexivity|].
  split; [|reflexivity]. assert (S : exists rs, spells (l_heap (fst (l_run 50 la_kinds 0 [OMake [Leaf 2]; OSet 0 (Ref 0); OGet 0; OChange 1 [Leaf 3]]))) (Ref 1) (TList [TLeaf 3]) rs /\ rs = [1]) by (eexists; split; [repeat econstructor|reflexivity]). destruct S as (rs & S & ->). exact S.
Qed.
Print Assumptions C123_valid_refuted.
(** a list that contains itself: the caller puts the list into itself *)
Definition cyc_ops : list (lop nat) := [OMake []; OChange 0 [Ref 0]].
Example C123_case_endless : (forall t rs, ~ spells (l_heap (fst (la_run cyc_ops))) (Ref 0) t rs) /\ snd (la_run (cyc_ops ++ [OSet 0 (Ref 0); OGet 0])) = [RVal (Ref 0); RDone; RRecursion; RVal (Leaf 0)].
Proof.
  split; [|vm_compute; reflexivity]. intro t. induction t as [t IH] using (well_founded_induction (Wf_nat.well_founded_ltof _ (@depth nat))). intros rs S.
  inversion S as [|r vs ts rs' E S' E1 E2 E3]; subst. change (nth_error (l_heap (fst (la_run cyc_ops))) 0) with (Some [@Ref nat 0]) in E. injection E as <-.
  inversion S' as [|v t r1 vs ts' r2 A B]; subst. inversion B; subst. apply (IH t) in A; [exact A|]. unfold Wf_nat.ltof. cbn. lia.
Qed.
Example C123_case_shares : l_slot (fst (la_run la_ops)) 0 = Ref 4 /\ Forall (exists_in (l_heap (fst (la_run la_ops)))) [Leaf 7; Ref 0] /\ depth (TList [TList [TLeaf 2]; TLeaf 4; TList [TLeaf 2]]) <= 50.
Proof. split; [reflexivity|]. split; [|cbn; lia]. constructor; [exact I|]. constructor; [cbn; lia|constructor]. Qed.
Example C123_case_raw : snd (la_run [OMake [Leaf 3]; OSet 2 (Ref 0); OChange 0 [Leaf 5]; OGet 2; OItems 0]) = [RVal (Ref 0); RDone; RDone; RVal (Ref 0); RItems [Leaf 5]].
Proof. reflexivity. Qed.
