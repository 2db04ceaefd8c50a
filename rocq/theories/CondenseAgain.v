(** Condensing a container again *)
From Verif Require Import Base BaseFacts Value BTree Collection SpecMap Group RoutingFacts GroupFacts GroupNewFacts Container ContainerFacts CondenseFacts ResizeFacts ContainerThms.
Open Scope Z_scope.
Open Scope list_scope.
Set Implicit Arguments.

(** ** condensing again *)
Lemma relaxed_set_prim g k : relaxed (k_prim k) -> relaxed g -> relaxed (k_prim (set_grp (k_primary k) g k)).
Proof.
  intros R G. unfold k_prim. change (k_primary (set_grp (k_primary k) g k)) with (k_primary k). destruct (lt_dec (k_primary k) (length (k_heap k))) as [L|L].
  - now rewrite grp_set_same.
  - unfold grp. rewrite nth_overflow; [constructor|]. rewrite heap_set_grp. lia.
Qed.
Lemma relaxed_move i key k : relaxed (k_prim k) -> relaxed (k_prim (fst (move false i key k))) /\ k_primary (fst (move false i key k)) = k_primary k.
Proof.
  intros R. unfold move. destruct (g_get key VNone (grp k i)) as [v|e]; [|auto]. pose proof (@relaxed_insert (k_prim k) key v R) as RI. destruct (g_insert key v (k_prim k)) as [g [z|e]]; cbn [fst] in *; split; try reflexivity; now apply relaxed_set_prim.
Qed.
Lemma relaxed_condense k : relaxed (k_prim k) -> relaxed (k_prim (fst (condense false k))).
Proof.
  intros R. assert (K : forall i keys k, relaxed (k_prim k) -> relaxed (k_prim (fst (move_keys false i keys k)))).
  { intros i keys. induction keys as [|key keys IH]; intros k1 R1; cbn [move_keys]; [exact R1|]. pose proof (proj1 (@relaxed_move i key k1 R1)) as M. destruct (move false i key k1) as [k2 [u|e]]; cbn [fst] in *; auto. }
  assert (G : forall src k, relaxed (k_prim k) -> relaxed (k_prim (fst (move_groups false src k)))).
  { intros src. induction src as [|i src IH]; intros k1 R1; cbn [move_groups]; [exact R1|]. pose proof (@K i (g_keys (grp k1 i)) k1 R1) as M. destruct (move_keys false i (g_keys (grp k1 i)) k1) as [k2 [u|e]]; cbn [fst] in *; auto. }
  unfold condense. specialize (G (tl (k_groups k)) k R). destruct (move_groups false (tl (k_groups k)) k) as [k1 [u|e]]; cbn [fst] in *; exact G.
Qed.
Lemma reachable_condense t k : k_reachable k -> k_reachable (fst (condense t k)).
Proof.
  intros (k0 & ops & S & F & ->). exists k0, (ops ++ [KCondense t]). split; [exact S|]. split; [apply Forall_app; split; [exact F|constructor; [exact I|constructor]]|]. unfold k_run. rewrite fold_left_app. reflexivity.
Qed.
Lemma condense_single t k : k_groups k = [k_primary k] -> condense t k = (k, Ok []).
Proof. intros E. unfold condense. rewrite E. cbn [tl move_groups]. destruct t; [|reflexivity]. rewrite E. unfold with_groups. rewrite <- E. now destruct k. Qed.
Lemma condense_twice k : k_reachable k -> relaxed (k_prim k) -> let k1 := fst (condense false k) in let k2 := fst (condense false k1) in
  snd (condense false k1) = Ok [] /\ k_groups k2 = k_groups k1 /\ k_primary k2 = k_primary k1 /\ forall j id, g_abs (grp k2 j) id = g_abs (grp k1 j) id.
Proof.
  intros R X k1 k2. destruct (C29_lemma R X) as (k' & E & G & P & A & B & H & _). assert (E1 : k1 = k') by (unfold k1; now rewrite E).
  pose proof (reachable_condense false R) as R1. fold k1 in R1. pose proof (@relaxed_condense k X) as X1. fold k1 in X1.
  destruct (C29_lemma R1 X1) as (k'' & E' & G' & P' & A' & B' & H' & _). assert (E2 : k2 = k'') by (unfold k2; now rewrite E'). rewrite E2. split; [now rewrite E'|]. split; [exact G'|]. split; [exact P'|].
  intros j id. destruct (Nat.eq_dec j (k_primary k1)) as [-> |N]; [|now rewrite B']. unfold k_prim in A', A. rewrite P' in A'. rewrite A'. rewrite E1, H. rewrite E1 in *. now rewrite A.
Qed.
