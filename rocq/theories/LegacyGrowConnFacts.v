(** A CitrineConnection whose container is expanded in between *)
From Verif Require Import Base BaseFacts Value SpecMap RoutingFacts Dict DictFacts Txn TxnFacts Legacy LegacyFacts LegacyConn LegacyConnFacts LegacyGrow LegacyGrowFacts LegacyGrowConn.
Open Scope Z_scope.
Open Scope list_scope.
Set Implicit Arguments.

(** ** Specification: the call of the container that a call of the connection stands for, when there are [n] containers *)
Inductive stands_for (n : Z) : kop -> gop -> Prop :=
| sf_create id v : stands_for n (KCall (LcCreate id v)) (GCall (LWrite id v))
| sf_update id v : stands_for n (KCall (LcUpdate id v)) (GCall (LWrite id v))
| sf_delete id : stands_for n (KCall (LcDelete id)) (GCall (LDelete id))
| sf_read id : stands_for n (KCall (LcRead id)) (GCall (LRead id))
| sf_item id : stands_for n (KCall (LcItem (XStr id))) (GCall (LRead id))
| sf_expand num : stands_for n (KExpand num) (GExpand (n + num)).
Inductive all_stand_for : Z -> list kop -> list gop -> Prop :=
| asf_nil n : all_stand_for n [] []
| asf_cons n o g os gs : stands_for n o g -> all_stand_for (match g with GExpand m => Z.max n m | GCall _ => n end) os gs -> all_stand_for n (o :: os) (g :: gs).
(** the same answer *)
Inductive answers : res lres -> res lout -> Prop :=
| an_none : answers (Ok (LRVal VNone)) (Ok LNone)
| an_val v : answers (Ok (LRVal v)) (Ok (LVal v))
| an_err e : answers (Err e) (Err e).

(** ** Proof *)
Lemma root_eta (r : lroot) d : r_container r = Some d -> r = mkRoot (Some d) (r_meta r).
Proof. destruct r as [c m]. cbn. now intros ->. Qed.
Lemma k_step_spec b o g c d : (forall n, b n = None) -> quiet c -> r_container (n_saved c) = Some d -> stands_for (containers_size d) o g ->
  let (c1, r) := k_step b o c in quiet c1 /\ r_container (n_saved c1) = Some (fst (g_step g d)) /\ answers r (snd (g_step g d)).
Proof.
  intros B (Q1 & Q2 & Q3) D S.
  assert (MUT : forall (f : dbc -> dbc * res unit) cmd, lis_read cmd = false -> (forall r, lsem cmd r = lchange f r) -> (forall e, snd (f d) = Err e -> fst (f d) = d) ->
    let (c1, r) := lexec Explicit b cmd c in quiet c1 /\ r_container (n_saved c1) = Some (fst (f d)) /\ answers r (rbind (snd (f d)) (fun _ => Ok LNone))).
  { intros f cmd R SE FE. unfold lexec. rewrite R. unfold autocommitted. rewrite Q2. unfold perform. cbn [is_read legacy_calls sem]. rewrite R. cbn [tm_enter tm_abort set_auto n_failed n_work]. rewrite SE. unfold lchange. rewrite D.
    destruct (f d) as [d1 [u|e]] eqn:F; cbn [rbind snd fst] in *; unfold tm_exit.
    - unfold tm_commit. cbn [n_failed put n_calls]. rewrite B. cbn. split; [now repeat split|]. split; [reflexivity|constructor].
    - cbn. split; [now repeat split|]. split; [rewrite D; now rewrite (FE e eq_refl)|constructor]. }
  assert (RD : forall id, lexec Explicit b (LcRead id) c = (c, rbind (dbc_read id d) (fun v => Ok (LRVal v))) /\ lexec Explicit b (LcItem (XStr id)) c = (c, rbind (dbc_read id d) (fun v => Ok (LRVal v)))).
  { intros id. unfold lexec, perform. cbn. rewrite Q1. unfold lread, lcontainer. rewrite D. cbn [rbind]. destruct c; cbn in *; auto. }
  destruct S as [id v|id v|id|id|id|num]; cbn [k_step].
  - specialize (MUT (dbc_write id v) (LcCreate id v) eq_refl (fun r => eq_refl)). cbn [g_step l_step]. assert (E : forall e, snd (dbc_write id v d) = Err e -> fst (dbc_write id v d) = d) by (unfold dbc_write; destruct (locate id d); cbn; congruence).
    specialize (MUT E). destruct (lexec Explicit b (LcCreate id v) c) as [c1 r]. destruct (dbc_write id v d) as [d1 x]. exact MUT.
  - specialize (MUT (dbc_write id v) (LcUpdate id v) eq_refl (fun r => eq_refl)). cbn [g_step l_step]. assert (E : forall e, snd (dbc_write id v d) = Err e -> fst (dbc_write id v d) = d) by (unfold dbc_write; destruct (locate id d); cbn; congruence).
    specialize (MUT E). destruct (lexec Explicit b (LcUpdate id v) c) as [c1 r]. destruct (dbc_write id v d) as [d1 x]. exact MUT.
  - specialize (MUT (dbc_delete id) (LcDelete id) eq_refl (fun r => eq_refl)). cbn [g_step l_step]. assert (E : forall e, snd (dbc_delete id d) = Err e -> fst (dbc_delete id d) = d) by (unfold dbc_delete; destruct (locate id d) as [i|]; [destruct (d_get id (at_ i d))|]; cbn; congruence).
    specialize (MUT E). destruct (lexec Explicit b (LcDelete id) c) as [c1 r]. destruct (dbc_delete id d) as [d1 x]. exact MUT.
  - destruct (RD id) as [-> _]. cbn [g_step l_step fst snd]. split; [now repeat split|]. split; [exact D|]. destruct (dbc_read id d); constructor.
  - destruct (RD id) as [_ ->]. cbn [g_step l_step fst snd]. split; [now repeat split|]. split; [exact D|]. destruct (dbc_read id d); constructor.
  - unfold in_block. cbn [tm_enter tm_abort set_auto n_work]. unfold expand_root. rewrite D. cbn [g_step]. assert (E : forall e, snd (expand_size (containers_size d + num) d) = Err e -> fst (expand_size (containers_size d + num) d) = d) by (unfold expand_size; destruct (_ <=? _); cbn; congruence).
    destruct (expand_size (containers_size d + num) d) as [d1 [u|e]] eqn:F; cbn [rbind snd fst] in *; unfold tm_exit.
    + unfold tm_commit. cbn [n_failed put n_calls]. cbn. rewrite B. cbn. split; [now repeat split|]. split; [reflexivity|constructor].
    + cbn. split; [now repeat split|]. split; [rewrite D; now rewrite (E e eq_refl)|constructor].
Qed.
Lemma k_run_spec b os : (forall n, b n = None) -> forall gs c d, quiet c -> r_container (n_saved c) = Some d -> sane d -> all_stand_for (containers_size d) os gs ->
  let (c1, rs) := k_run b os c in quiet c1 /\ r_container (n_saved c1) = Some (fst (g_run gs d)) /\ Forall2 answers rs (snd (g_run gs d)).
Proof.
  intros B. induction os as [|o os IH]; intros gs c d Q D W A; inversion A as [|n o' g os' gs' S A']; subst; cbn [k_run g_run]; [split; [exact Q|split; [exact D|constructor]]|].
  pose proof (@k_step_spec b o g c d B Q D S) as K. destruct (k_step b o c) as [c1 r]. destruct K as (Q1 & D1 & R1). destruct (g_step_sane g W) as [W1 E1]. destruct (g_step g d) as [d1 x]. cbn [fst snd] in *.
  assert (X : containers_size d1 = match g with GExpand m => Z.max (containers_size d) m | GCall _ => containers_size d end). { rewrite E1. destruct g as [l|m]; cbn [count]; [reflexivity|]. destruct (Z.ltb_spec (containers_size d) m); lia. }
  rewrite <- X in A'. specialize (IH gs' c1 d1 Q1 D1 W1 A'). destruct (k_run b os c1) as [c2 rs]. destruct (g_run gs' d1) as [d2 xs]. cbn [fst snd] in *. destruct IH as (Q2 & D2 & R2). split; [exact Q2|]. split; [exact D2|]. now constructor.
Qed.
