(** Sessions that use the container directly refine a map with a capacity *)
From Verif Require Import Base BaseFacts Value BTree Collection SpecMap Group RoutingFacts GroupFacts GroupCapFacts GroupNewFacts StorageThms
  Container ContainerFacts CondenseFacts ResizeFacts ContainerThms LimitsFacts Txn TxnFacts Connection ConnectionFacts ConnHistory Db DbFacts GroupRead GroupReadFacts Session SessionFacts DirectUse.
Open Scope Z_scope.
Open Scope list_scope.
Set Implicit Arguments.

(** ** Specification *)
(** what the program works on (a map and the capacity), what is committed, whether autocommit is on, whether the transaction failed, how many commits were asked for *)
Record mstate := mkM { m_n : nat; m_work : amap; m_wcap : Z; m_saved : amap; m_scap : Z; m_auto : bool; m_failed : bool }.
(** the capacity of a new container made with these arguments *)
Definition provides (cap mcs z : Z) : Prop := exists u0 strict k, container_new u0 cap mcs strict = Ok k /\ k_capacity k = z.
Inductive xstep (b : nat -> option exn) : mstate -> xop -> list xout -> mstate -> Prop :=
(* the operations of C126's specification; the capacity goes with the map *)
| xs_read n w wc s sc a f c w' r : conn_is_read c = true -> map_call w c w' r -> xstep b (mkM n w wc s sc a f) (XHop (HCall c)) [XSaw (SCall r)] (mkM n w' wc s sc a f)
| xs_refused n w wc s sc f c s' e : conn_is_read c = false -> map_call s c s' (Err e) -> xstep b (mkM n w wc s sc true f) (XHop (HCall c)) [XSaw (SCall (Err e))] (mkM n s sc s sc true false)
| xs_commit n w wc s sc f c s' r : conn_is_read c = false -> map_call s c s' (Ok r) -> b n = None -> xstep b (mkM n w wc s sc true f) (XHop (HCall c)) [XSaw (SCall (Ok r))] (mkM (Datatypes.S n) s' sc s' sc true false)
| xs_commit_fails n w wc s sc f c s' r e : conn_is_read c = false -> map_call s c s' (Ok r) -> b n = Some e -> xstep b (mkM n w wc s sc true f) (XHop (HCall c)) [XSaw (SCall (Err e))] (mkM (Datatypes.S n) s sc s sc false true)
| xs_pending n w wc s sc c w' r : conn_is_read c = false -> map_call w c w' r -> xstep b (mkM n w wc s sc false false) (XHop (HCall c)) [XSaw (SCall r)] (mkM n w' wc s sc false false)
| xs_in_failed n w wc s sc c : conn_is_read c = false -> xstep b (mkM n w wc s sc false true) (XHop (HCall c)) [XSaw (SCall (Err TransactionFailedError))] (mkM n w wc s sc false true)
| xs_auto n w wc s sc a a' f : xstep b (mkM n w wc s sc a f) (XHop (HAuto a')) [] (mkM n w wc s sc a' f)
| xs_reopen n w wc s sc a f flag : xstep b (mkM n w wc s sc a f) (XHop (HReopen flag)) [] (mkM n s sc s sc true false)
| xs_enter n w wc s sc a f : xstep b (mkM n w wc s sc a f) (XHop HEnter) [] (mkM n s sc s sc false false)
| xs_abort n w wc s sc a f : xstep b (mkM n w wc s sc a f) (XHop (HExit true)) [XSaw (SExit (Err (UserError 0)))] (mkM n s sc s sc true false)
| xs_leave n w wc s sc a : b n = None -> xstep b (mkM n w wc s sc a false) (XHop (HExit false)) [XSaw (SExit (Ok tt))] (mkM (Datatypes.S n) w wc w wc true false)
| xs_leave_fails n w wc s sc a e : b n = Some e -> xstep b (mkM n w wc s sc a false) (XHop (HExit false)) [XSaw (SExit (Err e))] (mkM (Datatypes.S n) s sc s sc true true)
| xs_leave_failed n w wc s sc a : xstep b (mkM n w wc s sc a true) (XHop (HExit false)) [XSaw (SExit (Err TransactionFailedError))] (mkM n w wc s sc true true)
(* direct operations: on what the program works on, whether or not autocommit is on; nothing is committed *)
| xs_new n w wc s sc a id v w' : w id = None -> bound w id v w' -> xstep b (mkM n w wc s sc a false) (XWrite id v) [XDid (Ok (RVal (VInt 1)))] (mkM n w' wc s sc a false)
| xs_replace n w wc s sc a id v x w' : w id = Some x -> bound w id v w' -> xstep b (mkM n w wc s sc a false) (XWrite id v) [XDid (Ok (RVal VNone))] (mkM n w' wc s sc a false)
| xs_delete n w wc s sc a id x w' : w id = Some x -> removed w id w' -> xstep b (mkM n w wc s sc a false) (XDelete id) [XDid (Ok (RTuple [x]))] (mkM n w' wc s sc a false)
| xs_nothing n w wc s sc a id w' : w id = None -> same w w' -> xstep b (mkM n w wc s sc a false) (XDelete id) [XDid (Ok (RTuple []))] (mkM n w' wc s sc a false)
| xs_resize n w wc s sc a u0 cap mcs z w' : provides cap mcs z -> same w w' -> xstep b (mkM n w wc s sc a false) (XResize u0 cap mcs) [XRemoved (Ok 1%nat)] (mkM n w' z s sc a false)
| xs_condense n w wc s sc a w' : same w w' -> xstep b (mkM n w wc s sc a false) XCondense [XRemoved (Ok 0%nat)] (mkM n w' wc s sc a false)
| xs_write_failed n w wc s sc a id v : xstep b (mkM n w wc s sc a true) (XWrite id v) [XDid (Err TransactionFailedError)] (mkM n w wc s sc a true)
| xs_delete_failed n w wc s sc a id : xstep b (mkM n w wc s sc a true) (XDelete id) [XDid (Err TransactionFailedError)] (mkM n w wc s sc a true)
| xs_resize_failed n w wc s sc a u0 cap mcs : xstep b (mkM n w wc s sc a true) (XResize u0 cap mcs) [XRemoved (Err TransactionFailedError)] (mkM n w wc s sc a true)
| xs_condense_failed n w wc s sc a : xstep b (mkM n w wc s sc a true) XCondense [XRemoved (Err TransactionFailedError)] (mkM n w wc s sc a true)
| xs_capacity n w wc s sc a f : xstep b (mkM n w wc s sc a f) XCapacity [XCap wc] (mkM n w wc s sc a f).
Inductive xsession (b : nat -> option exn) : mstate -> list xop -> list xout -> mstate -> Prop :=
| xe_end m : xsession b m [] [] m
| xe_step m1 o os1 m2 ops os2 m3 : xstep b m1 o os1 m2 -> xsession b m2 ops os2 m3 -> xsession b m1 (o :: ops) (os1 ++ os2) m3.
Definition good_xop (o : xop) : Prop :=
  match o with XHop h => good_hop h | XWrite id v => encodable id /\ truthy v = true | XDelete id => encodable id | XResize _ cap mcs => sizable cap mcs | _ => True end.

(** ** Proofs *)
Lemma same_capacity k k' : same_limits k k' -> k_capacity k' = k_capacity k.
Proof. intros (_ & P & L). unfold k_capacity, g_max, k_prim. rewrite <- !nth_lims, L, P. reflexivity. Qed.
Lemma sem_capacity cmd k : k_capacity (fst (conn_sem cmd k)) = k_capacity k.
Proof.
  destruct cmd as [id v|id v|id|id d|i]; try reflexivity; cbn [conn_sem].
  - unfold do_create. destruct (k_has id k) as [n|e]; [|reflexivity]. destruct (n =? 0); [|reflexivity]. pose proof (write_limits id v k) as W. destruct (k_write id v k) as [k1 [[z|]|e]]; now apply same_capacity.
  - unfold do_update. destruct (k_read id VNone k) as [p|e]; [|reflexivity]. pose proof (write_limits id v k) as W. destruct (k_write id v k) as [k1 [z|e]]; now apply same_capacity.
  - unfold do_delete, k_delete. pose proof (delete_limits id (k_groups k) k) as W. destruct (delete_from id (k_groups k) k) as [k1 [l|e]]; now apply same_capacity.
Qed.
Lemma raw_write_spec id v k : one_group k -> encodable id -> truthy v = true ->
  exists k', raw_write id v k = (k', Ok (RVal (match held k id with Some _ => VNone | None => VInt 1 end))) /\ one_group k' /\ bound (held k) id v (held k') /\ k_capacity k' = k_capacity k.
Proof.
  intros G E T. destruct (@one_write id v k G E T) as (r & W & G' & B). pose proof (same_capacity (write_limits id v k)) as C. unfold raw_write.
  destruct (k_write id v k) as [k1 x] eqn:W0. cbn [fst snd] in *. subst x. exists k1.
  assert (r = match held k id with Some _ => None | None => Some 1 end) as ->; [|split; [destruct (held k id); reflexivity|auto]].
  pose proof (proj1 G) as O. destruct (k_write_spec id v O) as (p' & WR & _). rewrite W0 in WR. cbn [snd] in WR.
  assert (HP : held k id = g_abs (k_prim k) id) by (eapply prim_single; [apply G|reflexivity]). rewrite HP. inversion WR as [p0 N _ _|x p0 N _ _ _| |]; subst; now rewrite N.
Qed.
Lemma delete_spec id k : one_group k -> encodable id -> exists k' r, do_delete id k = (k', r) /\ one_group k' /\ k_capacity k' = k_capacity k /\
  ((exists x, held k id = Some x /\ r = Ok (RTuple [x]) /\ removed (held k) id (held k')) \/ (held k id = None /\ r = Ok (RTuple []) /\ k' = k)).
Proof.
  intros G E. destruct (@one_delete id k G E) as (k' & l & D & G' & C). pose proof (sem_capacity (CDelete id) k) as Q. cbn [conn_sem] in Q. unfold do_delete in *. rewrite D in *. cbn [fst] in Q.
  exists k', (Ok (RTuple l)). split; [reflexivity|]. split; [exact G'|]. split; [exact Q|]. destruct C as [(x & H1 & -> & H2)|(H1 & -> & ->)]; [left; now exists x|right; auto].
Qed.
Lemma new_max u0 cap mcs strict g n m : sized_group u0 cap mcs strict = Ok g -> even_group g n m -> exists k, container_new u0 cap mcs strict = Ok k /\ map c_max (k_prim k) = map c_max g.
Proof.
  intros E EV. unfold container_new. rewrite E. unfold container_init. simpl existsb. cbv iota.
  assert (O : k_ok (mkK [g] [0%nat] 0)).
  { split; [constructor; [intros []|constructor]|]. split; [simpl; auto|]. intros i [<-|[]]. split; [simpl; lia|]. apply (even_group_good EV). }
  destruct (proj1 (k_set_strict_spec (VBool strict) O) strict eq_refl) as (R & _ & _ & _ & _ & _ & S2 & _).
  destruct (k_set_strict (VBool strict) (mkK [g] [0%nat] 0)) as [k r]. simpl fst in *. simpl snd in *. subst r. exists k. split; [reflexivity|exact S2].
Qed.
Lemma resize_one u0 cap mcs k : one_group k -> sizable cap mcs -> exists k' i, resize u0 cap mcs false true k = (k', Ok [i]) /\ one_group k' /\ same (held k) (held k') /\ provides cap mcs (k_capacity k').
Proof.
  intros (O & EG & RX & T) SZ. destruct (resize_spec u0 false true O SZ) as (k' & n & m & EQ & O' & PF' & G & NP & MX & Hn & Hm & RX' & CP & CC & HE & _). exists k', (k_primary k).
  rewrite EQ. cbn [resized_removed]. rewrite EG. split; [reflexivity|]. split; [|split].
  - split; [exact O'|]. split; [rewrite G, EG; reflexivity|]. split; [exact RX'|]. intros id v H. rewrite HE in H. eauto.
  - intros id. apply HE.
  - destruct (sized_group_spec u0 (k_strict k) SZ) as (g & n1 & m1 & Eg & EV & _). destruct (@resize_limits u0 cap mcs false true k g Eg) as [L P]. rewrite EQ in L, P. cbn [fst] in L, P.
    destruct (@new_max u0 cap mcs (k_strict k) g n1 m1 Eg EV) as (k1 & E1 & M1).
    exists u0, (k_strict k), k1. split; [exact E1|]. unfold k_capacity, g_max. f_equal. rewrite M1. unfold k_prim. rewrite <- (nth_lims k'), L, P. unfold lims. rewrite app_nth2; rewrite map_length; [|unfold ge; apply Nat.le_refl]. rewrite Nat.sub_diag. reflexivity.
Qed.
Lemma condense_one k : one_group k -> exists k', condense true k = (k', Ok []) /\ one_group k' /\ held k' = held k /\ k_capacity k' = k_capacity k.
Proof.
  intros G. pose proof G as (O & EG & RX & T). unfold condense. rewrite EG. cbn [tl move_groups]. rewrite EG. exists k. split; [|auto]. f_equal. unfold with_groups. destruct k; cbn in *. now rewrite EG.
Qed.

(** the state of the specification that a connection is in *)
Definition state_of (c : conn container) : mstate := mkM (n_calls c) (held (n_work c)) (k_capacity (n_work c)) (held (n_saved c)) (k_capacity (n_saved c)) (n_auto c) (n_failed c).
Definition sound_conn (c : conn container) : Prop := one_group (n_work c) /\ one_group (n_saved c) /\ (n_failed c = true -> n_work c = n_saved c).
Theorem x_step_spec b o c c' os : sound_conn c -> good_xop o -> x_step b o c = (c', os) -> xstep b (state_of c) o os (state_of c') /\ sound_conn c'.
Proof.
  intros (GW & GS & NF) GO E. destruct o as [h|id v|id|u0 cap mcs| |]; cbn [x_step] in E.
  - destruct h as [cmd|a|f| |[|]]; cbn [s_hop] in E.
    + simpl in GO. destruct (conn_is_read cmd) eqn:D.
      * assert (X : exec conn_calls b cmd c = (c, snd (conn_sem cmd (n_work c)))) by (unfold exec, perform; simpl; now rewrite D). rewrite X in E. injection E as <- <-. split; [|now split].
        destruct (@call_step cmd _ GW GO) as [MC _]. assert (KE : fst (conn_sem cmd (n_work c)) = n_work c) by (destruct cmd; try discriminate; reflexivity). rewrite KE in MC. now apply xs_read.
      * destruct (n_auto c) eqn:A.
        -- destruct (@call_step cmd _ GS GO) as [MC G']. assert (Y := fun e => @mutator_error cmd (n_saved c) e GS GO D). pose proof (sem_capacity cmd (n_saved c)) as Q.
           unfold exec, autocommitted, perform in E. cbn -[conn_sem] in E. rewrite D, A in E. cbn -[conn_sem] in E. destruct (conn_sem cmd (n_saved c)) as [k1 [r|e]] eqn:SE; cbn [fst snd] in *.
           ++ unfold tm_exit, tm_commit in E. cbn -[conn_sem] in E. destruct (b (n_calls c)) as [e|] eqn:B; cbn -[conn_sem] in E; injection E as <- <-; (split; [|unfold sound_conn; cbn; auto]); unfold state_of; cbn; rewrite A.
              ** eapply xs_commit_fails; eauto.
              ** rewrite Q. eapply xs_commit; eauto.
           ++ specialize (Y e eq_refl). subst k1. unfold tm_exit in E. cbn -[conn_sem] in E. injection E as <- <-. split; [|split; [exact GS|split; [exact GS|discriminate]]]. unfold state_of; cbn; rewrite A. eapply xs_refused; eauto.
        -- destruct (@call_step cmd _ GW GO) as [MC G']. rewrite exec_off in E by auto. unfold perform in E. simpl is_read in E. rewrite D in E. destruct (n_failed c) eqn:Nf.
           ++ injection E as <- <-. split; [|split; [exact GW|split; [exact GS|intros _; apply NF; (reflexivity || assumption)]]]. unfold state_of. rewrite A, Nf. now apply xs_in_failed.
           ++ change (sem conn_calls cmd (n_work c)) with (conn_sem cmd (n_work c)) in E. pose proof (sem_capacity cmd (n_work c)) as Q. destruct (conn_sem cmd (n_work c)) as [k1 r] eqn:SE. cbn [fst snd] in *. injection E as <- <-.
              split; [|split; [exact G'|split; [exact GS|cbn [n_failed put]; congruence]]]. unfold state_of. cbn. rewrite A, Nf, Q. now apply xs_pending.
    + injection E as <- <-. split; [constructor|]. now split.
    + injection E as <- <-. split; [constructor|]. split; [exact GS|]. now split.
    + injection E as <- <-. split; [constructor|]. split; [exact GS|]. now split.
    + unfold conn_exit in E. cbn in E. injection E as <- <-. split; [constructor|]. split; [exact GS|]. now split.
    + unfold conn_exit, tm_exit, tm_commit in E. cbn in E. destruct (n_failed c) eqn:Nf; [|destruct (b (n_calls c)) as [e|] eqn:B]; cbn in E; injection E as <- <-; unfold state_of; cbn; rewrite ?Nf.
      * split; [apply xs_leave_failed|]. split; [exact GW|]. split; [exact GS|]. cbn. auto.
      * split; [now apply xs_leave_fails|]. split; [exact GS|]. now split.
      * split; [now apply xs_leave|]. split; [exact GW|]. now split.
  - destruct GO as [EN TV]. unfold on_container in E. destruct (n_failed c) eqn:Nf; [injection E as <- <-; split; [unfold state_of; rewrite Nf; constructor|split; [exact GW|split; [exact GS|intros _; apply NF; (reflexivity || assumption)]]]|].
    destruct (@raw_write_spec id v _ GW EN TV) as (k' & W & G' & B & Q). rewrite W in E. injection E as <- <-. unfold state_of. cbn. rewrite Nf, Q. split; [|split; [exact G'|split; [exact GS|cbn [n_failed put]; congruence]]].
    destruct (held (n_work c) id) as [x|] eqn:Hx; [eapply xs_replace; eauto|now apply xs_new].
  - cbn in GO. unfold on_container in E. destruct (n_failed c) eqn:Nf; [injection E as <- <-; split; [unfold state_of; rewrite Nf; constructor|split; [exact GW|split; [exact GS|intros _; apply NF; (reflexivity || assumption)]]]|].
    destruct (@delete_spec id _ GW GO) as (k' & r & W & G' & Q & B). rewrite W in E. injection E as <- <-. unfold state_of. cbn. rewrite Nf, Q. split; [|split; [exact G'|split; [exact GS|cbn [n_failed put]; congruence]]].
    destruct B as [(x & Hx & -> & R)|(Hx & -> & ->)]; [eapply xs_delete; eauto|apply xs_nothing; [exact Hx|intros j; reflexivity]].
  - cbn in GO. unfold on_container in E. destruct (n_failed c) eqn:Nf; [injection E as <- <-; split; [unfold state_of; rewrite Nf; constructor|split; [exact GW|split; [exact GS|intros _; apply NF; (reflexivity || assumption)]]]|].
    destruct (@resize_one u0 cap mcs _ GW GO) as (k' & i & W & G' & S & P). rewrite W in E. injection E as <- <-. unfold state_of. cbn. rewrite Nf. split; [|split; [exact G'|split; [exact GS|cbn [n_failed put]; congruence]]]. now apply xs_resize.
  - unfold on_container in E. destruct (n_failed c) eqn:Nf; [injection E as <- <-; split; [unfold state_of; rewrite Nf; constructor|split; [exact GW|split; [exact GS|intros _; apply NF; (reflexivity || assumption)]]]|].
    destruct (@condense_one _ GW) as (k' & W & G' & S & Q). rewrite W in E. injection E as <- <-. unfold state_of. cbn. rewrite Nf, S, Q. split; [|split; [exact G'|split; [exact GS|cbn [n_failed put]; congruence]]]. apply xs_condense. intros j. reflexivity.
  - injection E as <- <-. split; [constructor|]. now split.
Qed.
Theorem x_run_spec b ops : forall c c' os, sound_conn c -> Forall good_xop ops -> x_run b ops c = (c', os) -> xsession b (state_of c) ops os (state_of c').
Proof.
  induction ops as [|o ops IH]; intros c c' os G F E; cbn [x_run] in E; [injection E as <- <-; constructor|]. apply Forall_cons_iff in F. destruct F as [GO F].
  destruct (x_step b o c) as [c1 os1] eqn:E1. destruct (x_run b ops c1) as [c2 os2] eqn:E2. injection E as <- <-. destruct (@x_step_spec b o c c1 os1 G GO E1) as [X G1]. econstructor; [exact X|]. now apply IH.
Qed.
(** whatever was done to the container directly since, an autocommitted call starts from what was committed *)
Lemma forgotten A (fn : container -> container * res A) b cmd c : n_auto c = true -> conn_is_read cmd = false -> exec conn_calls b cmd (fst (on_container fn c)) = exec conn_calls b cmd c.
Proof.
  intros Au D. unfold on_container. destruct (n_failed c) eqn:F; [reflexivity|]. destruct (fn (n_work c)) as [k r]. cbn [fst]. unfold exec, autocommitted. cbn [is_read conn_calls]. rewrite D. cbn. now rewrite Au.
Qed.
(** ** the specification is deterministic *)
Lemma provides_fun cap mcs : sizable cap mcs -> exists z, cap <= z /\ forall z', provides cap mcs z' <-> z' = z.
Proof.
  intros (Hc & Hm & Hb). destruct (C01_lemma Hc Hm Hb) as (n & E & H1 & H2 & _).
  set (m := if n * cap <? mcs then n * cap else mcs). assert (0 < m /\ cap <= n * m) as [Pm Cm].
  { unfold m. destruct (n * cap <? mcs) eqn:L; [apply Z.ltb_lt in L|apply Z.ltb_ge in L]; split; nia. }
  assert (X : forall u0 strict, exists k, container_new u0 cap mcs strict = Ok k /\ k_capacity k = n * m).
  { intros u0 strict. destruct (@group_new_plain u0 n m strict) as (g & EG & P); [lia|lia|]. assert (EV : even_group g n m) by (split; auto; lia).
    destruct (@new_max u0 cap mcs strict g n m) as (k & E1 & E2); [unfold sized_group; rewrite E; fold m; rewrite EG; reflexivity|exact EV|]. exists k. split; [exact E1|]. unfold k_capacity, g_max. rewrite E2. apply (even_group_max EV). }
  exists (n * m). split; [exact Cm|]. intros z'. split.
  - intros (u0 & s & k & E1 & <-). destruct (X u0 s) as (k' & E2 & Q). congruence.
  - intros ->. destruct (X 0%N false) as (k & E1 & Q). now exists 0%N, false, k.
Qed.
Definition msame (m1 m2 : mstate) : Prop :=
  m_n m1 = m_n m2 /\ same (m_work m1) (m_work m2) /\ m_wcap m1 = m_wcap m2 /\ same (m_saved m1) (m_saved m2) /\ m_scap m1 = m_scap m2 /\ m_auto m1 = m_auto m2 /\ m_failed m1 = m_failed m2.
Lemma provides_unique cap mcs z1 z2 : sizable cap mcs -> provides cap mcs z1 -> provides cap mcs z2 -> z1 = z2.
Proof. intros SZ X Y. destruct (provides_fun SZ) as (z & _ & ZZ). transitivity z; [apply ZZ; exact X|symmetry; apply ZZ; exact Y]. Qed.
Lemma bound_det m m' id v a1 a2 : same m m' -> bound m id v a1 -> bound m' id v a2 -> same a1 a2.
Proof. intros S [A1 A2] [B1 B2] j. destruct (str_dec j id) as [->|N]; [congruence|]. rewrite A2, B2, S; auto. Qed.
Lemma removed_det m m' id a1 a2 : same m m' -> removed m id a1 -> removed m' id a2 -> same a1 a2.
Proof. intros S [A1 A2] [B1 B2] j. destruct (str_dec j id) as [->|N]; [congruence|]. rewrite A2, B2, S; auto. Qed.
Lemma same_det m m' a1 a2 : same m m' -> same m a1 -> same m' a2 -> same a1 a2.
Proof. intros S A B j. specialize (A j); specialize (B j); specialize (S j); congruence. Qed.
Lemma xstep_det b m1 o os1 m1' : xstep b m1 o os1 m1' -> forall m2 os2 m2', good_xop o -> msame m1 m2 -> xstep b m2 o os2 m2' -> os1 = os2 /\ msame m1' m2'.
Proof.
  intros H [n' w' wc' s' sc' a' f'] os2 m2' GO (M1 & M2 & M3 & M4 & M5 & M6 & M7) H2. destruct H; cbn in M1, M2, M3, M4, M5, M6, M7; subst; inversion H2; subst; try discriminate;
    try match goal with X : conn_is_read ?c = true, Y : conn_is_read ?c = false |- _ => rewrite X in Y; discriminate Y end;
    try match goal with
        | X : map_call ?m1 ?c ?m1' ?r1, Y : map_call ?m2 ?c ?m2' ?r2, Z : same ?m1 ?m2 |- _ => destruct (map_call_det X Z Y) as [E1 E2]; try discriminate E1; try injection E1 as E1
        end; subst;
    try match goal with
        | X : b ?n = Some _, Y : b ?n = Some _ |- _ => rewrite X in Y; injection Y as Y; subst
        | X : b ?n = Some _, Y : b ?n = None |- _ => rewrite X in Y; discriminate Y
        | X : b ?n = None, Y : b ?n = Some _ |- _ => rewrite X in Y; discriminate Y
        end;
    try match goal with S : same ?w ?w', X : ?w ?id = _, Y : ?w' ?id = _ |- _ => rewrite (S id), X in Y; try discriminate Y; try injection Y as Y; subst end;
    try match goal with X : provides ?c ?m ?z1, Y : provides ?c ?m ?z2 |- _ => pose proof (provides_unique GO X Y); subst end;
    (split; [reflexivity|]); unfold msame; cbn [m_n m_work m_wcap m_saved m_scap m_auto m_failed]; repeat (split; [first [reflexivity|assumption|eapply bound_det; [exact M2|eassumption|eassumption]|eapply removed_det; [exact M2|eassumption|eassumption]|eapply same_det; [exact M2|eassumption|eassumption]]|]);
    reflexivity.
Qed.
Theorem xsession_det b m1 ops os1 m1' : xsession b m1 ops os1 m1' -> forall m2 os2 m2', Forall good_xop ops -> msame m1 m2 -> xsession b m2 ops os2 m2' -> os1 = os2 /\ msame m1' m2'.
Proof.
  induction 1 as [|m1 o os1 m1' ops os1' m1'' S _ IH]; intros m2 os2 m2' F M H2; inversion H2 as [|? ? o1 m3 ? o2 ? S2 R2]; subst; [auto|]. apply Forall_cons_iff in F. destruct F as [GO F].
  destruct (xstep_det S GO M S2) as [-> M']. destruct (IH _ _ _ F M' R2) as [-> M'']. auto.
Qed.
Lemma bound_ext m m2 id v m' : same m m2 -> bound m id v m' -> bound m2 id v m'.
Proof. intros S [B1 B2]. split; [exact B1|]. intros j N. rewrite S. auto. Qed.
Lemma removed_ext m m2 id m' : same m m2 -> removed m id m' -> removed m2 id m'.
Proof. intros S [B1 B2]. split; [exact B1|]. intros j N. rewrite S. auto. Qed.
Lemma same_ext m m2 m' : same m m2 -> same m m' -> same m2 m'.
Proof. intros S B j. rewrite B, S. reflexivity. Qed.
Lemma xstep_ext b m1 o os m1' : xstep b m1 o os m1' -> forall m2, msame m1 m2 -> exists m2', xstep b m2 o os m2' /\ msame m1' m2'.
Proof.
  intros H [n2 w2 wc2 s2 sc2 a2 f2] (M1 & M2 & M3 & M4 & M5 & M6 & M7). destruct H; cbn in M1, M2, M3, M4, M5, M6, M7; subst;
    repeat match goal with
      | S : same ?m ?m2, X : map_call ?m _ _ _ |- _ => apply (fun Q => map_call_ext Q S) in X
      | S : same ?m ?m2, X : bound ?m _ _ _ |- _ => apply (bound_ext S) in X
      | S : same ?m ?m2, X : removed ?m _ _ |- _ => apply (removed_ext S) in X
      | S : same ?m ?m2, X : ?m _ = _ |- _ => rewrite <- S in X
      end.
  all: try match goal with Y : same ?w ?w1 |- exists _, xstep _ _ (XResize _ _ _) _ _ /\ msame (mkM _ ?w1 _ _ _ _ _) _ => apply (same_ext M2) in Y end.
  all: try match goal with Y : same ?w ?w1 |- exists _, xstep _ _ XCondense _ _ /\ msame (mkM _ ?w1 _ _ _ _ _) _ => apply (same_ext M2) in Y end.
  all: try match goal with Y : same ?w ?w1 |- exists _, xstep _ _ (XDelete _) _ _ /\ msame (mkM _ ?w1 _ _ _ _ _) _ => apply (same_ext M2) in Y end.
  all: eexists; (split; [econstructor; eassumption|]); unfold msame; cbn [m_n m_work m_wcap m_saved m_scap m_auto m_failed]; repeat (split; [first [reflexivity|assumption|apply same_refl]|]); reflexivity.
Qed.
Lemma xsession_ext b m1 ops os m1' : xsession b m1 ops os m1' -> forall m2, msame m1 m2 -> exists m2', xsession b m2 ops os m2' /\ msame m1' m2'.
Proof.
  induction 1 as [m|m1 o os1 m1' ops os2 m1'' S _ IH]; intros m2 M; [exists m2; split; [constructor|exact M]|].
  destruct (xstep_ext S M) as (m2' & S' & M'). destruct (IH _ M') as (m2'' & R & M''). exists m2''. split; [econstructor; eassumption|exact M''].
Qed.
Lemma session_new b u0 cap mcs k flag c ops c' os : sizable cap mcs -> container_new u0 cap mcs false = Ok k -> connect (Some k) true flag = Ok c -> Forall good_xop ops -> x_run b ops c = (c', os) ->
  exists w s, xsession b (mkM 0 empty_map (k_capacity k) empty_map (k_capacity k) true false) ops os (mkM (n_calls c') w (k_capacity (n_work c')) s (k_capacity (n_saved c')) (n_auto c') (n_failed c')) /\
    (forall id, held (n_work c') id = w id) /\ (forall id, held (n_saved c') id = s id).
Proof.
  intros SZ E CN F R. destruct (@fresh_one _ _ _ _ SZ E) as [G HN]. simpl in CN. injection CN as <-.
  assert (SC : sound_conn (mkConn k k [] true flag false O)) by (unfold sound_conn; cbn; split; [exact G|split; [exact G|discriminate]]).
  pose proof (x_run_spec b SC F R) as X. destruct (xsession_ext X (m2 := mkM 0 empty_map (k_capacity k) empty_map (k_capacity k) true false)) as ([n w wc s sc a f] & Y & M1 & M2 & M3 & M4 & M5 & M6 & M7).
  - unfold msame, state_of. cbn. repeat (split; [first [reflexivity|intros j; unfold empty_map; now rewrite HN]|]). reflexivity.
  - cbn in M1, M2, M3, M4, M5, M6, M7. subst. exists w, s. split; [exact Y|]. split; intros id; symmetry; auto.
Qed.
Lemma determined b m ops os1 m1 os2 m2 : Forall good_xop ops -> xsession b m ops os1 m1 -> xsession b m ops os2 m2 ->
  os1 = os2 /\ (forall id, m_work m1 id = m_work m2 id) /\ m_wcap m1 = m_wcap m2 /\ (forall id, m_saved m1 id = m_saved m2 id) /\ m_scap m1 = m_scap m2 /\ m_auto m1 = m_auto m2 /\ m_failed m1 = m_failed m2.
Proof.
  intros F H1 H2. assert (M : msame m m) by (unfold msame; repeat (split; [first [reflexivity|apply same_refl]|]); reflexivity).
  destruct (xsession_det H1 F M H2) as [-> (M1 & M2 & M3 & M4 & M5 & M6 & M7)]. split; [reflexivity|]. split; [intro id; symmetry; apply M2|]. split; [exact M3|]. split; [intro id; symmetry; apply M4|]. auto.
Qed.
Lemma capacity_fixed cap mcs : sizable cap mcs -> exists z, cap <= z /\ forall u0 strict k, container_new u0 cap mcs strict = Ok k -> k_capacity k = z.
Proof. intros SZ. destruct (provides_fun SZ) as (z & C & P). exists z. split; [exact C|]. intros u0 s k E. apply P. now exists u0, s, k. Qed.
Lemma forgotten_any b cmd (c : conn container) p : n_auto c = true -> conn_is_read cmd = false ->
  exec conn_calls b cmd (mkConn p (n_saved c) (n_past c) (n_auto c) (n_flag c) (n_failed c) (n_calls c)) = exec conn_calls b cmd c.
Proof. intros Au D. unfold exec, autocommitted. cbn [is_read conn_calls n_auto]. rewrite D, Au. reflexivity. Qed.
Lemma kept_by_exit b (c : conn container) : n_failed c = false -> b (n_calls c) = None -> n_saved (fst (conn_exit b (Ok tt) c)) = n_work c.
Proof. intros F B. unfold conn_exit, tm_exit, tm_commit. cbn. rewrite F, B. reflexivity. Qed.
