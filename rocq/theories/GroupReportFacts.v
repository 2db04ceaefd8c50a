(** Lemmas about GroupReport.v (C96). *)
From Coq Require Import Lia.
From Verif Require Import Base Value BTree Float53 Float53Facts Utils Collection Group GroupCapFacts Account GroupReport.
Import ListNotations.
Open Scope Z_scope.

Lemma zmin_list_spec l d : (zmin_list d l = d \/ In (zmin_list d l) l) /\ zmin_list d l <= d /\ forall x, In x l -> zmin_list d l <= x.
Proof.
  unfold zmin_list. revert d. induction l as [|x l IH]; cbn [fold_left In]; intros d; [repeat split; auto; [lia|contradiction]|].
  destruct (IH (Z.min d x)) as (A & B & C). split; [|split].
  - destruct A as [A|A]; [|auto]. rewrite A. destruct (Z.min_spec d x) as [[_ ->]|[_ ->]]; auto.
  - lia.
  - intros y [<-|Hy]; [lia|auto].
Qed.
Definition limited (g : group) : Prop := Forall (fun c => 1 <= c_max c) g.
Lemma c_size_nonneg c : 0 <= c_size c.
Proof. unfold c_size. lia. Qed.
Lemma usages g : limited g -> g_collection_usage g = Ok (map (fun c => (c_uuid c, c_usage c)) g).
Proof.
  intros L. unfold g_collection_usage. induction L as [|c g Hc L IH]; cbn [mapM map]; [reflexivity|]. replace (c_max c =? 0) with false by (symmetry; apply Z.eqb_neq; lia). now rewrite IH.
Qed.
Lemma usages_snd g : map snd (map (fun c => (c_uuid c, c_usage c)) g) = map c_usage g.
Proof. rewrite map_map. reflexivity. Qed.
Lemma max_pos g : limited g -> g <> [] -> 1 <= g_max g.
Proof.
  intros L H. destruct L as [|c g Hc L]; [congruence|]. unfold g_max. cbn [map zsum fold_right]. enough (0 <= fold_right Z.add 0 (map c_max g)) by lia.
  clear H. induction L; cbn [map fold_right]; lia.
Qed.
Lemma size_nonneg g : 0 <= g_size g.
Proof. unfold g_size. induction g as [|c g IH]; cbn [map zsum fold_right] in *; [lia|]. pose proof (c_size_nonneg c). unfold zsum in IH. lia. Qed.
(** some collection is at most, some at least, as full as the whole *)
Lemma sum_cmp (f h : collection -> Z) g : Forall (fun c => f c < h c) g -> g <> [] -> zsum (map f g) < zsum (map h g).
Proof.
  intros F H. destruct F as [|c g Hc F]; [congruence|]. cbn [map zsum fold_right]. enough (fold_right Z.add 0 (map f g) <= fold_right Z.add 0 (map h g)) by lia.
  clear H. induction F; cbn [map fold_right]; lia.
Qed.
Lemma sum_scale (f : collection -> Z) k g : zsum (map (fun c => f c * k) g) = zsum (map f g) * k.
Proof. induction g as [|c g IH]; cbn [map zsum fold_right] in *; [reflexivity|]. unfold zsum in IH. rewrite IH. lia. Qed.
Lemma some_below g : g <> [] -> exists c, In c g /\ c_size c * g_max g <= g_size g * c_max c.
Proof.
  intros H. destruct (Exists_dec (fun c => c_size c * g_max g <= g_size g * c_max c) g) as [E|E]; [intros c; apply Z_le_dec|now apply Exists_exists in E|].
  exfalso. assert (F : Forall (fun c => c_max c * g_size g < c_size c * g_max g) g) by (apply Forall_forall; intros c Hc; apply Z.nle_gt; intros X; apply E, Exists_exists; exists c; split; [exact Hc|lia]).
  apply sum_cmp in F; [|exact H]. rewrite !sum_scale in F. fold (g_max g) (g_size g) in F. lia.
Qed.
Lemma some_above g : g <> [] -> exists c, In c g /\ g_size g * c_max c <= c_size c * g_max g.
Proof.
  intros H. destruct (Exists_dec (fun c => g_size g * c_max c <= c_size c * g_max g) g) as [E|E]; [intros c; apply Z_le_dec|now apply Exists_exists in E|].
  exfalso. assert (F : Forall (fun c => c_size c * g_max g < c_max c * g_size g) g) by (apply Forall_forall; intros c Hc; apply Z.nle_gt; intros X; apply E, Exists_exists; exists c; split; [exact Hc|lia]).
  apply sum_cmp in F; [|exact H]. rewrite !sum_scale in F. fold (g_max g) (g_size g) in F. lia.
Qed.
Lemma f_div_mono s1 m1 s2 m2 : 0 <= s1 -> 0 <= s2 -> 1 <= m1 -> 1 <= m2 -> s1 * m2 <= s2 * m1 -> f_div s1 m1 <= f_div s2 m2.
Proof. intros. pose proof scale_pos. unfold f_div. apply rnd53_mono; try nia. Qed.
Lemma f_div_full m : 1 <= m -> f_div m m = scale.
Proof.
  intros H. pose proof scale_pos. unfold f_div. assert (A : rnd53 (m * scale) m <= rnd53 (1 * scale) 1 <= rnd53 (m * scale) m) by (split; apply rnd53_mono; nia).
  rewrite rnd53_int in A by lia. lia.
Qed.
Lemma f_div_nonneg s m : 0 <= s -> 1 <= m -> 0 <= f_div s m.
Proof. intros. pose proof (f_div_mono 0 1 s m ltac:(lia) ltac:(lia) ltac:(lia) ltac:(lia) ltac:(lia)) as X. replace (f_div 0 1) with 0 in X; [exact X|]. unfold f_div. rewrite rnd53_int; lia. Qed.
Lemma report g : limited g -> g <> [] ->
  exists lo u hi, g_lowest_usage g = Ok lo /\ g_usage g = Ok u /\ g_highest_usage g = Ok hi /\ 0 <= lo /\ lo <= u <= hi /\
    (forall c, In c g -> lo <= c_usage c <= hi) /\ (exists c, In c g /\ c_usage c = lo) /\ (exists c, In c g /\ c_usage c = hi).
Proof.
  intros L H. pose proof (max_pos g L H) as M. pose proof (size_nonneg g) as S0. unfold g_lowest_usage, g_highest_usage, g_usage. rewrite (usages g L), usages_snd.
  replace (g_max g =? 0) with false by (symmetry; apply Z.eqb_neq; lia).
  destruct (some_below g H) as (b & Ib & Hb). destruct (some_above g H) as (t & It & Ht). unfold limited in L. rewrite Forall_forall in L.
  assert (B : c_usage b <= f_div (g_size g) (g_max g)) by (apply f_div_mono; auto using c_size_nonneg; lia).
  assert (T : f_div (g_size g) (g_max g) <= c_usage t) by (apply f_div_mono; auto using c_size_nonneg; lia).
  destruct (map c_usage g) as [|m r] eqn:E; [destruct g; [congruence|discriminate]|].
  destruct (zmin_list_spec r m) as (A1 & A2 & A3). destruct (zmax_list_spec r m) as (B1 & B2 & B3).
  assert (In1 : In (zmin_list m r) (map c_usage g)) by (rewrite E; destruct A1 as [->|A1]; cbn; auto).
  assert (In2 : In (zmax_list m r) (map c_usage g)) by (rewrite E; destruct B1 as [->|B1]; cbn; auto).
  assert (Al : forall c, In c g -> zmin_list m r <= c_usage c <= zmax_list m r).
  { intros c Hc. apply (in_map c_usage) in Hc. rewrite E in Hc. destruct Hc as [<-|Hc]; [lia|]. auto. }
  apply in_map_iff in In1 as (c1 & E1 & I1). apply in_map_iff in In2 as (c2 & E2 & I2).
  exists (zmin_list m r), (f_div (g_size g) (g_max g)), (zmax_list m r). repeat (split; [reflexivity|]). split.
  - rewrite <- E1. apply f_div_nonneg; [apply c_size_nonneg|auto].
  - split; [pose proof (Al b Ib); pose proof (Al t It); lia|]. split; [exact Al|]. split; eauto.
Qed.
Lemma usage_full g : limited g -> g <> [] -> exists u, g_usage g = Ok u /\ (g_size g <= g_max g -> u <= scale) /\ (g_max g <= g_size g -> scale <= u).
Proof.
  intros L H. pose proof (max_pos g L H) as M. pose proof (size_nonneg g) as S0. unfold g_usage. replace (g_max g =? 0) with false by (symmetry; apply Z.eqb_neq; lia).
  exists (f_div (g_size g) (g_max g)). split; [reflexivity|]. rewrite <- (f_div_full (g_max g) M). split; intros X; apply f_div_mono; nia.
Qed.
Lemma largest g : (g = [] -> g_max_collection_size g = Err ValueError) /\
  (g <> [] -> exists m, g_max_collection_size g = Ok m /\ (exists c, In c g /\ c_max c = m) /\ forall c, In c g -> c_max c <= m).
Proof.
  split; [intros ->; reflexivity|]. intros H. unfold g_max_collection_size. destruct (map c_max g) as [|m r] eqn:E; [destruct g; [congruence|discriminate]|].
  destruct (zmax_list_spec r m) as (B1 & B2 & B3). exists (zmax_list m r). split; [reflexivity|].
  assert (In2 : In (zmax_list m r) (map c_max g)) by (rewrite E; destruct B1 as [->|B1]; cbn; auto).
  apply in_map_iff in In2 as (c2 & E2 & I2). split; [eauto|]. intros c Hc. apply (in_map c_max) in Hc. rewrite E in Hc. destruct Hc as [<-|Hc]; [lia|auto].
Qed.
Lemma nothing : g_lowest_usage [] = Err ValueError /\ g_highest_usage [] = Err ValueError /\ g_usage [] = Err ZeroDivisionError /\ g_max_collection_size [] = Err ValueError /\ g_status [] = Err ValueError.
Proof. repeat split. Qed.
