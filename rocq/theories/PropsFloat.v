From Coq Require Import ZArith Reals Lia Lra.
From Flocq Require Import Core.
From Verif Require Import Base Float53 Float53Facts FloatFacts Utils UtilsFacts Collection CollectionFacts Group GroupReportFacts Container Account.
Open Scope R_scope.

(** Python's float operations: the exact result rounded to binary64, to nearest with ties to even (Flocq). Overflow (2^1024) is not modelled. *)
Definition rnd (x : R) : R := round radix2 (FLT_exp (-1074) 53) ZnearestE x.
(** the number an element of the model stands for *)
Definition real (z : Z) : R := IZR z * bpow radix2 (-1074).
#[local] Instance prec53 : Prec_gt_0 53 := eq_refl.
Lemma real_mul z : IZR z = real z * IZR scale.
Proof. unfold real. transitivity (IZR z * (IZR scale * bpow radix2 (-1074))); [rewrite unit_cancel; ring|ring]. Qed.
Lemma scale_pos_R : 0 < IZR scale. Proof. rewrite <- scale_bpow. apply bpow_gt_0. Qed.
Lemma ceil_real z : f_ceil z = Zceil (real z).
Proof.
  unfold f_ceil, Zceil. apply f_equal. rewrite <- Zfloor_div; [|pose proof scale_pos_R; intros X; rewrite X in H; lra]. f_equal. rewrite opp_IZR, (real_mul z). field; pose proof scale_pos_R; lra.
Qed.
Lemma trunc_real z : f_trunc z = Zfloor (real z).
Proof. unfold f_trunc. rewrite <- Zfloor_div; [|pose proof scale_pos_R; intros X; rewrite X in H; lra]. apply f_equal. rewrite (real_mul z). field; pose proof scale_pos_R; lra. Qed.

(** ** C01, C02, C03, C12, C96: the arithmetic is that of the floats, for numbers of any size *)
(** usage is size / max_size in binary64, and the status is the largest level not above ceil(usage * 100) *)
Theorem C12_usage_binary64 : forall c, (1 <= c_max c)%Z -> real (c_usage c) = rnd (IZR (c_size c) / IZR (c_max c)).
Proof. intros c H. apply f_div_round; [apply c_size_nonneg|lia]. Qed.
Print Assumptions C12_usage_binary64.
(** a container's usage is used / capacity in binary64, and ZeroDivisionError without any capacity *)
Theorem C92_usage_binary64 : forall k, (0 <= k_used k)%Z -> (0 <= k_capacity k)%Z ->
  (k_capacity k = 0%Z -> k_usage k = Err ZeroDivisionError) /\ ((0 < k_capacity k)%Z -> exists u, k_usage k = Ok u /\ real u = rnd (IZR (k_used k) / IZR (k_capacity k))).
Proof.
  intros k H H2. unfold k_usage, g_usage, k_used, k_capacity in *. split; [intros ->; reflexivity|]. intros P. destruct (g_max (k_prim k) =? 0)%Z eqn:E; [apply Z.eqb_eq in E; lia|]. eexists. split; [reflexivity|]. now apply f_div_round.
Qed.
Print Assumptions C92_usage_binary64.
Theorem C12_percent_binary64 : forall size mx, (0 <= size)%Z -> (1 <= mx)%Z -> ceil_percent size mx = Zceil (rnd (rnd (IZR size / IZR mx) * 100)).
Proof.
  intros size mx H1 H2. unfold ceil_percent. destruct (0 <? mx)%Z eqn:E; [|apply Z.ltb_ge in E; lia]. rewrite ceil_real. f_equal. unfold rnd, real. rewrite f_mul_round; [|now apply f_div_nonneg|lia..].
  f_equal. rewrite f_div_round by lia. f_equal. field.
Qed.
Print Assumptions C12_percent_binary64.
(** is_prime tries the divisors from 2 to int(sqrt(float(n))), and raises ValueError for negative numbers *)
Theorem C02_divisors_binary64 : forall n, (0 <= n)%Z -> exists b, is_prime n = Ok b /\ (b = true <-> forall i, (2 <= i <= Zfloor (rnd (sqrt (rnd (IZR n)))))%Z -> ~ (i | n)%Z).
Proof.
  intros n H. unfold is_prime. destruct (n <? 0)%Z eqn:E; [apply Z.ltb_lt in E; lia|]. eexists. split; [reflexivity|]. rewrite forallb_forall, trunc_real.
  assert (Hn : (0 <= f_of_int n)%Z) by (change (f_of_int n) with (f_div n 1); apply f_div_nonneg; lia).
  unfold rnd, real. rewrite f_sqrt_round by exact Hn. rewrite f_of_int_round by exact H. fold fexp64. set (t := Zfloor _). split.
  - intros A i Hi D. assert (In i (zrange 2 (t + 1))) as I by (apply zrange_In; lia). specialize (A i I). apply Z.mod_divide in D; [|lia]. rewrite D in A. discriminate A.
  - intros A i Hi. apply zrange_In in Hi. apply negb_true_iff, Z.eqb_neq. intros D. apply (A i); [lia|]. apply Z.mod_divide; [lia|exact D].
Qed.
Print Assumptions C02_divisors_binary64.
Theorem C02_negative : forall n, (n < 0)%Z -> is_prime n = Err ValueError.
Proof. intros n H. unfold is_prime. apply Z.ltb_lt in H. now rewrite H. Qed.
Print Assumptions C02_negative.
(** number_of_collections is the first number from ceil(capacity / max_size) on that is_prime accepts *)
Lemma next_prime_first v n : (0 <= v)%Z -> next_prime_from v = Ok n -> (v <= n)%Z /\ is_prime n = Ok true /\ forall w, (v <= w < n)%Z -> is_prime w = Ok false.
Proof. intros H. unfold next_prime_from. destruct (search_spec search_fuel v H) as [(q & E & A & B & C)|[E _]]; rewrite E; [|discriminate]. intros X. injection X as <-. repeat split; auto; lia. Qed.
Lemma div_ceil a b : (0 <= a)%Z -> (1 <= b)%Z -> ceil_div a b = Zceil (rnd (IZR a / IZR b)) /\ (0 <= ceil_div a b)%Z.
Proof.
  intros Ha Hb. assert (E : ceil_div a b = f_ceil (f_div a b)).
  { unfold ceil_div. replace ((a =? 0)%Z || Bool.eqb (a <? 0)%Z (b <? 0)%Z)%bool with true; [now rewrite !Z.abs_eq by lia|]. symmetry. apply orb_true_iff. right. replace (a <? 0)%Z with false by (symmetry; apply Z.ltb_ge; lia). now replace (b <? 0)%Z with false by (symmetry; apply Z.ltb_ge; lia). }
  rewrite E. split; [rewrite ceil_real; unfold rnd, real; rewrite f_div_round by lia; reflexivity|]. pose proof (f_div_nonneg a b Ha Hb). unfold f_ceil. pose proof scale_pos as S. pose proof (Z.div_mod (- f_div a b) scale ltac:(lia)). pose proof (Z.mod_pos_bound (- f_div a b) scale S). nia.
Qed.
Theorem C01_binary64 : forall cap mcs n, (0 <= cap)%Z -> (1 <= mcs)%Z -> number_of_collections cap mcs = Ok n -> let first := Zceil (rnd (IZR cap / IZR mcs)) in
  (first <= n)%Z /\ is_prime n = Ok true /\ forall w, (first <= w < n)%Z -> is_prime w = Ok false.
Proof.
  intros cap mcs n H1 H2. unfold number_of_collections. destruct (mcs =? 0)%Z eqn:E; [discriminate|]. destruct (div_ceil cap mcs H1 H2) as [D P]. intros H. cbv zeta. rewrite <- D. now apply next_prime_first.
Qed.
Print Assumptions C01_binary64.
(** a maximal size of 0 raises ZeroDivisionError; a capacity of -max_size or less ValueError; between that and 0 the answer is 0 collections *)
Theorem C01_refused : forall cap, number_of_collections cap 0 = Err ZeroDivisionError /\ forall mcs, (1 <= mcs)%Z -> (cap <= - mcs)%Z -> number_of_collections cap mcs = Err ValueError.
Proof.
  intros cap. split; [reflexivity|]. intros mcs H1 H2. unfold number_of_collections. destruct (mcs =? 0)%Z eqn:E; [apply Z.eqb_eq in E; lia|]. unfold ceil_div.
  replace ((cap =? 0)%Z || Bool.eqb (cap <? 0)%Z (mcs <? 0)%Z)%bool with false; [|symmetry; apply orb_false_iff; split; [apply Z.eqb_neq; lia|]; replace (cap <? 0)%Z with true by (symmetry; apply Z.ltb_lt; lia); now replace (mcs <? 0)%Z with false by (symmetry; apply Z.ltb_ge; lia)].
  assert (F : (scale <= f_div (Z.abs cap) (Z.abs mcs))%Z). { rewrite <- (f_div_full (Z.abs mcs)) by lia. rewrite (Z.abs_neq cap), (Z.abs_eq mcs) by lia. apply f_div_mono; nia. }
  assert (T : (1 <= f_trunc (f_div (Z.abs cap) (Z.abs mcs)))%Z). { unfold f_trunc. pose proof scale_pos. apply Z.div_le_lower_bound; lia. }
  set (v := (- f_trunc (f_div (Z.abs cap) (Z.abs mcs)))%Z). assert (V : (v < 0)%Z) by (unfold v; lia). clearbody v. unfold next_prime_from. assert (S : forall p, search p v = Err ValueError).
  { induction p as [p IH|p IH|]; [rewrite search_I|rewrite search_O|rewrite search_H]; [|rewrite IH; reflexivity|]; unfold step1; now rewrite C02_negative. }
  now rewrite S.
Qed.
Print Assumptions C01_refused.
Theorem C01_nothing : forall cap mcs, (1 <= mcs <= 2 ^ 53)%Z -> (- mcs < cap <= 0)%Z -> number_of_collections cap mcs = Ok 0%Z.
Proof.
  intros cap mcs H1 H2. unfold number_of_collections. destruct (mcs =? 0)%Z eqn:E; [apply Z.eqb_eq in E; lia|]. assert (Z0 : ceil_div cap mcs = 0%Z).
  { destruct (Z.eq_dec cap 0) as [-> |N]. { rewrite (proj1 (div_ceil 0 mcs ltac:(lia) ltac:(lia))). unfold Rdiv. rewrite Rmult_0_l. unfold rnd. rewrite round_0 by typeclasses eauto. apply Zceil_IZR. }
    unfold ceil_div. replace ((cap =? 0)%Z || Bool.eqb (cap <? 0)%Z (mcs <? 0)%Z)%bool with false; [|symmetry; apply orb_false_iff; split; [apply Z.eqb_neq; lia|]; replace (cap <? 0)%Z with true by (symmetry; apply Z.ltb_lt; lia); now replace (mcs <? 0)%Z with false by (symmetry; apply Z.ltb_ge; lia)].
    assert (F : (f_div (Z.abs cap) (Z.abs mcs) <= f_div (2 ^ 53 - 1) (2 ^ 53))%Z) by (rewrite (Z.abs_neq cap), (Z.abs_eq mcs) by lia; apply f_div_mono; lia). assert (K : (f_div (2 ^ 53 - 1) (2 ^ 53) < scale)%Z) by (vm_compute; reflexivity).
    pose proof (f_div_nonneg (Z.abs cap) (Z.abs mcs) ltac:(lia) ltac:(lia)) as P. unfold f_trunc. rewrite Z.div_small by lia. reflexivity. }
  rewrite Z0. vm_compute. reflexivity.
Qed.
Print Assumptions C01_nothing.
(** and next_number_of_collections from ceil(ceil(current * 1.5) / max_size) on *)
Theorem C03_binary64 : forall cur mcs n, (0 <= cur)%Z -> (1 <= mcs)%Z -> next_number_of_collections cur mcs = Ok n -> let first := Zceil (rnd (IZR (Zceil (rnd (rnd (IZR cur) * 1.5))) / IZR mcs)) in
  (first <= n)%Z /\ is_prime n = Ok true /\ forall w, (first <= w < n)%Z -> is_prime w = Ok false.
Proof.
  intros cur mcs n H1 H2. unfold next_number_of_collections. destruct (mcs =? 0)%Z eqn:E; [discriminate|].
  assert (HF : (0 <= f_of_int cur)%Z) by (change (f_of_int cur) with (f_div cur 1); apply f_div_nonneg; lia).
  assert (M : ceil_mul_1_5 cur = Zceil (rnd (rnd (IZR cur) * 1.5))).
  { unfold ceil_mul_1_5. destruct (0 <=? cur)%Z eqn:C; [|apply Z.leb_gt in C; lia]. rewrite ceil_real. f_equal. unfold rnd, real. rewrite f_mul_round by lia. rewrite f_of_int_round by exact H1. fold fexp64. replace (IZR 3 / IZR 2) with 1.5 by lra. reflexivity. }
  assert (P : (0 <= ceil_mul_1_5 cur)%Z).
  { rewrite M. rewrite <- (Zceil_IZR 0). apply Zceil_le. assert (R0 : 0 <= rnd (IZR cur)) by (unfold rnd; apply round_ge_generic; [try typeclasses eauto..|apply generic_format_0|apply IZR_le; exact H1]).
    unfold rnd at 1. apply round_ge_generic; [try typeclasses eauto..|apply generic_format_0|lra]. }
  destruct (div_ceil (ceil_mul_1_5 cur) mcs P H2) as [D Q]. intros H. cbv zeta. rewrite <- M, <- D. now apply next_prime_first.
Qed.
Print Assumptions C03_binary64.
Example C01_binary64_case : number_of_collections 100000 5000 = Ok 23%Z /\ number_of_collections (-5000) 5000 = Err ValueError /\ number_of_collections (-4999) 5000 = Ok 0%Z.
Proof. split; [|split]; vm_compute; reflexivity. Qed.
