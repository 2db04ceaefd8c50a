(** The integer model of binary64 (Float53) against Flocq's definition of rounding to nearest even in FLT with 53 bits and minimal exponent -1074 *)
From Coq Require Import ZArith Reals Lia Lra Psatz.
From Flocq Require Import Core.
From Verif Require Import Float53.
Open Scope R_scope.

Definition fexp64 : Z -> Z := FLT_exp (-1074) 53.
Lemma znearest_frac (n D : Z) : (0 <= n)%Z -> (0 < D)%Z -> ZnearestE (IZR n / IZR D) = rne n D.
Proof.
  intros Hn HD. assert (PD : 0 < IZR D) by (apply IZR_lt; lia). unfold Znearest, rne. rewrite Zfloor_div by lia.
  assert (E : IZR n / IZR D - IZR (n / D) = IZR (n mod D) / IZR D).
  { rewrite (Z.div_mod n D) at 1 by lia. rewrite plus_IZR, mult_IZR. field. lra. }
  rewrite E. assert (C : Rcompare (IZR (n mod D) / IZR D) (/ 2) = (2 * (n mod D) ?= D)%Z).
  { rewrite <- Rcompare_IZR, mult_IZR. rewrite <- (Rcompare_mult_r (2 * IZR D)) by lra. f_equal; field; lra. }
  rewrite C. destruct (2 * (n mod D) ?= D)%Z eqn:K; [|reflexivity|].
  - apply Z.compare_eq in K. assert (NI : IZR (Zfloor (IZR n / IZR D)) <> IZR n / IZR D).
    { rewrite Zfloor_div by lia. intros X. assert (IZR (n mod D) / IZR D = 0) by lra. assert (IZR (n mod D) = 0) by (apply (Rmult_eq_reg_r (/ IZR D)); [lra|apply Rinv_neq_0_compat; lra]). apply eq_IZR in H0. lia. }
    rewrite Zceil_floor_neq by exact NI. rewrite Zfloor_div by lia. destruct (Z.even (n / D)); reflexivity.
  - apply Z.compare_gt_iff in K. assert (NI : IZR (Zfloor (IZR n / IZR D)) <> IZR n / IZR D).
    { rewrite Zfloor_div by lia. intros X. assert (IZR (n mod D) / IZR D = 0) by lra. assert (IZR (n mod D) = 0) by (apply (Rmult_eq_reg_r (/ IZR D)); [lra|apply Rinv_neq_0_compat; lra]). apply eq_IZR in H0. lia. }
    rewrite Zceil_floor_neq by exact NI. now rewrite Zfloor_div by lia.
Qed.
Lemma bpow_pow (e : Z) : (0 <= e)%Z -> bpow radix2 e = IZR (2 ^ e).
Proof. intros H. symmetry. exact (IZR_Zpower radix2 e H). Qed.
Lemma scale_bpow : bpow radix2 1074 = IZR scale.
Proof. unfold scale. apply bpow_pow. lia. Qed.
(** the magnitude of a real number of which the integer part is s *)
Lemma mag_floor (y : R) (s : Z) : Zfloor y = s -> (1 <= s)%Z -> mag radix2 y = (Z.log2 s + 1)%Z :> Z.
Proof.
  intros F H. assert (L : (0 <= Z.log2 s)%Z) by apply Z.log2_nonneg. pose proof (Z.log2_spec s ltac:(lia)) as [A B].
  pose proof (Zfloor_lb y) as LB. pose proof (Zfloor_ub y) as UB. rewrite F in LB, UB. apply mag_unique_pos. rewrite bpow_pow by lia. rewrite bpow_pow by lia.
  replace (Z.log2 s + 1 - 1)%Z with (Z.log2 s) by lia. split; [apply IZR_le in A; lra|]. apply (Rlt_le_trans _ _ _ UB). rewrite <- plus_IZR. apply IZR_le. lia.
Qed.
(** rounding a non-negative number given in units of 2^-1074 *)
Lemma round_units (y : R) (s : Z) : 0 <= y -> Zfloor y = s -> let e := Z.max 0 (Z.log2 s - 52) in
  round radix2 fexp64 ZnearestE (y * bpow radix2 (-1074)) = IZR (ZnearestE (y / IZR (2 ^ e)) * 2 ^ e) * bpow radix2 (-1074).
Proof.
  intros Hy F e. assert (S0 : (0 <= s)%Z). { rewrite <- F. apply Zfloor_lub. exact Hy. }
  destruct (Req_dec y 0) as [-> |Ny].
  - rewrite Rmult_0_l, round_0 by typeclasses eauto. unfold Rdiv. rewrite Rmult_0_l. replace (ZnearestE 0) with 0%Z; [rewrite Z.mul_0_l; ring|]. symmetry. apply (Znearest_imp _ 0 0). rewrite Rminus_0_r, Rabs_R0. lra.
  - assert (C : cexp radix2 fexp64 (y * bpow radix2 (-1074)) = (e - 1074)%Z).
    { unfold cexp. rewrite mag_mult_bpow by exact Ny. unfold fexp64, FLT_exp. destruct (Z.eq_dec s 0) as [Z0|NZ].
      - subst e. rewrite Z0. cbn [Z.log2]. assert (M : (mag radix2 y <= 0)%Z). { apply mag_le_bpow; [exact Ny|]. rewrite Rabs_pos_eq by exact Hy. cbn [bpow]. pose proof (Zfloor_ub y) as UB. rewrite F, Z0 in UB. lra. } lia.
      - rewrite (mag_floor y s F) by lia. subst e. lia. }
    unfold round. unfold scaled_mantissa. rewrite C. unfold F2R. cbn [Fnum Fexp].
    assert (E0 : (0 <= e)%Z) by (unfold e; lia). assert (Y : y * bpow radix2 (-1074) * bpow radix2 (- (e - 1074)) = y / IZR (2 ^ e)).
    { rewrite Rmult_assoc, <- bpow_plus. replace (-1074 + - (e - 1074))%Z with (- e)%Z by lia. rewrite bpow_opp, bpow_pow by exact E0. reflexivity. }
    rewrite Y. rewrite mult_IZR. rewrite <- (bpow_pow e E0), Rmult_assoc, <- bpow_plus. now replace (e + -1074)%Z with (e - 1074)%Z by lia.
Qed.
Lemma rnd53_round (n d : Z) : (0 <= n)%Z -> (0 < d)%Z -> IZR (rnd53 n d) * bpow radix2 (-1074) = round radix2 fexp64 ZnearestE (IZR n / IZR d * bpow radix2 (-1074)).
Proof.
  intros Hn Hd. assert (PD : 0 < IZR d) by (apply IZR_lt; lia). assert (PN : 0 <= IZR n) by (apply IZR_le; lia).
  assert (Hy : 0 <= IZR n / IZR d) by (apply Rmult_le_pos; [exact PN|apply Rlt_le, Rinv_0_lt_compat, PD]).
  rewrite (round_units _ (n / d) Hy) by (apply Zfloor_div; lia). unfold rnd53. set (e := Z.max 0 (Z.log2 (n / d) - 52)).
  assert (P2 : (0 < 2 ^ e)%Z) by (apply Z.pow_pos_nonneg; lia). rewrite <- (znearest_frac n (d * 2 ^ e)) by lia. do 4 f_equal. rewrite mult_IZR. field. split; apply IZR_neq; lia.
Qed.
Lemma unit_cancel : IZR scale * bpow radix2 (-1074) = 1.
Proof. rewrite <- scale_bpow, <- bpow_plus. reflexivity. Qed.
Lemma f_div_round (a b : Z) : (0 <= a)%Z -> (0 < b)%Z -> IZR (f_div a b) * bpow radix2 (-1074) = round radix2 fexp64 ZnearestE (IZR a / IZR b).
Proof.
  intros Ha Hb. unfold f_div. assert (PS : (0 < scale)%Z) by (unfold scale; apply Z.pow_pos_nonneg; lia). rewrite rnd53_round by nia. f_equal. rewrite mult_IZR.
  transitivity (IZR a / IZR b * (IZR scale * bpow radix2 (-1074))); [unfold Rdiv; ring|]. rewrite unit_cancel. ring.
Qed.
Lemma f_of_int_round (a : Z) : (0 <= a)%Z -> IZR (f_of_int a) * bpow radix2 (-1074) = round radix2 fexp64 ZnearestE (IZR a).
Proof. intros Ha. change (f_of_int a) with (f_div a 1). rewrite f_div_round by lia. f_equal. unfold Rdiv. rewrite Rinv_1. ring. Qed.
Lemma f_mul_round (x c d : Z) : (0 <= x)%Z -> (0 <= c)%Z -> (0 < d)%Z -> IZR (f_mul_const x c d) * bpow radix2 (-1074) = round radix2 fexp64 ZnearestE (IZR x * bpow radix2 (-1074) * (IZR c / IZR d)).
Proof. intros Hx Hc Hd. unfold f_mul_const. rewrite rnd53_round by nia. f_equal. rewrite mult_IZR. unfold Rdiv. ring. Qed.
Lemma floor_sqrt (X : Z) : (0 <= X)%Z -> Zfloor (sqrt (IZR X)) = Z.sqrt X.
Proof.
  intros H. pose proof (Z.sqrt_spec X H) as [A B]. pose proof (Z.sqrt_nonneg X) as N. apply Zfloor_imp. split.
  - rewrite <- (sqrt_square (IZR (Z.sqrt X))) by (apply IZR_le; lia). apply sqrt_le_1_alt. rewrite <- mult_IZR. apply IZR_le. exact A.
  - rewrite <- (sqrt_square (IZR (Z.sqrt X + 1))) by (apply IZR_le; lia). apply sqrt_lt_1_alt. split; [apply IZR_le; lia|]. rewrite <- mult_IZR. apply IZR_lt. exact B.
Qed.
Lemma f_sqrt_round (x : Z) : (0 <= x)%Z -> IZR (f_sqrt x) * bpow radix2 (-1074) = round radix2 fexp64 ZnearestE (sqrt (IZR x * bpow radix2 (-1074))).
Proof.
  intros Hx. assert (PS : (0 < scale)%Z) by (unfold scale; apply Z.pow_pos_nonneg; lia). assert (HX : (0 <= x * scale)%Z) by nia.
  assert (E : sqrt (IZR x * bpow radix2 (-1074)) = sqrt (IZR (x * scale)) * bpow radix2 (-1074)).
  { pose proof (bpow_gt_0 radix2 (-1074)) as P. rewrite <- (sqrt_square (bpow radix2 (-1074))) at 2 by lra. rewrite <- sqrt_mult_alt by (apply IZR_le; exact HX). f_equal. rewrite mult_IZR.
    transitivity (IZR x * bpow radix2 (-1074) * (IZR scale * bpow radix2 (-1074))); [rewrite unit_cancel; ring|ring]. }
  rewrite E. rewrite (round_units _ (Z.sqrt (x * scale)) (sqrt_pos _)) by (apply floor_sqrt; exact HX). unfold f_sqrt. cbv zeta. set (X := (x * scale)%Z) in *. set (s := Z.sqrt X) in *. set (e := Z.max 0 (Z.log2 s - 52)).
  assert (E0 : (0 <= e)%Z) by (unfold e; lia). assert (P2 : (0 < 2 ^ e)%Z) by (apply Z.pow_pos_nonneg; lia). assert (P2R : 0 < IZR (2 ^ e)) by (apply IZR_lt; exact P2).
  do 3 f_equal. set (y := sqrt (IZR X) / IZR (2 ^ e)).
  assert (F : Zfloor y = (s / 2 ^ e)%Z).
  { pose proof (Z.sqrt_spec X HX) as [A B]. fold s in A, B. pose proof (Z.div_mod s (2 ^ e) ltac:(lia)) as D. pose proof (Z.mod_pos_bound s (2 ^ e) P2) as M.
    pose proof (Zfloor_lb (sqrt (IZR X))) as L. pose proof (Zfloor_ub (sqrt (IZR X))) as U. rewrite floor_sqrt in L, U by exact HX. fold s in L, U. apply Zfloor_imp. unfold y. split.
    - apply (Rmult_le_reg_r (IZR (2 ^ e))); [exact P2R|]. replace (sqrt (IZR X) / IZR (2 ^ e) * IZR (2 ^ e)) with (sqrt (IZR X)) by (field; lra). rewrite <- mult_IZR. apply (Rle_trans _ (IZR s)); [apply IZR_le; lia|exact L].
    - apply (Rmult_lt_reg_r (IZR (2 ^ e))); [exact P2R|]. replace (sqrt (IZR X) / IZR (2 ^ e) * IZR (2 ^ e)) with (sqrt (IZR X)) by (field; lra). rewrite <- mult_IZR. apply (Rlt_le_trans _ _ _ U). rewrite <- plus_IZR. apply IZR_le. lia. }
  set (r := (s / 2 ^ e)%Z) in *. assert (R0 : (0 <= r)%Z) by (apply Z.div_pos; [apply Z.sqrt_nonneg|exact P2]).
  assert (C : Rcompare (y - IZR r) (/ 2) = (4 * X ?= (2 * r + 1) ^ 2 * 4 ^ e)%Z).
  { replace ((2 * r + 1) ^ 2 * 4 ^ e)%Z with (((2 * r + 1) * 2 ^ e) * ((2 * r + 1) * 2 ^ e))%Z by (change 4%Z with (2 * 2)%Z; rewrite Z.pow_mul_l; ring).
    rewrite <- Rcompare_IZR. rewrite mult_IZR, (mult_IZR ((2 * r + 1) * 2 ^ e)). rewrite <- (Rcompare_mult_r (2 * IZR (2 ^ e))) by lra.
    assert (L : (y - IZR r) * (2 * IZR (2 ^ e)) = 2 * sqrt (IZR X) - 2 * IZR r * IZR (2 ^ e)) by (unfold y; field; lra). rewrite L.
    replace (/ 2 * (2 * IZR (2 ^ e))) with (IZR (2 ^ e)) by (field). set (k := (2 * r + 1)%Z). rewrite (mult_IZR k).
    assert (K : IZR k = 2 * IZR r + 1) by (unfold k; rewrite plus_IZR, mult_IZR; reflexivity). assert (K0 : 0 <= IZR k * IZR (2 ^ e)) by (apply Rmult_le_pos; [apply IZR_le; lia|lra]).
    rewrite <- (Rcompare_plus_r (2 * IZR r * IZR (2 ^ e))). replace (2 * sqrt (IZR X) - 2 * IZR r * IZR (2 ^ e) + 2 * IZR r * IZR (2 ^ e)) with (2 * sqrt (IZR X)) by ring.
    replace (IZR (2 ^ e) + 2 * IZR r * IZR (2 ^ e)) with (IZR k * IZR (2 ^ e)) by (rewrite K; ring).
    pose proof (sqrt_pos (IZR X)) as SP. rewrite <- (Rabs_pos_eq (2 * sqrt (IZR X))) by lra. rewrite <- (Rabs_pos_eq (IZR k * IZR (2 ^ e))) at 1 by exact K0. rewrite <- Rcompare_sqr. f_equal.
    transitivity (4 * (sqrt (IZR X) * sqrt (IZR X))); [ring|rewrite sqrt_sqrt by (apply IZR_le; exact HX); reflexivity]. }
  unfold Znearest. rewrite F. rewrite C. 
  assert (NI : y - IZR r = / 2 \/ y - IZR r > / 2 -> Zceil y = (r + 1)%Z). { intros H. rewrite Zceil_floor_neq; rewrite F; [reflexivity|]. lra. }
  destruct (4 * X ?= (2 * r + 1) ^ 2 * 4 ^ e)%Z eqn:K; [|reflexivity|].
  - apply Rcompare_Eq_inv in C. rewrite NI by auto. destruct (Z.even r); reflexivity.
  - apply Rcompare_Gt_inv in C. rewrite NI by auto. reflexivity.
Qed.
