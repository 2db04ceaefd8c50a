From Coq Require Import Znumtheory.
From Verif Require Import Base Float53.
Open Scope Z_scope.

Lemma scale_pos : 0 < scale. Proof. unfold scale. apply Z.pow_pos_nonneg; lia. Qed.
Global Opaque scale.
Lemma scale_eq : scale = 2 ^ 1074. Proof. reflexivity. Qed.

Lemma rne_bounds n d : 0 < d -> n / d <= rne n d <= n / d + 1.
Proof. intros Hd. unfold rne. destruct (Z.compare_spec (2 * (n mod d)) d);
  destruct (Z.even (n / d)); lia. Qed.
Lemma rne_err_lo n d : 0 < d -> 2 * (n - rne n d * d) <= d.
Proof.
  intros Hd. unfold rne. pose proof (Z.div_mod n d ltac:(lia)). pose proof (Z.mod_pos_bound n d Hd).
  destruct (Z.compare_spec (2 * (n mod d)) d); [destruct (Z.even (n / d))| |]; nia.
Qed.
Lemma rne_err_hi n d : 0 < d -> 2 * (rne n d * d - n) <= d.
Proof.
  intros Hd. unfold rne. pose proof (Z.div_mod n d ltac:(lia)). pose proof (Z.mod_pos_bound n d Hd).
  destruct (Z.compare_spec (2 * (n mod d)) d); [destruct (Z.even (n / d))| |]; nia.
Qed.
Lemma rne_exact c d : 0 < d -> rne (c * d) d = c.
Proof.
  intros Hd. unfold rne. rewrite Z.div_mul, Z.mod_mul by lia.
  destruct (Z.compare_spec (2 * 0) d); lia.
Qed.
Lemma rne_ge n d c : 0 < d -> c * d <= n -> c <= rne n d.
Proof. intros Hd H. pose proof (rne_bounds n d Hd). assert (c <= n / d) by (apply Z.div_le_lower_bound; lia). lia. Qed.
Lemma rne_le n d c : 0 < d -> n <= c * d -> rne n d <= c.
Proof.
  intros Hd H. pose proof (rne_err_hi n d Hd).
  destruct (Z_le_gt_dec (rne n d) c) as [?|G]; [lia|]. exfalso.
  pose proof (rne_bounds n d Hd). assert (n / d <= c) by (apply Z.div_le_upper_bound; lia).
  assert (rne n d = c + 1) by lia. nia.
Qed.
(* monotone in the rational *)
Lemma rne_mono n1 d1 n2 d2 : 0 < d1 -> 0 < d2 -> n1 * d2 <= n2 * d1 -> rne n1 d1 <= rne n2 d2.
Proof.
  intros H1 H2 H.
  pose proof (Z.div_mod n1 d1 ltac:(lia)) as E1. pose proof (Z.mod_pos_bound n1 d1 H1) as B1.
  pose proof (Z.div_mod n2 d2 ltac:(lia)) as E2. pose proof (Z.mod_pos_bound n2 d2 H2) as B2.
  assert (Q : n1 / d1 <= n2 / d2).
  { apply Z.div_le_lower_bound; [lia|]. assert (d1 * (n1 / d1) <= n1) by lia. nia. }
  destruct (Z.eq_dec (n1 / d1) (n2 / d2)) as [E|E].
  - assert (M : (n1 mod d1) * d2 <= (n2 mod d2) * d1) by nia.
    unfold rne. rewrite E.
    destruct (Z.compare_spec (2 * (n1 mod d1)) d1) as [C1|C1|C1];
    destruct (Z.compare_spec (2 * (n2 mod d2)) d2) as [C2|C2|C2];
    destruct (Z.even (n2 / d2)); try lia; exfalso; nia.
  - pose proof (rne_bounds n1 d1 H1). pose proof (rne_bounds n2 d2 H2). lia.
Qed.

Definition ex (q : Z) : Z := Z.max 0 (Z.log2 q - 52).
Lemma ex_nonneg q : 0 <= ex q. Proof. unfold ex; lia. Qed.
Lemma ex_mono q1 q2 : q1 <= q2 -> ex q1 <= ex q2.
Proof. intros H. unfold ex. pose proof (Z.log2_le_mono _ _ H). lia. Qed.
Lemma pow2_pos e : 0 <= e -> 0 < 2 ^ e. Proof. intros; apply Z.pow_pos_nonneg; lia. Qed.
Lemma ex_upper q : q < 2 ^ (53 + ex q).
Proof.
  destruct (Z_le_gt_dec q 0) as [L|G].
  - pose proof (ex_nonneg q). pose proof (pow2_pos (53 + ex q) ltac:(lia)). lia.
  - pose proof (Z.log2_spec q ltac:(lia)) as [_ H]. pose proof (Z.log2_nonneg q).
    eapply Z.lt_le_trans; [exact H|]. apply Z.pow_le_mono_r; unfold ex; lia.
Qed.
Lemma ex_lower q : 0 < ex q -> 2 ^ (52 + ex q) <= q.
Proof.
  intros H. unfold ex in *. destruct (Z_le_gt_dec q 0) as [L|G].
  - rewrite Z.log2_nonpos in H by lia. lia.
  - pose proof (Z.log2_spec q ltac:(lia)) as [H' _].
    replace (52 + Z.max 0 (Z.log2 q - 52)) with (Z.log2 q) by lia. exact H'.
Qed.

Lemma rnd53_unfold n d : rnd53 n d = rne n (d * 2 ^ ex (n / d)) * 2 ^ ex (n / d).
Proof. reflexivity. Qed.

Lemma rnd53_mono n1 d1 n2 d2 :
  0 <= n1 -> 0 <= n2 -> 0 < d1 -> 0 < d2 -> n1 * d2 <= n2 * d1 -> rnd53 n1 d1 <= rnd53 n2 d2.
Proof.
  intros N1 N2 H1 H2 H. rewrite !rnd53_unfold.
  set (q1 := n1 / d1). set (q2 := n2 / d2).
  pose proof (Z.div_mod n1 d1 ltac:(lia)) as E1. pose proof (Z.mod_pos_bound n1 d1 H1) as B1.
  pose proof (Z.div_mod n2 d2 ltac:(lia)) as E2. pose proof (Z.mod_pos_bound n2 d2 H2) as B2.
  fold q1 in E1. fold q2 in E2.
  assert (Q : q1 <= q2).
  { unfold q2. apply Z.div_le_lower_bound; [lia|]. assert (d1 * q1 <= n1) by lia. nia. }
  pose proof (ex_mono _ _ Q) as EM. pose proof (ex_nonneg q1) as X1. pose proof (ex_nonneg q2) as X2.
  pose proof (pow2_pos _ X1) as P1. pose proof (pow2_pos _ X2) as P2.
  destruct (Z.eq_dec (ex q1) (ex q2)) as [E|E].
  - rewrite E. apply Z.mul_le_mono_nonneg_r; [lia|]. apply rne_mono; nia.
  - assert (L : 0 < ex q2) by lia. pose proof (ex_lower _ L) as LO. pose proof (ex_upper q1) as UP.
    apply Z.le_trans with (2 ^ 53 * 2 ^ ex q1).
    + apply Z.mul_le_mono_nonneg_r; [lia|]. apply rne_le; [nia|].
      rewrite Z.pow_add_r in UP by lia. nia.
    + apply Z.le_trans with (2 ^ 52 * 2 ^ ex q2).
      * change (2 ^ 53) with (2 ^ 52 * 2 ^ 1). rewrite <- Z.mul_assoc, <- Z.pow_add_r by lia.
        apply Z.mul_le_mono_nonneg_l; [lia|]. apply Z.pow_le_mono_r; lia.
      * apply Z.mul_le_mono_nonneg_r; [lia|]. apply rne_ge; [nia|].
        rewrite Z.pow_add_r in LO by lia. nia.
Qed.

(** integers below 2^53 are representable *)
Lemma rnd53_int q : 0 <= q -> q < 2 ^ 53 -> rnd53 (q * scale) 1 = q * scale.
Proof.
  intros H0 H. rewrite rnd53_unfold. rewrite Z.div_1_r.
  destruct (Z.eq_dec q 0) as [->|N].
  { rewrite Z.mul_0_l. reflexivity. }
  assert (E : ex (q * scale) = 1074 + Z.log2 q - 52).
  { unfold ex. rewrite scale_eq, Z.log2_mul_pow2 by lia. pose proof (Z.log2_nonneg q). lia. }
  assert (L : Z.log2 q <= 52) by (apply Z.log2_lt_pow2 in H; lia).
  pose proof (Z.log2_nonneg q) as LN.
  rewrite E. set (e := 1074 + Z.log2 q - 52).
  assert (S : q * scale = (q * 2 ^ (1074 - e)) * 2 ^ e).
  { rewrite <- Z.mul_assoc, <- Z.pow_add_r by (unfold e; lia). rewrite scale_eq. do 2 f_equal. lia. }
  rewrite S at 1. rewrite Z.mul_1_l, rne_exact by (apply pow2_pos; unfold e; lia). symmetry; exact S.
Qed.

Definition zceil (a b : Z) : Z := - ((- a) / b).
Lemma zceil_spec a b : 0 < b -> b * (zceil a b - 1) < a <= b * zceil a b.
Proof. intros H. unfold zceil. pose proof (Z.div_mod (- a) b ltac:(lia)). pose proof (Z.mod_pos_bound (- a) b H). lia. Qed.
Lemma zceil_unique a b q : 0 < b -> b * (q - 1) < a <= b * q -> zceil a b = q.
Proof. intros H Hq. pose proof (zceil_spec a b H). nia. Qed.
Lemma zceil_nonneg a b : 0 < b -> 0 <= a -> 0 <= zceil a b.
Proof. intros H Hq. pose proof (zceil_spec a b H). nia. Qed.
Lemma zceil_le a b c : 0 < b -> a <= b * c -> zceil a b <= c.
Proof. intros H Hq. pose proof (zceil_spec a b H). nia. Qed.
Lemma zceil_gt a b c : 0 < b -> b * c < a -> c < zceil a b.
Proof. intros H Hq. pose proof (zceil_spec a b H). nia. Qed.

(** [math.ceil(a / b)] computed in floating point is the exact ceiling *)
Lemma f_ceil_div a b : 0 <= a < 2 ^ 53 -> 0 < b <= 2 ^ 1000 -> f_ceil (f_div a b) = zceil a b.
Proof.
  intros Ha [Hb Hb2]. pose proof scale_pos as SP.
  destruct (Z.eq_dec a 0) as [->|N].
  { unfold f_div. rewrite Z.mul_0_l.
    assert (Z0 : rnd53 0 b = 0).
    { rewrite rnd53_unfold. rewrite Z.div_0_l by lia. unfold ex. simpl Z.log2. simpl Z.max.
      change (2 ^ 0) with 1. rewrite !Z.mul_1_r. change 0 with (0 * b) at 1. apply rne_exact; lia. }
    rewrite Z0. unfold f_ceil, zceil. change (- 0) with 0. rewrite !Z.div_0_l by lia. reflexivity. }
  pose proof (zceil_spec a b Hb) as Q. set (q := zceil a b) in *.
  assert (Qb : 1 <= q < 2 ^ 53) by (split; nia).
  unfold f_ceil. change (zceil (f_div a b) scale = q). apply zceil_unique; [lia|].
  unfold f_div. split.
  - (* not rounded down to q-1 *)
    apply Z.nle_gt. intros F. rewrite rnd53_unfold in F.
    set (e := ex (a * scale / b)) in *. pose proof (ex_nonneg (a * scale / b)) as X. fold e in X.
    pose proof (pow2_pos e X) as P.
    pose proof (rne_err_lo (a * scale) (b * 2 ^ e) ltac:(nia)) as ER.
    assert (B1 : 2 * scale <= b * 2 ^ e) by nia.
    pose proof (Z.div_mod (a * scale) b ltac:(lia)) as D. pose proof (Z.mod_pos_bound (a * scale) b Hb).
    destruct (Z.eq_dec e 0) as [E0|E0].
    + exfalso. pose proof (ex_upper (a * scale / b)) as U. fold e in U. rewrite E0, Z.add_0_r in U.
      assert (2 ^ 74 <= a * scale / b); [|assert (2 ^ 53 < 2 ^ 74) by reflexivity; lia].
      apply Z.div_le_lower_bound; [lia|].
      apply Z.le_trans with (2 ^ 1000 * 2 ^ 74); [apply Z.mul_le_mono_nonneg_r; [apply Z.pow_nonneg; lia|exact Hb2]|].
      rewrite <- Z.pow_add_r by lia. change (1000 + 74) with 1074. rewrite <- scale_eq. nia.
    + pose proof (ex_lower (a * scale / b) ltac:(fold e; lia)) as LO. fold e in LO.
      rewrite Z.pow_add_r in LO by lia.
      assert (2 ^ 53 * scale <= a * scale).
      { apply Z.le_trans with (b * (2 ^ 52 * 2 ^ e)); [|nia].
        change (2 ^ 53) with (2 ^ 52 * 2). nia. }
      nia.
  - apply Z.le_trans with (rnd53 (q * scale) 1); [apply rnd53_mono; nia|].
    rewrite rnd53_int by lia. lia.
Qed.

(** [int(math.sqrt(v))] is the integer square root below 2^52 *)
Lemma f_sqrt_trunc v : 0 <= v < 2 ^ 52 -> f_trunc (f_sqrt (f_of_int v)) = Z.sqrt v.
Proof.
  intros Hv. pose proof scale_pos as SP. unfold f_of_int. rewrite rnd53_int by lia.
  unfold f_sqrt, f_trunc. set (X := v * scale * scale).
  destruct (Z.eq_dec v 0) as [->|N]; [subst X; reflexivity|].
  assert (XP : 0 < X) by (unfold X; nia).
  pose proof (Z.sqrt_spec X ltac:(lia)) as SX. pose proof (Z.sqrt_spec v ltac:(lia)) as Sv.
  cbv zeta in SX, Sv.
  set (s := Z.sqrt X) in *. set (q := Z.sqrt v) in *.
  assert (Q1 : 1 <= q) by (unfold q; apply Z.sqrt_le_square; lia).
  assert (Q2 : q < 2 ^ 26).
  { apply Z.nle_gt. intros H. assert (2 ^ 26 * 2 ^ 26 <= q * q) by (apply Z.mul_le_mono_nonneg; lia).
    change (2 ^ 26 * 2 ^ 26) with (2 ^ 52) in *. lia. }
  assert (S1 : q * scale <= s).
  { unfold s. apply Z.sqrt_le_square; [lia|nia|]. unfold X. nia. }
  assert (S2 : s < (q + 1) * scale).
  { apply Z.nle_gt. intros H. assert (((q + 1) * scale) * ((q + 1) * scale) <= s * s) by nia. unfold X in SX. nia. }
  assert (LQ : 0 <= Z.log2 q) by apply Z.log2_nonneg.
  assert (LQ2 : Z.log2 q <= 25) by (apply Z.log2_lt_pow2 in Q2; lia).
  assert (LS : Z.log2 s = 1074 + Z.log2 q).
  { apply Z.le_antisymm.
    - assert (s < 2 ^ (1074 + Z.log2 q + 1)).
      { eapply Z.lt_le_trans; [exact S2|]. pose proof (Z.log2_spec q ltac:(lia)) as [_ H].
        replace (1074 + Z.log2 q + 1) with (Z.succ (Z.log2 q) + 1074) by lia.
        rewrite Z.pow_add_r by lia. rewrite <- scale_eq. nia. }
      apply Z.log2_lt_pow2 in H; lia.
    - replace (1074 + Z.log2 q) with (Z.log2 (q * scale)).
      + apply Z.log2_le_mono; lia.
      + rewrite scale_eq, Z.log2_mul_pow2 by lia. lia. }
  set (e := Z.max 0 (Z.log2 s - 52)).
  assert (E : e = 1022 + Z.log2 q) by (unfold e; lia).
  assert (EP : 0 < 2 ^ e) by (apply pow2_pos; lia).
  set (K := 2 ^ (1074 - e)).
  assert (KP : 0 < K) by (apply pow2_pos; lia).
  assert (SK : scale = K * 2 ^ e).
  { unfold K. rewrite <- Z.pow_add_r by lia. rewrite scale_eq. f_equal. lia. }
  set (r := s / 2 ^ e).
  pose proof (Z.div_mod s (2 ^ e) ltac:(lia)) as DM. pose proof (Z.mod_pos_bound s (2 ^ e) EP) as MB.
  fold r in DM.
  assert (R1 : q * K <= r) by (unfold r; apply Z.div_le_lower_bound; nia).
  assert (R2 : r < (q + 1) * K) by nia.
  assert (KB : q + 1 <= K).
  { assert (2 ^ 27 <= K) by (unfold K; apply Z.pow_le_mono_r; lia). assert (2 ^ 26 < 2 ^ 27) by reflexivity. lia. }
  set (r' := match 4 * X ?= (2 * r + 1) ^ 2 * 4 ^ e with
             | Eq => if Z.even r then r else r + 1 | Lt => r | Gt => r + 1 end).
  assert (R' : q * K <= r' < (q + 1) * K).
  { assert (B : r <= r' <= r + 1).
    { unfold r'. destruct (4 * X ?= (2 * r + 1) ^ 2 * 4 ^ e); [destruct (Z.even r)| |]; lia. }
    split; [lia|].
    destruct (Z.eq_dec (r + 1) ((q + 1) * K)) as [EQ|NE]; [|lia].
    assert (r' = r); [|lia].
    unfold r'. destruct (Z.compare_spec (4 * X) ((2 * r + 1) ^ 2 * 4 ^ e)) as [C|C|C]; [|reflexivity|].
    all: exfalso.
    all: assert (P4 : 4 ^ e = 2 ^ e * 2 ^ e)
      by (rewrite <- Z.pow_mul_l; f_equal; reflexivity).
    all: rewrite P4 in C; rewrite Z.pow_2_r in C.
    all: replace (2 * r + 1) with (2 * ((q + 1) * K) - 1) in C by lia.
    all: assert (VV : v <= (q + 1) * (q + 1) - 1) by lia.
    all: unfold X in C; rewrite SK in C; clear - C VV EP KP KB Q1.
    all: set (w := 2 ^ e) in *; clearbody w.
    all: assert (C' : (2 * ((q + 1) * K) - 1) * (2 * ((q + 1) * K) - 1) <= 4 * (v * K * K)) by
      (assert (0 < w * w) by nia; nia).
    all: nia. }
  rewrite SK. symmetry. apply Z.div_unique_pos with (r := (r' - q * K) * 2 ^ e); nia.
Qed.

(** [math.ceil(c * 1.5)] *)
Lemma f_ceil_mul_1_5 c : 0 <= c <= 2 ^ 51 -> f_ceil (f_mul_const (f_of_int c) 3 2) = zceil (3 * c) 2.
Proof.
  intros Hc. pose proof scale_pos as SP. unfold f_of_int. rewrite rnd53_int by lia.
  unfold f_mul_const.
  assert (E : f_div (3 * c) 2 = rnd53 (c * scale * 3) 2) by (unfold f_div; f_equal; lia).
  rewrite <- E. apply f_ceil_div; [lia|]. split; [lia|].
  change 2 with (2 ^ 1) at 1. apply Z.pow_le_mono_r; lia.
Qed.
