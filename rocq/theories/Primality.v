(** A primality certificate (Pocklington with one large factor), used to know that the prime search
    of the sizing functions succeeds below 2^52 without trial division in the kernel. *)
From Coq Require Import ZArith Znumtheory Zpow_facts Lia Bool List Zwf.
From Verif Require Import Fermat.
Import ListNotations.
Open Scope Z_scope.

Lemma exists_prime_divisor n : 1 < n -> exists p, prime p /\ (p | n).
Proof.
  intros H. assert (G : 0 <= n) by lia. revert H. pattern n. apply (Zlt_0_ind _); [|exact G]. clear n G.
  intros n IH _ H. destruct (prime_dec n) as [P|P]; [exists n; split; auto; apply Z.divide_refl|].
  destruct (not_prime_divide n H P) as (d & Hd & D). destruct (IH d) as (p & Pp & Dp); try lia.
  exists p. split; auto. eapply Z.divide_trans; eauto.
Qed.
Lemma small_prime_divisor n : 1 < n -> ~ prime n -> exists p, prime p /\ (p | n) /\ p * p <= n.
Proof.
  intros H NP. destruct (not_prime_divide n H NP) as (d & Hd & [e E]).
  assert (G : forall x y, 1 < x -> n = y * x -> x <= y -> exists p, prime p /\ (p | n) /\ p * p <= n).
  { intros x y Hx En L. destruct (exists_prime_divisor x Hx) as (p & P & D). exists p. split; auto.
    pose proof (Z.divide_pos_le p x ltac:(lia) D). pose proof (prime_ge_2 p P). split; [|nia].
    eapply Z.divide_trans; [exact D|]. exists y. auto. }
  destruct (Z_le_gt_dec d e).
  - apply (G d e); lia.
  - apply (G e d); [nia|lia|lia].
Qed.
Lemma div_mod1 p b : 1 < p -> (p | b - 1) <-> b mod p = 1.
Proof.
  intros Hp. split.
  - intros [k E]. symmetry. apply (Z.mod_unique _ _ k); lia.
  - intros E. exists (b / p). pose proof (Z.div_mod b p). lia.
Qed.
Lemma pow_mod1 p b n : 1 < p -> 0 <= n -> b mod p = 1 -> b ^ n mod p = 1.
Proof. intros Hp Hn H. rewrite Zpower_mod by lia. rewrite H, Z.pow_1_l by lia. apply Z.mod_small. lia. Qed.

Theorem pocklington N q a : 1 < N -> prime q -> (q | N - 1) -> N < (q + 1) * (q + 1) -> 0 <= a ->
  a ^ (N - 1) mod N = 1 -> Z.gcd (a ^ ((N - 1) / q) - 1) N = 1 -> prime N.
Proof.
  intros HN Pq [m Em] HB Ha H1 HG. destruct (prime_dec N) as [P|NP]; auto. exfalso.
  destruct (small_prime_divisor N HN NP) as (p & Pp & [t Et] & Hp).
  pose proof (prime_ge_2 p Pp) as P2. pose proof (prime_ge_2 q Pq) as Q2.
  assert (M0 : 0 <= m) by nia.
  replace ((N - 1) / q) with m in HG by (rewrite Em; symmetry; apply Z.div_mul; lia).
  set (b := a ^ m) in *. assert (B0 : 0 <= b) by (apply Z.pow_nonneg; auto).
  assert (Bq : b ^ q mod p = 1).
  { unfold b. rewrite <- Z.pow_mul_r by lia. rewrite <- Em. apply div_mod1; [lia|].
    apply div_mod1 in H1; [|lia]. destruct H1 as [s Hs]. exists (s * t). rewrite Hs, Et. ring. }
  assert (NB : ~ (p | b - 1)).
  { intros D. assert (D2 : (p | Z.gcd (b - 1) N)) by (apply Z.gcd_greatest; auto; exists t; auto). rewrite HG in D2.
    apply Z.divide_1_r in D2. lia. }
  assert (NPB : ~ (p | b)).
  { intros [s Hs]. rewrite Zpower_mod in Bq by lia. rewrite Hs, Z.mod_mul, Z.pow_0_l, Z.mod_0_l in Bq by lia. discriminate. }
  assert (Bp : b ^ (p - 1) mod p = 1).
  { apply div_mod1; [lia|]. pose proof (fermat p b Pp B0) as F.
    assert (D : (p | b * (b ^ (p - 1) - 1))).
    { replace (b * (b ^ (p - 1) - 1)) with (b ^ p - b).
      - apply Z.mod_divide; [lia|]. rewrite Zminus_mod, F, Z.sub_diag. apply Z.mod_0_l. lia.
      - replace p with (Z.succ (p - 1)) at 1 by lia. rewrite Z.pow_succ_r by lia. ring. }
    apply prime_mult in D; auto. destruct D; auto. contradiction. }
  destruct (Zdivide_dec q (p - 1)) as [D|ND].
  - apply Z.divide_pos_le in D; [|lia]. nia.
  - apply NB. pose proof (prime_rel_prime q Pq (p - 1) ND) as RP. apply rel_prime_bezout in RP. destruct RP as [u v UV].
    set (k := Z.abs u + Z.abs v). set (u' := u + k * (p - 1)). set (w := k * q - v).
    assert (U0 : 0 <= u') by (unfold u', k; nia). assert (W0 : 0 <= w) by (unfold w, k; nia).
    assert (E : q * u' = 1 + (p - 1) * w) by (unfold u', w; nia).
    assert (X1 : b ^ (q * u') mod p = 1) by (rewrite Z.pow_mul_r by lia; apply pow_mod1; auto; lia).
    rewrite E, Z.pow_add_r, Z.pow_1_r in X1 by nia. rewrite Z.pow_mul_r in X1 by lia.
    rewrite <- Zmult_mod_idemp_r in X1. rewrite (pow_mod1 p (b ^ (p - 1)) w) in X1 by (auto; lia).
    rewrite Z.mul_1_r in X1. apply div_mod1; [lia|exact X1].
Qed.

(** binary powering modulo N; lifts the two side conditions to cheap computations *)
Lemma pock_check N q a : 1 < N -> prime q -> (N - 1) mod q = 0 -> N < (q + 1) * (q + 1) -> 0 <= a ->
  Zpow_mod a (N - 1) N = 1 -> Z.gcd (Zpow_mod a ((N - 1) / q) N - 1) N = 1 -> prime N.
Proof.
  intros HN Pq D HB Ha H1 H2. pose proof (prime_ge_2 q Pq). apply (pocklington N q a); auto.
  - apply Z.mod_divide in D; auto. lia.
  - rewrite <- Zpow_mod_correct; auto. lia.
  - rewrite Zpow_mod_correct in H2 by lia.
    assert (E : forall x, Z.gcd (x mod N - 1) N = Z.gcd (x - 1) N); [|rewrite <- E; exact H2].
    intros x. rewrite Z.gcd_comm, (Z.gcd_comm (x - 1)). rewrite <- (Z.gcd_mod (x mod N - 1)), <- (Z.gcd_mod (x - 1)) by lia.
    rewrite Zminus_mod_idemp_l. reflexivity.
Qed.

Fixpoint trial (n : Z) (d : Z) (fuel : nat) : bool :=
  match fuel with O => true | S f => negb (n mod d =? 0) && trial n (d + 1) f end.
Lemma trial_spec n fuel d : trial n d fuel = true -> forall i, d <= i < d + Z.of_nat fuel -> n mod i <> 0.
Proof.
  revert d. induction fuel as [|f IH]; intros d H i Hi; [lia|]. simpl in H. apply andb_true_iff in H as [A B].
  apply negb_true_iff, Z.eqb_neq in A. destruct (Z.eq_dec i d) as [->|]; auto. apply (IH (d + 1)); auto. lia.
Qed.
Lemma trial_prime n fuel : 1 < n -> trial n 2 fuel = true -> n < (2 + Z.of_nat fuel) * (2 + Z.of_nat fuel) -> prime n.
Proof.
  intros H T L. destruct (prime_dec n) as [P|NP]; auto. exfalso. destruct (small_prime_divisor n H NP) as (p & P & D & S2).
  pose proof (prime_ge_2 p P). apply (trial_spec n fuel 2 T p); [nia|]. apply Z.mod_divide; auto. lia.
Qed.

Lemma prime_956881 : prime 956881.
Proof. apply (trial_prime _ 980); [lia|vm_compute; reflexivity|reflexivity]. Qed.
Lemma prime_641110271 : prime 641110271.
Proof. apply (pock_check _ 956881 7); [lia|apply prime_956881|reflexivity|reflexivity|lia|vm_compute; reflexivity|vm_compute; reflexivity]. Qed.
Lemma prime_2_52_47 : prime 4503599627370449.
Proof. apply (pock_check _ 641110271 3); [lia|apply prime_641110271|reflexivity|reflexivity|lia|vm_compute; reflexivity|vm_compute; reflexivity]. Qed.
