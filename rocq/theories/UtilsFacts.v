From Coq Require Import Znumtheory.
From Verif Require Import Base Float53 Float53Facts Utils Primality.
Open Scope Z_scope.

(** ** specification vocabulary *)
(** no divisor strictly between 1 and n *)
Definition no_divisor (n : Z) : Prop := forall d, 1 < d < n -> ~ (d | n).

Lemma no_divisor_prime n : 2 <= n -> (no_divisor n <-> prime n).
Proof.
  intros Hn. split; intros H.
  - apply prime_alt. split; [lia|]. intros d Hd. apply H; lia.
  - intros d Hd. apply prime_alt in H as [_ H]. apply H; lia.
Qed.

Lemma zrange_In a b i : In i (zrange a b) <-> a <= i < b.
Proof.
  unfold zrange. rewrite in_map_iff. split.
  - intros (k & <- & Hk). apply in_seq in Hk. lia.
  - intros H. exists (Z.to_nat (i - a)). split; [lia|]. apply in_seq. lia.
Qed.

Lemma forallb_false_exists A (f : A -> bool) l : forallb f l = false -> exists x, In x l /\ f x = false.
Proof.
  induction l as [|x l IH]; simpl; [discriminate|].
  destruct (f x) eqn:E; simpl; intros H; [destruct (IH H) as (y & ? & ?)|]; eauto.
Qed.

Lemma is_prime_nonneg n : 0 <= n -> exists b, is_prime n = Ok b.
Proof. intros H. unfold is_prime. destruct (n <? 0) eqn:E; [lia|]. eauto. Qed.

Lemma is_prime_spec n : 0 <= n < 2 ^ 52 -> exists b, is_prime n = Ok b /\ (b = true <-> no_divisor n).
Proof.
  intros Hn. unfold is_prime. destruct (n <? 0) eqn:E; [lia|]. eexists; split; [reflexivity|].
  rewrite f_sqrt_trunc by exact Hn.
  pose proof (Z.sqrt_spec n ltac:(lia)) as S. cbv zeta in S. pose proof (Z.sqrt_nonneg n) as SN.
  split.
  - intros F d Hd [c Hc]. rewrite forallb_forall in F.
    assert (P : forall x, 2 <= x <= Z.sqrt n -> (x | n) -> False).
    { intros x Hx Hdiv. assert (I : In x (zrange 2 (Z.sqrt n + 1))) by (apply zrange_In; lia).
      apply F in I. apply negb_true_iff in I. apply Z.eqb_neq in I. apply I. apply Zdivide_mod; auto. }
    destruct (Z_le_gt_dec d (Z.sqrt n)) as [L|G].
    + apply (P d); [lia|]. exists c; exact Hc.
    + apply (P c); [|exists d; lia]. split; [nia|].
      apply Z.nlt_ge. intros L. nia.
  - intros ND. apply forallb_forall. intros d Hd. apply zrange_In in Hd.
    apply negb_true_iff, Z.eqb_neq. intros M. apply (ND d).
    + split; [lia|]. nia.
    + apply Zmod_divide; lia.
Qed.

Definition step1 (v : Z) : res (Z + Z) :=
  match is_prime v with Err e => Err e | Ok true => Ok (inr v) | Ok false => Ok (inl (v + 1)) end.
Lemma search_H v : search 1 v = step1 v. Proof. reflexivity. Qed.
Lemma search_O p v : search (xO p) v = match search p v with Ok (inl v') => search p v' | r => r end.
Proof. reflexivity. Qed.
Lemma search_I p v : search (xI p) v =
  match step1 v with
  | Ok (inl v1) => match search p v1 with Ok (inl v') => search p v' | r => r end
  | r => r end.
Proof. reflexivity. Qed.

(** outcome of the search: either the first accepted candidate, or all fuel used *)
Lemma search_spec p v : 0 <= v ->
  (exists q, search p v = Ok (inr q) /\ v <= q < v + Z.pos p /\ is_prime q = Ok true /\
             forall w, v <= w < q -> is_prime w = Ok false)
  \/ (search p v = Ok (inl (v + Z.pos p)) /\ forall w, v <= w < v + Z.pos p -> is_prime w = Ok false).
Proof.
  revert v. 
  assert (ST : forall v, 0 <= v -> (step1 v = Ok (inr v) /\ is_prime v = Ok true) \/
                         (step1 v = Ok (inl (v + 1)) /\ is_prime v = Ok false)).
  { intros v Hv. unfold step1. destruct (is_prime_nonneg v Hv) as ([] & ->); auto. }
  induction p as [p IH|p IH|]; intros v Hv.
  - rewrite search_I. destruct (ST v Hv) as [[-> P]|[-> P]].
    + left. exists v. repeat split; auto; try lia. 
    + destruct (IH (v + 1) ltac:(lia)) as [(q & -> & B & PQ & W)|[-> W]].
      * left. exists q. repeat split; auto; try lia. intros w Hw.
        destruct (Z.eq_dec w v) as [->|]; auto. apply W; lia.
      * destruct (IH (v + 1 + Z.pos p) ltac:(lia)) as [(q & -> & B & PQ & W2)|[-> W2]].
        -- left. exists q. repeat split; auto; try lia. intros w Hw.
           destruct (Z.eq_dec w v) as [->|]; auto.
           destruct (Z_lt_le_dec w (v + 1 + Z.pos p)); [apply W|apply W2]; lia.
        -- right. split; [do 2 f_equal; lia|]. intros w Hw.
           destruct (Z.eq_dec w v) as [->|]; auto.
           destruct (Z_lt_le_dec w (v + 1 + Z.pos p)); [apply W|apply W2]; lia.
  - rewrite search_O. destruct (IH v Hv) as [(q & -> & B & PQ & W)|[-> W]].
    + left. exists q. repeat split; auto; try lia.
    + destruct (IH (v + Z.pos p) ltac:(lia)) as [(q & -> & B & PQ & W2)|[-> W2]].
      * left. exists q. repeat split; auto; try lia. intros w Hw.
        destruct (Z_lt_le_dec w (v + Z.pos p)); [apply W|apply W2]; lia.
      * right. split; [do 2 f_equal; lia|]. intros w Hw.
        destruct (Z_lt_le_dec w (v + Z.pos p)); [apply W|apply W2]; lia.
  - rewrite search_H. destruct (ST v Hv) as [[-> P]|[-> P]].
    + left. exists v. repeat split; auto; try lia.
    + right. split; auto. intros w Hw. replace w with v by lia. auto.
Qed.

(** 2^31 - 1 is accepted: an upper bound for every search that starts below it *)
Definition big_prime : Z := 4503599627370449.        (* 2^52 - 47 *)
Lemma big_prime_true : is_prime big_prime = Ok true.
Proof.
  destruct (is_prime_spec big_prime) as (b & E & S); [unfold big_prime; lia|]. rewrite E. f_equal.
  apply S. apply no_divisor_prime; [unfold big_prime; lia|]. exact prime_2_52_47.
Qed.

Lemma next_prime_from_spec v : 0 <= v <= big_prime ->
  exists n, next_prime_from v = Ok n /\ v <= n <= big_prime /\ no_divisor n /\
            forall w, v <= w < n -> ~ no_divisor w.
Proof.
  intros Hv. unfold next_prime_from.
  assert (BP : forall w, 0 <= w <= big_prime -> 0 <= w < 2 ^ 52).
  { intros w Hw. unfold big_prime in Hw. assert (4503599627370449 < 2 ^ 52) by reflexivity. lia. }
  destruct (search_spec search_fuel v ltac:(lia)) as [(q & -> & B & PQ & W)|[-> W]].
  - assert (Q : q <= big_prime).
    { apply Z.nlt_ge. intros L. specialize (W big_prime ltac:(lia)). rewrite big_prime_true in W. discriminate. }
    exists q. repeat split; auto; try lia.
    + destruct (is_prime_spec q (BP q ltac:(lia))) as (b & E & S). apply S. congruence.
    + intros w Hw ND. destruct (is_prime_spec w (BP w ltac:(lia))) as (b & E & S).
      apply S in ND. rewrite W in E by lia. congruence.
  - exfalso. specialize (W big_prime). rewrite big_prime_true in W.
    assert (Z.pos search_fuel = 4503599627370496) by reflexivity. unfold big_prime in *.
    discriminate W. lia.
Qed.

Lemma ceil_div_exact a b : 0 <= a < 2 ^ 53 -> 0 < b <= 2 ^ 1000 -> ceil_div a b = zceil a b.
Proof.
  intros Ha Hb. unfold ceil_div.
  replace ((a =? 0) || Bool.eqb (a <? 0) (b <? 0)) with true.
  - rewrite !Z.abs_eq by lia. apply f_ceil_div; auto.
  - destruct (a <? 0) eqn:E1; [lia|]. destruct (b <? 0) eqn:E2; [lia|]. simpl. now rewrite orb_true_r.
Qed.

Lemma pow53_le : 2 ^ 53 <= 2 ^ 1000. Proof. apply Z.pow_le_mono_r; lia. Qed.

Lemma number_of_collections_spec cap mcs :
  1 <= cap < 2 ^ 53 -> 1 <= mcs <= 2 ^ 53 -> cap <= mcs * big_prime ->
  exists n, number_of_collections cap mcs = Ok n
    /\ cap <= mcs * n /\ 1 <= n /\ n <= big_prime /\ no_divisor n
    /\ forall w, 0 <= w < n -> cap <= mcs * w -> ~ no_divisor w.
Proof.
  intros Hc Hm Hb. unfold number_of_collections.
  destruct (mcs =? 0) eqn:E; [lia|]. pose proof pow53_le.
  rewrite ceil_div_exact by lia.
  pose proof (zceil_spec cap mcs ltac:(lia)) as Z.
  assert (ZL : zceil cap mcs <= big_prime) by (apply zceil_le; lia).
  assert (ZG : 0 < zceil cap mcs) by (apply zceil_gt; lia).
  destruct (next_prime_from_spec (zceil cap mcs) ltac:(lia)) as (n & -> & B & ND & M).
  exists n. repeat split; auto; try lia; try nia.
  intros w Hw Hcap. apply M. split; [|lia].
  apply zceil_le; [lia|]. exact Hcap.
Qed.

Lemma ceil_mul_exact c : 0 <= c <= 2 ^ 51 -> ceil_mul_1_5 c = zceil (3 * c) 2.
Proof. intros H. unfold ceil_mul_1_5. destruct (0 <=? c) eqn:E; [|lia]. apply f_ceil_mul_1_5; auto. Qed.

Lemma next_number_of_collections_spec cur mcs :
  1 <= cur <= 2 ^ 51 -> 1 <= mcs <= 2 ^ 53 -> 2 * cur <= mcs * big_prime ->
  exists n, next_number_of_collections cur mcs = Ok n
    /\ 3 * cur <= 2 * (mcs * n) /\ no_divisor n
    /\ forall w, 0 <= w < n -> 3 * cur <= 2 * (mcs * w) -> ~ no_divisor w.
Proof.
  intros Hc Hm Hb. unfold next_number_of_collections.
  destruct (mcs =? 0) eqn:E; [lia|]. pose proof pow53_le.
  rewrite ceil_mul_exact by lia.
  pose proof (zceil_spec (3 * cur) 2 ltac:(lia)) as Z2. set (s := zceil (3 * cur) 2) in *.
  rewrite ceil_div_exact by lia.
  pose proof (zceil_spec s mcs ltac:(lia)) as Z.
  assert (ZL : zceil s mcs <= big_prime) by (apply zceil_le; lia).
  assert (ZG : 0 < zceil s mcs) by (apply zceil_gt; lia).
  destruct (next_prime_from_spec (zceil s mcs) ltac:(lia)) as (n & -> & B & ND & M).
  exists n. repeat split; auto; try lia; try nia.
  intros w Hw Hcap. apply M. split; [|lia].
  apply zceil_le; [lia|]. lia.
Qed.
