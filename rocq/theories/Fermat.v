(** Fermat's little theorem over Z: multiplication by [a] permutes the residues 1..p-1. *)
From Coq Require Import ZArith Znumtheory Lia List Permutation.
Import ListNotations.
Open Scope Z_scope.

Definition residues (p : Z) : list Z := map Z.of_nat (seq 1 (Z.to_nat (p - 1))).
Lemma residues_in p x : In x (residues p) <-> 1 <= x < p.
Proof.
  unfold residues. rewrite in_map_iff. split.
  - intros (i & <- & I). apply in_seq in I. lia.
  - intros H. exists (Z.to_nat x). split; [lia|]. apply in_seq. lia.
Qed.
Lemma residues_nodup p : NoDup (residues p).
Proof. apply FinFun.Injective_map_NoDup; [intros a b; apply Nat2Z.inj|apply seq_NoDup]. Qed.
Definition zprod (l : list Z) : Z := fold_right Z.mul 1 l.
Lemma zprod_perm l l' : Permutation l l' -> zprod l = zprod l'.
Proof. induction 1; simpl; lia. Qed.
Lemma zprod_scaled a p l : 0 < p ->
  zprod (map (fun i => (a * i) mod p) l) mod p = (a ^ Z.of_nat (length l) * zprod l) mod p.
Proof.
  intros Hp. induction l as [|x l IH]; [reflexivity|].
  cbn [map zprod fold_right length]. fold (zprod l). fold (zprod (map (fun i => (a * i) mod p) l)).
  rewrite Z.mul_mod, IH, <- Z.mul_mod by lia. rewrite Z.mul_mod_idemp_l by lia.
  rewrite Nat2Z.inj_succ, Z.pow_succ_r by lia. f_equal. ring.
Qed.
Lemma prime_zprod p l : prime p -> (p | zprod l) -> exists x, In x l /\ (p | x).
Proof.
  intros P. induction l as [|x l IH]; simpl; intros D.
  - pose proof (prime_ge_2 p P). apply Z.divide_1_r in D. lia.
  - apply prime_mult in D; auto. destruct D as [D|D]; [eauto|]. destruct (IH D) as (y & I & Dy). eauto.
Qed.
Lemma fermat_coprime p a : prime p -> ~ (p | a) -> (p | a ^ (p - 1) - 1).
Proof.
  intros P NA. pose proof (prime_ge_2 p P) as G.
  set (f := fun i => (a * i) mod p).
  assert (Pm : Permutation (map f (residues p)) (residues p)).
  { apply NoDup_Permutation_bis.
    - assert (INJ : forall x y, In x (residues p) -> In y (residues p) -> f x = f y -> x = y).
      { intros x y Ix Iy E. apply residues_in in Ix, Iy. unfold f in E.
        assert (D : (p | a * (x - y))).
        { apply Z.mod_divide; [lia|]. replace (a * (x - y)) with (a * x - a * y) by ring. rewrite Zminus_mod, E, Z.sub_diag. apply Z.mod_0_l. lia. }
        apply prime_mult in D; auto. destruct D as [D|[k D]]; [contradiction|]. destruct (Z.lt_trichotomy k 0) as [K|[K|K]]; [nia|subst; lia|nia]. }
      pose proof (residues_nodup p) as ND. revert INJ ND. generalize (residues p) as l.
      induction l as [|x l IH]; intros INJ ND; simpl; [constructor|]. inversion ND as [|? ? NI ND']; subst. constructor.
      + intros I. apply in_map_iff in I as (y & E & I). apply NI. rewrite <- (INJ y x); simpl; auto.
      + apply IH; auto. intros y z Iy Iz. apply INJ; simpl; auto.
    - rewrite map_length. apply Nat.le_refl.
    - intros y I. apply in_map_iff in I as (x & <- & I). apply residues_in in I. apply residues_in. unfold f.
      pose proof (Z.mod_pos_bound (a * x) p ltac:(lia)) as B. assert ((a * x) mod p <> 0); [|lia].
      intros E. apply Z.mod_divide in E; [|lia]. apply prime_mult in E; auto. destruct E as [E|E]; [contradiction|].
      apply Z.divide_pos_le in E; lia. }
  pose proof (zprod_scaled a p (residues p) ltac:(lia)) as S. fold f in S. rewrite (zprod_perm _ _ Pm) in S.
  assert (L : Z.of_nat (length (residues p)) = p - 1) by (unfold residues; rewrite map_length, seq_length; lia).
  rewrite L in S. set (W := zprod (residues p)) in *.
  assert (D : (p | W * (a ^ (p - 1) - 1))).
  { apply Z.mod_divide; [lia|]. replace (W * (a ^ (p - 1) - 1)) with (a ^ (p - 1) * W - W) by ring.
    rewrite Zminus_mod, <- S, Z.sub_diag. apply Z.mod_0_l. lia. }
  apply prime_mult in D; auto. destruct D as [D|D]; auto. exfalso.
  apply (prime_zprod p _ P) in D as (x & I & D). apply residues_in in I. apply Z.divide_pos_le in D; lia.
Qed.
Theorem fermat p a : prime p -> 0 <= a -> a ^ p mod p = a mod p.
Proof.
  intros P Ha. pose proof (prime_ge_2 p P) as G.
  destruct (Zdivide_dec p a) as [D|ND].
  - pose proof D as D'. apply Z.mod_divide in D'; [|lia]. rewrite D'. apply Z.mod_divide; [lia|].
    replace p with (Z.succ (p - 1)) at 2 by lia. rewrite Z.pow_succ_r by lia. apply Z.divide_mul_l; auto.
  - destruct (fermat_coprime p a P ND) as [k E].
    replace p with (Z.succ (p - 1)) at 1 by lia. rewrite Z.pow_succ_r by lia.
    replace (a ^ (p - 1)) with (1 + k * p) by lia. replace (a * (1 + k * p)) with (a + (a * k) * p) by ring.
    apply Z.mod_add. lia.
Qed.
