(** Facts about [get_group_index]: range, UTF-8 faithfulness, reachability of every collection. *)
From Coq Require Import ZifyBool ZifyNat ZifyN Znumtheory Zpow_facts.
From Verif Require Import Base BaseFacts Value Group.
Ltac Zify.zify_post_hook ::= Z.div_mod_to_equations.
Open Scope N_scope.
Local Arguments N.add : simpl never.
Local Arguments N.mul : simpl never.
Local Arguments N.sub : simpl never.
Local Arguments N.div : simpl never.
Local Arguments N.modulo : simpl never.
Local Arguments N.ltb : simpl never.
Local Arguments N.leb : simpl never.
Local Arguments N.pow : simpl never.

(** ** UTF-8: an independent decoder inverts the encoder *)
Fixpoint utf8_decode (bs : list N) : option pystr :=
  match bs with
  | [] => Some []
  | b1 :: r1 =>
    if b1 <? 128 then option_map (cons b1) (utf8_decode r1)
    else match r1 with
    | [] => None
    | b2 :: r2 =>
      if b1 <? 224 then option_map (cons ((b1 - 192) * 64 + (b2 - 128))) (utf8_decode r2)
      else match r2 with
      | [] => None
      | b3 :: r3 =>
        if b1 <? 240 then
          option_map (cons ((b1 - 224) * 4096 + (b2 - 128) * 64 + (b3 - 128))) (utf8_decode r3)
        else match r3 with
        | [] => None
        | b4 :: r4 =>
          option_map (cons ((b1 - 240) * 262144 + (b2 - 128) * 4096 + (b3 - 128) * 64 + (b4 - 128)))
                     (utf8_decode r4)
        end
      end
    end
  end.

Lemma utf8_char_decode c bs r : utf8_char c = Some bs ->
  utf8_decode (bs ++ r) = option_map (cons c) (utf8_decode r).
Proof.
  unfold utf8_char. intros H.
  destruct (c <? 128) eqn:E1.
  { injection H as <-. cbn [app utf8_decode]. now rewrite E1. }
  destruct (c <? 2048) eqn:E2.
  { injection H as <-. cbn [app utf8_decode].
    destruct (192 + c / 64 <? 128) eqn:F1; [lia|]. destruct (192 + c / 64 <? 224) eqn:F2; [|lia].
    do 2 f_equal. lia. }
  destruct ((55296 <=? c) && (c <=? 57343))%bool; [discriminate|].
  destruct (c <? 65536) eqn:E3.
  { injection H as <-. cbn [app utf8_decode].
    destruct (224 + c / 4096 <? 128) eqn:F1; [lia|]. destruct (224 + c / 4096 <? 224) eqn:F2; [lia|].
    destruct (224 + c / 4096 <? 240) eqn:F3; [|lia]. do 2 f_equal. lia. }
  destruct (c <? 1114112) eqn:E4; [|discriminate].
  injection H as <-. cbn [app utf8_decode].
  destruct (240 + c / 262144 <? 128) eqn:F1; [lia|]. destruct (240 + c / 262144 <? 224) eqn:F2; [lia|].
  destruct (240 + c / 262144 <? 240) eqn:F3; [lia|]. do 2 f_equal. lia.
Qed.
Lemma encode_decode s bs : encode s = Ok bs -> utf8_decode bs = Some s.
Proof.
  revert bs; induction s as [|c s IH]; simpl; intros bs H; [now injection H as <-|].
  destruct (utf8_char c) as [b|] eqn:E; [|discriminate].
  destruct (encode s) as [r|]; [|discriminate]. injection H as <-.
  rewrite (utf8_char_decode c b r E), (IH r eq_refl). reflexivity.
Qed.
(** a lone surrogate (or no code point at all) anywhere is the only reason encoding fails *)
Definition encodable_char (c : N) : Prop := c < 1114112 /\ ~ (55296 <= c <= 57343).
Definition encodable (s : pystr) : Prop := Forall encodable_char s.
Lemma utf8_char_none c : utf8_char c = None <-> ~ encodable_char c.
Proof.
  unfold utf8_char, encodable_char.
  destruct (c <? 128) eqn:E1; [split; [discriminate|lia]|].
  destruct (c <? 2048) eqn:E2; [split; [discriminate|lia]|].
  destruct ((55296 <=? c) && (c <=? 57343))%bool eqn:ES; [split; [lia|auto]|].
  destruct (c <? 65536) eqn:E3; [split; [discriminate|lia]|].
  destruct (c <? 1114112) eqn:E4; [split; [discriminate|lia]|]. split; [lia|auto].
Qed.
Lemma encodable_char_dec c : {encodable_char c} + {~ encodable_char c}.
Proof.
  destruct (utf8_char c) eqn:E.
  - left. destruct ((c <? 1114112) && negb ((55296 <=? c) && (c <=? 57343)))%bool eqn:F.
    + unfold encodable_char. lia.
    + exfalso. assert (utf8_char c = None) by (apply utf8_char_none; unfold encodable_char; lia). congruence.
  - right. now apply utf8_char_none.
Qed.
Lemma encodable_dec s : {encodable s} + {~ encodable s}.
Proof. apply Forall_dec, encodable_char_dec. Qed.
Lemma encode_spec s :
  (encodable s -> exists bs, encode s = Ok bs) /\ (~ encodable s -> encode s = Err UnicodeEncodeError).
Proof.
  induction s as [|c s [IH1 IH2]]; simpl.
  - split; eauto. intros H; exfalso; apply H; constructor.
  - destruct (utf8_char c) as [b|] eqn:E.
    + assert (C : encodable_char c).
      { destruct (encodable_char_dec c) as [|n]; auto. apply utf8_char_none in n. congruence. }
      split.
      * intros H. inversion H; subst. destruct (IH1 ltac:(assumption)) as [r ->]. eauto.
      * intros H. rewrite IH2; auto. intros H'; apply H; constructor; auto.
    + apply utf8_char_none in E. split; auto. intros H; inversion H; contradiction.
Qed.

(** ** the index *)
(** value of a big-endian byte string: [sum b_i * 256^(len-1-i)] *)
Fixpoint big_endian (bs : list N) : N :=
  match bs with [] => 0 | b :: r => b * 256 ^ N.of_nat (length r) + big_endian r end.
Lemma from_bytes_acc bs a :
  fold_left (fun acc b => acc * 256 + b) bs a = a * 256 ^ N.of_nat (length bs) + big_endian bs.
Proof.
  revert a; induction bs as [|b bs IH]; intros a; cbn [fold_left big_endian length].
  - change (256 ^ N.of_nat 0) with 1. lia.
  - rewrite IH. rewrite Nat2N.inj_succ, N.pow_succ_r by lia. lia.
Qed.
Lemma from_bytes_big_endian bs : from_bytes bs = big_endian bs.
Proof. unfold from_bytes. rewrite from_bytes_acc. lia. Qed.

Lemma index_ok id n i : get_group_index id n = Ok i -> (i < n)%nat.
Proof.
  unfold get_group_index. destruct (encode id) as [bs|]; [|discriminate].
  destruct n as [|n]; [discriminate|]. intros H; injection H as <-.
  pose proof (N.mod_lt (from_bytes bs) (N.of_nat (S n)) ltac:(lia)). lia.
Qed.
Lemma index_total id n : encodable id -> (0 < n)%nat -> exists i, get_group_index id n = Ok i /\ (i < n)%nat.
Proof.
  intros H Hn. destruct (proj1 (encode_spec id) H) as [bs E].
  assert (G : exists i, get_group_index id n = Ok i).
  { unfold get_group_index. rewrite E. destruct n; [lia|]. eauto. }
  destruct G as [i G]. exists i. split; auto. now apply index_ok in G.
Qed.
Lemma index_err id n : ~ encodable id -> get_group_index id n = Err UnicodeEncodeError.
Proof. intros H. unfold get_group_index. now rewrite (proj2 (encode_spec id) H). Qed.
Lemma index_err_inv id n e : get_group_index id (S n) = Err e -> e = UnicodeEncodeError /\ ~ encodable id.
Proof.
  intros H. destruct (encodable_dec id) as [Y|N].
  - destruct (@index_total id (S n) Y ltac:(lia)) as (i & E & _). congruence.
  - rewrite (index_err _ _ N) in H. injection H as <-. auto.
Qed.

(** ** reachability with an odd number of collections *)
Lemma repeat_power (f : nat -> nat) n : (forall i, (f i < n)%nat) ->
  exists i j, (i < j <= n)%nat /\ f i = f j.
Proof.
  intros B.
  assert (D : forall l, NoDup l -> NoDup (map f l) \/ exists x y, In x l /\ In y l /\ x <> y /\ f x = f y).
  { induction l as [|x l IH]; simpl; intros ND; [left; constructor|].
    inversion ND as [|? ? NI ND']; subst. destruct (IH ND') as [K|(a & b & Ha & Hb & Hab & E)].
    - destruct (in_dec Nat.eq_dec (f x) (map f l)) as [I|I].
      + right. apply in_map_iff in I as (y & E & Hy). exists x, y. repeat split; auto. intros ->; auto.
      + left. constructor; auto.
    - right. exists a, b. auto. }
  destruct (D (seq 0 (S n)) (seq_NoDup _ _)) as [K|(a & b & Ha & Hb & Hab & E)].
  - assert (L : (length (map f (seq 0 (S n))) <= length (seq 0 n))%nat).
    { apply NoDup_incl_length; auto. intros y Hy. apply in_map_iff in Hy as (x & <- & _).
      apply in_seq. pose proof (B x). lia. }
    rewrite map_length, !seq_length in L. lia.
  - apply in_seq in Ha. apply in_seq in Hb.
    destruct (Nat.lt_ge_cases a b); [exists a, b|exists b, a]; split; auto; lia.
Qed.

Lemma period_256 (n : nat) : Nat.Odd n ->
  exists p : nat, (0 < p)%nat /\ (Z.of_nat n | 256 ^ Z.of_nat p - 1)%Z.
Proof.
  intros [m Hm].
  destruct (repeat_power (fun i => Z.to_nat (256 ^ Z.of_nat i mod Z.of_nat n)) n) as (i & j & Hij & E).
  { intros i. pose proof (Z.mod_pos_bound (256 ^ Z.of_nat i) (Z.of_nat n)). lia. }
  exists (j - i)%nat. split; [lia|].
  assert (M : (256 ^ Z.of_nat i mod Z.of_nat n = 256 ^ Z.of_nat j mod Z.of_nat n)%Z).
  { pose proof (Z.mod_pos_bound (256 ^ Z.of_nat i) (Z.of_nat n)).
    pose proof (Z.mod_pos_bound (256 ^ Z.of_nat j) (Z.of_nat n)). lia. }
  assert (D : (Z.of_nat n | 256 ^ Z.of_nat i * (256 ^ Z.of_nat (j - i) - 1))%Z).
  { replace (256 ^ Z.of_nat i * (256 ^ Z.of_nat (j - i) - 1))%Z
      with (256 ^ Z.of_nat j - 256 ^ Z.of_nat i)%Z.
    - apply Z.mod_divide; [lia|]. rewrite Zminus_mod, M, Z.sub_diag. apply Z.mod_0_l. lia.
    - replace (Z.of_nat j) with (Z.of_nat i + Z.of_nat (j - i))%Z by lia.
      rewrite Z.pow_add_r by lia. replace (Z.of_nat i + Z.of_nat (j - i) - Z.of_nat i)%Z with (Z.of_nat (j-i)) by lia. ring. }
  apply Gauss with (1 := D).
  apply rel_prime_Zpower_r; [lia|].
  change 256%Z with (2 ^ 8)%Z. apply rel_prime_Zpower_r; [lia|].
  apply rel_prime_sym, prime_rel_prime; [apply prime_2|]. intros [c Hc]. lia.
Qed.

Definition ab (b : bool) : N := if b then 98 else 97.
Lemma encode_ab l : encode (map ab l) = Ok (map ab l).
Proof. induction l as [|b l IH]; simpl; auto. destruct b; cbn [ab utf8_char N.ltb N.compare]; simpl; rewrite IH; reflexivity. Qed.

Lemma big_endian_app a b : big_endian (a ++ b) = big_endian a * 256 ^ N.of_nat (length b) + big_endian b.
Proof.
  induction a as [|x a IH]; cbn [app big_endian length]; [lia|].
  rewrite IH, app_length, Nat2N.inj_add, N.pow_add_r. lia.
Qed.

(** blocks of length [p]: block with the last letter toggled *)
Definition block (p : nat) (t : bool) : list bool := repeat false (p - 1) ++ [t].
Fixpoint blocks (p k j : nat) : list bool :=     (* k blocks, the first j toggled *)
  match k with O => [] | S k' => block p (Nat.ltb 0 j) ++ blocks p k' (Nat.pred j) end.
Lemma block_value p t :
  big_endian (map ab (block p t)) = big_endian (map ab (block p false)) + (if t then 1 else 0).
Proof. unfold block. rewrite !map_app, !big_endian_app. destruct t; cbn; lia. Qed.
Lemma blocks_value (n p k j : nat) : (0 < p)%nat -> (j <= k)%nat -> (Z.of_nat n | 256 ^ Z.of_nat p - 1)%Z ->
  (exists q, Z.of_N (big_endian (map ab (blocks p k j)))
  = Z.of_N (big_endian (map ab (blocks p k 0))) + Z.of_nat j + q * Z.of_nat n)%Z.
Proof.
  intros Hp Hj Hn. revert j Hj; induction k as [|k IH]; intros j Hj.
  - assert (j = 0)%nat by lia. subst. exists 0%Z. lia.
  - cbn [blocks]. rewrite !map_app, !big_endian_app, !map_length.
    assert (LB : forall j, length (blocks p k j) = (k * p)%nat).
    { clear - Hp. induction k as [|k IH]; intros j; cbn [blocks]; auto.
      rewrite app_length, IH. unfold block. rewrite app_length, repeat_length. simpl. lia. }
    rewrite !LB, block_value.
    destruct (IH (Nat.pred j) ltac:(lia)) as [q Hq].
    cbn [Nat.pred]. change (0 <? 0)%nat with false.
    assert (P1 : exists r, (256 ^ Z.of_nat (k * p) = 1 + r * Z.of_nat n)%Z).
    { destruct Hn as [c Hc]. clear - Hc Hp. induction k as [|k [r IH]].
      - exists 0%Z. simpl. lia.
      - replace (Z.of_nat (S k * p)) with (Z.of_nat p + Z.of_nat (k * p))%Z by lia.
        rewrite Z.pow_add_r by lia. rewrite IH.
        exists (c + r + c * r * Z.of_nat n)%Z.
        replace (256 ^ Z.of_nat p)%Z with (1 + c * Z.of_nat n)%Z by lia. ring. }
    destruct P1 as [r Hr].
    rewrite !N2Z.inj_add, !N2Z.inj_mul, N2Z.inj_pow, nat_N_Z. change (Z.of_N 256) with 256%Z.
    rewrite N2Z.inj_add, Hr, Hq.
    destruct (0 <? j)%nat eqn:E.
    + exists (q + r)%Z. replace (Z.of_nat (Nat.pred j)) with (Z.of_nat j - 1)%Z by lia.
      change (Z.of_N 1) with 1%Z. ring.
    + exists q. replace (Z.of_nat (Nat.pred j)) with (Z.of_nat j) by lia.
      change (Z.of_N 0) with 0%Z. ring.
Qed.

Lemma index_ab l n : (0 < n)%nat ->
  get_group_index (map ab l) n = Ok (N.to_nat (big_endian (map ab l) mod N.of_nat n)).
Proof.
  intros H. unfold get_group_index. rewrite encode_ab, from_bytes_big_endian. destruct n; [lia|reflexivity].
Qed.

Lemma reach_odd n i : Nat.Odd n -> (i < n)%nat -> exists l, get_group_index (map ab l) n = Ok i.
Proof.
  intros O Hi. destruct (period_256 n O) as (p & Hp & D).
  set (base := (Z.of_N (big_endian (map ab (blocks p n 0))))).
  set (j := Z.to_nat ((Z.of_nat i - base) mod Z.of_nat n)).
  pose proof (Z.mod_pos_bound (Z.of_nat i - base) (Z.of_nat n) ltac:(lia)) as MB.
  exists (blocks p n j). rewrite index_ab by lia. f_equal.
  destruct (@blocks_value n p n j Hp ltac:(lia) D) as [q Hq]. fold base in Hq.
  assert (E : (Z.of_N (big_endian (map ab (blocks p n j)) mod N.of_nat n) = Z.of_nat i)%Z).
  { rewrite N2Z.inj_mod by lia. rewrite nat_N_Z, Hq.
    replace (Z.of_nat j) with ((Z.of_nat i - base) mod Z.of_nat n)%Z by lia.
    rewrite Z.mod_add by lia. rewrite Zplus_mod_idemp_r.
    replace (base + (Z.of_nat i - base))%Z with (Z.of_nat i) by lia. apply Z.mod_small. lia. }
  lia.
Qed.
Lemma reach_prime n i : prime (Z.of_nat n) -> (i < n)%nat -> exists l, get_group_index (map ab l) n = Ok i.
Proof.
  intros P Hi. destruct (Nat.Even_or_Odd n) as [[m Hm]|O]; [|now apply reach_odd].
  assert (n = 2)%nat.
  { apply prime_alt in P as [H1 H2]. destruct (Nat.eq_dec n 2); auto. exfalso.
    apply (H2 2%Z); [lia|]. exists (Z.of_nat m). lia. }
  subst n. rewrite H in *. destruct i as [|[|i]]; [exists [true]|exists [false]|lia]; reflexivity.
Qed.

(** ** 256 collections: the last byte of UTF-8 text is at most 0xBF *)
Lemma utf8_char_last c bs : utf8_char c = Some bs -> exists l b, bs = l ++ [b] /\ b < 192.
Proof.
  unfold utf8_char. intros H.
  destruct (c <? 128) eqn:E1; [injection H as <-; exists [], c; split; [reflexivity|lia]|].
  destruct (c <? 2048) eqn:E2.
  { injection H as <-. exists [192 + c / 64], (128 + c mod 64). split; [reflexivity|lia]. }
  destruct ((55296 <=? c) && (c <=? 57343))%bool; [discriminate|].
  destruct (c <? 65536) eqn:E3.
  { injection H as <-. eexists [_; _], (128 + c mod 64). split; [reflexivity|lia]. }
  destruct (c <? 1114112) eqn:E4; [|discriminate].
  injection H as <-. eexists [_; _; _], (128 + c mod 64). split; [reflexivity|lia].
Qed.
Lemma encode_last s bs : encode s = Ok bs -> bs = [] \/ exists l b, bs = l ++ [b] /\ b < 192.
Proof.
  revert bs; induction s as [|c s IH]; simpl; intros bs H; [injection H as <-; auto|].
  destruct (utf8_char c) as [b|] eqn:E; [|discriminate].
  destruct (encode s) as [r|]; [|discriminate]. injection H as <-. right.
  destruct (IH r eq_refl) as [->|(l & x & -> & Hx)].
  - rewrite app_nil_r. now apply utf8_char_last in E.
  - exists (b ++ l), x. now rewrite app_assoc.
Qed.
Lemma index_256 id i : get_group_index id 256 = Ok i -> (i < 192)%nat.
Proof.
  unfold get_group_index. destruct (encode id) as [bs|] eqn:E; [|discriminate].
  rewrite from_bytes_big_endian. change (N.of_nat 256) with 256.
  intros H. assert (Hi : i = N.to_nat (big_endian bs mod 256)) by (now injection H). clear H. subst i.
  destruct (encode_last id bs E) as [->|(l & b & -> & Hb)]; [cbn; lia|].
  rewrite big_endian_app. cbn [length big_endian]. change (256 ^ N.of_nat 1) with 256.
  change (256 ^ N.of_nat 0) with 1. rewrite N.add_comm, N.mod_add by lia.
  rewrite N.mod_small by lia. lia.
Qed.
