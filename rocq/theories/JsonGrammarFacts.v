(** The scanner of JsonText.v reads exactly the texts of JsonGrammar.v. *)
From Coq Require Import String Lia.
From Verif Require Import Base BaseFacts Dict DictFacts Intake JsonData JsonText JsonTextSpec JsonTextFacts JsonGrammar.
Import ListNotations.
Open Scope list_scope.
Open Scope N_scope.

Lemma is_ws_spec c : is_ws c = true <-> c = 32 \/ c = 9 \/ c = 10 \/ c = 13.
Proof. unfold is_ws. cbn. rewrite !Bool.orb_true_iff, !N.eqb_eq. intuition discriminate. Qed.
Lemma space_blank w : space w <-> blank w.
Proof. unfold space, blank. split; apply Forall_impl; intros c; apply is_ws_spec. Qed.
Lemma skip_split s : exists w, s = w ++ skip s /\ space w.
Proof.
  induction s as [|c s (w & E & H)]; [exists []; split; [reflexivity|constructor]|]. cbn [skip]. destruct (is_ws c) eqn:W.
  - exists (c :: w). split; [cbn; now rewrite <- E|]. constructor; [now apply is_ws_spec|exact H].
  - exists []. split; [reflexivity|constructor].
Qed.
Lemma span_digits_sound s : forall a r, span is_digit s = (a, r) -> s = a ++ r /\ Forall digit a.
Proof.
  induction s as [|c s IH]; intros a r E; cbn [span] in E; [injection E as <- <-; split; [reflexivity|constructor]|].
  destruct (is_digit c) eqn:D; [|injection E as <- <-; split; [reflexivity|constructor]].
  destruct (span is_digit s) as [a' r'] eqn:Sp. injection E as <- <-. destruct (IH a' r' eq_refl) as [-> F]. split; [reflexivity|]. constructor; [now apply is_digit_spec|exact F].
Qed.
Lemma int_part_sound s t r : int_part s = Some (t, r) -> s = t ++ r /\ natural t.
Proof.
  unfold int_part. destruct s as [|c s]; [discriminate|]. destruct (c =? 48) eqn:Z.
  - intros E. injection E as <- <-. apply N.eqb_eq in Z. subst. split; [reflexivity|now left].
  - destruct (is_digit c) eqn:D; [|discriminate]. destruct (span is_digit s) as [a r'] eqn:Sp. intros E. injection E as <- <-. apply span_digits_sound in Sp. destruct Sp as [-> F].
    split; [reflexivity|]. right. exists c, a. split; [reflexivity|]. split; [|exact F]. apply is_digit_spec in D. apply N.eqb_neq in Z. unfold digit in D. lia.
Qed.
Lemma signed_int_sound s t r : signed_int s = Some (t, r) -> s = t ++ r /\ signed t.
Proof.
  unfold signed_int. destruct s as [|c s]; [discriminate|]. destruct (c =? 45) eqn:M.
  - destruct (int_part s) as [[a r']|] eqn:I; [|discriminate]. intros E. injection E as <- <-. apply int_part_sound in I. destruct I as [-> N]. apply N.eqb_eq in M. subst. split; [reflexivity|]. right. eauto.
  - intros E. apply int_part_sound in E. destruct E as [-> N]. split; [reflexivity|now left].
Qed.
Lemma frac_sound s t r : frac_part s = (t, r) -> s = t ++ r /\ fraction t.
Proof.
  unfold frac_part. destruct s as [|c s]; [intros E; injection E as <- <-; split; [reflexivity|now left]|]. destruct (c =? 46) eqn:M; [|intros E; injection E as <- <-; split; [reflexivity|now left]].
  apply N.eqb_eq in M. subst. destruct (span is_digit s) as [a r'] eqn:Sp. apply span_digits_sound in Sp. destruct Sp as [-> F]. destruct a as [|d a]; intros E; injection E as <- <-.
  - split; [reflexivity|now left].
  - split; [reflexivity|]. right. exists (d :: a). split; [reflexivity|]. split; [discriminate|exact F].
Qed.
Lemma exp_sound s t r : exp_part s = (t, r) -> s = t ++ r /\ exponent t.
Proof.
  unfold exp_part. destruct s as [|c s]; [intros E; injection E as <- <-; split; [reflexivity|now left]|]. destruct (is_exp c) eqn:M; [|intros E; injection E as <- <-; split; [reflexivity|now left]].
  assert (Hc : c = 101 \/ c = 69) by (unfold is_exp in M; rewrite Bool.orb_true_iff, !N.eqb_eq in M; exact M).
  assert (P : exists sg s2, match s with g :: s2 => if is_sign g then ([g], s2) else ([], s) | [] => ([], []) end = (sg, s2) /\ s = sg ++ s2 /\ (sg = [] \/ sg = [43] \/ sg = [45])).
  { destruct s as [|g s2]; [exists [], []; auto|]. destruct (is_sign g) eqn:G; [|exists [], (g :: s2); auto]. exists [g], s2. split; [reflexivity|]. split; [reflexivity|].
    unfold is_sign in G. rewrite Bool.orb_true_iff, !N.eqb_eq in G. destruct G as [-> | ->]; auto. }
  destruct P as (sg & s2 & -> & -> & Hs). destruct (span is_digit s2) as [a r'] eqn:Sp. apply span_digits_sound in Sp. destruct Sp as [-> F]. destruct a as [|d a]; intros E; injection E as <- <-.
  - split; [reflexivity|now left].
  - split; [cbn [app]; now rewrite <- app_assoc|]. right. exists c, sg, (d :: a). repeat split; auto. discriminate.
Qed.
Lemma hexa1_spec c n : hex_value c = Some n <-> hexa1 c n.
Proof.
  unfold hex_value, hexa1, is_digit.
  destruct ((48 <=? c) && (c <=? 57)) eqn:A; [|destruct ((97 <=? c) && (c <=? 102)) eqn:B; [|destruct ((65 <=? c) && (c <=? 70)) eqn:C]];
    rewrite ?Bool.andb_true_iff, ?Bool.andb_false_iff, ?N.leb_le, ?N.leb_gt in *; split; intros H; try discriminate; try (injection H as <-); try (f_equal; lia); lia.
Qed.
Lemma u_value_spec s n r : u_value s = Some (n, r) <-> exists h, s = h ++ r /\ hexa h n.
Proof.
  split.
  - destruct s as [|a [|b [|c [|d s]]]]; try discriminate. cbn [u_value]. destruct (hex_value a) as [x|] eqn:A; [|discriminate]. destruct (hex_value b) as [y|] eqn:B; [|discriminate].
    destruct (hex_value c) as [z|] eqn:C; [|discriminate]. destruct (hex_value d) as [u|] eqn:D; [|discriminate]. intros E. injection E as <- <-. exists [a; b; c; d]. split; [reflexivity|].
    exists a, b, c, d, x, y, z, u. rewrite <- !hexa1_spec. auto 10.
  - intros (h & -> & a & b & c & d & x & y & z & u & -> & A & B & C & D & ->). apply hexa1_spec in A, B, C, D. cbn [app u_value]. now rewrite A, B, C, D.
Qed.
Lemma simple_escape_spec e c : simple_escape e = Some c <-> In (e, c) escapes.
Proof.
  unfold simple_escape, escapes. split.
  - repeat (match goal with |- context [e =? ?k] => destruct (N.eqb_spec e k) as [->|]; [intros E; injection E as <-; cbn; tauto|] end). discriminate.
  - cbn [In]. intros H. repeat (destruct H as [H|H]; [injection H as <- <-; reflexivity|]). destruct H.
Qed.
Lemma scan_string_sound f : forall s t r, scan_string f s = Some (t, r) -> exists u, s = u ++ 34 :: r /\ chars u t.
Proof.
  induction f as [|f IH]; intros s t r; cbn [scan_string]; [discriminate|]. destruct s as [|c s1]; [discriminate|].
  assert (M : forall ch x, match scan_string f x with Some (a, r') => Some (ch :: a, r') | None => None end = Some (t, r) -> exists t1 u, t = ch :: t1 /\ x = u ++ 34 :: r /\ chars u t1).
  { intros ch x E. destruct (scan_string f x) as [[a r']|] eqn:Sc; [|discriminate]. injection E as <- <-. destruct (IH _ _ _ Sc) as (u & E & H). eauto. }
  destruct (N.eqb_spec c 34) as [->|N34]; [intros E; injection E as <- <-; exists []; split; [reflexivity|constructor]|].
  destruct (N.eqb_spec c 92) as [->|N92].
  - destruct s1 as [|e s2]; [discriminate|]. destruct (N.eqb_spec e 117) as [->|N117].
    + destruct (u_value s2) as [[n s3]|] eqn:U; [|discriminate]. apply u_value_spec in U. destruct U as (h & -> & Hh).
      assert (K : ~ (high_surrogate n /\ exists h' m t', s3 = 92 :: 117 :: h' ++ t' /\ hexa h' m /\ low_surrogate m) ->
        match scan_string f s3 with Some (a, r') => Some (n :: a, r') | None => None end = Some (t, r) -> exists u, 92 :: 117 :: h ++ s3 = u ++ 34 :: r /\ chars u t).
      { intros NL E. destruct (M n s3 E) as (t1 & u & -> & -> & H). exists (92 :: 117 :: h ++ u). split; [cbn; now rewrite <- app_assoc|]. apply c_unit; [exact Hh|exact H|].
        intros [Hi (h' & m & t' & -> & Hh' & Lm)]. apply NL. split; [exact Hi|]. exists h', m, (t' ++ 34 :: r). split; [cbn; now rewrite <- app_assoc|auto]. }
      destruct (is_high n) eqn:Hi; [|apply K; intros [X _]; apply is_high_spec in X; congruence]. apply is_high_spec in Hi.
      destruct s3 as [|x [|y s4]]; try (apply K; intros [_ (h' & m & t' & X & _)]; discriminate X).
      destruct (N.eqb_spec x 92) as [->|Nx]; [|cbn [andb]; apply K; intros [_ (h' & m & t' & X & _)]; congruence].
      destruct (N.eqb_spec y 117) as [->|Ny]; [|cbn [andb]; apply K; intros [_ (h' & m & t' & X & _)]; congruence]. cbn [andb].
      destruct (u_value s4) as [[m s5]|] eqn:U; [|discriminate]. destruct (is_low m) eqn:Lm.
      * apply is_low_spec in Lm. apply u_value_spec in U. destruct U as (h' & -> & Hh'). intros E. destruct (M _ _ E) as (t1 & u & -> & -> & H).
        exists (92 :: 117 :: h ++ 92 :: 117 :: h' ++ u). split; [cbn; rewrite <- app_assoc; cbn; now rewrite <- app_assoc|]. now apply c_pair.
      * apply K. intros [_ (h' & m' & t' & X & Hh' & Lm')]. injection X as X. assert (Y : u_value s4 = Some (m', t')) by (apply u_value_spec; exists h'; auto). rewrite Y in U. injection U as -> _. apply is_low_spec in Lm'. congruence.
    + destruct (simple_escape e) as [ch|] eqn:Se; [|discriminate]. intros E. destruct (M _ _ E) as (t1 & u & -> & -> & H). exists (92 :: e :: u). split; [reflexivity|]. apply c_escape; [now apply simple_escape_spec|exact H].
  - destruct (N.ltb_spec c 32) as [L|L]; [discriminate|]. intros E. destruct (M _ _ E) as (t1 & u & -> & -> & H). exists (c :: u). split; [reflexivity|]. now apply c_plain.
Qed.
Lemma chars_tail_u t s : chars (92 :: 117 :: t) s -> exists h n t', t = h ++ t' /\ hexa h n.
Proof.
  intros H. inversion H as [|c t0 s0 A B C D|e c t0 s0 I D|h n t0 s0 Hh D NL|h n h' m t0 s0 Hh Hi Hh' Lm D]; subst.
  - now elim C.
  - exfalso. unfold escapes in I. cbn [In] in I. repeat (destruct I as [I|I]; [discriminate I|]). exact I.
  - eauto.
  - eauto.
Qed.
Lemma scan_string_complete u t : chars u t -> forall f rest, (length u < f)%nat -> scan_string f (u ++ 34 :: rest) = Some (t, rest).
Proof.
  intros H. induction H as [|c t s A B C H IH|e c t s I H IH|h n t s Hh H IH NL|h n h' m t s Hh Hi Hh' Lm H IH]; intros f rest L; (destruct f as [|f]; [cbn in L; lia|]).
  - reflexivity.
  - cbn [app scan_string]. apply N.eqb_neq in B, C. rewrite B, C. destruct (N.ltb_spec c 32); [lia|]. rewrite IH by (cbn in L; lia). reflexivity.
  - cbn [app scan_string]. change (92 =? 34) with false. change (92 =? 92) with true. cbv iota. assert (Ne : (e =? 117) = false).
    { apply N.eqb_neq. intros ->. unfold escapes in I. cbn [In] in I. repeat (destruct I as [I|I]; [discriminate I|]). exact I. }
    rewrite Ne. apply simple_escape_spec in I. rewrite I, IH by (cbn in L; lia). reflexivity.
  - cbn [app scan_string]. change (92 =? 34) with false. change (92 =? 92) with true. change (117 =? 117) with true. cbv iota. rewrite <- app_assoc.
    replace (u_value (h ++ t ++ 34 :: rest)) with (Some (n, t ++ 34 :: rest)) by (symmetry; apply u_value_spec; eauto).
    assert (R : scan_string f (t ++ 34 :: rest) = Some (s, rest)) by (apply IH; cbn in L; rewrite app_length in L; lia). rewrite R.
    destruct (is_high n) eqn:Hi; [|reflexivity]. apply is_high_spec in Hi. destruct t as [|x t]; [cbn [app]; destruct rest; reflexivity|]. cbn [app]. destruct t as [|y t]; cbn [app].
    + destruct (N.eqb_spec x 92) as [->|]; [|reflexivity]. exfalso. inversion H; try congruence.
    + destruct (N.eqb_spec x 92) as [->|]; [|reflexivity]. destruct (N.eqb_spec y 117) as [->|]; [|reflexivity]. cbn [andb].
      destruct (chars_tail_u _ _ H) as (h' & m & t' & -> & Hh'). rewrite <- app_assoc. replace (u_value (h' ++ t' ++ 34 :: rest)) with (Some (m, t' ++ 34 :: rest)) by (symmetry; apply u_value_spec; eauto).
      destruct (is_low m) eqn:Lm; [|reflexivity]. exfalso. apply NL. split; [exact Hi|]. apply is_low_spec in Lm. exists h', m, t'. auto.
  - cbn [app scan_string]. change (92 =? 34) with false. change (92 =? 92) with true. change (117 =? 117) with true. cbv iota. rewrite <- app_assoc. cbn [app]. rewrite <- app_assoc.
    replace (u_value (h ++ 92 :: 117 :: h' ++ t ++ 34 :: rest)) with (Some (n, 92 :: 117 :: h' ++ t ++ 34 :: rest)) by (symmetry; apply u_value_spec; eauto).
    apply is_high_spec in Hi. rewrite Hi. change (92 =? 92) with true. change (117 =? 117) with true. cbn [andb].
    replace (u_value (h' ++ t ++ 34 :: rest)) with (Some (m, t ++ 34 :: rest)) by (symmetry; apply u_value_spec; eauto). apply is_low_spec in Lm. rewrite Lm, IH; [reflexivity|].
    cbn in L. rewrite app_length in L. cbn in L. rewrite app_length in L. lia.
Qed.

Section Facts.
Variable float_repr : pystr -> pystr.
Notation scan := (scan float_repr). Notation items := (items float_repr). Notation members := (members float_repr). Notation constant := (constant float_repr). Notation number := (JsonText.number float_repr).
Notation reads := (reads float_repr). Notation elements := (elements float_repr). Notation pairs := (pairs float_repr). Notation scans := (scans float_repr).
Lemma number_sound s v r : number s = Some (v, r) -> exists t, s = t ++ r /\ reads t v.
Proof.
  unfold JsonText.number. destruct (signed_int s) as [[i r0]|] eqn:A; [|discriminate]. apply signed_int_sound in A. destruct A as [-> Hi].
  destruct (frac_part r0) as [fr r1] eqn:B. apply frac_sound in B. destruct B as [-> Hf]. destruct (exp_part r1) as [ex r2] eqn:C. apply exp_sound in C. destruct C as [-> He].
  intros E. injection E as <- <-. exists (i ++ fr ++ ex). split; [now rewrite <- !app_assoc|].
  destruct fr as [|x fr]; [destruct ex as [|y ex]|].
  - rewrite !app_nil_r. destruct (str_eqb i [45; 48]) eqn:Z; [apply str_eqb_eq in Z; subst; apply r_minus_zero|]. apply r_int; [exact Hi|]. apply str_eqb_neq. exact Z.
  - apply (r_float float_repr i [] (y :: ex)); auto. right. discriminate.
  - apply r_float; auto. left. discriminate.
Qed.
Lemma prefix_sound p s r : prefix p s = Some r -> s = p ++ r.
Proof.
  unfold prefix. destruct (str_eqb (firstn (length p) s) p) eqn:E; [|discriminate]. apply str_eqb_eq in E. intros X. injection X as <-. rewrite <- (firstn_skipn (length p) s) at 1. now rewrite E.
Qed.
Lemma constant_sound s v r : constant s = Some (v, r) -> exists t, s = t ++ r /\ reads t v.
Proof.
  unfold JsonText.constant.
  destruct (prefix (py "null") s) as [x|] eqn:P1; [intros E; injection E as <- <-; apply prefix_sound in P1; eexists; split; [exact P1|constructor]|].
  destruct (prefix (py "true") s) as [x|] eqn:P2; [intros E; injection E as <- <-; apply prefix_sound in P2; eexists; split; [exact P2|constructor]|].
  destruct (prefix (py "false") s) as [x|] eqn:P3; [intros E; injection E as <- <-; apply prefix_sound in P3; eexists; split; [exact P3|constructor]|].
  destruct (number s) as [[v' r']|] eqn:P4; [intros E; injection E as <- <-; now apply number_sound|].
  destruct (prefix (py "NaN") s) as [x|] eqn:P5; [intros E; injection E as <- <-; apply prefix_sound in P5; eexists; split; [exact P5|constructor]|].
  destruct (prefix (py "Infinity") s) as [x|] eqn:P6; [intros E; injection E as <- <-; apply prefix_sound in P6; eexists; split; [exact P6|constructor]|].
  destruct (prefix (py "-Infinity") s) as [x|] eqn:P7; [intros E; injection E as <- <-; apply prefix_sound in P7; eexists; split; [exact P7|constructor]|]. discriminate.
Qed.
Lemma items_S f s : items (S f) s =
  match scan f s with
  | None => None
  | Some (v, r) => match skip r with [] => None | x :: r' => if x =? 93 then Some ([v], r') else if x =? 44 then match items f (skip r') with Some (l, r2) => Some (v :: l, r2) | None => None end else None end
  end.
Proof. reflexivity. Qed.
Lemma members_S f s1 : members (S f) (34 :: s1) =
  match scan_string f s1 with
  | None => None
  | Some (k, r) => match skip r with [] => None | x :: r1 => if x =? 58 then
      match scan f (skip r1) with
      | None => None
      | Some (v, r2) => match skip r2 with [] => None | y :: r3 => if y =? 125 then Some ([(k, v)], r3) else if y =? 44 then match members f (skip r3) with Some (l, r4) => Some ((k, v) :: l, r4) | None => None end else None end
      end else None end
  end.
Proof. reflexivity. Qed.
Lemma members_no f q s1 : q <> 34 -> members (S f) (q :: s1) = None.
Proof. intros H. cbn [JsonText.members]. apply N.eqb_neq in H. now rewrite H. Qed.
Lemma space_app a b : space a -> space b -> space (a ++ b).
Proof. intros A B. apply Forall_app. auto. Qed.
Lemma elements_space w t l : space w -> elements t l -> elements (w ++ t) l.
Proof. intros W H. destruct H; rewrite app_assoc; constructor; auto using space_app. Qed.
Lemma pairs_space w t l : space w -> pairs t l -> pairs (w ++ t) l.
Proof. intros W H. destruct H; rewrite app_assoc; constructor; auto using space_app. Qed.
Lemma scan_sound f : (forall s v r, scan f s = Some (v, r) -> exists t, s = t ++ r /\ reads t v) /\
  (forall s l r, items f s = Some (l, r) -> exists t, s = t ++ 93 :: r /\ elements t l) /\
  (forall s l r, members f s = Some (l, r) -> exists t, s = t ++ 125 :: r /\ pairs t l).
Proof.
  induction f as [|f (IHs & IHi & IHm)]; [repeat split; discriminate|]. split; [|split].
  - intros s v r. destruct s as [|c s1]; [discriminate|].
    destruct (N.eq_dec c 34) as [->|N34].
    { cbn [JsonText.scan]. change (34 =? 34) with true. cbv iota. destruct (scan_string f s1) as [[t r']|] eqn:Sc; [|discriminate]. intros E. injection E as <- <-. apply scan_string_sound in Sc. destruct Sc as (u & -> & H). exists (34 :: u ++ [34]). split; [cbn; now rewrite <- app_assoc|]. now constructor. }
    destruct (N.eq_dec c 123) as [->|N123].
    { rewrite scan_dict. destruct (skip_split s1) as (w & Es & Hw). destruct (skip s1) as [|x r1]; [discriminate|]. destruct (N.eqb_spec x 125) as [->|Nx].
      - intros E. injection E as <- <-. exists (123 :: w ++ [125]). split; [cbn; rewrite <- app_assoc; cbn; now rewrite Es|]. now constructor.
      - destruct (members f (x :: r1)) as [[l r']|] eqn:M; [|discriminate]. intros E. injection E as <- <-. destruct (IHm _ _ _ M) as (t & Et & H). rewrite Es, Et. exists (123 :: (w ++ t) ++ [125]). split; [cbn; now rewrite <- !app_assoc|].
        apply (r_dict float_repr (w ++ t) l). now apply pairs_space. }
    destruct (N.eq_dec c 91) as [->|N91].
    { rewrite scan_list. destruct (skip_split s1) as (w & Es & Hw). destruct (skip s1) as [|x r1]; [discriminate|]. destruct (N.eqb_spec x 93) as [->|Nx].
      - intros E. injection E as <- <-. exists (91 :: w ++ [93]). split; [cbn; rewrite <- app_assoc; cbn; now rewrite Es|]. now constructor.
      - destruct (items f (x :: r1)) as [[l r']|] eqn:M; [|discriminate]. intros E. injection E as <- <-. destruct (IHi _ _ _ M) as (t & Et & H). rewrite Es, Et. exists (91 :: (w ++ t) ++ [93]). split; [cbn; now rewrite <- !app_assoc|].
        apply r_list. now apply elements_space. }
    rewrite scan_constant by assumption. apply constant_sound.
  - intros s l r. rewrite items_S. destruct (scan f s) as [[v r0]|] eqn:Sc; [|discriminate]. destruct (IHs _ _ _ Sc) as (t & -> & Hv).
    destruct (skip_split r0) as (w & Es & Hw). destruct (skip r0) as [|x r1]; [discriminate|]. rewrite Es. destruct (N.eqb_spec x 93) as [->|N93].
    + intros E. injection E as <- <-. exists (t ++ w). split; [now rewrite <- app_assoc|]. apply (el_one float_repr [] t v w); auto. constructor.
    + destruct (N.eqb_spec x 44) as [->|]; [|discriminate]. destruct (skip_split r1) as (w2 & Es2 & Hw2). destruct (items f (skip r1)) as [[l' r2]|] eqn:M; [|discriminate]. intros E. injection E as <- <-.
      destruct (IHi _ _ _ M) as (t' & Et & H). rewrite Es2, Et. exists (t ++ w ++ 44 :: w2 ++ t'). split; [rewrite <- !app_assoc; cbn; now rewrite <- app_assoc|].
      apply (el_more float_repr [] t v w (w2 ++ t') l'); auto; [constructor|]. now apply elements_space.
  - intros s l r. destruct s as [|q s1]; [discriminate|]. destruct (N.eq_dec q 34) as [->|Nq]; [|rewrite (members_no _ _ _ Nq); discriminate]. rewrite members_S.
    destruct (scan_string f s1) as [[k r0]|] eqn:Sk; [|discriminate]. apply scan_string_sound in Sk. destruct Sk as (u & -> & Hk).
    destruct (skip_split r0) as (w1 & Es1 & Hw1). destruct (skip r0) as [|x r1]; [discriminate|]. rewrite Es1. destruct (N.eqb_spec x 58) as [->|]; [|discriminate].
    destruct (skip_split r1) as (w2 & Es2 & Hw2). destruct (scan f (skip r1)) as [[v r2]|] eqn:Sc; [|discriminate]. destruct (IHs _ _ _ Sc) as (t & Et & Hv). rewrite Es2, Et.
    destruct (skip_split r2) as (w3 & Es3 & Hw3). destruct (skip r2) as [|y r3]; [discriminate|]. rewrite Es3. destruct (N.eqb_spec y 125) as [->|].
    + intros E. injection E as <- <-. exists (34 :: u ++ 34 :: w1 ++ 58 :: w2 ++ t ++ w3). split; [repeat (cbn [app]; rewrite <- ?app_assoc); reflexivity|].
      apply (pr_one float_repr [] u k w1 w2 t v w3); auto. constructor.
    + destruct (N.eqb_spec y 44) as [->|]; [|discriminate]. destruct (skip_split r3) as (w4 & Es4 & Hw4). destruct (members f (skip r3)) as [[l' r4]|] eqn:M; [|discriminate]. intros E. injection E as <- <-.
      destruct (IHm _ _ _ M) as (t' & Et' & H). rewrite Es4, Et'. exists (34 :: u ++ 34 :: w1 ++ 58 :: w2 ++ t ++ w3 ++ 44 :: w4 ++ t'). split; [repeat (cbn [app]; rewrite <- ?app_assoc); reflexivity|].
      apply (pr_more float_repr [] u k w1 w2 t v w3 (w4 ++ t') l'); auto; [constructor|]. now apply pairs_space.
Qed.
Lemma space_skip w s : space w -> skip (w ++ s) = skip s.
Proof. intros H. apply skip_blank. now apply space_blank. Qed.
Lemma headed_skip t s : headed t -> skip (t ++ s) = t ++ s.
Proof. intros (c & t' & -> & H & _). cbn [app]. now apply skip_head. Qed.
Lemma space_ends w c s : space w -> ~ digit c -> c <> 46 -> c <> 101 -> c <> 69 -> ends_number (w ++ c :: s).
Proof. intros H. apply blank_ends. now apply space_blank. Qed.
Definition el_scans (t : pystr) (l : list pv) : Prop := forall f rest, (length t + 1 < f)%nat ->
  (exists c s, skip (t ++ 93 :: rest) = c :: s /\ c <> 93) /\ items f (skip (t ++ 93 :: rest)) = Some (l, rest).
Definition pr_scans (t : pystr) (l : list (pystr * pv)) : Prop := forall f rest, (length t < f)%nat ->
  (exists c s, skip (t ++ 125 :: rest) = c :: s /\ c <> 125) /\ members f (skip (t ++ 125 :: rest)) = Some (l, rest).
Lemma scan_complete : (forall t v, reads t v -> scans t v) /\ (forall t l, elements t l -> el_scans t l) /\ (forall t l, pairs t l -> pr_scans t l).
Proof.
  apply grammar_ind.
  - apply (word_scans float_repr "null" PNone 110 (py "ull")); try reflexivity; try discriminate.
  - apply (word_scans float_repr "true" (PBool true) 116 (py "rue")); try reflexivity; try discriminate.
  - apply (word_scans float_repr "false" (PBool false) 102 (py "alse")); try reflexivity; try discriminate.
  - apply (word_scans float_repr "NaN" (PNum (py "nan")) 78 (py "aN")); try reflexivity; try discriminate.
  - apply (word_scans float_repr "Infinity" (PNum (py "inf")) 73 (py "nfinity")); try reflexivity; try discriminate.
  - apply (word_scans float_repr "-Infinity" (PNum (py "-inf")) 45 (py "Infinity")); try reflexivity; try discriminate.
  - intros i Hi N0. pose proof (number_scans float_repr i [] [] Hi (or_introl eq_refl) (or_introl eq_refl)) as H. rewrite !app_nil_r in H. apply str_eqb_neq in N0. now rewrite N0 in H.
  - pose proof (number_scans float_repr (py "-0") [] [] (or_intror (ex_intro _ [48] (conj eq_refl (or_introl eq_refl)))) (or_introl eq_refl) (or_introl eq_refl)) as H. exact H.
  - intros i fr ex Hi Hf He O. pose proof (number_scans float_repr i fr ex Hi Hf He) as H. destruct fr as [|x fr]; [destruct ex as [|y ex]; [destruct O as [O|O]; now elim O|exact H]|exact H].
  - intros t s H. split; [eexists _, _; split; [reflexivity|split; [reflexivity|discriminate]]|]. intros f rest L _. destruct f as [|f]; [lia|]. cbn [app JsonText.scan]. change (34 =? 34) with true. cbv iota. rewrite <- app_assoc. cbn [app].
    rewrite (scan_string_complete t s H f rest); [reflexivity|]. cbn in L. rewrite app_length in L. cbn in L. lia.
  - intros w Hw. split; [eexists _, _; split; [reflexivity|split; [reflexivity|discriminate]]|]. intros f rest L _. destruct f as [|f]; [lia|]. cbn [app]. rewrite scan_list, <- app_assoc, (space_skip w _ Hw). reflexivity.
  - intros t l _ IH. split; [eexists _, _; split; [reflexivity|split; [reflexivity|discriminate]]|]. intros f rest L _. destruct f as [|f]; [lia|]. cbn [app]. rewrite scan_list, <- app_assoc. cbn [app].
    cbn in L. rewrite app_length in L. cbn in L. destruct (IH f rest) as [(c & s & E & N93) G]; [lia|]. rewrite E in *. apply N.eqb_neq in N93. now rewrite N93, G.
  - intros w Hw. split; [eexists _, _; split; [reflexivity|split; [reflexivity|discriminate]]|]. intros f rest L _. destruct f as [|f]; [lia|]. cbn [app]. rewrite scan_dict, <- app_assoc, (space_skip w _ Hw). reflexivity.
  - intros t l _ IH. split; [eexists _, _; split; [reflexivity|split; [reflexivity|discriminate]]|]. intros f rest L _. destruct f as [|f]; [lia|]. cbn [app]. rewrite scan_dict, <- app_assoc. cbn [app].
    cbn in L. rewrite app_length in L. cbn in L. destruct (IH f rest) as [(c & s & E & N125) G]; [lia|]. rewrite E in *. apply N.eqb_neq in N125. rewrite N125, G. reflexivity.
  - intros w t v w' Hw _ [Hd Ht] Hw' f rest L. rewrite !app_length in L. rewrite <- !app_assoc, (space_skip w _ Hw), (headed_skip t _ Hd). split; [destruct Hd as (c & t' & -> & _ & N93); exists c, (t' ++ w' ++ 93 :: rest); auto|].
    destruct f as [|f]; [lia|]. rewrite items_S, Ht; [|lia|apply space_ends; auto; unfold digit; lia]. rewrite (space_skip w' _ Hw'). reflexivity.
  - intros w t v w' t' l Hw _ [Hd Ht] Hw' _ IH f rest L. repeat (rewrite app_length in L; cbn [length] in L). repeat (rewrite <- app_assoc; cbn [app]). rewrite (space_skip w _ Hw), (headed_skip t _ Hd).
    split; [destruct Hd as (c & u & -> & _ & N93); exists c, (u ++ w' ++ 44 :: t' ++ 93 :: rest); auto|].
    destruct f as [|f]; [lia|]. rewrite items_S, Ht; [|lia|apply space_ends; auto; unfold digit; lia]. rewrite (space_skip w' _ Hw'). cbn [skip]. change (is_ws 44) with false. cbv iota. change (44 =? 93) with false. change (44 =? 44) with true. cbv iota.
    destruct (IH f rest) as [_ G]; [lia|]. now rewrite G.
  - intros w k s w1 w2 t v w' Hw Hk Hw1 Hw2 _ [Hd Ht] Hw' f rest L. repeat (rewrite app_length in L; cbn [length] in L). repeat (rewrite <- app_assoc; cbn [app]). rewrite (space_skip w _ Hw). rewrite (skip_head 34 _ eq_refl).
    split; [eexists _, _; split; [reflexivity|discriminate]|]. destruct f as [|f]; [lia|]. rewrite members_S, (scan_string_complete k s Hk) by lia.
    rewrite (space_skip w1 _ Hw1), (skip_head 58 _ eq_refl). change (58 =? 58) with true. cbv iota. rewrite (space_skip w2 _ Hw2), (headed_skip t _ Hd). rewrite Ht; [|lia|apply space_ends; auto; unfold digit; lia].
    rewrite (space_skip w' _ Hw'). reflexivity.
  - intros w k s w1 w2 t v w' t' l Hw Hk Hw1 Hw2 _ [Hd Ht] Hw' _ IH f rest L. repeat (rewrite app_length in L; cbn [length] in L). repeat (rewrite <- app_assoc; cbn [app]). rewrite (space_skip w _ Hw). rewrite (skip_head 34 _ eq_refl).
    split; [eexists _, _; split; [reflexivity|discriminate]|]. destruct f as [|f]; [lia|]. rewrite members_S, (scan_string_complete k s Hk) by lia.
    rewrite (space_skip w1 _ Hw1), (skip_head 58 _ eq_refl). change (58 =? 58) with true. cbv iota. rewrite (space_skip w2 _ Hw2), (headed_skip t _ Hd). rewrite Ht; [|lia|apply space_ends; auto; unfold digit; lia].
    rewrite (space_skip w' _ Hw'), (skip_head 44 _ eq_refl). change (44 =? 125) with false. change (44 =? 44) with true. cbv iota. destruct (IH f rest) as [_ G]; [lia|]. now rewrite G.
Qed.
Lemma loads_reads t v : loads float_repr t = Ok v <-> json_reads float_repr t v.
Proof.
  unfold loads. split.
  - destruct (match t with c :: _ => c =? 65279 | [] => false end); [discriminate|]. destruct (skip_split t) as (w & E & Hw). destruct (scan (3 * length t + 3) (skip t)) as [[v' r]|] eqn:Sc; [|discriminate].
    destruct (proj1 (scan_sound _) _ _ _ Sc) as (t' & Et & H). destruct (skip_split r) as (w' & Er & Hw'). destruct (skip r) as [|x r']; [|discriminate]. intros X. injection X as <-. rewrite app_nil_r in Er. subst r. exists w, t', w'. rewrite E, Et. auto.
  - intros (w & t' & w' & -> & Hw & H & Hw'). destruct (proj1 scan_complete _ _ H) as [Hd Hs].
    assert (B : match w ++ t' ++ w' with c :: _ => c =? 65279 | [] => false end = false).
    { destruct Hw as [|c w Hc Hw]; [|cbn; destruct Hc as [-> | [-> | [-> | ->]]]; reflexivity]. cbn [app]. destruct Hd as (c & u & -> & _). cbn [app]. apply N.eqb_neq. intros ->. clear - H.
      inversion H; subst; try discriminate.
      - match goal with X : signed _ |- _ => destruct (signed_head _ X) as (c & x & E & D) end. injection E as <- _. unfold digit in D. lia.
      - match goal with X : signed _ |- _ => destruct (signed_head _ X) as (c & x & E & D) end. subst. match goal with E : (_ :: _) ++ _ = _ |- _ => cbn in E; injection E as E _ end. unfold digit in D. lia. }
    rewrite B, (space_skip w _ Hw), (headed_skip t' _ Hd). rewrite Hs; [|rewrite !app_length; lia|].
    + rewrite <- (app_nil_r w'), (space_skip w' [] Hw'). reflexivity.
    + destruct Hw' as [|c w' Hc Hw']; cbn; [exact Logic.I|]. unfold digit. lia.
Qed.
End Facts.
