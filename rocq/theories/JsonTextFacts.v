(** Lemmas about JsonText.v: what json.dumps writes, json.loads reads back (C95). *)
From Coq Require Import String Lia.
From Verif Require Import Base BaseFacts Dict Duration DurationFacts Intake JsonData JsonDataFacts RoundTrip JsonText JsonTextSpec.
Import ListNotations.
Open Scope list_scope.
Open Scope N_scope.

(** ** hexadecimal escapes *)
Lemma hex_back k : k < 16 -> hex_value (hex_digit k) = Some k.
Proof.
  intros H. unfold hex_digit, hex_value, is_digit. destruct (N.ltb_spec k 10) as [L|L].
  - replace ((48 <=? 48 + k) && (48 + k <=? 57)) with true by (symmetry; apply andb_true_intro; split; apply N.leb_le; lia). f_equal; lia.
  - replace (87 + k <=? 57) with false by (symmetry; apply N.leb_gt; lia). rewrite Bool.andb_false_r.
    replace ((97 <=? 87 + k) && (87 + k <=? 102)) with true by (symmetry; apply andb_true_intro; split; apply N.leb_le; lia). f_equal; lia.
Qed.
Lemma u_back n s : n < 65536 -> u_value (hex4 n ++ s) = Some (n, s).
Proof.
  intros H. cbn [hex4 app u_value].
  assert (A : n / 4096 < 16) by (apply N.div_lt_upper_bound; lia).
  rewrite (hex_back _ A), !hex_back by (apply N.mod_lt; lia). f_equal. f_equal.
  assert (E1 : n / 256 / 16 = n / 4096) by (rewrite N.div_div by lia; reflexivity).
  assert (E2 : n / 16 / 16 = n / 256) by (rewrite N.div_div by lia; reflexivity).
  pose proof (N.div_mod n 16 ltac:(lia)). pose proof (N.div_mod (n / 16) 16 ltac:(lia)). pose proof (N.div_mod (n / 256) 16 ltac:(lia)).
  remember (n / 16 mod 16) as a. remember (n / 256 mod 16) as b. remember (n mod 16) as c. rewrite E1 in *. rewrite E2 in *.
  remember (n / 16) as p. remember (n / 256) as q. remember (n / 4096) as r. clear Heqa Heqb Heqc Heqp Heqq Heqr E1 E2. lia.
Qed.

(** ** texts whose characters come back: code points, no high surrogate directly before a low one *)
Lemma is_high_spec c : is_high c = true <-> high_surrogate c.
Proof. unfold is_high, high_surrogate. rewrite Bool.andb_true_iff, !N.leb_le. reflexivity. Qed.
Lemma is_low_spec c : is_low c = true <-> low_surrogate c.
Proof. unfold is_low, low_surrogate. rewrite Bool.andb_true_iff, !N.leb_le. reflexivity. Qed.
Lemma writable_tail c s : writable (c :: s) -> writable s.
Proof. intros [F H]. split; [now inversion F|]. intros a x y b -> . now apply (H (c :: a) x y b). Qed.
Lemma writable_next c d s : writable (c :: d :: s) -> high_surrogate c -> low_surrogate d -> False.
Proof. intros [_ H]. now apply (H [] c d s). Qed.

Definition plain_char (c : N) : Prop := 32 <= c <= 126 /\ c <> 34 /\ c <> 92.
Inductive escaped (c : N) : pystr -> Prop :=
| e_plain : plain_char c -> escaped c [c]
| e_simple e : simple_escape e = Some c -> e <> 117 -> 32 <= e <= 126 -> escaped c [92; e]
| e_unit : c < 65536 -> escaped c (u_escape c)
| e_pair h l : high_surrogate h -> low_surrogate l -> c = 65536 + ((h - 55296) * 1024 + (l - 56320)) -> escaped c (u_escape h ++ u_escape l).
Lemma escape_spec c : c < 1114112 -> escaped c (escape c).
Proof.
  intros H. unfold escape.
  destruct (N.eqb_spec c 34) as [->|N1]; [apply e_simple; [reflexivity|discriminate|lia]|].
  destruct (N.eqb_spec c 92) as [->|N2]; [apply e_simple; [reflexivity|discriminate|lia]|].
  destruct (N.eqb_spec c 10) as [->|]; [apply e_simple; [reflexivity|discriminate|lia]|].
  destruct (N.eqb_spec c 13) as [->|]; [apply e_simple; [reflexivity|discriminate|lia]|].
  destruct (N.eqb_spec c 9) as [->|]; [apply e_simple; [reflexivity|discriminate|lia]|].
  destruct (N.eqb_spec c 12) as [->|]; [apply e_simple; [reflexivity|discriminate|lia]|].
  destruct (N.eqb_spec c 8) as [->|]; [apply e_simple; [reflexivity|discriminate|lia]|].
  destruct ((32 <=? c) && (c <=? 126)) eqn:P.
  { apply Bool.andb_true_iff in P as [P1 P2]. apply N.leb_le in P1, P2. apply e_plain. unfold plain_char. lia. }
  destruct (N.ltb_spec c 65536) as [L|L]; [now apply e_unit|].
  assert (A : (c - 65536) / 1024 < 1024) by (apply N.div_lt_upper_bound; lia). rewrite (N.mod_small _ _ A).
  pose proof (N.mod_lt (c - 65536) 1024 ltac:(lia)) as B. pose proof (N.div_mod (c - 65536) 1024 ltac:(lia)) as D.
  remember ((c - 65536) / 1024) as q. remember ((c - 65536) mod 1024) as r.
  apply e_pair; unfold high_surrogate, low_surrogate; lia.
Qed.
(** after a lone high surrogate *)
Lemma after_high {A} (t : pystr) rest c s (X : N -> pystr -> option A) (B : option A) : high_surrogate c -> writable (c :: s) -> t = flat_map escape s ++ 34 :: rest ->
  match t with
  | x :: y :: s4 => if (x =? 92) && (y =? 117) then match u_value s4 with None => None | Some (m, s5) => if is_low m then X m s5 else B end else B
  | _ => B
  end = B.
Proof.
  intros Hc W ->. destruct s as [|d s]; cbn [flat_map app].
  - destruct rest; reflexivity.
  - assert (Hd : d < 1114112) by (destruct W as [W _]; now inversion W as [|? ? _ W2]; inversion W2).
    pose proof (writable_next c d s W Hc) as Hl. rewrite <- app_assoc. destruct (escape_spec d Hd) as [[P1 [P2 P3]]|e He H1 H2|L|h l Hh Hlo Ec]; cbn [app].
    + destruct (flat_map escape s ++ 34 :: rest); [reflexivity|]. apply N.eqb_neq in P3. now rewrite P3.
    + apply N.eqb_neq in H1. now rewrite H1.
    + change (u_escape d) with (92 :: 117 :: hex4 d). cbn [app]. rewrite (u_back d _ L).
      destruct (is_low d) eqn:E; [|reflexivity]. apply is_low_spec in E. now destruct Hl.
    + change (u_escape h ++ u_escape l) with (92 :: 117 :: (hex4 h ++ u_escape l)). cbn [app]. rewrite <- app_assoc.
      rewrite (u_back h) by (unfold high_surrogate in Hh; lia).
      destruct (is_low h) eqn:E; [|reflexivity]. apply is_low_spec in E. unfold high_surrogate, low_surrogate in *. lia.
Qed.
Lemma scan_string_back s : forall f rest, writable s -> (length s < f)%nat -> scan_string f (flat_map escape s ++ 34 :: rest) = Some (s, rest).
Proof.
  induction s as [|c s IH]; intros f rest W Hf; (destruct f as [|f]; [inversion Hf|]); cbn [length] in Hf.
  - reflexivity.
  - pose proof (IH f rest (writable_tail c s W) ltac:(lia)) as R. assert (Hc : c < 1114112) by (destruct W as [W _]; now inversion W).
    cbn [flat_map]. rewrite <- app_assoc. destruct (escape_spec c Hc) as [[P1 [P2 P3]]|e He H1 H2|L|h l Hh Hl Ec].
    + cbn [app]. cbn [scan_string]. apply N.eqb_neq in P2, P3. rewrite P2, P3. replace (c <? 32) with false by (symmetry; apply N.ltb_ge; lia). now rewrite R.
    + cbn [app]. cbn [scan_string]. change (92 =? 34) with false. change (92 =? 92) with true. cbv iota. apply N.eqb_neq in H1. now rewrite H1, He, R.
    + change (u_escape c) with (92 :: 117 :: hex4 c). cbn [app]. cbn [scan_string]. change (92 =? 34) with false. change (92 =? 92) with true. change (117 =? 117) with true. cbv iota.
      rewrite (u_back c _ L). cbv iota beta. destruct (is_high c) eqn:E.
      * rewrite (after_high _ rest c s (fun m s5 => match scan_string f s5 with Some (a, r') => Some (65536 + ((c - 55296) * 1024 + (m - 56320)) :: a, r') | None => None end) _ (proj1 (is_high_spec c) E) W eq_refl).
        now rewrite R.
      * now rewrite R.
    + change (u_escape h ++ u_escape l) with (92 :: 117 :: (hex4 h ++ u_escape l)). cbn [app]. rewrite <- app_assoc. cbn [scan_string]. change (92 =? 34) with false. change (92 =? 92) with true. change (117 =? 117) with true. cbv iota.
      rewrite (u_back h) by (unfold high_surrogate in Hh; lia). cbv iota beta. rewrite (proj2 (is_high_spec h) Hh).
      change (u_escape l) with (92 :: 117 :: hex4 l). cbn [app]. change ((92 =? 92) && (117 =? 117)) with true. cbv iota.
      rewrite (u_back l) by (unfold low_surrogate in Hl; lia). cbv iota beta. rewrite (proj2 (is_low_spec l) Hl), R. now rewrite <- Ec.
Qed.
Lemma escape_length c : c < 1114112 -> (1 <= length (escape c))%nat.
Proof. intros H. destruct (escape_spec c H); cbn [length app u_escape hex4]; lia. Qed.
Lemma quote_length s : writable s -> (length s + 2 <= length (quote s))%nat.
Proof.
  intros [W _]. unfold quote. cbn [length]. rewrite app_length. cbn [length]. enough (length s <= length (flat_map escape s))%nat by lia.
  induction W as [|c s Hc W IH]; cbn [flat_map length]; [lia|]. rewrite app_length. pose proof (escape_length c Hc). lia.
Qed.
Lemma quote_app s rest : quote s ++ rest = 34 :: flat_map escape s ++ 34 :: rest.
Proof. unfold quote. cbn [app]. now rewrite <- app_assoc. Qed.

(** ** numbers *)
Lemma is_digit_spec c : is_digit c = true <-> digit c.
Proof. unfold is_digit, digit. rewrite Bool.andb_true_iff, !N.leb_le. reflexivity. Qed.
Lemma is_digit_no c : ~ digit c -> is_digit c = false.
Proof. intros H. destruct (is_digit c) eqn:E; [apply is_digit_spec in E; tauto|reflexivity]. Qed.
Definition head_ok (P : N -> Prop) (s : pystr) : Prop := match s with [] => True | c :: _ => P c end.
Lemma span_digits t rest : Forall digit t -> head_ok (fun c => ~ digit c) rest -> span is_digit (t ++ rest) = (t, rest).
Proof.
  intros F H. induction F as [|c t Hc F IH]; cbn [app span].
  - destruct rest as [|c r]; [reflexivity|]. cbn in *. now rewrite (is_digit_no c H).
  - rewrite (proj2 (is_digit_spec c) Hc), IH. reflexivity.
Qed.
Lemma int_part_back t rest : natural t -> head_ok (fun c => ~ digit c) rest -> int_part (t ++ rest) = Some (t, rest).
Proof.
  intros [->|(c & t' & -> & Hc & F)] H; cbn [app int_part]; [reflexivity|].
  replace (c =? 48) with false by (symmetry; apply N.eqb_neq; lia). rewrite (proj2 (is_digit_spec c)) by (unfold digit; lia).
  now rewrite (span_digits t' rest F H).
Qed.
Lemma digits_natural fuel : forall n acc, n < 2 ^ N.of_nat fuel -> (0 < fuel)%nat -> exists t, digits fuel n acc = t ++ acc /\ (natural t /\ (n <> 0 -> t <> [48])).
Proof.
  induction fuel as [|fuel IH]; intros n acc Hn Hf; [lia|]. cbn [digits]. destruct (N.ltb_spec n 10) as [L|L].
  - exists [48 + n]. split; [reflexivity|]. split; [|intros H E; apply (f_equal (hd 0)) in E; cbn [hd] in E; lia]. destruct (N.eq_dec n 0) as [->|Z]; [now left|right]. exists (48 + n), []. split; [reflexivity|]. split; [lia|constructor].
  - assert (Hq : n / 10 < 2 ^ N.of_nat fuel).
    { apply N.div_lt_upper_bound; [lia|]. rewrite Nat2N.inj_succ, N.pow_succ_r' in Hn. lia. }
    assert (Hf2 : (0 < fuel)%nat). { destruct fuel; [|lia]. change (2 ^ N.of_nat 1) with 2 in Hn. lia. }
    destruct (IH (n / 10) ((48 + n mod 10) :: acc) Hq Hf2) as (t & E & N1 & N2). exists (t ++ [48 + n mod 10]). rewrite E, <- app_assoc. split; [reflexivity|].
    assert (n / 10 <> 0). { intros Z. apply N.div_small_iff in Z; lia. }
    destruct N1 as [->|(c & t' & -> & Hc & F)]; [now destruct (N2 H)|].
    split. { right. exists c, (t' ++ [48 + n mod 10]). split; [reflexivity|]. split; [exact Hc|]. apply Forall_app. split; [exact F|]. constructor; [|constructor]. unfold digit. pose proof (N.mod_lt n 10 ltac:(discriminate)) as M. remember (n mod 10) as m eqn:Em. clear - M. lia. }
    intros _ E2. apply (f_equal (@length N)) in E2. cbn in E2. rewrite app_length in E2. cbn in E2. lia.
Qed.
Lemma str_of_N_natural n : natural (str_of_N n) /\ (n <> 0 -> str_of_N n <> [48]).
Proof.
  unfold str_of_N. destruct (digits_natural (S (N.to_nat (N.log2 n))) n []) as (t & E & N1 & N2); [|lia|].
  - rewrite Nat2N.inj_succ, N2Nat.id. destruct (N.eq_dec n 0) as [->|Z]; [reflexivity|]. apply N.log2_spec. lia.
  - rewrite app_nil_r in E. rewrite E. auto.
Qed.
(** a number's text: sign, digits, fraction, exponent *)
Definition ends_number (s : pystr) : Prop := head_ok (fun c => ~ digit c /\ c <> 46 /\ c <> 101 /\ c <> 69) s.
Lemma natural_head t : natural t -> exists c t', t = c :: t' /\ digit c.
Proof. intros [->|(c & t' & -> & H & _)]; [exists 48, []|exists c, t']; unfold digit; split; try reflexivity; lia. Qed.
Lemma signed_head t : signed t -> exists c t', t = c :: t' /\ (digit c \/ c = 45).
Proof. intros [N|(t' & -> & N)]; [destruct (natural_head t N) as (c & t' & -> & D); eauto|eauto]. Qed.
Lemma signed_int_back t rest : signed t -> head_ok (fun c => ~ digit c) rest -> signed_int (t ++ rest) = Some (t, rest).
Proof.
  intros [N|(t' & -> & N)] H.
  - destruct (natural_head t N) as (c & t' & E & D). pose proof (int_part_back t rest N H) as I. rewrite E in *. cbn [app signed_int] in *.
    replace (c =? 45) with false by (symmetry; apply N.eqb_neq; unfold digit in D; lia). exact I.
  - cbn [app signed_int]. change (45 =? 45) with true. cbv iota. now rewrite (int_part_back t' rest N H).
Qed.
Lemma frac_back t rest : fraction t -> head_ok (fun c => ~ digit c) rest -> head_ok (fun c => c <> 46) rest -> frac_part (t ++ rest) = (t, rest).
Proof.
  intros [->|(ds & -> & Hn & F)] H1 H2.
  - destruct rest as [|c r]; [reflexivity|]. cbn in *. apply N.eqb_neq in H2. now rewrite H2.
  - cbn [app frac_part]. change (46 =? 46) with true. cbv iota. rewrite (span_digits ds rest F H1). destruct ds; [congruence|reflexivity].
Qed.
Lemma exp_back t rest : exponent t -> head_ok (fun c => ~ digit c) rest -> head_ok (fun c => c <> 101 /\ c <> 69) rest -> exp_part (t ++ rest) = (t, rest).
Proof.
  intros [->|(e & sg & ds & -> & He & Hs & Hn & F)] H1 H2.
  - destruct rest as [|c r]; [reflexivity|]. cbn in *. destruct H2 as [A B]. apply N.eqb_neq in A, B. unfold is_exp. now rewrite A, B.
  - cbn [app exp_part]. replace (is_exp e) with true by (destruct He as [-> | ->]; reflexivity). rewrite <- app_assoc.
    pose proof (span_digits ds rest F H1) as Sp. destruct ds as [|d ds]; [congruence|]. inversion F as [|? ? Hd _]; subst.
    destruct Hs as [-> | [-> | ->]]; cbn [app].
    + replace (is_sign d) with false. 2:{ unfold is_sign, digit in *. symmetry. apply Bool.orb_false_iff. split; apply N.eqb_neq; lia. } cbn [app] in Sp. rewrite Sp. reflexivity.
    + change (is_sign 43) with true. cbv iota beta. cbn [app] in Sp. rewrite Sp. reflexivity.
    + change (is_sign 45) with true. cbv iota beta. cbn [app] in Sp. rewrite Sp. reflexivity.
Qed.
Lemma head_app P a b : head_ok P a -> (a = [] -> head_ok P b) -> head_ok P (a ++ b).
Proof. destruct a; cbn; auto. Qed.
Lemma head_impl (P Q : N -> Prop) s : (forall c, P c -> Q c) -> head_ok P s -> head_ok Q s.
Proof. destruct s; cbn; auto. Qed.
Lemma fraction_head t : fraction t -> head_ok (fun c => c = 46) t.
Proof. intros [->|(ds & -> & _)]; cbn; auto. Qed.
Lemma exponent_head t : exponent t -> head_ok (fun c => c = 101 \/ c = 69) t.
Proof. intros [->|(e & sg & ds & -> & H & _)]; cbn; auto. Qed.
Section Number.
Variable float_repr : pystr -> pystr.
Lemma number_back i fr ex rest : signed i -> fraction fr -> exponent ex -> ends_number rest ->
  number float_repr (i ++ fr ++ ex ++ rest) = Some (PNum (match fr, ex with [], [] => if str_eqb i (py "-0") then py "0" else i | _, _ => float_repr (i ++ fr ++ ex) end), rest).
Proof.
  intros Hi Hf He Hr. unfold ends_number in Hr. pose proof (fraction_head fr Hf) as Hf1. pose proof (exponent_head ex He) as He1. unfold number.
  assert (D : forall P : N -> Prop, (forall c, ~ digit c /\ c <> 46 /\ c <> 101 /\ c <> 69 -> P c) -> head_ok P rest) by (intros P HP; exact (head_impl _ P rest HP Hr)).
  assert (nd : forall c, c = 101 \/ c = 69 -> ~ digit c) by (intros c [-> | ->]; unfold digit; lia).
  assert (R1 : head_ok (fun c => ~ digit c) (ex ++ rest)) by (apply head_app; [eapply head_impl; [|exact He1]; auto|intros _; apply D; tauto]).
  rewrite (signed_int_back i); [|exact Hi|].
  2:{ apply head_app; [eapply head_impl; [|exact Hf1]; intros c ->; unfold digit; lia|intros _; exact R1]. }
  cbv iota beta. rewrite (frac_back fr); [|exact Hf|exact R1|].
  2:{ apply head_app; [eapply head_impl; [|exact He1]; intros c [-> | ->]; lia|intros _; apply D; tauto]. }
  cbv iota beta. rewrite (exp_back ex); [|exact He|apply D; tauto|apply D; tauto]. reflexivity.
Qed.
Lemma int_text_signed z : signed (int_text z) /\ int_text z <> py "-0".
Proof.
  unfold int_text. destruct (Z.ltb_spec z 0) as [L|L].
  - destruct (str_of_N_natural (Z.to_N (- z))) as [A B]. split; [right; eauto|]. intros E. injection E as E. apply (B ltac:(lia)). exact E.
  - destruct (str_of_N_natural (Z.to_N z)) as [A B]. split; [now left|]. intros E. destruct (natural_head _ A) as (c & t' & E2 & D). rewrite E in E2. injection E2 as <- _. unfold digit in D. lia.
Qed.
End Number.

(** ** blanks *)
Definition blank (s : pystr) : Prop := Forall (fun c => is_ws c = true) s.
Lemma skip_blank w s : blank w -> skip (w ++ s) = skip s.
Proof. intros H. induction H as [|c w Hc H IH]; cbn [app skip]; [reflexivity|]. now rewrite Hc. Qed.
Lemma skip_head c s : is_ws c = false -> skip (c :: s) = c :: s.
Proof. intros H. cbn [skip]. now rewrite H. Qed.
Lemma blank_ends w c s : blank w -> ~ digit c -> c <> 46 -> c <> 101 -> c <> 69 -> ends_number (w ++ c :: s).
Proof.
  intros H A B C D. apply head_app; [|intros _; cbn; auto]. destruct H as [|x w Hx H]; cbn; [exact Logic.I|].
  unfold is_ws in Hx. cbn in Hx. rewrite !Bool.orb_true_iff, !N.eqb_eq in Hx. unfold digit. decompose [or] Hx; subst; try discriminate; repeat split; lia.
Qed.
Lemma prefix_app p s : prefix p (p ++ s) = Some s.
Proof. unfold prefix. rewrite firstn_app, Nat.sub_diag, firstn_all, app_nil_r, skipn_app, skipn_all, Nat.sub_diag. cbn [skipn firstn app]. now rewrite str_eqb_refl. Qed.
Lemma prefix_head a p c s : c <> a -> prefix (a :: p) (c :: s) = None.
Proof. intros H. unfold prefix. cbn [length firstn]. destruct (str_eqb (c :: firstn (length p) s) (a :: p)) eqn:E; [|reflexivity]. apply str_eqb_eq in E. congruence. Qed.

Section Scan.
Variable float_repr : pystr -> pystr.
Notation scan := (scan float_repr). Notation items := (items float_repr). Notation members := (members float_repr). Notation constant := (constant float_repr). Notation number := (JsonText.number float_repr).
Definition headed (t : pystr) : Prop := exists c t', t = c :: t' /\ is_ws c = false /\ c <> 93.
Definition scans (t : pystr) (v : pv) : Prop := headed t /\ forall f rest, (length t < f)%nat -> ends_number rest -> scan f (t ++ rest) = Some (v, rest).
Lemma joined_cons sep x y l : joined sep (x :: y :: l) = x ++ sep ++ joined sep (y :: l).
Proof. reflexivity. Qed.
Lemma joined_head sep (t : pystr) (ts : list pystr) c (t' : pystr) : t = c :: t' -> exists s' : pystr, joined sep (t :: ts) = c :: s'.
Proof. intros ->. destruct ts; [exists t'; reflexivity|rewrite joined_cons; cbn [app]; eauto]. Qed.
Lemma scan_items w n rest parts vs : blank w -> blank n -> Forall2 scans parts vs -> parts <> [] ->
  forall f, (length (joined (44%N :: w) parts) + 1 < f)%nat -> items f (joined (44%N :: w) parts ++ n ++ 93 :: rest) = Some (vs, rest).
Proof.
  intros Hw Hn F. induction F as [|t v ts vs [Hd Ht] F IH]; intros Hp f Hf; [congruence|]. destruct f as [|f]; [lia|]. cbn [JsonText.items].
  destruct ts as [|t2 ts].
  - inversion F; subst. cbn [joined] in *. rewrite Ht; [|lia|apply blank_ends; auto; unfold digit; lia]. rewrite (skip_blank n _ Hn). cbn [skip]. reflexivity.
  - rewrite joined_cons, !app_length in Hf. cbn [length] in Hf. rewrite joined_cons, <- !app_assoc. rewrite Ht; [|lia|cbn; unfold digit; lia].
    cbn [app skip]. change (is_ws 44) with false. cbv iota. change (44 =? 93) with false. change (44 =? 44) with true. cbv iota.
    rewrite (skip_blank w _ Hw). assert (Hs : skip (joined (44 :: w) (t2 :: ts) ++ n ++ 93 :: rest) = joined (44 :: w) (t2 :: ts) ++ n ++ 93 :: rest).
    { inversion F as [|? ? ? ? [(c & t' & -> & Hc & _) _] ? ]; subst. destruct ts; [|rewrite joined_cons]; cbn [joined app]; now apply skip_head. }
    rewrite Hs, (IH ltac:(discriminate) f ltac:(lia)). reflexivity.
Qed.
Definition entry (w : pystr) (t : pystr) (kv : pystr * pv) : Prop := exists u, t = quote (fst kv) ++ (58 :: w) ++ u /\ writable (fst kv) /\ scans u (snd kv).
Lemma scan_members w w2 n rest parts kvs : blank w -> blank w2 -> blank n -> Forall2 (entry w2) parts kvs -> parts <> [] ->
  forall f, (length (joined (44%N :: w) parts) < f)%nat -> members f (joined (44%N :: w) parts ++ n ++ 125 :: rest) = Some (kvs, rest).
Proof.
  intros Hw Hw2 Hn F. induction F as [|t [k v] ts kvs (u & -> & Hk & (c & u' & Eu & Hc & _) & Hu) F IH]; intros Hp f Hf; [congruence|]. cbn [fst snd] in *. destruct f as [|f]; [lia|].
  pose proof (quote_length k Hk) as Lq.
  destruct ts as [|t2 ts].
  - inversion F; subst kvs. cbn [joined] in *. rewrite !app_length in Hf. cbn [length] in Hf. rewrite <- !app_assoc, quote_app. cbn [JsonText.members]. change (34 =? 34) with true. cbv iota.
    rewrite (scan_string_back k f _ Hk) by lia. cbn [app skip]. change (is_ws 58) with false. cbv iota. change (58 =? 58) with true. cbv iota.
    rewrite (skip_blank w2 _ Hw2). assert (Hs : skip (u ++ n ++ 125 :: rest) = u ++ n ++ 125 :: rest) by (rewrite Eu; now apply skip_head). rewrite Hs.
    rewrite Hu; [|lia|apply blank_ends; auto; unfold digit; lia]. rewrite (skip_blank n _ Hn). reflexivity.
  - rewrite joined_cons, !app_length in Hf. cbn [length] in Hf. rewrite joined_cons, <- !app_assoc, quote_app. cbn [JsonText.members]. change (34 =? 34) with true. cbv iota.
    rewrite (scan_string_back k f _ Hk) by lia. cbn [app skip]. change (is_ws 58) with false. cbv iota. change (58 =? 58) with true. cbv iota.
    rewrite (skip_blank w2 _ Hw2).
    assert (Hs : forall r, skip (u ++ r) = u ++ r) by (intros r; rewrite Eu; now apply skip_head). rewrite Hs.
    rewrite Hu; [|lia|cbn; unfold digit; lia]. cbn [app skip]. change (is_ws 44) with false. cbv iota. change (44 =? 125) with false. change (44 =? 44) with true. cbv iota.
    rewrite (skip_blank w _ Hw). assert (Hs2 : skip (joined (44 :: w) (t2 :: ts) ++ n ++ 125 :: rest) = joined (44 :: w) (t2 :: ts) ++ n ++ 125 :: rest).
    { inversion F as [|? [k2 v2] ? ? (u2 & Eq2 & _) ? ]; subst t2. destruct ts; [cbn [joined]|rewrite joined_cons]; rewrite <- ?app_assoc, quote_app; now apply skip_head. }
    rewrite Hs2, (IH ltac:(discriminate) f ltac:(lia)). reflexivity.
Qed.
(** dict(pairs) *)
Lemma d_set_new {A} k (v : A) d : ~ In k (map fst d) -> d_set k v d = d ++ [(k, v)].
Proof.
  induction d as [|[j w] d IH]; intros H; cbn [d_set app]; [reflexivity|]. cbn in H. destruct (str_eqb k j) eqn:E; [apply str_eqb_eq in E; subst; tauto|]. now rewrite IH by tauto.
Qed.
Lemma of_pairs_nodup l : NoDup (map fst l) -> of_pairs l = l.
Proof.
  unfold of_pairs. enough (forall l acc, NoDup (map fst (acc ++ l)) -> fold_left (fun d (p : pystr * pv) => d_set (fst p) (snd p) d) l acc = acc ++ l) as H by (intros; now apply (H l [])).
  clear l. induction l as [|[k v] l IH]; intros acc H; cbn [fold_left]; [now rewrite app_nil_r|]. cbn [fst snd].
  rewrite map_app in H. pose proof (NoDup_remove_2 _ _ _ H) as Hk. rewrite in_app_iff in Hk. rewrite d_set_new by tauto.
  rewrite IH; rewrite <- app_assoc; [reflexivity|]. now rewrite map_app.
Qed.

(** ** values that come back *)
Notation storable := (storable float_repr).
Lemma scan_list f s : scan (S f) (91 :: s) =
  match skip s with [] => None | x :: r => if x =? 93 then Some (PIter [], r) else match items f (x :: r) with Some (l, r') => Some (PIter l, r') | None => None end end.
Proof. reflexivity. Qed.
Lemma scan_dict f s : scan (S f) (123 :: s) =
  match skip s with [] => None | x :: r => if x =? 125 then Some (PDict [], r) else match members f (x :: r) with Some (l, r') => Some (PDict (of_pairs l), r') | None => None end end.
Proof. reflexivity. Qed.
Lemma scan_constant f c s : c <> 34 -> c <> 123 -> c <> 91 -> scan (S f) (c :: s) = constant (c :: s).
Proof. intros A B C. cbn [JsonText.scan]. apply N.eqb_neq in A, B, C. now rewrite A, B, C. Qed.
Lemma constant_number i s : signed i -> number (i ++ s) <> None -> constant (i ++ s) = number (i ++ s).
Proof.
  intros H Hn. destruct (signed_head i H) as (c & t & -> & D). cbn [app] in *. unfold JsonText.constant. change (py "null") with (110 :: py "ull"). change (py "true") with (116 :: py "rue"). change (py "false") with (102 :: py "alse").
  rewrite !prefix_head by (unfold digit in D; lia). destruct (number (c :: t ++ s)) as [x|] eqn:E; [reflexivity|congruence].
Qed.
Lemma number_scans i fr ex : signed i -> fraction fr -> exponent ex ->
  scans (i ++ fr ++ ex) (PNum (match fr, ex with [], [] => if str_eqb i (py "-0") then py "0" else i | _, _ => float_repr (i ++ fr ++ ex) end)).
Proof.
  intros Hi Hf He. pose proof Hi as Hi2. apply signed_head in Hi2 as (c & t & E & D). split.
  - rewrite E. cbn [app]. eexists _, _. split; [reflexivity|]. unfold digit in D. split; [|lia]. unfold is_ws. cbn. rewrite !Bool.orb_false_iff, !N.eqb_neq. lia.
  - intros f rest Hl Hr. destruct f as [|f]; [lia|]. rewrite <- !app_assoc. pose proof (number_back float_repr i fr ex rest Hi Hf He Hr) as B.
    rewrite <- B, <- constant_number; [|exact Hi|congruence]. rewrite E. cbn [app]. apply scan_constant; unfold digit in D; lia.
Qed.
Lemma word_scans (p : string) v c t : py p = c :: t -> is_ws c = false -> c <> 93 -> c <> 34 -> c <> 123 -> c <> 91 -> (forall rest, constant (py p ++ rest) = Some (v, rest)) -> scans (py p) v.
Proof.
  intros E A B C1 C2 C3 H. split; [exists c, t; auto|]. intros f rest Hf _. destruct f as [|f]; [lia|]. specialize (H rest). rewrite E in *. cbn [app] in *. now rewrite scan_constant.
Qed.
Lemma each_forall2 {A B} (g : A -> res pystr) (h : A -> B) (P : A -> Prop) (Q : pystr -> B -> Prop) l : (forall x t, P x -> g x = Ok t -> Q t (h x)) -> Forall P l ->
  forall parts, each g l = Ok parts -> Forall2 Q parts (map h l).
Proof.
  intros H F. induction F as [|x l Hx F IH]; cbn [each map]; intros parts E; [injection E as <-; constructor|].
  destruct (g x) as [t|] eqn:E1; [|discriminate]. change (each g l) with (each g l) in E. destruct (each g l) as [ts|] eqn:E2; [|discriminate]. injection E as <-. constructor; auto.
Qed.
Section Dumped.
Variables (w w2 : pystr) (ind : option pystr).
Hypothesis Hw : blank w. Hypothesis Hw2 : blank w2. Hypothesis Hi : match ind with None => True | Some i => blank i end.
Lemma new_line_blank level : blank (new_line ind level).
Proof.
  unfold new_line. destruct ind as [i|]; [|constructor]. constructor; [reflexivity|]. induction level as [|n IH]; cbn [repeat concat]; [constructor|]. apply Forall_app. now split.
Qed.
Notation dump := (dump (44 :: w) (58 :: w2) ind).
Lemma list_scans level parts vs : parts <> [] -> Forall2 scans parts vs -> scans (wrap (44 :: w) ind 91 93 level parts) (PIter vs).
Proof.
  intros Hp F. unfold wrap. split; [eexists _, _; split; [reflexivity|split; [reflexivity|lia]]|]. intros f rest Hf Hr. destruct f as [|f]; [cbn in Hf; lia|]. cbn [length] in Hf. rewrite !app_length in Hf. cbn [length] in Hf.
  cbn [app]. rewrite <- !app_assoc. rewrite scan_list.
  rewrite (skip_blank _ _ (new_line_blank (S level))). change ((44 :: w) ++ new_line ind (S level)) with (44 :: (w ++ new_line ind (S level))) in *. set (ws := w ++ new_line ind (S level)) in *.
  assert (Hws : blank ws) by (apply Forall_app; split; [exact Hw|apply new_line_blank]).
  pose proof (fun f => scan_items ws (new_line ind level) rest parts vs Hws (new_line_blank level) F Hp f) as G.
  cbn [app] in *. destruct F as [|t v ts vs [(c & t' & Et & Hc & H93) Ht] F]; [congruence|].
  pose proof (joined_head (44 :: ws) t ts c t' Et) as E.
  destruct E as [s' E]. rewrite E in G, Hf |- *. cbn [app] in *. rewrite (skip_head c _ Hc). apply N.eqb_neq in H93. rewrite H93. rewrite G by (cbn [length] in *; lia). reflexivity.
Qed.
Lemma dict_scans level parts kvs : parts <> [] -> NoDup (map fst kvs) -> Forall2 (entry w2) parts kvs -> scans (wrap (44 :: w) ind 123 125 level parts) (PDict kvs).
Proof.
  intros Hp Hk F. unfold wrap. split; [eexists _, _; split; [reflexivity|split; [reflexivity|lia]]|]. intros f rest Hf Hr. destruct f as [|f]; [cbn in Hf; lia|]. cbn [length] in Hf. rewrite !app_length in Hf. cbn [length] in Hf.
  cbn [app]. rewrite <- !app_assoc. rewrite scan_dict.
  rewrite (skip_blank _ _ (new_line_blank (S level))). change ((44 :: w) ++ new_line ind (S level)) with (44 :: (w ++ new_line ind (S level))) in *. set (ws := w ++ new_line ind (S level)) in *.
  assert (Hws : blank ws) by (apply Forall_app; split; [exact Hw|apply new_line_blank]).
  pose proof (fun f => scan_members ws w2 (new_line ind level) rest parts kvs Hws Hw2 (new_line_blank level) F Hp f) as G.
  cbn [app] in *.
  assert (E : exists s' : pystr, joined (44 :: ws) parts = 34 :: s').
  { destruct F as [|t [k v] ts kvs (u & Et & _) F]; [congruence|]. unfold quote in Et. cbn [app] in Et. eapply joined_head. exact Et. }
  destruct E as [s' E]. rewrite E in G, Hf |- *. cbn [app] in *. rewrite (skip_head 34) by reflexivity. change (34 =? 125) with false. cbv iota. rewrite G by (cbn [length] in *; lia).
  now rewrite of_pairs_nodup.
Qed.
Lemma dump_scans v : storable v -> forall level t, dump level v = Ok t -> scans t (pv_of int_text v).
Proof.
  induction v as [|b|z|r|s|l IH|l IH|l IH|d IH|l IH|s|props IH] using jval_ind2; intros Hs level t E; cbn [JsonText.dump] in E; try discriminate.
  - injection E as <-. now apply (word_scans "null" PNone 110 (py "ull")).
  - injection E as <-. destruct b; [now apply (word_scans "true" (PBool true) 116 (py "rue"))|now apply (word_scans "false" (PBool false) 102 (py "alse"))].
  - injection E as <-. destruct (int_text_signed z) as [A B]. pose proof (number_scans (int_text z) [] [] A (or_introl eq_refl) (or_introl eq_refl)) as X. rewrite !app_nil_r in X.
    destruct (str_eqb (int_text z) (py "-0")) eqn:Q; [apply str_eqb_eq in Q; congruence|exact X].
  - injection E as <-. inversion Hs as [| | |r' Hr| | | |]; subst. destruct Hr as [-> |[-> |[-> |[(i & fr & ex & -> & A & B & C & D) Hr]]]].
    + now apply (word_scans "NaN" (PNum (py "nan")) 78 (py "aN")).
    + now apply (word_scans "Infinity" (PNum (py "inf")) 73 (py "nfinity")).
    + now apply (word_scans "-Infinity" (PNum (py "-inf")) 45 (py "Infinity")).
    + assert (O : float_out (i ++ fr ++ ex) = i ++ fr ++ ex).
      { destruct (signed_head i A) as (c & t & -> & Hc). cbn [app] in *. unfold float_out.
        destruct (str_eqb _ (py "nan")) eqn:Q1; [apply str_eqb_eq in Q1; injection Q1 as Q1 _; unfold digit in Hc; lia|].
        destruct (str_eqb _ (py "inf")) eqn:Q2; [apply str_eqb_eq in Q2; injection Q2 as Q2 _; unfold digit in Hc; lia|].
        destruct (str_eqb _ (py "-inf")) eqn:Q3; [|reflexivity]. apply str_eqb_eq in Q3. injection Q3 as Q3 Q4. exfalso.
        destruct A as [N|(t' & N & A)]; [destruct (natural_head _ N) as (c' & t' & X & Y); injection X as <- <-; unfold digit in Y; lia|]. injection N as _ <-.
        destruct (natural_head _ A) as (c' & t'' & -> & Y). cbn in Q4. injection Q4 as Q4 _. unfold digit in Y. lia. }
      rewrite O. pose proof (number_scans i fr ex A B C) as X. cbn [pv_of]. rewrite <- Hr at 2. destruct fr; [destruct ex; [destruct D; congruence|exact X]|exact X].
  - injection E as <-. inversion Hs; subst. split; [eexists _, _; split; [reflexivity|split; [reflexivity|lia]]|]. intros f rest Hf _. destruct f as [|f]; [lia|]. pose proof (quote_length s ltac:(assumption)) as L.
    rewrite quote_app. cbn [JsonText.scan]. change (34 =? 34) with true. cbv iota. now rewrite scan_string_back by (auto; lia).
  - destruct l as [|x l]; [injection E as <-; split; [eexists _, _; split; [reflexivity|split; [reflexivity|lia]]|intros [|f] rest Hf _; [lia|reflexivity]]|].
    destruct (each _ (x :: l)) as [parts|] eqn:Ep; [|discriminate]. injection E as <-. inversion Hs; subst. apply list_scans.
    + intros ->. cbn [each] in Ep. destruct (JsonText.dump _ _ _ _ x); [|discriminate]. destruct (each _ l); discriminate.
    + refine (each_forall2 _ (pv_of int_text) (fun x => storable x /\ (storable x -> forall level t, dump level x = Ok t -> scans t (pv_of int_text x))) scans (x :: l) _ _ parts Ep); [intros y u [A B] C; eauto|]. apply Forall_forall. intros y Hy. match goal with H : Forall storable _ |- _ => rewrite Forall_forall in H; specialize (H y Hy) end. rewrite Forall_forall in IH. split; [assumption|exact (IH y Hy)].
  - destruct l as [|x l]; [injection E as <-; split; [eexists _, _; split; [reflexivity|split; [reflexivity|lia]]|intros [|f] rest Hf _; [lia|reflexivity]]|].
    destruct (each _ (x :: l)) as [parts|] eqn:Ep; [|discriminate]. injection E as <-. inversion Hs; subst. apply list_scans.
    + intros ->. cbn [each] in Ep. destruct (JsonText.dump _ _ _ _ x); [|discriminate]. destruct (each _ l); discriminate.
    + refine (each_forall2 _ (pv_of int_text) (fun x => storable x /\ (storable x -> forall level t, dump level x = Ok t -> scans t (pv_of int_text x))) scans (x :: l) _ _ parts Ep); [intros y u [A B] C; eauto|]. apply Forall_forall. intros y Hy. match goal with H : Forall storable _ |- _ => rewrite Forall_forall in H; specialize (H y Hy) end. rewrite Forall_forall in IH. split; [assumption|exact (IH y Hy)].
  - destruct d as [|x d]; [injection E as <-; split; [eexists _, _; split; [reflexivity|split; [reflexivity|lia]]|intros [|f] rest Hf _; [lia|reflexivity]]|].
    destruct (each _ (x :: d)) as [parts|] eqn:Ep; [|discriminate]. injection E as <-. inversion Hs as [| | | | | | |d' K1 K2 K3]; subst. apply dict_scans.
    + intros ->. cbn [each] in Ep. destruct (JsonText.dump _ _ _ _ (snd x)); [|discriminate]. destruct (each _ d); discriminate.
    + cbn [pv_of]. rewrite map_map. exact K1.
    + refine (each_forall2 _ (fun p => (fst p, pv_of int_text (snd p))) (fun p => writable (fst p) /\ storable (snd p) /\ (storable (snd p) -> forall level t, dump level (snd p) = Ok t -> scans t (pv_of int_text (snd p)))) (entry w2) (x :: d) _ _ parts Ep).
      * intros [k y] u (A & B & C). cbn [fst snd]. destruct (dump (S level) y) as [t|] eqn:Ey; [|discriminate]. intros Q; injection Q as <-. exists t. cbn [fst snd]. exact (conj eq_refl (conj A (C B (S level) t Ey))).
      * apply Forall_forall. intros y Hy. rewrite Forall_forall in IH, K2, K3. exact (conj (K2 y Hy) (conj (K3 y Hy) (IH y Hy))).
Qed.
End Dumped.
End Scan.

(** ** whole texts *)
Lemma spaces_blank n : blank (repeat 32 n).
Proof. induction n; constructor; auto. Qed.
Lemma dumps_scans float_repr m i v t : storable float_repr v -> dumps m i v = Ok t -> scans float_repr t (pv_of int_text v).
Proof.
  intros Hs E. unfold dumps in E.
  assert (Hi : match match i with Some n => Some (repeat 32 (Z.to_nat n)) | None => None end with Some i => blank i | None => True end) by (destruct i; [apply spaces_blank|exact Logic.I]).
  destruct m.
  - exact (dump_scans float_repr [] [] _ (Forall_nil _) (Forall_nil _) Hi v Hs 0%nat t E).
  - destruct i as [n|].
    + refine (dump_scans float_repr [] [32] (Some (repeat 32 (Z.to_nat n))) (Forall_nil _) _ Hi v Hs 0%nat t E). repeat constructor.
    + refine (dump_scans float_repr [32] [32] None _ _ Hi v Hs 0%nat t E); repeat constructor.
Qed.
(** ** only printable ASCII, and new lines if there is an indent *)
Definition printable (c : N) : Prop := 32 <= c <= 126.
Lemma hex_printable k : k < 16 -> printable (hex_digit k).
Proof. intros H. unfold hex_digit, printable. destruct (N.ltb_spec k 10); lia. Qed.
Lemma u_printable n : n < 65536 -> Forall printable (u_escape n).
Proof.
  intros H. assert (A : n / 4096 < 16) by (apply N.div_lt_upper_bound; lia). unfold u_escape, hex4.
  repeat (apply Forall_cons; [first [unfold printable; lia|apply hex_printable; first [exact A|apply N.mod_lt; discriminate]]|]). constructor.
Qed.
Lemma escape_printable c : c < 1114112 -> Forall printable (escape c).
Proof.
  intros H. destruct (escape_spec c H) as [P|e _ _ P|L|h l Hh Hl _].
  - constructor; [exact (proj1 P)|constructor].
  - constructor; [unfold printable; lia|constructor; [exact P|constructor]].
  - now apply u_printable.
  - unfold high_surrogate, low_surrogate in *. apply Forall_app. split; apply u_printable; lia.
Qed.
Lemma quote_printable s : writable s -> Forall printable (quote s).
Proof.
  intros [W _]. unfold quote. constructor; [unfold printable; lia|]. apply Forall_app. split; [|constructor; [unfold printable; lia|constructor]].
  induction W as [|c s Hc W IH]; cbn [flat_map]; [constructor|]. apply Forall_app. split; [now apply escape_printable|exact IH].
Qed.
Lemma digits_printable t : Forall digit t -> Forall printable t.
Proof. apply Forall_impl. unfold digit, printable. intros. lia. Qed.
Lemma signed_printable t : signed t -> Forall printable t.
Proof.
  assert (N : forall t, natural t -> Forall printable t).
  { intros u [->|(c & t' & -> & Hc & F)]; constructor; try (unfold printable; lia); [constructor|now apply digits_printable]. }
  intros [H|(t' & -> & H)]; [now apply N|]. constructor; [unfold printable; lia|now apply N].
Qed.
Lemma fraction_printable t : fraction t -> Forall printable t.
Proof. intros [->|(ds & -> & _ & F)]; constructor; [unfold printable; lia|now apply digits_printable]. Qed.
Lemma exponent_printable t : exponent t -> Forall printable t.
Proof.
  intros [->|(e & sg & ds & -> & He & Hs & _ & F)]; constructor; [unfold printable; lia|]. apply Forall_app. split; [|now apply digits_printable].
  destruct Hs as [-> |[-> | ->]]; repeat constructor; cbv; discriminate.
Qed.
Lemma py_printable (s : pystr) : forallb (fun c => (32 <=? c) && (c <=? 126)) s = true -> Forall printable s.
Proof. intros H. apply Forall_forall. intros c Hc. apply (proj1 (forallb_forall _ _) H) in Hc. apply Bool.andb_true_iff in Hc as [A B]. apply N.leb_le in A, B. unfold printable. lia. Qed.
Section Ascii.
Variable float_repr : pystr -> pystr.
Variables (comma colon : pystr) (ind : option pystr).
Definition in_output (c : N) : Prop := printable c \/ (c = 10 /\ ind <> None).
Hypothesis Hc : Forall printable comma. Hypothesis Hl : Forall printable colon. Hypothesis Hi : match ind with None => True | Some i => Forall printable i end.
Lemma printed t : Forall printable t -> Forall in_output t.
Proof. apply Forall_impl. now left. Qed.
Lemma new_line_output n : Forall in_output (new_line ind n).
Proof.
  unfold new_line. assert (H := Hi). destruct ind as [i|] eqn:E; [|constructor]. constructor; [right; split; [reflexivity|congruence]|].
  induction n; cbn [repeat concat]; [constructor|]. apply Forall_app. split; [|assumption]. eapply Forall_impl; [|exact H]. now left.
Qed.
Lemma joined_output sep l : Forall in_output sep -> Forall (Forall in_output) l -> Forall in_output (joined sep l).
Proof.
  intros Hs F. induction F as [|x l Hx F IH]; [constructor|]. destruct l; [exact Hx|]. rewrite joined_cons. apply Forall_app. split; [exact Hx|]. apply Forall_app. now split.
Qed.
Lemma wrap_output o c n l : printable o -> printable c -> Forall (Forall in_output) l -> Forall in_output (wrap comma ind o c n l).
Proof.
  intros Ho Hcc F. unfold wrap. constructor; [now left|]. repeat (apply Forall_app; split); try apply new_line_output; [|constructor; [now left|constructor]].
  apply joined_output; [|exact F]. apply Forall_app. split; [now apply printed|apply new_line_output].
Qed.
Lemma each_output {A} (g : A -> res pystr) (P : A -> Prop) l : (forall x t, P x -> g x = Ok t -> Forall in_output t) -> Forall P l -> forall parts, each g l = Ok parts -> Forall (Forall in_output) parts.
Proof.
  intros H F. induction F as [|x l Hx F IH]; cbn [each]; intros parts E; [injection E as <-; constructor|].
  destruct (g x) as [t|] eqn:E1; [|discriminate]. destruct (each g l) as [ts|] eqn:E2; [|discriminate]. injection E as <-. constructor; eauto.
Qed.
Lemma dump_output v : storable float_repr v -> forall level t, dump comma colon ind level v = Ok t -> Forall in_output t.
Proof.
  induction v as [|b|z|r|s|l IH|l IH|l IH|d IH|l IH|s|props IH] using jval_ind2; intros Hs level t E; cbn [dump] in E; try discriminate.
  - injection E as <-. apply printed, py_printable. reflexivity.
  - injection E as <-. apply printed. destruct b; apply py_printable; reflexivity.
  - injection E as <-. apply printed, signed_printable, int_text_signed.
  - injection E as <-. inversion Hs as [| | |r' Hr| | | |]; subst. apply printed. unfold float_out.
    destruct (str_eqb r (py "nan")) eqn:Q1; [apply py_printable; reflexivity|]. destruct (str_eqb r (py "inf")) eqn:Q2; [apply py_printable; reflexivity|].
    destruct (str_eqb r (py "-inf")) eqn:Q3; [apply py_printable; reflexivity|].
    destruct Hr as [-> |[-> |[-> |[(i & fr & ex & -> & A & B & C & D) Hr]]]]; try discriminate. repeat (apply Forall_app; split); [now apply signed_printable|now apply fraction_printable|now apply exponent_printable].
  - injection E as <-. inversion Hs; subst. now apply printed, quote_printable.
  - destruct l as [|x l]; [injection E as <-; apply printed, py_printable; reflexivity|]. destruct (each _ (x :: l)) as [parts|] eqn:Ep; [|discriminate]. injection E as <-. inversion Hs as [| | | | |l' K|l' K|]; subst. apply wrap_output; try (unfold printable; lia).
    refine (each_output _ (fun x => storable float_repr x /\ (storable float_repr x -> forall level t, dump comma colon ind level x = Ok t -> Forall in_output t)) (x :: l) _ _ parts Ep); [intros y u [A B] C; eapply B; eauto|].
    apply Forall_forall. intros y Hy. rewrite Forall_forall in IH, K. exact (conj (K y Hy) (IH y Hy)).
  - destruct l as [|x l]; [injection E as <-; apply printed, py_printable; reflexivity|]. destruct (each _ (x :: l)) as [parts|] eqn:Ep; [|discriminate]. injection E as <-. inversion Hs as [| | | | |l' K|l' K|]; subst. apply wrap_output; try (unfold printable; lia).
    refine (each_output _ (fun x => storable float_repr x /\ (storable float_repr x -> forall level t, dump comma colon ind level x = Ok t -> Forall in_output t)) (x :: l) _ _ parts Ep); [intros y u [A B] C; eapply B; eauto|].
    apply Forall_forall. intros y Hy. rewrite Forall_forall in IH, K. exact (conj (K y Hy) (IH y Hy)).
  - destruct d as [|x d]; [injection E as <-; apply printed, py_printable; reflexivity|]. destruct (each _ (x :: d)) as [parts|] eqn:Ep; [|discriminate]. injection E as <-. inversion Hs as [| | | | | | |d' K1 K2 K3]; subst. apply wrap_output; try (unfold printable; lia).
    refine (each_output _ (fun p => writable (fst p) /\ storable float_repr (snd p) /\ (storable float_repr (snd p) -> forall level t, dump comma colon ind level (snd p) = Ok t -> Forall in_output t)) (x :: d) _ _ parts Ep).
    + intros [k y] u (A & B & C). cbn [fst snd] in *. destruct (dump comma colon ind (S level) y) as [t|] eqn:Ey; [|discriminate]. intros Q. assert (Q2 : u = quote k ++ colon ++ t) by congruence. rewrite Q2. apply Forall_app. split; [now apply printed, quote_printable|]. apply Forall_app. split; [now apply printed|]. eapply C; eauto.
    + apply Forall_forall. intros y Hy. rewrite Forall_forall in IH, K2, K3. exact (conj (K2 y Hy) (conj (K3 y Hy) (IH y Hy))).
Qed.
End Ascii.
Lemma spaces_printable n : Forall printable (repeat 32 n).
Proof. induction n; constructor; auto. unfold printable; lia. Qed.
Lemma C95_ascii_lemma float_repr m i v t : storable float_repr v -> dumps m i v = Ok t -> Forall (fun c => 32 <= c <= 126 \/ (c = 10 /\ i <> None)) t.
Proof.
  intros Hs E. unfold dumps in E. refine (Forall_impl _ _ (dump_output float_repr _ _ _ _ _ _ v Hs _ t E)).
  - intros c [P|[P Q]]; [now left|right; split; [exact P|]]. destruct i; [discriminate|congruence].
  - destruct m; [|destruct i]; apply py_printable; reflexivity.
  - destruct m; apply py_printable; reflexivity.
  - destruct i; [apply spaces_printable|exact Logic.I].
Qed.
Lemma C95_back float_repr m i v t : storable float_repr v -> dumps m i v = Ok t -> loads float_repr t = Ok (pv_of int_text v).
Proof.
  intros Hs E. assert (H1 := dumps_scans float_repr m i v t Hs E). destruct H1 as [(c & t' & Et & Hc & _) H]. unfold loads.
  assert (B : c <> 65279 -> (match t with c :: _ => c =? 65279 | [] => false end) = false) by (intros N; rewrite Et; now apply N.eqb_neq).
  pose proof (H (3 * length t + 3)%nat [] ltac:(lia) Logic.I) as X. rewrite app_nil_r in X.
  assert (Sk : skip t = t) by (rewrite Et; now apply skip_head). rewrite Sk, X. cbn [skip]. rewrite B; [reflexivity|].
  pose proof (C95_ascii_lemma float_repr m i v t Hs E) as A. rewrite Et in A. inversion A as [|? ? A1 _]; subst. lia.
Qed.
(** ** what can be written at all *)
Lemma each_total {A} (g : A -> res pystr) l : Forall (fun x => exists t, g x = Ok t) l -> exists ts, each g l = Ok ts.
Proof. intros F. induction F as [|x l [t Ht] F [ts IH]]; cbn [each]; [eauto|]. rewrite Ht, IH. eauto. Qed.
Lemma each_ok {A} (g : A -> res pystr) l ts : each g l = Ok ts -> Forall (fun x => exists t, g x = Ok t) l.
Proof. revert ts. induction l as [|x l IH]; intros ts E; [constructor|]. cbn [each] in E. destruct (g x) as [t|] eqn:E1; [|discriminate]. destruct (each g l) as [us|] eqn:E2; [|discriminate]. constructor; eauto. Qed.
Lemma each_err {A} (g : A -> res pystr) l e : each g l = Err e -> exists x, In x l /\ g x = Err e.
Proof. induction l as [|x l IH]; cbn [each]; intros E; [discriminate|]. destruct (g x) as [t|e'] eqn:E1; [|injection E as <-; exists x; split; [now left|exact E1]]. destruct (each g l) as [us|e'] eqn:E2; [discriminate|]. injection E as <-. destruct (IH eq_refl) as (y & A1 & B). exists y. split; [now right|exact B]. Qed.
Section Writes.
Variables (comma colon : pystr) (ind : option pystr).
Notation dump := (dump comma colon ind).
Lemma dump_total v : serialisable v -> forall level, exists t, dump level v = Ok t.
Proof.
  induction v as [|b|z|r|s|l IH|l IH|l IH|d IH|l IH|s|props IH] using jval_ind2; intros Hs level; cbn [JsonText.dump]; try (eexists; reflexivity); try (now inversion Hs).
  - inversion Hs as [| | | | |l' K|l' K|]; subst. destruct l as [|x l]; [eexists; reflexivity|]. destruct (each_total (dump (S level)) (x :: l)) as [ts ->]; [|eexists; reflexivity].
    apply Forall_forall. intros y Hy. rewrite Forall_forall in IH, K. exact (IH y Hy (K y Hy) (S level)).
  - inversion Hs as [| | | | |l' K|l' K|]; subst. destruct l as [|x l]; [eexists; reflexivity|]. destruct (each_total (dump (S level)) (x :: l)) as [ts ->]; [|eexists; reflexivity].
    apply Forall_forall. intros y Hy. rewrite Forall_forall in IH, K. exact (IH y Hy (K y Hy) (S level)).
  - inversion Hs as [| | | | | | |d' K]; subst. destruct d as [|x d]; [eexists; reflexivity|]. match goal with |- context [each ?g (x :: d)] => destruct (each_total g (x :: d)) as [ts ->] end; [|eexists; reflexivity].
    apply Forall_forall. intros y Hy. rewrite Forall_forall in IH, K. destruct (IH y Hy (K y Hy) (S level)) as [t ->]. eexists; reflexivity.
Qed.
Lemma dump_serialisable v : forall level t, dump level v = Ok t -> serialisable v.
Proof.
  induction v as [|b|z|r|s|l IH|l IH|l IH|d IH|l IH|s|props IH] using jval_ind2; intros level t E; cbn [JsonText.dump] in E; try discriminate; constructor.
  - destruct l as [|x l]; [constructor|]. destruct (each _ (x :: l)) as [ts|] eqn:Ep; [|discriminate]. apply each_ok in Ep. apply Forall_forall. intros y Hy. rewrite Forall_forall in IH, Ep. destruct (Ep y Hy) as [u Hu]. eauto.
  - destruct l as [|x l]; [constructor|]. destruct (each _ (x :: l)) as [ts|] eqn:Ep; [|discriminate]. apply each_ok in Ep. apply Forall_forall. intros y Hy. rewrite Forall_forall in IH, Ep. destruct (Ep y Hy) as [u Hu]. eauto.
  - destruct d as [|x d]; [constructor|]. destruct (each _ (x :: d)) as [ts|] eqn:Ep; [|discriminate]. apply each_ok in Ep. apply Forall_forall. intros y Hy. rewrite Forall_forall in IH, Ep. destruct (Ep y Hy) as [u Hu]. cbv beta in Hu.
    destruct (dump (S level) (snd y)) as [u'|] eqn:Ey; [|discriminate]. exact (IH y Hy (S level) u' Ey).
Qed.
Lemma dump_err v : forall level e, dump level v = Err e -> e = TypeError.
Proof.
  induction v as [|b|z|r|s|l IH|l IH|l IH|d IH|l IH|s|props IH] using jval_ind2; intros level e E; cbn [JsonText.dump] in E; try discriminate; try congruence.
  - destruct l as [|x l]; [discriminate|]. destruct (each _ (x :: l)) as [ts|e'] eqn:Ep; [discriminate|]. injection E as ->. apply each_err in Ep as (y & Hy & Hg). rewrite Forall_forall in IH. eauto.
  - destruct l as [|x l]; [discriminate|]. destruct (each _ (x :: l)) as [ts|e'] eqn:Ep; [discriminate|]. injection E as ->. apply each_err in Ep as (y & Hy & Hg). rewrite Forall_forall in IH. eauto.
  - destruct d as [|x d]; [discriminate|]. destruct (each _ (x :: d)) as [ts|e'] eqn:Ep; [discriminate|]. injection E as ->. apply each_err in Ep as (y & Hy & Hg). cbv beta in Hg. destruct (dump (S level) (snd y)) as [u|e''] eqn:Ey; [discriminate|]. injection Hg as ->. rewrite Forall_forall in IH. exact (IH y Hy (S level) e Ey).
Qed.
End Writes.
Lemma storable_serialisable float_repr v : storable float_repr v -> serialisable v.
Proof.
  induction v as [|b|z|r|s|l IH|l IH|l IH|d IH|l IH|s|props IH] using jval_ind2; intros H; try constructor; inversion H; subst; apply Forall_forall; intros y Hy; rewrite Forall_forall in *; auto.
Qed.
Lemma plain_serialisable v : plain v -> serialisable v.
Proof.
  induction v as [|b|z|r|s|l IH|l IH|l IH|d IH|l IH|s|props IH] using jval_ind2; intros H; inversion H; subst; constructor; apply Forall_forall; intros y Hy; rewrite Forall_forall in *; auto.
Qed.
Lemma C95_json_lemma m i a props d : data a props = Ok d -> exists t, json_text m i (data a props) = Ok t.
Proof.
  intros E. rewrite E. cbn [json_text]. unfold data in E. destruct (collect handle a props []) as [d'|e] eqn:Ec; [|discriminate]. injection E as <-.
  assert (Hp := @collect_plain _ _ _ Ec). rewrite (drop_none_plain a Hp). unfold dumps. apply dump_total, plain_serialisable. now constructor.
Qed.
