(** Proofs about timestamps: what parsing gives *)
From Coq Require Import String.
From Verif Require Import Base BaseFacts Regex RegexFacts Duration DurationFacts DateTime DateTimeFacts.
Open Scope Z_scope.
Open Scope list_scope.

(** ** specification: the date and time a timestamp text denotes *)
Definition num (t : pystr) : Z := Z.of_N (value t).
Inductive zone_means : pystr -> option Z -> Prop :=
| zm_none : zone_means (py "Z") None
| zm_offset z sign k h m : (z = [] \/ z = py "Z") -> (sign = py "+" /\ k = 1 \/ sign = py "-" /\ k = -1) -> num2 0 23 h -> num2 0 59 m ->
    zone_means (z ++ sign ++ h ++ py ":" ++ m) (Some (k * ((num h * 3600 + num m * 60) * 1000000))).
Inductive second_means : pystr -> Z -> Prop :=
| sm_none : second_means [] 0
| sm_some u : num2 0 60 u -> second_means (py ":" ++ u) (num u).
Inductive frac_means : pystr -> Z -> Prop :=
| fm_none : frac_means [] 0
| fm_some u : some_digits 1 6 u -> frac_means (py "." ++ u) (num u * 10 ^ Z.of_nat (6 - List.length u)).
Definition timestamp_means (s : pystr) (dt : datetime) : Prop :=
  exists Y mo d h mi sec frac zone, some_digits 4 4 Y /\ num2 1 12 mo /\ num2 1 31 d /\ num2 0 23 h /\ num2 0 59 mi /\
    s = Y ++ py "-" ++ mo ++ py "-" ++ d ++ py "T" ++ h ++ py ":" ++ mi ++ sec ++ frac ++ zone /\
    dt_year dt = num Y /\ dt_month dt = num mo /\ dt_day dt = num d /\ dt_hour dt = num h /\ dt_minute dt = num mi /\
    second_means sec (dt_second dt) /\ frac_means frac (dt_micro dt) /\ zone_means zone (dt_offset dt).
(** the Gregorian calendar *)
Definition leap_year (y : Z) : Prop := (4 | y) /\ ((100 | y) -> (400 | y)).
Definition real_date (y m d : Z) : Prop :=
  1 <= y <= 9999 /\ 1 <= m <= 12 /\ 1 <= d /\
  (In m [1; 3; 5; 7; 8; 10; 12] -> d <= 31) /\ (In m [4; 6; 9; 11] -> d <= 30) /\ (m = 2 -> d <= 29) /\ (m = 2 -> ~ leap_year y -> d <= 28).
Lemma is_leap_spec y : is_leap y = true <-> leap_year y.
Proof.
  unfold is_leap, leap_year. rewrite andb_true_iff, orb_true_iff, negb_true_iff, !Z.eqb_eq, Z.eqb_neq.
  rewrite <- !Z.mod_divide by lia. destruct (Z.eq_dec (y mod 400) 0); split; intros [H1 H2]; split; auto; try tauto.

Qed.
Lemma real_days y m d : 1 <= m <= 12 -> (1 <= y <= 9999 /\ 1 <= d <= days_in_month y m) <-> real_date y m d.
Proof.
  intros Hm. unfold real_date, days_in_month. pose proof (is_leap_spec y) as Hl.
  assert (Hm' : m = 1 \/ m = 2 \/ m = 3 \/ m = 4 \/ m = 5 \/ m = 6 \/ m = 7 \/ m = 8 \/ m = 9 \/ m = 10 \/ m = 11 \/ m = 12) by lia.
  assert (Hc : is_leap y = true \/ is_leap y = false) by (destruct (is_leap y); auto).
  assert (Hn : is_leap y = false -> ~ leap_year y) by (intros E1 E2; apply Hl in E2; congruence).
  destruct Hc as [Hc|Hc]; rewrite Hc; repeat destruct Hm' as [-> |Hm']; try subst m; cbn [In Z.eqb Pos.eqb orb]; split; intros H;
    repeat split; try lia; intros; try lia; try (apply Hn in Hc; tauto); try (elim H1; now apply Hl); try (destruct H as (_ & _ & _ & _ & _ & _ & H); specialize (H eq_refl (Hn Hc)); lia).
Qed.

(** lengths and forbidden characters *)
Fixpoint minlen (r : regex) : nat := match r with Eps | Eos => 0 | Chr _ => 1 | Seq a b => minlen a + minlen b | Alt a b => Nat.min (minlen a) (minlen b) | Grp _ a => minlen a end.
Fixpoint maxlen (r : regex) : nat := match r with Eps | Eos => 0 | Chr _ => 1 | Seq a b => maxlen a + maxlen b | Alt a b => Nat.max (maxlen a) (maxlen b) | Grp _ a => maxlen a end.
Lemma lang_len r : forall t, lang r t -> (minlen r <= List.length t <= maxlen r)%nat.
Proof.
  induction r as [|p|a IHa b IHb|a IHa b IHb|g a IHa|]; intros t; cbn [lang minlen maxlen].
  - intros ->. cbn. lia.
  - intros (c & -> & _). cbn. lia.
  - intros (u & v & -> & Hu & Hv). apply IHa in Hu. apply IHb in Hv. rewrite app_length. lia.
  - intros [H|H]; [apply IHa in H|apply IHb in H]; lia.
  - apply IHa.
  - intros [].
Qed.
Fixpoint avoids (x : N) (r : regex) : Prop := match r with Eps | Eos => True | Chr p => p x = false | Seq a b | Alt a b => avoids x a /\ avoids x b | Grp _ a => avoids x a end.
Lemma lang_avoids x r : avoids x r -> forall t, lang r t -> ~ In x t.
Proof.
  induction r as [|p|a IHa b IHb|a IHa b IHb|g a IHa|]; cbn [avoids lang]; intros Hv t Ht.
  - subst. auto.
  - destruct Ht as (c & -> & Hc). intros [-> |[]]. congruence.
  - destruct Ht as (u & v & -> & Hu & Hw). rewrite in_app_iff. intros [H|H]; [now apply (IHa (proj1 Hv) u)|now apply (IHb (proj2 Hv) v)].
  - destruct Ht as [Ht|Ht]; [now apply (IHa (proj1 Hv))|now apply (IHb (proj2 Hv))].
  - now apply IHa.
  - contradiction.
Qed.
Fixpoint no_eos (r : regex) : Prop := match r with Eps | Chr _ => True | Eos => False | Seq a b | Alt a b => no_eos a /\ no_eos b | Grp _ a => no_eos a end.
Lemma mt_lang_weak r : no_eos r -> forall s caps rest, mt r s caps rest -> exists t, lang r t /\ s = t ++ rest.
Proof.
  induction r as [|p|a IHa b IHb|a IHa b IHb|g a IHa|]; cbn [no_eos lang mt]; intros Hn s caps rest H; try contradiction.
  - destruct H as [_ ->]. exists []. auto.
  - destruct H as (c & -> & Hc & _). exists [c]. eauto.
  - destruct Hn as [Na Nb], H as (c1 & mid & c2 & H1 & H2 & _). destruct (IHa Na _ _ _ H1) as (u & Hu & ->). destruct (IHb Nb _ _ _ H2) as (v & Hv & ->).
    exists (u ++ v). rewrite app_assoc. eauto 8.
  - destruct H as [H|H]; [destruct (IHa (proj1 Hn) _ _ _ H) as (t & Ht & ->)|destruct (IHb (proj2 Hn) _ _ _ H) as (t & Ht & ->)]; eauto.
  - destruct H as (c & H & _). eauto.
Qed.

Section Facts.
Variable nd : N -> option N.
Hypothesis Hnd : ascii_ok nd.
Local Notation dig := ascii_digit.

(** numbers *)
Lemma int_of_fold t : Forall dig t -> forall a, fold_left (fun a c => match nd c with Some v => a * 10 + v | None => a end)%N t a = fold_left (fun a c => a * 10 + (c - 48))%N t a.
Proof. induction 1 as [|c t Hc Ht IH]; intros a; [reflexivity|]. cbn [fold_left]. rewrite (nd_digit nd Hnd c Hc). apply IH. Qed.
Lemma int_of_num t : Forall dig t -> int_of nd t = num t.
Proof. intros H. unfold int_of, num, value. now rewrite int_of_fold. Qed.
Lemma value_app a b : value (a ++ b) = fold_left (fun a c => a * 10 + (c - 48))%N b (value a).
Proof. unfold value. apply fold_left_app. Qed.
Lemma value_zeros k : forall n, fold_left (fun a c => a * 10 + (c - 48))%N (repeat 48%N k) n = (n * 10 ^ N.of_nat k)%N.
Proof. induction k as [|k IH]; intros n; [cbn; lia|]. cbn [repeat fold_left]. rewrite IH. rewrite Nat2N.inj_succ, N.pow_succ_r'. replace (48 - 48)%N with 0%N by reflexivity. lia. Qed.
Lemma int_pad6 t : some_digits 1 6 t -> int_of nd (pad6 t) = num t * 10 ^ Z.of_nat (6 - List.length t).
Proof.
  intros [Hd Hl]. unfold pad6. rewrite int_of_num.
  - unfold num. rewrite value_app, value_zeros, N2Z.inj_mul, N2Z.inj_pow, nat_N_Z. reflexivity.
  - apply Forall_app. split; [exact Hd|]. apply Forall_forall. intros c Hc. apply repeat_spec in Hc. subst. unfold ascii_digit. lia.
Qed.
Lemma num2_digits lo hi t : num2 lo hi t -> Forall dig t.
Proof. intros (a & b & -> & Ha & Hb & _). auto. Qed.
Lemma num2_range lo hi t : num2 lo hi t -> Z.of_N lo <= num t <= Z.of_N hi.
Proof. intros (a & b & -> & Ha & Hb & Hr). unfold num, value. cbn [fold_left]. lia. Qed.

(** ** matching a format *)
Definition uniq (k : regex) (s : pystr) (caps : list (N * pystr)) : Prop := forall c r, mt k s c r <-> c = caps /\ r = [].
Definition nodigit (k : regex) : Prop := forall b s c r, dig b -> ~ mt k (b :: s) c r.
Lemma uniq_dir g R k a b s caps : pure R -> minlen R = 1%nat -> maxlen R = 2%nat -> lang R [a; b] -> dig b -> nodigit k -> uniq k s caps ->
  uniq (Seq (Grp g R) k) (a :: b :: s) ((g, [a; b]) :: caps).
Proof.
  intros Hp Hmin Hmax HR Hb Hk Hu c r. cbn [mt]. split.
  - intros (c1 & mid & c2 & H1 & H2 & ->). apply (mt_grp g R Hp) in H1 as (t & Lt & E & ->). pose proof (lang_len R t Lt) as Hl. rewrite Hmin, Hmax in Hl.
    destruct t as [|x [|y [|z t]]]; cbn in Hl; try lia; cbn [app] in E.
    + injection E as <- <-. elim (Hk b s c2 r Hb H2).
    + injection E as <- <- <-. apply Hu in H2 as [-> ->]. auto.
  - intros [-> ->]. exists [(g, [a; b])], s, caps. split; [apply (mt_grp g R Hp); eauto|]. split; [now apply Hu|reflexivity].
Qed.
Lemma lit_i_spec c s caps rest : mt (lit_i c) s caps rest <-> exists x, s = x :: rest /\ (x = c \/ (65 <= c <= 90)%N /\ x = (c + 32)%N) /\ caps = [].
Proof.
  cbn [mt lit_i]. split; intros (x & E & H & ->); exists x; (split; [exact E|]); (split; [|reflexivity]).
  - apply orb_true_iff in H as [H|H]; [left; now apply N.eqb_eq|right]. apply andb_true_iff in H as [H1 H2]. apply andb_true_iff in H1 as [H0 H1].
    apply N.leb_le in H0, H1. apply N.eqb_eq in H2. auto.
  - apply orb_true_iff. destruct H as [-> |[[H1 H2] ->]]; [left; apply N.eqb_refl|right]. rewrite N.eqb_refl. apply N.leb_le in H1, H2. now rewrite H1, H2.
Qed.
Lemma uniq_lit c k s caps : uniq k s caps -> uniq (Seq (lit_i c) k) (c :: s) caps.
Proof.
  intros Hu c' r. cbn [mt]. split.
  - intros (c1 & mid & c2 & H1 & H2 & ->). apply lit_i_spec in H1 as (x & E & _ & ->). injection E as -> <-. apply Hu in H2 as [-> ->]. auto.
  - intros [-> ->]. exists [], s, caps. split; [apply lit_i_spec; eauto|]. split; [now apply Hu|reflexivity].
Qed.
Lemma nodigit_lit c k : ~ dig c -> nodigit (Seq (lit_i c) k).
Proof. intros Hc b s c' r Hb. cbn [mt]. intros (c1 & mid & c2 & H1 & _). apply lit_i_spec in H1 as (x & E & Hx & _). injection E as -> ->. unfold ascii_digit in *. destruct Hx as [-> |[H ->]]; [auto|lia]. Qed.
Lemma nodigit_lit1 c : ~ dig c -> nodigit (lit_i c).
Proof. intros Hc b s c' r Hb H1. apply lit_i_spec in H1 as (x & E & Hx & _). injection E as -> ->. unfold ascii_digit in *. destruct Hx as [-> |[H ->]]; [auto|lia]. Qed.
Lemma uniq_lit1 c : uniq (lit_i c) [c] [].
Proof. intros c' r. rewrite lit_i_spec. split; [intros (x & E & _ & ->); injection E as _ <-; auto|intros [-> ->]; eauto]. Qed.
Lemma uniq_year k y1 y2 y3 y4 s caps : dig y1 -> dig y2 -> dig y3 -> dig y4 -> uniq k s caps -> uniq (Seq (dir_Y nd) k) (y1 :: y2 :: y3 :: y4 :: s) ((gY, [y1; y2; y3; y4]) :: caps).
Proof.
  intros H1 H2 H3 H4 Hu c r. unfold dir_Y. assert (Hp : pure (seqs [digit nd; digit nd; digit nd; digit nd])) by (cbn; tauto). cbn [mt]. split.
  - intros (c1 & mid & c2 & Hy & Hk & ->). apply (mt_grp _ _ Hp) in Hy as (t & Lt & E & ->). pose proof (lang_len _ t Lt) as Hl. cbn in Hl.
    destruct t as [|a [|b [|d [|e [|]]]]]; cbn in Hl; try lia. cbn [app] in E. injection E as <- <- <- <- <-. apply Hu in Hk as [-> ->]. auto.
  - intros [-> ->]. exists [(gY, [y1; y2; y3; y4])], s, caps. split; [|split; [now apply Hu|reflexivity]]. apply (mt_grp _ _ Hp). exists [y1; y2; y3; y4]. split; [|auto].
    assert (Dg : forall c, dig c -> lang (digit nd) [c]) by (intros c Hc; apply lang_digit; exists c; rewrite (nd_digit nd Hnd) by auto; split; [reflexivity|discriminate]).
    cbn [seqs]. exists [y1], [y2; y3; y4]. split; [reflexivity|]. split; [auto|]. exists [y2], [y3; y4]. split; [reflexivity|]. split; [auto|]. exists [y3], [y4]. auto.
Qed.
Lemma lang_f t : lang (upto 6 (oneof "0123456789")) t <-> some_digits 1 6 t.
Proof.
  rewrite (lang_upto (oneof "0123456789") dig); [reflexivity|]. intros u. rewrite lang_oneof. split; intros (c & -> & H); exists c; (split; [reflexivity|]); unfold ascii_digit in *; cbn in *; lia.
Qed.
Lemma app_split {A} (w s t mid : list A) : w ++ s = t ++ mid -> (exists u, u <> [] /\ w = t ++ u /\ mid = u ++ s) \/ (w = t /\ s = mid) \/ (exists u, u <> [] /\ t = w ++ u /\ s = u ++ mid).
Proof.
  revert t. induction w as [|a w IH]; intros t E; cbn in E.
  - destruct t as [|x t]; cbn in E; [right; left; auto|]. right. right. exists (x :: t). subst. split; [discriminate|auto].
  - destruct t as [|x t]; cbn in E.
    + left. exists (a :: w). subst. split; [discriminate|auto].
    + injection E as -> E. destruct (IH t E) as [(u & Hu & -> & ->)|[[-> ->]|(u & Hu & -> & ->)]]; [left|right; left|right; right]; eauto.
Qed.
Lemma uniq_frac k w s caps : some_digits 1 6 w -> nodigit k -> (forall c, hd_error s = Some c -> ~ dig c) -> uniq k s caps -> uniq (Seq dir_f k) (w ++ s) ((gf, w) :: caps).
Proof.
  intros Hw Hk Hs Hu c r. unfold dir_f. assert (Hp : pure (upto 6 (oneof "0123456789"))) by (cbn; tauto). cbn [mt]. split.
  - intros (c1 & mid & c2 & H1 & H2 & ->). apply (mt_grp _ _ Hp) in H1 as (t & Lt & E & ->). apply lang_f in Lt as [Dt Hl].
    apply app_split in E as [(u & Hne & -> & ->)|[[<- <-]|(u & Hne & -> & ->)]].
    + destruct u as [|b u]; [congruence|]. destruct Hw as [Dw _]. apply Forall_app in Dw as [_ Dw]. apply Forall_cons_iff in Dw as [Db _]. elim (Hk b (u ++ s) c2 r Db H2).
    + apply Hu in H2 as [-> ->]. auto.
    + destruct u as [|b u]; [congruence|]. apply Forall_app in Dt as [_ Dt]. apply Forall_cons_iff in Dt as [Db _]. elim (Hs b eq_refl Db).
  - intros [-> ->]. exists [(gf, w)], s, caps. split; [|split; [now apply Hu|reflexivity]]. apply (mt_grp _ _ Hp). exists w. split; [now apply lang_f|auto].
Qed.
(** %z on [sign h1 h2 : m1 m2] *)
Definition z_body : regex := Alt (seqs [oneof "+-"; digit nd; digit nd; opt (l ":"); oneof "012345"; digit nd; opt (seqs [opt (l ":"); oneof "012345"; digit nd; opt (Seq (l ".") (upto 6 (digit nd)))])]) (l "Z").
Lemma pure_z : pure z_body.
Proof. cbn. tauto. Qed.
Lemma nodigit_z : nodigit (dir_z nd).
Proof.
  intros b s c r Hb H. apply (mt_grp gz z_body pure_z) in H as (t & Lt & E & _). destruct Lt as [Lt|Lt].
  - cbn [seqs] in Lt. destruct Lt as (u & v & -> & Hu & _). apply lang_oneof in Hu as (x & -> & Hx). cbn [app] in E. injection E as <- _. cbn in Hx. unfold ascii_digit in Hb. lia.
  - apply (lang_lit 90) in Lt. subst. cbn [app] in E. injection E as -> _. unfold ascii_digit in Hb. lia.
Qed.
Lemma uniq_z sg h m : (sg = 43 \/ sg = 45)%N -> num2 0 23 h -> num2 0 59 m -> uniq (dir_z nd) (sg :: h ++ 58%N :: m) [(gz, sg :: h ++ 58%N :: m)].
Proof.
  intros Hs (h1 & h2 & -> & Hh1 & Hh2 & Hh) (m1 & m2 & -> & Hm1 & Hm2 & Hm) c r. cbn [app].
  assert (Dg : forall c, dig c -> lang (digit nd) [c]) by (intros x Hc; apply lang_digit; exists x; rewrite (nd_digit nd Hnd) by auto; split; [reflexivity|discriminate]).
  change (dir_z nd) with (Grp gz z_body). rewrite (mt_grp gz z_body pure_z). split.
  - intros (t & Lt & E & ->). destruct Lt as [Lt|Lt].
    + cbn [seqs] in Lt. destruct Lt as (u1 & v1 & -> & L1 & u2 & v2 & -> & L2 & u3 & v3 & -> & L3 & u4 & v4 & -> & L4 & u5 & v5 & -> & L5 & u6 & v6 & -> & L6 & L7).
      apply lang_oneof in L1 as (x1 & -> & X1). apply lang_digit in L2 as (x2 & -> & X2). apply lang_digit in L3 as (x3 & -> & X3).
      apply lang_oneof in L5 as (x5 & -> & X5). apply lang_digit in L6 as (x6 & -> & X6). cbn [app] in E. injection E as <- <- <- E.
      destruct L4 as [L4| ->].
      * apply (lang_lit 58) in L4. subst u4. cbn [app] in E. injection E as <- <- E. destruct v6 as [|y v6]; [|discriminate]. cbn in E. subst r. auto.
      * cbn [app] in E. injection E as <- _. cbn in X5. lia.
    + apply (lang_lit 90) in Lt. subst t. cbn [app] in E. injection E as -> _. lia.
  - intros [-> ->]. exists [sg; h1; h2; 58%N; m1; m2]. split; [|rewrite app_nil_r; auto]. left. cbn [seqs].
    exists [sg], [h1; h2; 58%N; m1; m2]. split; [reflexivity|]. split; [apply lang_oneof; exists sg; split; [reflexivity|cbn; lia]|].
    exists [h1], [h2; 58%N; m1; m2]. split; [reflexivity|]. split; [auto|]. exists [h2], [58%N; m1; m2]. split; [reflexivity|]. split; [auto|].
    exists [58%N], [m1; m2]. split; [reflexivity|]. split; [left; now apply (lang_lit 58)|]. exists [m1], [m2]. split; [reflexivity|].
    split; [apply lang_oneof; exists m1; split; [reflexivity|unfold ascii_digit in *; cbn; lia]|]. exists [m2], []. split; [reflexivity|]. split; [auto|]. right. reflexivity.
Qed.
(** the directives accept two digits in range *)
Lemma lang_dig1 b : dig b -> lang (digit nd) [b].
Proof. intros Hc. apply lang_digit. exists b. rewrite (nd_digit nd Hnd) by auto. split; [reflexivity|discriminate]. Qed.
Definition m_body := Alt (Seq (l "1") (oneof "012")) (Alt (Seq (l "0") (oneof "123456789")) (oneof "123456789")).
Definition d_body := Alt (Seq (l "3") (oneof "01")) (Alt (Seq (oneof "12") (digit nd)) (Alt (Seq (l "0") (oneof "123456789")) (Alt (oneof "123456789") (Seq (l " ") (oneof "123456789"))))).
Definition H_body := Alt (Seq (l "2") (oneof "0123")) (Alt (Seq (oneof "01") (digit nd)) (digit nd)).
Definition M_body := Alt (Seq (oneof "012345") (digit nd)) (digit nd).
Definition S_body := Alt (Seq (l "6") (oneof "01")) (Alt (Seq (oneof "012345") (digit nd)) (digit nd)).
Ltac two := match goal with H1 : dig ?a, H2 : dig ?b |- _ => assert (nd b <> None) by (rewrite (nd_digit nd Hnd) by auto; discriminate); unfold ascii_digit in * end.
Lemma m_two a b : dig a -> dig b -> (1 <= 10 * (a - 48) + (b - 48) <= 12)%N -> lang m_body [a; b].
Proof.
  intros Ha Hb Hr. unfold ascii_digit in *. unfold m_body. change (l "1") with (lit 49). change (l "0") with (lit 48). rewrite !lang_alt, !lang_lit_of.
  destruct (N.eq_dec a 49) as [-> |H]; [left; exists b; split; [reflexivity|cbn; lia]|right; left]. assert (a = 48)%N as -> by lia. exists b. split; [reflexivity|cbn; lia].
Qed.
Lemma d_two a b : dig a -> dig b -> (1 <= 10 * (a - 48) + (b - 48) <= 31)%N -> lang d_body [a; b].
Proof.
  intros Ha Hb Hr. two. unfold d_body. change (l "3") with (lit 51). change (l "0") with (lit 48). rewrite !lang_alt, !lang_lit_of, lang_of_dig.
  destruct (N.eq_dec a 51) as [-> |H1]; [left; exists b; split; [reflexivity|cbn; lia]|right]. destruct (N.eq_dec a 48) as [-> |H2]; [right; left; exists b; split; [reflexivity|cbn; lia]|left].
  exists a, b. split; [reflexivity|]. split; [cbn; lia|auto].
Qed.
Lemma H_two a b : dig a -> dig b -> (10 * (a - 48) + (b - 48) <= 23)%N -> lang H_body [a; b].
Proof.
  intros Ha Hb Hr. two. unfold H_body. change (l "2") with (lit 50). rewrite !lang_alt, lang_lit_of, lang_of_dig.
  destruct (N.eq_dec a 50) as [-> |H1]; [left; exists b; split; [reflexivity|cbn; lia]|right; left]. exists a, b. split; [reflexivity|]. split; [cbn; lia|auto].
Qed.
Lemma M_two a b : dig a -> dig b -> (10 * (a - 48) + (b - 48) <= 59)%N -> lang M_body [a; b].
Proof. intros Ha Hb Hr. two. left. apply lang_of_dig. exists a, b. split; [reflexivity|]. split; [cbn; lia|auto]. Qed.
Lemma S_two a b : dig a -> dig b -> (10 * (a - 48) + (b - 48) <= 60)%N -> lang S_body [a; b].
Proof.
  intros Ha Hb Hr. two. unfold S_body. change (l "6") with (lit 54). rewrite !lang_alt, lang_lit_of, lang_of_dig.
  destruct (N.eq_dec a 54) as [-> |H1]; [left; exists b; split; [reflexivity|cbn; lia]|right; left]. exists a, b. split; [reflexivity|]. split; [cbn; lia|auto].
Qed.
End Facts.
