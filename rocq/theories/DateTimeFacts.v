(** Proofs about timestamps: which strings the validator accepts *)
From Coq Require Import String.
From Verif Require Import Base BaseFacts Regex RegexFacts Duration DurationFacts DateTime.
Open Scope Z_scope.
Open Scope list_scope.

(** ** specification *)
Definition ascii_digit (c : N) : Prop := (48 <= c <= 57)%N.
(** two digits denoting a number between [lo] and [hi] *)
Definition num2 (lo hi : N) (t : pystr) : Prop := exists a b, t = [a; b] /\ ascii_digit a /\ ascii_digit b /\ (lo <= 10 * (a - 48) + (b - 48) <= hi)%N.
Definition some_digits (lo hi : nat) (t : pystr) : Prop := Forall ascii_digit t /\ (lo <= List.length t <= hi)%nat.
(** Z, +hh:mm, -hh:mm, Z+hh:mm, Z-hh:mm *)
Definition zone_text (t : pystr) : Prop :=
  t = py "Z" \/ exists z sign h m, (z = [] \/ z = py "Z") /\ (sign = py "+" \/ sign = py "-") /\ num2 0 23 h /\ num2 0 59 m /\ t = z ++ sign ++ h ++ py ":" ++ m.
Definition second_text (t : pystr) : Prop := t = [] \/ exists u, t = py ":" ++ u /\ num2 0 60 u.
Definition frac_text (t : pystr) : Prop := t = [] \/ exists u, t = py "." ++ u /\ some_digits 1 6 u.
Definition timestamp_text (s : pystr) : Prop :=
  exists Y mo d h mi sec frac zone, some_digits 4 4 Y /\ num2 1 12 mo /\ num2 1 31 d /\ num2 0 23 h /\ num2 0 59 mi /\ second_text sec /\ frac_text frac /\ zone_text zone /\
    s = Y ++ py "-" ++ mo ++ py "-" ++ d ++ py "T" ++ h ++ py ":" ++ mi ++ sec ++ frac ++ zone.

(** [nd] gives every ASCII digit its value and no other ASCII character a value *)
Definition ascii_ok (nd : N -> option N) : Prop := forall c, (c < 128)%N -> nd c = if ((48 <=? c) && (c <=? 57))%N then Some (c - 48)%N else None.

Section Facts.
Variable nd : N -> option N.
Hypothesis Hnd : ascii_ok nd.
Lemma nd_digit c : ascii_digit c -> nd c = Some (c - 48)%N.
Proof. intros [H1 H2]. rewrite Hnd by lia. apply N.leb_le in H1, H2. now rewrite H1, H2. Qed.
Lemma nd_other c : (c < 128)%N -> ~ ascii_digit c -> nd c = None.
Proof. intros H1 H2. rewrite Hnd by auto. destruct (N.leb_spec 48 c), (N.leb_spec c 57); cbn; auto. elim H2. split; auto. Qed.
(** [okc c]: [c] is not a non-ASCII digit *)
Definition okc (c : N) : Prop := nd c <> None -> ascii_digit c.
Lemma ascii_okc c : (c < 128)%N -> okc c.
Proof. intros H Hc. destruct (N.leb_spec 48 c), (N.leb_spec c 57); try (split; assumption); rewrite nd_other in Hc; unfold ascii_digit; try lia; congruence. Qed.

Lemma lang_lit c t : lang (lit c) t <-> t = [c].
Proof. cbn. split; [intros (d & -> & E); apply N.eqb_eq in E; congruence|intros ->; exists c; split; [reflexivity|apply N.eqb_refl]]. Qed.
Lemma lang_oneof s t : lang (oneof s) t <-> exists c, t = [c] /\ In c (py s).
Proof.
  cbn. split; intros (c & -> & E); exists c; (split; [reflexivity|]).
  - apply existsb_exists in E as (d & Hd & E). apply N.eqb_eq in E. now subst.
  - apply existsb_exists. exists c. split; [exact E|apply N.eqb_refl].
Qed.
Lemma lang_digit t : lang (digit nd) t <-> exists c, t = [c] /\ nd c <> None.
Proof. cbn. split; intros (c & -> & E); exists c; (split; [reflexivity|]); destruct (nd c); congruence. Qed.
Lemma lang_seq a b t : lang (Seq a b) t <-> exists u v, t = u ++ v /\ lang a u /\ lang b v.
Proof. reflexivity. Qed.
Lemma lang_alt a b t : lang (Alt a b) t <-> lang a t \/ lang b t.
Proof. reflexivity. Qed.
(** two-character regular expressions *)
Lemma lang_lit_lit c d t : lang (Seq (lit c) (lit d)) t <-> t = [c; d].
Proof. rewrite lang_seq. split; [intros (u & v & -> & Hu & Hv); apply lang_lit in Hu, Hv; now subst|intros ->; exists [c], [d]; rewrite !lang_lit; auto]. Qed.
Lemma lang_lit_of c s t : lang (Seq (lit c) (oneof s)) t <-> exists b, t = [c; b] /\ In b (py s).
Proof. rewrite lang_seq. split; [intros (u & v & -> & Hu & Hv); apply lang_lit in Hu; apply lang_oneof in Hv as (b & -> & Hb); subst; cbn [app]; eauto|intros (b & -> & Hb); exists [c], [b]; rewrite lang_lit, lang_oneof; split; [reflexivity|]; eauto]. Qed.
Lemma lang_lit_dig c t : lang (Seq (lit c) (digit nd)) t <-> exists b, t = [c; b] /\ nd b <> None.
Proof. rewrite lang_seq. split; [intros (u & v & -> & Hu & Hv); apply lang_lit in Hu; apply lang_digit in Hv as (b & -> & Hb); subst; cbn [app]; eauto|intros (b & -> & Hb); exists [c], [b]; rewrite lang_lit, lang_digit; split; [reflexivity|]; eauto]. Qed.
Lemma lang_of_dig s t : lang (Seq (oneof s) (digit nd)) t <-> exists a b, t = [a; b] /\ In a (py s) /\ nd b <> None.
Proof.
  rewrite lang_seq. split.
  - intros (u & v & -> & Hu & Hv). apply lang_oneof in Hu as (a & -> & Ha). apply lang_digit in Hv as (b & -> & Hb). exists a, b. auto.
  - intros (a & b & -> & Ha & Hb). exists [a], [b]. rewrite lang_oneof, lang_digit. split; [reflexivity|]. split; [exists a|exists b]; auto.
Qed.

Ltac digs := repeat match goal with
  | H : Forall okc (_ :: _) |- _ => let H1 := fresh in let H2 := fresh in apply Forall_cons_iff in H as [H1 H2]
  | H : okc ?c, E : nd ?c <> None |- _ => apply H in E; clear H
  end.
Ltac in_cases H := cbn [py In] in H; repeat (destruct H as [H|H]; [cbn in H; subst|]); try contradiction.
Lemma dig_cases b : ascii_digit b -> (b = 48 \/ b = 49 \/ b = 50 \/ b = 51 \/ b = 52 \/ b = 53 \/ b = 54 \/ b = 55 \/ b = 56 \/ b = 57)%N.
Proof. unfold ascii_digit. lia. Qed.
Ltac solve_in := cbn; lia.
Lemma lang_hour t : Forall okc t -> lang (hour_re nd) t <-> num2 0 23 t.
Proof.
  intros Hok. unfold hour_re. change (l "0") with (lit 48). change (l "1") with (lit 49). change (l "2") with (lit 50).
  rewrite !lang_alt, !lang_lit_dig, lang_lit_of. split.
  - intros [(b & -> & Hb)|[(b & -> & Hb)|(b & -> & Hb)]].
    + digs. exists 48%N, b. unfold ascii_digit in *. repeat split; lia.
    + digs. exists 49%N, b. unfold ascii_digit in *. repeat split; lia.
    + exists 50%N, b. cbn in Hb. unfold ascii_digit. repeat split; lia.
  - intros (a & b & -> & Ha & Hb & Hr). assert (Hn : nd b <> None) by (rewrite nd_digit by auto; discriminate). unfold ascii_digit in *.
    assert (Ca : (a = 48 \/ a = 49 \/ a = 50)%N) by lia. destruct Ca as [-> |[-> | ->]]; [left; eauto|right; left; eauto|right; right]. exists b. split; [reflexivity|solve_in].
Qed.
Lemma lang_minute t : Forall okc t -> lang (minute_re nd) t <-> num2 0 59 t.
Proof.
  intros Hok. unfold minute_re. rewrite lang_of_dig. split.
  - intros (a & b & -> & Ha & Hb). digs. cbn in Ha. exists a, b. unfold ascii_digit in *. repeat split; lia.
  - intros (a & b & -> & Ha & Hb & Hr). exists a, b. split; [reflexivity|]. split; [unfold ascii_digit in *; solve_in|rewrite nd_digit by auto; discriminate].
Qed.
Lemma lang_sec60 t : Forall okc t -> lang (Alt (Seq (oneof "012345") (digit nd)) (l "60")) t <-> num2 0 60 t.
Proof.
  intros Hok. change (l "60") with (Seq (lit 54) (lit 48)). rewrite lang_alt, lang_of_dig, lang_lit_lit. split.
  - intros [(a & b & -> & Ha & Hb)| ->].
    + digs. cbn in Ha. exists a, b. unfold ascii_digit in *. repeat split; lia.
    + exists 54%N, 48%N. unfold ascii_digit. repeat split; lia.
  - intros (a & b & -> & Ha & Hb & Hr). assert (Hn : nd b <> None) by (rewrite nd_digit by auto; discriminate). unfold ascii_digit in *.
    destruct (N.eq_dec a 54) as [-> |Hx]; [right; repeat f_equal; lia|left]. exists a, b. split; [reflexivity|]. split; [solve_in|exact Hn].
Qed.
Lemma lang_opt r t : lang (opt r) t <-> lang r t \/ t = [].
Proof. reflexivity. Qed.
Lemma lang_second t : Forall okc t -> lang (second_re nd) t <-> second_text t.
Proof.
  intros Hok. unfold second_re, second_text. rewrite lang_opt, lang_seq. change (l ":") with (lit 58). split.
  - intros [(u & v & -> & Hu & Hv)| ->]; [right|now left]. apply lang_lit in Hu. subst u. apply lang_sec60 in Hv; [eauto|]. apply Forall_app in Hok. tauto.
  - intros [-> |(u & -> & Hu)]; [now right|left]. exists [58%N], u. split; [reflexivity|]. split; [now apply lang_lit|]. apply lang_sec60; [|exact Hu]. apply Forall_app in Hok. tauto.
Qed.
Lemma lang_month t : lang (Alt (Seq (l "0") (oneof "123456789")) (Seq (l "1") (oneof "012"))) t <-> num2 1 12 t.
Proof.
  change (l "0") with (lit 48). change (l "1") with (lit 49). rewrite lang_alt, !lang_lit_of. split.
  - intros [(b & -> & Hb)|(b & -> & Hb)]; cbn in Hb; [exists 48%N, b|exists 49%N, b]; unfold ascii_digit; repeat split; lia.
  - intros (a & b & -> & Ha & Hb & Hr). unfold ascii_digit in *. assert (Ca : (a = 48 \/ a = 49)%N) by lia. destruct Ca as [-> | ->]; [left|right]; exists b; (split; [reflexivity|solve_in]).
Qed.
Lemma lang_day t : Forall okc t -> lang (Alt (Seq (l "0") (oneof "123456789")) (Alt (Seq (l "1") (digit nd)) (Alt (Seq (l "2") (digit nd)) (Seq (l "3") (oneof "01"))))) t <-> num2 1 31 t.
Proof.
  intros Hok. change (l "0") with (lit 48). change (l "1") with (lit 49). change (l "2") with (lit 50). change (l "3") with (lit 51). rewrite !lang_alt, !lang_lit_of, !lang_lit_dig. split.
  - intros [(b & -> & Hb)|[(b & -> & Hb)|[(b & -> & Hb)|(b & -> & Hb)]]]; digs; try (cbn in Hb);
      [exists 48%N, b|exists 49%N, b|exists 50%N, b|exists 51%N, b]; unfold ascii_digit in *; repeat split; lia.
  - intros (a & b & -> & Ha & Hb & Hr). assert (Hn : nd b <> None) by (rewrite nd_digit by auto; discriminate). unfold ascii_digit in *.
    assert (Ca : (a = 48 \/ a = 49 \/ a = 50 \/ a = 51)%N) by lia.
    destruct Ca as [-> |[-> |[-> | ->]]]; [left|right; left|right; right; left|right; right; right]; exists b; (split; [reflexivity|]); auto; solve_in.
Qed.
Lemma lang_upto (r : regex) (P : N -> Prop) : (forall t, lang r t <-> exists c, t = [c] /\ P c) ->
  forall n t, lang (upto (S n) r) t <-> Forall P t /\ (1 <= List.length t <= S n)%nat.
Proof.
  intros Hr. induction n as [|n IH]; intros t.
  - cbn [upto]. rewrite Hr. split.
    + intros (c & -> & Hc). split; [auto|cbn; lia].
    + intros [Hf Hl]. destruct t as [|c [|d t]]; cbn in Hl; try lia. apply Forall_cons_iff in Hf as [Hc _]. eauto.
  - change (upto (S (S n)) r) with (Seq r (opt (upto (S n) r))). rewrite lang_seq. split.
    + intros (u & v & -> & Hu & Hv). apply Hr in Hu as (c & -> & Hc). apply lang_opt in Hv as [Hv| ->].
      * apply IH in Hv as [Hf Hl]. split; [cbn [app]; auto|cbn; lia].
      * split; [cbn [app]; auto|cbn; lia].
    + intros [Hf Hl]. destruct t as [|c t]; [cbn in Hl; lia|]. apply Forall_cons_iff in Hf as [Hc Hf]. exists [c], t. split; [reflexivity|]. split; [apply Hr; eauto|].
      apply lang_opt. destruct t as [|d t]; [now right|left]. apply IH. split; [exact Hf|cbn in *; lia].
Qed.
Lemma lang_digits n t : Forall okc t -> lang (upto (S n) (digit nd)) t <-> some_digits 1 (S n) t.
Proof.
  intros Hok. rewrite (lang_upto (digit nd) (fun c => nd c <> None) lang_digit). unfold some_digits. split; intros [H1 H2]; (split; [|exact H2]); rewrite Forall_forall in *.
  - intros c Hc. apply (Hok c Hc). auto.
  - intros c Hc. rewrite nd_digit by auto. discriminate.
Qed.
Lemma lang_frac t : Forall okc t -> lang (opt (Seq (l ".") (upto 6 (digit nd)))) t <-> frac_text t.
Proof.
  intros Hok. unfold frac_text. rewrite lang_opt, lang_seq. change (l ".") with (lit 46). split.
  - intros [(u & v & -> & Hu & Hv)| ->]; [right|now left]. apply lang_lit in Hu. subst u. exists v. split; [reflexivity|]. apply lang_digits; [|exact Hv]. apply Forall_app in Hok. tauto.
  - intros [-> |(u & -> & Hu)]; [now right|left]. exists [46%N], u. split; [reflexivity|]. split; [now apply lang_lit|]. apply lang_digits; [|exact Hu]. apply Forall_app in Hok. tauto.
Qed.
Lemma lang_seqs_cons r r' rs t : lang (seqs (r :: r' :: rs)) t <-> exists u v, t = u ++ v /\ lang r u /\ lang (seqs (r' :: rs)) v.
Proof. reflexivity. Qed.
Definition offset_text (t : pystr) : Prop := exists z sign h m, (z = [] \/ z = py "Z") /\ (sign = py "+" \/ sign = py "-") /\ num2 0 23 h /\ num2 0 59 m /\ t = z ++ sign ++ h ++ py ":" ++ m.
Lemma okc_app a b : Forall okc (a ++ b) <-> Forall okc a /\ Forall okc b.
Proof. apply Forall_app. Qed.
Lemma lang_offset t : Forall okc t -> lang (offset_re nd) t <-> offset_text t.
Proof.
  intros Hok. unfold offset_re, offset_text. rewrite !lang_seqs_cons. change (l "Z") with (lit 90). split.
  - intros (z & v & -> & Hz & sg & v2 & -> & Hs & h & v3 & -> & Hh & co & m & -> & Hc & Hm). rewrite !okc_app in Hok. destruct Hok as (_ & _ & Ok3 & _ & Ok4).
    exists z, sg, h, m. assert (Hz' : z = [] \/ z = py "Z") by (destruct Hz as [Hz|Hz]; [right; now apply (lang_lit 90) in Hz|left; exact Hz]). apply lang_oneof in Hs as (s & -> & Hs). apply lang_hour in Hh; auto. apply (lang_lit 58) in Hc. subst co.
    apply lang_minute in Hm; auto. split; [exact Hz'|]. split; [cbn in Hs; destruct Hs as [<-|[<-|[]]]; auto|auto].
  - intros (z & sg & h & m & Hz & Hs & Hh & Hm & ->). rewrite !okc_app in Hok. destruct Hok as (_ & _ & Ok3 & _ & Ok4).
    exists z, (sg ++ h ++ py ":" ++ m). split; [reflexivity|]. split; [apply lang_opt; destruct Hz as [-> | ->]; [right; reflexivity|left; now apply (lang_lit 90)]|].
    exists sg, (h ++ py ":" ++ m). split; [reflexivity|]. split; [apply lang_oneof; destruct Hs as [-> | ->]; eexists; (split; [reflexivity|cbn; auto])|].
    exists h, (py ":" ++ m). split; [reflexivity|]. split; [now apply lang_hour|]. exists (py ":"), m. split; [reflexivity|]. split; [now apply (lang_lit 58)|now apply lang_minute].
Qed.
Lemma lang_zone t : Forall okc t -> lang (Alt (l "Z") (offset_re nd)) t <-> zone_text t.
Proof. intros Hok. rewrite lang_alt, lang_offset by auto. change (l "Z") with (lit 90). rewrite lang_lit. reflexivity. Qed.

(** the whole expression, without the final $ *)
Definition core_re : list regex :=
  [digit nd; digit nd; digit nd; digit nd; l "-"; Alt (Seq (l "0") (oneof "123456789")) (Seq (l "1") (oneof "012")); l "-";
        Alt (Seq (l "0") (oneof "123456789")) (Alt (Seq (l "1") (digit nd)) (Alt (Seq (l "2") (digit nd)) (Seq (l "3") (oneof "01"))));
        l "T"; hour_re nd; l ":"; minute_re nd; second_re nd; opt (Seq (l ".") (upto 6 (digit nd))); Alt (l "Z") (offset_re nd)].
Lemma lang_core t : Forall okc t -> lang (seqs core_re) t <-> timestamp_text t.
Proof.
  intros Hok. unfold core_re, timestamp_text. rewrite !lang_seqs_cons. split.
  - intros (y1 & v & -> & H1 & y2 & v2 & -> & H2 & y3 & v3 & -> & H3 & y4 & v4 & -> & H4 & m1 & v5 & -> & H5 & mo & v6 & -> & H6 & m2 & v7 & -> & H7 & d & v8 & -> & H8 & tt' & v9 & -> & H9
            & h & v10 & -> & H10 & c1 & v11 & -> & H11 & mi & v12 & -> & H12 & sec & v13 & -> & H13 & frac & zone & -> & H14 & H15).
    rewrite !okc_app in Hok. destruct Hok as (O1 & O2 & O3 & O4 & _ & _ & _ & O8 & _ & O10 & _ & O12 & O13 & O14 & O15).
    apply lang_digit in H1 as (a1 & -> & D1). apply lang_digit in H2 as (a2 & -> & D2). apply lang_digit in H3 as (a3 & -> & D3). apply lang_digit in H4 as (a4 & -> & D4).
    apply (lang_lit 45) in H5. apply (lang_lit 45) in H7. apply (lang_lit 84) in H9. apply (lang_lit 58) in H11. subst m1 m2 tt' c1.
    exists [a1; a2; a3; a4], mo, d, h, mi, sec, frac, zone. digs. split; [split; [auto|cbn; lia]|].
    split; [now apply lang_month|]. split; [now apply lang_day|]. split; [now apply lang_hour|]. split; [now apply lang_minute|]. split; [now apply lang_second|].
    split; [now apply lang_frac|]. split; [now apply lang_zone|reflexivity].
  - intros (Y & mo & d & h & mi & sec & frac & zone & [HY HL] & Hmo & Hd & Hh & Hmi & Hs & Hf & Hz & ->).
    destruct Y as [|a1 [|a2 [|a3 [|a4 [|]]]]]; cbn in HL; try lia. assert (HY' := HY). repeat (apply Forall_cons_iff in HY' as [? HY']).
    rewrite !okc_app in Hok. destruct Hok as (_ & _ & O6 & _ & O8 & _ & O10 & _ & O12 & O13 & O14 & O15).
    assert (Dg : forall c, ascii_digit c -> lang (digit nd) [c]) by (intros c Hc; apply lang_digit; exists c; rewrite nd_digit by auto; split; [reflexivity|discriminate]).
    eexists [a1], _. split; [reflexivity|]. split; [now apply Dg|]. eexists [a2], _. split; [reflexivity|]. split; [now apply Dg|]. eexists [a3], _. split; [reflexivity|]. split; [now apply Dg|].
    eexists [a4], _. split; [reflexivity|]. split; [now apply Dg|]. eexists (py "-"), _. split; [reflexivity|]. split; [now apply (lang_lit 45)|].
    eexists mo, _. split; [reflexivity|]. split; [now apply lang_month|]. eexists (py "-"), _. split; [reflexivity|]. split; [now apply (lang_lit 45)|].
    eexists d, _. split; [reflexivity|]. split; [now apply lang_day|]. eexists (py "T"), _. split; [reflexivity|]. split; [now apply (lang_lit 84)|].
    eexists h, _. split; [reflexivity|]. split; [now apply lang_hour|]. eexists (py ":"), _. split; [reflexivity|]. split; [now apply (lang_lit 58)|].
    eexists mi, _. split; [reflexivity|]. split; [now apply lang_minute|]. eexists sec, _. split; [reflexivity|]. split; [now apply lang_second|].
    eexists frac, zone. split; [reflexivity|]. split; [now apply lang_frac|now apply lang_zone].
Qed.
Lemma seqs_snoc_mt rs r s caps rest : rs <> [] -> mt (seqs (rs ++ [r])) s caps rest <-> mt (Seq (seqs rs) r) s caps rest.
Proof.
  revert s caps rest. induction rs as [|a [|b rs] IH]; intros s caps rest Hne; [congruence|reflexivity|].
  change (seqs ((a :: b :: rs) ++ [r])) with (Seq a (seqs ((b :: rs) ++ [r]))). change (seqs (a :: b :: rs)) with (Seq a (seqs (b :: rs))).
  cbn [mt]. split.
  - intros (c1 & mid & c2 & H1 & H2 & ->). apply IH in H2; [|discriminate]. destruct H2 as (c3 & mid2 & c4 & H3 & H4 & ->).
    exists (c1 ++ c3), mid2, c4. split; [eauto 8|]. split; [auto|now rewrite app_assoc].
  - intros (c12 & mid & c2 & (c3 & m & c4 & H1 & H2 & ->) & H3 & ->). exists c3, m, (c4 ++ c2). split; [auto|]. split; [apply IH; [discriminate|]; exists c4, mid, c2; auto|now rewrite app_assoc].
Qed.
Lemma pure_core : pure (seqs core_re).
Proof. cbn. tauto. Qed.
Lemma mt_AS2_DATE_TIME s caps rest : Forall okc s -> mt (AS2_DATE_TIME nd) s caps rest <-> caps = [] /\ (rest = [] \/ rest = [10%N]) /\ exists t, timestamp_text t /\ s = t ++ rest.
Proof.
  intros Hok. change (AS2_DATE_TIME nd) with (seqs (core_re ++ [Eos])). rewrite seqs_snoc_mt by discriminate. cbn [mt]. split.
  - intros (c1 & mid & c2 & H1 & (H2 & -> & ->) & ->). apply (mt_lang _ pure_core) in H1 as (-> & t & L & ->). split; [reflexivity|]. split; [exact H2|]. exists t. split; [|reflexivity].
    apply lang_core; [apply okc_app in Hok; tauto|exact L].
  - intros (-> & Hr & t & Ht & ->). exists [], rest, []. split; [|auto]. apply (mt_lang _ pure_core). split; [reflexivity|]. exists t. split; [|reflexivity]. apply lang_core; [apply okc_app in Hok; tauto|exact Ht].
Qed.
Lemma C62_accepts s : (forall c, In c s -> nd c <> None -> ascii_digit c) ->
  is_activity_datetime nd (DStr s) = Ok tt <-> exists before t newline, s = before ++ t ++ newline /\ timestamp_text t /\ (newline = [] \/ newline = [10%N]).
Proof.
  intros Hok. assert (Hf : Forall okc s) by (apply Forall_forall; exact Hok). cbn [is_activity_datetime].
  assert (Hs : re_search (AS2_DATE_TIME nd) s <> None <-> exists before t newline, s = before ++ t ++ newline /\ timestamp_text t /\ (newline = [] \/ newline = [10%N])).
  { rewrite re_search_some. split.
    - intros (pre & s' & caps & rest & -> & H). apply okc_app in Hf as [_ Hf]. apply mt_AS2_DATE_TIME in H as (_ & Hr & t & Ht & ->); auto. exists pre, t, rest. auto.
    - intros (pre & t & nl & -> & Ht & Hnl). exists pre, (t ++ nl), [], nl. split; [reflexivity|]. apply okc_app in Hf as [_ Hf]. apply mt_AS2_DATE_TIME; eauto. }
  destruct (re_search (AS2_DATE_TIME nd) s) as [x|] eqn:E.
  - split; [intros _; apply Hs; discriminate|reflexivity].
  - split; [discriminate|]. intros H. apply Hs in H. congruence.
Qed.
Lemma C62_validator_result v : is_activity_datetime nd v = Ok tt \/ (is_activity_datetime nd v = Err ValueError /\ exists s, v = DStr s).
Proof. destruct v as [|d|s|]; cbn; auto. destruct (re_search _ s); eauto. Qed.
End Facts.
