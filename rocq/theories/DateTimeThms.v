(** Timestamps: assembling the parser's behaviour *)
From Coq Require Import String Ascii.
From Verif Require Import Base BaseFacts Regex RegexFacts Duration DurationFacts DateTime DateTimeFacts DateParseFacts.
Open Scope Z_scope.
Open Scope list_scope.

Section Facts.
Variable nd : N -> option N.
Hypothesis Hnd : ascii_ok nd.
Local Notation dig := ascii_digit.

(** zones *)
Definition zone_re (s : pystr) : list regex := match re_search (AS2_TZ nd) s with None => [lit_i 90] | Some _ => if has_char 90 s then [lit_i 90; dir_z nd] else [dir_z nd] end.
Inductive zone_case : pystr -> list regex -> list (N * pystr) -> option Z -> Prop :=
| zc_utc : zone_case (py "Z") [lit_i 90] [] None
| zc_off sg k h m : (sg = 43%N /\ k = 1 \/ sg = 45%N /\ k = -1) -> num2 0 23 h -> num2 0 59 m ->
    zone_case (sg :: h ++ 58%N :: m) [dir_z nd] [(gz, sg :: h ++ 58%N :: m)] (Some (k * ((num h * 3600 + num m * 60) * 1000000)))
| zc_zoff sg k h m : (sg = 43%N /\ k = 1 \/ sg = 45%N /\ k = -1) -> num2 0 23 h -> num2 0 59 m ->
    zone_case (90%N :: sg :: h ++ 58%N :: m) [lit_i 90; dir_z nd] [(gz, sg :: h ++ 58%N :: m)] (Some (k * ((num h * 3600 + num m * 60) * 1000000))).
Lemma zone_cases t off : zone_means t off -> exists rs caps, zone_case t rs caps off.
Proof.
  intros [|z sign k h m Hz Hs Hh Hm]; [eexists _, _; constructor|].
  assert (Hs' : exists sg, sign = [sg] /\ (sg = 43%N /\ k = 1 \/ sg = 45%N /\ k = -1)) by (destruct Hs as [[-> ->]|[-> ->]]; [exists 43%N|exists 45%N]; auto).
  destruct Hs' as (sg & -> & Hs'). destruct Hz as [-> | ->]; [exists [dir_z nd]|exists [lit_i 90; dir_z nd]]; eexists; [apply zc_off|apply zc_zoff]; auto.
Qed.
Lemma not_dig_90 : ~ dig 90. Proof. unfold ascii_digit. lia. Qed.
Lemma zone_uniq t rs caps off : zone_case t rs caps off -> uniq (seqs rs) t caps /\ nodigit (seqs rs).
Proof.
  intros [|sg k h m Hs Hh Hm|sg k h m Hs Hh Hm]; cbn [seqs].
  - split; [apply uniq_lit1|apply nodigit_lit1, not_dig_90].
  - split; [apply uniq_z; auto; tauto|apply nodigit_z; auto].
  - split; [apply uniq_lit, uniq_z; auto; tauto|apply nodigit_lit, not_dig_90].
Qed.
Lemma zone_head t rs caps off : zone_case t rs caps off -> exists c t', t = c :: t' /\ In c (py ".-+Z") /\ c <> 46%N.
Proof. intros [|sg k h m Hs Hh Hm|sg k h m Hs Hh Hm]; eexists _, _; (split; [reflexivity|]); cbn; (split; [|try lia]); try tauto; lia. Qed.
(** seconds and fractions *)
Lemma nodigit_cons c k rs : ~ dig c -> nodigit (seqs (lit_i c :: k :: rs)).
Proof. intros H. apply (nodigit_lit c (seqs (k :: rs)) H). Qed.
Definition frac_re (frac : pystr) : list regex := match frac with [] => [] | _ => [lit_i 46; dir_f] end.
Definition frac_caps (frac : pystr) : list (N * pystr) := match frac with [] => [] | _ :: u => [(gf, u)] end.
Lemma seqs_cons r rs : rs <> [] -> seqs (r :: rs) = Seq r (seqs rs).
Proof. destruct rs; [congruence|reflexivity]. Qed.
Lemma frac_uniq frac n zone rs caps off : frac_means frac n -> zone_case zone rs caps off ->
  uniq (seqs (frac_re frac ++ rs)) (frac ++ zone) (frac_caps frac ++ caps) /\ nodigit (seqs (frac_re frac ++ rs)).
Proof.
  intros Hf Hz. destruct (zone_uniq _ _ _ _ Hz) as [Hu Hk]. assert (Hne : rs <> []) by (destruct Hz; discriminate). destruct Hf as [|u Hu6]; [split; assumption|].
  cbn [frac_re py app frac_caps]. rewrite !seqs_cons by (auto; discriminate). change (py ".") with [46%N]. cbn [app]. split.
  - apply uniq_lit. apply (uniq_frac (seqs rs) u zone caps); auto. intros c Hc. destruct (zone_head _ _ _ _ Hz) as (c' & t' & -> & Hin & _). cbn in Hc. injection Hc as <-. unfold ascii_digit. cbn in Hin. lia.
  - apply nodigit_lit. unfold ascii_digit. lia.
Qed.
Definition sec_re (sec : pystr) : list regex := match sec with [] => [] | _ => [lit_i 58; dir_S nd] end.
Definition sec_caps (sec : pystr) : list (N * pystr) := match sec with [] => [] | _ :: u => [(gS, u)] end.
Lemma sec_uniq sec n rs s caps : second_means sec n -> uniq (seqs rs) s caps -> nodigit (seqs rs) -> rs <> [] ->
  uniq (seqs (sec_re sec ++ rs)) (sec ++ s) (sec_caps sec ++ caps) /\ nodigit (seqs (sec_re sec ++ rs)).
Proof.
  intros Hs Hu Hk Hne. destruct Hs as [|u (a & b & -> & Ha & Hb & Hr)]; [split; assumption|].
  cbn [sec_re py app sec_caps]. rewrite !seqs_cons by (auto; discriminate). change (py ":") with [58%N]. cbn [app]. split.
  - apply uniq_lit. apply (uniq_dir gS (S_body nd) (seqs rs) a b s caps); auto; [cbn; tauto|]. apply S_two; auto. lia.
  - apply nodigit_lit. unfold ascii_digit. lia.
Qed.
(** the whole format *)
Lemma format_uniq Y mo d h mi sec n frac n' zone rs caps off :
  some_digits 4 4 Y -> num2 1 12 mo -> num2 1 31 d -> num2 0 23 h -> num2 0 59 mi -> second_means sec n -> frac_means frac n' -> zone_case zone rs caps off ->
  uniq (seqs ([dir_Y nd; lit_i 45; dir_m; lit_i 45; dir_d nd; lit_i 84; dir_H nd; lit_i 58; dir_M nd] ++ sec_re sec ++ frac_re frac ++ rs))
    (Y ++ py "-" ++ mo ++ py "-" ++ d ++ py "T" ++ h ++ py ":" ++ mi ++ sec ++ frac ++ zone)
    ([(gY, Y); (gm, mo); (gd, d); (gH, h); (gM, mi)] ++ sec_caps sec ++ frac_caps frac ++ caps).
Proof.
  intros [HY HL] (m1 & m2 & -> & Hm1 & Hm2 & Hm) (d1 & d2 & -> & Hd1 & Hd2 & Hd) (h1 & h2 & -> & Hh1 & Hh2 & Hh) (i1 & i2 & -> & Hi1 & Hi2 & Hi) Hs Hf Hz.
  destruct (frac_uniq _ _ _ _ _ _ Hf Hz) as [Hu1 Hk1]. assert (Hne : rs <> []) by (destruct Hz; discriminate).
  assert (Hne1 : frac_re frac ++ rs <> []) by (destruct (frac_re frac); [exact Hne|discriminate]).
  destruct (sec_uniq _ _ _ _ _ Hs Hu1 Hk1 Hne1) as [Hu2 Hk2]. assert (Hne2 : sec_re sec ++ frac_re frac ++ rs <> []) by (destruct (sec_re sec); [exact Hne1|discriminate]).
  destruct Y as [|y1 [|y2 [|y3 [|y4 [|]]]]]; cbn in HL; try lia. repeat (apply Forall_cons_iff in HY as [? HY]).
  set (k := sec_re sec ++ frac_re frac ++ rs) in *. set (s := sec ++ frac ++ zone) in *. set (cs := sec_caps sec ++ frac_caps frac ++ caps) in *. clearbody k s cs.
  cbn [py app]. rewrite !seqs_cons by (auto; discriminate).
  apply uniq_year; auto. apply uniq_lit. apply (uniq_dir gm m_body); try reflexivity; auto; [cbn; tauto|now apply m_two|apply nodigit_lit; unfold ascii_digit; lia|].
  apply uniq_lit. apply (uniq_dir gd (d_body nd)); try reflexivity; auto; [cbn; tauto|now apply d_two|apply nodigit_lit; unfold ascii_digit; lia|].
  apply uniq_lit. apply (uniq_dir gH (H_body nd)); try reflexivity; auto; [cbn; tauto|apply H_two; auto; lia|apply nodigit_lit; unfold ascii_digit; lia|].
  apply uniq_lit. apply (uniq_dir gM (M_body nd)); try reflexivity; auto; [cbn; tauto|apply M_two; auto; lia].
Qed.
Lemma offset_value sg k h m : (sg = 43%N /\ k = 1 \/ sg = 45%N /\ k = -1) -> num2 0 23 h -> num2 0 59 m ->
  utc_offset nd (sg :: h ++ 58%N :: m) = Ok (k * ((num h * 3600 + num m * 60) * 1000000)).
Proof.
  intros Hs (h1 & h2 & -> & Hh1 & Hh2 & Hh) (m1 & m2 & -> & Hm1 & Hm2 & Hm). unfold utc_offset. cbn [app].
  assert (E : str_eqb (sg :: h1 :: h2 :: [58%N; m1; m2]) (py "Z") = false).
  { destruct (str_eqb _ _) eqn:E; [|reflexivity]. apply str_eqb_eq in E. discriminate. }
  rewrite E. cbn [nth_error]. change ((58 =? 58)%N) with true. cbn [firstn skipn app List.length Nat.ltb Nat.leb andb]. cbv zeta.
  rewrite (int_of_num nd Hnd [h1; h2]), (int_of_num nd Hnd [m1; m2]) by auto. change (int_of nd []) with 0. change (int_of nd (pad6 [])) with (int_of nd (repeat 48%N 6)).
  assert (E6 : int_of nd (repeat 48%N 6) = 0).
  { rewrite (int_of_num nd Hnd); [reflexivity|]. apply Forall_forall. intros c Hc. apply repeat_spec in Hc. subst. unfold ascii_digit. lia. }
  rewrite E6. destruct Hs as [[-> ->]|[-> ->]]; f_equal.
  - match goal with |- (if ?b then _ else _) = _ => change b with false end. cbv iota. lia.
  - match goal with |- (if ?b then _ else _) = _ => change b with true end. cbv iota. lia.
Qed.
Lemma strptime_text Y mo d h mi sec n frac n' zone rs caps off :
  some_digits 4 4 Y -> num2 1 12 mo -> num2 1 31 d -> num2 0 23 h -> num2 0 59 mi -> second_means sec n -> frac_means frac n' -> zone_case zone rs caps off ->
  strptime nd (Y ++ py "-" ++ mo ++ py "-" ++ d ++ py "T" ++ h ++ py ":" ++ mi ++ sec ++ frac ++ zone)
    (time_format nd (match sec with [] => false | _ => true end) (match frac with [] => false | _ => true end) rs) =
  make_datetime (mkDt (num Y) (num mo) (num d) (num h) (num mi) n n' off).
Proof.
  intros HY Hmo Hd Hh Hmi Hs Hf Hz. pose proof (format_uniq _ _ _ _ _ _ _ _ _ _ _ _ _ HY Hmo Hd Hh Hmi Hs Hf Hz) as Hu.
  assert (EF : time_format nd (match sec with [] => false | _ => true end) (match frac with [] => false | _ => true end) rs =
    seqs ([dir_Y nd; lit_i 45; dir_m; lit_i 45; dir_d nd; lit_i 84; dir_H nd; lit_i 58; dir_M nd] ++ sec_re sec ++ frac_re frac ++ rs)) by (destruct sec, frac; reflexivity).
  rewrite EF. unfold strptime.
  rewrite (re_match_unique _ _ ([(gY, Y); (gm, mo); (gd, d); (gH, h); (gM, mi)] ++ sec_caps sec ++ frac_caps frac ++ caps) []); [|now apply Hu|intros c' r' H; now apply Hu].
  set (CS := [(gY, Y); (gm, mo); (gd, d); (gH, h); (gM, mi)] ++ sec_caps sec ++ frac_caps frac ++ caps).
  assert (EY : cap_int nd gY CS 1900 = num Y) by (unfold cap_int; cbn; apply int_of_num; [exact Hnd|apply HY]).
  assert (Em : cap_int nd gm CS 1 = num mo) by (unfold cap_int; cbn; apply int_of_num; [exact Hnd|eapply num2_digits; eauto]).
  assert (Ed : cap_int nd gd CS 1 = num d) by (unfold cap_int; cbn; apply int_of_num; [exact Hnd|eapply num2_digits; eauto]).
  assert (EH : cap_int nd gH CS 0 = num h) by (unfold cap_int; cbn; apply int_of_num; [exact Hnd|eapply num2_digits; eauto]).
  assert (EM : cap_int nd gM CS 0 = num mi) by (unfold cap_int; cbn; apply int_of_num; [exact Hnd|eapply num2_digits; eauto]).
  assert (ES : cap_int nd gS CS 0 = n).
  { unfold cap_int. destruct Hs as [|u Hu2].
    - cbn. destruct Hf; cbn; destruct Hz; reflexivity.
    - cbn. apply int_of_num; [exact Hnd|eapply num2_digits; eauto]. }
  assert (Ef : match cap gf CS with Some t => int_of nd (pad6 t) | None => 0 end = n').
  { destruct Hs as [|u Hu2]; destruct Hf as [|w Hw]; cbn; try (destruct Hz; reflexivity); now apply int_pad6. }
  assert (Ez : match cap gz CS with None => Ok None | Some z => match utc_offset nd z with Ok o => Ok (Some o) | Err e => Err e end end = Ok off).
  { clear - Hz Hs Hf Hnd. destruct Hs as [|u Hu2]; destruct Hf as [|w Hw]; destruct Hz as [|sg k h' m' Hsg Hh' Hm'|sg k h' m' Hsg Hh' Hm']; cbn -[utc_offset]; try reflexivity;
      rewrite (offset_value sg k h' m'); auto. }
  rewrite EY, Em, Ed, EH, EM, ES, Ef, Ez. reflexivity.
Qed.

(** ** choosing the format *)
Lemma has_char_in c s : has_char c s = true <-> In c s.
Proof. unfold has_char. rewrite existsb_exists. split; [intros (x & Hx & E); apply N.eqb_eq in E; now subst|intros H; exists c; split; [exact H|apply N.eqb_refl]]. Qed.
Lemma has_char_bool c s (b : bool) : (In c s <-> b = true) -> has_char c s = b.
Proof. intros H. destruct (has_char c s) eqn:E, b; auto. - apply has_char_in, H in E. discriminate. - assert (In c s) by now apply H. apply has_char_in in H0. congruence. Qed.
Lemma dig_not_in c t : Forall dig t -> ~ dig c -> ~ In c t.
Proof. intros H Hc Hin. rewrite Forall_forall in H. auto. Qed.
Section Text.
Variables (Y mo d h mi sec frac zone : pystr) (n n' : Z) (rs : list regex) (caps : list (N * pystr)) (off : option Z).
Hypotheses (HY : some_digits 4 4 Y) (Hmo : num2 1 12 mo) (Hd : num2 1 31 d) (Hh : num2 0 23 h) (Hmi : num2 0 59 mi)
  (Hs : second_means sec n) (Hf : frac_means frac n') (Hz : zone_case zone rs caps off).
Let s := Y ++ py "-" ++ mo ++ py "-" ++ d ++ py "T" ++ h ++ py ":" ++ mi ++ sec ++ frac ++ zone.
Lemma sec_in c : ~ dig c -> In c sec <-> c = 58%N /\ sec <> [].
Proof. intros Hc. destruct Hs as [|u Hu]; [split; [intros []|tauto]|]. cbn. pose proof (dig_not_in c u (num2_digits _ _ _ Hu) Hc). split; [intros [<-|H1]; [split; [reflexivity|discriminate]|contradiction]|intros [-> _]; now left]. Qed.
Lemma frac_in c : ~ dig c -> In c frac <-> c = 46%N /\ frac <> [].
Proof. intros Hc. destruct Hf as [|u Hu]; [split; [intros []|tauto]|]. cbn. pose proof (dig_not_in c u (proj1 Hu) Hc). split; [intros [<-|H1]; [split; [reflexivity|discriminate]|contradiction]|intros [-> _]; now left]. Qed.
Lemma text_in c : ~ dig c -> c <> 45%N -> c <> 84%N -> c <> 58%N -> In c s <-> In c frac \/ In c zone.
Proof.
  intros Hc H1 H2 H3. unfold s. rewrite !in_app_iff, (sec_in c Hc). cbn [py In].
  pose proof (dig_not_in c Y (proj1 HY) Hc). pose proof (dig_not_in c mo (num2_digits _ _ _ Hmo) Hc). pose proof (dig_not_in c d (num2_digits _ _ _ Hd) Hc).
  pose proof (dig_not_in c h (num2_digits _ _ _ Hh) Hc). pose proof (dig_not_in c mi (num2_digits _ _ _ Hmi) Hc). cbn. intuition congruence.
Qed.
Lemma dot_iff : has_char 46 s = match frac with [] => false | _ => true end.
Proof.
  apply has_char_bool. rewrite text_in by (unfold ascii_digit; lia). rewrite frac_in by (unfold ascii_digit; lia).
  assert (Hzn : ~ In 46%N zone).
  { destruct Hz as [|sg k h' m' Hsg Hh' Hm'|sg k h' m' Hsg Hh' Hm']; cbn; rewrite ?in_app_iff; cbn; intros H; decompose [or] H; try lia; try discriminate;
      match goal with H1 : In 46%N ?t, H2 : num2 _ _ ?t |- _ => apply (dig_not_in 46 t (num2_digits _ _ _ H2)); [unfold ascii_digit; lia|exact H1] end. }
  split.
  - intros [[_ H]|H]; [|contradiction]. destruct frac; [congruence|reflexivity].
  - intros H. left. split; [reflexivity|]. intros E. rewrite E in H. discriminate.
Qed.
Lemma all_ascii : Forall (okc nd) s.
Proof.
  assert (Ha : forall t, Forall dig t -> Forall (okc nd) t) by (intros t; apply Forall_impl; intros c Hc; apply ascii_okc; unfold ascii_digit in Hc; lia || auto).
  assert (Hl : forall x, Forall (fun c => (c < 128)%N) x -> Forall (okc nd) x) by (intros x; apply Forall_impl; intros c Hc; apply ascii_okc; auto).
  assert (D2 : forall lo hi t, num2 lo hi t -> Forall (okc nd) t) by (intros lo hi t Ht; apply Ha; eapply num2_digits; eauto).
  unfold s. rewrite !Forall_app. repeat split; try (apply Hl; repeat constructor; fail); try (eapply D2; eassumption).
  - apply Ha, HY.
  - destruct Hs as [|u Hu]; [constructor|]. apply Forall_app. split; [apply Hl; repeat constructor|eapply D2; eauto].
  - destruct Hf as [|u Hu]; [constructor|]. apply Forall_app. split; [apply Hl; repeat constructor|apply Ha, Hu].
  - destruct Hz as [|sg k h' m' Hsg Hh' Hm'|sg k h' m' Hsg Hh' Hm'].
    + apply Hl. repeat constructor.
    + constructor; [apply ascii_okc; auto; lia|]. apply Forall_app. split; [eapply D2; eauto|]. constructor; [apply ascii_okc; auto; lia|eapply D2; eauto].
    + constructor; [apply ascii_okc; auto; lia|]. constructor; [apply ascii_okc; auto; lia|]. apply Forall_app. split; [eapply D2; eauto|]. constructor; [apply ascii_okc; auto; lia|eapply D2; eauto].
Qed.
Lemma pure_offset : pure (offset_re nd). Proof. cbn. tauto. Qed.
Lemma mt_tz x cs r : Forall (okc nd) x -> mt (AS2_TZ nd) x cs r <-> cs = [] /\ (r = [] \/ r = [10%N]) /\ exists t, offset_text t /\ x = t ++ r.
Proof.
  intros Hok. unfold AS2_TZ. cbn [mt]. split.
  - intros (c1 & mid & c2 & H1 & (H2 & -> & ->) & ->). apply (mt_lang _ pure_offset) in H1 as (-> & t & L & ->). split; [reflexivity|]. split; [exact H2|]. exists t. split; [|reflexivity].
    apply (lang_offset nd Hnd); [apply Forall_app in Hok; tauto|exact L].
  - intros (-> & Hr & t & Ht & ->). exists [], r, []. split; [|auto]. apply (mt_lang _ pure_offset). split; [reflexivity|]. exists t. split; [|reflexivity]. apply (lang_offset nd Hnd); [apply Forall_app in Hok; tauto|exact Ht].
Qed.
Lemma zone_format : zone_re s = rs.
Proof.
  unfold zone_re. set (pre := Y ++ py "-" ++ mo ++ py "-" ++ d ++ py "T" ++ h ++ py ":" ++ mi ++ sec ++ frac).
  assert (Es : s = pre ++ zone) by (unfold s, pre; rewrite <- !app_assoc; reflexivity).
  assert (Hin : In 90%N s <-> In 90%N zone).
  { rewrite text_in by (unfold ascii_digit; lia). rewrite frac_in by (unfold ascii_digit; lia). split; [intros [[E _]|H]; [discriminate|exact H]|auto]. }
  pose proof all_ascii as Hok.
  assert (Hyes : forall t, zone = t -> offset_text t -> re_search (AS2_TZ nd) s <> None).
  { intros t E Ht. apply re_search_some. exists pre, t, [], []. split; [congruence|]. apply mt_tz; [rewrite Es, E in Hok; apply Forall_app in Hok; tauto|]. split; [reflexivity|]. split; [now left|]. exists t. now rewrite app_nil_r. }
  destruct Hz as [|sg k h' m' Hsg Hh' Hm'|sg k h' m' Hsg Hh' Hm'].
  - destruct (re_search (AS2_TZ nd) s) as [x|] eqn:E; [|reflexivity]. exfalso.
    assert (Hx : re_search (AS2_TZ nd) s <> None) by congruence. apply re_search_some in Hx as (p & x' & cs & r & E1 & Hm). rewrite E1 in Hok. apply Forall_app in Hok as [_ Hok].
    apply mt_tz in Hm as (_ & Hr & t & Ht & ->); auto. destruct Ht as (z & sign & h' & m' & _ & _ & _ & (a & b & -> & Ha & Hb & _) & ->).
    assert (Hl : last s 0%N = 90%N) by (rewrite Es; change (py "Z") with [90%N]; apply last_last).
    rewrite E1 in Hl. destruct Hr as [-> | ->].
    + rewrite app_nil_r in Hl. replace (p ++ z ++ sign ++ h' ++ py ":" ++ [a; b]) with ((p ++ z ++ sign ++ h' ++ py ":" ++ [a]) ++ [b]) in Hl by (rewrite <- !app_assoc; reflexivity).
      rewrite last_last in Hl. subst b. unfold ascii_digit in Hb. lia.
    + rewrite app_assoc, last_last in Hl. discriminate.
  - destruct (re_search (AS2_TZ nd) s) as [x|] eqn:E.
    + assert (Hc : has_char 90 s = false).
      { apply has_char_bool. rewrite Hin. split; [|discriminate]. intros [H|H]; [lia|]. apply in_app_iff in H as [H|[H|H]]; [|discriminate|]; exfalso; revert H; apply dig_not_in; try (eapply num2_digits; eassumption); apply not_dig_90. }
      now rewrite Hc.
    + exfalso. eapply Hyes; [reflexivity| |reflexivity]. exists [], [sg], h', m'. split; [now left|]. split; [destruct Hsg as [[-> _]|[-> _]]; auto|]. auto.
  - destruct (re_search (AS2_TZ nd) s) as [x|] eqn:E.
    + assert (Hc : has_char 90 s = true) by (apply has_char_in, Hin; now left). now rewrite Hc.
    + exfalso. eapply Hyes; [reflexivity| |reflexivity]. exists (py "Z"), [sg], h', m'. split; [now right|]. split; [destruct Hsg as [[-> _]|[-> _]]; auto|]. auto.
Qed.
Lemma pure_time : pure (AS2_TIME nd). Proof. cbn. tauto. Qed.
Lemma time_shape w : lang (AS2_TIME nd) w -> exists a b u v x, w = [a; b; 58%N; u; v] ++ x /\
  (exists c, x = [c] /\ In c (py ".-+Z")) \/ (exists a b u v p q c, w = [a; b; 58%N; u; v; 58%N; p; q; c] /\ In c (py ".-+Z")).
Proof.
  unfold AS2_TIME. rewrite !lang_seqs_cons. intros (hh & w1 & -> & Lh & co & w2 & -> & Lc & mm & w3 & -> & Lm & ss & e & -> & Ls & Le).
  apply lang_len in Lh. apply (lang_lit 58) in Lc. subst co. apply lang_len in Lm. cbn in Lh, Lm. apply lang_oneof in Le as (c & -> & Hc).
  destruct hh as [|a [|b [|]]]; cbn in Lh; try lia. destruct mm as [|u [|v [|]]]; cbn in Lm; try lia.
  destruct Ls as [(co & pq & -> & Lc & Lp)| ->].
  - apply (lang_lit 58) in Lc. subst co. apply lang_len in Lp. cbn in Lp. destruct pq as [|p [|q [|]]]; cbn in Lp; try lia.
    exists 0%N, 0%N, 0%N, 0%N, []. right. exists a, b, u, v, p, q, c. auto.
  - exists a, b, u, v, [c]. left. split; [reflexivity|eauto].
Qed.
Lemma time_third x cs r : mt (AS2_TIME nd) x cs r -> nth_error x 2 = Some 58%N.
Proof.
  intros H. apply (mt_lang _ pure_time) in H as (_ & w & Lw & ->). apply time_shape in Lw as (a & b & u & v & x & [(-> & _)|(a' & b' & u' & v' & p & q & c & -> & _)]); reflexivity.
Qed.
Lemma nth_error_in_app {A} (q t : list A) i x : nth_error (q ++ t) i = Some x -> (i < List.length q)%nat -> In x q.
Proof. intros H Hi. rewrite nth_error_app1 in H by exact Hi. eapply nth_error_In; eauto. Qed.
Lemma tail_head : exists c t, frac ++ zone = c :: t /\ In c (py ".-+Z").
Proof. destruct (zone_head _ _ _ _ Hz) as (c & t & -> & Hc & _). destruct Hf as [|u Hu]; [exists c, t; auto|]. exists 46%N, (u ++ c :: t). split; [reflexivity|]. cbn. auto. Qed.
Lemma time_found : exists x, re_search (AS2_TIME nd) s = Some x /\ (span_length x =? 9)%nat = match sec with [] => false | _ => true end.
Proof.
  destruct tail_head as (c & tl & Et & Hc).
  set (pre := Y ++ py "-" ++ mo ++ py "-" ++ d ++ py "T"). set (x := h ++ py ":" ++ mi ++ sec ++ c :: tl).
  assert (Es : s = pre ++ x) by (unfold s, pre, x; rewrite Et, <- !app_assoc; reflexivity).
  assert (Hpre : ~ In 58%N pre).
  { unfold pre. rewrite !in_app_iff. cbn [py In]. pose proof (dig_not_in 58 Y (proj1 HY)). pose proof (dig_not_in 58 mo (num2_digits _ _ _ Hmo)). pose proof (dig_not_in 58 d (num2_digits _ _ _ Hd)).
    assert (~ dig 58) by (unfold ascii_digit; lia). cbn. intuition discriminate. }
  assert (Hlang : lang (AS2_TIME nd) (h ++ py ":" ++ mi ++ sec ++ [c])).
  { unfold AS2_TIME. rewrite !lang_seqs_cons. exists h, (py ":" ++ mi ++ sec ++ [c]). split; [reflexivity|].
    assert (D2 : forall lo hi t, num2 lo hi t -> Forall (okc nd) t) by (intros lo hi t Ht; apply num2_digits in Ht; eapply Forall_impl; [|exact Ht]; intros y Hy; apply ascii_okc; unfold ascii_digit in Hy; lia || auto).
    split; [apply (lang_hour nd Hnd); eauto|]. exists (py ":"), (mi ++ sec ++ [c]). split; [reflexivity|]. split; [now apply (lang_lit 58)|].
    exists mi, (sec ++ [c]). split; [reflexivity|]. split; [apply (lang_minute nd Hnd); eauto|]. exists sec, [c]. split; [reflexivity|]. split; [|apply lang_oneof; eauto].
    apply (lang_second nd Hnd).
    - destruct Hs as [|u Hu]; [constructor|]. apply Forall_app. split; [constructor; [apply ascii_okc; auto; reflexivity|constructor]|eauto].
    - destruct Hs as [|u Hu]; [now left|right; eauto]. }
  assert (Hc58 : c <> 58%N) by (cbn in Hc; lia).
  assert (Hmatch : re_match (AS2_TIME nd) x = Some ([], tl)).
  { apply re_match_unique.
    - apply (mt_lang _ pure_time). split; [reflexivity|]. exists (h ++ py ":" ++ mi ++ sec ++ [c]). split; [exact Hlang|]. unfold x. rewrite <- !app_assoc. reflexivity.
    - intros c' r' Hm. apply (mt_lang _ pure_time) in Hm as (-> & w & Lw & E). split; [reflexivity|]. unfold x in E.
      destruct Hh as (h1 & h2 & -> & _). destruct Hmi as (i1 & i2 & -> & _). cbn [py app] in E. change (N_of_ascii ":") with 58%N in E.
      apply time_shape in Lw as (a & b & u & v & y & [(-> & e & -> & He)|(a' & b' & u' & v' & p & q & e & -> & He)]); cbn [app] in E.
      + injection E as _ _ _ _ E. destruct Hs as [|uu Hu]; cbn [app py] in E; [injection E as _ E; congruence|]. change (N_of_ascii ":") with 58%N in E. injection E as <- _. cbn in He. lia.
      + injection E as _ _ _ _ E. destruct Hs as [|uu (p1 & q1 & -> & _)]; cbn [app py] in E.
        * injection E as E _. congruence.
        * injection E as _ _ _ E. congruence. }
  exists (x, ([], tl)). split.
  - rewrite Es. apply re_search_at; [exact Hmatch|]. intros p q Ep Hq cs r Hm. apply time_third in Hm.
    assert (Hnq : ~ In 58%N q) by (rewrite Ep in Hpre; intros H; apply Hpre; apply in_app_iff; auto).
    destruct Hh as (h1 & h2 & Eh & Hh1 & Hh2 & _). unfold x in Hm. rewrite Eh in Hm. destruct q as [|q1 [|q2 [|q3 q]]]; [congruence| | |].
    + cbn in Hm. injection Hm as ->. unfold ascii_digit in Hh2. lia.
    + cbn in Hm. injection Hm as ->. unfold ascii_digit in Hh1. lia.
    + apply nth_error_in_app in Hm; [contradiction|cbn; lia].
  - unfold span_length, x. cbn [fst snd]. destruct Hh as (h1 & h2 & -> & _). destruct Hmi as (i1 & i2 & -> & _). destruct Hs as [|uu (p1 & q1 & -> & _)]; cbn [py app List.length].
    + replace (S (S (S (S (S (S (List.length tl)))))) - List.length tl)%nat with 6%nat by lia. reflexivity.
    + replace (S (S (S (S (S (S (S (S (S (List.length tl))))))))) - List.length tl)%nat with 9%nat by lia. reflexivity.
Qed.
Lemma parse_text : parse_activitystream_datetime nd (DStr s) = match make_datetime (mkDt (num Y) (num mo) (num d) (num h) (num mi) n n' off) with Ok dt => Ok (DDate dt) | Err e => Err e end.
Proof.
  unfold parse_activitystream_datetime. destruct time_found as (x & -> & Hx). rewrite Hx, dot_iff. fold (zone_re s). rewrite zone_format.
  unfold s. rewrite (strptime_text _ _ _ _ _ _ _ _ _ _ _ _ _ HY Hmo Hd Hh Hmi Hs Hf Hz). reflexivity.
Qed.
End Text.
Lemma C62_parse s dt : timestamp_means s dt -> parse_activitystream_datetime nd (DStr s) = match make_datetime dt with Ok d => Ok (DDate d) | Err e => Err e end.
Proof.
  intros (Y & mo & d & h & mi & sec & frac & zone & HY & Hmo & Hd & Hh & Hmi & -> & E1 & E2 & E3 & E4 & E5 & Hs & Hf & Hz).
  destruct (zone_cases _ _ Hz) as (rs & caps & Hzc). rewrite (parse_text _ _ _ _ _ _ _ _ _ _ _ _ _ HY Hmo Hd Hh Hmi Hs Hf Hzc).
  destruct dt; cbn in *. subst. reflexivity.
Qed.
End Facts.
