(** Timestamps: real dates, rejected texts, printing *)
From Coq Require Import String Ascii.
From Verif Require Import Base BaseFacts Regex RegexFacts Duration DurationFacts DateTime DateTimeFacts DateParseFacts DateTimeThms.
Open Scope Z_scope.
Open Scope list_scope.

Lemma text_means s : timestamp_text s <-> exists dt, timestamp_means s dt.
Proof.
  split.
  - intros (Y & mo & d & h & mi & sec & frac & zone & HY & Hmo & Hd & Hh & Hmi & Hs & Hf & Hz & ->).
    assert (Es : exists n, second_means sec n) by (destruct Hs as [-> |(u & -> & Hu)]; [eexists; constructor|eexists; now constructor]).
    assert (Ef : exists n, frac_means frac n) by (destruct Hf as [-> |(u & -> & Hu)]; [eexists; constructor|eexists; now constructor]).
    assert (Ez : exists o, zone_means zone o).
    { destruct Hz as [-> |(z & sg & hh & m & Hz & Hsg & Hhh & Hm & ->)]; [eexists; constructor|]. destruct Hsg as [-> | ->]; eexists; eapply zm_offset; eauto. }
    destruct Es as [n Es], Ef as [n' Ef], Ez as [o Ez]. exists (mkDt (num Y) (num mo) (num d) (num h) (num mi) n n' o).
    exists Y, mo, d, h, mi, sec, frac, zone. cbn. auto 20.
  - intros (dt & Y & mo & d & h & mi & sec & frac & zone & HY & Hmo & Hd & Hh & Hmi & -> & _ & _ & _ & _ & _ & Hs & Hf & Hz).
    exists Y, mo, d, h, mi, sec, frac, zone. repeat (split; [assumption|]). split; [destruct Hs; [now left|right; eauto]|]. split; [destruct Hf; [now left|right; eauto]|].
    split; [|reflexivity]. destruct Hz as [|z sg k hh m Hz Hsg Hhh Hm]; [now left|right]. exists z, sg, hh, m. intuition.
Qed.
Lemma num_pos t : 0 <= num t. Proof. unfold num. lia. Qed.
Lemma value_bound t : Forall ascii_digit t -> forall a, (fold_left (fun a c => a * 10 + (c - 48)) t a < (a + 1) * 10 ^ N.of_nat (List.length t))%N.
Proof.
  induction 1 as [|c t Hc Ht IH]; intros a; [cbn; lia|]. cbn [fold_left List.length]. rewrite Nat2N.inj_succ, N.pow_succ_r'. specialize (IH (a * 10 + (c - 48))%N).
  unfold ascii_digit in Hc. remember (10 ^ N.of_nat (List.length t))%N as P. nia.
Qed.
Lemma frac_range f n : frac_means f n -> 0 <= n <= 999999.
Proof.
  intros [|u [Hd Hl]]; [lia|]. unfold num. pose proof (value_bound u Hd 0%N) as Hb. fold (value u) in Hb.
  destruct (List.length u) as [|[|[|[|[|[|[|]]]]]]] eqn:E; try lia; cbn in Hb |- *; lia.
Qed.
Lemma means_ranges s dt : timestamp_means s dt -> 0 <= dt_year dt <= 9999 /\ 1 <= dt_month dt <= 12 /\ 1 <= dt_day dt <= 31 /\ 0 <= dt_hour dt <= 23 /\ 0 <= dt_minute dt <= 59 /\ 0 <= dt_second dt <= 60 /\
  0 <= dt_micro dt <= 999999 /\ match dt_offset dt with None => True | Some o => -86400000000 < o < 86400000000 end.
Proof.
  intros (Y & mo & d & h & mi & sec & frac & zone & [HY HL] & Hmo & Hd & Hh & Hmi & _ & E1 & E2 & E3 & E4 & E5 & Hs & Hf & Hz).
  rewrite E1, E2, E3, E4, E5. apply num2_range in Hmo, Hd, Hh, Hmi.
  assert (HYr : 0 <= num Y <= 9999).
  { split; [apply num_pos|]. pose proof (value_bound Y HY 0%N) as Hb. fold (value Y) in Hb. assert (EL : List.length Y = 4%nat) by lia. rewrite EL in Hb. cbn in Hb. unfold num. lia. }
  repeat split; try lia; try (apply frac_range in Hf; lia).
  - destruct Hs as [|u Hu]; [lia|apply num2_range in Hu; lia].
  - destruct Hs as [|u Hu]; [lia|apply num2_range in Hu; lia].
  - destruct Hz as [|z sg k hh m _ Hsg Hhh Hm]; [exact I|]. apply num2_range in Hhh, Hm. lia.
Qed.
Lemma andb_in (b c : bool) : (b && c)%bool = true <-> b = true /\ c = true. Proof. apply andb_true_iff. Qed.
Lemma make_ok s dt : timestamp_means s dt -> make_datetime dt = Ok dt <-> real_date (dt_year dt) (dt_month dt) (dt_day dt) /\ dt_second dt <= 59.
Proof.
  intros H. destruct (means_ranges s dt H) as (H1 & H2 & H3 & H4 & H5 & H6 & H7 & H8). rewrite <- (real_days _ _ _ H2). unfold make_datetime.
  match goal with |- (if ?b then _ else _) = _ <-> _ => destruct b eqn:E end.
  - rewrite !andb_in, !Z.leb_le in E. split; [intros _; lia|reflexivity].
  - split; [discriminate|]. intros ((Ha & Hb) & Hc). exfalso.
    assert (E' : forall b : bool, b = false -> b = true -> False) by (intros b -> ?; discriminate). apply (E' _ E). rewrite !andb_in, !Z.leb_le. repeat split; try lia.
    destruct (dt_offset dt); [|reflexivity]. apply andb_true_iff. rewrite !Z.ltb_lt. lia.
Qed.
Lemma make_err dt : make_datetime dt = Ok dt \/ make_datetime dt = Err ValueError.
Proof. unfold make_datetime. destruct (_ && _)%bool; auto. Qed.

Section Facts.
Variable nd : N -> option N.
Hypothesis Hnd : ascii_ok nd.
Lemma text_ascii s : timestamp_text s -> forall c, In c s -> nd c <> None -> ascii_digit c.
Proof.
  intros H c Hc. revert c Hc. apply text_means in H as (dt & Y & mo & d & h & mi & sec & frac & zone & HY & Hmo & Hd & Hh & Hmi & -> & E1 & E2 & E3 & E4 & E5 & Hs & Hf & Hz).
  destruct (zone_cases nd _ _ Hz) as (rs & caps & Hzc). pose proof (all_ascii nd Hnd Y mo d h mi sec frac zone _ _ rs caps _ HY Hmo Hd Hh Hmi Hs Hf Hzc) as Ha. rewrite Forall_forall in Ha. exact Ha.
Qed.
Lemma C62_ok s dt : timestamp_means s dt -> real_date (dt_year dt) (dt_month dt) (dt_day dt) -> dt_second dt <= 59 ->
  is_activity_datetime nd (DStr s) = Ok tt /\ parse_activitystream_datetime nd (DStr s) = Ok (DDate dt).
Proof.
  intros H Hr Hs. assert (Ht : timestamp_text s) by (apply text_means; eauto). split.
  - apply (C62_accepts nd Hnd); [now apply text_ascii|]. exists [], s, []. rewrite app_nil_r. auto.
  - rewrite (C62_parse nd Hnd s dt H). assert (E : make_datetime dt = Ok dt) by (apply (make_ok s); auto). now rewrite E.
Qed.
Lemma C62_unreal s dt : timestamp_means s dt -> ~ real_date (dt_year dt) (dt_month dt) (dt_day dt) \/ dt_second dt = 60 ->
  is_activity_datetime nd (DStr s) = Ok tt /\ parse_activitystream_datetime nd (DStr s) = Err ValueError.
Proof.
  intros H Hr. assert (Ht : timestamp_text s) by (apply text_means; eauto). split.
  - apply (C62_accepts nd Hnd); [now apply text_ascii|]. exists [], s, []. rewrite app_nil_r. auto.
  - rewrite (C62_parse nd Hnd s dt H). destruct (make_err dt) as [E|E]; rewrite E; [|reflexivity]. apply (make_ok s dt H) in E as [E1 E2]. destruct Hr; [contradiction|lia].
Qed.
(** ** leading text and trailing newline *)
Lemma nd_none x : (x < 128)%N -> ~ ascii_digit x -> nd x = None. Proof. apply nd_other; auto. Qed.
Definition zones : list (list regex) := [[lit_i 90]; [lit_i 90; dir_z nd]; [dir_z nd]].
Definition tail_format (seconds frac : bool) (zone : list regex) : regex := seqs ([dir_H nd; lit_i 58; dir_M nd] ++ (if seconds then [lit_i 58; dir_S nd] else []) ++ (if frac then [lit_i 46; dir_f] else []) ++ zone).
Lemma avoid_tail x sec frac zone : In x [84; 116; 10]%N -> In zone zones -> avoids x (tail_format sec frac zone).
Proof.
  intros Hx Hz. cbn in Hx. destruct Hx as [<-|[<-|[<-|[]]]]; (assert (E := nd_none 84 eq_refl ltac:(unfold ascii_digit; lia)); assert (E2 := nd_none 116 eq_refl ltac:(unfold ascii_digit; lia)); assert (E3 := nd_none 10 eq_refl ltac:(unfold ascii_digit; lia)));
    cbn in Hz; destruct Hz as [<-|[<-|[<-|[]]]]; destruct sec, frac; cbn; rewrite ?E, ?E2, ?E3; tauto.
Qed.
Lemma format_split sec frac zone s : In zone zones -> lang (time_format nd sec frac zone) s ->
  exists p x q, s = p ++ x :: q /\ (List.length p <= 10)%nat /\ (x = 84 \/ x = 116)%N /\ ~ In 84%N q /\ ~ In 10%N (p ++ x :: q).
Proof.
  intros Hz L. assert (Hne : tail_format sec frac zone = tail_format sec frac zone) by reflexivity.
  assert (E : time_format nd sec frac zone = Seq (dir_Y nd) (Seq (lit_i 45) (Seq dir_m (Seq (lit_i 45) (Seq (dir_d nd) (Seq (lit_i 84) (tail_format sec frac zone))))))).
  { unfold time_format, tail_format. cbn [app]. rewrite !seqs_cons by discriminate. reflexivity. }
  rewrite E in L. destruct L as (yy & v1 & -> & L1 & e1 & v2 & -> & L2 & mm & v3 & -> & L3 & e2 & v4 & -> & L4 & dd & v5 & -> & L5 & tt' & q & -> & L6 & L7).
  assert (Hlit : forall c t, lang (lit_i c) t -> exists x, t = [x] /\ (x = c \/ x = (c + 32)%N)).
  { intros c t (x & -> & Hx). exists x. split; [reflexivity|]. apply orb_true_iff in Hx as [Hx|Hx]; [left; now apply N.eqb_eq|right]. apply andb_true_iff in Hx as [_ Hx]. now apply N.eqb_eq. }
  destruct (Hlit _ _ L2) as (x2 & -> & X2). destruct (Hlit _ _ L4) as (x4 & -> & X4). destruct (Hlit _ _ L6) as (x6 & -> & X6).
  exists (yy ++ [x2] ++ mm ++ [x4] ++ dd), x6, q. split; [rewrite <- !app_assoc; reflexivity|].
  pose proof (lang_len _ _ L1) as N1. pose proof (lang_len _ _ L3) as N3. pose proof (lang_len _ _ L5) as N5. cbn in N1, N3, N5.
  split; [rewrite !app_length; cbn; lia|]. split; [exact X6|].
  split; [apply (lang_avoids 84 _ (avoid_tail 84 sec frac zone ltac:(cbn; auto) Hz) _ L7)|].
  assert (E3 := nd_none 10 eq_refl ltac:(unfold ascii_digit; lia)).
  assert (A1 : ~ In 10%N yy) by (apply (lang_avoids 10 (dir_Y nd)); [cbn; rewrite E3; tauto|exact L1]).
  assert (A3 : ~ In 10%N mm) by (apply (lang_avoids 10 dir_m); [cbn; tauto|exact L3]).
  assert (A5 : ~ In 10%N dd) by (apply (lang_avoids 10 (dir_d nd)); [cbn; rewrite E3; tauto|exact L5]).
  assert (A7 : ~ In 10%N q) by apply (lang_avoids 10 _ (avoid_tail 10 sec frac zone ltac:(cbn; auto) Hz) _ L7).
  assert (A2 : forall P : Prop, P \/ False <-> P) by tauto.
  rewrite !in_app_iff. cbn [In]. intros Hin. decompose [or] Hin; try contradiction; lia.
Qed.
Lemma no_eos_format sec frac zone : In zone zones -> no_eos (time_format nd sec frac zone).
Proof. intros Hz. cbn in Hz. destruct Hz as [<-|[<-|[<-|[]]]]; destruct sec, frac; cbn; tauto. Qed.
Lemma strptime_partial s f : no_eos f -> ~ lang f s -> strptime nd s f = Err ValueError.
Proof.
  intros Hn Hl. unfold strptime. destruct (re_match f s) as [[caps rest]|] eqn:E; [|reflexivity]. destruct rest as [|c rest]; [|reflexivity].
  apply re_match_some in E. apply (mt_lang_weak f Hn) in E as (t & Lt & E). cbn in E. rewrite app_nil_r in E. subst. contradiction.
Qed.
Lemma C62_rejects before t newline : timestamp_text t -> (newline = [] \/ newline = [10%N]) -> before ++ newline <> [] ->
  parse_activitystream_datetime nd (DStr (before ++ t ++ newline)) = Err ValueError.
Proof.
  intros Ht Hnl Hne. set (s := before ++ t ++ newline). cbn [parse_activitystream_datetime].
  assert (Htime : re_search (AS2_TIME nd) s <> None).
  { pose proof Ht as Ht0. apply text_means in Ht0 as (dt & Y & mo & d & h & mi & sec & frac & zone & HY & Hmo & Hd & Hh & Hmi & Et & E1 & E2 & E3 & E4 & E5 & Hs & Hf & Hz).
    destruct (zone_cases nd _ _ Hz) as (rs & caps & Hzc). destruct (time_found nd Hnd Y mo d h mi sec frac zone _ _ rs caps _ HY Hmo Hd Hh Hmi Hs Hf Hzc) as (x & Ex & _).
    assert (Hx : re_search (AS2_TIME nd) t <> None) by (rewrite Et, Ex; discriminate). apply re_search_some in Hx as (p & s' & cs & r & -> & Hm).
    apply re_search_some. unfold s. exists (before ++ p), (s' ++ newline), cs, (r ++ newline). split; [rewrite <- !app_assoc; reflexivity|].
    apply (mt_lang _ (pure_time nd)) in Hm as (-> & w & Lw & ->). apply (mt_lang _ (pure_time nd)). split; [reflexivity|]. exists w. split; [exact Lw|now rewrite app_assoc]. }
  destruct (re_search (AS2_TIME nd) s) as [x|]; [|congruence]. cbv zeta.
  set (zone := match re_search (AS2_TZ nd) s with None => [lit_i 90] | Some _ => if has_char 90 s then [lit_i 90; dir_z nd] else [dir_z nd] end).
  assert (Hz : In zone zones) by (unfold zone, zones; destruct (re_search (AS2_TZ nd) s); [destruct (has_char 90 s)|]; cbn; auto). clearbody zone.
  rewrite strptime_partial; [reflexivity|now apply no_eos_format|]. intros L. apply format_split in L as (p & c & q & E & Hp & Hc & Hq & Hnl10); auto.
  destruct Ht as (Y & mo & d & h & mi & sec & frac & zn & [HY HL] & (m1 & m2 & -> & _) & (d1 & d2 & -> & _) & Hh & Hmi & Hs & Hf & Hzn & Et).
  destruct Hnl as [-> | ->].
  - rewrite app_nil_r in Hne. assert (Es : s = (before ++ Y ++ py "-" ++ [m1; m2] ++ py "-" ++ [d1; d2]) ++ 84%N :: (h ++ py ":" ++ mi ++ sec ++ frac ++ zn)).
    { unfold s. rewrite Et, app_nil_r, <- !app_assoc. reflexivity. }
    assert (Hlen : (10 < List.length (before ++ Y ++ py "-" ++ [m1; m2] ++ py "-" ++ [d1; d2]))%nat).
    { rewrite !app_length. cbn. destruct before; [congruence|cbn]. lia. }
    rewrite Es in E. apply app_split in E as [(u & Hu & E1 & E2)|[[E1 E2]|(u & Hu & E1 & E2)]].
    + destruct u as [|u0 u]; [congruence|]. cbn [app] in E2. injection E2 as -> E2. apply Hq. rewrite E2. apply in_app_iff. right. now left.
    + rewrite E1 in Hlen. lia.
    + rewrite E1, app_length in Hp. lia.
  - apply Hnl10. rewrite <- E. unfold s. rewrite !in_app_iff. right. right. now left.
Qed.

(** ** C61 *)
Lemma str1 n : (n < 10)%N -> str_of_N n = [(48 + n)%N].
Proof. intros H. unfold str_of_N. cbn [digits]. apply N.ltb_lt in H. now rewrite H. Qed.
Lemma log2_ge n : (8 <= n)%N -> exists f, N.to_nat (N.log2 n) = S (S (S f)).
Proof. intros H. apply N.log2_le_mono in H. change (N.log2 8) with 3%N in H. exists (N.to_nat (N.log2 n) - 3)%nat. lia. Qed.
Lemma str2 n : (10 <= n < 100)%N -> str_of_N n = [48 + n / 10; 48 + n mod 10]%N.
Proof.
  intros [H1 H2]. unfold str_of_N. destruct (log2_ge n ltac:(lia)) as [f ->]. cbn [digits]. assert (E1 : (n <? 10)%N = false) by (apply N.ltb_ge; lia).
  assert (E2 : (n / 10 <? 10)%N = true) by (apply N.ltb_lt, N.div_lt_upper_bound; lia). now rewrite E1, E2.
Qed.
Lemma str4 n : (1000 <= n < 10000)%N -> some_digits 4 4 (str_of_N n).
Proof.
  intros [H1 H2]. pose proof (str_of_N_numeral n) as (_ & Hd & _). split; [exact Hd|]. unfold str_of_N. destruct (log2_ge n ltac:(lia)) as [f ->]. cbn [digits].
  assert (E1 : (n <? 10)%N = false) by (apply N.ltb_ge; lia). rewrite E1.
  assert (E2 : (n / 10 <? 10)%N = false) by (apply N.ltb_ge; apply N.div_le_lower_bound; lia). rewrite E2.
  assert (E3 : (n / 10 / 10 <? 10)%N = false) by (apply N.ltb_ge; rewrite N.div_div by lia; apply N.div_le_lower_bound; lia). rewrite E3.
  assert (E4 : (n / 10 / 10 / 10 <? 10)%N = true) by (apply N.ltb_lt; rewrite !N.div_div by lia; apply N.div_lt_upper_bound; lia). rewrite E4. cbn. lia.
Qed.
Lemma str_num n : 0 <= n -> num (str_of_Z n) = n.
Proof. intros H. unfold str_of_Z. destruct (Z.ltb_spec n 0); [lia|]. destruct (str_of_N_numeral (Z.to_N n)) as (_ & _ & E). unfold num. rewrite E. lia. Qed.
Lemma two_num lo hi n : Z.of_N lo <= n <= Z.of_N hi -> (hi < 100)%N -> num2 lo hi (two n) /\ num (two n) = n.
Proof.
  intros H Hhi. assert (Hn : 0 <= n < 100) by lia. unfold two, str_of_Z. destruct (Z.ltb_spec n 0); [lia|].
  set (m := Z.to_N n) in *. assert (Hm : (m < 100)%N) by lia. assert (Em : Z.of_N m = n) by lia.
  destruct (N.ltb_spec m 10) as [H1|H1].
  - rewrite str1 by exact H1. cbn [List.length Nat.ltb Nat.leb]. split; [exists 48%N, (48 + m)%N; unfold ascii_digit; repeat split; lia|]. unfold num, value. cbn [fold_left]. lia.
  - rewrite str2 by lia. cbn [List.length Nat.ltb Nat.leb]. pose proof (N.div_mod' m 10) as Hdm. pose proof (N.mod_lt m 10 ltac:(discriminate)) as Hml.
    assert (Hq : (m / 10 < 10)%N) by (apply N.div_lt_upper_bound; lia). remember (m / 10)%N as q. remember (m mod 10)%N as r. clear Heqq Heqr.
    split; [exists (48 + q)%N, (48 + r)%N; unfold ascii_digit; repeat split; lia|]. unfold num, value. cbn [fold_left]. lia.
Qed.
Definition without_micro_and_offset (d : datetime) : datetime := mkDt (dt_year d) (dt_month d) (dt_day d) (dt_hour d) (dt_minute d) (dt_second d) 0 None.
Definition valid_datetime (d : datetime) : Prop :=
  real_date (dt_year d) (dt_month d) (dt_day d) /\ 0 <= dt_hour d <= 23 /\ 0 <= dt_minute d <= 59 /\ 0 <= dt_second d <= 59 /\ 0 <= dt_micro d <= 999999 /\
  match dt_offset d with None => True | Some o => -86400000000 < o < 86400000000 end.
Lemma C61_means d : valid_datetime d -> 1000 <= dt_year d -> timestamp_means (datetime_str d) (without_micro_and_offset d).
Proof.
  intros (Hr & Hh & Hm & Hs & _) Hy. destruct Hr as (Hy2 & Hmo & Hd1 & Hr1 & Hr2 & Hr3 & _).
  assert (Hd : dt_day d <= 31).
  { assert (Hc : In (dt_month d) [1; 3; 5; 7; 8; 10; 12] \/ In (dt_month d) [4; 6; 9; 11] \/ dt_month d = 2) by (cbn; lia). destruct Hc as [Hc|[Hc|Hc]]; [auto|specialize (Hr2 Hc); lia|specialize (Hr3 Hc); lia]. }
  exists (str_of_Z (dt_year d)), (two (dt_month d)), (two (dt_day d)), (two (dt_hour d)), (two (dt_minute d)), (py ":" ++ two (dt_second d)), [], (py "Z").
  destruct (two_num 1 12 (dt_month d) ltac:(lia) ltac:(lia)) as [M1 M2]. destruct (two_num 1 31 (dt_day d) ltac:(lia) ltac:(lia)) as [D1 D2].
  destruct (two_num 0 23 (dt_hour d) ltac:(lia) ltac:(lia)) as [H1 H2]. destruct (two_num 0 59 (dt_minute d) ltac:(lia) ltac:(lia)) as [I1 I2]. destruct (two_num 0 60 (dt_second d) ltac:(lia) ltac:(lia)) as [S1 S2].
  split; [unfold str_of_Z; destruct (Z.ltb_spec (dt_year d) 0); [lia|]; apply str4; lia|]. repeat (split; [assumption|]).
  split; [unfold datetime_str; rewrite <- !app_assoc; reflexivity|]. cbn [without_micro_and_offset dt_year dt_month dt_day dt_hour dt_minute dt_second dt_micro dt_offset].
  split; [symmetry; apply str_num; lia|]. repeat (split; [symmetry; assumption|]). split; [|split; constructor]. rewrite <- S2 at 2. now constructor.
Qed.
Lemma C61_lemma d : valid_datetime d -> 1000 <= dt_year d ->
  is_activity_datetime nd (DStr (datetime_str d)) = Ok tt /\ parse_activitystream_datetime nd (DStr (datetime_str d)) = Ok (DDate (without_micro_and_offset d)).
Proof. intros Hv Hy. apply C62_ok; [now apply C61_means|cbn; apply Hv|]. destruct Hv as (_ & _ & _ & Hs & _). cbn. lia. Qed.
End Facts.

(** a year below 1000 is printed with fewer than four digits *)
Lemma split_at {A} (x : A) p q p' q' : p ++ x :: q = p' ++ x :: q' -> ~ In x p -> ~ In x q -> p = p'.
Proof.
  revert p'. induction p as [|a p IH]; intros [|b p']; cbn; intros E Hp Hq.
  - reflexivity.
  - injection E as <- ->. elim Hq. apply in_or_app. right. now left.
  - injection E as -> _. elim Hp. now left.
  - injection E as <- E. f_equal. apply IH; auto.
Qed.
Lemma str3 n : (n < 1000)%N -> (List.length (str_of_N n) <= 3)%nat.
Proof.
  intros Hn. destruct (N.lt_ge_cases n 10) as [H|H]; [rewrite str1 by exact H; cbn; lia|]. destruct (N.lt_ge_cases n 100) as [H1|H1]; [rewrite str2 by lia; cbn; lia|].
  unfold str_of_N. destruct (log2_ge n ltac:(lia)) as (f & ->). cbn [digits].
  destruct (N.ltb_spec n 10); [lia|]. assert (H2 : (10 <= n / 10)%N) by (apply N.div_le_lower_bound; lia). destruct (N.ltb_spec (n / 10) 10); [lia|].
  assert (H7 : (n / 10 / 10 < 10)%N) by (rewrite N.div_div by lia; apply N.div_lt_upper_bound; lia). destruct (N.ltb_spec (n / 10 / 10) 10); [|lia]. cbn. lia.
Qed.
Lemma digits_no t x : Forall (fun c => 48 <= c <= 57)%N t -> (57 < x)%N -> ~ In x t.
Proof. intros H Hx Hin. rewrite Forall_forall in H. apply H in Hin. lia. Qed.
Lemma num2_no lo hi t x : num2 lo hi t -> (57 < x)%N -> ~ In x t.
Proof. intros (a & b & -> & Ha & Hb & _) Hx [E|[E|[]]]; unfold ascii_digit in *; lia. Qed.
Lemma C61_small_year nd : ascii_ok nd -> forall d, valid_datetime d -> dt_year d < 1000 -> is_activity_datetime nd (DStr (datetime_str d)) = Err ValueError.
Proof.
  intros Hnd d Hv Hy. destruct (C62_validator_result nd (DStr (datetime_str d))) as [H|[H _]]; [exfalso|exact H].
  destruct Hv as (Hd & Hh & Hmi & Hs & _). destruct Hd as (HY & Hmo & Hd1 & Hd2 & Hd3 & Hd4 & _).
  assert (Hd : 1 <= dt_day d <= 31). { split; [exact Hd1|]. assert (C : In (dt_month d) [1; 3; 5; 7; 8; 10; 12] \/ In (dt_month d) [4; 6; 9; 11] \/ dt_month d = 2) by (cbn; lia). destruct C as [C|[C|C]]; auto. - apply Hd3 in C. lia. - apply Hd4 in C. lia. }
  destruct (two_num 1 12 (dt_month d)) as [N1 _]; [lia|lia|]. destruct (two_num 1 31 (dt_day d)) as [N2 _]; [lia|lia|].
  destruct (two_num 0 23 (dt_hour d)) as [N3 _]; [lia|lia|]. destruct (two_num 0 59 (dt_minute d)) as [N4 _]; [lia|lia|]. destruct (two_num 0 59 (dt_second d)) as [N5 _]; [lia|lia|].
  assert (EY : str_of_Z (dt_year d) = str_of_N (Z.to_N (dt_year d))) by (unfold str_of_Z; destruct (Z.ltb_spec (dt_year d) 0); [lia|reflexivity]).
  pose proof (str_of_N_numeral (Z.to_N (dt_year d))) as (_ & HdY & _). pose proof (str3 (Z.to_N (dt_year d)) ltac:(lia)) as HlY. rewrite <- EY in HdY, HlY. clear EY.
  apply C62_accepts in H as (b & t & nl & E & Ht & Hnl); [|exact Hnd|].
  2:{ unfold datetime_str. intros c Hc Hn. assert (Hc128 : (c < 128)%N).
      { rewrite !in_app_iff in Hc. revert Hc. destruct N1 as (? & ? & -> & A1 & A2 & _), N2 as (? & ? & -> & A3 & A4 & _), N3 as (? & ? & -> & A5 & A6 & _), N4 as (? & ? & -> & A7 & A8 & _), N5 as (? & ? & -> & A9 & A10 & _).
        intros Hc. unfold ascii_digit in *. rewrite Forall_forall in HdY. destruct Hc as [Hc|Hc]; [apply HdY in Hc; lia|]. cbn in Hc. lia. }
      rewrite (Hnd c Hc128) in Hn. unfold ascii_digit. destruct ((48 <=? c) && (c <=? 57))%N eqn:Eb; [|congruence]. apply andb_true_iff in Eb. rewrite !N.leb_le in Eb. exact Eb. }
  destruct Ht as (Y & mo & dd & h & mi & sec & frac & zone & HYt & Hmot & Hddt & Hht & Hmit & Hsec & Hfr & Hz & Et).
  set (p := str_of_Z (dt_year d) ++ py "-" ++ two (dt_month d) ++ py "-" ++ two (dt_day d)). set (q := two (dt_hour d) ++ py ":" ++ two (dt_minute d) ++ py ":" ++ two (dt_second d) ++ py "Z").
  assert (E1 : datetime_str d = p ++ 84%N :: q). { unfold datetime_str, p, q. rewrite <- !app_assoc. reflexivity. }
  assert (E2 : exists q', b ++ t ++ nl = (b ++ Y ++ py "-" ++ mo ++ py "-" ++ dd) ++ 84%N :: q').
  { eexists. rewrite Et, <- !app_assoc. cbn [app py]. reflexivity. }
  destruct E2 as [q' E2]. rewrite E1, E2 in E. apply split_at in E.
  - apply (f_equal (@List.length N)) in E. unfold p in E. rewrite !app_length in E. revert E. destruct N1 as (? & ? & -> & _), N2 as (? & ? & -> & _), HYt as [_ HYl], Hmot as (? & ? & -> & _), Hddt as (? & ? & -> & _). intros E. cbn in E. lia.
  - unfold p. rewrite !in_app_iff. intros [H|[H|[H|[H|H]]]].
    + revert H. apply digits_no; [exact HdY|lia].
    + cbn in H. lia.
    + revert H. eapply num2_no; [exact N1|lia].
    + cbn in H. lia.
    + revert H. eapply num2_no; [exact N2|lia].
  - unfold q. rewrite !in_app_iff. intros [H|[H|[H|[H|[H|H]]]]].
    + revert H. eapply num2_no; [exact N3|lia].
    + cbn in H. lia.
    + revert H. eapply num2_no; [exact N4|lia].
    + cbn in H. lia.
    + revert H. eapply num2_no; [exact N5|lia].
    + cbn in H. lia.
Qed.
