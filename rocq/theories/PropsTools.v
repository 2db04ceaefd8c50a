(** Property theorems C60-C65: durations, timestamps, url validation, document loaders. *)
From Coq Require Import String.
From Verif Require Import Base BaseFacts Dict DictFacts Duration DurationFacts Regex RegexFacts DateTime DateTimeFacts DateParseFacts DateTimeThms DateTimeMore Url DocLoader UrlFacts.
Open Scope Z_scope.
Open Scope list_scope.

(** ** C60. [normalised]: what Python guarantees of every timedelta (0 <= seconds < 86400, 0 <= microseconds < 10^6).
    [iso_duration s v] (DurationFacts): [s] is P[nY][nM][nD][T[nH][nM][nS]] and denotes [v] seconds, a year being 365 days, a month 30. *)
Theorem C60_denotes : forall d, normalised d -> 0 <= td_days d -> total_seconds d <> 0 -> iso_duration (timedelta_str d) (total_seconds d).
Proof. exact DurationFacts.C60_denotes. Qed.
Print Assumptions C60_denotes.
Theorem C60_unambiguous : forall s v w, iso_duration s v -> iso_duration s w -> v = w.
Proof. exact DurationFacts.C60_unambiguous. Qed.
Print Assumptions C60_unambiguous.
Theorem C60_distinct : forall a b, normalised a -> normalised b -> 0 <= td_days a -> 0 <= td_days b -> td_micros a = 0 -> td_micros b = 0 ->
  timedelta_str a = timedelta_str b -> a = b.
Proof. exact DurationFacts.C60_distinct. Qed.
Print Assumptions C60_distinct.
(* the exceptions: negative durations and zero are not ISO durations at all, microseconds are dropped *)
Theorem C60_negative : forall d, td_days d < 0 -> forall v, ~ iso_duration (timedelta_str d) v.
Proof. exact DurationFacts.C60_negative. Qed.
Print Assumptions C60_negative.
Theorem C60_zero : forall m, timedelta_str (mkTd 0 0 m) = py "P" /\ forall v, ~ iso_duration (py "P") v.
Proof. exact DurationFacts.C60_zero. Qed.
Print Assumptions C60_zero.
Theorem C60_micros_dropped : forall days secs m m', timedelta_str (mkTd days secs m) = timedelta_str (mkTd days secs m').
Proof. exact DurationFacts.C60_micros_dropped. Qed.
Print Assumptions C60_micros_dropped.
Example C60_case : normalised (mkTd 400 3725 0) /\ timedelta_str (mkTd 400 3725 0) = py "P1Y1M5DT1H2M5S" /\ timedelta_str (mkTd 0 60 7) = py "PT1M" /\ timedelta_str (mkTd 365 0 0) = py "P1Y" /\
  timedelta_str (mkTd (-1) 0 0) = py "P-1Y12M4D".
Proof. split; [unfold normalised; cbn; lia|vm_compute; auto]. Qed.

(** ** C61. [ascii_ok nd]: the table of Unicode decimal digits agrees with ASCII on ASCII characters. *)
Theorem C61_round_trip : forall nd, ascii_ok nd -> forall d, valid_datetime d -> 1000 <= dt_year d -> dt_micro d = 0 -> dt_offset d = None ->
  is_activity_datetime nd (DStr (datetime_str d)) = Ok tt /\ parse_activitystream_datetime nd (DStr (datetime_str d)) = Ok (DDate d).
Proof.
  intros nd Hnd d Hv Hy Hm Ho. pose proof (C61_lemma nd Hnd d Hv Hy) as H. unfold without_micro_and_offset in H.
  destruct d as [Y mo dd h mi s u o]. cbn in Hm, Ho. subst. exact H.
Qed.
Print Assumptions C61_round_trip.
(* microseconds and offsets are dropped: the text is that of the wall-clock time alone *)
Theorem C61_drops : forall d, datetime_str d = datetime_str (without_micro_and_offset d).
Proof. intros []. reflexivity. Qed.
Print Assumptions C61_drops.
(* two different instants (the first an hour before the second) with the same text *)
Theorem C61_instants_refuted : exists a b, valid_datetime a /\ valid_datetime b /\ dt_offset a = Some 3600000000 /\ dt_offset b = Some 0 /\ datetime_str a = datetime_str b /\ a <> b.
Proof.
  exists (mkDt 2024 2 29 12 30 0 0 (Some 3600000000)), (mkDt 2024 2 29 12 30 0 0 (Some 0)).
  assert (H : forall o, -86400000000 < o < 86400000000 -> valid_datetime (mkDt 2024 2 29 12 30 0 0 (Some o))).
  { intros o Ho. unfold valid_datetime, real_date. cbn. repeat split; try lia. intros _ H. elim H. split; [exists 506; reflexivity|]. intros [k Hk]. exfalso. lia. }
  split; [apply H; lia|]. split; [apply H; lia|]. repeat split; discriminate.
Qed.
Print Assumptions C61_instants_refuted.
(* why the year must have four digits *)
Theorem C61_small_year : forall nd, ascii_ok nd -> forall d, valid_datetime d -> dt_year d < 1000 -> is_activity_datetime nd (DStr (datetime_str d)) = Err ValueError.
Proof. exact DateTimeMore.C61_small_year. Qed.
Print Assumptions C61_small_year.
Definition ex_nd (c : N) : option N := if ((48 <=? c) && (c <=? 57))%N then Some (c - 48)%N else None.
Example C61_case : ascii_ok ex_nd /\ valid_datetime (mkDt 2024 2 29 23 5 59 0 None) /\ datetime_str (mkDt 2024 2 29 23 5 59 0 None) = py "2024-02-29T23:05:59Z" /\
  valid_datetime (mkDt 999 1 1 0 0 0 0 None).
Proof.
  split; [intros c _; reflexivity|]. split; [|split; [vm_compute; reflexivity|]].
  - unfold valid_datetime, real_date. cbn. repeat split; try lia. intros _ H. elim H. split; [exists 506; reflexivity|]. intros [k Hk]. exfalso. lia.
  - unfold valid_datetime, real_date. cbn. repeat split; lia.
Qed.

(** ** C62. [timestamp_means s dt] (DateParseFacts): [s] is YYYY-mm-ddTHH:MM[:SS][.f](Z|+hh:mm|-hh:mm) and these are the fields of [dt]
    (zone Z gives a naive datetime); [real_date]: the Gregorian calendar. *)
Theorem C62_parses : forall nd, ascii_ok nd -> forall s dt, timestamp_means s dt -> real_date (dt_year dt) (dt_month dt) (dt_day dt) -> dt_second dt <= 59 ->
  is_activity_datetime nd (DStr s) = Ok tt /\ parse_activitystream_datetime nd (DStr s) = Ok (DDate dt).
Proof. exact C62_ok. Qed.
Print Assumptions C62_parses.
(* what validation accepts: such a text, after any other text, and perhaps before a newline *)
Theorem C62_validation : forall nd, ascii_ok nd -> forall s, (forall c, In c s -> nd c <> None -> ascii_digit c) ->
  (is_activity_datetime nd (DStr s) = Ok tt <-> exists before t newline, s = before ++ t ++ newline /\ (exists dt, timestamp_means t dt) /\ (newline = [] \/ newline = [10%N])).
Proof.
  intros nd Hnd s Hs. rewrite (C62_accepts nd Hnd s Hs). split; intros (a & t & b & E & Ht & Hb); exists a, t, b; (split; [exact E|]); (split; [|exact Hb]); now apply text_means.
Qed.
Print Assumptions C62_validation.
(* and every one of these is rejected by parsing if there is text before, or a newline after, or the date is not real, or the second is 60 *)
Theorem C62_gap_text : forall nd, ascii_ok nd -> forall before t newline, (exists dt, timestamp_means t dt) -> (newline = [] \/ newline = [10%N]) -> before ++ newline <> [] ->
  parse_activitystream_datetime nd (DStr (before ++ t ++ newline)) = Err ValueError.
Proof. intros nd Hnd b t n Ht. apply C62_rejects; [exact Hnd|now apply text_means]. Qed.
Print Assumptions C62_gap_text.
Theorem C62_gap_date : forall nd, ascii_ok nd -> forall s dt, timestamp_means s dt -> ~ real_date (dt_year dt) (dt_month dt) (dt_day dt) \/ dt_second dt = 60 ->
  is_activity_datetime nd (DStr s) = Ok tt /\ parse_activitystream_datetime nd (DStr s) = Err ValueError.
Proof. exact C62_unreal. Qed.
Print Assumptions C62_gap_date.
Example C62_case : parse_activitystream_datetime ex_nd (DStr (py "2024-02-29T23:05:09.25+01:30")) = Ok (DDate (mkDt 2024 2 29 23 5 9 250000 (Some 5400000000))) /\
  parse_activitystream_datetime ex_nd (DStr (py "2024-02-29T23:05Z")) = Ok (DDate (mkDt 2024 2 29 23 5 0 0 None)) /\
  is_activity_datetime ex_nd (DStr (py "2023-02-31T00:00Z")) = Ok tt /\ parse_activitystream_datetime ex_nd (DStr (py "2023-02-31T00:00Z")) = Err ValueError /\
  is_activity_datetime ex_nd (DStr (py "x2023-02-01T00:00Z")) = Ok tt /\ parse_activitystream_datetime ex_nd (DStr (py "x2023-02-01T00:00Z")) = Err ValueError /\
  is_activity_datetime ex_nd (DStr (py "yesterday")) = Err ValueError /\ parse_activitystream_datetime ex_nd (DStr (py "yesterday")) = Err AttributeError.
Proof. vm_compute. auto 10. Qed.

(** ** C63. [http_url netloc_ok secure url] (UrlFacts): scheme://authority, then nothing or one of / ? #; [netloc_ok] stands for urllib's
    own checks of the authority (brackets, characters that normalise to delimiters). *)
Theorem C63_decision : forall netloc_ok url secure, validate_url netloc_ok url secure = Ok true <-> http_url netloc_ok secure url.
Proof. exact C63_lemma. Qed.
Print Assumptions C63_decision.
(* [clean] in [http_url]: leading characters up to the space are dropped, then every tab and line end *)
Inductive without (drop : N -> Prop) : pystr -> pystr -> Prop :=
| wo_nil : without drop [] []
| wo_drop c a b : drop c -> without drop a b -> without drop (c :: a) b
| wo_keep c a b : ~ drop c -> without drop a b -> without drop (c :: a) (c :: b).
Theorem C63_cleaned : forall url, exists lead body, url = lead ++ body /\ Forall (fun c => (c <= 32)%N) lead /\ (forall c t, body = c :: t -> (32 < c)%N) /\ without (fun c => In c [9; 10; 13]%N) body (clean url).
Proof.
  assert (F : forall b, without (fun c => In c [9; 10; 13]%N) b (filter (fun c => negb (existsb (N.eqb c) [9; 10; 13]%N)) b)).
  { induction b as [|c b IH]; [constructor|]. cbn [filter]. destruct (existsb (N.eqb c) [9; 10; 13]%N) eqn:E; cbn [negb].
    - apply wo_drop; [|exact IH]. apply existsb_exists in E. destruct E as [x [I Q]]. apply N.eqb_eq in Q. now subst x.
    - apply wo_keep; [|exact IH]. intros I. assert (T : existsb (N.eqb c) [9; 10; 13]%N = true) by (apply existsb_exists; exists c; split; [exact I|apply N.eqb_refl]). congruence. }
  unfold clean. induction url as [|c url IH].
  - exists [], []. repeat split; [constructor|discriminate|constructor].
  - cbn [lstrip]. destruct (N.leb_spec c 32) as [L|L].
    + destruct IH as [lead [body [-> [A [B C]]]]]. exists (c :: lead), body. split; [reflexivity|]. split; [now constructor|]. split; [exact B|exact C].
    + exists [], (c :: url). split; [reflexivity|]. split; [constructor|]. split; [|apply F]. intros x t E. injection E as -> _. exact L.
Qed.
Print Assumptions C63_cleaned.
Theorem C63_otherwise : forall netloc_ok url secure, validate_url netloc_ok url secure <> Ok true -> validate_url netloc_ok url secure = Ok false \/ validate_url netloc_ok url secure = Err ValueError.
Proof. intros nl url sec H. destruct (C63_result nl url sec) as [E|E]; [contradiction|exact E]. Qed.
Print Assumptions C63_otherwise.
(* only the first character of the authority matters: whatever follows it is accepted *)
Theorem C63_later_characters : forall netloc_ok c t, host_char c -> (forall x, In x t -> ~ ends_authority x /\ ~ In x [9; 10; 13]%N) -> netloc_ok (c :: t) = true ->
  validate_url netloc_ok (py "https://" ++ c :: t) true = Ok true.
Proof. exact UrlFacts.C63_later. Qed.
Print Assumptions C63_later_characters.
Example C63_case : validate_url (fun _ => true) (py "HTTP://example.com/a") false = Ok true /\ validate_url (fun _ => true) (py "http://example.com/a") true = Ok false /\
  validate_url (fun _ => true) (py "https://u<>!@x y") true = Ok true /\ validate_url (fun _ => true) (py "https://@x") true = Ok false /\ validate_url (fun _ => true) (py "https:///a") true = Ok false /\
  validate_url (fun _ => true) (py "ftp://a") false = Ok false.
Proof. vm_compute. auto 10. Qed.

(** ** C64. [log]: the requests made so far. *)
Theorem C64_requests : forall netloc_ok J json_type prepend_base (server : nat -> pystr -> res (response J)) secure url log log' r,
  call netloc_ok json_type prepend_base server secure url log = (log', r) ->
  (http_url netloc_ok secure url -> log' = log ++ [url]) /\ (~ http_url netloc_ok secure url -> log' = log /\ r = Err JsonLdError).
Proof.
  intros nl J jt pb sv secure url log log' r. unfold call. destruct (get_spec nl J jt pb sv secure url log) as [H1 H2].
  destruct (get nl jt pb sv secure url log) as [l r0]. intros E. injection E as <- <-. split; [intros H; now apply H1|]. intros H. injection (H2 H) as -> ->. auto.
Qed.
Print Assumptions C64_requests.
Theorem C64_secure_https : forall netloc_ok J json_type prepend_base (server : nat -> pystr -> res (response J)) url log log' r,
  call netloc_ok json_type prepend_base server true url log = (log', r) -> log' = log \/ (log' = log ++ [url] /\ exists scheme rest, clean url = scheme ++ py "://" ++ rest /\ lower scheme = py "https").
Proof.
  intros nl J jt pb sv url log log' r H. apply C64_call in H as [[H|[H Hu]] _]; [auto|right]. split; [exact H|].
  destruct Hu as (s & a & rest & E & _ & Hs & _). exists s, (a ++ rest). auto.
Qed.
Print Assumptions C64_secure_https.
(* failures: JsonLdError, except a SystemExit raised while the request is made or its body is read, which no handler catches *)
Theorem C64_errors : forall netloc_ok J json_type prepend_base (server : nat -> pystr -> res (response J)) secure url log log' e,
  call netloc_ok json_type prepend_base server secure url log = (log', Err e) ->
  e = JsonLdError \/ (e = SystemExit /\ (server (List.length log) url = Err SystemExit \/ exists x, server (List.length log) url = Ok x /\ r_json x = Err SystemExit)).
Proof. intros nl J jt pb sv secure url log log' e H. apply C64_call in H as [_ H]. destruct (H e eq_refl) as [H0|[[H0 H1]|[H0 H1]]]; auto. Qed.
Print Assumptions C64_errors.
(* and such an exit does pass *)
Theorem C64_exit_passes : forall netloc_ok J json_type prepend_base (server : nat -> pystr -> res (response J)) secure url log,
  http_url netloc_ok secure url -> server (List.length log) url = Err SystemExit -> call netloc_ok json_type prepend_base server secure url log = (log ++ [url], Err SystemExit).
Proof.
  intros nl J jt pb sv secure url log U E. unfold call. destruct (get_spec nl J jt pb sv secure url log) as [H _]. specialize (H U). destruct (get nl jt pb sv secure url log) as [log' r] eqn:G. cbn [fst] in H. subst log'.
  unfold get in G. destruct (urlparse nl url) as [[sch net]|e]; [|exfalso; injection G as G _; apply (f_equal (@List.length pystr)) in G; rewrite app_length in G; cbn in G; lia].
  destruct (is_empty sch || negb (mem_str sch [py "http"; py "https"])); [exfalso; injection G as G _; apply (f_equal (@List.length pystr)) in G; rewrite app_length in G; cbn in G; lia|].
  destruct (is_empty net); [exfalso; injection G as G _; apply (f_equal (@List.length pystr)) in G; rewrite app_length in G; cbn in G; lia|].
  destruct (bad_start net); [exfalso; injection G as G _; apply (f_equal (@List.length pystr)) in G; rewrite app_length in G; cbn in G; lia|].
  destruct (secure && negb (str_eqb sch (py "https"))); [exfalso; injection G as G _; apply (f_equal (@List.length pystr)) in G; rewrite app_length in G; cbn in G; lia|].
  injection G as <-. rewrite E. reflexivity.
Qed.
Print Assumptions C64_exit_passes.
Definition ex_server (n : nat) (url : pystr) : res (response nat) :=
  if str_eqb url (py "http://a/1") then Ok (mkResp (Some (py "application/json")) url (Ok n) None) else Err IOError.
Definition ex_call := call (fun _ => true) (fun _ => true) (fun _ u => u) ex_server.
Example C64_case : ex_call false (py "http://a/1") [] = ([py "http://a/1"], Ok (mkDoc (py "application/json") None (py "http://a/1") 0%nat)) /\
  ex_call true (py "http://a/1") [] = ([], Err JsonLdError) /\ ex_call false (py "http://b") [] = ([py "http://b"], Err JsonLdError).
Proof. vm_compute. auto. Qed.

(** ** C65. [calls cs st]: the results of the calls [cs] (each by a loader with the given [secure]) and the requests each made; [loads]
    (UrlFacts) is the permitted history: a known document is returned without request, otherwise a valid url is requested once and only
    a success makes it known. *)
Theorem C65_history : forall netloc_ok J json_type prepend_base (server : nat -> pystr -> res (response J)) cs st' rs,
  calls netloc_ok json_type prepend_base server cs (mkLs [] []) = (st', rs) -> loads netloc_ok J (fun _ => None) cs rs.
Proof. exact C65_lemma. Qed.
Print Assumptions C65_history.
Theorem C65_at_most_once : forall netloc_ok J json_type prepend_base (server : nat -> pystr -> res (response J)) cs st' rs,
  calls netloc_ok json_type prepend_base server cs (mkLs [] []) = (st', rs) ->
  forall i j s1 s2 u d q1 r q, (i < j)%nat -> nth_error cs i = Some (s1, u) -> nth_error rs i = Some (Ok d, q1) ->
  nth_error cs j = Some (s2, u) -> nth_error rs j = Some (r, q) -> r = Ok d /\ q = [].
Proof. intros nl J jt pb sv cs st' rs H. apply loads_once with (1 := C65_lemma _ _ _ _ _ _ _ _ H). Qed.
Print Assumptions C65_at_most_once.
(* a failure is not remembered: the next call for the url (by a loader that accepts it) makes a request again *)
Theorem C65_failures_not_cached : forall netloc_ok J json_type prepend_base (server : nat -> pystr -> res (response J)) cs st' rs,
  calls netloc_ok json_type prepend_base server cs (mkLs [] []) = (st', rs) ->
  forall j s u r q, nth_error cs j = Some (s, u) -> nth_error rs j = Some (r, q) -> http_url netloc_ok s u ->
  (forall i s' d q', (i < j)%nat -> nth_error cs i = Some (s', u) -> nth_error rs i <> Some (Ok d, q')) -> q = [u].
Proof. exact UrlFacts.C65_refetch. Qed.
Print Assumptions C65_failures_not_cached.
Theorem C65_shared_cache_refuted : exists J (server : nat -> pystr -> res (response J)) url st' d,
  ~ http_url (fun _ => true) true url /\
  calls (fun _ => true) (fun _ => true) (fun _ u => u) server [(true, url); (false, url); (true, url)] (mkLs [] []) = (st', [(Err JsonLdError, []); (Ok d, [url]); (Ok d, [])]).
Proof.
  exists nat, ex_server, (py "http://a/1"), (mkLs [(py "http://a/1", mkDoc (py "application/json") None (py "http://a/1") 0%nat)] [py "http://a/1"]), (mkDoc (py "application/json") None (py "http://a/1") 0%nat). split.
  - rewrite <- C63_lemma. vm_compute. discriminate.
  - vm_compute. reflexivity.
Qed.
Print Assumptions C65_shared_cache_refuted.
