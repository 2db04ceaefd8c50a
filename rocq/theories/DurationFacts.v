(** Proofs about timedelta_str *)
From Coq Require Import String.
From Verif Require Import Base BaseFacts Duration.
Open Scope Z_scope.
Open Scope list_scope.

(** ** specification: ISO 8601 durations, with 365-day years and 30-day months *)
(** [numeral t n]: [t] is a non-empty string of digits denoting [n] *)
Definition value (t : pystr) : N := fold_left (fun a c => a * 10 + (c - 48))%N t 0%N.
Definition numeral (t : pystr) (n : N) : Prop := t <> [] /\ Forall (fun c => 48 <= c <= 57)%N t /\ value t = n.
(** an optional part such as 12H *)
Definition part (unit : string) (o : option N) (t : pystr) : Prop :=
  match o with None => t = [] | Some n => exists u, numeral u n /\ t = u ++ py unit end.
Definition amount (o : option N) : Z := match o with None => 0 | Some n => Z.of_N n end.
(** [iso_duration s v]: P[nY][nM][nD][T[nH][nM][nS]], at least one part, at least one after T if there is a T; [v] is the number of seconds *)
Inductive iso_duration : pystr -> Z -> Prop :=
| iso_date y mo d ty tmo td : part "Y" y ty -> part "M" mo tmo -> part "D" d td -> (y <> None \/ mo <> None \/ d <> None) ->
    iso_duration (py "P" ++ ty ++ tmo ++ td) (86400 * (365 * amount y + 30 * amount mo + amount d))
| iso_datetime y mo d h mi s ty tmo td th tmi ts : part "Y" y ty -> part "M" mo tmo -> part "D" d td -> part "H" h th -> part "M" mi tmi -> part "S" s ts ->
    (h <> None \/ mi <> None \/ s <> None) ->
    iso_duration (py "P" ++ ty ++ tmo ++ td ++ py "T" ++ th ++ tmi ++ ts)
      (86400 * (365 * amount y + 30 * amount mo + amount d) + 3600 * amount h + 60 * amount mi + amount s).

(** ** printing numbers *)
Lemma digits_step fuel n acc : (n < 2 ^ N.of_nat fuel)%N -> (0 < fuel)%nat ->
  exists t, digits fuel n acc = t ++ acc /\ numeral t n.
Proof.
  revert n acc. induction fuel as [|fuel IH]; intros n acc Hn Hf; [exfalso; lia|]. cbn [digits].
  destruct (N.ltb_spec n 10) as [H|H].
  - exists [(48 + n)%N]. split; [reflexivity|]. split; [discriminate|]. split; [constructor; [lia|constructor]|]. unfold value. cbn [fold_left]. lia.
  - assert (Hq : (n / 10 < 2 ^ N.of_nat fuel)%N).
    { rewrite Nat2N.inj_succ, N.pow_succ_r' in Hn. apply N.div_lt_upper_bound; lia. }
    destruct (IH (n / 10)%N ((48 + n mod 10)%N :: acc) Hq) as (t & E & Hne & Hd & Hv).
    { destruct fuel; [simpl in Hn; lia|lia]. }
    exists (t ++ [(48 + n mod 10)%N]). rewrite E, <- app_assoc. split; [reflexivity|]. split; [destruct t; discriminate|].
    pose proof (N.mod_lt n 10 ltac:(discriminate)) as Hm. pose proof (N.div_mod' n 10) as Hdm. remember (n mod 10)%N as m. clear Heqm. split; [apply Forall_app; split; [exact Hd|constructor; [clear - Hm; lia|constructor]]|].
    unfold value in *. rewrite fold_left_app, Hv. cbn [fold_left]. clear - Hdm. lia.
Qed.
Lemma str_of_N_numeral n : numeral (str_of_N n) n.
Proof.
  unfold str_of_N. destruct (digits_step (S (N.to_nat (N.log2 n))) n []) as (t & -> & H).
  - rewrite Nat2N.inj_succ, N2Nat.id. destruct (N.eq_dec n 0) as [->|Hn]; [reflexivity|]. apply N.log2_spec. lia.
  - lia.
  - now rewrite app_nil_r.
Qed.
Lemma component_part n unit : 0 <= n -> exists o, part unit o (component n unit) /\ amount o = n /\ (n <> 0 -> o <> None).
Proof.
  intros Hn. unfold component. destruct (Z.eqb_spec n 0) as [->|H0].
  - exists None. repeat split; auto.
  - exists (Some (Z.to_N n)). split; [|split; [simpl; lia|discriminate]]. simpl. exists (str_of_Z n). split; [|reflexivity].
    unfold str_of_Z. destruct (Z.ltb_spec n 0); [lia|]. apply str_of_N_numeral.
Qed.
Lemma component_nil n unit : 0 <= n -> component n unit = [] -> n = 0.
Proof.
  intros Hn. unfold component. destruct (Z.eqb_spec n 0); [auto|]. unfold str_of_Z. destruct (Z.ltb_spec n 0); [discriminate|].
  destruct (str_of_N_numeral (Z.to_N n)) as [H1 _]. destruct (str_of_N (Z.to_N n)); [now elim H1|discriminate].
Qed.
Definition total_seconds (d : timedelta) : Z := td_days d * 86400 + td_seconds d.
Lemma split3 a b c : 0 <= a -> 0 < b -> 0 < c -> a = b * (a / b) + c * ((a mod b) / c) + (a mod b) mod c.
Proof. intros Ha Hb Hc. pose proof (Z.div_mod a b ltac:(lia)). pose proof (Z.div_mod (a mod b) c ltac:(lia)). lia. Qed.
Lemma C60_denotes d : normalised d -> 0 <= td_days d -> total_seconds d <> 0 -> iso_duration (timedelta_str d) (total_seconds d).
Proof.
  intros [Hs Hm] Hd Hne. unfold timedelta_str, total_seconds in *. set (D := td_days d) in *. set (S := td_seconds d) in *. clearbody D S.
  assert (HmD : 0 <= D mod 365) by (apply Z.mod_pos_bound; lia). assert (HmS : 0 <= S mod 3600) by (apply Z.mod_pos_bound; lia).
  pose proof (split3 D 365 30 Hd ltac:(lia) ltac:(lia)) as ED. pose proof (split3 S 3600 60 ltac:(lia) ltac:(lia) ltac:(lia)) as ES.
  assert (H1 : 0 <= D / 365) by (apply Z.div_pos; lia). assert (H2 : 0 <= (D mod 365) / 30) by (apply Z.div_pos; lia).
  assert (H3 : 0 <= (D mod 365) mod 30) by (apply Z.mod_pos_bound; lia).
  assert (H4 : 0 <= S / 3600) by (apply Z.div_pos; lia). assert (H5 : 0 <= (S mod 3600) / 60) by (apply Z.div_pos; lia).
  assert (H6 : 0 <= (S mod 3600) mod 60) by (apply Z.mod_pos_bound; lia).
  set (y := D / 365) in *. set (mo := (D mod 365) / 30) in *. set (dd := (D mod 365) mod 30) in *.
  set (h := S / 3600) in *. set (mi := (S mod 3600) / 60) in *. set (s := (S mod 3600) mod 60) in *. clearbody y mo dd h mi s.
  destruct (component_part y "Y" H1) as (oy & Py & Ay & Ny). destruct (component_part mo "M" H2) as (omo & Pmo & Amo & Nmo). destruct (component_part dd "D" H3) as (od & Pd & Ad & Nd).
  destruct (component_part h "H" H4) as (oh & Ph & Ah & Nh). destruct (component_part mi "M" H5) as (omi & Pmi & Ami & Nmi). destruct (component_part s "S" H6) as (os & Ps & As & Ns).
  destruct (Nat.ltb_spec 1 (List.length (py "T" ++ component h "H" ++ component mi "M" ++ component s "S"))) as [Hl|Hl].
  - replace (D * 86400 + S) with (86400 * (365 * amount oy + 30 * amount omo + amount od) + 3600 * amount oh + 60 * amount omi + amount os) by lia.
    rewrite <- !app_assoc. apply iso_datetime; auto. destruct oh; [left; discriminate|]. destruct omi; [right; left; discriminate|]. destruct os; [right; right; discriminate|].
    exfalso. simpl in Ph, Pmi, Ps. rewrite Ph, Pmi, Ps in Hl. simpl in Hl. lia.
  - assert (E : component h "H" ++ component mi "M" ++ component s "S" = []).
    { destruct (component h "H" ++ component mi "M" ++ component s "S"); [reflexivity|simpl in Hl; lia]. }
    apply app_eq_nil in E as [E1 E]. apply app_eq_nil in E as [E2 E3]. apply component_nil in E1, E2, E3; auto. subst h mi s.
    rewrite app_nil_r. replace (D * 86400 + S) with (86400 * (365 * amount oy + 30 * amount omo + amount od)) by lia.
    apply iso_date; auto. destruct (Z.eq_dec y 0) as [Ey|Ey]; [|auto]. destruct (Z.eq_dec mo 0) as [Em|Em]; [|auto]. destruct (Z.eq_dec dd 0) as [Ed|Ed]; [|auto]. exfalso. lia.
Qed.

(** ** a reader, to show the notation is unambiguous *)
Definition unit_of (time : bool) (c : N) : Z :=
  if (c =? 89)%N then 31536000 else if (c =? 77)%N then (if time then 60 else 2592000) else if (c =? 68)%N then 86400
  else if (c =? 72)%N then 3600 else if (c =? 83)%N then 1 else 0.
Fixpoint rd (s : pystr) (time : bool) (cur : N) (acc : Z) : Z :=
  match s with
  | [] => acc
  | c :: s' => if (48 <=? c)%N && (c <=? 57)%N then rd s' time (cur * 10 + (c - 48))%N acc
               else if (c =? 84)%N then rd s' true 0%N acc
               else rd s' time 0%N (acc + Z.of_N cur * unit_of time c)
  end.
Lemma rd_digits t : Forall (fun c => 48 <= c <= 57)%N t -> forall s time cur acc, rd (t ++ s) time cur acc = rd s time (fold_left (fun a c => a * 10 + (c - 48))%N t cur) acc.
Proof.
  induction 1 as [|c t Hc Ht IH]; intros s time cur acc; [reflexivity|]. cbn [app rd fold_left].
  assert (E : ((48 <=? c)%N && (c <=? 57)%N)%bool = true) by (apply andb_true_intro; split; apply N.leb_le; lia). rewrite E. apply IH.
Qed.
Lemma rd_part u o t : part u o t -> In u ["Y"; "M"; "D"; "H"; "S"]%string ->
  forall s time acc, rd (t ++ s) time 0%N acc = rd s time 0%N (acc + amount o * unit_of time (hd 0%N (py u))).
Proof.
  intros Hp Hu s time acc. destruct o as [n|]; simpl in Hp.
  - destruct Hp as (w & (Hne & Hd & Hv) & ->). rewrite <- app_assoc, rd_digits by exact Hd. fold (value w). rewrite Hv.
    simpl in Hu. destruct Hu as [<-|[<-|[<-|[<-|[<-|[]]]]]]; reflexivity.
  - subst t. cbn [app amount]. f_equal. lia.
Qed.
Lemma iso_rd s v : iso_duration s v -> rd s false 0%N 0 = v.
Proof.
  intros H. destruct H as [y mo d ty tmo td Hy Hmo Hd _|y mo d h mi s ty tmo td th tmi ts Hy Hmo Hd Hh Hmi Hs _].
  - change (rd (py "P" ++ ?r) false 0%N 0) with (rd r false 0%N (0 + 0)).
    rewrite <- (app_nil_r td). rewrite (rd_part _ _ _ Hy) by (simpl; auto). rewrite (rd_part _ _ _ Hmo) by (simpl; auto). rewrite (rd_part _ _ _ Hd) by (simpl; auto).
    cbn [rd]. change (hd 0%N (py "Y")) with 89%N. change (hd 0%N (py "M")) with 77%N. change (hd 0%N (py "D")) with 68%N. cbn -[Z.mul Z.add]. lia.
  - change (rd (py "P" ++ ?r) false 0%N 0) with (rd r false 0%N (0 + 0)).
    rewrite (rd_part _ _ _ Hy) by (simpl; auto). rewrite (rd_part _ _ _ Hmo) by (simpl; auto). rewrite (rd_part _ _ _ Hd) by (simpl; auto).
    change (rd (py "T" ++ ?r) false 0%N ?a) with (rd r true 0%N a). rewrite <- (app_nil_r ts).
    rewrite (rd_part _ _ _ Hh) by (simpl; auto 6). rewrite (rd_part _ _ _ Hmi) by (simpl; auto). rewrite (rd_part _ _ _ Hs) by (simpl; auto 6).
    cbn [rd]. change (hd 0%N (py "Y")) with 89%N. change (hd 0%N (py "M")) with 77%N. change (hd 0%N (py "D")) with 68%N. change (hd 0%N (py "H")) with 72%N. change (hd 0%N (py "S")) with 83%N.
    cbn -[Z.mul Z.add]. lia.
Qed.
Lemma C60_unambiguous s v w : iso_duration s v -> iso_duration s w -> v = w.
Proof. intros H1 H2. apply iso_rd in H1, H2. congruence. Qed.
Lemma C60_distinct a b : normalised a -> normalised b -> 0 <= td_days a -> 0 <= td_days b -> td_micros a = 0 -> td_micros b = 0 ->
  timedelta_str a = timedelta_str b -> a = b.
Proof.
  intros Na Nb Ha Hb Ma Mb E.
  assert (Hp : forall d, normalised d -> 0 <= td_days d -> total_seconds d <> 0 -> timedelta_str d <> py "P").
  { intros d Hn Hd Ht Ep. pose proof (C60_denotes d Hn Hd Ht) as H. rewrite Ep in H. apply iso_rd in H. cbn in H. congruence. }
  assert (Hz : forall d, normalised d -> 0 <= td_days d -> total_seconds d = 0 -> td_days d = 0 /\ td_seconds d = 0).
  { unfold normalised, total_seconds. intros d Hn Hd Ht. lia. }
  assert (Et : total_seconds a = total_seconds b).
  { destruct (Z.eq_dec (total_seconds a) 0) as [Ta|Ta], (Z.eq_dec (total_seconds b) 0) as [Tb|Tb]; [congruence| | |].
    - destruct (Hz a Na Ha Ta) as [E1 E2]. elim (Hp b Nb Hb Tb). rewrite <- E. unfold timedelta_str. rewrite E1, E2. reflexivity.
    - destruct (Hz b Nb Hb Tb) as [E1 E2]. elim (Hp a Na Ha Ta). rewrite E. unfold timedelta_str. rewrite E1, E2. reflexivity.
    - apply (C60_unambiguous (timedelta_str a)); [now apply C60_denotes|rewrite E; now apply C60_denotes]. }
  unfold total_seconds, normalised in *. destruct a, b; simpl in *. f_equal; lia.
Qed.
(** no ISO duration contains a minus sign, and none is empty after the P *)
Lemma part_no_minus u o t : part u o t -> In u ["Y"; "M"; "D"; "H"; "S"]%string -> ~ In 45%N t.
Proof.
  intros Hp Hu Hin. destruct o as [n|]; simpl in Hp; [|subst; contradiction]. destruct Hp as (w & (_ & Hd & _) & ->).
  apply in_app_iff in Hin as [Hin|Hin]; [rewrite Forall_forall in Hd; apply Hd in Hin; lia|].
  simpl in Hu. destruct Hu as [<-|[<-|[<-|[<-|[<-|[]]]]]]; destruct Hin as [Hin|[]]; discriminate.
Qed.
Lemma iso_no_minus s v : iso_duration s v -> ~ In 45%N s.
Proof.
  intros H. destruct H as [y mo d ty tmo td Hy Hmo Hd _|y mo d h mi s ty tmo td th tmi ts Hy Hmo Hd Hh Hmi Hs _];
    rewrite !in_app_iff; intros Hin.
  - destruct Hin as [[H|[]]|[H|[H|H]]]; [discriminate| | |]; revert H; eapply part_no_minus; eauto; simpl; auto 6.
  - destruct Hin as [[H|[]]|[H|[H|[H|[[H|[]]|[H|[H|H]]]]]]]; try discriminate; revert H; eapply part_no_minus; eauto; simpl; auto 6.
Qed.
Lemma C60_negative d : td_days d < 0 -> forall v, ~ iso_duration (timedelta_str d) v.
Proof.
  intros Hd v H. apply iso_no_minus in H. apply H. unfold timedelta_str. rewrite <- app_assoc. apply in_app_iff. right. apply in_app_iff. left.
  apply in_app_iff. left. unfold component. assert (td_days d / 365 < 0) by (apply Z.div_lt_upper_bound; lia).
  destruct (Z.eqb_spec (td_days d / 365) 0); [lia|]. apply in_app_iff. left. unfold str_of_Z. destruct (Z.ltb_spec (td_days d / 365) 0); [now left|lia].
Qed.
Lemma C60_zero m : timedelta_str (mkTd 0 0 m) = py "P" /\ forall v, ~ iso_duration (py "P") v.
Proof.
  split; [reflexivity|]. intros v H. inversion H as [y mo d ty tmo td Hy Hmo Hd Hne E Ev|y mo d h mi s ty tmo td th tmi ts Hy Hmo Hd Hh Hmi Hs Hne E Ev].
  - apply app_eq_nil in E as [E1 E]. apply app_eq_nil in E as [E2 E3]. subst.
    assert (Hpn : forall u o, part u o [] -> u <> EmptyString -> o = None).
    { intros u [n|] Hp Hu; [|reflexivity]. destruct Hp as (w & _ & E). destruct w; [destruct u; [congruence|discriminate]|discriminate]. }
    apply Hpn in Hy, Hmo, Hd; try discriminate. destruct Hne as [Hne|[Hne|Hne]]; congruence.
  - destruct ty; [|discriminate]. destruct tmo; [|discriminate]. destruct td; discriminate.
Qed.
Lemma C60_micros_dropped days secs m m' : timedelta_str (mkTd days secs m) = timedelta_str (mkTd days secs m').
Proof. reflexivity. Qed.
