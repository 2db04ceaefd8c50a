(** jsonld/tools/datetime.py: validating, parsing and printing timestamps *)
From Coq Require Import String.
From Verif Require Import Base Regex Duration.
Open Scope Z_scope.
Open Scope list_scope.

(** datetime.datetime; the UTC offset (None: naive) in microseconds *)
Record datetime := mkDt { dt_year : Z; dt_month : Z; dt_day : Z; dt_hour : Z; dt_minute : Z; dt_second : Z; dt_micro : Z; dt_offset : option Z }.
(** calendar (the datetime module) *)
Definition is_leap (y : Z) : bool := (y mod 4 =? 0) && (negb (y mod 100 =? 0) || (y mod 400 =? 0)).
Definition days_in_month (y m : Z) : Z :=
  if m =? 2 then if is_leap y then 29 else 28 else if (m =? 4) || (m =? 6) || (m =? 9) || (m =? 11) then 30 else 31.
(** the checks of the constructor datetime(...) and of timezone(...); ValueError otherwise *)
Definition make_datetime (d : datetime) : res datetime :=
  if (1 <=? dt_year d) && (dt_year d <=? 9999) && (1 <=? dt_month d) && (dt_month d <=? 12) && (1 <=? dt_day d) && (dt_day d <=? days_in_month (dt_year d) (dt_month d))
     && (0 <=? dt_hour d) && (dt_hour d <=? 23) && (0 <=? dt_minute d) && (dt_minute d <=? 59) && (0 <=? dt_second d) && (dt_second d <=? 59)
     && (0 <=? dt_micro d) && (dt_micro d <=? 999999)
     && match dt_offset d with None => true | Some o => (-86400000000 <? o) && (o <? 86400000000) end
  then Ok d else Err ValueError.

Section Digits.
(** the decimal-digit value of a code point (Unicode category Nd), which is what [\d] tests and int() uses *)
Variable nd : N -> option N.
Definition digit : regex := Chr (fun c => match nd c with Some _ => true | None => false end).
(** int() of a captured text: a leading space is ignored *)
Definition int_of (t : pystr) : Z := Z.of_N (fold_left (fun a c => match nd c with Some v => a * 10 + v | None => a end)%N t 0%N).

Definition l (s : string) : regex := seqs (map lit (py s)).
(** datetime.py:13 (0\d|1\d|2[0123]) ; :14 [012345]\d ; :15 (:([012345]\d|60))? *)
Definition hour_re : regex := Alt (Seq (l "0") digit) (Alt (Seq (l "1") digit) (Seq (l "2") (oneof "0123"))).
Definition minute_re : regex := Seq (oneof "012345") digit.
Definition second_re : regex := opt (Seq (l ":") (Alt (Seq (oneof "012345") digit) (l "60"))).
(** datetime.py:5-6 *)
Definition AS2_TIME : regex := seqs [hour_re; l ":"; minute_re; second_re; oneof ".-+Z"].
(** datetime.py:7, and the end of 19 *)
Definition offset_re : regex := seqs [opt (l "Z"); oneof "-+"; hour_re; l ":"; minute_re].
Definition AS2_TZ : regex := Seq offset_re Eos.
(** datetime.py:9-19 *)
Definition AS2_DATE_TIME : regex :=
  seqs [digit; digit; digit; digit; l "-"; Alt (Seq (l "0") (oneof "123456789")) (Seq (l "1") (oneof "012")); l "-";
        Alt (Seq (l "0") (oneof "123456789")) (Alt (Seq (l "1") digit) (Alt (Seq (l "2") digit) (Seq (l "3") (oneof "01"))));
        l "T"; hour_re; l ":"; minute_re; second_re; opt (Seq (l ".") (upto 6 digit)); Alt (l "Z") offset_re; Eos].

(** the values these functions get *)
Inductive dval := DNone | DDate (d : datetime) | DStr (s : pystr) | DOther.
(** datetime.py:22-30 (what it returns is not used) *)
Definition is_activity_datetime (v : dval) : res unit :=
  match v with
  | DNone | DDate _ => Ok tt
  | DStr s => match re_search AS2_DATE_TIME s with Some _ => Ok tt | None => Err ValueError end
  | DOther => Ok tt
  end.

(** ** datetime.strptime (CPython Lib/_strptime.py): the format as a regular expression, compiled with IGNORECASE *)
Definition gY := 0%N. Definition gm := 1%N. Definition gd := 2%N. Definition gH := 3%N. Definition gM := 4%N. Definition gS := 5%N. Definition gf := 6%N. Definition gz := 7%N.
Definition lit_i (c : N) : regex := Chr (fun x => N.eqb x c || (N.leb 65 c && N.leb c 90 && N.eqb x (c + 32))).
Definition dir_Y : regex := Grp gY (seqs [digit; digit; digit; digit]).
Definition dir_m : regex := Grp gm (Alt (Seq (l "1") (oneof "012")) (Alt (Seq (l "0") (oneof "123456789")) (oneof "123456789"))).
Definition dir_d : regex := Grp gd (Alt (Seq (l "3") (oneof "01")) (Alt (Seq (oneof "12") digit) (Alt (Seq (l "0") (oneof "123456789")) (Alt (oneof "123456789") (Seq (l " ") (oneof "123456789")))))).
Definition dir_H : regex := Grp gH (Alt (Seq (l "2") (oneof "0123")) (Alt (Seq (oneof "01") digit) digit)).
Definition dir_M : regex := Grp gM (Alt (Seq (oneof "012345") digit) digit).
Definition dir_S : regex := Grp gS (Alt (Seq (l "6") (oneof "01")) (Alt (Seq (oneof "012345") digit) digit)).
Definition dir_f : regex := Grp gf (upto 6 (oneof "0123456789")).
Definition dir_z : regex :=
  Grp gz (Alt (seqs [oneof "+-"; digit; digit; opt (l ":"); oneof "012345"; digit; opt (seqs [opt (l ":"); oneof "012345"; digit; opt (Seq (l ".") (upto 6 digit))])]) (l "Z")).
(** the values of the groups: the text of a group, if it is in the format *)
Definition cap (g : N) (caps : list (N * pystr)) : option pystr := match find (fun x => N.eqb g (fst x)) caps with Some x => Some (snd x) | None => None end.
Definition cap_int (g : N) (caps : list (N * pystr)) (default : Z) : Z := match cap g caps with Some t => int_of t | None => default end.
(** %f: padded with zeros on the right to six digits *)
Definition pad6 (t : pystr) : pystr := t ++ repeat 48%N (6 - List.length t).
(** %z *)
Definition utc_offset (z : pystr) : res Z :=
  if str_eqb z (py "Z") then Ok 0
  else let colon := match nth_error z 3 with Some c => N.eqb c 58 | None => false end in
       let z1 := if colon then firstn 3 z ++ skipn 4 z else z in
       let long := (5 <? List.length z1)%nat in
       if colon && long && negb (match nth_error z1 5 with Some c => N.eqb c 58 | None => false end) then Err ValueError
       else let z2 := if colon && long then firstn 5 z1 ++ skipn 6 z1 else z1 in
            let secs := int_of (firstn 2 (skipn 1 z2)) * 3600 + int_of (firstn 2 (skipn 3 z2)) * 60 + int_of (firstn 2 (skipn 5 z2)) in
            let off := secs * 1000000 + int_of (pad6 (skipn 8 z2)) in
            Ok (if startswith (py "-") z2 then - off else off).
(** match the whole string ("unconverted data remains" otherwise), then build the datetime *)
Definition strptime (s : pystr) (format : regex) : res datetime :=
  match re_match format s with
  | None => Err ValueError
  | Some (caps, rest) =>
      match rest with
      | _ :: _ => Err ValueError
      | [] => match (match cap gz caps with None => Ok None | Some z => match utc_offset z with Ok o => Ok (Some o) | Err e => Err e end end) with
              | Err e => Err e
              | Ok off => make_datetime (mkDt (cap_int gY caps 1900) (cap_int gm caps 1) (cap_int gd caps 1) (cap_int gH caps 0) (cap_int gM caps 0) (cap_int gS caps 0)
                            (match cap gf caps with Some t => int_of (pad6 t) | None => 0 end) off)
              end
      end
  end.
(** datetime.py:36-42 the format *)
Definition has_char (c : N) (s : pystr) : bool := existsb (N.eqb c) s.
Definition time_format (seconds frac : bool) (zone : list regex) : regex :=
  seqs ([dir_Y; lit_i 45; dir_m; lit_i 45; dir_d; lit_i 84; dir_H; lit_i 58; dir_M] ++ (if seconds then [lit_i 58; dir_S] else []) ++ (if frac then [lit_i 46; dir_f] else []) ++ zone).
(** datetime.py:33-43 *)
Definition parse_activitystream_datetime (v : dval) : res dval :=
  match v with
  | DNone | DDate _ => Ok v
  | DOther => Err TypeError
  | DStr s =>
      match re_search AS2_TIME s with
      | None => Err AttributeError                            (* None.span *)
      | Some x =>
          let zone := match re_search AS2_TZ s with None => [lit_i 90] | Some _ => if has_char 90 s then [lit_i 90; dir_z] else [dir_z] end in
          match strptime s (time_format (span_length x =? 9)%nat (has_char 46 s) zone) with Ok d => Ok (DDate d) | Err e => Err e end
      end
  end.
End Digits.

(** datetime.py:71-78: strftime('%Y-%m-%dT%H:%M:%SZ'); %Y is not padded (glibc), the others are padded to two digits *)
Definition two (n : Z) : pystr := let t := str_of_Z n in if (List.length t <? 2)%nat then 48%N :: t else t.
Definition datetime_str (d : datetime) : pystr :=
  str_of_Z (dt_year d) ++ py "-" ++ two (dt_month d) ++ py "-" ++ two (dt_day d) ++ py "T" ++ two (dt_hour d) ++ py ":" ++ two (dt_minute d) ++ py ":" ++ two (dt_second d) ++ py "Z".
