(** jsonld/tools/datetime.py [timedelta_str] *)
From Coq Require Import String.
From Verif Require Import Base.
Open Scope Z_scope.
Open Scope list_scope.

(** datetime.timedelta: Python keeps 0 <= seconds < 86400 and 0 <= microseconds < 1000000 *)
Record timedelta := mkTd { td_days : Z; td_seconds : Z; td_micros : Z }.
Definition normalised (d : timedelta) : Prop := 0 <= td_seconds d < 86400 /\ 0 <= td_micros d < 1000000.

(** str() of an int, as in f'{n}' *)
Fixpoint digits (fuel : nat) (n : N) (acc : pystr) : pystr :=
  match fuel with
  | O => acc
  | S fuel' => if N.ltb n 10 then (48 + n)%N :: acc else digits fuel' (n / 10)%N ((48 + n mod 10)%N :: acc)
  end.
Definition str_of_N (n : N) : pystr := digits (S (N.to_nat (N.log2 n))) n [].
Definition str_of_Z (z : Z) : pystr := if Z.ltb z 0 then 45%N :: str_of_N (Z.to_N (- z)) else str_of_N (Z.to_N z).

(** datetime.py:59-65: f'{n}Y' if n else '' *)
Definition component (n : Z) (unit : string) : pystr := if Z.eqb n 0 then [] else str_of_Z n ++ py unit.
(** datetime.py:46-68; Python's [//] and [%] round towards minus infinity, as Coq's do *)
Definition timedelta_str (d : timedelta) : pystr :=
  let years := td_days d / 365 in
  let months := (td_days d mod 365) / 30 in
  let days := (td_days d mod 365) mod 30 in
  let hours := td_seconds d / 3600 in
  let minutes := (td_seconds d mod 3600) / 60 in
  let seconds := (td_seconds d mod 3600) mod 60 in
  let ymd := py "P" ++ component years "Y" ++ component months "M" ++ component days "D" in
  let hms := py "T" ++ component hours "H" ++ component minutes "M" ++ component seconds "S" in
  ymd ++ (if (1 <? List.length hms)%nat then hms else []).
