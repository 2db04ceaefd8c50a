(** Specification of C115: JSON texts (RFC 8259, with Python's NaN and Infinity) and what they mean. Independent of the scanner in JsonText.v. *)
From Coq Require Import String.
From Verif Require Import Base Dict Intake JsonData JsonTextSpec.
Import ListNotations.
Open Scope list_scope.
Open Scope N_scope.

(** blanks, tabs and line ends *)
Definition space (w : pystr) : Prop := Forall (fun c => c = 32 \/ c = 9 \/ c = 10 \/ c = 13) w.
(** backslash and a letter *)
Definition escapes : list (N * N) := [(34, 34); (92, 92); (47, 47); (98, 8); (102, 12); (110, 10); (114, 13); (116, 9)].
Definition hexa1 (c n : N) : Prop := (48 <= c <= 57 /\ n = c - 48) \/ (65 <= c <= 70 /\ n = c - 55) \/ (97 <= c <= 102 /\ n = c - 87).
(** four hexadecimal digits *)
Definition hexa (h : pystr) (n : N) : Prop :=
  exists a b c d x y z u, h = [a; b; c; d] /\ hexa1 a x /\ hexa1 b y /\ hexa1 c z /\ hexa1 d u /\ n = ((x * 16 + y) * 16 + z) * 16 + u.
(** what is between the quotes of a string, and the characters it means: a pair of surrogates is one character *)
Definition low_escape_follows (t : pystr) : Prop := exists h m t', t = 92 :: 117 :: h ++ t' /\ hexa h m /\ low_surrogate m.
Inductive chars : pystr -> pystr -> Prop :=
| c_end : chars [] []
| c_plain c t s : 32 <= c -> c <> 34 -> c <> 92 -> chars t s -> chars (c :: t) (c :: s)
| c_escape e c t s : In (e, c) escapes -> chars t s -> chars (92 :: e :: t) (c :: s)
| c_unit h n t s : hexa h n -> chars t s -> ~ (high_surrogate n /\ low_escape_follows t) -> chars (92 :: 117 :: h ++ t) (n :: s)
| c_pair h n h' m t s : hexa h n -> high_surrogate n -> hexa h' m -> low_surrogate m -> chars t s ->
    chars (92 :: 117 :: h ++ 92 :: 117 :: h' ++ t) (65536 + ((n - 55296) * 1024 + (m - 56320)) :: s).

Section Grammar.
(** repr(float(t)) for the text of a number with a fraction or an exponent *)
Variable float_repr : pystr -> pystr.
Inductive reads : pystr -> pv -> Prop :=
| r_null : reads (py "null") PNone
| r_true : reads (py "true") (PBool true)
| r_false : reads (py "false") (PBool false)
| r_nan : reads (py "NaN") (PNum (py "nan"))
| r_inf : reads (py "Infinity") (PNum (py "inf"))
| r_neg_inf : reads (py "-Infinity") (PNum (py "-inf"))
| r_int i : signed i -> i <> py "-0" -> reads i (PNum i)
| r_minus_zero : reads (py "-0") (PNum (py "0"))
| r_float i fr ex : signed i -> fraction fr -> exponent ex -> fr <> [] \/ ex <> [] -> reads (i ++ fr ++ ex) (PNum (float_repr (i ++ fr ++ ex)))
| r_string t s : chars t s -> reads (34 :: t ++ [34]) (PStr s)
| r_no_elements w : space w -> reads (91 :: w ++ [93]) (PIter [])
| r_list t l : elements t l -> reads (91 :: t ++ [93]) (PIter l)
| r_no_pairs w : space w -> reads (123 :: w ++ [125]) (PDict [])
| r_dict t l : pairs t l -> reads (123 :: t ++ [125]) (PDict (d_of l))
with elements : pystr -> list pv -> Prop :=
| el_one w t v w' : space w -> reads t v -> space w' -> elements (w ++ t ++ w') [v]
| el_more w t v w' t' l : space w -> reads t v -> space w' -> elements t' l -> elements (w ++ t ++ w' ++ 44 :: t') (v :: l)
with pairs : pystr -> list (pystr * pv) -> Prop :=
| pr_one w k s w1 w2 t v w' : space w -> chars k s -> space w1 -> space w2 -> reads t v -> space w' -> pairs (w ++ 34 :: k ++ 34 :: w1 ++ 58 :: w2 ++ t ++ w') [(s, v)]
| pr_more w k s w1 w2 t v w' t' l : space w -> chars k s -> space w1 -> space w2 -> reads t v -> space w' -> pairs t' l ->
    pairs (w ++ 34 :: k ++ 34 :: w1 ++ 58 :: w2 ++ t ++ w' ++ 44 :: t') ((s, v) :: l).
(** a JSON text: a value with blanks around it *)
Definition json_reads (t : pystr) (v : pv) : Prop := exists w t' w', t = w ++ t' ++ w' /\ space w /\ reads t' v /\ space w'.
End Grammar.
Scheme reads_min := Minimality for reads Sort Prop
with elements_min := Minimality for elements Sort Prop
with pairs_min := Minimality for pairs Sort Prop.
Combined Scheme grammar_ind from reads_min, elements_min, pairs_min.
