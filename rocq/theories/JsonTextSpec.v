(** Specification of C95: which values survive being written as JSON text and read again. *)
From Coq Require Import String.
From Verif Require Import Base JsonData.
Import ListNotations.
Open Scope list_scope.
Open Scope N_scope.

(** a text: code points, no high surrogate directly before a low one *)
Definition high_surrogate (c : N) : Prop := 55296 <= c <= 56319.
Definition low_surrogate (c : N) : Prop := 56320 <= c <= 57343.
Definition writable (s : pystr) : Prop := Forall (fun c => c < 1114112) s /\ forall a x y b, s = a ++ x :: y :: b -> high_surrogate x -> low_surrogate y -> False.

(** numbers *)
Definition digit (c : N) : Prop := 48 <= c <= 57.
(** the digits of an integer: no leading zero *)
Definition natural (t : pystr) : Prop := t = [48] \/ exists c t', t = c :: t' /\ 49 <= c <= 57 /\ Forall digit t'.
Definition fraction (t : pystr) : Prop := t = [] \/ exists ds, t = 46 :: ds /\ ds <> [] /\ Forall digit ds.
Definition exponent (t : pystr) : Prop := t = [] \/ exists e sg ds, t = e :: sg ++ ds /\ (e = 101 \/ e = 69) /\ (sg = [] \/ sg = [43] \/ sg = [45]) /\ ds <> [] /\ Forall digit ds.
Definition signed (t : pystr) : Prop := natural t \/ exists t', t = 45 :: t' /\ natural t'.
(** the text of a float as repr() writes it *)
Definition float_syntax (r : pystr) : Prop := exists i fr ex, r = i ++ fr ++ ex /\ signed i /\ fraction fr /\ exponent ex /\ (fr <> [] \/ ex <> []).

Section Storable.
(** repr(float(t)) for the text of a number with a fraction or an exponent *)
Variable float_repr : pystr -> pystr.
(** the repr of a float: nan, inf, -inf, or the text of a number that float() reads and repr() writes again as it is *)
Definition is_float (r : pystr) : Prop := r = py "nan" \/ r = py "inf" \/ r = py "-inf" \/ (float_syntax r /\ float_repr r = r).
Inductive storable : jval -> Prop :=
| st_none : storable JNone
| st_bool b : storable (JBool b)
| st_int z : storable (JInt z)
| st_float r : is_float r -> storable (JFloat r)
| st_str s : writable s -> storable (JStr s)
| st_list l : Forall storable l -> storable (JList l)
| st_tuple l : Forall storable l -> storable (JTuple l)
| st_dict d : NoDup (map fst d) -> Forall (fun p => writable (fst p)) d -> Forall (fun p => storable (snd p)) d -> storable (JDict d).
End Storable.
(** what json.dumps can write at all *)
Inductive serialisable : jval -> Prop :=
| se_none : serialisable JNone | se_bool b : serialisable (JBool b) | se_int z : serialisable (JInt z) | se_float r : serialisable (JFloat r) | se_str s : serialisable (JStr s)
| se_list l : Forall serialisable l -> serialisable (JList l)
| se_tuple l : Forall serialisable l -> serialisable (JTuple l)
| se_dict d : Forall (fun p => serialisable (snd p)) d -> serialisable (JDict d).
