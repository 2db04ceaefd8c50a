(** IEEE-754 binary64 as used by the repository: non-negative values only.
    A float is represented by the integer [z] such that its value is [z / 2^1074]
    (every finite binary64 number is an integer multiple of 2^-1074).
    Rounding is to nearest, ties to even, on 53 significant bits (subnormals included);
    overflow (values >= 2^1024) is not modelled. *)
From Verif Require Import Base.
Open Scope Z_scope.

Definition scale : Z := 2 ^ 1074.

(** nearest integer to n/d, ties to even (n >= 0, d > 0) *)
Definition rne (n d : Z) : Z :=
  let q := n / d in
  match (2 * (n mod d)) ?= d with
  | Lt => q
  | Gt => q + 1
  | Eq => if Z.even q then q else q + 1
  end.

(** round the rational n/d to 53 significant bits *)
Definition rnd53 (n d : Z) : Z :=
  let e := Z.max 0 (Z.log2 (n / d) - 52) in
  rne n (d * 2 ^ e) * 2 ^ e.

(** Python [a / b] on non-negative ints, b > 0 (CPython rounds the exact quotient correctly) *)
Definition f_div (a b : Z) : Z := rnd53 (a * scale) b.
(** [float(a)] *)
Definition f_of_int (a : Z) : Z := rnd53 (a * scale) 1.
(** float times the int/float constant [c / d] that is exactly representable: [x * 100], [x * 1.5] *)
Definition f_mul_const (x c d : Z) : Z := rnd53 (x * c) d.
(** [math.ceil(x)] and [int(x)] *)
Definition f_ceil (x : Z) : Z := - ((- x) / scale).
Definition f_trunc (x : Z) : Z := x / scale.
(** [math.sqrt(x)]: the real square root of [X = x * scale] (in units of 2^-1074), rounded to 53 bits *)
Definition f_sqrt (x : Z) : Z :=
  let X := x * scale in
  let s := Z.sqrt X in
  let e := Z.max 0 (Z.log2 s - 52) in
  let r := s / 2 ^ e in
  let r' := match (4 * X) ?= ((2 * r + 1) ^ 2 * 4 ^ e) with
            | Lt => r
            | Gt => r + 1
            | Eq => if Z.even r then r else r + 1
            end in
  r' * 2 ^ e.
