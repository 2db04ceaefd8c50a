(** citrine/storage/utils.py: sizing of groups. *)
From Verif Require Import Base Float53.
Open Scope Z_scope.

(** Python [range(a, b)] *)
Definition zrange (a b : Z) : list Z := map (fun i => a + Z.of_nat i) (seq 0 (Z.to_nat (b - a))).

(** utils.py:5-14 [is_prime]. [math.sqrt] of a negative int raises ValueError. *)
Definition is_prime (num : Z) : res bool :=
  if num <? 0 then Err ValueError
  else Ok (forallb (fun i => negb (num mod i =? 0)) (zrange 2 (f_trunc (f_sqrt (f_of_int num)) + 1))).

(** utils.py:17-29 [next(get_primes(min=v))] with [max=None]: the loop
    [while True: if is_prime(val): yield val; val += 1] up to its first yield.
    The loop runs at most [p] iterations (binary fuel, so a large [p] costs nothing);
    [inl v] = still searching at [v]. *)
Fixpoint search (p : positive) (v : Z) : res (Z + Z) :=
  let step (v : Z) : res (Z + Z) :=
    match is_prime v with Err e => Err e | Ok true => Ok (inr v) | Ok false => Ok (inl (v + 1)) end in
  match p with
  | xH => step v
  | xO p' => match search p' v with
             | Ok (inl v') => search p' v'
             | r => r
             end
  | xI p' => match step v with
             | Ok (inl v1) => match search p' v1 with
                              | Ok (inl v') => search p' v'
                              | r => r
                              end
             | r => r
             end
  end.

(** fuel: 2^52 candidates. [OutOfModel] (never a Python behaviour) marks exhausted fuel. *)
Definition search_fuel : positive := 4503599627370496.
Definition next_prime_from (v : Z) : res Z :=
  match search search_fuel v with
  | Ok (inr p) => Ok p
  | Ok (inl _) => Err OutOfModel
  | Err e => Err e
  end.

(** [math.ceil(a / b)] for ints of any sign, b <> 0 (float division, then ceil) *)
Definition ceil_div (a b : Z) : Z :=
  if (a =? 0) || Bool.eqb (a <? 0) (b <? 0) then f_ceil (f_div (Z.abs a) (Z.abs b))
  else - f_trunc (f_div (Z.abs a) (Z.abs b)).
(** [math.ceil(a * 1.5)] *)
Definition ceil_mul_1_5 (a : Z) : Z :=
  if 0 <=? a then f_ceil (f_mul_const (f_of_int a) 3 2)
  else - f_trunc (f_mul_const (f_of_int (- a)) 3 2).

(** utils.py:31-51 [number_of_collections]; [capacity / 0] raises ZeroDivisionError. *)
Definition number_of_collections (capacity mcs : Z) : res Z :=
  if mcs =? 0 then Err ZeroDivisionError
  else next_prime_from (ceil_div capacity mcs).

(** utils.py:53-69 [next_number_of_collections] *)
Definition next_number_of_collections (cur mcs : Z) : res Z :=
  if mcs =? 0 then Err ZeroDivisionError
  else next_prime_from (ceil_div (ceil_mul_1_5 cur) mcs).

(** citrine/storage/consts.py:8-9 *)
Definition DEFAULT_COLLECTION_SIZE : Z := 5000.
Definition DEFAULT_CONTAINER_SIZE : Z := 100000.
