(** jsonld/jsonld.py:99-123 [json]: json.dumps of what [data] returns; jsonld/engine/json_input.py:109: json.loads. The json package is part of Python; both directions are
    modelled after CPython 3.12 (json/encoder.py, json/decoder.py, json/scanner.py). Simplifications: no recursion limit, no limit on the number of digits of an int. *)
From Coq Require Import String.
From Verif Require Import Base Dict Duration Intake JsonData.
Open Scope list_scope.
Open Scope N_scope.

(** ** Writing: JSONEncoder with ensure_ascii, allow_nan, no sort_keys, no default *)
(** a hexadecimal digit, as in '\\u{0:04x}' *)
Definition hex_digit (n : N) : N := if n <? 10 then 48 + n else 87 + n.
Definition hex4 (n : N) : pystr := [hex_digit (n / 4096); hex_digit (n / 256 mod 16); hex_digit (n / 16 mod 16); hex_digit (n mod 16)].
Definition u_escape (n : N) : pystr := 92 :: 117 :: hex4 n.
(** encoder.py:19-72 ESCAPE_ASCII and [py_encode_basestring_ascii] *)
Definition escape (c : N) : pystr :=
  if c =? 34 then [92; 34] else if c =? 92 then [92; 92]
  else if c =? 10 then [92; 110] else if c =? 13 then [92; 114] else if c =? 9 then [92; 116] else if c =? 12 then [92; 102] else if c =? 8 then [92; 98]
  else if (32 <=? c) && (c <=? 126) then [c]
  else if c <? 65536 then u_escape c
  else u_escape (55296 + (c - 65536) / 1024 mod 1024) ++ u_escape (56320 + (c - 65536) mod 1024).
Definition quote (s : pystr) : pystr := 34 :: flat_map escape s ++ [34].
(** int.__repr__ *)
Definition int_text (z : Z) : pystr := if Z.ltb z 0 then 45 :: str_of_N (Z.to_N (- z)) else str_of_N (Z.to_N z).
(** encoder.py:224-245 [floatstr]; [r] is the repr of the float *)
Definition float_out (r : pystr) : pystr :=
  if str_eqb r (py "nan") then py "NaN" else if str_eqb r (py "inf") then py "Infinity" else if str_eqb r (py "-inf") then py "-Infinity" else r.

Fixpoint joined (sep : pystr) (l : list pystr) : pystr :=
  match l with [] => [] | [x] => x | x :: l' => x ++ sep ++ joined sep l' end.
Definition each {A} (f : A -> res pystr) : list A -> res (list pystr) :=
  fix go (l : list A) : res (list pystr) :=
    match l with [] => Ok [] | x :: l' => match f x with Err e => Err e | Ok t => match go l' with Err e => Err e | Ok ts => Ok (t :: ts) end end end.
Section Dump.
(** encoder.py:104-141: the separators, and [' ' * indent] if there is an indent *)
Variables (comma colon : pystr) (ind : option pystr).
(** encoder.py:276-285, 341-350: a new line and the indentation of the current level *)
Definition new_line (level : nat) : pystr := match ind with None => [] | Some i => 10 :: concat (repeat i level) end.
Definition wrap (o c : N) (level : nat) (parts : list pystr) : pystr :=
  o :: new_line (S level) ++ joined (comma ++ new_line (S level)) parts ++ new_line level ++ [c].
(** encoder.py:261-443 [_make_iterencode]: tuples as lists; sets, iterators, other objects raise TypeError. Keys are strings here. *)
Fixpoint dump (level : nat) (v : jval) : res pystr :=
  match v with
  | JNone => Ok (py "null")
  | JBool b => Ok (if b then py "true" else py "false")
  | JInt z => Ok (int_text z)
  | JFloat r => Ok (float_out r)
  | JStr s => Ok (quote s)
  | JList l | JTuple l =>
      match l with
      | [] => Ok (py "[]")
      | _ => match each (dump (S level)) l with Err e => Err e | Ok parts => Ok (wrap 91 93 level parts) end
      end
  | JDict d =>
      match d with
      | [] => Ok (py "{}")
      | _ => match each (fun p => match dump (S level) (snd p) with Err e => Err e | Ok t => Ok (quote (fst p) ++ colon ++ t) end) d with
             | Err e => Err e
             | Ok parts => Ok (wrap 123 125 level parts)
             end
      end
  | JSet _ | JIter _ | JOther _ | JObj _ => Err TypeError
  end.
End Dump.
(** jsonld.py:117-123 and encoder.py:132-135: separators (',', ':') if minified; otherwise ': ' and ', ', or ',' if there is an indent *)
Definition dumps (minified : bool) (indent : option Z) (v : jval) : res pystr :=
  dump (if minified then py "," else match indent with None => py ", " | Some _ => py "," end) (if minified then py ":" else py ": ")
       (match indent with None => None | Some n => Some (repeat 32 (Z.to_nat n)) end) 0 v.
(** jsonld.py:99-123 [json], given what [data] returns *)
Definition json_text (minified : bool) (indent : option Z) (data : res (dict jval)) : res pystr :=
  match data with Err e => Err e | Ok d => dumps minified indent (JDict d) end.

(** ** Reading: JSONDecoder *)
(** decoder.py:132 WHITESPACE *)
Definition is_ws (c : N) : bool := existsb (N.eqb c) [32; 9; 10; 13].
Fixpoint skip (s : pystr) : pystr := match s with c :: s' => if is_ws c then skip s' else s | [] => [] end.
Definition is_digit (c : N) : bool := (48 <=? c) && (c <=? 57).
Fixpoint span (p : N -> bool) (s : pystr) : pystr * pystr :=
  match s with c :: s' => if p c then let (a, r) := span p s' in (c :: a, r) else ([], s) | [] => ([], []) end.
(** scanner.py:15-17 NUMBER_RE: the integer, fraction and exponent parts, and what follows *)
Definition int_part (s : pystr) : option (pystr * pystr) :=
  match s with
  | c :: s' => if c =? 48 then Some ([48], s') else if is_digit c then let (a, r) := span is_digit s' in Some (c :: a, r) else None
  | [] => None
  end.
Definition signed_int (s : pystr) : option (pystr * pystr) :=
  match s with
  | c :: s' => if c =? 45 then match int_part s' with Some (a, r) => Some (45 :: a, r) | None => None end else int_part s
  | [] => None
  end.
Definition frac_part (s : pystr) : pystr * pystr :=
  match s with
  | c :: s' => if c =? 46 then match span is_digit s' with ([], _) => ([], s) | (a, r) => (46 :: a, r) end else ([], s)
  | [] => ([], [])
  end.
Definition is_exp (c : N) : bool := (c =? 101) || (c =? 69).
Definition is_sign (c : N) : bool := (c =? 43) || (c =? 45).
Definition exp_part (s : pystr) : pystr * pystr :=
  match s with
  | e :: s' => if is_exp e then
      let '(sg, s2) := match s' with g :: s2 => if is_sign g then ([g], s2) else ([], s') | [] => ([], []) end in
      match span is_digit s2 with ([], _) => ([], s) | (a, r) => (e :: sg ++ a, r) end
    else ([], s)
  | [] => ([], [])
  end.
(** decoder.py:57-70 [_decode_uXXXX] *)
Definition hex_value (c : N) : option N :=
  if is_digit c then Some (c - 48) else if (97 <=? c) && (c <=? 102) then Some (c - 87) else if (65 <=? c) && (c <=? 70) then Some (c - 55) else None.
Definition u_value (s : pystr) : option (N * pystr) :=
  match s with
  | a :: b :: c :: d :: s' =>
      match hex_value a, hex_value b, hex_value c, hex_value d with
      | Some a, Some b, Some c, Some d => Some (((a * 16 + b) * 16 + c) * 16 + d, s')
      | _, _, _, _ => None
      end
  | _ => None
  end.
Definition is_high (n : N) : bool := (55296 <=? n) && (n <=? 56319).
Definition is_low (n : N) : bool := (56320 <=? n) && (n <=? 57343).
(** decoder.py:73-128 [py_scanstring], strict; the text after the opening quote. [fuel]: more than its length *)
Definition simple_escape (c : N) : option N :=
  if c =? 34 then Some 34 else if c =? 92 then Some 92 else if c =? 47 then Some 47 else if c =? 98 then Some 8 else if c =? 102 then Some 12
  else if c =? 110 then Some 10 else if c =? 114 then Some 13 else if c =? 116 then Some 9 else None.
Fixpoint scan_string (fuel : nat) (s : pystr) : option (pystr * pystr) :=
  match fuel, s with
  | S f, c :: s1 =>
      let more (ch : N) (r : pystr) := match scan_string f r with Some (a, r') => Some (ch :: a, r') | None => None end in
      if c =? 34 then Some ([], s1)
      else if c =? 92 then
        match s1 with
        | [] => None
        | e :: s2 =>
            if e =? 117 then
              match u_value s2 with
              | None => None
              | Some (n, s3) =>
                  if is_high n then
                    match s3 with
                    | x :: y :: s4 =>
                        if (x =? 92) && (y =? 117) then
                          match u_value s4 with
                          | None => None
                          | Some (m, s5) => if is_low m then more (65536 + ((n - 55296) * 1024 + (m - 56320))) s5 else more n s3
                          end
                        else more n s3
                    | _ => more n s3
                    end
                  else more n s3
              end
            else match simple_escape e with Some ch => more ch s2 | None => None end
        end
      else if c <? 32 then None
      else more c s1
  | _, _ => None
  end.
Section Loads.
(** repr(float(t)) for the text [t] of a number with a fraction or an exponent *)
Variable float_repr : pystr -> pystr.
Definition prefix (p s : pystr) : option pystr := if str_eqb (firstn (length p) s) p then Some (skipn (length p) s) else None.
(** decoder.py:143-212 [dict(pairs)]: the last of equal keys wins, in the place of the first *)
Definition of_pairs (l : list (pystr * pv)) : list (pystr * pv) := fold_left (fun d p => d_set (fst p) (snd p) d) l [].
Definition number (s : pystr) : option (pv * pystr) :=
  match signed_int s with
  | None => None
  | Some (i, r) =>
      let (fr, r1) := frac_part r in let (ex, r2) := exp_part r1 in
      Some (PNum (match fr, ex with [], [] => if str_eqb i (py "-0") then py "0" else i | _, _ => float_repr (i ++ fr ++ ex) end), r2)
  end.
Definition constant (s : pystr) : option (pv * pystr) :=
  match prefix (py "null") s with Some r => Some (PNone, r) | None =>
  match prefix (py "true") s with Some r => Some (PBool true, r) | None =>
  match prefix (py "false") s with Some r => Some (PBool false, r) | None =>
  match number s with Some x => Some x | None =>
  match prefix (py "NaN") s with Some r => Some (PNum (py "nan"), r) | None =>
  match prefix (py "Infinity") s with Some r => Some (PNum (py "inf"), r) | None =>
  match prefix (py "-Infinity") s with Some r => Some (PNum (py "-inf"), r) | None => None end end end end end end end.
(** scanner.py:29-63 [_scan_once], decoder.py:215-241 [JSONArray], 143-212 [JSONObject]; [items] and [members] start at a value and at the quote of a key.
    [None]: JSONDecodeError. [fuel]: more than the length of the text. *)
Fixpoint scan (fuel : nat) (s : pystr) : option (pv * pystr) :=
  match fuel, s with
  | S f, c :: s1 =>
      if c =? 34 then match scan_string f s1 with Some (t, r) => Some (PStr t, r) | None => None end
      else if c =? 123 then
        match skip s1 with
        | [] => None
        | x :: r => if x =? 125 then Some (PDict [], r)
                    else match members f (x :: r) with Some (l, r') => Some (PDict (of_pairs l), r') | None => None end
        end
      else if c =? 91 then
        match skip s1 with
        | [] => None
        | x :: r => if x =? 93 then Some (PIter [], r)
                    else match items f (x :: r) with Some (l, r') => Some (PIter l, r') | None => None end
        end
      else constant s
  | _, _ => None
  end
with items (fuel : nat) (s : pystr) : option (list pv * pystr) :=
  match fuel with
  | O => None
  | S f =>
      match scan f s with
      | None => None
      | Some (v, r) =>
          match skip r with
          | [] => None
          | x :: r' => if x =? 93 then Some ([v], r')
                       else if x =? 44 then match items f (skip r') with Some (l, r2) => Some (v :: l, r2) | None => None end
                       else None
          end
      end
  end
with members (fuel : nat) (s : pystr) : option (list (pystr * pv) * pystr) :=
  match fuel, s with
  | S f, q :: s1 =>
      if q =? 34 then
        match scan_string f s1 with
        | None => None
        | Some (k, r) =>
            match skip r with
            | [] => None
            | x :: r1 =>
                if x =? 58 then
                  match scan f (skip r1) with
                  | None => None
                  | Some (v, r2) =>
                      match skip r2 with
                      | [] => None
                      | y :: r3 => if y =? 125 then Some ([(k, v)], r3)
                                   else if y =? 44 then match members f (skip r3) with Some (l, r4) => Some ((k, v) :: l, r4) | None => None end
                                   else None
                      end
                  end
                else None
            end
        end
      else None
  | _, _ => None
  end.
(** json/__init__.py:299-359 [loads] of a str, decoder.py:343-353 [decode] *)
Definition loads (t : pystr) : res pv :=
  if match t with c :: _ => c =? 65279 | [] => false end then Err ValueError
  else match scan (3 * length t + 3) (skip t) with
       | Some (v, r) => match skip r with [] => Ok v | _ => Err ValueError end
       | None => Err ValueError
       end.
End Loads.
