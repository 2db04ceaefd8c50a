(** jsonld/tools/url.py [validate_url], and the parts of urllib.parse.urlparse it looks at *)
From Coq Require Import String.
From Verif Require Import Base.
Open Scope list_scope.

Definition ascii_upper (c : N) : bool := (65 <=? c)%N && (c <=? 90)%N.
Definition ascii_lower (c : N) : bool := (97 <=? c)%N && (c <=? 122)%N.
Definition ascii_alpha (c : N) : bool := ascii_upper c || ascii_lower c.
Definition ascii_num (c : N) : bool := (48 <=? c)%N && (c <=? 57)%N.
(** str.lower() of the ASCII characters a scheme can have *)
Definition lower (s : pystr) : pystr := map (fun c => if ascii_upper c then (c + 32)%N else c) s.
(** urllib.parse: leading control characters and spaces are stripped, tabs and line ends removed (CPython 3.11.4 and later) *)
Fixpoint lstrip (s : pystr) : pystr := match s with c :: s' => if (c <=? 32)%N then lstrip s' else s | [] => [] end.
Definition clean (s : pystr) : pystr := filter (fun c => negb (existsb (N.eqb c) [9; 10; 13]%N)) (lstrip s).
(** urllib.parse.scheme_chars: a-zA-Z0-9+-. *)
Definition scheme_char (c : N) : bool := ascii_alpha c || ascii_num c || existsb (N.eqb c) (py "+-.").
(** text before the first [:], if there is one *)
Fixpoint before_colon (s : pystr) : option (pystr * pystr) :=
  match s with
  | [] => None
  | c :: s' => if N.eqb c 58 then Some ([], s') else match before_colon s' with Some (a, b) => Some (c :: a, b) | None => None end
  end.
Definition split_scheme (s : pystr) : pystr * pystr :=
  match before_colon s with
  | Some (a, b) => match a with
                   | c :: _ => if ascii_alpha c && forallb scheme_char a then (lower a, b) else ([], s)
                   | [] => ([], s)
                   end
  | None => ([], s)
  end.
(** the authority: up to the first /, ? or # *)
Definition delim (c : N) : bool := existsb (N.eqb c) (py "/?#").
Fixpoint until_delim (s : pystr) : pystr := match s with c :: s' => if delim c then [] else c :: until_delim s' | [] => [] end.
Section Url.
(** urllib.parse's checks of the authority (square brackets, characters that normalise to delimiters): false makes urlparse raise ValueError *)
Variable netloc_ok : pystr -> bool.
(** urlparse(url).scheme, .netloc *)
Definition urlparse (url : pystr) : res (pystr * pystr) :=
  let (scheme, rest) := split_scheme (clean url) in
  let netloc := if startswith (py "//") rest then until_delim (skipn 2 rest) else [] in
  if netloc_ok netloc then Ok (scheme, netloc) else Err ValueError.
(** url.py:11, docloader.py:12: re.match of [^a-zA-Z0-9_.:-]+ looks at the first character only *)
Definition allowed_char (c : N) : bool := ascii_alpha c || ascii_num c || existsb (N.eqb c) (py "_.:-").
Definition bad_start (s : pystr) : bool := match s with [] => false | c :: _ => negb (allowed_char c) end.
Definition is_empty (s : pystr) : bool := match s with [] => true | _ => false end.
(** url.py:33-61 *)
Definition validate_url (url : pystr) (secure : bool) : res bool :=
  match urlparse url with
  | Err e => Err e
  | Ok (scheme, netloc) =>
      Ok (if is_empty scheme || negb (mem_str scheme [py "http"; py "https"]) then false
          else if is_empty netloc then false
          else if bad_start netloc then false
          else if secure && negb (str_eqb scheme (py "https")) then false
          else true)
  end.
End Url.
