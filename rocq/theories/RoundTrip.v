(** jsonld/jsonld.py [json] and jsonld/engine/json_input.py [from_json] one after the other, for the ActivityStreams package: the glue between Vocab.v ([data], constructors) and Intake.v. *)
From Coq Require Import String.
From Verif Require Import Base Dict Package Intake DateTime JsonData VocabTables Vocab.
Open Scope list_scope.

Section RoundTrip.
(** see Vocab.v *)
Variable netloc_ok : pystr -> bool.
Variable nd : N -> option N.
Variable email : pystr -> res bool.
Variable props_order : bool -> cname -> list pystr.
(** the text of an int in JSON, and what json.loads makes of the text of a number *)
Variable int_text : Z -> pystr.
Variable num : pystr -> value.

(** json.dumps and json.loads of what [data] returns (only None-free dicts and lists of strings and numbers occur there) *)
Fixpoint pv_of (j : jval) : pv :=
  match j with
  | JNone => PNone | JBool b => PBool b | JInt z => PNum (int_text z) | JFloat r => PNum r | JStr s | JOther s => PStr s
  | JList l | JTuple l | JSet l | JIter l => PIter (map pv_of l)
  | JDict d => PDict (map (fun p => (fst p, pv_of (snd p))) d)
  | JObj _ => PNone
  end.
Definition document_of (d : dict jval) : pv := pv_of (JDict d).
(** the Python value of what the intake passes to a constructor *)
Fixpoint raw_of (v : pv) : value :=
  match v with
  | PNone | POther _ => VNone | PBool b => VBool b | PNum r => num r | PStr s => VStr s
  | PIter l => VList (map raw_of l) | PDict d => VDict (map (fun p => (fst p, raw_of (snd p))) d)
  end.
Fixpoint arg_of (o : out value) : value :=
  match o with
  | ORaw v => raw_of v | OList l => VList (map arg_of l) | ODict d => VDict (map (fun p => (fst p, arg_of (snd p))) d) | OObj v => v
  end.
(** the package's classes by number *)
Definition number (c : cname) : nat := N.to_nat (class_no c).
Definition class_of_number (n : nat) : option cname := find (fun c => Nat.eqb (number c) n) all_classes.

Variable St : Type.
(** json_input.py:118-120 [cls( **kwargs )] *)
Definition engine_construct (s : St) (k : nat) (args : list (pystr * out value)) : St * res value :=
  match class_of_number k with Some c => (s, construct netloc_ok nd email true c (map (fun p => (fst p, arg_of (snd p))) args)) | None => (s, Err TypeError) end.
(** base.py:318-330 [__get_properties__] *)
Definition engine_properties (k : nat) : option (list pystr) := match class_of_number k with Some c => Some (props_order true c) | None => None end.
(** pyld's expansion, json.loads, the registry (see Intake.v) *)
Variable expand : St -> pv -> St * res (list (option (list pystr))).
Variable registry : nsdict.
Variable loads : pystr -> res pv.
(** the engine's from_json *)
Definition read_text (t : pystr) (s : St) : St * res value := from_text St value expand engine_construct engine_properties registry loads t s.
End RoundTrip.
