(** The Activity Vocabulary (https://www.w3.org/TR/activitystreams-vocabulary/, sections 2 to 4): the types, by name, with the types each one extends and the properties its
    definition lists besides inherited ones. Written from the recommendation, not from the code.
    (id and type belong to every object and link in the data model; the Map variants are a serialisation of the natural-language properties.) *)
From Coq Require Import String.
From Verif Require Import Base.
Open Scope list_scope.
Open Scope string_scope.

Definition as2_types : list (string * (list string * list string)) :=
  [ ("Object", ([], ["attachment"; "attributedTo"; "audience"; "content"; "context"; "name"; "endTime"; "generator"; "icon"; "image"; "inReplyTo"; "location"; "preview"; "published"; "replies"; "startTime"; "summary"; "tag"; "updated"; "url"; "to"; "bto"; "cc"; "bcc"; "mediaType"; "duration"]));
    ("Link", ([], ["href"; "rel"; "mediaType"; "name"; "hreflang"; "height"; "width"; "preview"]));
    ("Activity", (["Object"], ["actor"; "object"; "target"; "result"; "origin"; "instrument"]));
    ("IntransitiveActivity", (["Activity"], []));
    ("Collection", (["Object"], ["totalItems"; "current"; "first"; "last"; "items"]));
    ("OrderedCollection", (["Collection"], []));
    ("CollectionPage", (["Collection"], ["partOf"; "next"; "prev"]));
    ("OrderedCollectionPage", (["OrderedCollection"; "CollectionPage"], ["startIndex"]));
    ("Accept", (["Activity"], [])); ("TentativeAccept", (["Accept"], [])); ("Add", (["Activity"], [])); ("Arrive", (["IntransitiveActivity"], []));
    ("Create", (["Activity"], [])); ("Delete", (["Activity"], [])); ("Follow", (["Activity"], [])); ("Ignore", (["Activity"], [])); ("Join", (["Activity"], []));
    ("Leave", (["Activity"], [])); ("Like", (["Activity"], [])); ("Offer", (["Activity"], [])); ("Invite", (["Offer"], [])); ("Reject", (["Activity"], []));
    ("TentativeReject", (["Reject"], [])); ("Remove", (["Activity"], [])); ("Undo", (["Activity"], [])); ("Update", (["Activity"], [])); ("View", (["Activity"], []));
    ("Listen", (["Activity"], [])); ("Read", (["Activity"], [])); ("Move", (["Activity"], [])); ("Travel", (["IntransitiveActivity"], [])); ("Announce", (["Activity"], []));
    ("Block", (["Ignore"], [])); ("Flag", (["Activity"], [])); ("Dislike", (["Activity"], [])); ("Question", (["IntransitiveActivity"], ["oneOf"; "anyOf"; "closed"]));
    ("Application", (["Object"], [])); ("Group", (["Object"], [])); ("Organization", (["Object"], [])); ("Person", (["Object"], [])); ("Service", (["Object"], []));
    ("Relationship", (["Object"], ["subject"; "object"; "relationship"])); ("Article", (["Object"], [])); ("Document", (["Object"], [])); ("Audio", (["Document"], []));
    ("Image", (["Document"], [])); ("Video", (["Document"], [])); ("Note", (["Object"], [])); ("Page", (["Document"], [])); ("Event", (["Object"], []));
    ("Place", (["Object"], ["accuracy"; "altitude"; "latitude"; "longitude"; "radius"; "units"])); ("Mention", (["Link"], [])); ("Profile", (["Object"], ["describes"]));
    ("Tombstone", (["Object"], ["formerType"; "deleted"])) ].
Definition entry (t : string) : list string * list string := match find (fun e => String.eqb t (fst e)) as2_types with Some (_, x) => x | None => ([], []) end.
(** every a is a b *)
Inductive as2_is : string -> string -> Prop :=
| is_self t : In t (map fst as2_types) -> as2_is t t
| is_base a b c : In b (fst (entry a)) -> as2_is b c -> as2_is a c.
(** the properties a type has, its own and the inherited ones (an IntransitiveActivity has no object) *)
Definition as2_has (t p : string) : Prop := exists a, as2_is t a /\ In p (snd (entry a)) /\ ~ (p = "object" /\ as2_is t "IntransitiveActivity").
