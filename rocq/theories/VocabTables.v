(** activitystreams/models.py, properties.py, package.py as tables: the classes, the properties, and which properties the package links to which class *)
From Coq Require Import String.
From Verif Require Import Base.
Open Scope list_scope.

(** activitystreams/models.py: the classes (each class's [type] attribute is its name) *)
Inductive cname := Object | Link | Activity | IntransitiveActivity | Collection | OrderedCollection | CollectionPage | OrderedCollectionPage | Accept | TentativeAccept
  | Add | Arrive | Create | Delete | Follow | Ignore | Join | Leave | Like | Offer | Invite | Reject | TentativeReject | Remove | Undo | Update | View | Listen
  | Read | Move | Travel | Announce | Block | Flag | Dislike | Question | Application | Group | Organization | Person | Service | Relationship | Article
  | Document | Audio | Image | Video | Note | Page | Event | Place | Profile | Tombstone | Mention.
(** the bases within the module, with the line of the class statement; Object and Link derive from ApplicationActivityJson *)
Definition bases_of (c : cname) : list cname :=
  match c with
  | Object => []                                        (* 33 *)
  | Link => []                                          (* 87 *)
  | Activity => [Object]                                (* 246 *)
  | IntransitiveActivity => [Activity]                  (* 288 *)
  | Collection => [Object]                              (* 320 *)
  | OrderedCollection => [Collection]                   (* 370 *)
  | CollectionPage => [Collection]                      (* 402 *)
  | OrderedCollectionPage => [OrderedCollection; CollectionPage] (* 438 *)
  | Accept => [Activity]                                (* 489 *)
  | TentativeAccept => [Accept]                         (* 498 *)
  | Add => [Activity]                                   (* 505 *)
  | Arrive => [IntransitiveActivity]                    (* 515 *)
  | Create => [Activity]                                (* 524 *)
  | Delete => [Activity]                                (* 531 *)
  | Follow => [Activity]                                (* 539 *)
  | Ignore => [Activity]                                (* 549 *)
  | Join => [Activity]                                  (* 557 *)
  | Leave => [Activity]                                 (* 565 *)
  | Like => [Activity]                                  (* 573 *)
  | Offer => [Activity]                                 (* 581 *)
  | Invite => [Offer]                                   (* 589 *)
  | Reject => [Activity]                                (* 597 *)
  | TentativeReject => [Reject]                         (* 605 *)
  | Remove => [Activity]                                (* 612 *)
  | Undo => [Activity]                                  (* 620 *)
  | Update => [Activity]                                (* 633 *)
  | View => [Activity]                                  (* 644 *)
  | Listen => [Activity]                                (* 651 *)
  | Read => [Activity]                                  (* 658 *)
  | Move => [Activity]                                  (* 665 *)
  | Travel => [IntransitiveActivity]                    (* 673 *)
  | Announce => [Activity]                              (* 682 *)
  | Block => [Ignore]                                   (* 691 *)
  | Flag => [Activity]                                  (* 701 *)
  | Dislike => [Activity]                               (* 710 *)
  | Question => [IntransitiveActivity]                  (* 717 *)
  | Application => [Object]                             (* 766 *)
  | Group => [Object]                                   (* 773 *)
  | Organization => [Object]                            (* 780 *)
  | Person => [Object]                                  (* 787 *)
  | Service => [Object]                                 (* 794 *)
  | Relationship => [Object]                            (* 809 *)
  | Article => [Object]                                 (* 824 *)
  | Document => [Object]                                (* 831 *)
  | Audio => [Document]                                 (* 838 *)
  | Image => [Document]                                 (* 845 *)
  | Video => [Document]                                 (* 852 *)
  | Note => [Object]                                    (* 859 *)
  | Page => [Document]                                  (* 867 *)
  | Event => [Object]                                   (* 874 *)
  | Place => [Object]                                   (* 881 *)
  | Profile => [Object]                                 (* 899 *)
  | Tombstone => [Object]                               (* 912 *)
  | Mention => [Link]                                   (* 926 *)
  end.
Definition name_of (c : cname) : pystr :=
  match c with
  | Object => py "Object"
  | Link => py "Link"
  | Activity => py "Activity"
  | IntransitiveActivity => py "IntransitiveActivity"
  | Collection => py "Collection"
  | OrderedCollection => py "OrderedCollection"
  | CollectionPage => py "CollectionPage"
  | OrderedCollectionPage => py "OrderedCollectionPage"
  | Accept => py "Accept"
  | TentativeAccept => py "TentativeAccept"
  | Add => py "Add"
  | Arrive => py "Arrive"
  | Create => py "Create"
  | Delete => py "Delete"
  | Follow => py "Follow"
  | Ignore => py "Ignore"
  | Join => py "Join"
  | Leave => py "Leave"
  | Like => py "Like"
  | Offer => py "Offer"
  | Invite => py "Invite"
  | Reject => py "Reject"
  | TentativeReject => py "TentativeReject"
  | Remove => py "Remove"
  | Undo => py "Undo"
  | Update => py "Update"
  | View => py "View"
  | Listen => py "Listen"
  | Read => py "Read"
  | Move => py "Move"
  | Travel => py "Travel"
  | Announce => py "Announce"
  | Block => py "Block"
  | Flag => py "Flag"
  | Dislike => py "Dislike"
  | Question => py "Question"
  | Application => py "Application"
  | Group => py "Group"
  | Organization => py "Organization"
  | Person => py "Person"
  | Service => py "Service"
  | Relationship => py "Relationship"
  | Article => py "Article"
  | Document => py "Document"
  | Audio => py "Audio"
  | Image => py "Image"
  | Video => py "Video"
  | Note => py "Note"
  | Page => py "Page"
  | Event => py "Event"
  | Place => py "Place"
  | Profile => py "Profile"
  | Tombstone => py "Tombstone"
  | Mention => py "Mention"
  end.
Definition all_classes : list cname :=
  [Object; Link; Activity; IntransitiveActivity; Collection; OrderedCollection; CollectionPage; OrderedCollectionPage; Accept; TentativeAccept; Add; Arrive; Create; Delete; Follow; Ignore; Join; Leave; Like; Offer; Invite; Reject; TentativeReject; Remove; Undo; Update; View; Listen; Read; Move; Travel; Announce; Block; Flag; Dislike; Question; Application; Group; Organization; Person; Service; Relationship; Article; Document; Audio; Image; Video; Note; Page; Event; Place; Profile; Tombstone; Mention].
(** a number for each class, to compare them *)
Definition class_no (c : cname) : N :=
  match c with
  | Object => 0 | Link => 1 | Activity => 2 | IntransitiveActivity => 3 | Collection => 4 | OrderedCollection => 5 | CollectionPage => 6 | OrderedCollectionPage => 7
  | Accept => 8 | TentativeAccept => 9 | Add => 10 | Arrive => 11 | Create => 12 | Delete => 13 | Follow => 14 | Ignore => 15 | Join => 16 | Leave => 17
  | Like => 18 | Offer => 19 | Invite => 20 | Reject => 21 | TentativeReject => 22 | Remove => 23 | Undo => 24 | Update => 25 | View => 26 | Listen => 27
  | Read => 28 | Move => 29 | Travel => 30 | Announce => 31 | Block => 32 | Flag => 33 | Dislike => 34 | Question => 35 | Application => 36 | Group => 37
  | Organization => 38 | Person => 39 | Service => 40 | Relationship => 41 | Article => 42 | Document => 43 | Audio => 44 | Image => 45 | Video => 46 | Note => 47
  | Page => 48 | Event => 49 | Place => 50 | Profile => 51 | Tombstone => 52 | Mention => 53
  end%N.
Definition class_eqb (a b : cname) : bool := N.eqb (class_no a) (class_no b).
(** a class and its ancestors in the module (no class is more than four levels deep) *)
Fixpoint ancestors_to (n : nat) (c : cname) : list cname := c :: match n with O => [] | S m => flat_map (ancestors_to m) (bases_of c) end.
Definition ancestors (c : cname) : list cname := ancestors_to 4 c.
Definition subclass (c k : cname) : bool := existsb (class_eqb k) (ancestors c).

(** the types in the validators. In properties.py the name [Object] means models.Object (line 19) up to the class statement in line 672, which rebinds it to the property class [Object] for the rest of the module. *)
Inductive ty := TyNone | TyStr | TyInt | TyFloat | TyBool | TyDict | TyDatetime | TyTimedelta | TyList | TyPropObject | TyModel (c : cname).
Inductive check := CkUrl | CkTime | CkNonneg.
(** what the JSON getter does to the stored value before Link.href_only *)
Inductive jkind := JSame | JTime | JDuration.
Record pdef := mkPdef { pd_name : pystr; pd_get : pystr; pd_set : pystr; pd_strict : bool; pd_link : bool; pd_json : jkind; pd_checked : bool; pd_types : list ty; pd_functional : bool; pd_checks : list check; pd_parse : bool }.
Definition mkP (name get set : pystr) (strict link : bool) (j : jkind) (types : list ty) (functional : bool) (checks : list check) (parse : bool) : pdef :=
  mkPdef name get set strict link j true types functional checks parse.
(** activitystreams/properties.py: attribute, storage read and written, whether reading a missing storage raises, link-valued (Link.expand, Link.href_only, Link.from_str), JSON getter, types, functional, additional validators, parses date-times; each row cites its lines *)
Definition properties_py : list pdef :=
  [
   mkP (py "id") (py "___id___") (py "___id___") false false JSame [TyStr] true [CkUrl] false; (* 52-64 Id *)
   mkP (py "type") (py "__type___") (py "__type___") false false JSame [TyStr] false [] false; (* 67-78 Type *)
   mkP (py "attachment") (py "___attachment___") (py "___attachment___") false true JSame [TyModel Object; TyModel Link] false [] false; (* 81-102 Attachment *)
   mkP (py "attributedTo") (py "___attributedTo___") (py "___attributedTo___") false true JSame [TyModel Object; TyModel Link] false [] false; (* 105-126 AttributedTo *)
   mkP (py "actor") (py "___actor___") (py "___actor___") false true JSame [TyModel Object; TyModel Link] false [] false; (* 129-151 Actor *)
   mkP (py "audience") (py "___audience___") (py "___audience___") false true JSame [TyModel Object; TyModel Link] false [] false; (* 154-174 Audience *)
   mkP (py "bcc") (py "___bcc___") (py "___bcc___") false true JSame [TyModel Object; TyModel Link] false [] false; (* 177-197 Bcc *)
   mkP (py "bto") (py "___bto___") (py "___bto___") false true JSame [TyModel Object; TyModel Link] false [] false; (* 200-220 Bto *)
   mkP (py "cc") (py "___cc___") (py "___cc___") false true JSame [TyModel Object; TyModel Link] false [] false; (* 223-243 Cc *)
   mkP (py "context") (py "___context___") (py "___context___") false true JSame [TyModel Object; TyModel Link] false [] false; (* 246-271 Context *)
   mkP (py "current") (py "___current___") (py "___current___") false true JSame [TyModel CollectionPage; TyModel Link] true [] false; (* 274-294 Current *)
   mkP (py "first") (py "___first___") (py "___first___") false true JSame [TyModel CollectionPage; TyModel Link] true [] false; (* 297-317 First *)
   mkP (py "generator") (py "___generator___") (py "___generator___") false true JSame [TyModel Object; TyModel Link] false [] false; (* 320-339 Generator *)
   mkP (py "icon") (py "___icon___") (py "___icon___") false true JSame [TyModel Object; TyModel Link] false [] false; (* 342-363 Icon *)
   mkP (py "image") (py "___image___") (py "___image___") false true JSame [TyModel Object; TyModel Link] false [] false; (* 366-387 Image *)
   mkP (py "inReplyTo") (py "___inReplyTo___") (py "___inReplyTo___") false true JSame [TyModel Object; TyModel Link] false [] false; (* 390-410 InReplyTo *)
   mkP (py "instrument") (py "___instrument___") (py "___instrument___") false true JSame [TyModel Object; TyModel Link] false [] false; (* 413-433 Instrument *)
   mkP (py "last") (py "___last___") (py "___last___") false true JSame [TyModel CollectionPage; TyModel Link] true [] false; (* 436-456 Last *)
   mkP (py "location") (py "___location___") (py "___location___") false true JSame [TyModel Object; TyModel Link] false [] false; (* 459-479 Location *)
   mkP (py "items") (py "___items___") (py "___items___") false true JSame [TyModel Object; TyModel Link] false [] false; (* 482-502 Items *)
   mkP (py "orderedItems") (py "___orderedItems___") (py "___orderedItems___") false true JSame [TyModel Object; TyModel Link] false [] false; (* 505-525 OrderedItems *)
   mkP (py "unorderedItems") (py "___unorderedItems___") (py "___unorderedItems___") false true JSame [TyModel Object; TyModel Link] false [] false; (* 528-548 UnorderedItems *)
   mkP (py "oneOf") (py "___oneOf___") (py "___oneOf___") false true JSame [TyModel Object; TyModel Link] false [] false; (* 551-572 OneOf *)
   mkP (py "anyOf") (py "___anyOf___") (py "___anyOf___") false true JSame [TyModel Object; TyModel Link] false [] false; (* 575-596 AnyOf *)
   mkP (py "closed") (py "___closed___") (py "___closed___") false true JTime [TyModel Object; TyModel Link; TyDatetime; TyBool] false [] false; (* 599-622 Closed *)
   mkP (py "origin") (py "___origin___") (py "___origin___") false true JSame [TyModel Object; TyModel Link] false [] false; (* 625-647 Origin *)
   mkP (py "next") (py "___next___") (py "___next___") false true JSame [TyModel CollectionPage; TyModel Link] true [] false; (* 650-669 Next *)
   mkP (py "object") (py "___object___") (py "___object___") false true JSame [TyModel Object; TyModel Link] false [] false; (* 672-696 Object *)
   mkP (py "prev") (py "___prev___") (py "___prev___") false true JSame [TyModel CollectionPage; TyModel Link] true [] false; (* 699-718 Prev *)
   mkP (py "preview") (py "___preview___") (py "___preview___") false true JSame [TyPropObject; TyModel Link] false [] false; (* 721-740 Preview *)
   mkP (py "result") (py "___result___") (py "___result___") false true JSame [TyPropObject; TyModel Link] false [] false; (* 743-764 Result *)
   mkP (py "replies") (py "___replies___") (py "___replies___") false true JSame [TyModel Collection] true [] false; (* 767-787 Replies *)
   mkP (py "tag") (py "___tag___") (py "___tag___") false true JSame [TyPropObject; TyModel Link; TyDict] false [] false; (* 790-812 Tag *)
   mkP (py "target") (py "___target___") (py "___target___") false true JSame [TyPropObject; TyModel Link] false [] false; (* 815-839 Target *)
   mkP (py "to") (py "___to___") (py "___to___") false true JSame [TyPropObject; TyModel Link] false [] false; (* 842-862 To *)
   mkP (py "url") (py "___url___") (py "___url___") false true JSame [TyModel Link; TyStr] false [] false; (* 865-884 Url *)
   mkP (py "accuracy") (py "___accuracy___") (py "___accuracy___") false false JSame [TyFloat; TyInt] true [] false; (* 887-900 Accuracy *)
   mkP (py "altitude") (py "___altitude___") (py "___altitude___") false false JSame [TyFloat; TyInt] true [] false; (* 903-917 Altitude *)
   mkP (py "content") (py "___content___") (py "___content___") false false JSame [TyStr] false [] false; (* 920-936 Content *)
   mkP (py "name") (py "___name___") (py "___name___") false false JSame [TyStr; TyDict] false [] false; (* 939-953 Name *)
   mkP (py "duration") (py "___duration___") (py "___duration___") false false JDuration [TyTimedelta; TyStr] true [] false; (* 956-979 Duration *)
   mkP (py "height") (py "_Height__height") (py "_Height__height") true false JSame [TyInt] true [CkNonneg] false; (* 982-998 Height *)
   mkP (py "href") (py "___href___") (py "___href___") false false JSame [TyStr] true [] false; (* 1001-1013 Href *)
   mkP (py "hreflang") (py "___hreflang___") (py "_HrefLang__hrefLang") false false JSame [TyStr] true [] false; (* 1016-1029 HrefLang *)
   mkP (py "partOf") (py "___partOf___") (py "___partOf___") false true JSame [TyModel Collection; TyModel Link] true [] false; (* 1032-1051 PartOf *)
   mkP (py "latitude") (py "___latitude___") (py "___latitude___") false false JSame [TyFloat; TyInt] true [] false; (* 1054-1066 Latitude *)
   mkP (py "longitude") (py "___longitude___") (py "___longitude___") false false JSame [TyFloat; TyInt] true [] false; (* 1069-1081 Longitude *)
   mkP (py "mediaType") (py "___mediaType___") (py "___mediaType___") false false JSame [TyStr] true [] false; (* 1084-1101 MediaType *)
   mkP (py "endTime") (py "___endTime___") (py "___endTime___") false false JTime [TyDatetime; TyStr] true [CkTime] true; (* 1104-1127 EndTime *)
   mkP (py "published") (py "___published___") (py "___published___") false false JTime [TyDatetime; TyStr] true [CkTime] true; (* 1130-1150 Published *)
   mkP (py "startTime") (py "___startTime___") (py "___startTime___") false false JTime [TyDatetime; TyStr] true [CkTime] true; (* 1153-1175 StartTime *)
   mkP (py "radius") (py "___radius___") (py "___radius___") false false JSame [TyFloat; TyInt] true [CkNonneg] false; (* 1178-1193 Radius *)
   mkP (py "rel") (py "___rel___") (py "___rel___") false false JSame [TyStr] false [] false; (* 1196-1213 Rel *)
   mkP (py "startIndex") (py "___startIndex___") (py "___startIndex___") false false JSame [TyInt] true [CkNonneg] false; (* 1216-1230 StartIndex *)
   mkP (py "summary") (py "___summary___") (py "___summary___") false false JSame [TyStr] false [] false; (* 1233-1246 Summary *)
   mkP (py "totalItems") (py "___totalItems___") (py "___totalItems___") false false JSame [TyInt] true [CkNonneg] false; (* 1249-1264 TotalItems *)
   mkP (py "units") (py "___units___") (py "___units___") false false JSame [TyStr] true [] false; (* 1267-1281 Units *)
   mkP (py "updated") (py "___updated___") (py "___updated___") false false JTime [TyDatetime; TyStr] true [CkTime] true; (* 1284-1304 Updated *)
   mkP (py "width") (py "___width___") (py "___width___") false false JSame [TyInt] true [CkNonneg] false; (* 1307-1321 Width *)
   mkP (py "subject") (py "___subject___") (py "___subject___") false true JSame [TyPropObject; TyModel Link] true [] false; (* 1324-1345 Subject *)
   mkP (py "relationship") (py "___relationship___") (py "___relationship___") false false JSame [TyPropObject; TyStr] false [] false; (* 1348-1361 Relationship *)
   mkP (py "describes") (py "___describes___") (py "___describes___") false false JSame [TyPropObject] true [] false; (* 1364-1377 Describes *)
   mkP (py "formerType") (py "___formerType___") (py "___formerType___") false false JSame [TyPropObject] false [] false; (* 1380-1393 FormerType *)
   mkP (py "deleted") (py "___deleted___") (py "___deleted___") false false JTime [TyDatetime] true [CkTime] false (* 1396-1417 Deleted *)
  ].
(** activitystreams/package.py [property_mapping]: the properties linked to each class itself *)
Definition mapped (c : cname) : list pystr :=
  match c with
  | Object => map py ["id"; "type"; "attachment"; "attributedTo"; "audience"; "content"; "name"; "endTime"; "generator"; "icon"; "image"; "inReplyTo"; "location"; "preview"; "published"; "replies"; "startTime"; "summary"; "tag"; "updated"; "url"; "to"; "bto"; "cc"; "bcc"; "mediaType"; "duration"]%string (* 131-157 *)
  | Link => map py ["id"; "type"; "href"; "rel"; "mediaType"; "name"; "hreflang"; "height"; "width"; "preview"]%string (* 158-167 *)
  | Activity => map py ["actor"; "object"; "target"; "result"; "origin"; "instrument"]%string (* 168-173 *)
  | Collection => map py ["totalItems"; "current"; "first"; "last"; "items"; "orderedItems"; "unorderedItems"]%string (* 174-180 *)
  | CollectionPage => map py ["partOf"; "next"; "prev"]%string (* 181-183 *)
  | OrderedCollectionPage => map py ["startIndex"]%string (* 184-184 *)
  | Question => map py ["oneOf"; "anyOf"; "closed"]%string (* 185-187 *)
  | Relationship => map py ["subject"; "object"; "relationship"]%string (* 188-190 *)
  | Place => map py ["accuracy"; "altitude"; "latitude"; "longitude"; "radius"; "units"]%string (* 191-196 *)
  | Profile => map py ["describes"]%string (* 197-197 *)
  | Tombstone => map py ["formerType"; "deleted"]%string (* 198-199 *)
  | _ => []
  end.
(** jsonld/jsonld.py:34-43 [acontext]: no validation *)
Definition acontext_def : pdef := mkPdef (py "acontext") (py "___acontext___") (py "___acontext___") false false JSame false [] false [] false.
