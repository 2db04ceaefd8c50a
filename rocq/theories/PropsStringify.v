(** Property theorems C109: [stringify] makes plain data of anything. *)
From Coq Require Import String.
From Verif Require Import Base BaseFacts Duration DateTime Stringify StringifyFacts.
Open Scope Z_scope.
Open Scope list_scope.

(** Reading aid (StringifyFacts): [renders x y] is the value [y] that [x] should become: texts and numbers themselves, datetimes and timedeltas
    their texts, lists, tuples and sets lists of the same length, dicts a dict with each rendered key once and the value given last;
    [plain y]: only texts, numbers, lists, and dicts with text and number keys; [sound x]: every [str()] in it succeeds and no dict key is a tuple. *)
Theorem C109_renders : forall x y, stringify x = Ok y -> renders x y.
Proof. exact stringify_renders. Qed.
Print Assumptions C109_renders.
Theorem C109_plain : forall x y, stringify x = Ok y -> plain y.
Proof. exact stringify_plain. Qed.
Print Assumptions C109_plain.
Theorem C109_succeeds_iff : forall x, (exists y, stringify x = Ok y) <-> sound x.
Proof. exact stringify_ok_iff. Qed.
Print Assumptions C109_succeeds_iff.
Theorem C109_plain_is_kept : forall x, plain x -> stringify x = Ok x.
Proof. exact plain_self. Qed.
Print Assumptions C109_plain_is_kept.
Theorem C109_twice : forall x y, stringify x = Ok y -> stringify y = Ok y.
Proof. exact stringify_idem. Qed.
Print Assumptions C109_twice.
(** with rendered keys that differ, a dict keeps its entries and their order *)
Theorem C109_dict_order : forall l ks vs, Forall2 (fun x y => stringify x = Ok y) (map fst l) ks -> Forall2 (fun x y => stringify x = Ok y) (map snd l) vs ->
  Forall key ks -> NoDup ks -> stringify (XDict l) = Ok (XDict (combine ks vs)).
Proof. exact stringify_dict_distinct. Qed.
Print Assumptions C109_dict_order.

Definition none := XOther (Ok (py "None")).
Definition true_ := XOther (Ok (py "True")).
Definition ex_data : sval :=
  XDict [(XStr (py "when"), XDate (mkDt 2024 2 29 23 5 59 7 (Some 0))); (XDelta (mkTd 1 3600 0), XTuple [XInt 3; XSet [XStr (py "x")]; XDict [(XInt 1, XFloat 7)]])].
Example C109_case : sound ex_data /\
  stringify ex_data = Ok (XDict [(XStr (py "when"), XStr (py "2024-02-29T23:05:59Z")); (XStr (py "P1DT1H"), XList [XInt 3; XList [XStr (py "x")]; XDict [(XInt 1, XFloat 7)]])]).
Proof. split; [|vm_compute; reflexivity]. apply stringify_ok_iff. eexists. vm_compute. reflexivity. Qed.

(** "every key and value converted to a string" (utils.py:118) is not so: numbers stay numbers *)
Theorem C109_all_text_refuted : exists k v, stringify (XDict [(k, v)]) = Ok (XDict [(k, v)]) /\ (forall s, k <> XStr s) /\ (forall s, v <> XStr s).
Proof. exists (XInt 1), (XInt 2). split; [reflexivity|]. split; intros s; discriminate. Qed.
Print Assumptions C109_all_text_refuted.
(** keys that are rendered alike are merged, and the earlier value is lost *)
Theorem C109_entries_kept_refuted : exists a b, a <> b /\ stringify (XDict [(a, XInt 1); (b, XInt 2)]) = Ok (XDict [(XStr (py "None"), XInt 2)]).
Proof. exists none, (XStr (py "None")). split; [discriminate|reflexivity]. Qed.
Print Assumptions C109_entries_kept_refuted.
(** a dict with a tuple as a key cannot be converted *)
Theorem C109_tuple_key : forall l v d, (exists y, stringify (XTuple l) = Ok y) -> (exists y, stringify v = Ok y) -> stringify (XDict ((XTuple l, v) :: d)) = Err TypeError.
Proof. intros l v d (y & E) (z & F). rewrite stringify_eq. cbn [pairs]. rewrite E, F. cbn [rbind]. rewrite stringify_eq in E. destruct (each l); [|discriminate]. injection E as <-. reflexivity. Qed.
Print Assumptions C109_tuple_key.
(** JSON's null and booleans do not survive: they become texts *)
Theorem C109_json_kept_refuted : stringify (XList [none; true_]) = Ok (XList [XStr (py "None"); XStr (py "True")]).
Proof. reflexivity. Qed.
Print Assumptions C109_json_kept_refuted.
