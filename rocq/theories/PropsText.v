(** Property theorems C95: the JSON text of an object.
    [dumps minified indent v]: json.dumps as obj.json(minified, indent) calls it; [loads float_repr t]: json.loads, [float_repr u] being repr(float(u)).
    [pv_of int_text v]: the same data as json.loads returns it (tuples as lists, numbers by their text). [storable], [serialisable]: see JsonTextSpec.v. *)
From Coq Require Import String Ascii Lia DecimalString.
From Verif Require Import Base BaseFacts Dict DictFacts Package Intake IntakeFacts PropsIntake Duration DateTime DateTimeFacts DateTimeMore Url UrlFacts JsonData JsonDataFacts VocabTables Vocab VocabFacts VocabStore VocabConstruct VocabLinks VocabRead VocabClean PropsVocab RoundTrip RoundTripSpec RoundTripFacts PropsRoundTrip JsonText JsonTextSpec JsonTextFacts.
Import ListNotations.
Open Scope list_scope.
Open Scope N_scope.

(** what was written is read again, in every format *)
Theorem C95_text_round_trip : forall float_repr minified indent v t, storable float_repr v -> dumps minified indent v = Ok t -> loads float_repr t = Ok (pv_of int_text v).
Proof. exact C95_back. Qed.
Print Assumptions C95_text_round_trip.
Theorem C95_formats_agree : forall float_repr m i m' i' v t t', storable float_repr v -> dumps m i v = Ok t -> dumps m' i' v = Ok t' -> loads float_repr t = loads float_repr t'.
Proof. intros f m i m' i' v t t' H E E'. now rewrite (C95_back f m i v t H E), (C95_back f m' i' v t' H E'). Qed.
Print Assumptions C95_formats_agree.
Theorem C95_unambiguous : forall float_repr m i m' i' v v' t, storable float_repr v -> storable float_repr v' -> dumps m i v = Ok t -> dumps m' i' v' = Ok t -> pv_of int_text v = pv_of int_text v'.
Proof. intros f m i m' i' v v' t H H' E E'. pose proof (C95_back f m i v t H E). pose proof (C95_back f m' i' v' t H' E'). congruence. Qed.
Print Assumptions C95_unambiguous.
(** printable ASCII; new lines only with an indent *)
Theorem C95_ascii : forall float_repr m i v t, storable float_repr v -> dumps m i v = Ok t -> Forall (fun c => 32 <= c <= 126 \/ (c = 10 /\ i <> None)) t.
Proof. exact C95_ascii_lemma. Qed.
Print Assumptions C95_ascii.
(** it fails exactly for what JSON cannot write, and then with TypeError *)
Theorem C95_writes : forall m i v, (serialisable v -> exists t, dumps m i v = Ok t) /\ (~ serialisable v -> dumps m i v = Err TypeError).
Proof.
  intros m i v. split.
  - intros H. unfold dumps. now apply dump_total.
  - intros H. destruct (dumps m i v) as [t|e] eqn:E; unfold dumps in E; [apply dump_serialisable in E; tauto|]. apply dump_err in E. now subst.
Qed.
Print Assumptions C95_writes.
(** obj.json() succeeds whenever obj.data() does, whatever the format *)
Theorem C95_json_of_data : forall m i a props, (forall d, JsonData.data a props = Ok d -> exists t, json_text m i (JsonData.data a props) = Ok t) /\ (forall e, JsonData.data a props = Err e -> json_text m i (JsonData.data a props) = Err e).
Proof. intros m i a props. split; [intros d E; exact (C95_json_lemma m i a props d E)|intros e ->; reflexivity]. Qed.
Print Assumptions C95_json_of_data.
(** two adjacent lone surrogates in a text come back as one character *)
Theorem C95_surrogates_refuted : exists s t, Forall (fun c => c < 1114112) s /\ forall float_repr, dumps false None (JStr s) = Ok t /\ exists s', loads float_repr t = Ok (PStr s') /\ s' <> s.
Proof.
  exists [55357; 56832], (py """\ud83d\ude00"""). split; [repeat constructor|]. intros f. split; [vm_compute; reflexivity|]. exists [128512]. split; [reflexivity|discriminate].
Qed.
Print Assumptions C95_surrogates_refuted.

(** the whole way: object, data(), JSON text, json.loads, the engine *)
Theorem C95_object_round_trip : forall netloc_ok nd email props_order Out J fetch form link_ns ns_text show num ctx St expand registry float_repr,
  orders props_order -> ascii_ok nd -> (forall z, num (int_text z) = VInt z) -> ctx <> [] -> understands St expand registry RoundTrip.number ctx ->
  forall minified indent fuel c a s0 d t s, portable netloc_ok nd email num ctx (VObj true c a) ->
  Vocab.data netloc_ok nd email props_order Out J fetch form link_ns ns_text show fuel true default_args true c a s0 = (s0, Ok d) -> storable float_repr (JDict d) ->
  dumps minified indent (JDict d) = Ok t ->
  exists s' o, read_text netloc_ok nd email props_order num St expand registry (loads float_repr) t s = (s', Ok o) /\ same (VObj true c a) o.
Proof.
  intros nok nd em po Out J fe fo ln nt sh num ctx St ex rg fr H1 H2 H3 H4 H5 m i fuel c a s0 d t s P Hd Hs Ht.
  refine (C87_round_trip nok nd em po Out J fe fo ln nt sh int_text num ctx St ex rg (loads fr) H1 H2 H3 H4 H5 fuel c a t s P _).
  exists s0, d. split; [exact Hd|]. exact (C95_back fr m i (JDict d) t Hs Ht).
Qed.
Print Assumptions C95_object_round_trip.

(** a document with quotes, a line break, characters beyond ASCII and beyond the BMP, a lone surrogate, numbers, nesting *)
Definition doc : jval := JDict [(py "@id", JStr (py "a""b\c" ++ [10; 233; 128512; 55357])); (py "n", JList [JInt (-120); JInt 0; JFloat (py "1.5e-07"); JFloat (py "-inf"); JBool true; JNone; JTuple []]);
  ([8364], JDict [(py "x", JDict []); (py "y", JList [JStr []])])].
Definition fr_id (u : pystr) : pystr := u.
Definition doc_text : pystr := py "{""@id"":""a\""b\\c\n\u00e9\ud83d\ude00\ud83d"",""n"":[-120,0,1.5e-07,-Infinity,true,null,[]],""\u20ac"":{""x"":{},""y"":[""""]}}".
Lemma writable_ok s : forallb (fun c => c <? 1114112) s = true -> (forall c, In c s -> ~ low_surrogate c) -> writable s.
Proof.
  intros H L. split; [apply Forall_forall; intros c Hc; apply N.ltb_lt; now apply (proj1 (forallb_forall _ _) H)|]. intros a x y b -> _ Hy. apply (L y); [|exact Hy]. rewrite in_app_iff. cbn. auto.
Qed.
Ltac texts := apply writable_ok; [reflexivity|intros c Hc; cbn in Hc; unfold low_surrogate; repeat (destruct Hc as [<-|Hc]; [lia|]); destruct Hc].
Example C95_case : storable fr_id doc /\ serialisable doc /\ dumps true None doc = Ok doc_text /\ loads fr_id doc_text = Ok (pv_of int_text doc) /\
  (exists t, dumps false (Some 2%Z) doc = Ok t /\ t <> doc_text /\ loads fr_id t = Ok (pv_of int_text doc)) /\ dumps true None (JList [JSet []]) = Err TypeError.
Proof.
  assert (S : storable fr_id doc).
  { unfold doc. apply st_dict.
    - cbn. repeat constructor; cbn; intuition discriminate.
    - repeat (apply Forall_cons; [cbn [fst]; texts|]). constructor.
    - repeat (apply Forall_cons; [cbn [snd]|]); [| | |constructor].
      + apply st_str. texts.
      + apply st_list. repeat (apply Forall_cons; [|]); try (constructor; fail); [| |apply st_tuple; constructor].
        * apply st_float. right; right; right. split; [|reflexivity]. exists [49], [46; 53], (101 :: [45] ++ [48; 55]). split; [reflexivity|].
          split; [left; right; exists 49, []; repeat split; try lia; constructor|]. split; [right; exists [53]; repeat split; [discriminate|repeat constructor; cbv; discriminate]|].
          split; [right; exists 101, [45], [48; 55]; repeat split; auto; [discriminate|repeat constructor; cbv; discriminate]|left; discriminate].
        * apply st_float. right; right; now left.
      + apply st_dict; [cbn; repeat constructor; cbn; intuition discriminate|repeat (apply Forall_cons; [cbn [fst]; texts|]); constructor|].
        repeat (apply Forall_cons; [cbn [snd]|]); [| |constructor].
        * apply st_dict; constructor.
        * apply st_list. constructor; [|constructor]. apply st_str. split; [constructor|]. intros [|? ?] x y b E; discriminate. }
  split; [exact S|]. split; [exact (storable_serialisable _ _ S)|]. split; [vm_compute; reflexivity|]. split; [vm_compute; reflexivity|]. split; [|reflexivity].
  eexists. split; [vm_compute; reflexivity|]. split; [discriminate|vm_compute; reflexivity].
Qed.
(** int_text is Coq's own decimal notation: [number_of] (PropsRoundTrip.v) reads it *)
Lemma digit_cases c : digit c -> In c [48; 49; 50; 51; 52; 53; 54; 55; 56; 57].
Proof. unfold digit. intros H. cbn. lia. Qed.
Lemma digits_uint t : Forall digit t -> exists u, NilEmpty.uint_of_string (text_of t) = Some u /\ (forall acc, Npos (Pos.of_uint_acc u acc) = fold_left (fun a c => a * 10 + (c - 48)) t (Npos acc)) /\
  Pos.of_uint u = fold_left (fun a c => a * 10 + (c - 48)) t 0.
Proof.
  intros F. induction F as [|c t Hc F (u & E & A & B)]; [exists Decimal.Nil; repeat split; reflexivity|].
  cbn [text_of NilEmpty.uint_of_string]. rewrite E. apply digit_cases in Hc. cbn in Hc.
  assert (M : forall acc, (Npos acc * 10 = Npos (10 * acc))%N) by (intros; lia).
  repeat (destruct Hc as [<-|Hc]; [eexists; split; [reflexivity|]; split; [intros acc; cbn [Pos.of_uint_acc fold_left]; rewrite A; f_equal; lia|cbn [Pos.of_uint fold_left]; first [exact B|rewrite A; reflexivity]]|]). destruct Hc.
Qed.
Lemma number_int_text z : number_of (int_text z) = VInt z.
Proof.
  unfold number_of, int_text. destruct (Z.ltb_spec z 0) as [L|L].
  - destruct (DurationFacts.str_of_N_numeral (Z.to_N (- z))) as (_ & F & V). destruct (digits_uint _ F) as (u & E & _ & B). change (NilEmpty.int_of_string (text_of (45 :: str_of_N (Z.to_N (- z))))) with (option_map Decimal.Neg (NilEmpty.uint_of_string (text_of (str_of_N (Z.to_N (- z)))))). rewrite E. cbn [option_map].
    unfold Z.of_int. change (Z.of_uint u) with (Z.of_N (Pos.of_uint u)). rewrite B. unfold DurationFacts.value in V. rewrite V. f_equal. lia.
  - destruct (DurationFacts.str_of_N_numeral (Z.to_N z)) as (Hn & F & V). destruct (digits_uint _ F) as (u & E & _ & B).
    destruct (str_of_N (Z.to_N z)) as [|c t] eqn:Es; [congruence|]. inversion F as [|? ? Hc _]; subst.
    assert (N : Ascii.eqb (Ascii.ascii_of_N c) "-"%char = false) by (apply digit_cases in Hc; cbn in Hc; repeat (destruct Hc as [<-|Hc]; [reflexivity|]); destruct Hc).
    cbn [text_of] in *. unfold NilEmpty.int_of_string. rewrite N, E. cbn [option_map]. unfold Z.of_int. change (Z.of_uint u) with (Z.of_N (Pos.of_uint u)). rewrite B. unfold DurationFacts.value in V. rewrite V. f_equal. lia.
Qed.
(** an activity as in C87, through its text *)
Fixpoint ascii_data (v : jval) : bool :=
  let text (s : pystr) := forallb (fun c => c <? 55296) s in
  match v with
  | JNone | JBool _ | JInt _ => true | JStr s => text s | JList l => forallb ascii_data l
  | JDict d => forallb (fun p => text (fst p) && ascii_data (snd p)) d && (length (dedup (map fst d)) =? length d)%nat
  | _ => false
  end.
Lemma low_texts s : forallb (fun c => c <? 55296) s = true -> writable s.
Proof.
  intros H. rewrite forallb_forall in H. split; [apply Forall_forall; intros c Hc; apply H, N.ltb_lt in Hc; lia|]. intros a x y b -> [Hx _] _. assert (In x (a ++ x :: y :: b)) as I by (apply in_app_iff; right; now left).
  apply H, N.ltb_lt in I. lia.
Qed.
Lemma dedup_length l : (length (dedup l) <= length l)%nat.
Proof. induction l as [|x l IH]; [auto|]. cbn [dedup length]. destruct (mem_str x l); cbn [length]; lia. Qed.
Lemma dedup_same l : length (dedup l) = length l -> NoDup l.
Proof.
  induction l as [|x l IH]; [constructor|]. cbn [dedup length]. pose proof (dedup_length l). destruct (mem_str x l) eqn:E; cbn [length]; intros H2; [lia|]. constructor; [|apply IH; lia]. intros I. apply mem_str_in in I. congruence.
Qed.
Lemma ascii_data_ok f v : ascii_data v = true -> storable f v.
Proof.
  induction v as [|b|z|r|s|l IH|l IH|l IH|d IH|l IH|s|props IH] using jval_ind2; cbn [ascii_data]; intros H; try discriminate; constructor.
  - now apply low_texts.
  - rewrite forallb_forall in H. rewrite Forall_forall in *. auto.
  - apply Bool.andb_true_iff in H as [_ H]. apply Nat.eqb_eq in H. apply dedup_same. now rewrite map_length.
  - apply Bool.andb_true_iff in H as [H _]. rewrite forallb_forall in H. apply Forall_forall. intros p Hp. apply H, Bool.andb_true_iff in Hp as [Hp _]. now apply low_texts.
  - apply Bool.andb_true_iff in H as [H _]. rewrite forallb_forall in H. rewrite Forall_forall in *. intros p Hp. apply (IH p Hp). apply H, Bool.andb_true_iff in Hp as [_ Hp]. exact Hp.
Qed.
Definition create_text : pystr := Eval vm_compute in match dumps false (Some 2%Z) (JDict create_data) with Ok t => t | Err _ => [] end.
Example C95_case_object : dumps false (Some 2%Z) (JDict create_data) = Ok create_text /\ storable fr_id (JDict create_data) /\
  exists s' o, read_text netloc2 ascii_nd email2 order2 number_of nat expand2 registry2 (loads fr_id) create_text 0%nat = (s', Ok o) /\ same (VObj true Create create) o.
Proof.
  assert (D : dumps false (Some 2%Z) (JDict create_data) = Ok create_text) by (vm_compute; reflexivity). assert (S : storable fr_id (JDict create_data)) by (apply ascii_data_ok; vm_compute; reflexivity).
  split; [exact D|]. split; [exact S|].
  refine (C95_object_round_trip netloc2 ascii_nd email2 order2 nat nat (fun s _ => (s, Err ValueError)) (fun s _ _ _ => (s, Err ValueError)) (fun _ _ => true) (fun _ _ => []) (fun _ => []) number_of as_ns nat expand2 registry2 fr_id
    order2_ok ascii_nd_ok number_int_text _ understands2 false (Some 2%Z) 5%nat Create create 0%nat create_data create_text 0%nat (proj1 C87_case) _ S D); [discriminate|vm_compute; reflexivity].
Qed.
