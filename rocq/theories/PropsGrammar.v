(** C115: which texts are read, and as what. *)
From Coq Require Import String.
From Verif Require Import Base Dict Intake JsonData JsonText JsonTextSpec JsonTextFacts JsonGrammar JsonGrammarFacts.
Import ListNotations.
Open Scope list_scope.
Open Scope N_scope.

(** a text is read as a value exactly if the grammar says so ... *)
Theorem C115_reads : forall float_repr t v, loads float_repr t = Ok v <-> json_reads float_repr t v.
Proof. exact loads_reads. Qed.
Print Assumptions C115_reads.
(** ... every other text is refused with ValueError (JSONDecodeError is one) ... *)
Theorem C115_refuses : forall float_repr t, (~ exists v, json_reads float_repr t v) <-> loads float_repr t = Err ValueError.
Proof.
  intros fr t. split.
  - intros N. destruct (loads fr t) as [v|e] eqn:E; [elim N; exists v; now apply loads_reads|]. unfold loads in E.
    destruct (match t with c :: _ => c =? 65279 | [] => false end); [congruence|]. destruct (scan fr (3 * length t + 3) (skip t)) as [[v r]|]; [|congruence]. destruct (skip r); congruence.
  - intros E (v & H). apply loads_reads in H. congruence.
Qed.
Print Assumptions C115_refuses.
(** ... and no text has two meanings *)
Theorem C115_one_meaning : forall float_repr t v v', json_reads float_repr t v -> json_reads float_repr t v' -> v = v'.
Proof. intros fr t v v' H H'. apply loads_reads in H, H'. congruence. Qed.
Print Assumptions C115_one_meaning.
(** for the engine: a text that is no JSON raises ValueError before anything is fetched, expanded or constructed; otherwise it is the same as giving the value *)
Theorem C115_engine : forall St Obj expand construct properties registry float_repr t s,
  ((~ exists v, json_reads float_repr t v) -> from_text St Obj expand construct properties registry (loads float_repr) t s = (s, Err ValueError)) /\
  (forall v, json_reads float_repr t v -> from_text St Obj expand construct properties registry (loads float_repr) t s = from_value St Obj expand construct properties registry v s).
Proof.
  intros St Obj ex co pr rg fr t s. unfold from_text. split; [intros N; apply C115_refuses in N; now rewrite N|intros v H; apply loads_reads in H; now rewrite H].
Qed.
Print Assumptions C115_engine.
(** blanks around a text do not matter *)
Theorem C115_blanks : forall float_repr w t w', space w -> space w' -> forall v, loads float_repr t = Ok v -> loads float_repr (w ++ t ++ w') = Ok v.
Proof.
  intros fr w t w' Hw Hw' v E. apply loads_reads in E. apply loads_reads. destruct E as (a & u & b & -> & Ha & H & Hb). exists (w ++ a), u, (b ++ w'). repeat rewrite <- app_assoc. repeat split; auto; apply Forall_app; auto.
Qed.
Print Assumptions C115_blanks.
(** more than JSON is read: NaN and the infinities, and a dict with a key given twice, of which the last value counts *)
Theorem C115_only_json_refuted : forall float_repr,
  loads float_repr (py "NaN") = Ok (PNum (py "nan")) /\ loads float_repr (py "-Infinity") = Ok (PNum (py "-inf")) /\ loads float_repr (py "{""a"":1,""b"":2,""a"":3}") = Ok (PDict [(py "a", PNum (py "3")); (py "b", PNum (py "2"))]).
Proof. intros fr. repeat split; vm_compute; reflexivity. Qed.
Print Assumptions C115_only_json_refuted.
Example C115_case : forall fr, json_reads fr (py " { ""a"" : [ 1 , true,null ] } ") (PDict [(py "a", PIter [PNum (py "1"); PBool true; PNone])]) /\ json_reads fr (py "[-0, ""\u00e9\n""]") (PIter [PNum (py "0"); PStr [233; 10]]) /\
  (~ exists v, json_reads fr (py "[1.]") v) /\ (~ exists v, json_reads fr (py "[1,]") v) /\ (~ exists v, json_reads fr (py "01") v) /\ (~ exists v, json_reads fr (py "{'a':1}") v) /\ (~ exists v, json_reads fr [] v).
Proof. intros fr. rewrite <- !loads_reads, !C115_refuses. repeat split; vm_compute; reflexivity. Qed.
