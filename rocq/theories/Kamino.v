(** jsonld/kamino.py [ClassCloner.clone_classes], with the parts of jsonld/base.py it uses *)
From Coq Require Import String.
From Verif Require Import Base Dict PyClass.
Open Scope list_scope.

Section Clone.
Variables P V : Type.
Notation world := (world P V).
(** kamino.py:147-163, 183-185: the property with its getter and setter wrapped; kamino.py:129-135: a wrapped callable *)
Variable wrap_prop : P -> P.
Variable wrap_call : V -> V.
(** kamino.py:100 the reference to the package *)
Variable package_ref : V.

(** base.py:318-330 [PropertyAwareObject.__get_properties__(refresh=True)]: the names, in some order, without duplicates (a set); cached on the class *)
Definition is_prop (a : attr P V) : bool := match a with AProp _ => true | _ => false end.
Fixpoint dedup (l : list pystr) : list pystr := match l with [] => [] | x :: l' => if mem_str x l' then dedup l' else x :: dedup l' end.
Definition property_names (w : world) (c : nat) : list pystr :=
  dedup (flat_map (fun k => map fst (filter (fun x => is_prop (snd x)) (c_attrs (get_cls w k)))) (mro w c)).
Definition get_properties (w : world) (c : nat) : world * list pystr :=
  let names := property_names w c in (set_attr w c (py "__properties__") (ANames names), names).
(** base.py:253-271 [JsonProperty.__get_property_name__()]: cached on the class or an ancestor, else the only property of the class itself *)
Definition get_property_name (w : world) (c : nat) : world * res pystr :=
  match lookup w c (py "__property_name__") with
  | Some (AStr s) => (w, Ok s)
  | Some _ => (w, Err TypeError)                         (* not a name (not reached: only [__get_property_name__] sets it) *)
  | None => match filter (fun x => is_prop (snd x)) (c_attrs (get_cls w c)) with
            | [(name, _)] => (set_attr w c (py "__property_name__") (AStr name), Ok name)
            | _ => (w, Err ValueError)
            end
  end.

(** kamino.py:63-69: the classes in the order of the number of their ancestors among them *)
Definition n_deps (w : world) (classes : list nat) (c : nat) : nat :=
  List.length (filter (fun d => in_mro w c d && negb (Nat.eqb d c)) classes).
Definition sort_by_deps (w : world) (classes : list nat) : list nat :=
  flat_map (fun n => filter (fun c => Nat.eqb (n_deps w classes c) n) classes) (seq 0 (S (List.length classes))).
(** kamino.py:71 the keys of a dict: first occurrences *)
Fixpoint keys_of (seen l : list nat) : list nat :=
  match l with [] => [] | x :: l' => if mem x seen then keys_of seen l' else x :: keys_of (x :: seen) l' end.
(** kamino.py:19-28 [find_parents] (find_children's result is not used) *)
Definition candidates (w : world) (keys : list nat) (c : nat) : list nat := filter (fun i => mem i keys && negb (Nat.eqb c i)) (mro w c).
Definition parents (w : world) (keys : list nat) (c : nat) : list nat :=
  let cs := candidates w keys c in filter (fun x => negb (existsb (fun i => in_mro w i x && negb (Nat.eqb x i)) cs)) cs.
(** kamino.py:81-86: one round, and the loop; [fuel] only bounds the number of rounds of a loop that would not end *)
Definition next_nodes (w : world) (keys ordered : list nat) : list nat :=
  filter (fun n => forallb (fun p => mem p ordered) (parents w keys n) && negb (mem n ordered)) keys.
Fixpoint order_nodes (fuel : nat) (w : world) (keys ordered : list nat) : res (list nat) :=
  if forallb (fun n => mem n ordered) keys then Ok ordered
  else match fuel with O => Err OutOfModel | S f => order_nodes f w keys (ordered ++ next_nodes w keys ordered) end.

(** kamino.py:138-140 *)
Definition wrap_attr (a : attr P V) : attr P V := match a with ACall v => ACall (wrap_call v) | _ => a end.
Definition wrap_callables (d : dict (attr P V)) : dict (attr P V) := map (fun x => (fst x, wrap_attr (snd x))) d.
(** kamino.py:179-186: set the wrapped property on the class itself, for every name that is bound to a property *)
Fixpoint wrap_names (w : world) (c : nat) (props : list (pystr * attr P V)) : world :=
  match props with
  | [] => w
  | (name, AProp p) :: r => wrap_names (set_attr w c name (AProp (wrap_prop p))) c r
  | _ :: r => wrap_names w c r
  end.
Definition get_all (w : world) (c : nat) (names : list pystr) : list (pystr * attr P V) :=
  flat_map (fun n => match lookup w c n with Some a => [(n, a)] | None => [] end) names.
Definition has (w : world) (c : nat) (name : string) : bool := match lookup w c (py name) with Some _ => true | None => false end.
(** kamino.py:142-186 *)
Definition wrap_properties (w : world) (c : nat) : world * res unit :=
  let (w1, names) := if has w c "__get_properties__" then get_properties w c else (w, []) in
  let props1 := get_all w1 c names in
  if has w1 c "__get_property_name__"
  then let (w2, r) := get_property_name w1 c in
       match r with
       | Err e => (w2, Err e)
       | Ok name => match lookup w2 c name with
                    | None => (w2, Err AttributeError)
                    | Some a => (wrap_names w2 c (d_merge props1 [(name, a)]), Ok tt)
                    end
       end
  else (wrap_names w1 c props1, Ok tt).

(** a dict with classes as keys *)
Definition ref := list (nat * nat).
Fixpoint r_get (c : nat) (r : ref) : option nat := match r with [] => None | (k, v) :: r' => if Nat.eqb c k then Some v else r_get c r' end.
Fixpoint filter_some {A} (l : list (option A)) : list A := match l with [] => [] | Some a :: l' => a :: filter_some l' | None :: l' => filter_some l' end.
(** kamino.py:88-100: clone one class *)
Definition clone_class (w : world) (keys : list nat) (done : ref) (c : nat) : world * res nat :=
  let inherits := filter_some (map (fun p => r_get p done) (parents w keys c)) ++ [c] in
  match new_class w (c_name (get_cls w c)) inherits (c_attrs (get_cls w c)) with
  | Err e => (w, Err e)
  | Ok (w1, k) =>
      let k1 := get_cls w1 k in
      let w2 := set_nth k (mkCls (c_name k1) (c_bases k1) (c_mro k1) (wrap_callables (c_attrs k1))) w1 in
      match wrap_properties w2 k with
      | (w3, Err e) => (w3, Err e)
      | (w3, Ok _) => (set_attr w3 k (py "__jsonld_package__") (AOther package_ref), Ok k)
      end
  end.
Fixpoint clone_nodes (w : world) (keys : list nat) (done : ref) (todo : list nat) : world * res ref :=
  match todo with
  | [] => (w, Ok done)
  | c :: r => match clone_class w keys done c with
              | (w1, Err e) => (w1, Err e)
              | (w1, Ok k) => clone_nodes w1 keys (done ++ [(c, k)]) r
              end
  end.
(** kamino.py:50-101. The result is the dict [class_ref] in its order (that of [keys]). *)
Definition clone_classes (w : world) (classes : list nat) : world * res ref :=
  let keys := keys_of [] (sort_by_deps w classes) in
  match order_nodes (List.length keys) w keys [] with
  | Err e => (w, Err e)
  | Ok ordered => match clone_nodes w keys [] ordered with
                  | (w1, Err e) => (w1, Err e)
                  | (w1, Ok done) => (w1, Ok (flat_map (fun c => match r_get c done with Some k => [(c, k)] | None => [] end) keys))
                  end
  end.
End Clone.
