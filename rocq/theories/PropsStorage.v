(** Property theorems C01-C22 (sizing, routing, Collection, Group). Nothing but statements:
    every proof is a reference to a lemma. The vocabulary of the statements is in SpecMap.v (maps,
    [bound], [removed], [overridden], [ok_step]) and at the head of StorageThms.v. *)
From Coq Require Import Sorting.Sorted Sorting.Permutation Znumtheory String.
From Verif Require Import Base BaseFacts Value BTree Float53 Utils UtilsFacts Collection SpecMap
  CollectionFacts Group RoutingFacts GroupFacts GroupCapFacts GroupIterFacts GroupValFacts GroupNewFacts StorageThms.
Open Scope Z_scope.
Open Scope list_scope.

(** ** C01 *)
Theorem C01_number_of_collections : forall cap mcs,
  1 <= cap < 2 ^ 53 -> 1 <= mcs <= 2 ^ 53 -> cap <= mcs * (2 ^ 52 - 47) ->
  exists n, number_of_collections cap mcs = Ok n
    /\ 1 <= n /\ cap <= n * mcs /\ (forall d, 1 < d < n -> ~ (d | n)) /\ (2 <= n -> prime n)
    /\ forall w, 0 <= w < n -> cap <= w * mcs -> exists d, 1 < d < w /\ (d | w).
Proof. exact C01_lemma. Qed.
Print Assumptions C01_number_of_collections.
Example C01_case : number_of_collections 100000 5000 = Ok 23.
Proof. vm_compute. reflexivity. Qed.

(** ** C02 *)
Theorem C02_is_prime : forall n, 0 <= n < 2 ^ 52 ->
  exists b, is_prime n = Ok b /\ (b = true <-> forall d, 1 < d < n -> ~ (d | n)) /\ (2 <= n -> (b = true <-> prime n)).
Proof. exact C02_lemma. Qed.
Print Assumptions C02_is_prime.
Example C02_case : is_prime 7921 = Ok false.
Proof. vm_compute. reflexivity. Qed.

(** ** C03 *)
Theorem C03_next_number_of_collections : forall cur mcs,
  1 <= cur <= 2 ^ 51 -> 1 <= mcs <= 2 ^ 53 -> 2 * cur <= mcs * (2 ^ 52 - 47) ->
  exists n, next_number_of_collections cur mcs = Ok n
    /\ 3 * cur <= 2 * (n * mcs) /\ (forall d, 1 < d < n -> ~ (d | n))
    /\ forall w, 0 <= w < n -> 3 * cur <= 2 * (w * mcs) -> exists d, 1 < d < w /\ (d | w).
Proof. exact C03_lemma. Qed.
Print Assumptions C03_next_number_of_collections.
Example C03_case : next_number_of_collections 115000 5000 = Ok 37.
Proof. vm_compute. auto. Qed.

(** ** C04 *)
Theorem C04_route : forall k n, (0 < n)%nat -> encodable k ->
  exists bs, encode k = Ok bs /\ utf8_decode bs = Some k /\
    get_group_index k n = Ok (N.to_nat (N.modulo (big_endian bs) (N.of_nat n))) /\
    (N.to_nat (N.modulo (big_endian bs) (N.of_nat n)) < n)%nat.
Proof. exact route_value. Qed.
Print Assumptions C04_route.
Theorem C04_keyed_calls_touch_one_collection : forall (g : group) o k i,
  keyed o k -> get_group_index k (length g) = Ok i ->
  forall j, j <> i -> nth_error (fst (g_step g o)) j = nth_error g j.
Proof. exact keyed_local. Qed.
Print Assumptions C04_keyed_calls_touch_one_collection.
Theorem C04_update_touches_routed_collections_only : forall d (g : group) j,
  (forall kv, In kv d -> get_group_index (fst kv) (length g) <> Ok j) ->
  nth_error (fst (g_step g (Update d))) j = nth_error g j.
Proof. exact update_local. Qed.
Print Assumptions C04_update_touches_routed_collections_only.
Theorem C04_reads_look_at_one_collection : forall (g : group) k d i c,
  get_group_index k (length g) = Ok i -> nth_error g i = Some c ->
  g_get k d g = Ok (c_get k d c) /\ g_has_key k g = Ok (c_has_key k c).
Proof. exact reads_local. Qed.
Print Assumptions C04_reads_look_at_one_collection.
Theorem C04_unencodable_id : forall (g : group) k v d, ~ encodable k ->
  g_get k d g = Err UnicodeEncodeError /\ g_has_key k g = Err UnicodeEncodeError /\
  g_insert k v g = (g, Err UnicodeEncodeError) /\ g_pop k d g = (g, Err UnicodeEncodeError) /\
  g_setdefault k v g = (g, Err UnicodeEncodeError).
Proof. exact g_unencodable. Qed.
Print Assumptions C04_unencodable_id.
Example C04_case : encodable (py "https://example.org/1") /\
  get_group_index (py "https://example.org/1") 23 = Ok 2%nat /\
  get_group_index [233%N; 8364%N; 128512%N] 7 = Ok 6%nat /\ ~ encodable [55296%N].
Proof.
  split; [unfold encodable, encodable_char; repeat constructor; vm_compute; intuition congruence|].
  split; [vm_compute; reflexivity|]. split; [vm_compute; reflexivity|].
  intros H. inversion H as [|? ? [_ H'] _]; subst. apply H'. vm_compute. split; discriminate.
Qed.

(** ** C05 *)
Theorem C05_prime_reaches_every_collection : forall n i, prime (Z.of_nat n) -> (i < n)%nat ->
  exists l : list bool, get_group_index (map (fun b : bool => if b then 98%N else 97%N) l) n = Ok i.
Proof. exact reach_prime. Qed.
Print Assumptions C05_prime_reaches_every_collection.
Theorem C05_odd_reaches_every_collection : forall n i, Nat.Odd n -> (i < n)%nat ->
  exists l : list bool, get_group_index (map (fun b : bool => if b then 98%N else 97%N) l) n = Ok i.
Proof. exact reach_odd. Qed.
Print Assumptions C05_odd_reaches_every_collection.
Theorem C05_256_leaves_collections_unreachable : forall id i, get_group_index id 256 = Ok i -> (i < 192)%nat.
Proof. exact index_256. Qed.
Print Assumptions C05_256_leaves_collections_unreachable.
Example C05_case : get_group_index (py "aab") 3 = Ok 1%nat /\ get_group_index (py "ab") 3 = Ok 0%nat /\
  get_group_index (py "abb") 3 = Ok 2%nat.
Proof. vm_compute. auto. Qed.

(** ** C06 *)
Theorem C06_collection_is_a_map : forall c o, c_reachable c -> wf_op o ->
  (exists e, snd (c_step c o) = ORaise e /\ c_raises c (c_abs c) o e /\ fst (c_step c o) = c)
  \/ ((forall e, ~ c_raises c (c_abs c) o e) /\
      ok_step (c_abs c) o (c_abs (fst (c_step c o))) (snd (c_step c o))).
Proof. intros c o R. apply c_step_refines. exact (c_reachable_wf R). Qed.
Print Assumptions C06_collection_is_a_map.
Theorem C06_collection_reads_the_map : forall c, c_reachable c ->
  (forall k d, c_get k d c = match c_abs c k with Some v => v | None => d end)
  /\ (forall k, c_has_key k c = true <-> c_abs c k <> None)
  /\ (forall k, In k (c_keys c) <-> c_abs c k <> None)
  /\ (forall k v, In (k, v) (c_items c) <-> c_abs c k = Some v)
  /\ NoDup (c_keys c) /\ c_keys c = map fst (c_items c) /\ c_values c = map snd (c_items c)
  /\ has_size (c_abs c) (c_size c).
Proof. intros c R. apply c_observers. exact (c_reachable_wf R). Qed.
Print Assumptions C06_collection_reads_the_map.
Theorem C06_histories : forall c o, c_reachable c -> wf_op o -> c_reachable (fst (c_step c o)).
Proof. exact c_reachable_step. Qed.
Print Assumptions C06_histories.
Definition ex_ops : list mop :=
  [Insert (py "b") (VInt 1); Update [(py "a", VInt 2); (py "c", VStr (py "x"))]; Insert (py "a") (VInt 9);
   Pop (py "b") VNone; Setdefault (py "d") (VBool true)].
Example C06_case : c_reachable (c_run ex_ops (new_collection 7 (Some 3) false)) /\
  c_items (c_run ex_ops (new_collection 7 (Some 3) false)) =
    [(py "a", VInt 2); (py "c", VStr (py "x")); (py "d", VBool true)] /\
  snd (c_step (c_run ex_ops (new_collection 7 (Some 3) false)) (Insert (py "a") (VInt 5))) = OInt 0.
Proof.
  split; [|vm_compute; auto]. exists 7%N, (Some 3), false, ex_ops. split; [|reflexivity].
  unfold ex_ops. repeat constructor; simpl; intuition discriminate.
Qed.

(** ** C07 *)
Theorem C07_strict_capacity : forall u m ops, 1 <= m -> checked ops ->
  c_size (c_run ops (new_collection u (Some m) true)) <= m.
Proof. exact C07_lemma. Qed.
Print Assumptions C07_strict_capacity.
Theorem C07_refusal_changes_nothing : forall c o e, c_reachable c -> wf_op o ->
  snd (c_step c o) = ORaise e -> fst (c_step c o) = c.
Proof. exact c_raise_unchanged. Qed.
Print Assumptions C07_refusal_changes_nothing.
Definition ex_full : list mop := [Insert (py "b") (VInt 1); Update [(py "a", VInt 2)]; Insert (py "z") (VInt 9)].
Theorem C07_setdefault_breaks_capacity_refuted :
  exists ops, Forall wf_op ops /\ 1 < c_size (c_run ops (new_collection 0 (Some 1) true)).
Proof. exists [Setdefault (py "a") VNone; Setdefault (py "b") VNone]. split; [repeat constructor|vm_compute; reflexivity]. Qed.
Print Assumptions C07_setdefault_breaks_capacity_refuted.
Example C07_case : checked ex_full /\ c_size (c_run ex_full (new_collection 0 (Some 2) true)) = 2 /\
  snd (c_step (c_run ex_full (new_collection 0 (Some 2) true)) (Insert (py "q") VNone)) = ORaise CollectionCapacityError.
Proof. split; [split; repeat constructor; simpl; intuition discriminate|vm_compute; auto]. Qed.

(** ** C08 *)
Theorem C08_full_strict_insert : forall c k v,
  (c_strict c = true /\ c_max c <= c_size c -> c_step c (Insert k v) = (c, ORaise CollectionCapacityError)) /\
  (~ (c_strict c = true /\ c_max c <= c_size c) -> forall e, snd (c_step c (Insert k v)) <> ORaise e).
Proof. exact C08_lemma. Qed.
Print Assumptions C08_full_strict_insert.
Example C08_case : let c := c_run ex_full (new_collection 0 (Some 2) true) in
  c_strict c = true /\ c_max c <= c_size c /\ c_has_key (py "a") c = true /\
  snd (c_step c (Insert (py "a") (VInt 2))) = ORaise CollectionCapacityError.
Proof. vm_compute. intuition discriminate. Qed.

(** ** C09 *)
Theorem C09_range_iteration : forall c lo hi, c_reachable c ->
  (forall k v, In (k, v) (c_iteritems lo hi c) <-> c_abs c k = Some v /\ above lo k /\ below hi k) /\
  StronglySorted slt (map fst (c_iteritems lo hi c)) /\
  c_iterkeys lo hi c = map fst (c_iteritems lo hi c) /\ c_itervalues lo hi c = map snd (c_iteritems lo hi c).
Proof. exact C09_lemma. Qed.
Print Assumptions C09_range_iteration.
Example C09_case : let c := c_run ex_ops (new_collection 7 (Some 3) false) in
  c_iterkeys (Some (py "b")) (Some (py "d")) c = [py "c"; py "d"] /\ c_iterkeys (Some (py "c")) (Some (py "a")) c = [].
Proof. vm_compute. auto. Qed.

(** ** C10 *)
Theorem C10_min_max_key : forall c lo hi, c_reachable c ->
  match c_minkey lo c with
  | Ok k => c_abs c k <> None /\ above lo k /\ forall j, c_abs c j <> None -> above lo j -> sle k j
  | Err e => e = ValueError /\ forall j, c_abs c j <> None -> ~ above lo j
  end /\
  match c_maxkey hi c with
  | Ok k => c_abs c k <> None /\ below hi k /\ forall j, c_abs c j <> None -> below hi j -> sle j k
  | Err e => e = ValueError /\ forall j, c_abs c j <> None -> ~ below hi j
  end.
Proof. exact C10_lemma. Qed.
Print Assumptions C10_min_max_key.
Example C10_case : let c := c_run ex_ops (new_collection 7 (Some 3) false) in
  c_minkey (Some (py "b")) c = Ok (py "c") /\ c_maxkey (Some (py "cc")) c = Ok (py "c") /\ c_maxkey (Some (py "A")) c = Err ValueError.
Proof. vm_compute. auto. Qed.

(** ** C11 *)
Theorem C11_pop : forall c k dflt, c_reachable c ->
  (forall v, c_abs c k = Some v -> snd (c_step c (Pop k dflt)) = OVal v /\ removed (c_abs c) k (c_abs (fst (c_step c (Pop k dflt))))) /\
  (c_abs c k = None -> dflt <> VNone -> c_step c (Pop k dflt) = (c, OVal dflt)) /\
  (c_abs c k = None -> dflt = VNone -> c_step c (Pop k dflt) = (c, ORaise KeyError)) /\
  ((forall j, c_abs c j = None) -> c_step c Popitem = (c, ORaise KeyError)) /\
  ((exists j, c_abs c j <> None) -> exists m v, snd (c_step c Popitem) = OPair m v /\ c_abs c m = Some v /\ least_key (c_abs c) m /\
     removed (c_abs c) m (c_abs (fst (c_step c Popitem)))).
Proof. exact C11_lemma. Qed.
Print Assumptions C11_pop.
Example C11_case : let c := c_run ex_ops (new_collection 7 (Some 3) false) in
  snd (c_step c (Pop (py "c") VNone)) = OVal (VStr (py "x")) /\ snd (c_step c (Pop (py "b") (VInt 0))) = OVal (VInt 0) /\
  snd (c_step c (Pop (py "b") VNone)) = ORaise KeyError /\ snd (c_step c Popitem) = OPair (py "a") (VInt 2).
Proof. vm_compute. auto. Qed.

(** ** C12 *)
Theorem C12_status_thresholds : forall size mx, 0 <= size <= 2 ^ 40 -> 1 <= mx <= 2 ^ 40 ->
  exists s, status_of size mx = Ok s /\ In s [0; 60; 70; 80; 90] /\
    (forall L, In L [60; 70; 80; 90] -> (L <= s <-> (L - 1) * mx < 100 * size)).
Proof. exact status_spec. Qed.
Print Assumptions C12_status_thresholds.
Theorem C12_status_monotone : forall s1 s2 mx a b, 0 <= s1 <= s2 -> s2 <= 2 ^ 40 -> 1 <= mx <= 2 ^ 40 ->
  status_of s1 mx = Ok a -> status_of s2 mx = Ok b -> a <= b.
Proof. exact status_mono. Qed.
Print Assumptions C12_status_monotone.
Example C12_case : status_of 2950 5000 = Ok 0 /\ status_of 2951 5000 = Ok 60 /\ status_of 4451 5000 = Ok 90.
Proof.
  assert (B : 2 ^ 40 = 1099511627776) by reflexivity.
  assert (G : forall size mx s, 0 <= size <= 2 ^ 40 -> 1 <= mx <= 2 ^ 40 -> In s [0; 60; 70; 80; 90] ->
     (forall L, In L [60; 70; 80; 90] -> (L <= s <-> (L - 1) * mx < 100 * size)) -> status_of size mx = Ok s).
  { intros size mx s H1 H2 I1 H3. destruct (C12_status_thresholds size mx H1 H2) as (t & -> & I2 & H4). f_equal.
    pose proof (H3 60) as A1. pose proof (H3 70) as A2. pose proof (H3 80) as A3. pose proof (H3 90) as A4.
    pose proof (H4 60) as B1. pose proof (H4 70) as B2. pose proof (H4 80) as B3. pose proof (H4 90) as B4.
    clear H3 H4. cbn [In] in *. intuition lia. }
  split; [|split]; apply G; try lia; try (cbn [In]; tauto); cbn [In]; intuition (subst; lia).
Qed.

(** ** C13 *)
Theorem C13_group_is_a_map : forall g o, g_reachable g -> wf_op o ->
  g_reachable (fst (g_step g o)) /\ g_outcome g o (fst (g_step g o)) (snd (g_step g o)).
Proof. exact C13_step. Qed.
Print Assumptions C13_group_is_a_map.
Theorem C13_group_reads_the_map : forall g k dflt, g_reachable g -> encodable k ->
  g_get k dflt g = Ok (match g_abs g k with Some v => v | None => dflt end) /\
  g_has_key k g = Ok (match g_abs g k with Some _ => true | None => false end).
Proof. exact C13_observers. Qed.
Print Assumptions C13_group_reads_the_map.
Theorem C13_group_lists_each_key_once : forall g, g_reachable g ->
  NoDup (g_keys g) /\ (forall k, In k (g_keys g) <-> g_abs g k <> None) /\
  (forall k v, In (k, v) (g_items g) <-> g_abs g k = Some v) /\
  g_keys g = map fst (g_items g) /\ g_values g = map snd (g_items g) /\ has_size (g_abs g) (g_size g).
Proof. exact C13_listing. Qed.
Print Assumptions C13_group_lists_each_key_once.
(** three collections of the given sizes, empty *)
Definition ex_g (strict : bool) (a b c : Z) : group :=
  [new_collection 0 (Some a) strict; new_collection 1 (Some b) strict; new_collection 2 (Some c) strict].
Example C13_case : g_reachable (g_run ex_ops (ex_g false 2 2 2)) /\
  g_keys (g_run ex_ops (ex_g false 2 2 2)) = [py "c"; py "a"; py "d"] /\ g_size (g_run ex_ops (ex_g false 2 2 2)) = 3.
Proof.
  split; [|vm_compute; auto]. exists (ex_g false 2 2 2), ex_ops. split; [repeat constructor|]. split; [simpl; lia|]. split; [|reflexivity].
  unfold ex_ops. repeat constructor; simpl; intuition discriminate.
Qed.

(** ** C14 *)
Theorem C14_strict_group_capacity : forall g0 ops, fresh_strict g0 -> checked ops -> let g := g_run ops g0 in
  g_size g <= g_max g /\ g_max g = g_max g0 /\ Forall (fun c => c_strict c = true /\ c_size c <= c_max c) g.
Proof. exact C14_lemma. Qed.
Print Assumptions C14_strict_group_capacity.
Theorem C14_full_group_refuses_new_key : forall g k v,
  g_reachable g -> g_strict g = true -> g_max g <= g_size g -> encodable k -> g_abs g k = None ->
  g_step g (Insert k v) = (g, ORaise GroupCapacityError).
Proof. exact C14_full. Qed.
Print Assumptions C14_full_group_refuses_new_key.
Definition ex_fill : list mop := [Insert (py "a") (VInt 1); Insert (py "b") (VInt 2); Insert (py "c") (VInt 3); Insert (py "d") (VInt 4)].
Example C14_case : fresh_strict (ex_g true 1 1 1) /\ checked ex_fill /\
  g_size (g_run ex_fill (ex_g true 1 1 1)) = 3 /\ g_max (g_run ex_fill (ex_g true 1 1 1)) = 3 /\
  snd (g_step (g_run ex_fill (ex_g true 1 1 1)) (Insert (py "d") (VInt 4))) = ORaise GroupCapacityError.
Proof.
  split. { split; [repeat constructor|]. split; [simpl; lia|]. repeat constructor; simpl; lia. }
  split; [split; repeat constructor|vm_compute; auto].
Qed.

(** ** C15 *)
Theorem C15_strict_insert_iff_room : forall g0 ops k v,
  fresh_strict g0 -> checked ops -> encodable k -> let g := g_run ops g0 in
  exists i c, get_group_index k (length g) = Ok i /\ nth_error g i = Some c /\
    ((exists z, snd (g_step g (Insert k v)) = OInt z) <-> c_size c < c_max c) /\
    ((exists e, snd (g_step g (Insert k v)) = ORaise e) -> fst (g_step g (Insert k v)) = g).
Proof. exact C15_lemma. Qed.
Print Assumptions C15_strict_insert_iff_room.
Theorem C15_free_space_yet_refused_refuted :
  exists g0 ops k v, fresh_strict g0 /\ checked ops /\ let g := g_run ops g0 in
    g_size g < g_max g /\ g_abs g k = None /\ snd (g_step g (Insert k v)) = ORaise CollectionCapacityError.
Proof.
  exists (ex_g true 1 1 1), [Insert (py "a") (VInt 1)], (py "d"), (VInt 4).
  split. { split; [repeat constructor|]. split; [simpl; lia|]. repeat constructor; simpl; lia. }
  split; [split; repeat constructor|vm_compute; auto].
Qed.
Print Assumptions C15_free_space_yet_refused_refuted.

(** ** C16 *)
Theorem C16_update_applies_all : forall g d,
  g_reachable g -> NoDup (map fst d) -> Forall (fun kv => encodable (fst kv)) d ->
  (forall n f, g_strict g = true -> has_size (g_abs g) n -> fresh_keys (g_abs g) d f -> n + f <= g_max g) -> room_for d g ->
  snd (g_step g (Update d)) = ONone /\ overridden (g_abs g) d (g_abs (fst (g_step g (Update d)))).
Proof. exact C16_ok. Qed.
Print Assumptions C16_update_applies_all.
Theorem C16_group_capacity_error_changes_nothing : forall g d,
  g_reachable g -> NoDup (map fst d) -> snd (g_step g (Update d)) = ORaise GroupCapacityError ->
  fst (g_step g (Update d)) = g.
Proof. exact C16_group_full. Qed.
Print Assumptions C16_group_capacity_error_changes_nothing.
Theorem C16_collection_overflow_applies_a_prefix : forall g d,
  g_reachable g -> NoDup (map fst d) -> snd (g_step g (Update d)) = ORaise CollectionCapacityError ->
  exists i0 c0, nth_error g i0 = Some c0 /\ c_strict c0 = true /\
    (exists f, fresh_keys (c_abs c0) (share d (length g) i0) f /\ c_max c0 < c_size c0 + f) /\
    overridden_upto (length g) i0 (g_abs g) d (g_abs (fst (g_step g (Update d)))).
Proof. exact C16_partial_application. Qed.
Print Assumptions C16_collection_overflow_applies_a_prefix.
Theorem C16_all_or_nothing_refuted :
  exists g d k v, g_reachable g /\ NoDup (map fst d) /\ snd (g_step g (Update d)) = ORaise CollectionCapacityError /\
    g_abs g k = None /\ g_abs (fst (g_step g (Update d))) k = Some v.
Proof.
  exists (g_run [] (ex_g true 1 1 1)), [(py "c", VInt 3); (py "a", VInt 1); (py "d", VInt 4)], (py "c"), (VInt 3).
  split. { exists (ex_g true 1 1 1), []. split; [repeat constructor|]. split; [simpl; lia|]. split; [constructor|reflexivity]. }
  split; [repeat constructor; simpl; intuition discriminate|vm_compute; auto].
Qed.
Print Assumptions C16_all_or_nothing_refuted.
Example C16_case : let d := [(py "c", VInt 3); (py "a", VInt 1)] in
  room_for d (ex_g true 1 1 1) /\ snd (g_step (ex_g true 1 1 1) (Update d)) = ONone.
Proof.
  split; [|vm_compute; reflexivity]. intros i c H _. destruct i as [|[|[|i]]]; simpl in H; try (injection H as <-); try (destruct i; discriminate);
  eexists; (split; [unfold fresh_keys; reflexivity|vm_compute; discriminate]).
Qed.

(** ** C17 *)
Theorem C17_iterkeys : forall lo hi g, g_reachable g ->
  (lone_empty_id lo hi g -> g_iterkeys lo hi g = ([], None)) /\
  (~ lone_empty_id lo hi g -> exists l, g_iterkeys lo hi g = (l, None) /\ StronglySorted slt l /\
     forall k, In k l <-> g_abs g k <> None /\ above lo k /\ below hi k).
Proof. intros lo hi g R. exact (g_iterkeys_spec lo hi g (proj1 (g_reachable_wf R)) (proj2 (g_reachable_wf R))). Qed.
Print Assumptions C17_iterkeys.
Theorem C17_iteritems : forall lo hi g, g_reachable g ->
  (lone_empty_id lo hi g -> g_iteritems lo hi g = ([], None)) /\
  (~ lone_empty_id lo hi g -> exists l, g_iteritems lo hi g = (l, None) /\ StronglySorted slt (map fst l) /\
     forall k v, In (k, v) l <-> g_abs g k = Some v /\ above lo k /\ below hi k).
Proof. intros lo hi g R. exact (g_iteritems_spec lo hi g (proj1 (g_reachable_wf R)) (proj2 (g_reachable_wf R))). Qed.
Print Assumptions C17_iteritems.
Theorem C17_empty_id_hides_everything_refuted :
  exists ops, Forall wf_op ops /\ let g := g_run ops (ex_g false 5 5 5) in
    g_iterkeys None None g = ([], None) /\ g_abs g (py "c") = Some (VInt 1).
Proof. exists [Insert [] (VInt 0); Insert (py "c") (VInt 1)]. split; [repeat constructor|vm_compute; auto]. Qed.
Print Assumptions C17_empty_id_hides_everything_refuted.
Example C17_case : let g := g_run ex_ops (ex_g false 2 2 2) in ~ lone_empty_id None None g /\
  fst (g_iterkeys None None g) = [py "a"; py "c"; py "d"] /\ fst (g_iterkeys (Some (py "b")) None g) = [py "c"; py "d"].
Proof. split; [|vm_compute; auto]. intros [[H _] _]. apply H. vm_compute. reflexivity. Qed.

(** ** C18 *)
Theorem C18_itervalues : forall g lo hi, g_reachable g ->
  (forall k j v w, g_abs g k = Some v -> g_abs g j = Some w -> above lo k -> below hi k -> above lo j -> below hi j -> comparable v w) ->
  (forall k v, g_abs g k = Some v -> above lo k -> below hi k -> truthy v = true) ->
  exists l items, g_itervalues lo hi g = (l, None) /\ Permutation (map snd items) l /\ NoDup (map fst items) /\
    forall k v, In (k, v) items <-> g_abs g k = Some v /\ above lo k /\ below hi k.
Proof. exact C18_lemma. Qed.
Print Assumptions C18_itervalues.
Theorem C18_falsy_values_are_lost_refuted :
  exists ops, Forall wf_op ops /\ let g := g_run ops (ex_g false 5 5 5) in
    g_itervalues None None g = ([], None) /\ In (VInt 5) (g_values g).
Proof. exists [Insert (py "a") (VInt 0); Insert (py "d") (VInt 5)]. split; [repeat constructor|vm_compute; auto]. Qed.
Print Assumptions C18_falsy_values_are_lost_refuted.
Theorem C18_unordered_objects_raise_refuted :
  exists ops, Forall wf_op ops /\ let g := g_run ops (ex_g false 5 5 5) in
    g_itervalues None None g = ([], Some TypeError) /\ Forall (fun v => truthy v = true) (g_values g).
Proof.
  exists [Insert (py "a") (VObj 1 true); Insert (py "b") (VObj 2 true)]. split; [repeat constructor|].
  vm_compute. split; [reflexivity|repeat constructor].
Qed.
Print Assumptions C18_unordered_objects_raise_refuted.
Example C18_case : fst (g_itervalues None None (g_run ex_fill (ex_g false 2 2 2))) = [VInt 1; VInt 2; VInt 3; VInt 4].
Proof. vm_compute. reflexivity. Qed.

(** ** C19 *)
Theorem C19_popitem_least : forall g, g_reachable g ->
  (Forall (fun c => c_size c <> 0) g -> exists k v, snd (g_step g Popitem) = OPair k v /\ g_abs g k = Some v /\
     least_key (g_abs g) k /\ removed (g_abs g) k (g_abs (fst (g_step g Popitem)))) /\
  (Exists (fun c => c_size c = 0) g -> g_step g Popitem = (g, ORaise ValueError)).
Proof. exact C19_popitem. Qed.
Print Assumptions C19_popitem_least.
Theorem C19_min_max_key : forall g lo hi, g_reachable g ->
  (Forall (fun c => exists j, c_abs c j <> None /\ above lo j) g ->
     exists k, g_minkey lo g = Ok k /\ g_abs g k <> None /\ above lo k /\ forall j, g_abs g j <> None -> above lo j -> sle k j) /\
  (Exists (fun c => forall j, c_abs c j <> None -> ~ above lo j) g -> g_minkey lo g = Err ValueError) /\
  (Forall (fun c => exists j, c_abs c j <> None /\ below hi j) g ->
     exists k, g_maxkey hi g = Ok k /\ g_abs g k <> None /\ below hi k /\ forall j, g_abs g j <> None -> below hi j -> sle j k) /\
  (Exists (fun c => forall j, c_abs c j <> None -> ~ below hi j) g -> g_maxkey hi g = Err ValueError).
Proof. exact C19_keys. Qed.
Print Assumptions C19_min_max_key.
Theorem C19_nonempty_group_raises_refuted :
  exists ops, Forall wf_op ops /\ let g := g_run ops (ex_g false 5 5 5) in
    g_size g = 2 /\ snd (g_step g Popitem) = ORaise ValueError /\ g_minkey None g = Err ValueError.
Proof. exists [Insert (py "a") (VInt 1); Insert (py "b") (VInt 5)]. split; [repeat constructor|vm_compute; auto]. Qed.
Print Assumptions C19_nonempty_group_raises_refuted.
Example C19_case : let g := g_run ex_fill (ex_g false 2 2 2) in
  Forall (fun c => c_size c <> 0) g /\ snd (g_step g Popitem) = OPair (py "a") (VInt 1) /\ g_maxkey None g = Ok (py "d").
Proof. split; [vm_compute; repeat constructor; discriminate|vm_compute; auto]. Qed.

(** ** C20 *)
Theorem C20_byvalue : forall mn g, g_reachable g ->
  (forall k j v w, g_abs g k = Some v -> g_abs g j = Some w -> comparable v w) ->
  (mn = VNone \/ forall k v, g_abs g k = Some v -> comparable v mn) ->
  exists l, g_byvalue mn g = Ok l /\ StronglySorted pgt l /\ NoDup l /\
    forall k v, In (v, k) l <-> g_abs g k = Some v /\ at_least mn v.
Proof. intros mn g R. exact (g_byvalue_spec mn g (proj1 (g_reachable_wf R))). Qed.
Print Assumptions C20_byvalue.
(** what it raises is a TypeError, and it does raise it when a value cannot be compared with the bound or, without a bound, when two values cannot be compared with each other (equal values need not be compared) *)
Theorem C20_incomparable : forall mn g, g_reachable g ->
  (forall e, g_byvalue mn g = Err e -> e = TypeError) /\
  ((exists k v, g_abs g k = Some v /\ v <> VNone /\ mn <> VNone /\ val_eqb v mn = false /\ ~ comparable v mn) \/
   (mn = VNone /\ exists k j v w, g_abs g k = Some v /\ g_abs g j = Some w /\ val_eqb v w = false /\ ~ comparable v w) -> g_byvalue mn g = Err TypeError).
Proof. intros mn g R. split; [exact (byvalue_error mn g)|exact (byvalue_raises mn g (proj1 (g_reachable_wf R)))]. Qed.
Print Assumptions C20_incomparable.
Example C20_case : g_byvalue (VInt 2) (g_run ex_fill (ex_g false 2 2 2)) = Ok [(VInt 4, py "d"); (VInt 3, py "c"); (VInt 2, py "b")].
Proof. vm_compute. reflexivity. Qed.

Example C20_incomparable_case : let g := g_run (ex_fill ++ [Insert (py "e") (VStr (py "x"))]) (ex_g false 2 2 2) in
  g_abs g (py "a") = Some (VInt 1) /\ g_abs g (py "e") = Some (VStr (py "x")) /\ val_eqb (VInt 1) (VStr (py "x")) = false /\ val_compare (VInt 1) (VStr (py "x")) = None /\ g_byvalue VNone g = Err TypeError /\ g_byvalue (VInt 2) g = Err TypeError.
Proof. vm_compute. auto 10. Qed.

(** ** C21 *)
Theorem C21_group_new : forall u0 n mcs strict, 0 < n -> 0 < mcs ->
  exists g, group_new u0 (Some n) mcs strict [] = (Ok g, []) /\ plain_group g (repeat mcs (Z.to_nat n)).
Proof. exact group_new_plain. Qed.
Print Assumptions C21_group_new.
Theorem C21_group_new_rejects : forall u0 size mcs strict, size = None \/ size = Some 0 \/ mcs <= 0 ->
  group_new u0 size mcs strict [] = (Err ValueError, []).
Proof. exact group_new_bad. Qed.
Print Assumptions C21_group_new_rejects.
Theorem C21_group_new_custom : forall u0 size mcs strict custom mx,
  custom <> [] -> NoDup (map fst custom) -> (forall k v, In (k, v) custom -> exists z, k = CInt z /\ 0 <= z) ->
  greatest_key custom mx ->
  let s := eff_size size mx in
  let n := Z.max s (mx + 1) in
  (s < mx -> group_new u0 size mcs strict custom = (Err KeyError, custom)) /\
  (mx <= s -> (exists i v, 0 <= i < n /\ custom_at custom mcs i v /\ v <= 0) ->
      fst (group_new u0 size mcs strict custom) = Err ValueError) /\
  (mx <= s -> (forall i v, 0 <= i < n -> custom_at custom mcs i v -> 0 < v) ->
      exists g sizes, fst (group_new u0 size mcs strict custom) = Ok g /\ plain_group g sizes /\
        Z.of_nat (length sizes) = n /\ forall i v, nth_error sizes i = Some v -> custom_at custom mcs (Z.of_nat i) v).
Proof. exact group_new_custom. Qed.
Print Assumptions C21_group_new_custom.
Theorem C21_group_new_nonint_key : forall u0 size mcs strict custom,
  (exists n v, In (COther n, v) custom) -> group_new u0 size mcs strict custom = (Err KeyError, custom).
Proof. exact group_new_nonint. Qed.
Print Assumptions C21_group_new_nonint_key.
Theorem C21_group_new_ignores_strict : forall u0 size mcs strict custom g, fst (group_new u0 size mcs strict custom) = Ok g ->
  Forall (fun c => c_strict c = false) g /\ g_fresh g.
Proof. exact group_new_never_strict. Qed.
Print Assumptions C21_group_new_ignores_strict.
Example C21_case : (exists g, fst (group_new 0 (Some 4) 10 true [(CInt 2, 7); (CInt 0, 3)]) = Ok g /\ map c_max g = [3; 10; 7; 10]) /\
  fst (group_new 0 (Some 1) 10 true [(CInt 2, 7); (CInt 0, 3)]) = Err KeyError /\
  fst (group_new 0 None 10 true [(CInt 2, 0)]) = Err ValueError /\ greatest_key [(CInt 2, 7); (CInt 0, 3)] 2.
Proof.
  split; [eexists; vm_compute; split; reflexivity|]. split; [vm_compute; reflexivity|]. split; [vm_compute; reflexivity|].
  split; [exists 7; simpl; auto|]. simpl. intros z v [H|[H|[]]]; injection H; intros; subst; lia.
Qed.

(** ** C22 *)
Theorem C22_set_strict : forall v g,
  (forall b, v = VBool b -> snd (g_set_strict v g) = Ok tt /\ Forall (fun c => c_strict c = b) (fst (g_set_strict v g))
     /\ map c_tree (fst (g_set_strict v g)) = map c_tree g /\ map c_max (fst (g_set_strict v g)) = map c_max g)
  /\ ((forall b, v <> VBool b) -> g_set_strict v g = (g, Err TypeError)).
Proof. exact g_set_strict_spec. Qed.
Print Assumptions C22_set_strict.
Theorem C22_strict_reads_all : forall g, g_strict g = true <-> Forall (fun c => c_strict c = true) g.
Proof. exact g_strict_iff. Qed.
Print Assumptions C22_strict_reads_all.
Theorem C22_status_is_the_maximum : forall g s, g_status g = Ok s ->
  (exists c, In c g /\ c_status c = Ok s) /\ forall c, In c g -> exists s', c_status c = Ok s' /\ s' <= s.
Proof. exact g_status_spec. Qed.
Print Assumptions C22_status_is_the_maximum.
Theorem C22_sizes_are_sums : forall c g, g_size (c :: g) = c_size c + g_size g /\ g_max (c :: g) = c_max c + g_max g
  /\ g_size [] = 0 /\ g_max [] = 0.
Proof. intros c g. repeat split. Qed.
Print Assumptions C22_sizes_are_sums.
Example C22_case : g_strict (fst (g_set_strict (VBool true) (ex_g false 1 2 3))) = true /\
  g_set_strict (VInt 1) (ex_g false 1 2 3) = (ex_g false 1 2 3, Err TypeError) /\
  g_max (ex_g false 1 2 3) = 6.
Proof. vm_compute. auto. Qed.
