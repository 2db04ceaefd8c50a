(** Several connections to one database (container_connection.py, container.py, transaction.py) and the part of ZODB
    they meet in. ZODB itself (MVCC snapshots, conflict detection, the merging of BTrees) is third-party code: what is
    written here about it is part of the trusted base. *)
From Verif Require Import Base Value BTree Collection Group Container Txn Connection.
Set Implicit Arguments.

(** ** What a commit does in the storage
    A transaction has read everything from the state [b] committed when it began and leaves [m] in memory; meanwhile
    the committed state became [t]. An object changed by one side only is taken from that side; an object changed
    by both is a ConflictError, except for the BTree of a Collection (collection.py:126), whose keys are merged one by
    one. Simplifications: an object is changed when its content differs; stored values are compared exactly; a
    bucket split, which ZODB refuses to merge, is covered by the storage being allowed to refuse any commit below. *)
Definition merge3 {A} (dec : forall x y : A, {x = y} + {x <> y}) (b m t : A) : option A :=
  if dec m b then Some t else if dec t b then Some m else None.

Definition pyval_dec : forall x y : pyval, {x = y} + {x <> y}.
Proof. decide equality; solve [apply Bool.bool_dec | apply Z.eq_dec | apply N.eq_dec | apply (list_eq_dec N.eq_dec)]. Defined.
Definition cell_dec : forall x y : option pyval, {x = y} + {x <> y}.
Proof. decide equality. apply pyval_dec. Defined.

(** one key of a BTree *)
Definition put_cell (key : pystr) (o : option pyval) (t : tree pyval) : tree pyval :=
  match o with Some v => bt_set key v t | None => bt_del key t end.
Definition merge_key (b m : tree pyval) (acc : option (tree pyval)) (key : pystr) : option (tree pyval) :=
  match acc with
  | None => None
  | Some t => if cell_dec (bt_get key m) (bt_get key b) then Some t
              else if cell_dec (bt_get key t) (bt_get key b) then Some (put_cell key (bt_get key m) t)
              else None
  end.
(** the [_p_resolveConflict] of the BTrees package, for every key present before or after *)
Definition merge_tree (b m t : tree pyval) : option (tree pyval) :=
  fold_left (merge_key b m) (bt_keys m ++ filter (fun key => negb (bt_has key m)) (bt_keys b)) (Some t).

(** Objects in the same place of [b], [m] and [t]; at most one side has made new ones *)
Definition merge_lists {A} (f : A -> A -> A -> option A) : list A -> list A -> list A -> option (list A) :=
  fix go bs ms ts :=
    match bs, ms, ts with
    | [], [], _ => Some ts
    | [], _, [] => Some ms
    | b :: bs', m :: ms', t :: ts' =>
        match f b m t, go bs' ms' ts' with Some x, Some l => Some (x :: l) | _, _ => None end
    | _, _, _ => None
    end.
(** a Collection: the flag of its CollectionMeta (collection.py:72-77) and its BTree *)
Definition merge_collection (b m t : collection) : option collection :=
  match merge3 Bool.bool_dec (c_strict b) (c_strict m) (c_strict t), merge_tree (c_tree b) (c_tree m) (c_tree t) with
  | Some s, Some tr => Some (mkC (c_uuid t) (c_max t) s tr)
  | _, _ => None
  end.
Definition merge_group : group -> group -> group -> option group := merge_lists merge_collection.
(** the Container object itself (container.py:187-190): [___groups___] and [___primary___] *)
Definition top_dec : forall x y : list nat * nat, {x = y} + {x <> y}.
Proof. decide equality; [apply Nat.eq_dec|apply (list_eq_dec Nat.eq_dec)]. Defined.
Definition merge (b m t : container) : option container :=
  match merge_lists merge_group (k_heap b) (k_heap m) (k_heap t),
        merge3 top_dec (k_groups b, k_primary b) (k_groups m, k_primary m) (k_groups t, k_primary t) with
  | Some h, Some (gs, p) => Some (mkK h gs p)
  | _, _ => None
  end.

(** ** Connections
    [w_base] is the committed state a connection sees (ZODB takes it at [begin()] and after every commit and abort),
    [w_work] what it has in memory, [w_auto] the autocommit flag of its transaction manager, [w_failed] whether its
    transaction is in its failed state, [w_call] the decorated call in progress, with what it is going to return and
    the time it started. Each connection has its own transaction manager, used by one thread. *)
Record view := mkView {
  w_base : container; w_work : container; w_auto : bool; w_failed : bool; w_call : option (ccmd * res cres * nat) }.
(** a finished autocommitted call: its connection, arguments and outcome, the times of its start and its end *)
Record finished := mkF { f_conn : nat; f_cmd : ccmd; f_res : res cres; f_start : nat; f_end : nat }.
(** the committed state, the connections, the number of steps so far, the finished autocommitted calls (latest first) *)
Record world := mkWorld { o_now : container; o_conn : nat -> view; o_clock : nat; o_log : list finished }.

(** A schedule. [EStart i c] is the call [c] on connection [i] up to where the decorator commits, and [EFinish i ok]
    the rest of it; [ok = false] is a refusal by the storage for a reason of its own. A call that commits nothing
    itself (a read, or any call when autocommit is off) is a single step. [EEnter]/[EExit] begin and end [with conn:],
    [raised] being the exception that leaves the body; [EDirect] is a method of [conn.container]; [EAbort] is
    [conn.transaction_manager.abort()] (also [begin()], or opening the connection); [EAuto] assigns
    [conn.autocommit]. *)
Inductive event :=
| EStart (i : nat) (c : ccmd)
| EFinish (i : nat) (ok : bool)
| EEnter (i : nat)
| EExit (i : nat) (raised : option exn) (ok : bool)
| EDirect (i : nat) (o : kop)
| EAbort (i : nat)
| EAuto (i : nat) (b : bool).

Definition upd (i : nat) (v : view) (f : nat -> view) : nat -> view := fun j => if Nat.eqb j i then v else f j.
(** a connection at the beginning of a transaction *)
Definition fresh (k : container) (auto : bool) : view := mkView k k auto false None.
(** nothing but the clock changes *)
Definition tick (w : world) : world := mkWorld (o_now w) (o_conn w) (S (o_clock w)) (o_log w).
Definition set_view (i : nat) (v : view) (w : world) : world := mkWorld (o_now w) (upd i v (o_conn w)) (S (o_clock w)) (o_log w).
(** the end of an autocommitted call: [now] is the committed state it leaves *)
Definition finish (i : nat) (now : container) (v : view) (c : ccmd) (r : res cres) (start : nat) (w : world) : world :=
  mkWorld now (upd i v (o_conn w)) (S (o_clock w)) (mkF i c r start (o_clock w) :: o_log w).
(** the storage's answer to a commit *)
Definition try_commit (ok : bool) (v : view) (now : container) : option container :=
  if ok then merge (w_base v) (w_work v) now else None.

(** one step; the second component is what the caller gets, if a call or a block ends here. A connection inside a
    call does nothing else. *)
Definition step (w : world) (e : event) : world * option (res cres) :=
  let now := o_now w in
  match e with
  | EStart i c =>                                                       (* transaction.py:70-89, container_connection.py:172-218 *)
      let v := o_conn w i in
      match w_call v with
      | Some _ => (tick w, None)
      | None =>
          if conn_is_read c then (tick w, Some (snd (conn_sem c (w_work v))))
          else if w_auto v then                                         (* transaction.py:53-57: begin() *)
            let (k, r) := conn_sem c now in
            (set_view i (mkView now k false false (Some (c, r, o_clock w))) w, None)
          else if w_failed v then (tick w, Some (Err TransactionFailedError))
          else let (k, r) := conn_sem c (w_work v) in
               (set_view i (mkView (w_base v) k false false None) w, Some r)
      end
  | EFinish i ok =>                                                     (* transaction.py:59-67 *)
      let v := o_conn w i in
      match w_call v with
      | None => (tick w, None)
      | Some (c, Err e, start) => (finish i now (fresh now true) c (Err e) start w, Some (Err e))
      | Some (c, Ok a, start) =>
          match try_commit ok v now with
          | Some n => (finish i n (fresh n true) c (Ok a) start w, Some (Ok a))
          | None => (finish i now (mkView now now false true None) c (Err ConflictError) start w, Some (Err ConflictError))
          end
      end
  | EEnter i =>                                                         (* container_connection.py:240-244 *)
      match w_call (o_conn w i) with
      | Some _ => (tick w, None)
      | None => (set_view i (fresh now false) w, None)
      end
  | EExit i raised ok =>                                                (* container_connection.py:246-254 *)
      let v := o_conn w i in
      match w_call v, raised with
      | Some _, _ => (tick w, None)
      | None, Some e => (set_view i (fresh now true) w, Some (Err e))
      | None, None =>
          if w_failed v then (set_view i (mkView (w_base v) (w_work v) true true None) w, Some (Err TransactionFailedError))
          else match try_commit ok v now with
               | Some n => (mkWorld n (upd i (fresh n true) (o_conn w)) (S (o_clock w)) (o_log w), Some (Ok (RVal VNone)))
               | None => (set_view i (mkView now now true true None) w, Some (Err ConflictError))
               end
      end
  | EDirect i o =>
      let v := o_conn w i in
      match w_call v with
      | Some _ => (tick w, None)
      | None => if w_failed v then (tick w, Some (Err TransactionFailedError))
                else (set_view i (mkView (w_base v) (k_step (w_work v) o) (w_auto v) false None) w, None)
      end
  | EAbort i =>
      let v := o_conn w i in
      match w_call v with
      | Some _ => (tick w, None)
      | None => (set_view i (fresh now (w_auto v)) w, None)
      end
  | EAuto i b =>                                                        (* container_connection.py:138-143 *)
      let v := o_conn w i in
      match w_call v with
      | Some _ => (tick w, None)
      | None => (set_view i (mkView (w_base v) (w_work v) b (w_failed v) None) w, None)
      end
  end.

(** all connections open, nothing started *)
Definition start_world (k : container) : world := mkWorld k (fun _ => fresh k true) 0 [].
Definition run_events (evs : list event) (w : world) : world := fold_left (fun w e => fst (step w e)) evs w.

(** A call all by itself (with autocommit on, no other connection): when it raises, nothing is committed *)
Definition atomically (c : ccmd) (k : container) : container * res cres :=
  match conn_sem c k with
  | (k1, Ok a) => (k1, Ok a)
  | (_, Err e) => (k, Err e)
  end.
(** calls one after the other *)
Fixpoint serial (cs : list ccmd) (k : container) : container * list (res cres) :=
  match cs with
  | [] => (k, [])
  | c :: cs' => let (k1, r) := atomically c k in let (k2, rs) := serial cs' k1 in (k2, r :: rs)
  end.

(** the connection an event belongs to *)
Definition event_conn (e : event) : nat :=
  match e with
  | EStart i _ | EFinish i _ | EEnter i | EExit i _ _ | EDirect i _ | EAbort i | EAuto i _ => i
  end.
(** the calls of connection [i] among the events, and what they make of a state when nobody interferes *)
Definition own_calls (i : nat) (evs : list event) : list ccmd :=
  flat_map (fun e => match e with EStart j c => if Nat.eqb j i then [c] else [] | _ => [] end) evs.
Definition calls_on (cs : list ccmd) (k : container) : container := fold_left (fun k c => fst (conn_sem c k)) cs k.
