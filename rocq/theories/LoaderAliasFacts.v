(** Facts about documents shared through the cache of the loader. *)
From Coq Require Import String Lia.
From Verif Require Import Base BaseFacts Dict DictFacts Url DocLoader LoaderAlias.
Open Scope list_scope.
Set Implicit Arguments.

Section Facts.
Variable J : Type.
Variable netloc_ok : pystr -> bool.
Variable json_type : pystr -> bool.
Variable prepend_base : pystr -> pystr -> pystr.
Variable server : nat -> pystr -> res (response J).
Notation doc := (document J).
Notation run := (a_run netloc_ok json_type prepend_base server).
Notation step := (a_step netloc_ok json_type prepend_base server).
(** ** Specification *)
(** the contents of object [r], first [d0], after some operations *)
Fixpoint changed (r : nat) (d0 : doc) (ops : list (aop J)) : doc :=
  match ops with [] => d0 | AChange r' d :: l => changed r (if Nat.eqb r r' then d else d0) l | _ :: l => changed r d0 l end.
(** the document is what the server sent in answer to a request for [url] *)
Definition sent (secure : bool) (url : pystr) (d : doc) : Prop := exists log log', get netloc_ok json_type prepend_base server secure url log = (log', Ok d).

Lemma changed_app r d0 a b : changed r d0 (a ++ b) = changed r (changed r d0 a) b.
Proof. revert d0. induction a as [|[c s u|r' d] a IH]; intro d0; cbn; auto. Qed.
Lemma change_len r (d : doc) (h : list doc) : List.length (change r d h) = List.length h.
Proof. revert r. induction h as [|x h IH]; intros [|r]; cbn; auto. Qed.
Lemma change_nth r (d : doc) (h : list doc) k : nth_error (change r d h) k = match nth_error h k with Some x => Some (if Nat.eqb k r then d else x) | None => None end.
Proof. revert r k. induction h as [|x h IH]; intros [|r] [|k]; cbn; auto. destruct (nth_error h k); reflexivity. Qed.
Lemma run_snoc ops o : run (ops ++ [o]) = let (st, y) := step o (fst (run ops)) in (st, snd (run ops) ++ [y]).
Proof. unfold a_run. now rewrite fold_left_app. Qed.
Lemma run_len ops : List.length (snd (run ops)) = List.length ops.
Proof. induction ops as [|o ops IH] using rev_ind; [reflexivity|]. rewrite run_snoc. destruct (step o (fst (run ops))) as [st y]. cbn. rewrite !app_length, IH. reflexivity. Qed.
Lemma nth_snoc {A} (l : list A) x j y : nth_error (l ++ [x]) j = Some y -> (j < List.length l /\ nth_error l j = Some y) \/ (j = List.length l /\ x = y).
Proof.
  intro E. destruct (Nat.lt_ge_cases j (List.length l)) as [L|L]; [left; split; [exact L|]; now rewrite nth_error_app1 in E|].
  right. rewrite nth_error_app2 in E by exact L. destruct (j - List.length l) as [|k] eqn:K; cbn in E; [injection E as <-; split; [lia|reflexivity]|destruct k; discriminate].
Qed.
Lemma nth_old {A} (l : list A) x j y : nth_error l j = Some y -> nth_error (l ++ [x]) j = Some y.
Proof. intro E. rewrite nth_error_app1; [exact E|]. apply nth_error_Some. congruence. Qed.
Lemma nth_new {A} (l : list A) x : nth_error (l ++ [x]) (List.length l) = Some x.
Proof. rewrite nth_error_app2 by lia. now rewrite Nat.sub_diag. Qed.

(** [g] gives for every object the operation that made it and its first contents *)
Definition traced (ops : list (aop J)) (g : list (nat * doc)) : Prop :=
  let st := fst (run ops) in let rs := snd (run ops) in
  List.length g = List.length (a_heap st) /\
  (forall r i d0, nth_error g r = Some (i, d0) -> exists c s u, nth_error ops i = Some (ALoad J c s u) /\ sent s u d0 /\ nth_error rs i = Some (Some (Ok (r, d0))) /\
      nth_error (a_heap st) r = Some (changed r d0 (skipn (S i) ops)) /\ (if c then d_get u (a_cache st) = Some r else forall u', d_get u' (a_cache st) <> Some r)) /\
  (forall j r d, nth_error rs j = Some (Some (Ok (r, d))) -> exists i d0 c s u s', nth_error g r = Some (i, d0) /\ i <= j /\ nth_error ops i = Some (ALoad J c s u) /\ nth_error ops j = Some (ALoad J c s' u) /\
      (c = false -> i = j) /\ d = changed r d0 (firstn (j - S i) (skipn (S i) ops))) /\
  (forall u r, d_get u (a_cache st) = Some r -> exists i d0 s, nth_error g r = Some (i, d0) /\ nth_error ops i = Some (ALoad J true s u)).
Lemma skipn_snoc {A} n (l : list A) x : n <= List.length l -> skipn n (l ++ [x]) = skipn n l ++ [x].
Proof. intro L. rewrite skipn_app. replace (n - List.length l) with 0 by lia. reflexivity. Qed.
Lemma firstn_snoc {A} n (l : list A) x : n <= List.length l -> firstn n (l ++ [x]) = firstn n l.
Proof. intro L. rewrite firstn_app. replace (n - List.length l) with 0 by lia. cbn. apply app_nil_r. Qed.
Lemma trace ops : exists g, traced ops g.
Proof.
  induction ops as [|o ops [g G]] using rev_ind.
  - exists []. split; [reflexivity|]. split; [intros [|r]; discriminate|]. split; [intros [|j]; discriminate|]. cbn. discriminate.
  - assert (Rl := run_len ops). unfold traced in *. rewrite run_snoc. destruct (run ops) as [st rs]. cbn [fst snd] in *. destruct G as (L & G1 & G2 & G3).
    assert (Early : forall r i d0, nth_error g r = Some (i, d0) -> S i <= List.length ops).
    { intros r i d0 E. destruct (G1 r i d0 E) as (c & s & u & E' & _). assert (X : nth_error ops i <> None) by congruence. apply nth_error_Some in X. lia. }
    assert (Old2 : forall j r d, nth_error rs j = Some (Some (Ok (r, d))) -> exists i d0 c s u s', nth_error g r = Some (i, d0) /\ i <= j /\ nth_error (ops ++ [o]) i = Some (ALoad J c s u) /\ nth_error (ops ++ [o]) j = Some (ALoad J c s' u) /\
      (c = false -> i = j) /\ d = changed r d0 (firstn (j - S i) (skipn (S i) (ops ++ [o])))).
    { intros j r d E. destruct (G2 j r d E) as (i & d0 & c & s & u & s' & E1 & E2 & E3 & E4 & E5 & E6). exists i, d0, c, s, u, s'. split; [exact E1|]. split; [exact E2|]. split; [now apply nth_old|]. split; [now apply nth_old|]. split; [exact E5|].
      assert (X : nth_error ops j <> None) by congruence. apply nth_error_Some in X. assert (Y := Early r i d0 E1). rewrite skipn_snoc by exact Y. rewrite firstn_snoc; [exact E6|]. rewrite skipn_length. lia. }
    assert (Keep1 : forall st' y, (forall r i d0, nth_error g r = Some (i, d0) -> nth_error (a_heap st') r = match o with AChange r' d => if Nat.eqb r r' then Some d else nth_error (a_heap st) r | _ => nth_error (a_heap st) r end) ->
       (forall u r i d0, nth_error g r = Some (i, d0) -> (d_get u (a_cache st') = Some r <-> d_get u (a_cache st) = Some r)) ->
       forall r i d0, nth_error g r = Some (i, d0) -> exists c s u, nth_error (ops ++ [o]) i = Some (ALoad J c s u) /\ sent s u d0 /\ nth_error (rs ++ [y]) i = Some (Some (Ok (r, d0))) /\
      nth_error (a_heap st') r = Some (changed r d0 (skipn (S i) (ops ++ [o]))) /\ (if c then d_get u (a_cache st') = Some r else forall u', d_get u' (a_cache st') <> Some r)).
    { intros st' y H C r i d0 E. destruct (G1 r i d0 E) as (c & s & u & E1 & E2 & Er & E3 & E4). exists c, s, u. split; [now apply nth_old|]. split; [exact E2|]. split; [now apply nth_old|]. split.
      - rewrite (H r i d0 E), skipn_snoc by now apply (Early r i d0). rewrite changed_app, E3. destruct o as [c' s' u'|r' d]; cbn; [reflexivity|]. now destruct (Nat.eqb r r').
      - destruct c; [now apply (C u r i d0 E)|]. intros u' X. apply (E4 u'). now apply (C u' r i d0 E). }
    destruct o as [c s u|r' d']; cbn [a_step].
    + destruct (if c then d_get u (a_cache st) else None) as [r|] eqn:H.
      * destruct c; [|discriminate]. exists g. cbn [fst snd]. split; [exact L|]. split; [apply Keep1; [auto|tauto]|]. split.
        -- intros j r1 d E. apply nth_snoc in E as [[_ E]|[-> E]]; [now apply Old2|]. destruct (nth_error (a_heap st) r) as [x|] eqn:N; [|discriminate]. injection E as <- <-.
           destruct (G3 u r H) as (i & d0 & s0 & E1 & E2). destruct (G1 r i d0 E1) as (c' & s1 & u1 & E3 & _ & _ & E4 & _). assert (Y := Early r i d0 E1). exists i, d0, true, s0, u, s. split; [exact E1|]. split; [lia|]. split; [now apply nth_old|]. split; [rewrite Rl; apply nth_new|]. split; [discriminate|].
           rewrite skipn_snoc by exact Y. rewrite firstn_snoc by (rewrite skipn_length; lia). rewrite firstn_all2 by (rewrite skipn_length; lia). congruence.
        -- intros u1 r1 E. destruct (G3 u1 r1 E) as (i & d0 & s0 & E1 & E2). exists i, d0, s0. split; [exact E1|now apply nth_old].
      * destruct (get netloc_ok json_type prepend_base server s u (a_log st)) as [log [d|e]] eqn:Eg.
        -- assert (Len : List.length g = List.length (a_heap st)) by exact L. exists (g ++ [(List.length ops, d)]). cbn [fst snd a_heap a_cache].
           assert (New : forall u' r, d_get u' (a_cache st) = Some r -> r < List.length (a_heap st)).
           { intros u' r E. destruct (G3 u' r E) as (i & d0 & s0 & E1 & _). rewrite <- L. apply nth_error_Some. congruence. }
           split; [rewrite !app_length, L; reflexivity|]. split; [|split].
           ++ intros r i d0 E. apply nth_snoc in E as [[Lt E]|[-> E]].
              ** apply (Keep1 (mkA (a_heap st ++ [d]) (if c then d_set u (List.length (a_heap st)) (a_cache st) else a_cache st) log) (Some (Ok (List.length (a_heap st), d)))) with (r := r) (i := i) (d0 := d0); [| |exact E]; cbn [fst snd a_heap a_cache].
                 --- intros r1 i1 d1 E1. rewrite nth_error_app1; [reflexivity|]. rewrite <- L. apply nth_error_Some. congruence.
                 --- intros u' r1 i1 d1 E1. assert (X : r1 < List.length (a_heap st)) by (rewrite <- L; apply nth_error_Some; congruence). destruct c; [|tauto].
                     destruct (str_dec u' u) as [->|N]; [rewrite d_get_set_same; split; [intros [= <-]; lia|congruence]|now rewrite d_get_set_other by congruence].
              ** injection E as <- <-. exists c, s, u. split; [apply nth_new|]. split; [exists (a_log st), log; exact Eg|]. split; [rewrite <- Rl, Len; apply nth_new|]. rewrite Len, nth_new. split; [rewrite skipn_all2 by (rewrite app_length; cbn; lia); reflexivity|].
                 destruct c; [apply d_get_set_same|]. intros u' X. apply New in X. lia.
           ++ intros j r d1 E. apply nth_snoc in E as [[_ E]|[-> E]].
              ** destruct (Old2 j r d1 E) as (i & d0 & c1 & s1 & u1 & s2 & E1 & X). exists i, d0, c1, s1, u1, s2. split; [now apply nth_old|exact X].
              ** injection E as <- <-. exists (List.length ops), d, c, s, u, s. rewrite <- Len, nth_new, Rl. split; [reflexivity|]. split; [lia|]. split; [apply nth_new|]. split; [apply nth_new|]. split; [reflexivity|]. now replace (List.length ops - S (List.length ops)) with 0 by lia.
           ++ intros u1 r1 E. assert (Old : d_get u1 (a_cache st) = Some r1 -> exists i d0 s0, nth_error (g ++ [(List.length ops, d)]) r1 = Some (i, d0) /\ nth_error (ops ++ [ALoad J c s u]) i = Some (ALoad J true s0 u1)).
              { intro E'. destruct (G3 u1 r1 E') as (i & d0 & s0 & E1 & E2). exists i, d0, s0. split; now apply nth_old. }
              destruct c; [|now apply Old]. destruct (str_dec u1 u) as [->|N]; [|rewrite d_get_set_other in E by congruence; now apply Old].
              rewrite d_get_set_same in E. injection E as <-. exists (List.length ops), d, s. rewrite <- Len, !nth_new. auto.
        -- exists g. cbn [fst snd]. split; [exact L|]. split; [apply Keep1; [auto|cbn; tauto]|]. split.
           ++ intros j r d E. apply nth_snoc in E as [[_ E]|[-> E]]; [now apply Old2|]. destruct e; discriminate.
           ++ intros u1 r1 E. destruct (G3 u1 r1 E) as (i & d0 & s0 & E1 & E2). exists i, d0, s0. split; [exact E1|now apply nth_old].
    + exists g. cbn [fst snd a_heap a_cache]. split; [now rewrite change_len|]. split; [|split].
      * apply (Keep1 (mkA (change r' d' (a_heap st)) (a_cache st) (a_log st)) None); [|cbn; tauto]. intros r i d0 E. cbn [a_heap]. rewrite change_nth. destruct (nth_error (a_heap st) r) as [x|] eqn:N; [now destruct (Nat.eqb r r')|].
        exfalso. destruct (G1 r i d0 E) as (c & s & u & _ & _ & _ & E3 & _). congruence.
      * intros j r d E. apply nth_snoc in E as [[_ E]|[-> E]]; [now apply Old2|discriminate].
      * intros u1 r1 E. destruct (G3 u1 r1 E) as (i & d0 & s0 & E1 & E2). exists i, d0, s0. split; [exact E1|now apply nth_old].
Qed.
(** [C122_contents]: what a load returns *)
Lemma C122_contents_lemma ops j c s u r d : nth_error ops j = Some (ALoad J c s u) -> nth_error (snd (run ops)) j = Some (Some (Ok (r, d))) ->
  exists i s0 d0, i <= j /\ nth_error ops i = Some (ALoad J c s0 u) /\ nth_error (snd (run ops)) i = Some (Some (Ok (r, d0))) /\ sent s0 u d0 /\ (c = false -> i = j) /\
    (forall k d', k < i -> nth_error (snd (run ops)) k <> Some (Some (Ok (r, d')))) /\ d = changed r d0 (firstn (j - S i) (skipn (S i) ops)).
Proof.
  intros Ej Er. destruct (trace ops) as [g (L & G1 & G2 & G3)]. destruct (G2 j r d Er) as (i & d0 & c1 & s0 & u1 & s1 & E1 & E2 & E3 & E4 & E5 & E6).
  rewrite Ej in E4. injection E4 as -> -> ->. destruct (G1 r i d0 E1) as (c2 & s2 & u2 & F1 & F2 & F3 & _). rewrite E3 in F1. injection F1 as <- <- <-.
  assert (First : forall k d', nth_error (snd (run ops)) k = Some (Some (Ok (r, d'))) -> i <= k) by (intros k d' X; destruct (G2 k r d' X) as (i' & x1 & x2 & x3 & x4 & x5 & Y1 & Y2 & _); rewrite E1 in Y1; now injection Y1 as <- _).
  exists i, s0, d0. split; [exact E2|]. split; [exact E3|]. split; [exact F3|split; [exact F2|split; [exact E5|split; [|exact E6]]]].
  intros k d' Lt X. apply First in X. lia.
Qed.
(** [C122_same]: the object a cached load returns is the one any other cached load of the same url returned, and only those *)
Lemma C122_same_lemma ops i j ci cj si sj ui uj ri rj di dj : nth_error ops i = Some (ALoad J ci si ui) -> nth_error ops j = Some (ALoad J cj sj uj) ->
  nth_error (snd (run ops)) i = Some (Some (Ok (ri, di))) -> nth_error (snd (run ops)) j = Some (Some (Ok (rj, dj))) ->
  (ri = rj <-> i = j \/ (ci = true /\ cj = true /\ ui = uj)).
Proof.
  intros Ei Ej Ri Rj. destruct (trace ops) as [g (L & G1 & G2 & G3)].
  destruct (G2 i ri di Ri) as (i0 & d0 & c & s & u & s' & A1 & A2 & A3 & A4 & A5 & _). rewrite Ei in A4. injection A4 as -> -> ->.
  destruct (G2 j rj dj Rj) as (j0 & d1 & c1 & s1 & u1 & s1' & B1 & B2 & B3 & B4 & B5 & _). rewrite Ej in B4. injection B4 as -> -> ->.
  split.
  - intros <-. rewrite A1 in B1. injection B1 as <- <-. rewrite A3 in B3. injection B3 as <- <- <-. destruct c; [right; auto|left]. rewrite <- A5 by reflexivity. now apply B5.
  - intros [-> |(-> & -> & ->)]; [congruence|].
    destruct (G1 ri i0 d0 A1) as (c & s2 & u & X & _ & _ & _ & Y). rewrite A3 in X. injection X as <- <- <-.
    destruct (G1 rj j0 d1 B1) as (c & s3 & u & X & _ & _ & _ & Z). rewrite B3 in X. injection X as <- <- <-. congruence.
Qed.
(** [C122_untouched]: a document nobody changes is returned as it was sent *)
Lemma changed_untouched r d0 ops : (forall d, ~ In (AChange r d) ops) -> changed r d0 ops = d0.
Proof.
  revert d0. induction ops as [|[c s u|r' d] ops IH]; intros d0 H; cbn; [reflexivity| |]; [apply IH; intros d I; apply (H d); now right|].
  destruct (Nat.eqb_spec r r') as [->|N]; [exfalso; apply (H d); now left|apply IH; intros d1 I; apply (H d1); now right].
Qed.
Lemma C122_untouched_lemma ops j c s u r d : nth_error ops j = Some (ALoad J c s u) -> nth_error (snd (run ops)) j = Some (Some (Ok (r, d))) ->
  (forall d', ~ In (AChange r d') (firstn j ops)) -> exists s0, sent s0 u d.
Proof.
  intros E R H. destruct (C122_contents_lemma ops j E R) as (i & s0 & d0 & L & Ei & _ & X & _ & _ & ->). exists s0. rewrite changed_untouched; [exact X|].
  intros d' I. apply (H d'). destruct (Nat.eq_dec i j) as [-> |N]; [replace (j - S j) with 0 in I by lia; destruct I|].
  rewrite <- (firstn_skipn (S i) ops), firstn_app, in_app_iff. right. rewrite firstn_length.
  assert (S i <= List.length ops) by (assert (Z : nth_error ops j <> None) by congruence; apply nth_error_Some in Z; lia). now replace (j - Nat.min (S i) (List.length ops)) with (j - S i) by lia.
Qed.
(** [C122_failed]: a load that does not return a document *)
Lemma C122_failed_lemma ops j c s u : nth_error ops j = Some (ALoad J c s u) -> exists x, nth_error (snd (run ops)) j = Some (Some x) /\
  forall e, x = Err e -> (exists log log' e0, get netloc_ok json_type prepend_base server s u log = (log', Err e0) /\ (e0 = SystemExit -> e = SystemExit) /\ (e0 <> SystemExit -> e = JsonLdError)) /\
    (c = true -> forall i s' r d, i < j -> nth_error ops i = Some (ALoad J true s' u) -> nth_error (snd (run ops)) i <> Some (Some (Ok (r, d)))).
Proof.
  induction ops as [|o ops IH] using rev_ind; [destruct j; discriminate|]. intro E. assert (Rl := run_len ops). destruct (trace ops) as [g (L & G1 & G2 & G3)]. rewrite run_snoc.
  destruct (run ops) as [st rs]. cbn [fst snd] in *. apply nth_snoc in E as [[Lt E]|[-> ->]].
  - destruct (IH E) as (x & X1 & X2). exists x. assert (Y : nth_error (snd (let (st0, y) := step o st in (st0, rs ++ [y]))) j = Some (Some x)) by (destruct (step o st) as [st0 y]; now apply nth_old).
    split; [exact Y|]. intros e Ee. destruct (X2 e Ee) as [A B]. split; [exact A|]. intros Ec i s' r d Li Ei X. apply (B Ec i s' r d Li).
    + rewrite nth_error_app1 in Ei by lia. exact Ei.
    + destruct (step o st) as [st0 y]. cbn [snd] in X. rewrite nth_error_app1 in X by lia. exact X.
  - cbn [a_step]. rewrite <- Rl. destruct (if c then d_get u (a_cache st) else None) as [r|] eqn:H.
    + destruct c; [|discriminate]. destruct (G3 u r H) as (i & d0 & s0 & A1 & A2). destruct (G1 r i d0 A1) as (c1 & s1 & u1 & B1 & _ & _ & B2 & _). rewrite B2. cbn [snd].
      eexists. split; [apply nth_new|]. discriminate.
    + destruct (get netloc_ok json_type prepend_base server s u (a_log st)) as [log y] eqn:Gt. destruct y as [d|e0]; cbn [snd].
      * eexists. split; [apply nth_new|]. discriminate.
      * eexists. split; [apply nth_new|]. intros e Ee. split.
        -- exists (a_log st), log, e0. split; [exact Gt|]. split; [intros ->|intro N]; cbn in Ee; [congruence|]. destruct e0; try contradiction; cbn in Ee; congruence.
        -- intros -> i s' r d Li Ei X. rewrite Rl in Li. rewrite nth_error_app1 in Ei by lia. rewrite nth_error_app1 in X by lia.
           destruct (G2 i r d X) as (i0 & d0 & c1 & s1 & u1 & s2 & A1 & _ & A3 & A4 & _). rewrite Ei in A4. injection A4 as <- <- <-.
           destruct (G1 r i0 d0 A1) as (c2 & s3 & u2 & B1 & _ & _ & _ & B3). rewrite A3 in B1. injection B1 as <- <- <-. congruence.
Qed.
End Facts.
