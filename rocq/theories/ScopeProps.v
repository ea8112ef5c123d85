(** Properties C04, C05, C32, C56, C57, C58. *)
From Verif Require Import Base SeriesModel Conc ScopeModel ScopeSpec ScopeProofs.

(** C04: all lookups with the same arguments return the same object ... *)
Theorem C04_same_object :
  forall sched i j k name tags o o',
    returned sched i (CLookup k name tags) (RObj (Ok o)) ->
    returned sched j (CLookup k name tags) (RObj (Ok o')) -> o = o'.
Proof. exact same_object. Qed.
Print Assumptions C04_same_object.

(** ... no constructor runs twice for one table name ... *)
Theorem C04_constructor_once : forall sched, NoDup (sc_built (shared (sc_exec sched))).
Proof. exact constructors_once. Qed.
Print Assumptions C04_constructor_once.

(** ... a binding to a source (not a gauge) is for ever ... *)
Theorem C04_never_rebound :
  forall sched1 sched2 n id k key,
    table sched1 !! n = Some (Src id k key) -> table (sched1 ++ sched2) !! n = Some (Src id k key).
Proof. exact never_rebound. Qed.
Print Assumptions C04_never_rebound.

(** ... an object handed out has the requested kind ... *)
Theorem C04_right_kind :
  forall sched i k name tags o,
    returned sched i (CLookup k name tags) (RObj (Ok o)) -> exists id key, o = Src id k key.
Proof. exact right_kind. Qed.
Print Assumptions C04_right_kind.

(** ... and a lookup returns the bound object, or panics exactly when the name is bound to
    something of another kind. *)
Theorem C04_panic_iff_other_kind :
  forall sched i k name tags r,
    returned sched i (CLookup k name tags) r ->
    (exists o, r = RObj (Ok o) /\ table sched !! table_name k name tags = Some o) \/
    (exists msg o, r = RObj (Panic msg) /\ table sched !! table_name k name tags = Some o /\
       forall id key, o <> Src id k key).
Proof. exact panic_iff_taken. Qed.
Print Assumptions C04_panic_iff_other_kind.

(** Two own steps complete a lookup, whatever others do in between. *)
Theorem C04_lookup_terminates :
  forall sched i k name tags p,
    threads (sc_exec sched) !! i = Some (Thr (CLookup k name tags) p) ->
    forall mid, (forall t, threads (sc_exec (sched ++ [Run i] ++ mid)) !! i = Some t ->
                           threads (sc_exec (sched ++ [Run i])) !! i = Some t) ->
    exists r, returned (sched ++ [Run i] ++ mid ++ [Run i]) i (CLookup k name tags) r.
Proof. exact lookup_terminates. Qed.
Print Assumptions C04_lookup_terminates.

(** Two racing constructors: both miss, one constructs; a third call asks for another kind. *)
Definition race : list (action call) :=
  let c := CLookup KMeter (B "m") [(B "a", B "b")] in
  [Spawn c; Spawn c; Spawn (CLookup KTimer (B "m") [(B "a", B "b")]); Run 0; Run 1; Run 1; Run 0; Run 2].
Example C04_race :
  let o := Src 0 KMeter (with_tags (SeriesKey (B "m") ∅) [(B "a", B "b")]) in
  returned race 0 (CLookup KMeter (B "m") [(B "a", B "b")]) (RObj (Ok o)) /\
  returned race 1 (CLookup KMeter (B "m") [(B "a", B "b")]) (RObj (Ok o)) /\
  exists msg, returned race 2 (CLookup KTimer (B "m") [(B "a", B "b")]) (RObj (Panic msg)).
Proof. split; [vm_compute; reflexivity|]. split; [vm_compute; reflexivity|]. eexists. vm_compute. reflexivity. Qed.

(** C05: with clean arguments, different arguments never share a table entry ... *)
Theorem C05_table_names_distinct :
  forall k name tags k' name' tags',
    clean k name tags -> clean k' name' tags' ->
    table_name k name tags = table_name k' name' tags' ->
    (k = KFunc <-> k' = KFunc) /\ name = name' /\ tags = tags'.
Proof. exact table_name_inj. Qed.
Print Assumptions C05_table_names_distinct.

(** ... so two successful lookups return the same object exactly if they ask for the same. *)
Theorem C05_objects_distinct :
  forall sched i j k name tags k' name' tags' o o',
    returned sched i (CLookup k name tags) (RObj (Ok o)) ->
    returned sched j (CLookup k' name' tags') (RObj (Ok o')) ->
    clean k name tags -> clean k' name' tags' ->
    (o = o' <-> k = k' /\ name = name' /\ tags = tags').
Proof. exact distinct_objects. Qed.
Print Assumptions C05_objects_distinct.

Example C05_clean_example :
  clean KCounter (B "bytes=sent") [(B "dir", B "up=1"); (B "host", B "")].
Proof.
  split; [intros H; cbn in H; intuition discriminate|]. split; [|intros _ rest E; discriminate].
  intros key val H. cbn in H. destruct H as [H|[H|[]]]; injection H as <- <-;
    (repeat split; intros Hi; cbn in Hi; intuition discriminate).
Qed.

(** Without the proviso it is false: one Func for two different names, and a Counter
    clashing with a Func. *)
Theorem C05_distinct_refuted :
  table_name KFunc (B "a") [(B "b", B "c")] = table_name KFunc (B "a,b=c") [] /\
  table_name KCounter (B "func:f") [] = table_name KFunc (B "f") [] /\
  (exists sched i j o, returned sched i (CLookup KFunc (B "a") [(B "b", B "c")]) (RObj (Ok o)) /\
                       returned sched j (CLookup KFunc (B "a,b=c") []) (RObj (Ok o))) /\
  (exists sched j msg, returned sched j (CLookup KCounter (B "func:f") []) (RObj (Panic msg))).
Proof.
  split; [reflexivity|]. split; [reflexivity|]. split.
  - exists [Spawn (CLookup KFunc (B "a") [(B "b", B "c")]); Run 0; Run 0; Spawn (CLookup KFunc (B "a,b=c") []); Run 1], 0, 1.
    eexists. split; vm_compute; reflexivity.
  - exists [Spawn (CLookup KFunc (B "f") []); Run 0; Run 0; Spawn (CLookup KCounter (B "func:f") []); Run 1], 1.
    eexists. vm_compute. reflexivity.
Qed.
Print Assumptions C05_distinct_refuted.

(** C32: a Stats call, whatever runs concurrently, visits every source registered before
    it exactly once, every gauge name registered before exactly once, nothing that was
    not registered, and a run of the chain list that includes all earlier ones. *)
Theorem C32_stats_visits_everything :
  forall sched1 ord sched2 v, any_order ord ->
    let sched := sched1 ++ Spawn (CStats ord) :: sched2 in
    returned sched (length (threads (sc_exec sched1))) (CStats ord) (RVisited v) ->
    (forall n id k key, table sched1 !! n = Some (Src id k key) -> occurrences (is_source id) v = 1) /\
    (forall n cb, table sched1 !! n = Some (Gauge n cb) -> occurrences (is_gauge_named n) v = 1) /\
    (forall id k key, In (inl (Src id k key)) v -> exists n, table sched !! n = Some (Src id k key)) /\
    (exists named later, v = map inl named ++ map inr (sc_chains (shared (sc_exec sched1)) ++ later)) /\
    (exists rest, visited_chains v ++ rest = sc_chains (shared (sc_exec sched))).
Proof. exact stats_visits. Qed.
Print Assumptions C32_stats_visits_everything.

(** Every stat of the visited sources is forwarded once, in order, changed only by the tag. *)
Theorem C32_stats_tagged :
  forall (V : Type) scope_name (calls : list (list (stat V))),
    Forall2 (scope_tagged scope_name) (concat calls) (scope_forward scope_name calls).
Proof. exact @forward_tagged. Qed.
Print Assumptions C32_stats_tagged.

Example C32_stats_example :
  let sched := [Spawn (CLookup KMeter (B "m") []); Run 0; Run 0; Spawn (CChain 7); Run 1;
                Spawn (CGauge (B "g") 3); Spawn (CStats (@rev _)); Run 2; Run 3; Run 3] in
  exists o v, returned sched 3 (CStats (@rev _)) (RVisited v) /\ In (inl o) v /\ In (inr 7) v /\ In (inl (Gauge (B "g") 3)) v.
Proof.
  eexists _, _. split; [vm_compute; reflexivity|]. split; [right; left; reflexivity|].
  split; [right; right; left; reflexivity|left; reflexivity].
Qed.

Example C32_scope_tag_overrides :
  map (fun st => (with_field (st_key st) (st_field st), st_val st))
    (scope_forward (B "s") [[Stat (with_tag (SeriesKey (B "m") ∅) (B "scope") (B "mine")) (B "f") 1%Z]])
  = [(B "m,scope=s f", 1%Z)].
Proof. vm_compute. reflexivity. Qed.

(** C56: once a registration took effect and no other one for that name does later, the
    table holds its callback, whatever else happens ... *)
Theorem C56_gauge_latest :
  forall sched1 i name cb sched2,
    threads (sc_exec sched1) !! i = Some (Thr (CGauge name cb) PStart) ->
    returned (sched1 ++ [Run i]) i (CGauge name cb) (RUnit (Ok tt)) ->
    (forall j cb' r, returned ((sched1 ++ [Run i]) ++ sched2) j (CGauge name cb') r ->
                     returned (sched1 ++ [Run i]) j (CGauge name cb') r) ->
    table ((sched1 ++ [Run i]) ++ sched2) !! name = Some (Gauge name cb).
Proof. exact gauge_latest. Qed.
Print Assumptions C56_gauge_latest.

(** ... and Stats then reports that name once, with the value the callback returns. *)
Theorem C56_gauge_reported :
  forall sched name cb (V : Type) (cb_value : nat -> V) ord,
    table sched !! name = Some (Gauge name cb) -> any_order ord ->
    let i := length (threads (sc_exec sched)) in
    exists v, returned (sched ++ [Spawn (CStats ord); Run i; Run i]) i (CStats ord) (RVisited v) /\
      occurrences (is_gauge_named name) v = 1 /\
      forall o, In (inl o) v -> is_gauge_named name (inl o) = true ->
        gauge_stats cb_value o = [Stat (SeriesKey name ∅) (B "value") (cb_value cb)].
Proof. exact @gauge_reported. Qed.
Print Assumptions C56_gauge_reported.

(** Registering over another source panics and changes nothing. *)
Theorem C56_gauge_over_source_panics :
  forall sched i name cb id k key,
    threads (sc_exec sched) !! i = Some (Thr (CGauge name cb) PStart) ->
    table sched !! name = Some (Src id k key) ->
    (exists msg, returned (sched ++ [Run i]) i (CGauge name cb) (RUnit (Panic msg))) /\
    table (sched ++ [Run i]) = table sched.
Proof. exact gauge_step_panics. Qed.
Print Assumptions C56_gauge_over_source_panics.

Example C56_gauge_example :
  let sched := [Spawn (CGauge (B "g") 1); Run 0; Spawn (CGauge (B "g") 2); Run 1; Spawn (CLookup KCounter (B "g") []); Run 2] in
  table sched !! B "g" = Some (Gauge (B "g") 2) /\
  exists msg, returned sched 2 (CLookup KCounter (B "g") []) (RObj (Panic msg)).
Proof. split; [vm_compute; reflexivity|]. eexists. vm_compute. reflexivity. Qed.

(** C57: with clean lookups only, the Func returned for (name, tags) without a tag
    "name" is called name and its series key has exactly the given tags plus name. *)
Theorem C57_func_name_and_tags :
  forall sched i name tags o scope_name,
    returned sched i (CLookup KFunc name tags) (RObj (Ok o)) ->
    (forall j k' name' tags' p, threads (sc_exec sched) !! j = Some (Thr (CLookup k' name' tags') p) -> clean k' name' tags') ->
    (forall val, ~ In (B "name", val) tags) ->
    exists id key, o = Src id KFunc key /\
      func_short_name key = name /\ func_full_name scope_name key = scope_name ++ B "." ++ name /\
      sk_measurement key = B "function" /\
      forall t, sk_tags key !! t = if decide (t = B "name") then Some name else last_tag t tags.
Proof. exact func_object. Qed.
Print Assumptions C57_func_name_and_tags.

(** The times and error families add exactly their own tag. *)
Theorem C57_func_families :
  forall name tags,
    (forall val, ~ In (B "kind", val) tags) -> (forall val, ~ In (B "error_name", val) tags) ->
    let key := constructor_key KFunc name tags in
    success_key key <> failure_key key /\
    (forall knd t, In knd [B "success"; B "failure"] ->
       sk_measurement (times_key key knd) = B "function_times" /\
       sk_tags (times_key key knd) !! t = if decide (t = B "kind") then Some knd else sk_tags key !! t) /\
    (forall e t, sk_measurement (error_key key e) = B "function" /\
       sk_tags (error_key key e) !! t = if decide (t = B "error_name") then Some e else sk_tags key !! t) /\
    sk_tags key !! B "kind" = None /\ sk_tags key !! B "error_name" = None.
Proof. exact func_times_keys. Qed.
Print Assumptions C57_func_families.

Example C57_example :
  func_full_name (B "pkg") (constructor_key KFunc (B "f") [(B "x", B "1"); (B "x", B "2")]) = B "pkg.f" /\
  sk_tags (success_key (constructor_key KFunc (B "f") [(B "x", B "1"); (B "x", B "2")])) !! B "x" = Some (B "2").
Proof. split; vm_compute; reflexivity. Qed.

(** With reserved tag keys it is false: the tag renames the function, and a tag "kind"
    is lost. *)
Theorem C57_reserved_tags_refuted :
  (exists name tags, func_short_name (constructor_key KFunc name tags) <> name) /\
  (exists name tags tags', tags <> tags' /\
     success_key (constructor_key KFunc name tags) = success_key (constructor_key KFunc name tags')).
Proof.
  split.
  - exists (B "f"), [(B "name", B "g")]. vm_compute. discriminate.
  - exists (B "f"), [(B "kind", B "1")], [(B "kind", B "2")]. split; [discriminate|].
    unfold success_key, times_key, with_tag, constructor_key, with_tags. cbn [sk_tags sk_measurement fold_left fst snd].
    rewrite !insert_insert. reflexivity.
Qed.
Print Assumptions C57_reserved_tags_refuted.

(** C58: Funcs hands each registered Func to the callback exactly once and nothing else. *)
Theorem C58_funcs_exact :
  forall sched ord range,
    any_order ord -> Permutation range (map_to_list (table sched)) ->
    NoDup (scope_funcs ord range) /\
    forall id, In id (scope_funcs ord range) <-> exists n key, table sched !! n = Some (Src id KFunc key).
Proof. exact funcs_exact. Qed.
Print Assumptions C58_funcs_exact.

Example C58_funcs_example :
  let sched := [Spawn (CLookup KFunc (B "f") []); Run 0; Run 0; Spawn (CLookup KMeter (B "m") []); Run 1; Run 1;
                Spawn (CLookup KFunc (B "g") []); Run 2; Run 2] in
  scope_funcs (@rev _) (map_to_list (table sched)) = [2; 0] \/ scope_funcs (@rev _) (map_to_list (table sched)) = [0; 2].
Proof. vm_compute. auto. Qed.
