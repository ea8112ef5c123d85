(** Property C03. [valid h t] says that [t] is nil or an existing TagSet of [h];
    [observe h t] is what All, Len, Get and String report. *)
From Verif Require Import Base SeriesModel SeriesSpec TagSetModel TagSetSpec TagSetProofs.

(** C03: nothing done later - to any set or to any map the user owns - changes
    what an existing tag set reports. *)
Theorem C03_existing_sets_never_change :
  forall (past future : list ts_op) (t : option nat),
    valid (ts_run past heap_init) t ->
    observe (ts_run (past ++ future) heap_init) t = observe (ts_run past heap_init) t.
Proof. exact observe_stable. Qed.
Print Assumptions C03_existing_sets_never_change.

(** C03: Get, Len, All and String agree at every point of every history. *)
Theorem C03_views_agree :
  forall ops t, valid (ts_run ops heap_init) t ->
    let h := ts_run ops heap_init in
    let m := map_contents h (ts_all_ref h t) in
    ts_len h t = size m /\
    (forall key, ts_get h t key = default [] (m !! key)) /\
    snd (ts_string h t) = match t with None => [] | Some _ => write_tags (map_to_list m) end.
Proof. exact observe_coherent. Qed.
Print Assumptions C03_views_agree.

(** C03: what the returned sets hold; in each, the last given value of a key wins and
    other keys are as in the receiver (nil receivers included). *)
Theorem C03_set_tags_last_wins :
  forall h t tags key,
    let '(h', t') := ts_set_tags h t tags in
    map_contents h' (ts_all_ref h' (Some t')) !! key =
    match last_match (fun kv => if decide (fst kv = key) then Some (snd kv) else None) tags with
    | Some v => Some v
    | None => map_contents h (ts_all_ref h t) !! key
    end.
Proof. exact set_tags_spec. Qed.
Print Assumptions C03_set_tags_last_wins.

Theorem C03_set_all :
  forall h t kvs key,
    let '(h', t') := ts_set_all h t kvs in
    map_contents h' (ts_all_ref h' (Some t')) !! key =
    match kvs !! key with Some v => Some v | None => map_contents h (ts_all_ref h t) !! key end.
Proof. exact set_all_spec. Qed.
Print Assumptions C03_set_all.

Theorem C03_set :
  forall h t k v key,
    let '(h', t') := ts_set h t k v in
    map_contents h' (ts_all_ref h' (Some t')) !! key =
    if decide (k = key) then Some v else map_contents h (ts_all_ref h t) !! key.
Proof. exact set_spec. Qed.
Print Assumptions C03_set.

(** A history with sharing: a set built from a user map that is then changed. *)
Example C03_nonvacuous :
  let past := [OMakeMap; OMapPut 0 (B "a") (B "1"); OSetAll None 0; OSet (Some 0) (B "b") (B "2")] in
  let future := [OMapPut 0 (B "a") (B "9"); OString (Some 1); OSetTags (Some 1) [(B "b", B "3")]] in
  valid (ts_run past heap_init) (Some 1) /\
  snd (ts_string (ts_run (past ++ future) heap_init) (Some 1)) = B "a=1,b=2" /\
  snd (ts_string (ts_run (past ++ future) heap_init) (Some 2)) = B "a=1,b=3".
Proof. split; [cbn; lia|]. vm_compute. split; reflexivity. Qed.

(** C02: however two TagSets came about, in the same program or in different ones, and
    whatever was cached, equal associations give equal strings. *)
Theorem C02_string_depends_on_associations :
  forall ops1 t1 ops2 t2,
    let h1 := ts_run ops1 heap_init in
    let h2 := ts_run ops2 heap_init in
    valid h1 t1 -> valid h2 t2 ->
    map_contents h1 (ts_all_ref h1 t1) = map_contents h2 (ts_all_ref h2 t2) ->
    snd (ts_string h1 t1) = snd (ts_string h2 t2).
Proof. exact string_canonical. Qed.
Print Assumptions C02_string_depends_on_associations.

(** Two ways to the same set, one of them asked for its string half-way. *)
Example C02_string_nonvacuous :
  let h1 := ts_run [OSet None (B "a") (B "1"); OString (Some 0); OSet (Some 0) (B "b") (B "2")] heap_init in
  let h2 := ts_run [OSetTags None [(B "b", B "9"); (B "a", B "1"); (B "b", B "2")]] heap_init in
  map_to_list (map_contents h1 (ts_all_ref h1 (Some 1))) = map_to_list (map_contents h2 (ts_all_ref h2 (Some 0))) /\
  snd (ts_string h1 (Some 1)) = B "a=1,b=2".
Proof. vm_compute. split; reflexivity. Qed.
