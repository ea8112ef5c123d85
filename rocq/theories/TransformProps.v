(** Properties C30 (DeltaTransformer) and C31 (transformers of registries). *)
From Verif Require Import Base BaseProofs SeriesModel SeriesSpec Conc TransformModel TransformSpec TransformProofs.
Local Arguments B : simpl never.

(** C30: every stat is passed on unchanged and in order; each total is followed by its
    difference to the previous total of the same rendered series, exactly if there was
    one.  [sub] is whatever subtraction the values have. *)
Theorem C30_stream : forall V (sub : V -> V -> V) (l : list (stat V)),
  snd (run_source l (delta_transform sub fst (fun m w => (m, snd w)) recorder) (∅, [])) = with_deltas sub previous_total [] l.
Proof. exact @delta_stream. Qed.
Print Assumptions C30_stream.

(** Names and keys agree unless a measurement, tag key or tag value ends in a backslash. *)
Theorem C30_by_key : forall V (sub : V -> V -> V) (l : list (stat V)), Forall plain_key l ->
  snd (run_source l (delta_transform sub fst (fun m w => (m, snd w)) recorder) (∅, [])) = with_deltas sub previous_total_of_key [] l.
Proof. exact (fun V sub l H => eq_trans (delta_stream sub l) (deltas_by_key sub [] l H)). Qed.
Print Assumptions C30_by_key.
Theorem C30_by_key_refuted : ~ (forall V (sub : V -> V -> V) (l : list (stat V)),
  snd (run_source l (delta_transform sub fst (fun m w => (m, snd w)) recorder) (∅, [])) = with_deltas sub previous_total_of_key [] l).
Proof.
  intros H. specialize (H Z Z.sub [Stat (SeriesKey (B "a\") {[ B "b" := B "c" ]}) (B "total") 5%Z; Stat (SeriesKey (B "a,b=c") ∅) (B "total") 7%Z]).
  apply (f_equal length) in H. vm_compute in H. discriminate H.
Qed.
Print Assumptions C30_by_key_refuted.

(** With exact subtraction the deltas of a series add up to its last total minus its first. *)
Theorem C30_telescope : forall (l : list (stat Z)) name, Forall (fun s => st_field s <> B "delta") l ->
  delta_sum name (snd (run_source l (delta_transform Z.sub fst (fun m w => (m, snd w)) recorder) (∅, []))) = span_of (total_values name l).
Proof. exact (fun l name H => eq_trans (f_equal (delta_sum name) (delta_stream Z.sub l)) (telescope name l H)). Qed.
Print Assumptions C30_telescope.

(** Several goroutines: the totals act in some order that respects real time, each call
    passing on its stat and then its difference to the total of the series before it in
    that order. *)
Theorem C30_concurrent : forall V (sub : V -> V -> V) sched, exists order, NoDup order /\
  (forall i s, call_finished sub sched i s ->
     (~ is_total s /\ passed_on sub sched i = [s]) \/
     (is_total s /\ exists k, order !! k = Some i /\ passed_on sub sched i = with_delta sub previous_total (stats_of sub sched (take k order)) s)) /\
  (forall i j a b pre post, order !! a = Some i -> order !! b = Some j -> sched = pre ++ post ->
     (exists s, call_finished sub pre i s) -> call_unbegun sub pre j -> (a < b)%nat).
Proof. exact @concurrent_delta. Qed.
Print Assumptions C30_concurrent.

Definition a_key : series_key := SeriesKey (B "m") ∅.
Definition three : list (stat Z) :=
  [Stat a_key (B "total") 5%Z; Stat a_key (B "count") 1%Z; Stat (SeriesKey (B "n") ∅) (B "total") 1%Z; Stat a_key (B "total") 9%Z; Stat a_key (B "total") 7%Z].
Example C30_example :
  Forall plain_key three /\ Forall (fun s => st_field s <> B "delta") three /\
  snd (run_source three (delta_transform Z.sub fst (fun m w => (m, snd w)) recorder) (∅, [])) =
    [Stat a_key (B "total") 5%Z; Stat a_key (B "count") 1%Z; Stat (SeriesKey (B "n") ∅) (B "total") 1%Z;
     Stat a_key (B "total") 9%Z; Stat a_key (B "delta") 4%Z; Stat a_key (B "total") 7%Z; Stat a_key (B "delta") (-2)%Z] /\
  span_of (total_values (with_field a_key (B "total")) three) = 2%Z.
Proof.
  split; [|split; [|split; vm_compute; reflexivity]].
  - repeat (constructor; [split; [discriminate|intros k v Hk; discriminate Hk]|]). constructor.
  - repeat (constructor; [discriminate|]). constructor.
Qed.
Definition two_totals : list (action (stat Z)) :=
  [Spawn (Stat a_key (B "total") 5%Z); Spawn (Stat a_key (B "total") 9%Z); Run 1; Run 0; Run 0; Run 1; Run 0]%nat.
Example C30_concurrent_example :
  call_finished Z.sub two_totals 0 (Stat a_key (B "total") 5%Z) /\ call_finished Z.sub two_totals 1 (Stat a_key (B "total") 9%Z) /\
  passed_on Z.sub two_totals 0 = [Stat a_key (B "total") 5%Z; Stat a_key (B "delta") (-4)%Z] /\
  passed_on Z.sub two_totals 1 = [Stat a_key (B "total") 9%Z].
Proof. vm_compute. split_and!; reflexivity. Qed.

(** C31: with transformers t1, ..., tn each stat passes through tn first and t1 last,
    whatever the transformers do (each has a state and may drop, change or add stats). *)
Theorem C31_order : forall V S (f : nat -> stage V S) (init : nat -> S) ks range, NoDup ks ->
  snd (registry_stats range (map (stage_transformer f init) ks) recorder (∅, [])) = pipe f init ks (registry_source range).
Proof. exact @registry_stats_through. Qed.
Print Assumptions C31_order.
Theorem C31_source_order : forall V S (f : nat -> stage V S) (init : nat -> S) ks l, NoDup ks ->
  snd (transform_stat_source l (map (stage_transformer f init) ks) recorder (∅, [])) = pipe f init ks l.
Proof. exact @stats_through. Qed.
Print Assumptions C31_source_order.

(** C31: h.WithTransformers(ts...) makes a handle with h's transformers and then ts ... *)
Theorem C31_with : forall grow ops h c l ts,
  handle_transformers (r_exec grow ops) h = Some l -> caller_transformers (r_exec grow ops) c = Some ts ->
  handle_transformers (r_exec grow (ops ++ [RWith h c])) (length (wo_handles (r_exec grow ops))) = Some (l ++ ts).
Proof. exact handle_made. Qed.
Print Assumptions C31_with.
Theorem C31_new : forall grow ops,
  handle_transformers (r_exec grow (ops ++ [RNew])) (length (wo_handles (r_exec grow ops))) = Some [].
Proof. exact handle_new. Qed.
Print Assumptions C31_new.
(** ... and nothing done later (deriving other handles, writing to or appending to the
    slices passed in, any growth policy of append) changes the transformers of a handle. *)
Theorem C31_unaffected : forall grow ops more h l,
  handle_transformers (r_exec grow ops) h = Some l -> handle_transformers (r_exec grow (ops ++ more)) h = Some l.
Proof. exact handles_kept. Qed.
Print Assumptions C31_unaffected.
(** C31: handles derived from one registry share its scopes, for ever; scopes of different
    registries or names are different. *)
Theorem C31_scopes_shared : forall grow ops more h h' name s,
  scope_of (r_exec grow ops) h name = Some s -> same_family (ops ++ RScope h name :: more) h h' ->
  scope_of (r_exec grow (ops ++ RScope h name :: more)) h' name = Some s.
Proof. exact scopes_shared. Qed.
Print Assumptions C31_scopes_shared.
Theorem C31_scopes_separate : forall grow ops more h h' name name' s s',
  scope_of (r_exec grow ops) h name = Some s ->
  scope_of (r_exec grow (ops ++ RScope h name :: more)) h' name' = Some s' ->
  ~ (same_family (ops ++ RScope h name :: more) h h' /\ name = name') -> s <> s'.
Proof. exact scopes_separate. Qed.
Print Assumptions C31_scopes_separate.

(** Handle 1 gets [1; 2] from a slice with spare room, handle 2 [1; 2; 3] from an append
    to it, and the caller then overwrites element 0. *)
Definition history : list rop := [RNew; RNew; RSlice [1; 2] 3; RWith 0 0; RAppend 0 [3]; RWith 0 1; RWrite 0 0 9; RWith 2 0]%nat.
Example C31_example :
  map (handle_transformers (r_exec (fun n => 2 * n)%nat history)) [0; 1; 2; 3; 4]%nat = [Some []; Some []; Some [1; 2]; Some [1; 2; 3]; Some [1; 2; 9; 2]]%nat /\
  map (caller_transformers (r_exec (fun n => 2 * n)%nat history)) [0; 1]%nat = [Some [9; 2]; Some [9; 2; 3]]%nat /\
  same_family history 0 4 /\ ~ same_family history 1 4 /\
  scope_of (r_exec S (history ++ [RScope 2 (B "x")])) 4 (B "x") = Some 0%nat /\
  scope_of (r_exec S (history ++ [RScope 2 (B "x")])) 1 (B "x") = Some 1%nat.
Proof.
  split_and!; try (vm_compute; reflexivity).
  - exists 0%nat. split; reflexivity.
  - intros (o & H1 & H2). vm_compute in H1, H2. congruence.
Qed.
(** Transformer 1 adds a stat after each; transformer 2 drops counts. *)
Example C31_order_example :
  let f := fun k => match k with
    | 1 => fun (n : nat) s => (S n, [s; Stat a_key (B "seen") (Z.of_nat n)])
    | _ => fun n s => (n, if beqb (st_field s) (B "count") then [] else [s]) end%nat in
  NoDup [1; 2]%nat /\
  snd (registry_stats [(B "s", [Stat a_key (B "count") 1%Z; Stat a_key (B "total") 5%Z])] (map (stage_transformer f (fun _ => 0%nat)) [1; 2]%nat) recorder (∅, [])) =
    [Stat a_key (B "total") 5%Z; Stat a_key (B "seen") 0%Z] /\
  snd (registry_stats [(B "s", [Stat a_key (B "count") 1%Z; Stat a_key (B "total") 5%Z])] (map (stage_transformer f (fun _ => 0%nat)) [2; 1]%nat) recorder (∅, [])) =
    [Stat a_key (B "seen") 0%Z; Stat a_key (B "total") 5%Z; Stat a_key (B "seen") 1%Z].
Proof. split; [apply NoDup_ListNoDup; repeat constructor; cbn; lia|]. vm_compute. split; reflexivity. Qed.

(** C67: Scopes, Funcs and Stats go through the scopes one by one, each once, in increasing
    order of their names, however the map yields them; [X] is what a scope contributes. *)
Theorem C67_scopes : forall X (range : list (bytes * X)), NoDup (map fst range) ->
  exists l, l ≡ₚ range /\ StronglySorted name_before l /\
    forall range', range' ≡ₚ range -> scopes range' = l.
Proof. exact @scopes_in_order. Qed.
Print Assumptions C67_scopes.
Theorem C67_stats : forall V (range : list (bytes * list (stat V))), NoDup (map fst range) ->
  exists l, l ≡ₚ range /\ StronglySorted name_before l /\
    forall range' W (cb : callback V W) w, range' ≡ₚ range -> registry_stats range' [] cb w = run_source (concat (map snd l)) cb w.
Proof.
  intros V range Hn. destruct (scopes_in_order range Hn) as (l & H1 & H2 & H3). exists l. split_and!; [exact H1|exact H2|].
  intros range' W cb w Hp. unfold registry_stats, registry_source. rewrite (H3 _ Hp). reflexivity.
Qed.
Print Assumptions C67_stats.
(** Every Func of every scope is reported as often as its scope reports it, scope by scope. *)
Theorem C67_funcs : forall (range : list (bytes * list nat)), NoDup (map fst range) ->
  registry_funcs range ≡ₚ concat (map snd range) /\
  exists l, l ≡ₚ range /\ StronglySorted name_before l /\ forall range', range' ≡ₚ range -> registry_funcs range' = concat (map snd l).
Proof.
  intros range Hn. destruct (scopes_in_order range Hn) as (l & H1 & H2 & H3). split.
  - unfold registry_funcs. rewrite (H3 range) by reflexivity. rewrite H1. reflexivity.
  - exists l. split_and!; [exact H1|exact H2|]. intros range' Hp. unfold registry_funcs. rewrite (H3 _ Hp). reflexivity.
Qed.
Print Assumptions C67_funcs.
Example C67_ex :
  NoDup (map fst [(B "b", 1); (B "a", 2); (B "", 3)]%nat) /\ scopes [(B "b", 1); (B "a", 2); (B "", 3)]%nat = [(B "", 3); (B "a", 2); (B "b", 1)]%nat /\
  registry_funcs [(B "b", [1]); (B "a", [2; 3])]%nat = [2; 3; 1]%nat.
Proof. split_and!; [apply (bool_decide_unpack _); vm_compute; exact I|vm_compute; reflexivity|vm_compute; reflexivity]. Qed.
