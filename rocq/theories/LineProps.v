(** C93: what functions, counters and meters did can be read from StatsText. *)
From Coq Require Import Reals Lra Lia.
From Flocq Require Import Core BinarySingleNaN.
From Verif Require Import Base SeriesModel Fval DistModel QueryModel NumModel NumSpec
  PresentModel PresentSpec FloatTextModel FloatTextSpec
  Conc TransformModel ScopeModel FuncStatsModel SpecBase CounterModel CounterSpec MeterModel MeterSpec
  LineModel LineSpec LineProofs LineProofs2.
From Verif Require Import FuncStatsSpec.
Local Open Scope Z_scope.

(** The text of a number: NaN, an infinity, or the number to six places. *)
Theorem C93_number : forall x : f64,
  match x with
  | B754_nan => fixed_text 6 (text_float x) = B "NaN"
  | B754_infinity neg => fixed_text 6 (text_float x) = if neg then B "-Inf" else B "+Inf"
  | _ => shows_about (fixed_text 6 (text_float x)) (B2R x) (/ 2000000)
  end.
Proof. intros [s|s| |s m e H]; try reflexivity; apply show_value; reflexivity. Qed.
Print Assumptions C93_number.

(** Integers are shown exactly. *)
Theorem C93_integer : forall z, Z.abs z <= 2 ^ 53 -> shows_integer (fixed_text 6 (text_float (int64_64 z))) z.
Proof. exact show_int. Qed.
Print Assumptions C93_integer.

(** Durations are shown to the microsecond. *)
Theorem C93_duration : forall d, in64 d ->
  shows_about (fixed_text 6 (text_float (seconds d))) (in_seconds d)
    (/ 2000000 + (bpow radix2 (-52) + bpow radix2 (-106)) * Rabs (in_seconds d))%R.
Proof. exact show_seconds. Qed.
Print Assumptions C93_duration.

(** Every stat of every source of every scope has a line, and there are no others. *)
Theorem C93_lines : forall other faults s range, one_line_stats (registry_source range) ->
  exists chunks lines, delivered faults s chunks (registry_text other faults s range) /\ read_stats (concat chunks) = Some lines /\
    length lines = length (registry_source range) /\
    forall name calls src st, (name, scope_forward name calls) ∈ range -> src ∈ calls -> st ∈ src ->
      has_line lines (with_tag (st_key st) (B "scope") name) (st_field st) (fixed_text 6 (text_float (float_of other (st_val st)))).
Proof. exact text_lines. Qed.
Print Assumptions C93_lines.

(** A function whose Stats were asked at some time while goroutines called it (the execution
    [sched]): the lines say how many calls had ended, and how, and how many were running. *)
Theorem C93_function : forall other faults s range name calls sched i sn key ds errs,
  one_line_stats (registry_source range) -> (name, scope_forward name calls) ∈ range -> fs_stats key ds sn errs ∈ calls ->
  threads (f_exec sched) !! i = Some (FThr FStats (F_done (FRStats sn))) -> Permutation errs (map_to_list (sn_errors sn)) ->
  exists p1 p2 p3 q chunks lines, sched = p1 ++ p2 ++ p3 ++ q /\
    delivered faults s chunks (registry_text other faults s range) /\ read_stats (concat chunks) = Some lines /\
    let l := ends (state_after (p1 ++ p2 ++ p3)) in
    let shown k field z := has_integer lines (with_tag k (B "scope") name) field z in
    (Z.abs (fs_current (state_after p1)) <= 2 ^ 53 -> shown key (B "current") (fs_current (state_after p1))) /\
    (Z.abs (fs_highwater (state_after (p1 ++ p2))) <= 2 ^ 53 -> shown key (B "highwater") (fs_highwater (state_after (p1 ++ p2)))) /\
    (Z.of_nat (length l) <= 2 ^ 53 ->
     shown key (B "successes") (number_of CSuccess l) /\
     shown key (B "errors") (number_of_errors l) /\
     shown key (B "panics") (number_of CPanic l) /\
     shown key (B "failures") (number_of_errors l + number_of CPanic l) /\
     shown key (B "total") (Z.of_nat (length l)) /\
     forall e, 0 < number_of (CError e) l -> shown (error_key key e) (B "count") (number_of (CError e) l)).
Proof. intros other faults s range name calls sched i sn key ds errs Hl Hs Hc Ht Hp. exact (func_lines other faults s range name calls Hl Hs sched i sn key ds errs Hc Ht Hp). Qed.
Print Assumptions C93_function.

(** A counter: its value and the extremes since the last Reset. *)
Theorem C93_counter : forall other faults s range name calls h key,
  one_line_stats (registry_source range) -> (name, scope_forward name calls) ∈ range ->
  map (fun '(f, v) => Stat key f v) (counter_Stats (counter_run h)) ∈ calls ->
  Forall (fun v => Z.abs v <= 2 ^ 53) (values_taken h) ->
  exists chunks lines, delivered faults s chunks (registry_text other faults s range) /\ read_stats (concat chunks) = Some lines /\
    let k := with_tag key (B "scope") name in
    has_integer lines k (B "value") (latest (values_taken h)) /\
    match values_taken h with
    | [] => has_line lines k (B "high") (B "NaN") /\ has_line lines k (B "low") (B "NaN")
    | _ => exists hi lo, largest (values_taken h) hi /\ smallest (values_taken h) lo /\
             has_integer lines k (B "high") hi /\ has_integer lines k (B "low") lo
    end.
Proof. intros other faults s range name calls h key Hl Hs Hc Hv. exact (counter_lines other faults s range name calls Hl Hs h key Hc Hv). Qed.
Print Assumptions C93_counter.

(** A meter: the sum of all marks, and the rate. *)
Theorem C93_meter : forall other faults s range name calls t0 h now key,
  one_line_stats (registry_source range) -> (name, scope_forward name calls) ∈ range ->
  map (fun '(f, v) => Stat key f v) (meter_Stats (meter_run t0 h) now) ∈ calls ->
  exists chunks lines, delivered faults s chunks (registry_text other faults s range) /\ read_stats (concat chunks) = Some lines /\
    let k := with_tag key (B "scope") name in
    (marks_and_ticks h -> Z.abs (sum_marks h) <= 2 ^ 53 -> has_integer lines k (B "total") (sum_marks h)) /\
    exists start, head (window (ledger_run t0 h)) = Some start /\
      let age := now - snd start in
      let marks := wrap64 (zsum (map fst (window (ledger_run t0 h)))) in
      let r := (IZR marks / in_seconds age)%R in
      in64 age ->
      (0 < age -> has_about lines k (B "rate") r (/ 2000000 + bpow radix2 (-50) * Rabs r)%R) /\
      (age <= 0 -> has_integer lines k (B "rate") 0).
Proof. intros other faults s range name calls t0 h now key Hl Hs Hc. exact (meter_lines other faults s range name calls Hl Hs t0 h now key Hc). Qed.
Print Assumptions C93_meter.

(** A rate of less than one in two million seconds is shown as 0. *)
Theorem C93_rate_refuted : exists c d, 0 < c /\ 0 < d /\ in64 c /\ in64 d /\ fixed_text 6 (text_float (rate c d)) = B "0.000000".
Proof. exists 1, (2000001 * 1000000000). split_and!; try (unfold in64; lia). vm_compute. reflexivity. Qed.
Print Assumptions C93_rate_refuted.

(** ** Example: a scope with a function, a counter and a meter. *)
Definition no_value (v : fval) : f64 := B754_nan.
Definition whole_call (i : nat) (err : option bytes) (pk : bool) (d : Z) : list (action fcall) :=
  Spawn (FCall None err pk d) :: replicate 9 (Run i).
Definition ex_sched : list (action fcall) :=
  whole_call 0 None false 3 ++ whole_call 1 (Some (B "EOF")) false 4 ++ whole_call 2 (Some (B "EOF")) true 5 ++ whole_call 3 None false 6 ++
  [Spawn (FCall None None false 7)] ++ replicate 3 (Run 4) ++ [Spawn FStats; Run 5; Run 5; Run 5].
Definition ex_snap : option snapshot :=
  match threads (f_exec ex_sched) !! 5%nat with Some (FThr FStats (F_done (FRStats sn))) => Some sn | _ => None end.
Definition ex_key : series_key := with_tag (SeriesKey (B "function") ∅) (B "name") (B "f").
Definition ex_calls (sn : snapshot) : list (list (stat fval)) :=
  [fs_stats ex_key (fun k l => []) sn (map_to_list (sn_errors sn));
   map (fun '(f, v) => Stat (SeriesKey (B "c") ∅) f v) (counter_Stats (counter_run [CInc 7; CDec 9]));
   map (fun '(f, v) => Stat (SeriesKey (B "m") ∅) f v) (meter_Stats (meter_run 0 [MMark 3; MTick 600000000; MMark 4]) 2000000000)].
Definition ex_text : option bytes :=
  match ex_snap with
  | Some sn => Some (sk_out (fst (registry_text no_value (fun _ => None) (Sink [] 0) [(B "sc", scope_forward (B "sc") (ex_calls sn))])))
  | None => None
  end.
Example C93_example : ex_text = Some (concat (map (fun l => B l ++ [newline])
  ["function,name=f,scope=sc current=1.000000"; "function,name=f,scope=sc highwater=1.000000"; "function,name=f,scope=sc successes=2.000000";
   "function,error_name=EOF,name=f,scope=sc count=1.000000"; "function,name=f,scope=sc errors=1.000000"; "function,name=f,scope=sc panics=1.000000";
   "function,name=f,scope=sc failures=2.000000"; "function,name=f,scope=sc total=4.000000";
   "c,scope=sc high=7.000000"; "c,scope=sc low=-2.000000"; "c,scope=sc value=-2.000000";
   "m,scope=sc rate=3.500000"; "m,scope=sc total=7.000000"]%string)).
Proof. vm_compute. reflexivity. Qed.
(** The hypotheses of the theorems hold for it. *)
Definition one_line_b (st : stat fval) : bool :=
  bool_decide (newline ∉ sk_measurement (st_key st)) && bool_decide (newline ∉ st_field st) &&
  bool_decide (map_Forall (fun k v => newline ∉ k /\ newline ∉ v) (sk_tags (st_key st))).
Lemma ex_snap_of (p : snapshot -> bool) : match ex_snap with Some sn => p sn | None => false end = true ->
  exists sn, ex_snap = Some sn /\ threads (f_exec ex_sched) !! 5%nat = Some (FThr FStats (F_done (FRStats sn))) /\ p sn = true.
Proof.
  unfold ex_snap. generalize (threads (f_exec ex_sched) !! 5%nat). intros [[c q]|] H; [|discriminate H].
  destruct c; try discriminate H. destruct q; try discriminate H. destruct r as [| |sn]; try discriminate H.
  exists sn. split; [reflexivity|]. split; [reflexivity|exact H].
Qed.
Definition ex_ok (sn : snapshot) : bool := forallb one_line_b (registry_source [(B "sc", scope_forward (B "sc") (ex_calls sn))]).
Lemma ex_ok_spec sn : ex_ok sn = true -> one_line_stats (registry_source [(B "sc", scope_forward (B "sc") (ex_calls sn))]).
Proof.
  unfold ex_ok. generalize (registry_source [(B "sc", scope_forward (B "sc") (ex_calls sn))]). intros l H.
  apply Forall_forall. intros st Hst. rewrite forallb_forall in H.
  apply elem_of_list_In, H in Hst. unfold one_line_b in Hst. apply andb_true_iff in Hst as [Hst H3]. apply andb_true_iff in Hst as [H1 H2].
  apply bool_decide_eq_true in H1, H2, H3. split; [exact H1|]. split; [exact H2|]. exact H3.
Qed.
Example C93_hypotheses : exists sn, ex_snap = Some sn /\
  threads (f_exec ex_sched) !! 5%nat = Some (FThr FStats (F_done (FRStats sn))) /\
  one_line_stats (registry_source [(B "sc", scope_forward (B "sc") (ex_calls sn))]).
Proof.
  destruct (ex_snap_of ex_ok) as (sn & H1 & H2 & H3); [vm_compute; reflexivity|].
  exists sn. split; [exact H1|]. split; [exact H2|exact (ex_ok_spec sn H3)].
Qed.
