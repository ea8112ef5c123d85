(** Property C06. *)
From Verif Require Import Base Fval CounterModel CounterSpec CounterProofs.
Local Open Scope Z_scope.

(** C06: Current/High/Low are the latest/largest/smallest value the counter took
    since construction or the last Reset (0 if none). *)
Theorem C06_counter_views :
  forall h, let vs := values_taken h in let c := counter_run h in
    counter_Current c = latest vs /\ largest vs (counter_High c) /\ smallest vs (counter_Low c).
Proof. exact counter_views. Qed.
Print Assumptions C06_counter_views.

(** C06: what every mutating call returns. *)
Theorem C06_counter_results :
  forall h o, let vs := values_taken h in let c := counter_run h in
    match o with
    | CSet _ => counter_result c o = [latest vs]
    | CInc _ | CDec _ => counter_result c o = [latest (take_value vs o)]
    | CReset => exists lo hi, counter_result c o = [latest vs; lo; hi] /\ smallest vs lo /\ largest vs hi
    end.
Proof. exact counter_results. Qed.
Print Assumptions C06_counter_results.

(** C06: Current is the last Set's value (or 0) plus all deltas since, modulo 2^64. *)
Theorem C06_counter_sum_since_set :
  forall h1 v h2, in64 v -> only_deltas h2 ->
    counter_Current (counter_run (h1 ++ CSet v :: h2)) = wrap64 (v + sum_deltas h2).
Proof. exact counter_sum_from_set. Qed.
Print Assumptions C06_counter_sum_since_set.

Theorem C06_counter_sum_since_reset :
  forall h1 h2, only_deltas h2 ->
    counter_Current (counter_run (h1 ++ CReset :: h2)) = wrap64 (sum_deltas h2) /\
    counter_Current (counter_run h2) = wrap64 (sum_deltas h2).
Proof. exact counter_sum_from_reset. Qed.
Print Assumptions C06_counter_sum_since_reset.

(** C06: exactly high, low and value are emitted; NaN iff nothing was recorded. *)
Theorem C06_counter_stats :
  forall h, let vs := values_taken h in
    match vs with
    | [] => counter_Stats (counter_run h) = [(B "high", FNaN); (B "low", FNaN); (B "value", FInt 0)]
    | _ => exists hi lo, largest vs hi /\ smallest vs lo /\
             counter_Stats (counter_run h)
               = [(B "high", FInt hi); (B "low", FInt lo); (B "value", FInt (latest vs))]
    end.
Proof. exact counter_stats_spec. Qed.
Print Assumptions C06_counter_stats.

(** A history with a wrap-around, a reset and only negative values. *)
Example C06_nonvacuous :
  counter_run [CSet 9223372036854775807; CInc 1] = Counter (-9223372036854775808) (-9223372036854775808) 9223372036854775807 true /\
  counter_run [CInc 5; CReset; CDec 3; CDec 4] = Counter (-7) (-7) (-3) true /\
  only_deltas [CDec 3; CDec 4] /\ in64 9223372036854775807.
Proof.
  split; [vm_compute; reflexivity|]. split; [vm_compute; reflexivity|].
  split; [repeat constructor|]. unfold in64. lia.
Qed.
