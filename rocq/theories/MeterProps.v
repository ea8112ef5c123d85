(** Properties C07 and C08. *)
From Verif Require Import Base Fval MeterModel MeterSpec MeterProofs.
Local Open Scope Z_scope.

(** C07: with only marks and background ticks, Total is the sum of the marks. *)
Theorem C07_total_is_sum_of_marks :
  forall t0 h now, marks_and_ticks h -> meter_Total (meter_run t0 h) now = FInt (wrap64 (sum_marks h)).
Proof. exact meter_total_marks. Qed.
Print Assumptions C07_total_is_sum_of_marks.

(** C07: Reset x restarts the sum at x, whatever happened before. *)
Theorem C07_total_after_reset :
  forall t0 h1 x t1 h2 now, in64 x -> marks_and_ticks h2 ->
    meter_Total (meter_run t0 (h1 ++ MReset x t1 :: h2)) now = FInt (wrap64 (x + sum_marks h2)).
Proof. exact meter_total_after_reset. Qed.
Print Assumptions C07_total_after_reset.

(** C07: SetTotal x keeps what is still in the window. *)
Theorem C07_total_after_set_total :
  forall t0 h x h2 now, in64 x -> marks_and_ticks h2 ->
    meter_Total (meter_run t0 (h ++ MSetTotal x :: h2)) now =
    FInt (wrap64 (x + zsum (map fst (window (ledger_run t0 h))) + sum_marks h2)).
Proof. exact meter_set_total. Qed.
Print Assumptions C07_total_after_set_total.

(** C07: for every history, Total is what the ledger of all buckets says. *)
Theorem C07_total_every_history :
  forall t0 h now, meter_Total (meter_run t0 h) now = FInt (ledger_total (ledger_run t0 h)).
Proof. exact meter_total_ledger. Qed.
Print Assumptions C07_total_every_history.

(** C07: a background tick never changes Total, in any history. *)
Theorem C07_tick_preserves_total :
  forall t0 h tk now,
    meter_Total (meter_run t0 (h ++ [MTick tk])) now = meter_Total (meter_run t0 h) now.
Proof. exact meter_tick_total. Qed.
Print Assumptions C07_tick_preserves_total.

(** C07: DiffMeter's total is the difference of the two totals. *)
Theorem C07_diffmeter_total :
  forall m1 m2 now, exists r,
    diffmeter_Stats m1 m2 now =
    [(B "rate", r); (B "total", FInt (wrap64 (snd (meter_stats m1 now) - snd (meter_stats m2 now))))].
Proof. exact diffmeter_total. Qed.
Print Assumptions C07_diffmeter_total.

(** Setting the total after marks does not make Total the given value. *)
Theorem C07_set_total_is_total_refuted :
  exists t0 h x now, in64 x /\ meter_Total (meter_run t0 (h ++ [MSetTotal x])) now <> FInt x.
Proof.
  exists 0, [MMark 5], 7, 1. split; [unfold in64; lia|]. vm_compute. discriminate.
Qed.
Print Assumptions C07_set_total_is_total_refuted.

(** A run in which 30 buckets pass through the 24-bucket window. *)
Example C07_nonvacuous :
  let h := concat (map (fun i => [MMark (Z.of_nat i); MTick (Z.of_nat i * 600)]) (seq 1 30)) in
  marks_and_ticks h /\ meter_Total (meter_run 0 h) 20000 = FInt 465 /\
  meter_Rate (meter_run 0 h) 20000 = FRatio 437 15800.
Proof. cbn zeta. split; [repeat constructor|]. vm_compute. split; reflexivity. Qed.

(** C08: Rate is the sum of the last 24 buckets over the age of the oldest of
    them, 0 if no time has passed. *)
Theorem C08_rate_is_window_rate :
  forall t0 h now, exists oldest,
    head (window (ledger_run t0 h)) = Some oldest /\
    meter_Rate (meter_run t0 h) now =
      if 0 <? now - snd oldest
      then FRatio (wrap64 (zsum (map fst (window (ledger_run t0 h))))) (now - snd oldest)
      else FInt 0.
Proof. exact meter_rate_ledger. Qed.
Print Assumptions C08_rate_is_window_rate.

(** C08: a tick of a meter on which nothing was marked since the last one changes nothing. *)
Theorem C08_quiet_meter_keeps_window :
  forall t0 h a b, meter_run t0 (h ++ [MTick a; MTick b]) = meter_run t0 (h ++ [MTick a]).
Proof. exact meter_quiet. Qed.
Print Assumptions C08_quiet_meter_keeps_window.

Example C08_nonvacuous :
  let h := [MMark 3; MTick 600; MTick 1200; MMark 4] in
  window (ledger_run 0 h) = replicate 22 (0, 0) ++ [(3, 0); (4, 600)] /\
  meter_Rate (meter_run 0 h) 2000 = FRatio 7 2000.
Proof. vm_compute. split; reflexivity. Qed.

(** C08: DiffMeter's rate is the difference of the two rates at the same moment. *)
Theorem C08_diffmeter_rate :
  forall m1 m2 now, exists t,
    diffmeter_Stats m1 m2 now = [(B "rate", FSub (meter_Rate m1 now) (meter_Rate m2 now)); (B "total", t)].
Proof. exact diffmeter_rate. Qed.
Print Assumptions C08_diffmeter_rate.
