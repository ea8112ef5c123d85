(** C92: the numbers of reports - integers, durations, rates and differences - as float64. *)
From Coq Require Import Reals Lra Lia.
From Flocq Require Import Core BinarySingleNaN.
From Verif Require Import Base SeriesModel Fval DistModel QueryModel NumModel NumSpec NumProofs MeterModel MeterSpec SpecBase.
Local Open Scope R_scope.

(** Counts and totals: the nearest double; exact up to 2^53; in order; 0 only for 0. *)
Theorem C92_integers : forall z : Z, in64 z ->
  exactly (int64_64 z) (nearest (IZR z)) /\ about (bpow radix2 (-53)) (int64_64 z) (IZR z) /\
  ((Z.abs z <= 2 ^ 53)%Z -> exactly (int64_64 z) (IZR z)) /\
  same_sign (B2R (int64_64 z)) (IZR z) /\
  (forall z' : Z, in64 z' -> (z <= z')%Z -> B2R (int64_64 z) <= B2R (int64_64 z')).
Proof. exact integers. Qed.
Print Assumptions C92_integers.

(** Above 2^53 two different counts can be reported as the same number, and their difference as 0. *)
Theorem C92_integers_refuted : exists z : Z,
  in64 (z + 1) /\ int64_64 z = int64_64 (z + 1) /\ exactly (difference (int64_64 (z + 1)) (int64_64 z)) 0.
Proof. exact integers_refuted. Qed.
Print Assumptions C92_integers_refuted.

(** Durations are reported in seconds. *)
Theorem C92_seconds : forall d : Z, in64 d ->
  about (bpow radix2 (-52) + bpow radix2 (-106)) (seconds d) (in_seconds d) /\
  same_sign (B2R (seconds d)) (IZR d) /\
  (forall d' : Z, in64 d' -> (d <= d')%Z -> B2R (seconds d) <= B2R (seconds d')) /\
  ((Z.rem d 1000000000 = 0)%Z -> exactly (seconds d) (in_seconds d)).
Proof. exact seconds_spec. Qed.
Print Assumptions C92_seconds.

(** Up to 2*10^15 ns (23 days) the number of nanoseconds can be recovered: it is the integer
    nearest to 10^9 times the reported number.  So different durations are reported differently. *)
Theorem C92_seconds_back : forall d : Z, (Z.abs d <= 2000000000000000)%Z ->
  Rabs (B2R (seconds d) * 1000000000 - IZR d) < / 2 /\
  (forall d' : Z, (Z.abs d' <= 2000000000000000)%Z -> seconds d' = seconds d -> d' = d).
Proof. exact seconds_back. Qed.
Print Assumptions C92_seconds_back.

(** Not for longer ones: from 98 days on. *)
Theorem C92_seconds_back_refuted : exists d : Z,
  (0 < d <= 8388609 * 1000000000)%Z /\ seconds d = seconds (d + 1).
Proof. exact seconds_back_refuted. Qed.
Print Assumptions C92_seconds_back_refuted.

(** Rates: marks per second. *)
Theorem C92_rate : forall c d : Z, in64 c -> in64 d ->
  ((0 < d)%Z -> about (bpow radix2 (-50)) (rate c d) (IZR c / in_seconds d) /\ same_sign (B2R (rate c d)) (IZR c)) /\
  ((d <= 0)%Z -> exactly (rate c d) 0).
Proof. exact rate_spec. Qed.
Print Assumptions C92_rate.

(** More marks in the same time never give a lower rate, and neither do as many in less time. *)
Theorem C92_rate_ordered : forall c c' d d' : Z, in64 c -> in64 c' -> in64 d -> in64 d' ->
  (0 <= c <= c')%Z -> (0 < d' <= d)%Z -> B2R (rate c d) <= B2R (rate c' d').
Proof. exact rate_ordered. Qed.
Print Assumptions C92_rate_ordered.

(** What a Meter reports after any history of calls. *)
Theorem C92_meter : forall other t0 h now, exists start,
  head (window (ledger_run t0 h)) = Some start /\
  let age := (now - snd start)%Z in
  let marks := wrap64 (zsum (map fst (window (ledger_run t0 h)))) in
  let reported := float_of other (meter_Rate (meter_run t0 h) now) in
  in64 age ->
  reported = rate marks age /\
  ((0 < age)%Z -> about (bpow radix2 (-50)) reported (IZR marks / in_seconds age)) /\ ((age <= 0)%Z -> exactly reported 0).
Proof. exact meter_spec. Qed.
Print Assumptions C92_meter.

(** Differences (DeltaTransformer's delta, DiffMeter's rate): the double nearest to the difference
    of the two reported numbers; positive, negative or zero as they are ordered. *)
Theorem C92_difference : forall x y : f64, is_finite x = true -> is_finite y = true ->
  Rabs (B2R x - B2R y) <= bpow radix2 1023 ->
  exactly (difference x y) (nearest (B2R x - B2R y)) /\
  about (bpow radix2 (-53)) (difference x y) (B2R x - B2R y) /\
  same_sign (B2R (difference x y)) (B2R x - B2R y).
Proof. exact difference_spec. Qed.
Print Assumptions C92_difference.

(** Differences of integers up to 2^53 are exact, whatever the integers' own sizes, as long as both are reported exactly;
    and so is every difference of numbers that are within a factor of 2. *)
Theorem C92_difference_exact :
  (forall (x y : f64) (a b : Z), exactly x (IZR a) -> exactly y (IZR b) -> (Z.abs (a - b) <= 2 ^ 53)%Z ->
     exactly (difference x y) (IZR (a - b))) /\
  (forall x y : f64, is_finite x = true -> is_finite y = true -> B2R y / 2 <= B2R x <= 2 * B2R y ->
     exactly (difference x y) (B2R x - B2R y)).
Proof. exact difference_exact. Qed.
Print Assumptions C92_difference_exact.

(** The rate of a DiffMeter, both of whose meters have been running for some time. *)
Theorem C92_diffmeter : forall c1 d1 c2 d2 : Z, in64 c1 -> in64 d1 -> in64 c2 -> in64 d2 -> (0 < d1)%Z -> (0 < d2)%Z ->
  let r1 := IZR c1 / in_seconds d1 in let r2 := IZR c2 / in_seconds d2 in
  let reported := difference (rate c1 d1) (rate c2 d2) in
  is_finite reported = true /\ Rabs (B2R reported - (r1 - r2)) <= bpow radix2 (-49) * (Rabs r1 + Rabs r2).
Proof. exact diff_close. Qed.
Print Assumptions C92_diffmeter.

(** Examples. *)
Example C92_int_example : exactly (int64_64 (-42)) (-42).
Proof. apply (C92_integers (-42)); [unfold in64; lia|lia]. Qed.
Example C92_seconds_example : exactly (seconds 3000000000) 3.
Proof.
  assert (3 = in_seconds 3000000000) as -> by (unfold in_seconds; lra). apply C92_seconds; [unfold in64; lia|reflexivity].
Qed.
(** 7 marks within 2 seconds *)
Example C92_rate_example :
  let h := [MMark 3; MTick 600000000; MMark 4] in
  meter_Rate (meter_run 0 h) 2000000000 = FRatio 7 2000000000 /\ exactly (rate 7 2000000000) (7 / 2).
Proof. split; [vm_compute; reflexivity|exact rate_example]. Qed.
Example C92_difference_example : exactly (difference (int64_64 12) (int64_64 5)) 7.
Proof. apply (proj1 C92_difference_exact _ _ 12%Z 5%Z); [apply C92_integers; [unfold in64; lia|lia]..|lia]. Qed.
