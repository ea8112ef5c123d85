(** Property C88: the averages of distributions, and the counters of a FloatDist.  A
    history is as in DistProps, [rng_next] any random generator.  [total], [mean] and
    [mean_abs] are the exact sum, mean and mean of the magnitudes (AvgSpec); floats are
    IEEE 754 floats rounded to the nearest, [B2R] their value as a real number. *)
From Coq Require Import Reals Lra.
From Flocq Require Import Core BinarySingleNaN.
From Verif Require Import Base DistModel DistSpec DistProofs QueryReal QueryModel QuerySpec QueryProps AvgModel AvgSpec AvgProofs2 AvgProofs3 AvgProofs4.
Local Open Scope Z_scope.

(** C88: IntDist.ReservoirAverage and DurationDist's, for values within 2^62 of 0, is an
    integer within one (and a 65536th part of the mean magnitude) of the mean of the
    values whose images the reservoir holds: min(Count, 64) of those recorded. *)
Theorem C88_int_reservoir :
  forall R vlt vadd fzero (rng_next : R -> Z * R) r h d,
    inserts h + 1 < 2 ^ 63 -> dist_run 0 vlt vadd int64_32 f32_less rng_next (dist_new 0 fzero r) h = Ok d ->
    recorded h <> [] -> Forall (fun z => Z.abs z <= 2 ^ 62) (recorded h) ->
    exists k ys, int_ravg d = Some k /\ ys ⊆+ recorded h /\ Z.of_nat (length ys) = Z.min (Z.of_nat (length (recorded h))) 64 /\
      average_reads d ≡ₚ map int64_32 ys /\
      (Rabs (IZR k - mean (map IZR ys)) < 1 + / 65536 * mean_abs (map IZR ys))%R.
Proof. exact @int_ravg_err. Qed.
Print Assumptions C88_int_reservoir.
(** C88: so, of up to 64 values, it is close to the mean of them all. *)
Theorem C88_int_few :
  forall R vlt vadd fzero (rng_next : R -> Z * R) r h d,
    inserts h + 1 < 2 ^ 63 -> dist_run 0 vlt vadd int64_32 f32_less rng_next (dist_new 0 fzero r) h = Ok d ->
    recorded h <> [] -> Forall (fun z => Z.abs z <= 2 ^ 62) (recorded h) -> (length (recorded h) <= 64)%nat ->
    exists k, int_ravg d = Some k /\
      (Rabs (IZR k - mean (map IZR (recorded h))) < 1 + / 65536 * mean_abs (map IZR (recorded h)))%R.
Proof.
  intros R vlt vadd fzero rng_next r h d Hb Hr Hne Hv Hl.
  destruct (int_ravg_err vlt vadd fzero rng_next r h d Hb Hr Hne Hv) as (k & ys & H1 & H2 & H3 & _ & H5).
  exists k. split; [exact H1|]. assert (P : ys ≡ₚ recorded h) by (apply submseteq_Permutation_length_le; [lia|exact H2]).
  assert (E1 : mean (map IZR ys) = mean (map IZR (recorded h))) by (apply mean_perm, (fmap_Permutation IZR), P).
  assert (E2 : mean_abs (map IZR ys) = mean_abs (map IZR (recorded h))) by (apply mean_perm, (fmap_Permutation Rabs), (fmap_Permutation IZR), P).
  rewrite <- E1, <- E2. exact H5.
Qed.
Print Assumptions C88_int_few.

(** C88: FloatDist.ReservoirAverage, for finite values within 2^120 of 0, is finite and
    within a 65536th part of the mean magnitude (and 2^-148) of the mean of the values
    whose images the reservoir holds. *)
Theorem C88_float_reservoir :
  forall R (rng_next : R -> Z * R) r h d,
    inserts h + 1 < 2 ^ 63 -> fdist_run rng_next (fdist_new r) h = Ok d -> recorded h <> [] ->
    Forall (fun v => is_finite v = true /\ (Rabs (B2R v) <= bpow radix2 120)%R) (recorded h) ->
    exists ys, ys ⊆+ recorded h /\ Z.of_nat (length ys) = Z.min (Z.of_nat (length (recorded h))) 64 /\
      average_reads d ≡ₚ map float64_32 ys /\ is_finite (float_ravg d) = true /\
      (Rabs (B2R (float_ravg d) - mean (map B2R ys)) <= / 65536 * mean_abs (map B2R ys) + bpow radix2 (-148))%R.
Proof. exact @float_ravg_err. Qed.
Print Assumptions C88_float_reservoir.

(** C88: while it has not overflowed, Sum of a FloatDist differs from the exact sum of the n
    values recorded by no more than n * 2^-52 of the sum of their magnitudes; then they
    were all finite, and FullAverage is finite and as close to the mean. *)
Theorem C88_float_sum :
  forall R (rng_next : R -> Z * R) r h d,
    inserts h + 1 < 2 ^ 63 -> fdist_run rng_next (fdist_new r) h = Ok d ->
    Z.of_nat (length (recorded h)) < 2 ^ 50 -> is_finite (d_sum d) = true ->
    let xs := map B2R (recorded h) in let n := INR (length (recorded h)) in
    d_count d = Z.of_nat (length (recorded h)) /\ Forall (fun v => is_finite v = true) (recorded h) /\
    (Rabs (B2R (d_sum d) - total xs) <= n * bpow radix2 (-52) * total (map Rabs xs))%R /\
    (recorded h <> [] -> is_finite (float_FullAverage d) = true /\
      Rabs (B2R (float_FullAverage d) - mean xs) <= (n + 1) * bpow radix2 (-52) * mean_abs xs + bpow radix2 (-1075))%R.
Proof.
  intros R rng_next r h d Hb Hr Hn Hf xs n.
  destruct (dist_sum _ _ _ _ _ _ _ r h d Hb Hr) as [_ Hc]. destruct (float_sum_err rng_next r h d Hb Hr Hn Hf) as [H1 H2].
  exact (conj Hc (conj H1 (conj H2 (float_average_err rng_next r h d Hb Hr Hn Hf)))).
Qed.
Print Assumptions C88_float_sum.

(** C88: when no value recorded is NaN, Low and High of a FloatDist are a smallest and a
    largest of them (infinities included) and Recent is the last. *)
Theorem C88_float_counters :
  forall R (rng_next : R -> Z * R) r h d,
    inserts h + 1 < 2 ^ 63 -> fdist_run rng_next (fdist_new r) h = Ok d ->
    recorded h <> [] -> Forall (fun v => is_nan v = false) (recorded h) ->
    d_low d ∈ recorded h /\ d_high d ∈ recorded h /\
    Forall (fun v => Bleb (d_low d) v = true /\ Bleb v (d_high d) = true) (recorded h) /\ last (recorded h) = Some (d_recent d).
Proof. exact @float_counters. Qed.
Print Assumptions C88_float_counters.

(** C88: without values since the beginning or the last Reset every average is 0. *)
Theorem C88_empty :
  forall R (rng_next : R -> Z * R) r h d hi vlt vadd fzero di,
    inserts h + 1 < 2 ^ 63 -> fdist_run rng_next (fdist_new r) h = Ok d -> recorded h = [] ->
    inserts hi + 1 < 2 ^ 63 -> dist_run 0 vlt vadd int64_32 f32_less rng_next (dist_new 0 fzero r) hi = Ok di -> recorded hi = [] ->
    float_ravg d = B754_zero false /\ float_FullAverage d = B754_zero false /\ int_ravg di = Some 0.
Proof.
  intros R rng_next r h d hi vlt vadd fzero di Hb Hr Hn Hb' Hr' Hn'.
  destruct (reservoir_holds _ _ _ _ _ _ _ r h d Hb Hr) as (H1 & _). rewrite Hn in H1. cbn in H1.
  destruct (dist_sum _ _ _ _ _ _ _ r h d Hb Hr) as [_ Hc]. rewrite Hn in Hc.
  destruct (reservoir_holds _ _ _ _ _ _ _ r hi di Hb' Hr') as (H2 & _). rewrite Hn' in H2. cbn in H2.
  unfold float_ravg, float_FullAverage, int_ravg. rewrite Hc.
  destruct (average_reads d); [|cbn in H1; lia]. destruct (average_reads di); [|cbn in H2; lia]. auto.
Qed.
Print Assumptions C88_empty.

(** ** Not guaranteed *)
Definition ints (l : list Z) : list (Z * dist_op Z Z) := map (fun z => (0, DInsert z)) l.
Definition floats (l : list f64) : list (Z * dist_op f64 Z) := map (fun v => (0, DInsert v)) l.
Local Notation irun h := (int_run (dist_new 0 (B754_zero false) 5) h).
Local Notation frun h := (fdist_run (fun r : Z => (r, r + 1)) (fdist_new 5) h).
(** The average of values need not lie between the smallest and the largest of them: of
    three times 16777214 it is 16777213. *)
Theorem C88_between_refuted :
  exists h d k, irun h = Ok d /\ int_ravg d = Some k /\ k < d_low d /\ recorded h = [16777214; 16777214; 16777214].
Proof.
  set (h := ints [16777214; 16777214; 16777214]).
  assert (C : match irun h with Ok d => match int_ravg d with Some k => k <? d_low d | None => false end | Panic _ => false end = true) by (vm_compute; reflexivity).
  destruct (irun h) as [d|] eqn:E; [|discriminate]. destruct (int_ravg d) as [k|] eqn:Ek; [|discriminate].
  exists h, d, k. split_and!; [exact E|exact Ek|apply Z.ltb_lt, C|reflexivity].
Qed.
Print Assumptions C88_between_refuted.
(** FloatDist.ReservoirAverage of large float64s is infinite though they are finite as float32s: twice 2^127. *)
Theorem C88_large_refuted :
  exists h d, frun h = Ok d /\ Forall (fun v => is_finite (float64_32 v) = true) (recorded h) /\ is_finite (float_ravg d) = false.
Proof.
  set (h := floats [int64_64 (2 ^ 127); int64_64 (2 ^ 127)]).
  assert (C : match frun h with Ok d => negb (is_finite (float_ravg d)) | Panic _ => false end = true) by (vm_compute; reflexivity).
  destruct (frun h) as [d|] eqn:E; [|discriminate]. exists h, d. split_and!; [exact E| |apply negb_true_iff, C].
  apply Forall_cons_2; [vm_compute; reflexivity|apply Forall_cons_2; [vm_compute; reflexivity|apply Forall_nil_2]].
Qed.
Print Assumptions C88_large_refuted.
(** Nor is the average of a single large int64 representable: that of MaxInt64 is 2^63. *)
Theorem C88_max_int_refuted :
  exists h d, irun h = Ok d /\ recorded h = [2 ^ 63 - 1] /\ int_ravg d = None.
Proof.
  set (h := ints [2 ^ 63 - 1]).
  assert (C : match irun h with Ok d => match int_ravg d with Some _ => false | None => true end | Panic _ => false end = true) by (vm_compute; reflexivity).
  destruct (irun h) as [d|] eqn:E; [|discriminate]. exists h, d. split_and!; [exact E|reflexivity|]. destruct (int_ravg d); [discriminate|reflexivity].
Qed.
Print Assumptions C88_max_int_refuted.
(** Low and High are NaN for ever when the first value is. *)
Theorem C88_nan_refuted :
  exists h d, frun h = Ok d /\ recorded h = [B754_nan; int64_64 1; int64_64 2] /\ is_nan (d_low d) = true /\ is_nan (d_high d) = true.
Proof.
  set (h := floats [B754_nan; int64_64 1; int64_64 2]).
  assert (C : match frun h with Ok d => is_nan (d_low d) && is_nan (d_high d) | Panic _ => false end = true) by (vm_compute; reflexivity).
  destruct (frun h) as [d|] eqn:E; [|discriminate]. apply andb_true_iff in C as [C1 C2]. exists h, d. split_and!; [exact E|reflexivity|exact C1|exact C2].
Qed.
Print Assumptions C88_nan_refuted.
(** Sum is not the exact sum: 2^53 and 1 give 2^53. *)
Theorem C88_exact_sum_refuted :
  exists h d, frun h = Ok d /\ recorded h = [int64_64 (2 ^ 53); int64_64 1] /\ d_sum d = int64_64 (2 ^ 53).
Proof.
  set (h := floats [int64_64 (2 ^ 53); int64_64 1]).
  assert (C : match frun h with Ok d => B2SF (d_sum d) = B2SF (int64_64 (2 ^ 53)) | Panic _ => False end) by (vm_compute; reflexivity).
  destruct (frun h) as [d|] eqn:E; [|contradiction]. exists h, d. split_and!; [exact E|reflexivity|apply B2SF_inj, C].
Qed.
Print Assumptions C88_exact_sum_refuted.

(** After a Reset nothing is recorded. *)
Example C88_example_empty : recorded (ints [10] ++ [(0, DReset)]) = [].
Proof. reflexivity. Qed.
(** The hypotheses hold and the averages are as expected: of 10, 3 and 8 they are 7 (as
    integers) and 7 (as floats). *)
Example C88_example :
  match irun (ints [10; 3; 8]), frun (floats [int64_64 10; int64_64 3; int64_64 8]) with
  | Ok d, Ok e => int_ravg d = Some 7 /\ B2SF (float_ravg e) = B2SF (int64_64 7) /\ B2SF (float_FullAverage e) = B2SF (int64_64 7) /\
      B2SF (d_sum e) = B2SF (int64_64 21) /\ B2SF (d_low e) = B2SF (int64_64 3) /\ B2SF (d_high e) = B2SF (int64_64 10)
  | _, _ => False
  end.
Proof. vm_compute. split_and!; reflexivity. Qed.
Example C88_example_values :
  recorded (ints [10; 3; 8]) = [10; 3; 8] /\ Forall (fun z => Z.abs z <= 2 ^ 62) [10; 3; 8] /\
  Forall (fun v => is_finite v = true) [int64_64 10; int64_64 3; int64_64 8] /\ Forall (fun v => is_nan v = false) [int64_64 10; int64_64 3; int64_64 8].
Proof. split_and!; [reflexivity| | |]; repeat (apply Forall_cons_2; [try reflexivity; vm_compute; discriminate|]); apply Forall_nil_2. Qed.
Example C88_example_mean : mean (map IZR [10; 3; 8]) = 7%R /\ mean_abs (map IZR [10; -3; 8]) = 7%R.
Proof.
  unfold mean_abs, mean, total. cbn [map length fold_right]. replace (INR 3) with 3%R by (cbn [INR]; lra).
  rewrite (Rabs_pos_eq 10), (Rabs_left (-3)), (Rabs_pos_eq 8) by lra. split; lra.
Qed.
Example C88_example_float_bound : is_finite (int64_64 10) = true /\ (Rabs (B2R (int64_64 10)) <= bpow radix2 120)%R.
Proof.
  destruct (int64_64_exact 10 ltac:(lia)) as [H1 H2]. split; [exact H1|]. rewrite H2, Rabs_pos_eq by (apply (IZR_le 0); lia).
  change (bpow radix2 120) with (IZR (2 ^ 120)). apply IZR_le. vm_compute. discriminate.
Qed.
