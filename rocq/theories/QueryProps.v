(** Property C11: quantile queries.  A history is as in DistProps; [V] is any value
    type, [to32] its conversion to float32; [average_reads d] are the elements the
    reservoir holds (C10).  [fused] says whether the compiler fuses the final
    multiplication and addition; the theorems hold either way. *)
From Coq Require Import Reals Lra.
From Flocq Require Import Core BinarySingleNaN.
From Verif Require Import Base DistModel DistSpec QueryModel QuerySpec QueryProofs.
Open Scope Z_scope.

(** C11: every quantile other than NaN gets a finite answer, between the smallest
    and the largest element held (in particular no index is out of range). *)
Theorem C11_bounded :
  forall V R (vzero : V) vlt vadd fzero (to32 : V -> f32) (rng_next : R -> Z * R) r h d,
    inserts h + 1 < 2 ^ 63 ->
    dist_run vzero vlt vadd to32 f32_less rng_next (dist_new vzero fzero r) h = Ok d ->
    recorded h <> [] -> Forall (fun v => is_finite (to32 v) = true) (recorded h) ->
    forall fused q, is_nan q = false ->
      exists v lo hi, query fused d q = Some v /\ is_finite v = true /\
        smallest_value (average_reads d) lo /\ largest_value (average_reads d) hi /\ (lo <= B2R v <= hi)%R.
Proof. exact @queried_range. Qed.
Print Assumptions C11_bounded.

(** C11: Query(0), or less, is the smallest element held and Query(1), or more, the
    largest. *)
Theorem C11_extremes :
  forall V R (vzero : V) vlt vadd fzero (to32 : V -> f32) (rng_next : R -> Z * R) r h d,
    inserts h + 1 < 2 ^ 63 ->
    dist_run vzero vlt vadd to32 f32_less rng_next (dist_new vzero fzero r) h = Ok d ->
    recorded h <> [] -> Forall (fun v => is_finite (to32 v) = true) (recorded h) ->
    forall fused q,
      (Bleb q (B754_zero false) = true -> exists v, query fused d q = Some v /\ smallest_value (average_reads d) (B2R v)) /\
      (Bleb (int64_64 1) q = true -> exists v, query fused d q = Some v /\ largest_value (average_reads d) (B2R v)).
Proof.
  intros V R vzero vlt vadd fzero to32 rng_next r h d Hb Hr Hne Hf fused q.
  split; intros H; [eapply queried_low|eapply queried_high]; eassumption.
Qed.
Print Assumptions C11_extremes.

(** C11: in between, Query interpolates between the order statistics around
    q * (n - 1), n the number of elements held. *)
Theorem C11_interpolates :
  forall V R (vzero : V) vlt vadd fzero (to32 : V -> f32) (rng_next : R -> Z * R) r h d,
    inserts h + 1 < 2 ^ 63 ->
    dist_run vzero vlt vadd to32 f32_less rng_next (dist_new vzero fzero r) h = Ok d ->
    recorded h <> [] -> Forall (fun v => is_finite (to32 v) = true) (recorded h) ->
    forall fused q v, is_finite q = true -> (0 < B2R q < 1)%R -> (2 <= length (average_reads d))%nat -> query fused d q = Some v ->
      interpolates (average_reads d) (nearest (B2R q * IZR (Z.of_nat (length (average_reads d)) - 1))) (B2R v).
Proof. exact @queried_between. Qed.
Print Assumptions C11_interpolates.

(** C11: larger quantiles get larger answers. *)
Theorem C11_monotone :
  forall V R (vzero : V) vlt vadd fzero (to32 : V -> f32) (rng_next : R -> Z * R) r h d,
    inserts h + 1 < 2 ^ 63 ->
    dist_run vzero vlt vadd to32 f32_less rng_next (dist_new vzero fzero r) h = Ok d ->
    recorded h <> [] -> Forall (fun v => is_finite (to32 v) = true) (recorded h) ->
    forall fused q1 q2 v1 v2, is_nan q1 = false -> is_nan q2 = false -> Bleb q1 q2 = true ->
      query fused d q1 = Some v1 -> query fused d q2 = Some v2 -> (B2R v1 <= B2R v2)%R.
Proof. exact @queried_mono. Qed.
Print Assumptions C11_monotone.

(** C11: int64 and Duration observations are always finite as float32, and float64
    ones up to 2^127 in magnitude. *)
Theorem C11_finite_values :
  (forall z, in64 z -> is_finite (int64_32 z) = true) /\
  (forall x : f64, is_finite x = true -> (Rabs (B2R x) <= bpow radix2 127)%R -> is_finite (float64_32 x) = true).
Proof. split; [exact int64_32_finite|exact float64_32_finite]. Qed.
Print Assumptions C11_finite_values.

(** C11: IntDist.Query and DurationDist.Query answer with the integer part, which
    also lies between the smallest and the largest element held, and are monotone,
    for observations up to 2^63 - 2^39. *)
Theorem C11_integers :
  forall R vlt vadd fzero (rng_next : R -> Z * R) r h d,
    inserts h + 1 < 2 ^ 63 ->
    dist_run 0 vlt vadd int64_32 f32_less rng_next (dist_new 0 fzero r) h = Ok d ->
    recorded h <> [] -> Forall (fun z => - 2 ^ 63 <= z <= 2 ^ 63 - 2 ^ 39) (recorded h) ->
    forall fused q, is_nan q = false ->
      exists z v lo hi, query fused d q = Some v /\ int_query fused d q = Some (Some z) /\ z = Ztrunc (B2R v) /\
        smallest_value (average_reads d) (IZR lo) /\ largest_value (average_reads d) (IZR hi) /\ lo <= z <= hi.
Proof. exact @int_queried. Qed.
Print Assumptions C11_integers.
Theorem C11_integers_monotone :
  forall R vlt vadd fzero (rng_next : R -> Z * R) r h d,
    inserts h + 1 < 2 ^ 63 ->
    dist_run 0 vlt vadd int64_32 f32_less rng_next (dist_new 0 fzero r) h = Ok d ->
    recorded h <> [] -> Forall (fun z => - 2 ^ 63 <= z <= 2 ^ 63 - 2 ^ 39) (recorded h) ->
    forall fused q1 q2 z1 z2, is_nan q1 = false -> is_nan q2 = false -> Bleb q1 q2 = true ->
      int_query fused d q1 = Some (Some z1) -> int_query fused d q2 = Some (Some z2) -> z1 <= z2.
Proof. exact @int_mono. Qed.
Print Assumptions C11_integers_monotone.

(** The distributions of the examples: IntDist and FloatDist. *)
Definition int_run := dist_run 0 Z.ltb (fun x y => wrap64 (x + y)) int64_32 f32_less (fun r : Z => (r, r + 1)).
Definition float_run := dist_run (B754_zero false : f64) Bltb (Bplus mode_NE) float64_32 f32_less (fun r : Z => (r, r + 1)).
Definition half : f64 := Bdiv mode_NE (int64_64 1) (int64_64 2).

(** The hypotheses hold and the answers are as expected: the median of 10, 3, 8 is
    8, and half-way between 3 and 10 is 6.5. *)
Example C11_example :
  match int_run (dist_new 0 (B754_zero false) 5) [(0, DInsert 10); (0, DInsert 3); (0, DQuery); (0, DInsert 8)],
        int_run (dist_new 0 (B754_zero false) 5) [(0, DInsert 10); (0, DInsert 3)] with
  | Ok d, Ok e =>
      match query false d half, query true e half, query true d (int64_64 1), query true d (int64_64 (-1)) with
      | Some a, Some b, Some c, Some g => B2SF a = B2SF (int64_64 8) /\ B2SF b = B2SF (Bdiv mode_NE (int64_64 13) (int64_64 2)) /\
          B2SF c = B2SF (int64_64 10) /\ B2SF g = B2SF (int64_64 3)
      | _, _, _, _ => False
      end
  | _, _ => False
  end.
Proof. vm_compute. split_and!; reflexivity. Qed.
Example C11_example_finite :
  Forall (fun v => is_finite (int64_32 v) = true) [10; 3; 8; 2 ^ 63 - 1; - 2 ^ 63].
Proof. repeat constructor. Qed.

(** C11 is false for FloatDist values beyond the range of float32, though they are
    finite: the median of 1, 2^130 and 2^130 + 2^100 is NaN. *)
Theorem C11_large_values_refuted :
  exists h d v, inserts h + 1 < 2 ^ 63 /\ Forall (fun v => is_finite v = true) (recorded h) /\
    float_run (dist_new (B754_zero false) (B754_zero false) 5) h = Ok d /\
    query false d half = Some v /\ is_nan v = true.
Proof.
  set (h := [(0, DInsert (R := Z) (int64_64 1)); (0, DInsert (int64_64 (2 ^ 130))); (0, DInsert (int64_64 (2 ^ 130 + 2 ^ 100)))]).
  assert (C : match float_run (dist_new (B754_zero false) (B754_zero false) 5) h with
              | Ok d => match query false d half with Some v => is_nan v | None => false end
              | Panic _ => false
              end = true) by (vm_compute; reflexivity).
  destruct (float_run _ h) as [d|] eqn:E; [|discriminate]. destruct (query false d half) as [v|] eqn:Eq; [|discriminate].
  exists h, d, v. split; [reflexivity|]. split; [repeat constructor|]. auto.
Qed.
Print Assumptions C11_large_values_refuted.

(** C11 is false when the compiler fuses the subtraction giving the fraction with the
    multiplication giving the position, as the Go language permits (even across
    statements): a quantile of 0, 0, 1, 1 is then negative. *)
Theorem C11_fused_position_refuted :
  exists q reads v, all_finite reads /\ (forall x, x ∈ reads -> (0 <= B2R x)%R) /\ is_finite q = true /\
    query_value true false reads q = Some v /\ Bltb v (B754_zero false) = true.
Proof.
  set (q := Bdiv mode_NE (int64_64 1) (int64_64 3)). set (reads := [int64_32 0; int64_32 0; int64_32 1; int64_32 1]).
  assert (C : match query_value true false reads q with Some v => Bltb v (B754_zero false) | None => false end = true) by (vm_compute; reflexivity).
  destruct (query_value true false reads q) as [v|] eqn:E; [|discriminate]. exists q, reads, v.
  split; [repeat constructor|]. split.
  { intros x Hx. assert (E0 : B2R (int64_32 0) = 0%R) by reflexivity.
    assert (E1 : (0 <= B2R (int64_32 1))%R). { replace (int64_32 1) with (Bone : f32); [rewrite Bone_correct; lra|]. apply B2SF_inj. vm_compute. reflexivity. }
    unfold reads in Hx. rewrite !elem_of_cons, elem_of_nil in Hx. destruct Hx as [->|[->|[->|[->|[]]]]]; [rewrite E0|rewrite E0|exact E1|exact E1]; lra. }
  split; [vm_compute; reflexivity|]. split; [exact E|exact C].
Qed.
Print Assumptions C11_fused_position_refuted.

(** C11 is false for the largest int64 observations: MaxInt64 becomes 2^63 as a
    float32, which no longer fits, so that Query's result is implementation-defined. *)
Theorem C11_max_int_refuted :
  exists d, int_run (dist_new 0 (B754_zero false) 5) [(0, DInsert (2 ^ 63 - 1))] = Ok d /\
    forall fused q, int_query fused d q = Some None.
Proof.
  destruct (int_run (dist_new 0 (B754_zero false) 5) [(0, DInsert (2 ^ 63 - 1))]) as [d|] eqn:E.
  - exists d. split; [reflexivity|]. intros fused q.
    assert (C : match int_run (dist_new 0 (B754_zero false) 5) [(0, DInsert (2 ^ 63 - 1))] with
                | Ok d => d_count d = 1 /\ match d_res d with x :: _ => int64_of (to64 x) = None | [] => False end
                | Panic _ => False
                end) by (vm_compute; split; reflexivity).
    rewrite E in C. destruct C as [Hc Hx]. destruct (d_res d) as [|x res] eqn:Ed; [contradiction|].
    assert (Er : query_reads f32_less d = [x]) by (unfold query_reads, rlen; rewrite Hc, Ed; reflexivity).
    unfold int_query, query. rewrite Er. change (Some (int64_of (to64 x)) = Some None). rewrite Hx. reflexivity.
  - exfalso. assert (C : match int_run (dist_new 0 (B754_zero false) 5) [(0, DInsert (2 ^ 63 - 1))] with Ok _ => true | Panic _ => false end = true) by (vm_compute; reflexivity).
    rewrite E in C. discriminate.
Qed.
Print Assumptions C11_max_int_refuted.
