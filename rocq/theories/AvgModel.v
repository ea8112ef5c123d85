(** The averages of distributions with their arithmetic: intdist.go 100-121, durdist.go
    101-122, floatdist.go 99-120 (one template, distgen.go.m4).  Floats as in QueryModel. *)
From Flocq Require Import Core BinarySingleNaN.
From Verif Require Import Base DistModel QueryModel.
Open Scope Z_scope.

(** sum += reservoir[i], intdist.go 116-119: float32 additions in the order of the reservoir *)
Definition sum32 (reads : list f32) : f32 := fold_left (Bplus mode_NE) reads (B754_zero false).
(** sum / float32(amount), intdist.go 120, floatdist.go 119 *)
Definition avg32 (reads : list f32) : f32 := Bdiv mode_NE (sum32 reads) (int64_32 (Z.of_nat (length reads))).

(** FloatDist.ReservoirAverage, floatdist.go 107-120 *)
Definition float_ravg {V R} (d : dist V f32 R) : f64 :=
  match average_reads d with [] => B754_zero false | reads => to64 (avg32 reads) end.
(** int64(x) and time.Duration(x) of a float32; implementation-defined when it does not fit *)
Definition int64_of32 (x : f32) : option Z := if is_finite x && ((- 2 ^ 63 <=? Btrunc x) && (Btrunc x <? 2 ^ 63)) then Some (Btrunc x) else None.
(** IntDist.ReservoirAverage, intdist.go 108-121, and DurationDist's, durdist.go 109-122 *)
Definition int_ravg {V R} (d : dist V f32 R) : option Z :=
  match average_reads d with [] => Some 0 | reads => int64_of32 (avg32 reads) end.

(** FloatDist: values are float64s, compared and added as such. *)
Definition fdist_run {R} := @dist_run f64 f32 R (B754_zero false) Bltb (Bplus mode_NE) float64_32 f32_less.
Definition fdist_new {R} (r : R) : dist f64 f32 R := dist_new (B754_zero false) (B754_zero false) r.
(** FloatDist.FullAverage, floatdist.go 99-104 *)
Definition float_FullAverage {R} (d : dist f64 f32 R) : f64 :=
  if 0 <? d_count d then Bdiv mode_NE (d_sum d) (int64_64 (d_count d)) else B754_zero false.
