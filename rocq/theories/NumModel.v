(** The numbers that statistics report, with their arithmetic.  Floats as in QueryModel, where
    float64(z) of an int64 is [int64_64]. *)
From Flocq Require Import Core BinarySingleNaN.
From Verif Require Import Base SeriesModel Fval DistModel QueryModel.
Open Scope Z_scope.

(** time.Duration.Seconds, as the Go library computes it; used in dist.go 51-53, meter.go 127,
    environment/process.go 45 *)
Definition seconds (d : Z) : f64 :=
  Bplus mode_NE (int64_64 (Z.quot d 1000000000))
    (Bdiv mode_NE (int64_64 (Z.rem d 1000000000)) (int64_64 1000000000)).

(** Meter.stats, meter.go 127-132: current events since a time dur ago (now.Sub(start), a
    duration in nanoseconds) *)
Definition rate (current dur : Z) : f64 :=
  if Bltb (B754_zero false) (seconds dur) then Bdiv mode_NE (int64_64 current) (seconds dur)
  else B754_zero false.

(** val - lastTotal, transform.go 76; rate1 - rate2, meter.go 179 *)
Definition difference (x y : f64) : f64 := Bminus mode_NE x y.

(** The float64 that an expression of Fval.v stands for.  [other] gives the values that are left
    open there. *)
Section value.
  Variable other : fval -> f64.
  Fixpoint float_of (v : fval) : f64 :=
    match v with
    | FInt z => int64_64 z
    | FNaN => B754_nan
    | FBool b => int64_64 (if b then 1 else 0)
    | FRatio c d => Bdiv mode_NE (int64_64 c) (seconds d)
    | FSub x y => difference (float_of x) (float_of y)
    | FSeconds d => seconds d
    | FQuant _ | FOpaque _ => other v
    end.
End value.
