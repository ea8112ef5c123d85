(** Query's arithmetic: intdist.go 124-153, durdist.go and floatdist.go (all
    generated from distgen.go.m4). The float32 and float64 operations are those
    of IEEE 754 (Flocq), rounding to nearest even; NaN payloads are not modelled. *)
From Flocq Require Import Core BinarySingleNaN.
From Verif Require Import Base DistModel.
Open Scope Z_scope.

Global Instance prec24 : Prec_gt_0 24 := eq_refl.
Global Instance prec53 : Prec_gt_0 53 := eq_refl.
Global Instance emax128 : Prec_lt_emax 24 128 := eq_refl.
Global Instance emax1024 : Prec_lt_emax 53 1024 := eq_refl.
Notation f32 := (binary_float 24 128).
Notation f64 := (binary_float 53 1024).

(** Conversions: float64(x) of a float32 and of an integer, and float32(x) of an
    integer and of a float64. *)
Definition to64 (x : f32) : f64 :=
  match x with
  | B754_zero s => B754_zero s
  | B754_infinity s => B754_infinity s
  | B754_nan => B754_nan
  | B754_finite s m e _ => binary_normalize 53 1024 _ _ mode_NE (cond_Zopp s (Zpos m)) e s
  end.
Definition int64_64 (z : Z) : f64 := binary_normalize 53 1024 _ _ mode_NE z 0 false.
Definition int64_32 (z : Z) : f32 := binary_normalize 24 128 _ _ mode_NE z 0 false.
Definition float64_32 (x : f64) : f32 :=
  match x with
  | B754_zero s => B754_zero s
  | B754_infinity s => B754_infinity s
  | B754_nan => B754_nan
  | B754_finite s m e _ => binary_normalize 24 128 _ _ mode_NE (cond_Zopp s (Zpos m)) e s
  end.
(** float32Slice.Less, dist.go 40-44 *)
Definition f32_less (x y : f32) : bool := Bltb x y.

(** diff*delta + prior: rounded after each operation, or fused; the Go language
    permits both, and compilers for different processors differ. *)
Definition muladd (fused : bool) (diff delta prior : f64) : f64 :=
  if fused then Bfma mode_NE diff delta prior else Bplus mode_NE prior (Bmult mode_NE diff delta).
(** idx_float - float64(idx), where idx_float is quantile * float64(rlen-1):
    rounded after each operation, or fused; the Go language permits fusing across
    statements. *)
Definition fraction (fused : bool) (quantile len1 idx_float idx : f64) : f64 :=
  if fused then Bfma mode_NE quantile len1 (Bopp idx) else Bminus mode_NE idx_float idx.

Definition nth_z {A} (l : list A) (i : Z) : option A := if (0 <=? i)%Z then l !! Z.to_nat i else None.
(** intdist.go 130-153 on the elements Query reads (DistModel.query_reads);
    [None]: index out of range. For a NaN quantile int(idx_float) is
    implementation-defined; the theorems exclude it. *)
Definition query_value (fused_frac fused_add : bool) (reads : list f32) (quantile : f64) : option f64 :=
  match reads with
  | [] => None
  | [x] => Some (to64 x)
  | _ =>
      let rlen := Z.of_nat (length reads) in
      if Bleb quantile (B754_zero false) then (match nth_z reads 0 with Some x => Some (to64 x) | None => None end)
      else if Bleb (int64_64 1) quantile then (match nth_z reads (rlen - 1) with Some x => Some (to64 x) | None => None end)
      else
        let len1 := int64_64 (rlen - 1) in
        let idx_float := Bmult mode_NE quantile len1 in
        let idx := Btrunc idx_float in
        let diff := fraction fused_frac quantile len1 idx_float (int64_64 idx) in
        match nth_z reads idx, nth_z reads (idx + 1) with
        | Some p, Some x => Some (muladd fused_add diff (Bminus mode_NE (to64 x) (to64 p)) (to64 p))
        | _, _ => None
        end
  end.
(** Query, with the arithmetic as written (no fusing of the index computation). *)
Definition query {V R} (fused_add : bool) (d : dist V f32 R) (quantile : f64) : option f64 :=
  query_value false fused_add (query_reads f32_less d) quantile.

(** int64(x) and time.Duration(x) of a float64 truncate; when the result does not
    fit, it is implementation-defined (inner [None]). *)
Definition int64_of (x : f64) : option Z := if is_finite x && ((- 2 ^ 63 <=? Btrunc x) && (Btrunc x <? 2 ^ 63)) then Some (Btrunc x) else None.
(** IntDist.Query and DurationDist.Query, intdist.go 124-153, durdist.go 125-154 *)
Definition int_query {V R} (fused_add : bool) (d : dist V f32 R) (quantile : f64) : option (option Z) :=
  option_map int64_of (query fused_add d quantile).
