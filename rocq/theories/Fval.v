(** Symbolic float64 values passed to Stats callbacks.

    Most properties do not depend on floating-point rounding; for them a
    reported value is a small symbolic expression that says which float64 the
    code computes.  (Rounding itself is treated with Flocq in the Query area.) *)
From Verif Require Import Base SeriesModel.

Inductive fval :=
| FInt (z : Z)          (** float64(z) for an int64 z *)
| FNaN                  (** math.NaN() *)
| FBool (b : bool)      (** 1 or 0 *)
| FRatio (num den_ns : Z)   (** float64(num) / Duration(den_ns).Seconds() *)
| FSub (x y : fval)     (** x - y *)
| FSeconds (ns : Z)     (** Duration(ns).Seconds() *)
| FQuant (kind : bytes) (** an opaque quantile/average value of a distribution *)
| FOpaque (tag : N).    (** any other float, identified by a tag *)

Global Instance fval_eq_dec : EqDecision fval.
Proof. solve_decision. Defined.
