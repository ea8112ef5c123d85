(** Vocabulary for reported numbers (for C92). *)
From Coq Require Import Reals.
From Flocq Require Import Core BinarySingleNaN.
From Verif Require Import Base QueryModel.
From Verif Require Export QuerySpec.
Local Open Scope R_scope.

(** A number of nanoseconds, in seconds. *)
Definition in_seconds (ns : Z) : R := IZR ns / 1000000000.
(** [x] is a finite number that differs from [r] by at most the [c]-th part of r. *)
Definition about (c : R) (x : f64) (r : R) : Prop := is_finite x = true /\ Rabs (B2R x - r) <= c * Rabs r.
(** [x] is a finite number and equal to [r]. *)
Definition exactly (x : f64) (r : R) : Prop := is_finite x = true /\ B2R x = r.
(** Two numbers have the same sign (or are both zero). *)
Definition same_sign (x y : R) : Prop := (0 < x <-> 0 < y) /\ (x < 0 <-> y < 0) /\ (x = 0 <-> y = 0).
