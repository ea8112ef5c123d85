(** Vocabulary for averages: sums of real numbers. *)
From Coq Require Import Reals.
From Verif Require Import Base.
Local Open Scope R_scope.

Definition total (l : list R) : R := fold_right Rplus 0 l.
Definition mean (l : list R) : R := total l / INR (length l).
(** The mean of the magnitudes. *)
Definition mean_abs (l : list R) : R := mean (map Rabs l).
