(** From statistics to the lines of StatsText (present/stats.go 29-37): the float64s of NumModel as
    FloatTextModel writes them.  Registry.Stats without transformers is [registry_source]
    (TransformModel); the callback of StatsText writes a line for each stat. *)
From Flocq Require Import Core BinarySingleNaN.
From Verif Require Import Base SeriesModel Fval DistModel QueryModel NumModel FloatTextModel PresentModel TransformModel.
Open Scope Z_scope.

(** A Flocq number in the representation of FloatTextModel: (-1)^neg * m * 2^(j - 1074). *)
Definition text_float (x : f64) : float64 :=
  match x with
  | B754_zero s => Fin64 s 0 0
  | B754_infinity s => Inf64 s
  | B754_nan => NaN64
  | B754_finite s m e _ => Fin64 s (Zpos m) (e + 1074)
  end.

(** The stats that a registry reports, with their numbers. *)
Definition report_of (other : fval -> f64) (stats : list (stat fval)) : list (series_key * bytes * float64) :=
  map (fun st => (st_key st, st_field st, text_float (float_of other (st_val st)))) stats.

(** StatsText(r, w) of a registry whose scopes report [range], present/stats.go 29-37, registry.go 230-235. *)
Definition registry_text (other : fval -> f64) (faults : nat -> option nat) (s : sink)
    (range : list (bytes * list (stat fval))) : sink * option werr :=
  stats_report faults s (report_of other (registry_source range)).
