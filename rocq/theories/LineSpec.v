(** Vocabulary for the lines of StatsText (for C93). *)
From Coq Require Import Reals.
From Verif Require Import Base SeriesModel FloatTextModel.
From Verif Require Export FloatTextSpec.

(** The text is the integer, with a sign and six zeros after the point. *)
Definition shows_integer (t : bytes) (z : Z) : Prop := read_number t = Some ((z <? 0)%Z, (Z.abs z * 10 ^ 6)%Z, (-6)%Z).
(** The text is a decimal number with six places that differs from [r] by at most [err]. *)
Definition shows_about (t : bytes) (r err : R) : Prop :=
  exists neg d, read_number t = Some (neg, d, (-6)%Z) /\ (Rabs (IZR (signed neg d) / 1000000 - r) <= err)%R.
(** The lines of a report have one that gives the series [key] [field] the text. *)
Definition has_line (lines : list (bytes * bytes)) (key : series_key) (field t : bytes) : Prop :=
  (with_field key field, t) ∈ lines.
(** No line breaks in the names of the series. *)
Definition one_line_stats {V} (stats : list (stat V)) : Prop := Forall (fun st => one_line (st_key st) (st_field st)) stats.
(** The lines have one for the series of which [shows] says the text. *)
Definition has_integer (lines : list (bytes * bytes)) (key : series_key) (field : bytes) (z : Z) : Prop :=
  exists t, has_line lines key field t /\ shows_integer t z.
Definition has_about (lines : list (bytes * bytes)) (key : series_key) (field : bytes) (r err : R) : Prop :=
  exists t, has_line lines key field t /\ shows_about t r err.
