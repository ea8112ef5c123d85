(** Numbers with a fraction in the reports: fmt's %f (present/stats.go 34: StatsText) and %.02f
    (present/funcs.go 27, json.go 133: names of quantiles) and encoding/json's float64 (stats.go 41-47: StatsJSON).
    fmt and encoding/json go through strconv, which is not part of the repository; the definitions
    here follow its documentation: %f rounds the exact value correctly (half to even), precision
    -1 gives the least number of digits that ParseFloat turns back into the number. *)
From Verif Require Import Base SeriesModel PresentModel JsonModel.
Local Open Scope Z_scope.

(** ** float64 (IEEE 754 binary64): (-1)^neg * m * 2^(j - 1074). *)
Inductive float64 :=
| NaN64
| Inf64 (neg : bool)
| Fin64 (neg : bool) (m j : Z).
Definition unit64 : Z := 2 ^ 1074.
(** The value times 2^1074. *)
Definition mag (m j : Z) : Z := m * 2 ^ j.

(** ** Decimal digits. *)
(** A number that is not negative, without leading zeros. *)
Definition ndec (n : Z) : bytes := dec_go (S (Z.to_nat (Z.log2 n))) n [].
(** Its last p digits. *)
Fixpoint pad_dec (p : nat) (n : Z) (acc : bytes) : bytes :=
  match p with
  | O => acc
  | S p' => pad_dec p' (n / 10) (dec_digit (n mod 10) :: acc)
  end.
(** n / 10^p with p places after the point (strconv fmtF). *)
Definition point_text (p : nat) (n : Z) : bytes :=
  ndec (n / 10 ^ Z.of_nat p) ++ match p with O => [] | S _ => B "." ++ pad_dec p n [] end.
Definition sign_text (neg : bool) : bytes := if neg then B "-" else [].

(** ** fmt's %.pf (%f has p = 6) *)
(** n / d rounded to the nearest integer, half to even (strconv decimal.Round, shouldRoundUp). *)
Definition half_even (n d : Z) : Z :=
  let q := n / d in
  let r := n mod d in
  if 2 * r <? d then q else if d <? 2 * r then q + 1 else if Z.even q then q else q + 1.
(** fmt's fmtFloat: infinities always have a sign, NaN has none. *)
Definition fixed_text (p : nat) (f : float64) : bytes :=
  match f with
  | NaN64 => B "NaN"
  | Inf64 neg => if neg then B "-Inf" else B "+Inf"
  | Fin64 neg m j => sign_text neg ++ point_text p (half_even (mag m j * 10 ^ Z.of_nat p) unit64)
  end.
(** stats.go 34: "%s=%f\n" of key.WithField(field) and the value. *)
Definition stat_line (e : series_key * bytes * float64) : bytes :=
  let '(key, field, f) := e in with_field key field ++ B "=" ++ fixed_text 6 f ++ [newline].
(** stats.go 29-37: StatsText for the stats the Registry reports, in their order. *)
Definition stats_report (faults : nat -> option nat) (s : sink) (stats : list (series_key * bytes * float64)) : sink * option werr :=
  stats_text faults s (map stat_line stats).

(** ** encoding/json: floatEncoder *)
(** Numbers are compared as multiples of 2^-1074 * 10^-400; no digit matters below that. *)
Definition places : Z := 400.
(** The decimal exponent: the least k from [k] on with x < 10^k, if [bound] is 10^k. *)
Fixpoint exponent (fuel : nat) (x bound k : Z) : Z :=
  match fuel with
  | O => k
  | S fuel' => if x <? bound then k else exponent fuel' x (10 * bound) (k + 1)
  end.
(** The distance to the next smaller float64. *)
Definition gap_below (m j : Z) : Z := if (m =? 2 ^ 52) && (0 <? j) then 2 ^ (j - 1) else 2 ^ j.
(** Does ParseFloat turn v, a multiple of 2^-1074 * 10^-400, into the number? *)
Definition inside (m j v : Z) : bool :=
  let lo := (2 * mag m j - gap_below m j) * 10 ^ places in
  let hi := (2 * mag m j + 2 ^ j) * 10 ^ places in
  if Z.even m then (lo <=? 2 * v) && (2 * v <=? hi) else (lo <? 2 * v) && (2 * v <? hi).
(** strconv roundShortest / ryuFtoaShortest: for n = 1, 2, ... digits, the number cut off after
    n digits or that plus one in the last place, whichever is turned back into the number; the
    nearer one (half to even) if both are.  The result is digits and exponent. *)
Fixpoint shortest_go (fuel : nat) (m j k : Z) (n : Z) : Z * Z :=
  let x := mag m j * 10 ^ places in
  let step := unit64 * 10 ^ (k - n + places) in
  let down := x / step in
  let okdown := inside m j (down * step) in
  let okup := inside m j ((down + 1) * step) in
  match fuel with
  | O => (down, k - n)
  | S fuel' =>
      if okdown && okup then (half_even x step, k - n)
      else if okdown then (down, k - n)
      else if okup then (down + 1, k - n)
      else shortest_go fuel' m j k (n + 1)
  end.
(** Trailing zeros are dropped (strconv trim; after a carry). *)
Fixpoint trim_zeros (fuel : nat) (d e : Z) : Z * Z :=
  match fuel with
  | O => (d, e)
  | S fuel' => if d mod 10 =? 0 then trim_zeros fuel' (d / 10) (e + 1) else (d, e)
  end.
Definition shortest (m j : Z) : Z * Z :=
  let k := exponent 640 (mag m j * 10 ^ places) (unit64 * 10 ^ (places - 323)) (-323) in
  let (d, e) := shortest_go 17 m j k 1 in trim_zeros 17 d e.
(** strconv fmtF: digits d, exponent e. *)
Definition fmt_f (d e : Z) : bytes :=
  if 0 <=? e then ndec (d * 10 ^ e) else point_text (Z.to_nat (- e)) d.
(** strconv fmtE, one digit before the point; the exponent has at least two digits, but
    encoding/json turns e-09 into e-9 (above 1e21 it has two anyway). *)
Definition fmt_e (d e : Z) : bytes :=
  let ds := ndec d in
  let x := e + Z.of_nat (length ds) - 1 in
  take 1 ds ++ (if (1 <? length ds)%nat then B "." ++ drop 1 ds else []) ++ B "e" ++ (if x <? 0 then B "-" else B "+") ++ ndec (Z.abs x).
(** The float64 constants 1e-6 and 1e21, times 2^1074. *)
Definition const_1e_6 : Z := 4722366482869645 * 2 ^ (1074 - 72).
Definition const_1e21 : Z := 10 ^ 21 * 2 ^ 1074.
Definition json_float (f : float64) : option bytes :=
  match f with
  | NaN64 | Inf64 _ => None
  | Fin64 neg m j =>
      if m =? 0 then Some (sign_text neg ++ B "0")
      else
        let (d, e) := shortest m j in
        Some (sign_text neg ++ (if (mag m j <? const_1e_6) || (const_1e21 <=? mag m j) then fmt_e d e else fmt_f d e))
  end.
(** stats.go 41-47: StatsJSON. *)
Definition stat_elem (e : bytes * option (list (bytes * bytes)) * bytes * float64) : gov :=
  let '(m, tags, field, f) := e in stats_elem m tags field (json_float f).
