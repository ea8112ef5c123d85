(** What the numbers in the reports say (C85, C86). *)
From Verif Require Import Base SeriesModel PresentModel JsonModel JsonSpec SvgSpec FloatTextModel.
Local Open Scope Z_scope.

(** ** Reading decimal numbers *)
Definition number_of (s : bytes) : Z := fold_left (fun a c => 10 * a + (byte c - 48)) s 0.
Definition read_sign (s : bytes) : bool * bytes :=
  match s with c :: s' => if byte c =? 45 then (true, s') else if byte c =? 43 then (false, s') else (false, s) | [] => (false, []) end.
Definition signed (neg : bool) (n : Z) : Z := if neg then - n else n.
(** A number in the syntax of JSON, which is also that of %f: sign, digits and power of ten;
    12.5e3 is (false, 125, 2). *)
Definition read_number (s : bytes) : option (bool * Z * Z) :=
  if number_text s then
    let (neg, s1) := read_sign s in
    let (i, r) := span_of is_digit s1 in
    let (f, r1) := match r with c :: r' => if byte c =? 46 then span_of is_digit r' else ([], r) | [] => ([], []) end in
    let x := match r1 with _ :: e => let (xneg, ds) := read_sign e in signed xneg (number_of ds) | [] => 0 end in
    Some (neg, number_of (i ++ f), x - Z.of_nat (length f))
  else None.

(** ** float64 *)
(** The finite float64s: 53 bits, and all of them used unless the exponent is the least. *)
Definition float_parts (m j : Z) : Prop := 0 <= m < 2 ^ 53 /\ 0 <= j /\ (j = 0 \/ 2 ^ 52 <= m).
Definition float_ok (f : float64) : Prop :=
  match f with Fin64 _ m j => float_parts m j /\ j <= 2045 | _ => True end.
Definition finite (f : float64) : Prop := match f with Fin64 _ _ _ => True | _ => False end.

(** |d * 10^e - m * 2^(j-1074)|, times 2^1074 and, if e is negative, 10^-e. *)
Definition distance (d e m j : Z) : Z :=
  Z.abs (d * 10 ^ Z.max e 0 * 2 ^ 1074 - m * 2 ^ j * 10 ^ Z.max (- e) 0).
(** IEEE 754: d * 10^e is rounded to the nearest number, as if there were no bound for exponents,
    and of two nearest numbers to the even one. *)
Definition rounds_to (d e m j : Z) : Prop :=
  float_parts m j /\
  forall m' j', float_parts m' j' -> (m', j') <> (m, j) -> distance d e m j < distance d e m' j' \/ (distance d e m j = distance d e m' j' /\ Z.even m = true).
(** The text is parsed as the float64. *)
Definition parses_as (t : bytes) (f : float64) : Prop :=
  exists neg d e m j, f = Fin64 neg m j /\ read_number t = Some (neg, d, e) /\ rounds_to d e m j.

(** ** StatsText *)
(** The value to six places: no more than half a millionth off. *)
Definition shown (f : float64) (t : bytes) : Prop :=
  match f with
  | NaN64 => t = B "NaN"
  | Inf64 neg => t = if neg then B "-Inf" else B "+Inf"
  | Fin64 neg m j => exists d, read_number t = Some (neg, d, -6) /\ 2 * distance d (-6) m j <= 2 ^ 1074
  end.
(** Lines, each of them name=number; the number begins after the last equals sign. *)
Fixpoint read_lines (line : bytes) (s : bytes) : option (list bytes) :=
  match s with
  | [] => match line with [] => Some [] | _ => None end
  | c :: s' => if byte c =? 10 then match read_lines [] s' with Some l => Some (rev line :: l) | None => None end else read_lines (c :: line) s'
  end.
Fixpoint last_equals (s : bytes) : option (bytes * bytes) :=
  match s with
  | [] => None
  | c :: s' => match last_equals s' with
               | Some (x, y) => Some (c :: x, y)
               | None => if byte c =? 61 then Some ([], s') else None
               end
  end.
Definition read_stats (s : bytes) : option (list (bytes * bytes)) :=
  match read_lines [] s with
  | Some l => foldr (fun x acc => match last_equals x, acc with Some e, Some r => Some (e :: r) | _, _ => None end) (Some []) l
  | None => None
  end.
(** No line breaks in the parts of a series. *)
Definition one_line (key : series_key) (field : bytes) : Prop :=
  newline ∉ sk_measurement key /\ newline ∉ field /\ forall k v, sk_tags key !! k = Some v -> newline ∉ k /\ newline ∉ v.
