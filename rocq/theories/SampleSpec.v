(** Vocabulary for C84: how likely a recorded value is to be in the reservoir. *)
From Verif Require Import Base DistModel.
Local Open Scope Z_scope.

(** A generator that gives out prepared draws. *)
Definition draw (r : list Z) : Z * list Z := match r with x :: r' => (x, r') | [] => (0, []) end.
(** f 0 + ... + f (n - 1) *)
Fixpoint sum_below (f : Z -> Z) (n : nat) : Z := match n with O => 0 | S n' => sum_below f n' + f (Z.of_nat n') end.
(** Of all sequences of draws, the i-th below the i-th of [Ts], how many have a property. *)
Fixpoint count_draws (Ts : list nat) (P : list Z -> bool) : Z :=
  match Ts with
  | [] => if P [] then 1 else 0
  | T :: Ts' => sum_below (fun x => count_draws Ts' (fun xs => P (x :: xs))) T
  end.
Definition product (l : list Z) : Z := fold_right Z.mul 1 l.

(** What is done with a distribution: values are recorded, with queries in between. *)
Inductive use := URecord | UQuery | UAverage.
Fixpoint records (h : list use) : nat := match h with [] => 0 | URecord :: h' => S (records h') | _ :: h' => records h' end.
(** As a history of operations, the i-th value recorded being [val i]. *)
Fixpoint history {V R} (val : Z -> V) (W : Z) (i : Z) (h : list use) : list (Z * dist_op V R) :=
  match h with
  | [] => []
  | URecord :: h' => (W, DInsert (val i)) :: history val W (i + 1) h'
  | UQuery :: h' => (W, DQuery) :: history val W i h'
  | UAverage :: h' => (W, DAverage) :: history val W i h'
  end.
(** The run that records positions instead of values: 0, 1, 2, ...; unused slots are None. *)
Definition positions (less : option Z -> option Z -> bool) (W : Z) (h : list use) (draws : list Z) : outcome (dist Z (option Z) (list Z)) :=
  dist_run 0 Z.ltb Z.add Some less draw (dist_new 0 None draws) (history (fun i => i) W 0 h).
(** Is the k-th value recorded in the reservoir? *)
Definition sampled (k : Z) (o : outcome (dist Z (option Z) (list Z))) : bool := match o with Ok d => bool_decide (Some k ∈ d_res d) | Panic _ => false end.

(** The number of values that the i-th value (from 0) competes with: all up to it, at most [W]. *)
Definition window (W i : Z) : Z := if decide (0 < W) then Z.min W (i + 1) else i + 1.
(** Those of the values from the 64th on, of n. *)
Definition windows (W : Z) (n : nat) : list Z := map (fun i => window W (Z.of_nat i)) (seq 64 (n - 64)).
(** The first m numbers a generator gives. *)
Fixpoint outputs {R} (next : R -> Z * R) (r : R) (m : nat) : list Z := match m with O => [] | S m' => fst (next r) :: outputs next (snd (next r)) m' end.
(** Rounded down and up. *)
Definition quot_lo (T w : Z) : Z := T / w.
Definition quot_hi (T w : Z) : Z := (T + w - 1) / w.
(** Sequences of draws, each below its window, after which the k-th of the values recorded is in the reservoir; all of them. *)
Definition favourable (less : option Z -> option Z -> bool) (W : Z) (h : list use) (k : Z) : Z :=
  count_draws (map Z.to_nat (windows W (records h))) (fun draws => sampled k (positions less W h draws)).
Definition possible (W : Z) (h : list use) : Z := count_draws (map Z.to_nat (windows W (records h))) (fun _ => true).
(** The same for 64-bit numbers, as the generator gives them. *)
Definition favourable64 (less : option Z -> option Z -> bool) (W : Z) (h : list use) (k : Z) : Z :=
  count_draws (map (fun _ => Z.to_nat (2 ^ 64)) (windows W (records h))) (fun draws => sampled k (positions less W h draws)).
(** What a position stands for. *)
Definition image {V F} (fzero : F) (to32 : V -> F) (val : Z -> V) (o : option Z) : F := match o with Some i => to32 (val i) | None => fzero end.
