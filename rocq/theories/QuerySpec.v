(** Vocabulary for quantile queries. *)
From Coq Require Import Reals.
From Flocq Require Import Core BinarySingleNaN.
From Verif Require Import Base QueryModel.

(** The values in [l] are finite numbers (neither infinite nor NaN). *)
Definition all_finite (l : list f32) : Prop := Forall (fun x => is_finite x = true) l.
(** [v] is the element of rank [k] (from 0) of [l] in ascending order. *)
Definition order_stat (l : list f32) (k : nat) (v : R) : Prop :=
  exists a x b, l ≡ₚ a ++ x :: b /\ length a = k /\ v = B2R x /\
    (forall y, y ∈ a -> (B2R y <= v)%R) /\ (forall y, y ∈ b -> (v <= B2R y)%R).
Definition smallest_value (l : list f32) (v : R) : Prop := (exists x, x ∈ l /\ v = B2R x) /\ forall y, y ∈ l -> (v <= B2R y)%R.
Definition largest_value (l : list f32) (v : R) : Prop := (exists x, x ∈ l /\ v = B2R x) /\ forall y, y ∈ l -> (B2R y <= v)%R.

(** The double nearest to a real number (ties to even). *)
Definition nearest (x : R) : R := round radix2 (FLT_exp (-1074) 53) ZnearestE x.
(** [r] interpolates [l] at rank [pos]: it lies between the elements of the ranks
    k <= pos < k+1 and is, up to a relative error of 2^-50, at the
    corresponding fraction of the way. *)
Definition interpolates (l : list f32) (pos r : R) : Prop :=
  exists k a b, order_stat l k a /\ order_stat l (S k) b /\ (INR k <= pos < INR k + 1)%R /\
    (a <= r <= b)%R /\ (Rabs (r - (a + (pos - INR k) * (b - a))) <= bpow radix2 (-50) * (Rabs a + Rabs b))%R.
