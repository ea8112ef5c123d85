(** Vocabulary for C14 and C15. *)
From Verif Require Import Base RngModel.
Local Open Scope N_scope.

(** A bijection of the valid states: every valid state has exactly one predecessor. *)
Definition permutes {S} (valid : S -> Prop) (next : S -> S) : Prop :=
  (forall s, valid s -> valid (next s)) /\
  (forall t, valid t -> exists s, valid s /\ next s = t /\ forall s', valid s' -> next s' = t -> s' = s).

(** The states a generator can have. *)
Definition valid64 (x : N) : Prop := x < 2 ^ 64.
Definition valid128 (s : N * N) : Prop := fst s < 2 ^ 64 /\ snd s < 2 ^ 64.
Definition valid1024 (st : xs1024) : Prop :=
  length (x_s st) = 16%nat /\ Forall (fun x => x < 2 ^ 64) (x_s st) /\ x_p st < 16.

(** The possible start values and increments of the id counter: from 8 random bytes, or
    from two 63-bit random numbers. *)
Definition id_config (cfg : N * N) : Prop :=
  (exists b, b < 2 ^ 64 /\ cfg = id_init b) \/
  (exists r1 r2, r1 < 2 ^ 63 /\ r2 < 2 ^ 63 /\ cfg = id_init_fallback r1 r2).

