(** Property C68: the generator behind the reservoirs runs through all its states. *)
From Verif Require Import Base RngModel RngSpec PeriodSpec PeriodProofs.
Local Open Scope N_scope.

(** C68: from any non-zero state, the state recurs after exactly the multiples of 2^128 - 1
    draws. *)
Theorem C68_state_period : forall s d, live s -> (state_after s d = s <-> N.divide (2 ^ 128 - 1) d).
Proof. exact period. Qed.
Print Assumptions C68_state_period.

(** C68: the stream of results shifted by [d] draws is the same stream only if [d] is a
    multiple of 2^128 - 1. *)
Theorem C68_stream_period : forall s d, live s -> ((forall n, draw s (n + d) = draw s n) <-> N.divide (2 ^ 128 - 1) d).
Proof. exact draws_period. Qed.
Print Assumptions C68_stream_period.

(** C68: within 2^128 - 1 draws every non-zero state occurs exactly once. *)
Theorem C68_every_state : forall s t, live s -> live t ->
  exists n, n < 2 ^ 128 - 1 /\ state_after s n = t /\ forall m, m < 2 ^ 128 - 1 -> state_after s m = t -> m = n.
Proof. exact all_states. Qed.
Print Assumptions C68_every_state.

(** C68: and so every result occurs equally often: once with each of the 2^64 first words of
    the state it leaves behind, except that the result 0 never leaves the first word 0. *)
Theorem C68_every_result : forall s v a, live s -> v < 2 ^ 64 -> a < 2 ^ 64 -> (v <> 0 \/ a <> 0) ->
  exists n, n < 2 ^ 128 - 1 /\ draw s n = v /\ fst (state_after s (n + 1)) = a /\
    forall m, m < 2 ^ 128 - 1 -> draw s m = v -> fst (state_after s (m + 1)) = a -> m = n.
Proof. exact draws_even. Qed.
Print Assumptions C68_every_result.

(** C68: every seed but 0 gives a non-zero state. *)
Theorem C68_seeded : forall seed, valid64 seed -> seed <> 0 -> live (xs128_seed seed).
Proof. exact seed_live. Qed.
Print Assumptions C68_seeded.

Example C68_ex : valid64 12345 /\ live (xs128_seed 12345) /\ live (1, 0) /\ draw (1, 0) 0 = 8388673 /\ state_after (1, 0) 1 = (0, 8388673).
Proof. split_and!; [reflexivity|apply seed_live; [reflexivity|discriminate]|split; [split; reflexivity|discriminate]|reflexivity|reflexivity]. Qed.
