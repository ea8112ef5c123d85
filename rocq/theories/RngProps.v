(** Properties C14 (random generators) and C15 (ids). *)
From Verif Require Import Base RngModel RngSpec RngProofs.
Local Open Scope N_scope.

(** C14: each generator's step is a bijection of its state space (every state has
    exactly one predecessor), and its results fit in 64 bits, so that Int63 (the result
    shifted right once) is a non-negative int64. *)
Theorem C14_lcg_permutes : permutes valid64 lcg_step.
Proof. exact (permutes_intro valid64 lcg_step (fun s _ => mod_lt64 _) lcg_inj lcg_surj). Qed.
Print Assumptions C14_lcg_permutes.

Theorem C14_xorshift64_permutes : permutes valid64 xs64_next.
Proof. exact (permutes_intro valid64 _ xs64_lt xs64_inj xs64_surj). Qed.
Print Assumptions C14_xorshift64_permutes.

Theorem C14_xorshift128_permutes : permutes valid128 (fun s => fst (xs128_next s)).
Proof. exact (permutes_intro valid128 (fun s => fst (xs128_next s)) (fun s H => proj1 (xs128_ok s H)) xs128_inj xs128_surj). Qed.
Print Assumptions C14_xorshift128_permutes.

Theorem C14_xorshift1024_permutes : permutes valid1024 (fun s => fst (xs1024_next s)).
Proof. exact (permutes_intro valid1024 (fun s => fst (xs1024_next s)) (fun s H => proj1 (xs1024_ok s H)) xs1024_inj xs1024_surj). Qed.
Print Assumptions C14_xorshift1024_permutes.

Theorem C14_results_fit :
  (forall l, valid64 l -> int63 (snd (lcg_uint64 l)) < 2 ^ 63) /\
  (forall s, valid64 s -> int63 (xs64_next s) < 2 ^ 63) /\
  (forall s, valid128 s -> int63 (snd (xs128_next s)) < 2 ^ 63) /\
  (forall s, valid1024 s -> int63 (snd (xs1024_next s)) < 2 ^ 63).
Proof.
  exact (conj (fun l _ => int63_bound _ (proj1 (lcg_out_lt l)))
        (conj (fun s H => int63_bound _ (xs64_lt s H))
        (conj (fun s H => int63_bound _ (proj2 (xs128_ok s H)))
              (fun s H => int63_bound _ (proj2 (xs1024_ok s H)))))).
Qed.
Print Assumptions C14_results_fit.

(** C14: a non-zero seed never leads to the all-zero state, after any number of steps. *)
Theorem C14_xorshift64_never_zero :
  forall seed n, valid64 seed -> seed <> 0 -> Nat.iter n xs64_next seed <> 0.
Proof. exact xs64_never_zero. Qed.
Print Assumptions C14_xorshift64_never_zero.

Theorem C14_xorshift128_never_zero :
  forall seed n, valid64 seed -> seed <> 0 ->
    Nat.iter n (fun s => fst (xs128_next s)) (xs128_seed seed) <> (0, 0).
Proof. exact xs128_never_zero'. Qed.
Print Assumptions C14_xorshift128_never_zero.

Theorem C14_xorshift1024_never_zero :
  forall seed n, valid64 seed -> seed <> 0 ->
    Exists (fun x => x <> 0) (x_s (Nat.iter n (fun s => fst (xs1024_next s)) (xs1024_seed seed))).
Proof. exact xs1024_never_zero'. Qed.
Print Assumptions C14_xorshift1024_never_zero.

Example C14_seed_example :
  valid64 12345 /\ xs128_seed 12345 <> (0, 0) /\
  Exists (fun x => x <> 0) (x_s (fst (xs1024_next (xs1024_seed 12345)))).
Proof. split; [reflexivity|]. split; [discriminate|]. left. discriminate. Qed.

(** C14: seed 0 is stuck: every result is 0. *)
Theorem C14_seed_zero_stuck :
  forall n, Nat.iter n xs64_next 0 = 0 /\
    Nat.iter n (fun s => fst (xs128_next s)) (xs128_seed 0) = (0, 0) /\
    snd (xs128_next (Nat.iter n (fun s => fst (xs128_next s)) (xs128_seed 0))) = 0 /\
    snd (xs1024_next (Nat.iter n (fun s => fst (xs1024_next s)) (xs1024_seed 0))) = 0.
Proof. exact seed_zero_stuck. Qed.
Print Assumptions C14_seed_zero_stuck.

(** [nth_id inc c k] is the result of the k-th call, in the order of the atomic
    additions, whichever goroutine makes it. *)
Theorem C15_ids_non_negative :
  forall c inc k, id_config (c, inc) -> nth_id inc c k < 2 ^ 63.
Proof.
  exact (fun c inc k H => nth_id_nonneg inc c k (proj1 (id_config_ok c inc H))).
Qed.
Print Assumptions C15_ids_non_negative.

(** Among 2^64 consecutive calls (i..k) no value is returned by three of them. *)
Theorem C15_ids_at_most_twice :
  forall c inc i j k, id_config (c, inc) ->
    (i < j)%nat -> (j < k)%nat -> N.of_nat k - N.of_nat i < 2 ^ 64 ->
    ~ (nth_id inc c i = nth_id inc c j /\ nth_id inc c j = nth_id inc c k).
Proof.
  exact (fun c inc i j k H => id_at_most_twice inc c i j k (proj2 (id_config_ok c inc H)) (proj1 (id_config_ok c inc H))).
Qed.
Print Assumptions C15_ids_at_most_twice.

(** ... and every value is returned at least twice by 2^64 consecutive calls. *)
Theorem C15_ids_at_least_twice :
  forall c inc s v, id_config (c, inc) -> v < 2 ^ 63 ->
    exists i j, i <> j /\ N.of_nat i < 2 ^ 64 /\ N.of_nat j < 2 ^ 64 /\
      nth_id inc c (s + i) = v /\ nth_id inc c (s + j) = v.
Proof.
  exact (fun c inc s v H => id_exactly_twice inc c s v (proj2 (id_config_ok c inc H)) (proj1 (id_config_ok c inc H))).
Qed.
Print Assumptions C15_ids_at_least_twice.

Theorem C15_ids_collision_gap :
  forall c inc i j, id_config (c, inc) -> (i < j)%nat -> nth_id inc c i = nth_id inc c j ->
    let d := (N.of_nat (j - i) * inc) mod 2 ^ 64 in d = 0 \/ d = 1 \/ d = 2 ^ 64 - 1.
Proof. exact (fun c inc i j H => id_collision inc c i j (proj1 (id_config_ok c inc H))). Qed.
Print Assumptions C15_ids_collision_gap.

(** Consecutive calls never return the same id. *)
Theorem C15_ids_adjacent_distinct :
  forall c inc k, id_config (c, inc) -> nth_id inc c k <> nth_id inc c (S k).
Proof. exact ids_adjacent. Qed.
Print Assumptions C15_ids_adjacent_distinct.

Example C15_config_example : id_config (id_init 15811494920322472814).
Proof. left. exists 15811494920322472814. split; reflexivity. Qed.

(** Uniqueness is false: with these random bytes the 1st and the 8th id agree. *)
Theorem C15_ids_unique_refuted :
  ~ (forall c inc i j, id_config (c, inc) -> (i < j)%nat -> N.of_nat j < 2 ^ 64 -> nth_id inc c i <> nth_id inc c j).
Proof. exact ids_unique_refuted. Qed.
Print Assumptions C15_ids_unique_refuted.
