(** Properties C09, C10, C12, C13.  [F] is float32, [to32] the conversion to it,
    [fless] its order, [R]/[rng_next] the random generator: all arbitrary.  A
    history is a list of (value of Window at that time, operation).  [inserts h]
    bounds the history so that the int64 counter does not overflow. *)
From Verif Require Import Base SpecBase DistModel DistSpec DistProofs.
Local Open Scope Z_scope.

(** C09: Count, Sum, Low, High and Recent are exact (int64 and Duration). *)
Theorem C09_exact_counters :
  forall F R (fzero : F) to32 fless (rng_next : R -> Z * R) r h d,
    inserts h + 1 < 2 ^ 63 ->
    idist_run to32 fless rng_next (idist_new fzero r) h = Ok d ->
    let xs := recorded h in
    d_count d = Z.of_nat (length xs) /\ d_sum d = wrap64 (zsum xs) /\
    smallest xs (d_low d) /\ largest xs (d_high d) /\ d_recent d = latest xs.
Proof. exact @idist_exact. Qed.
Print Assumptions C09_exact_counters.

(** C09: FullAverage is the truncated mean, between Low and High, when the sum
    fits in 64 bits. *)
Theorem C09_full_average :
  forall F R (fzero : F) to32 fless (rng_next : R -> Z * R) r h d,
    inserts h + 1 < 2 ^ 63 ->
    idist_run to32 fless rng_next (idist_new fzero r) h = Ok d ->
    let xs := recorded h in
    in64 (zsum xs) -> xs <> [] ->
    idist_FullAverage d = Z.quot (zsum xs) (Z.of_nat (length xs)) /\
    d_low d <= idist_FullAverage d <= d_high d.
Proof. exact @full_average. Qed.
Print Assumptions C09_full_average.

(** C10: the reservoir holds min(Count, 64) images of distinct recorded values, all
    of them while Count <= 64, and Query reads the same multiset.  For any value
    type ([V] with any comparison and addition). *)
Theorem C10_reservoir_holds_recorded_values :
  forall V F R (vzero : V) vlt vadd (fzero : F) to32 fless (rng_next : R -> Z * R) r h d,
    inserts h + 1 < 2 ^ 63 ->
    dist_run vzero vlt vadd to32 fless rng_next (dist_new vzero fzero r) h = Ok d ->
    Z.of_nat (length (average_reads d)) = Z.min (Z.of_nat (length (recorded h))) 64 /\
    images_of_distinct to32 (average_reads d) (recorded h) /\
    ((length (recorded h) <= 64)%nat -> average_reads d ≡ₚ map to32 (recorded h)) /\
    (recorded h <> [] -> query_reads fless d ≡ₚ average_reads d).
Proof. exact @reservoir_holds. Qed.
Print Assumptions C10_reservoir_holds_recorded_values.

(** C12: after Reset a distribution is like a new one with the same generator state. *)
Theorem C12_reset_is_fresh :
  forall V F R (vzero : V) vlt vadd (fzero : F) to32 fless (rng_next : R -> Z * R) r h1 W h2 d1,
    inserts h1 + 1 < 2 ^ 63 -> inserts h2 + 1 < 2 ^ 63 ->
    dist_run vzero vlt vadd to32 fless rng_next (dist_new vzero fzero r) h1 = Ok d1 ->
    exists e1 e2,
      dist_run vzero vlt vadd to32 fless rng_next (dist_new vzero fzero r) (h1 ++ (W, DReset) :: h2) = Ok e1 /\
      dist_run vzero vlt vadd to32 fless rng_next (dist_new vzero fzero (d_rng d1)) h2 = Ok e2 /\
      visible fless e1 = visible fless e2.
Proof. exact @reset_fresh. Qed.
Print Assumptions C12_reset_is_fresh.

(** C13: no history panics, whatever values Window takes. *)
Theorem C13_insert_never_panics :
  forall V F R (vzero : V) vlt vadd (fzero : F) to32 fless (rng_next : R -> Z * R) r h,
    inserts h + 1 < 2 ^ 63 ->
    exists d, dist_run vzero vlt vadd to32 fless rng_next (dist_new vzero fzero r) h = Ok d
              /\ d_count d = Z.of_nat (length (recorded h)).
Proof. exact @run_total. Qed.
Print Assumptions C13_insert_never_panics.

(** C13: from the 65th observation on, the replacement rule. *)
Theorem C13_replacement_rule :
  forall V F R (vzero : V) vlt vadd (fzero : F) to32 fless (rng_next : R -> Z * R) r h d W val,
    inserts h + 2 < 2 ^ 63 ->
    dist_run vzero vlt vadd to32 fless rng_next (dist_new vzero fzero r) h = Ok d ->
    64 <= d_count d ->
    let x := fst (rng_next (d_rng d)) in
    let n := d_count d + 1 in
    let w := if decide (0 < W) then Z.min n W else n in
    0 < w /\
    exists d', dist_insert vlt vadd to32 rng_next W d val = Ok d' /\
      d_res d' = (if decide (x mod w < 64) then <[Z.to_nat (x mod w) := to32 val]> (d_res d) else d_res d) /\
      d_rng d' = snd (rng_next (d_rng d)).
Proof. exact @replacement_rule_reachable. Qed.
Print Assumptions C13_replacement_rule.

(** C13: of the 2^64 possible draws at least 64*floor(2^64/Window) replace. *)
Theorem C13_replacement_floor :
  forall w Window, 0 < w <= Window -> 64 <= Window ->
    64 * (2 ^ 64 / Window) <= count_below (fun x => x mod w <? 64) (Z.to_nat (2 ^ 64)).
Proof. exact replacement_floor. Qed.
Print Assumptions C13_replacement_floor.

Theorem C13_replacement_count_exact :
  forall w, 64 <= w ->
    count_below (fun x => x mod w <? 64) (Z.to_nat (2 ^ 64)) =
    64 * (2 ^ 64 / w) + Z.min 64 (2 ^ 64 mod w).
Proof. exact replacement_exact. Qed.
Print Assumptions C13_replacement_count_exact.

(** *** Concrete cases: float32 stands for itself, the generator counts up. *)
Definition ex_next (r : Z) : Z * Z := (r, r + 37).
Definition ex_run := idist_run (fun x => x) Z.ltb ex_next.
Definition ex_inserts (l : list Z) : list (Z * dist_op Z Z) := map (fun v => (1024, DInsert v)) l.

Example C10_nonvacuous :
  (* 70 inserts with queries in between: every slot still holds a recorded value *)
  match ex_run (idist_new 0 5) (ex_inserts (map Z.of_nat (seq 100 40)) ++ [(0, DQuery)] ++
                                ex_inserts (map Z.of_nat (seq 10 30)) ++ [(0, DQuery)]) with
  | Ok d => d_count d = 70 /\ take 3 (query_reads Z.ltb d) = [10; 11; 13] /\ d_low d = 10 /\ d_high d = 139
  | Panic _ => False
  end.
Proof. vm_compute. auto. Qed.

(** C12, the exception: Query on an emptied distribution still shows an old value. *)
Theorem C12_query_after_reset_refuted :
  exists h1 d e,
    ex_run (idist_new 0 5) h1 = Ok d /\ recorded h1 = [] /\
    ex_run (idist_new 0 5) [] = Ok e /\ query_reads Z.ltb d <> query_reads Z.ltb e.
Proof.
  eexists [(1024, DInsert 7); (1024, DReset)], _, _.
  split; [vm_compute; reflexivity|]. split; [reflexivity|]. split; [reflexivity|].
  vm_compute. discriminate.
Qed.
Print Assumptions C12_query_after_reset_refuted.

Example C12_nonvacuous :
  match ex_run (idist_new 0 5) (ex_inserts [3; 1; 2] ++ [(0, DQuery); (0, DReset)] ++ ex_inserts [9; 8]) with
  | Ok d => query_reads Z.ltb d = [8; 9] /\ average_reads d = [9; 8] /\ d_low d = 8
  | Panic _ => False
  end.
Proof. vm_compute. auto. Qed.

Example C09_nonvacuous :
  match ex_run (idist_new 0 5) (ex_inserts [9223372036854775807; 1; 2]) with
  | Ok d => d_sum d = -9223372036854775806 /\ d_high d = 9223372036854775807 /\ d_recent d = 2
  | Panic _ => False
  end.
Proof. vm_compute. auto. Qed.

(** A tiny or negative Window does not panic. *)
Example C13_nonvacuous :
  let h := ex_inserts (map Z.of_nat (seq 0 66)) in
  match ex_run (idist_new 0 130) (h ++ [(1, DInsert 500); (-3, DInsert 600)]) with
  | Ok d => d_count d = 68 /\ nth 0 (d_res d) 0 = 500
  | Panic _ => False
  end.
Proof. vm_compute. auto. Qed.
