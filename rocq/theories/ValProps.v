(** Properties C35 (BoolVal), C36 (RunningTimer), C59 (values behind a mutex). *)
From Verif Require Import Base Conc Fval DistModel DistSpec ValModel ValSpec ValProofs.
Local Open Scope Z_scope.
Local Arguments B : simpl never.

(** C35: every report's disposition is its true count minus its false count; a count is at
    least the number of observations finished before the report began and at most the
    number of observations begun. *)
Theorem C35_reports : forall sched i out, bounded sched -> b_is sched i BStats out ->
  exists t f r, out = [(B "disposition", FInt (t - f)); (B "false", FInt f); (B "recent", FInt r); (B "true", FInt t)] /\ (r = 0 \/ r = 1) /\
    forall pre post, sched = pre ++ post -> b_unbegun pre i ->
      finished_count true pre <= t <= begun_count true sched /\ finished_count false pre <= f <= begun_count false sched.
Proof. exact bool_reports. Qed.
Print Assumptions C35_reports.

(** C35: with no call in flight a report gives the exact numbers, and as recent the value
    of an observation after which no other one began (0 if there was none). *)
Theorem C35_at_rest : forall sched, bounded sched -> b_at_rest sched ->
  let i := length (threads (b_exec sched)) in let t := finished_count true sched in let f := finished_count false sched in
  exists r, b_is (sched ++ [Spawn BStats; Run i; Run i; Run i]) i BStats [(B "disposition", FInt (t - f)); (B "false", FInt f); (B "recent", FInt r); (B "true", FInt t)] /\
    ((r = 0 /\ forall k w, ~ b_is sched k (BObserve w) []) \/ exists j v, latest sched j v /\ r = (if v then 1 else 0)).
Proof. exact rest_report. Qed.
Print Assumptions C35_at_rest.

(** Thread 2 reports while threads 0 and 1 are in the middle of their observations: one
    count is ahead of the other and recent is that of no finished observation. *)
Definition ex_b : list (action bcall) :=
  [Spawn (BObserve true); Spawn (BObserve false); Spawn BStats; Run 0; Run 2; Run 1; Run 2; Run 1; Run 0; Run 2]%nat.
Example C35_example :
  bounded ex_b /\ b_at_rest ex_b /\
  b_is ex_b 2 BStats [(B "disposition", FInt 0); (B "false", FInt 1); (B "recent", FInt 1); (B "true", FInt 1)] /\
  finished_count true (take 6 ex_b) = 0 /\ begun_count true (take 6 ex_b) = 1.
Proof. split; [reflexivity|]. split; [repeat constructor|]. split; [vm_compute; reflexivity|]. split; reflexivity. Qed.

Section any_dist.
  Context {V F R : Type}.
  Context (vzero : V) (vlt : V -> V -> bool) (vadd : V -> V -> V).
  Context (fzero : F) (to32 : V -> F) (fless : F -> F -> bool).
  Context (rng_next : R -> Z * R) (seed : R).
  Local Notation finished := (v_finished vzero vlt vadd fzero to32 fless rng_next seed).
  Local Notation unbegun := (v_unbegun vzero vlt vadd fzero to32 fless rng_next seed).
  Local Notation stop := (stop_of vzero vlt vadd fzero to32 fless rng_next seed).

  (** C59: in every interleaving the calls on a value act as if made one at a time, in an
      order that respects which calls finished before which others began. *)
  Theorem C59_linearizable : forall sched, exists order,
    sequential_order vzero vlt vadd fzero to32 fless rng_next seed sched order.
  Proof. exact (fun sched => ex_intro _ _ (sequential vzero vlt vadd fzero to32 fless rng_next seed sched)). Qed.

  (** C36: a Timer's Values are the distribution of one Stop per running timer: of every
      running timer with a Stop finished before Values began, and of each the Stop that no
      other Stop of that running timer preceded. *)
  Theorem C36_once : forall sched i r res, timer_only sched -> finished sched i (VValues r) res ->
    exists d firsts stops, res = RCopy (dist_copy d r) /\
      dist_run vzero vlt vadd to32 fless rng_next (dist_new vzero fzero seed) (map (fun x => (fst (snd x), DInsert (snd (snd x)))) stops) = Ok d /\
      NoDup (map fst stops) /\
      Forall2 (fun j x => stop sched j (fst x) (fst (snd x)) (snd (snd x)) /\ ~ unbegun sched j /\
         forall pre post j' W' e' res', sched = pre ++ post -> unbegun pre j -> ~ finished pre j' (VStop (fst x) W' e') res') firsts stops /\
      forall pre post j k W e res', sched = pre ++ post -> finished pre j (VStop k W e) res' -> unbegun pre i -> k ∈ map fst stops.
  Proof. exact (timer_values vzero vlt vadd fzero to32 fless rng_next seed). Qed.

  (** C36: every Stop returns the time it measured itself. *)
  Theorem C36_returns : forall sched i k W e res, finished sched i (VStop k W e) res -> res = RElapsed e.
  Proof. exact (stop_returns vzero vlt vadd fzero to32 fless rng_next seed). Qed.
End any_dist.
Print Assumptions C59_linearizable.
Print Assumptions C36_once.
Print Assumptions C36_returns.

(** Two Stops of running timer 0 and one of timer 1; the second Stop of timer 0 gets the
    lock first. *)
Definition ex_v : list (action (vcall Z Z)) :=
  [Spawn (VStop 0 64 10); Spawn (VStop 0 64 20); Spawn (VStop 1 64 30); Run 0; Run 1; Run 1; Run 0; Run 2; Run 2; Spawn (VValues 5); Run 3].
Definition ex_rng (r : Z) : Z * Z := (r, r + 1).
Example C36_example :
  timer_only ex_v /\
  v_finished 0 Z.ltb Z.add 0 id Z.ltb ex_rng 7 ex_v 0 (VStop 0 64 10) (RElapsed 10) /\
  exists d, v_finished 0 Z.ltb Z.add 0 id Z.ltb ex_rng 7 ex_v 3 (VValues 5) (RCopy d) /\ d_count d = 2 /\ d_sum d = 50 /\ take 2 (d_res d) = [20; 30].
Proof.
  split; [repeat constructor|]. split; [vm_compute; reflexivity|]. eexists. split; [vm_compute; reflexivity|]. vm_compute. auto.
Qed.
Definition ex_w : list (action (vcall Z Z)) :=
  [Spawn (VObserve 64 4); Spawn (VObserve 64 9); Spawn (VStats 3); Spawn VQuantile; Run 1; Run 2; Run 0; Run 2; Run 3].
Example C59_example :
  v_finished 0 Z.ltb Z.add 0 id Z.ltb ex_rng 7 ex_w 2 (VStats 3)
    (RStats [(B "count", DCount 1); (B "sum", DValue 9); (B "min", DValue 9); (B "max", DValue 9); (B "rmin", DQuantileOf (B "0") [9]); (B "ravg", DAverageOf [9]);
             (B "r10", DQuantileOf (B ".1") [9]); (B "r50", DQuantileOf (B ".5") [9]); (B "r90", DQuantileOf (B ".9") [9]); (B "r99", DQuantileOf (B ".99") [9]);
             (B "rmax", DQuantileOf (B "1") [9]); (B "recent", DValue 9)]) /\
  v_finished 0 Z.ltb Z.add 0 id Z.ltb ex_rng 7 ex_w 3 VQuantile (RReads [4; 9]).
Proof. split; vm_compute; reflexivity. Qed.

(** C09: what the Stats of an IntDist or DurationDist passes on, for any history: the count,
    and if something was recorded the exact sum, extremes and latest value, and the quantiles
    and average of one list [held] of images of distinct recorded values. *)
Theorem C09_report : forall F R (fzero : F) to32 fless (rng_next : R -> Z * R) r h d,
  inserts h + 1 < 2 ^ 63 ->
  idist_run to32 fless rng_next (idist_new fzero r) h = Ok d ->
  let xs := recorded h in
  (xs = [] -> dist_stats fless d = [(B "count", DCount 0)]) /\
  (xs <> [] -> exists lo hi held, smallest xs lo /\ largest xs hi /\
     Z.of_nat (length held) = Z.min (Z.of_nat (length xs)) 64 /\ images_of_distinct to32 held xs /\
     dist_stats fless d =
       [(B "count", DCount (Z.of_nat (length xs))); (B "sum", DValue (wrap64 (zsum xs))); (B "min", DValue lo); (B "max", DValue hi);
        (B "rmin", DQuantileOf (B "0") held); (B "ravg", DAverageOf held); (B "r10", DQuantileOf (B ".1") held); (B "r50", DQuantileOf (B ".5") held);
        (B "r90", DQuantileOf (B ".9") held); (B "r99", DQuantileOf (B ".99") held); (B "rmax", DQuantileOf (B "1") held);
        (B "recent", DValue (SpecBase.latest xs))]).
Proof. exact @dist_report. Qed.
Print Assumptions C09_report.
Example C09_report_ex :
  exists d, idist_run id Z.ltb ex_rng (idist_new 0 5) [(1024, DInsert 9); (1024, DInsert 4)] = Ok d /\
    dist_stats Z.ltb d = [(B "count", DCount 2); (B "sum", DValue 13); (B "min", DValue 4); (B "max", DValue 9);
        (B "rmin", DQuantileOf (B "0") [4; 9]); (B "ravg", DAverageOf [4; 9]); (B "r10", DQuantileOf (B ".1") [4; 9]); (B "r50", DQuantileOf (B ".5") [4; 9]);
        (B "r90", DQuantileOf (B ".9") [4; 9]); (B "r99", DQuantileOf (B ".99") [4; 9]); (B "rmax", DQuantileOf (B "1") [4; 9]); (B "recent", DValue 4)].
Proof. eexists. split; [vm_compute; reflexivity|]. vm_compute. reflexivity. Qed.
