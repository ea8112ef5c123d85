(** Property C90: goroutines may use monkit at the same time without a data race, with three
    exceptions. *)
From Verif Require Import RaceModel RaceSpec RaceCheck RaceProofs5 RaceProofs6 RaceCode RaceTable RaceRun.
Local Open Scope nat_scope.

Lemma monkit_checked : check_library disc monkit = true.
Proof. vm_compute. reflexivity. Qed.

(** C90: whatever functions of the library goroutines call, in whatever order and with
    whatever objects, inside each other's callbacks too, and however their steps interleave: of
    two accesses to the same variable that are not both reads and not both atomic, one
    happens before the other. *)
Theorem C90_race_free : race_free monkit.
Proof. exact (checked_race_free disc monkit disc_via monkit_checked). Qed.
Print Assumptions C90_race_free.

(** C90: so there is exactly one write that a plain read may observe, and it is the last one before
    it: the memory may be thought of as one memory whose accesses happen one at a time. *)
Theorem C90_reads :
  forall tr s r t o f, execution monkit tr s -> tr !! r = Some (t, ERd o f) ->
    exists w, last_write tr w r o f /\ happens_before tr w r /\
      forall w', may_observe tr w' r o f <-> w' = w.
Proof. exact (reads_last disc monkit disc_via monkit_checked). Qed.
Print Assumptions C90_reads.

(** C90: the same holds of any code, written in this language, that passes the check with some
    table of what protects which field. *)
Theorem C90_checked :
  forall disc L, (forall c f, via_ok disc c f) -> check_library disc L = true -> race_free L.
Proof. exact checked_race_free. Qed.
Print Assumptions C90_checked.

(** Schedules. *)
Definition dos (t : nat) (ps : list nat) : list (nat * act) := map (fun p => (t, Do p)) ps.
Definition in_contexts (i : nat) : nat := length (users ++ spans) + i.
Definition in_registries (i : nat) : nat := length (users ++ spans ++ contexts ++ traces ++ funcs) + i.
Definition in_scopes (i : nat) : nat := length (users ++ spans ++ contexts ++ traces ++ funcs ++ registries) + i.
Definition in_callbacks (i : nat) : nat :=
  length (users ++ spans ++ contexts ++ traces ++ funcs ++ registries ++ scopes) + i.
Definition in_counters (i : nat) : nat :=
  length (users ++ spans ++ contexts ++ traces ++ funcs ++ registries ++ scopes ++ callbacks) + i.
Definition extra_one (i : nat) : nat := length (methods monkit) + i.

(** A key (object 8), a Counter with it (object 9), and a second goroutine. *)
Definition make_counter : list (nat * act) :=
  [(0, Call (in_callbacks 4) [])] ++ dos 0 [0] ++ [(0, Ret); (0, Call (in_scopes 17) [8])] ++ dos 0 [0] ++
  [(0, Ret); (0, Fork)].

(** C90 is false of Collect: the string of a key with tags is computed when it is first asked for
    and kept in the key, without a lock (tags.go 98-108).  Two goroutines that each Collect
    the same Counter race on it. *)
Theorem C90_collect_refuted :
  ~ race_free (plus monkit [collectCounter]) /\
  exists tr s i j o, execution (plus monkit [collectCounter]) tr s /\ races tr i j /\
    tr !! i = Some (0, EWr o "str") /\ tr !! j = Some (1, ERd o "str").
Proof.
  assert (exists tr s i j o, execution (plus monkit [collectCounter]) tr s /\ races tr i j /\
    tr !! i = Some (0, EWr o "str") /\ tr !! j = Some (1, ERd o "str")) as H.
  { set (sched := make_counter ++ [(0, Call (extra_one 0) [9])] ++ dos 0 [0; 0; 0; 0; 0; 0] ++
      [(1, Call (extra_one 0) [9])] ++ dos 1 [0; 0; 0; 0; 0; 0] ++
      dos 0 [8; 0; 0; 0; 0] ++ dos 1 [8; 0]).
    destruct (racy_sound (plus monkit [collectCounter]) sched 26 28 0 1 8 "str" (ERd 8 "str"))
      as (tr & s & H1 & H2 & H3 & H4); [vm_compute; reflexivity|by right|].
    by exists tr, s, 26, 28, 8. }
  split; [|done]. intros Hr. destruct H as (tr & s & i & j & o & H1 & H2 & _). apply (Hr tr s H1). by exists i, j.
Qed.
Print Assumptions C90_collect_refuted.

(** C90 is false of the source of environment.Runtime: its distribution has no lock
    (environment/runtime.go 31-53), so that two goroutines that call Stats race on it. *)
Theorem C90_runtime_refuted :
  ~ race_free (plus monkit runtime) /\
  exists tr s i j o, execution (plus monkit runtime) tr s /\ races tr i j /\
    tr !! i = Some (0, EWr o "durDist") /\ tr !! j = Some (1, EWr o "durDist").
Proof.
  assert (exists tr s i j o, execution (plus monkit runtime) tr s /\ races tr i j /\
    tr !! i = Some (0, EWr o "durDist") /\ tr !! j = Some (1, EWr o "durDist")) as H.
  { set (sched := [(0, Call (extra_one 0) [])] ++ dos 0 [0] ++ [(0, Ret); (0, Fork);
        (0, Call (extra_one 1) [8])] ++ dos 0 [0; 0; 0; 0; 0] ++
        [(1, Call (extra_one 1) [8])] ++ dos 1 [0; 0; 0; 0; 0]).
    destruct (racy_sound (plus monkit runtime) sched 12 15 0 1 8 "durDist" (EWr 8 "durDist"))
      as (tr & s & H1 & H2 & H3 & H4); [vm_compute; reflexivity|by left|].
    by exists tr, s, 12, 15, 8. }
  split; [|done]. intros Hr. destruct H as (tr & s & i & j & o & H1 & H2 & _). apply (Hr tr s H1). by exists i, j.
Qed.
Print Assumptions C90_runtime_refuted.

(** C90 is false of the method Func of a Task made by Scope.Task: it reads without the Once the
    variable that the first call of the Task writes (ctx.go 211-217). *)
Theorem C90_task_func_refuted :
  ~ race_free (plus monkit [taskFunc]) /\
  exists tr s i j o, execution (plus monkit [taskFunc]) tr s /\ races tr i j /\
    tr !! i = Some (0, EWr o "f") /\ tr !! j = Some (1, ERd o "f").
Proof.
  assert (exists tr s i j o, execution (plus monkit [taskFunc]) tr s /\ races tr i j /\
    tr !! i = Some (0, EWr o "f") /\ tr !! j = Some (1, ERd o "f")) as H.
  { set (sched := [(0, Call (in_registries 0) [])] ++ dos 0 [0; 0] ++ [(0, Ret); (0, Call (in_registries 2) [9])] ++
        dos 0 [8; 0; 0; 1; 0; 0; 0] ++ [(0, Ret); (0, Call (in_contexts 5) [10])] ++ dos 0 [0] ++ [(0, Ret); (0, Fork);
        (0, Call (in_contexts 6) [11])] ++ dos 0 [0; 0; 10; 1; 0; 0; 0; 0; 1; 0; 0; 0; 0; 0; 0; 0; 0] ++
        [(1, Call (extra_one 0) [11])] ++ dos 1 [0]).
    destruct (racy_sound (plus monkit [taskFunc]) sched 31 32 0 1 11 "f" (ERd 11 "f"))
      as (tr & s & H1 & H2 & H3 & H4); [vm_compute; reflexivity|by right|].
    by exists tr, s, 31, 32, 11. }
  split; [|done]. intros Hr. destruct H as (tr & s & i & j & o & H1 & H2 & _). apply (Hr tr s H1). by exists i, j.
Qed.
Print Assumptions C90_task_func_refuted.

(** An execution of the library: two goroutines increment one Counter.  The second one reads
    what the first one wrote. *)
Definition two_incs : list (nat * act) :=
  make_counter ++ [(0, Call (in_counters 0) [9]); (1, Call (in_counters 0) [9])] ++
  dos 0 (repeat 0 12) ++ [(0, Ret)] ++ dos 1 (repeat 0 12) ++ [(1, Ret)].
Example C90_example :
  exists tr s, execution monkit tr s /\ thr s = [[]; []] /\
    tr !! 13 = Some (0, EWr 9 "val") /\ tr !! 22 = Some (1, ERd 9 "val") /\
    happens_before tr 13 22 /\ forall w, may_observe tr w 22 9 "val" <-> w = 13.
Proof.
  assert (exists tr s, run0 monkit two_incs = Some (tr, s) /\ thr s = [[]; []] /\
    tr !! 13 = Some (0, EWr 9 "val") /\ tr !! 22 = Some (1, ERd 9 "val") /\
    forallb (fun k => match tr !! k with Some (_, EAcq _ _ _) | Some (_, ERel _ _ _) | Some (_, ERd _ _) => true
      | Some (_, EWr _ f) => negb (String.eqb f "val") | _ => false end) (seq 14 8) = true) as (tr & s & H & H0 & H1 & H2 & H3).
  { eexists _, _. split; [vm_compute; reflexivity|]. split; [reflexivity|]. split; [reflexivity|]. split; reflexivity. }
  exists tr, s. apply run0_sound in H. split; [done|]. split; [done|]. split; [done|]. split; [done|].
  destruct (C90_reads _ _ _ _ _ _ H H2) as (w & (Hw1 & (t & e & Hw & Hs) & Hw3) & Hb & Hu).
  assert (w = 13) as ->; [|done].
  destruct (Nat.lt_trichotomy w 13) as [Hlt|[->|Hlt]]; [|done|].
  - exfalso. apply (Hw3 13); [done|lia|]. exists 0, (EWr 9 "val"). split; [done|by left].
  - exfalso. rewrite forallb_forall in H3. specialize (H3 w ltac:(apply in_seq; lia)). rewrite Hw in H3.
    destruct Hs as [->|[[c ->]|(a & -> & _)]]; [|done|done]. by rewrite String.eqb_refl in H3.
Qed.

(** The check does not accept a Counter without its lock, and rightly so. *)
Definition unlocked : library :=
  {| globals := [("c", "Counter")]; methods := [fn [("c", "Counter")] [Rd "c" "val"; Wr "c" "val" []]] |}.
Example C90_unlocked : check_library disc unlocked = false /\ ~ race_free unlocked.
Proof.
  split; [vm_compute; reflexivity|]. intros Hr.
  destruct (racy_sound unlocked [(0, Fork); (0, Call 0 [0]); (0, Do 0); (0, Do 0); (1, Call 0 [0]); (1, Do 0)]
    3 4 0 1 0 "val" (ERd 0 "val")) as (tr & s & H1 & H2 & _); [vm_compute; reflexivity|by right|].
  apply (Hr tr s H1). by exists 3, 4.
Qed.
