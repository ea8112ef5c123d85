(** Properties C16 (Parents), C17 (outcome counts), C18 (Current, Highwater), C55 (panics). *)
From Verif Require Import Base SeriesModel Fval SpecBase Conc ScopeModel ScopeSpec FuncStatsModel FuncStatsSpec FuncStatsProofs.
Local Open Scope Z_scope.

(** C16: a finished Parents call reported each parent once, ... *)
Theorem C16_parents_distinct :
  forall sched i ord l,
    any_order ord -> threads (f_exec sched) !! i = Some (FThr (FParents ord) (F_done (FRParents l))) -> NoDup l.
Proof. exact parents_nodup. Qed.
Print Assumptions C16_parents_distinct.

(** ... only parents of calls that were made, ... *)
Theorem C16_parents_sound :
  forall sched i ord l p,
    any_order ord -> threads (f_exec sched) !! i = Some (FThr (FParents ord) (F_done (FRParents l))) -> p ∈ l ->
    exists j t err pk d, threads (f_exec sched) !! j = Some t /\ ft_call t = FCall p err pk d.
Proof. exact parents_sound. Qed.
Print Assumptions C16_parents_sound.

(** ... and every parent of a call started before Parents took its first step. *)
Theorem C16_parents_complete :
  forall sched more i t p err pk d j ord l,
    any_order ord ->
    threads (f_exec sched) !! i = Some t -> ft_call t = FCall p err pk d -> started t ->
    (forall u, threads (f_exec sched) !! j = Some u -> ft_pc u = F_iter1) ->
    threads (f_exec (sched ++ more)) !! j = Some (FThr (FParents ord) (F_done (FRParents l))) -> p ∈ l.
Proof. exact parents_complete. Qed.
Print Assumptions C16_parents_complete.

(** Two racing starts with parents 7 and nil, then Parents. *)
Definition ex16 : list (action fcall) :=
  [Spawn (FCall (Some 7%nat) None false 5); Spawn (FCall None (Some (B "e")) false 6);
   Run 0; Run 1; Run 1; Run 0; Run 0; Run 0; Run 0; Run 1; Run 1; Run 1].
Definition ex16p : list (action fcall) := [Spawn (FParents (fun l => l)); Run 2; Run 2].
Example C16_example :
  match threads (f_exec (ex16 ++ ex16p)) !! 2%nat with
  | Some (FThr _ (F_done (FRParents l))) => (bool_decide (Some 7%nat ∈ l) && bool_decide (None ∈ l) && (length l =? 2)%nat)%bool
  | _ => false
  end = true.
Proof. vm_compute. reflexivity. Qed.
Example C16_hypotheses :
  any_order (fun l : list parent => l) /\
  exists t, threads (f_exec ex16) !! 1%nat = Some t /\ ft_call t = FCall None (Some (B "e")) false 6 /\ started t /\
  (forall u, threads (f_exec ex16) !! 2%nat = Some u -> ft_pc u = F_iter1).
Proof.
  split; [intros l; reflexivity|]. eexists. split; [vm_compute; reflexivity|]. split; [reflexivity|]. split; [exact I|].
  intros u Hu. vm_compute in Hu. discriminate Hu.
Qed.

(** C17: in the history of lock sections, every finished call stands exactly once and no
    unfinished one at all; nothing else is in it. *)
Theorem C17_finished_once :
  forall sched i p err pk d pc,
    threads (f_exec sched) !! i = Some (FThr (FCall p err pk d) pc) ->
    ends_of i (fs_log (state_after sched)) = match pc with F_done _ => [EvEnd i err pk d] | _ => [] end.
Proof. exact end_counted_once. Qed.
Print Assumptions C17_finished_once.

Theorem C17_history_sound :
  forall sched i err pk d,
    EvEnd i err pk d ∈ fs_log (state_after sched) ->
    exists p r, threads (f_exec sched) !! i = Some (FThr (FCall p err pk d) (F_done r)).
Proof. exact log_entry_of_call. Qed.
Print Assumptions C17_history_sound.

(** Panics, Errors, the success and the failure times are exactly those of the calls that
    ended since the last Reset; a panic wins over an error. *)
Theorem C17_counts :
  forall sched, let s := state_after sched in
    fs_panics s = number_of CPanic (ends s) /\
    (forall e n, fs_errors s !! e = Some n <-> n = number_of (CError e) (ends s) /\ 0 < n) /\
    fs_success s = durations (fun c => bool_decide (c = CSuccess)) (ends s) /\
    fs_failure s = durations (fun c => negb (bool_decide (c = CSuccess))) (ends s).
Proof. exact locked_ok_exec. Qed.
Print Assumptions C17_counts.

(** Success + the sum of Errors + Panics is the number of ends since the last Reset. *)
Theorem C17_sum :
  forall sched, let s := state_after sched in
    Z.of_nat (length (fs_success s)) + fold_left (fun a e => a + snd e) (map_to_list (fs_errors s)) 0 + fs_panics s
    = Z.of_nat (length (ends s)).
Proof. exact counted_once_sum. Qed.
Print Assumptions C17_sum.

(** What Stats emits: the values at three successive moments (current, highwater, and all
    locked fields together), with the right sums, one count per error name. *)
Theorem C17_stats :
  forall sched i sn key ds errs,
    threads (f_exec sched) !! i = Some (FThr FStats (F_done (FRStats sn))) ->
    Permutation errs (map_to_list (sn_errors sn)) ->
    exists p1 p2 p3 q, sched = p1 ++ p2 ++ p3 ++ q /\
    let l := ends (state_after (p1 ++ p2 ++ p3)) in
    (forall e n, In (e, n) errs <-> n = number_of (CError e) l /\ 0 < n) /\
    NoDup (map fst errs) /\
    fs_stats key ds sn errs =
      [Stat key (B "current") (FInt (fs_current (state_after p1)));
       Stat key (B "highwater") (FInt (fs_highwater (state_after (p1 ++ p2))));
       Stat key (B "successes") (FInt (number_of CSuccess l))]
      ++ map (fun e => Stat (error_key key (fst e)) (B "count") (FInt (snd e))) errs
      ++ [Stat key (B "errors") (FInt (number_of_errors l));
          Stat key (B "panics") (FInt (number_of CPanic l));
          Stat key (B "failures") (FInt (number_of_errors l + number_of CPanic l));
          Stat key (B "total") (FInt (Z.of_nat (length l)))]
      ++ ds (success_key key) (durations (fun c => bool_decide (c = CSuccess)) l)
      ++ ds (failure_key key) (durations (fun c => negb (bool_decide (c = CSuccess))) l).
Proof. exact stats_emission. Qed.
Print Assumptions C17_stats.

Definition whole_call (i : nat) (err : option bytes) (pk : bool) (d : Z) : list (action fcall) :=
  Spawn (FCall None err pk d) :: replicate 9 (Run i).
Definition ex17 : list (action fcall) :=
  whole_call 0 None false 3 ++ [Spawn FReset; Run 1; Run 1; Run 1] ++
  whole_call 2 (Some (B "EOF")) false 4 ++ whole_call 3 (Some (B "EOF")) true 5 ++ whole_call 4 None false 6 ++
  [Spawn FStats; Run 5; Run 5; Run 5].
Example C17_example :
  let s := state_after ex17 in
  ends s = [(CError (B "EOF"), 4); (CPanic, 5); (CSuccess, 6)] /\
  fs_panics s = 1 /\ fs_errors s !! B "EOF" = Some 1 /\ fs_success s = [6] /\ fs_failure s = [4; 5] /\
  exists sn, threads (f_exec ex17) !! 5%nat = Some (FThr FStats (F_done (FRStats sn))).
Proof. repeat split; try (vm_compute; reflexivity). eexists. vm_compute. reflexivity. Qed.

(** C18: without Reset, Current is the number of calls between their increment and
    decrement, hence never negative; ... *)
Theorem C18_current :
  forall sched, no_reset sched ->
    fs_current (state_after sched) = Z.of_nat (length (List.filter in_flight (threads (f_exec sched)))) /\
    0 <= fs_current (state_after sched).
Proof. exact current_spec. Qed.
Print Assumptions C18_current.

(** ... Highwater is always a value Current has had, and when no start is half-way done it
    is the largest one. *)
Theorem C18_highwater :
  forall sched, no_reset sched ->
    (exists pre post, sched = pre ++ post /\ fs_current (state_after pre) = fs_highwater (state_after sched)) /\
    ((forall i t, threads (f_exec sched) !! i = Some t -> ~ half_started t) ->
     forall pre post, sched = pre ++ post -> fs_current (state_after pre) <= fs_highwater (state_after sched)).
Proof. exact highwater_spec. Qed.
Print Assumptions C18_highwater.

Example C18_example :
  no_reset ex16 /\ fs_current (state_after ex16) = 2 /\ fs_highwater (state_after ex16) = 2 /\
  forallb (fun t => match ft_pc t with F_hwload _ | F_hwcas _ _ => false | _ => true end)
          (threads (f_exec (ex16 ++ [Run 0; Run 1; Run 0; Run 1]))) = true.
Proof.
  repeat split; try (vm_compute; reflexivity).
  intros H. cbn in H. repeat (destruct H as [H|H]; [discriminate H|]). contradiction.
Qed.

(** With a Reset while a call is running, Current becomes negative. *)
Theorem C18_current_refuted :
  exists sched, fs_current (state_after sched) = -1.
Proof.
  exists [Spawn (FCall None None false 1); Run 0; Run 0; Run 0; Run 0; Run 0; Spawn FReset; Run 1; Run 0].
  vm_compute. reflexivity.
Qed.
Print Assumptions C18_current_refuted.

(** C55: a panic with a non-nil value passes through any number of nested exit functions
    unchanged, and each of them records it as a panic, whatever its error pointer says. *)
Theorem C55_observe_panic :
  forall {P} (v : P) levels,
    snd (observe_nested (UPanic (Some v)) levels) = UPanic (Some v) /\
    length (fst (observe_nested (UPanic (Some v)) levels)) = length levels /\
    forall err pk, In (err, pk) (fst (observe_nested (UPanic (Some v)) levels)) -> classify err pk = CPanic.
Proof. exact @observe_panic. Qed.
Print Assumptions C55_observe_panic.

(** Without a panic none starts, and each level records its error, a nil error or a nil
    error pointer being a success. *)
Theorem C55_observe_return :
  forall {P} (u : unwinding P) levels,
    (u = UReturn \/ u = UGoexit) ->
    snd (observe_nested u levels) = u /\
    map (fun r => classify (fst r) (snd r)) (fst (observe_nested u levels)) =
    map (fun errptr => match errptr with Some (Some e) => CError e | _ => CSuccess end) levels.
Proof. exact @observe_return. Qed.
Print Assumptions C55_observe_return.

(** panic(nil) in a program whose go.mod says go1.20 or earlier (this module says 1.19) is
    swallowed and counted as a success. *)
Theorem C55_panic_nil_refuted :
  exists levels, snd (observe_nested (P := nat) (UPanic None) levels) = UReturn /\
    map (fun r => classify (fst r) (snd r)) (fst (observe_nested (P := nat) (UPanic None) levels)) = [CSuccess].
Proof. exists [Some None]. split; reflexivity. Qed.
Print Assumptions C55_panic_nil_refuted.

Example C55_example : observe_nested (UPanic (Some 3%nat)) [None; Some (Some (B "x")); Some None]
  = ([(None, true); (Some (B "x"), true); (None, true)], UPanic (Some 3%nat)).
Proof. reflexivity. Qed.
