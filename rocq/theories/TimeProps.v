(** Properties of recorded times: C94. *)
From Verif Require Import Base BaseProofs ClockModel ClockProps TimeModel TimeSpec TimeProofs.
Local Open Scope Z_scope.

(** C94: except on Windows, what is recorded for a call is exactly what passed on the monotonic
    clock between its start and its end; it is what lies between the times shown for the start
    and the finish, too. *)
Theorem C94_call :
  forall r0 h i a b ra rb, good_clock r0 h -> call h i a b ra rb ->
    exists out start finish, time_run Other r0 h = Ok out /\ out !! a = Some (Began start) /\ out !! b = Some (Ended finish (rd_mono rb - rd_mono ra)) /\
      0 <= rd_mono rb - rd_mono ra /\ gt_wall finish - gt_wall start = rd_mono rb - rd_mono ra.
Proof.
  intros r0 h i a b ra rb Hg Hc. destruct (good_pair _ _ _ _ _ _ _ _ Hg Hc) as [E P]. pose proof Hc as (_ & Ha & _).
  exists (k_from (plain_now r0) (TState ∅ ∅) h), (plain_now r0 ra), (plain_now r0 rb). split_and!.
  - apply other_run, Hg.
  - eapply k_begin, Ha.
  - rewrite (k_end _ _ _ _ _ _ _ _ Hc), other_sub, E. reflexivity.
  - exact P.
  - cbn. lia.
Qed.
Print Assumptions C94_call.

(** C94: so it is for Span.Duration, for the elapsed time in the JSON report of spans, for
    RunningTimers and for the uptime. *)
Theorem C94_running :
  forall r0 h i a b ra rb, good_clock r0 h ->
    pair_at (CallStart i) (CallDuration i) h a b ra rb \/ pair_at (TimerStart i) (TimerElapsed i) h a b ra rb ->
    exists out, time_run Other r0 h = Ok out /\ out !! b = Some (Lasted (rd_mono rb - rd_mono ra)) /\ 0 <= rd_mono rb - rd_mono ra.
Proof.
  intros r0 h i a b ra rb Hg Hc. exists (k_from (plain_now r0) (TState ∅ ∅) h). split; [apply other_run, Hg|].
  destruct Hc as [Hc|Hc]; destruct (good_pair _ _ _ _ _ _ _ _ Hg Hc) as [E P]; (split; [|exact P]).
  - rewrite (k_duration _ _ _ _ _ _ _ _ Hc), other_since, E. reflexivity.
  - rewrite (k_timer _ _ _ _ _ _ _ _ Hc), other_since, E. reflexivity.
Qed.
Print Assumptions C94_running.

(** C94: a call that starts and ends during another one is recorded as no longer; and of calls
    made one after the other during one call not even the sum is longer. *)
Theorem C94_nested :
  forall r0 h out a b d ds, good_clock r0 h -> time_run Other r0 h = Ok out ->
    recorded_as h out a b d -> one_after_another h out a ds b -> foldr Z.add 0 ds <= d.
Proof.
  intros r0 h out a b d ds Hg Hr Hd Hds. destruct (recorded_is _ _ _ Hg Hr _ _ _ Hd) as (_ & ra & ea & rb & eb & Ea & Eb & ->).
  apply (one_after_another_le _ _ _ Hg Hr ds a b ra ea rb eb Hds Ea Eb).
Qed.
Print Assumptions C94_nested.

(** C94: the times shown for starts and finishes are in the order in which these happened,
    however the time of day is set; so a span is drawn within its parent if it ran within it. *)
Theorem C94_order :
  forall r0 h out a b t u, good_clock r0 h -> time_run Other r0 h = Ok out ->
    (a <= b)%nat -> time_shown out a t -> time_shown out b u -> gt_wall t <= gt_wall u.
Proof.
  intros r0 h out a b t u Hg Hr Hab Ht Hu. rewrite (out_is _ _ _ Hg Hr) in Ht, Hu.
  destruct (k_shown _ _ _ _ _ Ht) as (ra & ea & Ea & ->). destruct (k_shown _ _ _ _ _ Hu) as (rb & eb & Eb & ->).
  pose proof (Hg a b ra ea rb eb Hab Ea Eb). cbn. lia.
Qed.
Print Assumptions C94_order.

(** C94: on Windows, too, the duration of a call is that on the clock monkit uses there, no
    more than a nanosecond away from what passed on the performance counter, as long as that
    clock does not overflow (C50). *)
Theorem C94_windows :
  forall freq base r0 h i a b ra rb, good_counter freq base h -> call h i a b ra rb ->
    exists out start finish d, time_run (Windows freq base) r0 h = Ok out /\ out !! a = Some (Began start) /\ out !! b = Some (Ended finish d) /\
      0 <= d /\ gt_wall finish - gt_wall start = d /\ Z.abs (d * freq - (rd_qpc rb - rd_qpc ra) * 1000000000) < freq.
Proof.
  intros freq base r0 h i a b ra rb Hg Hc. pose proof Hc as (Hab & Ha & Hb & _).
  destruct (win_sub freq base r0 h a b ra _ rb _ Hg ltac:(lia) Ha Hb) as [E L].
  exists (k_from (win_now freq base r0) (TState ∅ ∅) h), (win_now freq base r0 ra), (win_now freq base r0 rb), (qpc_ns freq base rb - qpc_ns freq base ra). split_and!.
  - apply win_run, Hg.
  - eapply k_begin, Ha.
  - rewrite (k_end _ _ _ _ _ _ _ _ Hc), E. reflexivity.
  - lia.
  - cbn. lia.
  - destruct Hg as (Hf & _). unfold qpc_ns.
    pose proof (Z.div_mod ((rd_qpc rb - base) * 1000000000) freq ltac:(lia)). pose proof (Z.mod_pos_bound ((rd_qpc rb - base) * 1000000000) freq ltac:(lia)).
    pose proof (Z.div_mod ((rd_qpc ra - base) * 1000000000) freq ltac:(lia)). pose proof (Z.mod_pos_bound ((rd_qpc ra - base) * 1000000000) freq ltac:(lia)).
    set (x := (rd_qpc rb - base) * 1000000000 / freq) in *. set (y := (rd_qpc ra - base) * 1000000000 / freq) in *. clearbody x y. nia.
Qed.
Print Assumptions C94_windows.

(** On Windows a RunningTimer (and Span.Duration) compares the two clocks with each other and
    can report a negative time, though neither goes back: the counter is at 400 microseconds
    when Go's clock, which ticks less often, still shows the start. *)
Definition win_history : list (reading * tev) := [(Reading 0 1000 4000, TimerStart 0); (Reading 0 1000 5000, TimerElapsed 0)].
Theorem C94_windows_timer_refuted :
  ~ forall freq base r0 h i a b ra rb out d, good_clock r0 h -> good_counter freq base h -> pair_at (TimerStart i) (TimerElapsed i) h a b ra rb ->
      time_run (Windows freq base) r0 h = Ok out -> out !! b = Some (Lasted d) -> 0 <= d.
Proof.
  intros H. assert (Q : 0 <= -400000); [|lia].
  apply (H 10000000 0 (Reading 0 1000 0) win_history 0%nat 0%nat 1%nat (Reading 0 1000 4000) (Reading 0 1000 5000) [Nothing; Lasted (-400000)] (-400000)).
  - intros a b r e r' e' Hab Ha Hb. destruct a as [|[|a]], b as [|[|b]]; cbn in Ha, Hb; try discriminate; injection Ha as <- <-; injection Hb as <- <-; cbn; lia.
  - split; [lia|]. split; [unfold in64; lia|].
    intros a b r e r' e' Hab Ha Hb. destruct a as [|[|a]], b as [|[|b]]; cbn in Ha, Hb; try discriminate; try lia; injection Ha as <- <-; injection Hb as <- <-; cbn; lia.
  - split_and!; [lia|reflexivity|reflexivity|]. intros c r Hc. lia.
  - vm_compute. reflexivity.
  - reflexivity.
Qed.
Print Assumptions C94_windows_timer_refuted.

(** The times shown are not the time of day once that was set. *)
Theorem C94_time_of_day_refuted :
  ~ forall r0 h i a r out t, good_clock r0 h -> h !! a = Some (r, CallStart i) -> time_run Other r0 h = Ok out -> out !! a = Some (Began t) -> gt_wall t = rd_wall r.
Proof.
  intros H. assert (Q : 1005 = 7777); [|discriminate].
  apply (H (Reading 1000 0 0) [(Reading 7777 5 0, CallStart 0)] 0%nat 0%nat (Reading 7777 5 0) [Began (GoTime 1005 (Some 5))] (GoTime 1005 (Some 5))).
  - intros a b r e r' e' Hab Ha Hb. destruct a as [|a], b as [|b]; cbn in Ha, Hb; try discriminate; injection Ha as <- <-; injection Hb as <- <-; cbn; lia.
  - reflexivity.
  - vm_compute. reflexivity.
  - reflexivity.
Qed.
Print Assumptions C94_time_of_day_refuted.

(** The time of day is set back an hour during the outer call. *)
Definition ex_history : list (reading * tev) :=
  [(Reading 9000000 10 0, CallStart 0); (Reading 9000005 15 0, CallStart 1); (Reading 5000000 20 0, CallEnd 1);
   (Reading 5000001 21 0, CallStart 1); (Reading 5000003 23 0, CallDuration 0); (Reading 5000009 29 0, CallEnd 1); (Reading 5000010 30 0, CallEnd 0)].
Example C94_ex : good_clock (Reading 8999995 5 0) ex_history.
Proof.
  intros a b r e r' e' Hab Ha Hb.
  do 7 (destruct a as [|a]; [cbn in Ha; injection Ha as <- <-; do 7 (destruct b as [|b]; [cbn in Hb; injection Hb as <- <-; first [lia | cbn; lia]|]); discriminate|]). discriminate.
Qed.
Definition ex_out : list shown :=
  [Began (GoTime 9000000 (Some 10)); Began (GoTime 9000005 (Some 15)); Ended (GoTime 9000010 (Some 20)) 5;
   Began (GoTime 9000011 (Some 21)); Lasted 13; Ended (GoTime 9000019 (Some 29)) 8; Ended (GoTime 9000020 (Some 30)) 20].
Example C94_run_ex : time_run Other (Reading 8999995 5 0) ex_history = Ok ex_out.
Proof. vm_compute. reflexivity. Qed.
Example C94_nested_ex : recorded_as ex_history ex_out 0 6 20 /\ one_after_another ex_history ex_out 0 [5; 8] 6.
Proof.
  assert (R : forall i a b ra rb f d, (a < b)%nat -> ex_history !! a = Some (ra, CallStart i) -> ex_history !! b = Some (rb, CallEnd i) -> ex_out !! b = Some (Ended f d) ->
    forallb (fun c => match ex_history !! c with Some (_, CallStart j) => negb (Nat.eqb i j) | _ => true end) (seq (S a) (b - S a)) = true -> recorded_as ex_history ex_out a b d).
  { intros i a b ra rb f d Hab Ha Hb Ho Hn. exists i, ra, rb, f. split; [|exact Ho]. split_and!; [exact Hab|exact Ha|exact Hb|]. intros c r Hc E.
    rewrite forallb_forall in Hn. specialize (Hn c ltac:(apply in_seq; lia)). rewrite E, Nat.eqb_refl in Hn. discriminate. }
  split; [eapply R; [lia|reflexivity..]|]. exists 1%nat, 2%nat. split; [lia|]. split; [eapply R; [lia|reflexivity..]|].
  exists 3%nat, 5%nat. split; [lia|]. split; [eapply R; [lia|reflexivity..]|]. cbn. lia.
Qed.
Example C94_windows_ex : good_counter 10000000 0 [(Reading 0 0 4000, CallStart 0); (Reading 0 0 5003, CallEnd 0)] /\
  time_run (Windows 10000000 0) (Reading 0 0 0) [(Reading 0 0 4000, CallStart 0); (Reading 0 0 5003, CallEnd 0)] =
    Ok [Began (GoTime 400000 (Some 400000)); Ended (GoTime 500300 (Some 500300)) 100300].
Proof.
  split; [|vm_compute; reflexivity]. split; [lia|]. split; [unfold in64; lia|].
  intros a b r e r' e' Hab Ha Hb. destruct a as [|[|a]], b as [|[|b]]; cbn in Ha, Hb; try discriminate; try lia; injection Ha as <- <-; injection Hb as <- <-; cbn; lia.
Qed.
