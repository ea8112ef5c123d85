(** C87: the goroutine that advances meters. *)
From Verif Require Import Base BaseProofs SeriesModel Fval MeterModel MeterSpec MeterProofs TickerModel TickerSpec TickerProofs TickerProofs2 TickerProofs3 TickerProofs4.
Local Open Scope Z_scope.

(** It is started once, by the first meter. *)
Theorem C87_one_goroutine : forall acts,
  let s := t_run acts in
  length (t_gos s) = starts (t_log s) /\ (starts (t_log s) <= 1)%nat /\
  (registered (t_log s) <> [] -> starts (t_log s) = 1%nat).
Proof. intros acts. exact (goroutines _ (run_TInv acts)). Qed.
Print Assumptions C87_one_goroutine.

(** Each pass ticks the meters registered before it looked, once each, in the order of their
    registration, whatever append does to the array meanwhile. *)
Theorem C87_pass : forall acts p,
  let log := t_log (t_run acts) in
  NoDup (registered log) /\ (exists k, ticked p log = take k (seen p log)) /\
  (forall t, In (t, EDone p) log -> ticked p log = seen p log).
Proof.
  intros acts p. pose proof (run_TInv acts) as H. split; [apply H|]. split; [exact (ticked_prefix _ p H)|].
  intros t. exact (done_pass _ t p H).
Qed.
Print Assumptions C87_pass.

(** Passes are at least ten minutes apart, and no tick has a time in the future. *)
Theorem C87_apart : forall acts t p m n t' p' m' n',
  let log := t_log (t_run acts) in
  In (t, ETick p m n) log -> In (t', ETick p' m' n') log -> (p < p')%nat ->
  n + Z.of_nat (p' - p) * (10 * 60 * 10 ^ 9) <= n' /\ n' <= t' /\ t' <= t_clock (t_run acts).
Proof.
  intros acts t p m n t' p' m' n' log H1 H2 Hlt. pose proof (run_TInv acts) as H.
  split; [exact (tick_spacing _ _ _ _ _ _ _ _ _ H H1 H2 Hlt)|].
  destruct (started_inv _ H) as (_ & _ & g & _ & _ & Ht).
  { right; right. intros E. unfold log in H1. rewrite E in H1. destruct H1. }
  destruct (timed_tick _ _ _ _ _ _ _ Ht H2) as (? & ? & _). auto.
Qed.
Print Assumptions C87_apart.

(** From any point on, every registered meter is ticked again when ten minutes pass and the
    goroutine gets to run before and after. *)
Theorem C87_goes_on : forall acts m, In m (registered (t_log (t_run acts))) ->
  exists n1 n2, let s' := t_run (acts ++ replicate n1 (ARun 0) ++ [ATime (10 * 60 * 10 ^ 9)] ++ replicate n2 (ARun 0)) in
    exists new t p now, t_log s' = t_log (t_run acts) ++ new /\ In (t, ETick p m now) new.
Proof. exact next_tick. Qed.
Print Assumptions C87_goes_on.

(** The state of a meter is that after what callers and the goroutine did with it, in the
    order of the log; so C07, C08 and C09 apply. *)
Theorem C87_history : forall acts m t0 mt b,
  t_meters (t_run acts) !! m = Some (t0, mt, b) ->
  mt = meter_run t0 (ops m (t_log (t_run acts))) /\ (b = true <-> In m (registered (t_log (t_run acts)))).
Proof.
  intros acts m t0 mt b Hm. destruct (run_TInv acts) as ((_ & M2 & M3 & _) & _). split; [apply (M3 _ _ _ _ Hm)|].
  rewrite M2. split; [intros ->; eauto|]. intros (t1 & mt1 & E). rewrite Hm in E. congruence.
Qed.
Print Assumptions C87_history.

(** What was marked in the last 230 minutes is in the rate: Rate divides the sum of the marks
    since some moment not after this mark by the time since then. *)
Theorem C87_recent_marks : forall acts m t a l1 l2 t0 mt b,
  let s := t_run acts in
  t_log s = l1 ++ (t, EOp m (MMark a)) :: l2 -> t_meters s !! m = Some (t0, mt, b) ->
  t_clock s < t + 23 * (10 * 60 * 10 ^ 9) -> Forall (fun o => is_reset o = false) (ops m l2) ->
  exists older recent start,
    ops m (t_log s) = older ++ recent /\ (exists x, recent = x ++ MMark a :: ops m l2) /\ start <= t /\
    meter_Rate mt (t_clock s) =
      if 0 <? t_clock s - start then FRatio (wrap64 (sum_marks recent)) (t_clock s - start) else FInt 0.
Proof. exact recent_mark. Qed.
Print Assumptions C87_recent_marks.

(** One pass in which meter 0 is marked just before it is ticked. *)
Definition one_pass (a : Z) : list taction :=
  replicate 1 (ARun 0) ++ [ATime (10 * 60 * 10 ^ 9)] ++ replicate 3 (ARun 0) ++ [AUse 0 (UMark a)] ++ replicate 2 (ARun 0).
Definition passes24 : list taction := [ANew; ARegister 0 0] ++ one_pass 1000 ++ concat (replicate 23 (one_pass 1)).

(** After exactly 230 minutes it may be gone. *)
Theorem C87_longer_refuted :
  ~ forall acts m t a l1 l2 t0 mt b,
  let s := t_run acts in
  t_log s = l1 ++ (t, EOp m (MMark a)) :: l2 -> t_meters s !! m = Some (t0, mt, b) ->
  t_clock s <= t + 23 * (10 * 60 * 10 ^ 9) -> Forall (fun o => is_reset o = false) (ops m l2) ->
  exists older recent start,
    ops m (t_log s) = older ++ recent /\ (exists x, recent = x ++ MMark a :: ops m l2) /\ start <= t /\
    meter_Rate mt (t_clock s) =
      if 0 <? t_clock s - start then FRatio (wrap64 (sum_marks recent)) (t_clock s - start) else FInt 0.
Proof.
  intros H.
  set (log := t_log (t_run passes24)). set (mt := default (0, meter_new 0, false) (t_meters (t_run passes24) !! 0%nat)).
  destruct (H passes24 0%nat 600000000000 1000 (take 3 log) (drop 4 log) 0 (snd (fst mt)) true) as (older & recent & start & E & (x & Ex) & Hst & Hr).
  - vm_compute. reflexivity.
  - vm_compute. reflexivity.
  - vm_compute. discriminate.
  - apply List.Forall_forall. intros o Ho. destruct (is_reset o) eqn:Er; [exfalso|reflexivity].
    assert (Hall : forallb (fun o => negb (is_reset o)) (ops 0 (drop 4 log)) = true) by (vm_compute; reflexivity).
    rewrite forallb_forall in Hall. specialize (Hall o Ho). rewrite Er in Hall. discriminate.
  - assert (El : length (ops 0 log) = S (length (ops 0 (drop 4 log)))) by (vm_compute; reflexivity).
    assert (x = []) as ->.
    { change (t_log (t_run passes24)) with log in E. apply (f_equal length) in E. rewrite Ex, El, !app_length in E. cbn [length] in E.
      destruct x; [reflexivity|]. cbn [length] in E. lia. }
    assert (Er : meter_Rate (snd (fst mt)) (t_clock (t_run passes24)) = FRatio 23 13800000000000) by (vm_compute; reflexivity).
    assert (Es : wrap64 (sum_marks (MMark 1000 :: ops 0 (drop 4 log))) = 1023) by (vm_compute; reflexivity).
    change ([] ++ MMark 1000 :: ops 0 (drop 4 log)) with (MMark 1000 :: ops 0 (drop 4 log)) in Ex.
    rewrite Er, Ex, Es in Hr. revert Hr. generalize (t_clock (t_run passes24) - start). clear. intros z Hr.
    destruct (0 <? z); discriminate.
Qed.
Print Assumptions C87_longer_refuted.

(** Two meters; the second is registered after the first pass looked. *)
Definition two_meters : list taction :=
  [ANew; ARegister 0 1; ARun 0; ATime (10 * 60 * 10 ^ 9); ARun 0; ARun 0; ANew; ARegister 1 0; ARun 0; AUse 0 (UMark 7); AUse 1 (UMark 5); ARun 0; ARun 0;
   ARun 0; ATime (20 * 60 * 10 ^ 9); ARun 0; ARun 0; ARun 0; ARun 0; ARun 0; ARun 0].
Example C87_example :
  let log := t_log (t_run two_meters) in
  starts log = 1%nat /\ registered log = [0; 1]%nat /\ seen 0 log = [0]%nat /\ ticked 0 log = [0]%nat /\ seen 1 log = [0; 1]%nat /\ ticked 1 log = [0; 1]%nat /\
  ops 0 log = [MMark 7; MTick (600 * 10 ^ 9); MTick (1800 * 10 ^ 9)] /\ ops 1 log = [MMark 5; MTick (1800 * 10 ^ 9)] /\
  t_clock (t_run two_meters) < 600 * 10 ^ 9 + 23 * (10 * 60 * 10 ^ 9) /\
  length (t_arrays (t_run two_meters)) = 2%nat /\ exists t, In (t, EDone 1) log.
Proof. cbv zeta. split_and!; try (vm_compute; reflexivity). exists (1800 * 10 ^ 9). vm_compute. tauto. Qed.
