(** C95: nobody repeats an attempt except because somebody else's succeeded. *)
From Verif Require Import Base Conc FuncStatsModel ObserverModel ObserverSpec ProgressSpec ProgressProofs.
Local Open Scope nat_scope.

(** ObserveSpans: as many attempts as observers were added or removed meanwhile, and one. *)
Theorem C95_register : forall pre post i,
  threads (ob_exec pre) !! i = Some (ob_start OReg) ->
  2 * ((added (pre ++ post) - added pre) + (removed (pre ++ post) - removed pre)) + 2 <= steps_of i post ->
  registered (pre ++ post) i.
Proof.
  intros pre post i H Hs. destruct (register_progress pre i H post) as [Hr|Hr]; [exact Hr|]. lia.
Qed.

(** No fixed number of steps is enough for it, whatever others do. *)
Theorem C95_register_refuted : ~ exists B, forall pre post i,
  threads (ob_exec pre) !! i = Some (ob_start OReg) -> B <= steps_of i post -> registered (pre ++ post) i.
Proof. exact register_starves. Qed.

(** A notification pass: a fixed number of steps, known at its first, whatever others do. *)
Theorem C95_notify : forall pre post p,
  threads (ob_exec pre) !! p = Some (ob_start ONotify) ->
  2 * added pre + 1 <= steps_of p post ->
  exists calls, pass_done (pre ++ Run p :: post) p calls.
Proof.
  intros pre post p H Hs. destruct (notify_progress pre p H post) as [Hr|Hr]; [exact Hr|]. lia.
Qed.

(** A cancel function that has the mutex: at most two walks along the list, whatever
    others do. *)
Theorem C95_cancel : forall pre post i r,
  threads (ob_exec pre) !! i = Some (OThr (OCancel r) (C_walk None)) ->
  2 * added (pre ++ post) + 5 <= steps_of i post ->
  cancelled (pre ++ post) r.
Proof.
  intros pre post i r H Hs. destruct (cancel_progress pre i r H post) as [Hr|Hr]; [exists i; exact Hr|]. lia.
Qed.

(** Until then it waits for nobody but another cancel function that has the mutex. *)
Theorem C95_cancel_waits : forall sched i r,
  threads (ob_exec sched) !! i = Some (OThr (OCancel r) C_lock) ->
  threads (ob_exec (sched ++ [Run i])) !! i = Some (OThr (OCancel r) (C_walk None)) \/
  exists j q pc, threads (ob_exec sched) !! j = Some (OThr (OCancel q) pc) /\ pc <> C_start /\ pc <> C_lock /\ pc <> C_done.
Proof.
  intros sched i r H. destruct (lock_waits sched i r H) as [Hl|(j & q & pc & Hj & Hc)]; [left; exact Hl|].
  right. exists j, q, pc. split; [exact Hj|]. split_and!; intros ->; discriminate Hc.
Qed.

(** Entering an observed function: six steps, and two for every time somebody else changed
    the highwater mark meanwhile. *)
Theorem C95_enter : forall pre post i p err panicked dur,
  threads (f_exec pre) !! i = Some (f_start (FCall p err panicked dur)) ->
  2 * raised_by_others i pre post + 6 <= steps_of i post ->
  entered (pre ++ post) i.
Proof.
  intros pre post i p e k d H Hs. destruct (enter_progress i p e k d pre post H) as [Hr|Hr]; [exact Hr|]. lia.
Qed.

Print Assumptions C95_register.
Print Assumptions C95_register_refuted.
Print Assumptions C95_notify.
Print Assumptions C95_cancel.
Print Assumptions C95_cancel_waits.
Print Assumptions C95_enter.

(** Call 0 looks, call 1 registers in between, call 0 tries in vain, and succeeds the second
    time: four steps, one other registration. *)
Example C95_register_ex :
  let pre := [Spawn OReg; Spawn OReg] in
  let post := [Run 0; Run 1; Run 1; Run 0; Run 0; Run 0] in
  threads (ob_exec pre) !! 0 = Some (ob_start OReg) /\
  added (pre ++ post) - added pre = 2 /\ removed (pre ++ post) = 0 /\ steps_of 0 post = 4 /\ registered (pre ++ post) 0 /\
  ~ registered (pre ++ [Run 0; Run 1; Run 1; Run 0; Run 0]) 0.
Proof. split_and!; try reflexivity. intros H. vm_compute in H. discriminate H. Qed.

(** The worst case of a pass over two observers: six steps in all. *)
Example C95_notify_ex :
  let pre := [Spawn OReg; Spawn OReg; Run 0; Run 0; Run 1; Run 1; Spawn ONotify] in
  threads (ob_exec pre) !! 2 = Some (ob_start ONotify) /\ added pre = 2 /\
  pass_done (pre ++ Run 2 :: [Run 2; Run 2; Run 2; Run 2; Run 2]) 2 [1; 0] /\
  ~ exists calls, pass_done (pre ++ Run 2 :: [Run 2; Run 2; Run 2; Run 2]) 2 calls.
Proof. split_and!; try reflexivity. intros (c & H). vm_compute in H. discriminate H. Qed.

(** A cancel function whose exchange fails: a registration came in between. *)
Example C95_cancel_ex :
  let pre := [Spawn OReg; Run 0; Run 0; Spawn (OCancel 0); Spawn OReg; Run 1; Run 1] in
  let post := [Run 1; Run 1; Run 2; Run 2; Run 1; Run 1; Run 1; Run 1; Run 1; Run 1] in
  threads (ob_exec pre) !! 1 = Some (OThr (OCancel 0) (C_walk None)) /\
  threads (ob_exec (pre ++ [Run 1; Run 1; Run 2; Run 2; Run 1])) !! 1 = Some (OThr (OCancel 0) (C_walk None)) /\
  added (pre ++ post) = 2 /\ cancelled (pre ++ post) 0 /\ steps_of 1 post = 8.
Proof. split_and!; try reflexivity. exists 1. reflexivity. Qed.

Example C95_cancel_waits_ex :
  let sched := [Spawn OReg; Run 0; Run 0; Spawn (OCancel 0); Spawn (OCancel 0); Run 1; Run 1; Run 2] in
  threads (ob_exec sched) !! 2 = Some (OThr (OCancel 0) C_lock) /\
  threads (ob_exec (sched ++ [Run 2])) !! 2 = Some (OThr (OCancel 0) C_lock) /\
  threads (ob_exec sched) !! 1 = Some (OThr (OCancel 0) (C_walk None)).
Proof. split_and!; reflexivity. Qed.

(** Two calls enter; the second raises the mark between the look and the exchange of the
    first, which then finds nothing left to do. *)
Example C95_enter_ex :
  let f := FCall None None false 1%Z in
  let pre := [Spawn f; Spawn f] in
  let post := [Run 0; Run 0; Run 0; Run 0; Run 1; Run 1; Run 1; Run 1; Run 0; Run 0] in
  threads (f_exec pre) !! 0 = Some (f_start f) /\ raised_by_others 0 pre post = 1 /\ steps_of 0 post = 6 /\
  entered (pre ++ post) 0 /\ ~ entered (pre ++ [Run 0; Run 0; Run 0; Run 0; Run 1; Run 1; Run 1; Run 1; Run 0]) 0.
Proof.
  cbn zeta. split_and!; try reflexivity.
  - eexists _, _. split; [vm_compute; reflexivity|exact I].
  - intros (c & pc & H & Hp). vm_compute in H. injection H as _ E. rewrite <- E in Hp. exact Hp.
Qed.
