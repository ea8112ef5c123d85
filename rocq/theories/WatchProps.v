(** C70-C72: WatchForSpans, FindSpan, CollectSpans. *)
From Verif Require Import Base Conc CollectModel CollectSpec CollectProps WatchModel WatchSpec WatchProofs WatchProofs2.
Local Open Scope Z_scope.

(** C70: if WatchForSpans returns spans, they are the outcome of a span for which the matcher
    answered true and the spans collected with it, connected to it parent by parent, each
    once, of one trace, all finished since the call; every span connected through spans
    finished in the period is there. *)
Theorem C70_result : forall info fuel acts a,
  distinct_ids info -> finish_once info fuel (w_calls info fuel acts) -> deep_enough info fuel (w_calls info fuel acts) ->
  w_returned info fuel acts (WSpans a) ->
  exists r l, a = Some (r :: l) /\ ended info fuel (w_calls info fuel acts) r /\
    WStart (fs_span r) true ∈ acts /\ (forall x, x ∈ r :: l -> WFinish x ∈ acts) /\
    (forall x, x ∈ r :: l <-> connected info (collected info fuel (w_calls info fuel acts)) r x) /\ NoDup (map fs_span (r :: l)) /\
    (forall x, x ∈ r :: l -> si_trace (info (fs_span x)) = si_trace (info (fs_span r))) /\
    (forall x, connected info (in_period info fuel (w_calls info fuel acts) (fs_span r)) r x -> x ∈ r :: l).
Proof. exact watch_result. Qed.
Print Assumptions C70_result.
(** It returns an error only if ctx was cancelled. *)
Theorem C70_error : forall info fuel acts, w_returned info fuel acts WErr -> w_cancelled acts.
Proof. exact watch_error. Qed.
Print Assumptions C70_error.
(** When ctx is done and select takes that case it returns the error after four more steps of
    its own, whatever the notifications are doing. *)
Theorem C70_cancel : forall info fuel acts more,
  w_waiting info fuel acts -> w_cancelled acts -> (4 <= w_steps more)%nat -> w_returned info fuel (acts ++ WGo false :: more) WErr.
Proof. exact watch_cancel. Qed.
Print Assumptions C70_cancel.
(** After it returned, a notification that begins later does nothing but look. *)
Theorem C70_no_more : forall info fuel acts more r i th,
  w_returned info fuel acts r -> unmade info fuel (w_calls info fuel acts) i ->
  cl_thread info fuel (w_calls info fuel (acts ++ more)) i th ->
  (forall n m, kt_call th = KStart n m -> kt_pc th = M_load \/ kt_pc th = M_done false) /\
  (forall f, kt_call th = KFinish f -> kt_pc th = F_load \/ kt_pc th = F_done false).
Proof.
  intros info fuel acts more r i th Hr Hu Hi. pose proof (watch_idle info fuel acts more r i th Hr Hu Hi) as H. unfold idle in H.
  split; intros * E; rewrite E in H; exact H.
Qed.
Print Assumptions C70_no_more.

Definition wsteps (i n : nat) : list wact := repeat (WRun i) n.
Definition wgo (n : nat) : list wact := repeat (WGo true) n.
(** Span 0 matches, 1 and 2 finish, 0 finishes; then ctx is cancelled, too late. *)
Definition ex70 : list wact :=
  [WGo true; WStart 0 true] ++ wsteps 0 3 ++ [WStart 1 true] ++ wsteps 1 3 ++ [WFinish (ok 2)] ++ wsteps 2 9 ++ [WFinish (ok 1)] ++ wsteps 3 9 ++ [WFinish (ok 0)] ++ wsteps 4 9 ++ wgo 3 ++ [WCtx] ++ wgo 12.
Definition ex70_late : list wact := ex70 ++ [WStart 3 true] ++ wsteps 7 3.
Definition ex70_cancel : list wact := [WGo true; WStart 0 true] ++ wsteps 0 3 ++ [WCtx].
Example C70_ex :
  w_returned chain 5 ex70 (WSpans (Some [ok 0; ok 1; ok 2])) /\ distinct_ids chain /\ finish_once chain 5 (w_calls chain 5 ex70) /\ deep_enough chain 5 (w_calls chain 5 ex70).
Proof.
  assert (E : threads (cl_exec chain 5 (w_calls chain 5 ex70)) = [KThr (KStart 0 true) (M_done true); KThr (KStart 1 true) (M_done false); KThr (KFinish (ok 2)) (F_done true);
     KThr (KFinish (ok 1)) (F_done true); KThr (KFinish (ok 0)) (F_done true); KThr KSpans (V_done (Some [ok 0; ok 1; ok 2])); KThr KStop P_done]) by (vm_compute; reflexivity).
  split_and!; [vm_compute; reflexivity|apply chain_ids| |].
  - intros i j f g pc pc' Hi Hj Hs. unfold cl_thread in Hi, Hj. rewrite E in Hi, Hj.
    destruct i as [|[|[|[|[|[|[|i]]]]]]]; cbn in Hi; try discriminate Hi;
    destruct j as [|[|[|[|[|[|[|j]]]]]]]; cbn in Hj; try discriminate Hj;
    injection Hi as <- <-; injection Hj as <- <-; first [reflexivity|discriminate Hs].
  - intros i f pc Hi. unfold cl_thread in Hi. rewrite E in Hi.
    destruct i as [|[|[|[|[|[|[|i]]]]]]]; cbn in Hi; try discriminate Hi; injection Hi as <- <-; cbn; lia.
Qed.
Example C70_no_more_ex : unmade chain 5 (w_calls chain 5 ex70) 7 /\ cl_thread chain 5 (w_calls chain 5 ex70_late) 7 (KThr (KStart 3 true) (M_done false)).
Proof. split; [intros t H; vm_compute in H; discriminate H|vm_compute; reflexivity]. Qed.
Example C70_cancel_ex : w_waiting chain 5 ex70_cancel /\ w_cancelled ex70_cancel /\ w_steps (wgo 4) = 4%nat /\
  w_returned chain 5 (ex70_cancel ++ WGo false :: wgo 4) WErr.
Proof. split_and!; [vm_compute; reflexivity| |reflexivity|vm_compute; reflexivity]. unfold w_cancelled, ex70_cancel. cbn. do 5 right. left. Qed.

(** C71: FindSpan returns only if ctx was cancelled or a span for which the matcher answered
    true started. *)
Theorem C71_why : forall acts, d_returned false acts ->
  DCtx ∈ acts \/ DStart true ∈ acts /\ exists i pc, d_thread false acts i (FThr (FStart true) pc) /\ pc <> Q_load.
Proof. exact find_why'. Qed.
Print Assumptions C71_why.
(** It does return, within five steps of its own, once ctx is done or the Start of a matching
    span has returned (and no other call is about to close the channel). *)
Theorem C71_returns : forall acts more, d_waiting false acts ->
  DCtx ∈ acts \/ ((exists i, d_thread false acts i (FThr (FStart true) Q_done)) /\ forall i t, d_thread false acts i t -> ft_pc t <> Q_close) ->
  (5 <= d_steps more)%nat -> d_returned false (acts ++ more).
Proof. exact find_returns. Qed.
Print Assumptions C71_returns.
(** With no matcher it returns at once. *)
Theorem C71_nil : forall acts, d_returned true acts.
Proof.
  intros acts. unfold d_returned, d_run. induction acts as [|a acts IH] using rev_ind; [reflexivity|].
  rewrite fold_left_app. cbn [fold_left]. destruct (fold_left d_act acts (d_new true)) as [h x p]. cbn in IH. subst p. destruct a; reflexivity.
Qed.
Print Assumptions C71_nil.
(** A Start that begins after it returned does nothing. *)
Theorem C71_no_more : forall acts more i m pc, d_returned false acts -> (forall t, ~ d_thread false acts i t) ->
  d_thread false (acts ++ more) i (FThr (FStart m) pc) -> pc = Q_load \/ pc = Q_done.
Proof. exact find_idle. Qed.
Print Assumptions C71_no_more.
Definition ex71 : list dact := [DGo; DStart false; DRun 0%nat; DGo; DStart true; DStart true; DRun 1%nat; DRun 2%nat; DRun 1%nat; DRun 2%nat; DGo; DRun 1%nat].
Example C71_ex : d_waiting false ex71 /\ d_thread false ex71 2 (FThr (FStart true) Q_done) /\ (forall i t, d_thread false ex71 i t -> ft_pc t <> Q_close) /\
  d_returned false (ex71 ++ repeat DGo 5) /\ (forall t, ~ d_thread false (ex71 ++ repeat DGo 5) 4 t) /\
  d_thread false ((ex71 ++ repeat DGo 5) ++ [DStart true; DRun 4%nat]) 4 (FThr (FStart true) Q_done).
Proof.
  split_and!; [reflexivity|vm_compute; reflexivity| |vm_compute; reflexivity|intros t H; vm_compute in H; discriminate H|vm_compute; reflexivity].
  intros i t H. vm_compute in H. destruct i as [|[|[|i]]]; cbn in H; try discriminate H; injection H as <-; discriminate.
Qed.

(** C72: what CollectSpans returns: the outcome of the task it ran work in, and the spans
    connected to it parent by parent, each once, all of its trace, all finished since the
    call; every span connected through spans finished while work ran is there. *)
Theorem C72_result : forall info fuel root acts a,
  x_own root acts -> distinct_ids info -> finish_once info fuel (x_calls info fuel root acts) -> deep_enough info fuel (x_calls info fuel root acts) ->
  x_returned info fuel root acts a ->
  exists l, a = Some (Fin root None false :: l) /\ (forall x, x ∈ l -> XFinish x ∈ acts) /\ NoDup (map fs_span (Fin root None false :: l)) /\
    (forall x, x ∈ l -> si_trace (info (fs_span x)) = si_trace (info root)) /\
    (forall x, x ∈ Fin root None false :: l <-> connected info (collected info fuel (x_calls info fuel root acts)) (Fin root None false) x) /\
    (forall x, connected info (during_work info fuel root acts) (Fin root None false) x -> x ∈ Fin root None false :: l).
Proof. exact collect_result. Qed.
Print Assumptions C72_result.
(** If work panics no list is returned. *)
Theorem C72_panic : forall info fuel root acts more a, x_working info fuel root acts -> ~ x_returned info fuel root (acts ++ XPanic :: more) a.
Proof. exact panic_none. Qed.
Print Assumptions C72_panic.

(** The task's span is 1, its parent 0 finishes too early to be collected; 3 and 2 finish while
    work runs. *)
Definition xsteps (i n : nat) : list xact := repeat (XRun i) n.
Definition xgo (n : nat) : list xact := repeat XGo n.
Definition ex72_pre : list xact := [XFinish (ok 4)] ++ xsteps 0 9 ++ xgo 4.
Definition ex72_mid : list xact := [XStart 2; XStart 3; XFinish (ok 3)] ++ xsteps 2 3 ++ xsteps 4 9 ++ [XFinish (ok 2)] ++ xsteps 5 9.
Definition ex72 : list xact := (ex72_pre ++ ex72_mid) ++ [XReturn] ++ xgo 30.
Example C72_ex :
  x_returned chain 5 1 ex72 (Some [ok 1; ok 2; ok 3]) /\ x_own 1 ex72 /\ distinct_ids chain /\
  finish_once chain 5 (x_calls chain 5 1 ex72) /\ deep_enough chain 5 (x_calls chain 5 1 ex72) /\ during_work chain 5 1 ex72 (ok 2).
Proof.
  assert (E : threads (cl_exec chain 5 (x_calls chain 5 1 ex72)) = [KThr (KFinish (ok 4)) (F_done false); KThr (KForce 1) (M_done true); KThr (KStart 2 false) (M_done false); KThr (KStart 3 false) M_load;
     KThr (KFinish (ok 3)) (F_done true); KThr (KFinish (ok 2)) (F_done true); KThr (KFinish (ok 1)) (F_done true); KThr KSpans (V_done (Some [ok 1; ok 2; ok 3])); KThr KStop P_done]) by (vm_compute; reflexivity).
  split_and!; [vm_compute; reflexivity| |apply chain_ids| | |].
  - intros f Hf. unfold ex72, ex72_pre, ex72_mid, xsteps, xgo in Hf. cbn in Hf. repeat (apply elem_of_cons in Hf as [Hf|Hf]; [first [discriminate Hf|injection Hf as ->; discriminate]|]). inversion Hf.
  - intros i j f g pc pc' Hi Hj Hs. unfold cl_thread in Hi, Hj. rewrite E in Hi, Hj.
    destruct i as [|[|[|[|[|[|[|[|[|i]]]]]]]]]; cbn in Hi; try discriminate Hi;
    destruct j as [|[|[|[|[|[|[|[|[|j]]]]]]]]]; cbn in Hj; try discriminate Hj;
    injection Hi as <- <-; injection Hj as <- <-; first [reflexivity|discriminate Hs].
  - intros i f pc Hi. unfold cl_thread in Hi. rewrite E in Hi.
    destruct i as [|[|[|[|[|[|[|[|[|i]]]]]]]]]; cbn in Hi; try discriminate Hi; injection Hi as <- <-; cbn; lia.
  - exists ex72_pre, ex72_mid, ([XReturn] ++ xgo 30), 5%nat, true. split; [unfold ex72; rewrite app_assoc; reflexivity|].
    split; [vm_compute; reflexivity|]. split; [vm_compute; reflexivity|]. split; [reflexivity|]. split; [intros t H; vm_compute in H; discriminate H|vm_compute; reflexivity].
Qed.
Example C72_panic_ex : x_working chain 5 1 (ex72_pre ++ ex72_mid) /\ x_pc (x_run chain 5 1 ((ex72_pre ++ ex72_mid) ++ XPanic :: xgo 30)) = X_done None.
Proof. split; vm_compute; reflexivity. Qed.
