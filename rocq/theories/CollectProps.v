(** C27-C29: package collect. *)
From Verif Require Import Base Conc ScopeSpec CollectModel CollectSpec CollectProofs CollectorProofs.
Local Open Scope Z_scope.

(** C27: ObserveAllTraces attaches to a trace at most once; to every trace whose start came
    after the watcher was registered; to every trace with a root or orphan that runs
    throughout the scan - unless cancel was called.  Once cancel has returned the collector
    is attached to no trace and never will be. *)
Theorem C27_attach_once : forall sched, NoDup (attachments sched).
Proof. exact attached_once. Qed.
Print Assumptions C27_attach_once.

Theorem C27_new_traces : forall sched pre post p t,
  sched = pre ++ post -> trace_not_begun pre p -> setup_registered pre -> trace_observed sched p t -> ~ cancel_begun sched ->
  attached sched t.
Proof. exact trace_attached. Qed.
Print Assumptions C27_new_traces.

Theorem C27_running_traces : forall sched pre post i j t,
  sched = pre ++ post -> at_orders sched -> setup_unscanned pre i -> root_running pre j t ->
  setup_returned sched i -> root_running sched j t -> ~ cancel_begun sched ->
  attached sched t.
Proof. exact root_attached. Qed.
Print Assumptions C27_running_traces.

Theorem C27_cancelled : forall sched more t, cancel_returned sched ->
  ~ attached (sched ++ more) t /\ attachments (sched ++ more) = attachments sched.
Proof. exact cancel_final. Qed.
Print Assumptions C27_cancelled.

(** ... and the registry has let go of it: for a trace starting afterwards nothing of it is
    called. *)
Theorem C27_unregistered : forall sched more p t pc, cancel_returned sched -> trace_not_begun sched p ->
  at_thread (sched ++ more) p (AThr (ATrace t) pc) -> pc = T_load \/ pc = T_done false.
Proof. exact cancel_unwatched. Qed.
Print Assumptions C27_unregistered.

Definition steps {A} (i n : nat) : list (action A) := List.repeat (Run i) n.

(** Trace 7 has a running root before the call; trace 7 and 8 then start while the scan is
    under way, and the cancel follows. *)
Definition ex27_pre : list (action acall) :=
  [Spawn (ASpan 7 false); Spawn (ASetup (fun l => l)); Spawn (ATrace 7); Spawn (ATrace 8)] ++ steps 0 1 ++ steps 1 1.
Definition ex27 : list (action acall) := ex27_pre ++ steps 2 4 ++ steps 1 5 ++ steps 2 9 ++ steps 3 9 ++ steps 1 20.
Example C27_example :
  attachments ex27 = [7; 8]%nat /\ setup_registered ex27_pre /\ setup_unscanned ex27_pre 1 /\ trace_not_begun ex27_pre 2 /\
  trace_not_begun ex27_pre 3 /\ root_running ex27_pre 0 7 /\ root_running ex27 0 7 /\ setup_returned ex27 1 /\
  trace_observed ex27 3 8 /\ at_orders ex27 /\ ~ cancel_begun ex27 /\
  cancel_returned (ex27 ++ [Spawn ACancel] ++ steps 4 20).
Proof.
  assert (E : threads (at_exec ex27) = [AThr (ASpan 7 false) S_running; AThr (ASetup (fun l => l)) O_done;
     AThr (ATrace 7) (T_done true); AThr (ATrace 8) (T_done true)]) by (vm_compute; reflexivity).
  split_and!.
  - vm_compute. reflexivity.
  - exists 1%nat, (fun l => l), O_roots. split; [vm_compute; reflexivity|discriminate].
  - exists (fun l => l), O_roots. split; [vm_compute; reflexivity|auto].
  - intros t H. vm_compute in H. injection H as <-. reflexivity.
  - intros t H. vm_compute in H. injection H as <-. reflexivity.
  - exists false. vm_compute. reflexivity.
  - exists false. vm_compute. reflexivity.
  - exists (fun l => l). vm_compute. reflexivity.
  - exists true. vm_compute. reflexivity.
  - intros i ord pc H. unfold at_thread in H. rewrite E in H. apply elem_of_list_lookup_2 in H.
    repeat (apply elem_of_cons in H as [H|H]; [first [discriminate H|injection H as -> ->; intros l; reflexivity]|]). inversion H.
  - intros (c & pc & H & _). unfold at_thread in H. rewrite E in H. apply elem_of_list_lookup_2 in H.
    repeat (apply elem_of_cons in H as [H|H]; [discriminate H|]). inversion H.
  - exists 4%nat. vm_compute. reflexivity.
Qed.
Example C27_unregistered_ex : cancel_returned (ex27 ++ [Spawn ACancel] ++ steps 4 20) /\ trace_not_begun (ex27 ++ [Spawn ACancel] ++ steps 4 20) 5 /\
  at_thread ((ex27 ++ [Spawn ACancel] ++ steps 4 20) ++ [Spawn (ATrace 9); Run 5%nat]) 5 (AThr (ATrace 9) (T_done false)).
Proof. split_and!; [exists 4%nat; vm_compute; reflexivity|intros t H; vm_compute in H; discriminate H|vm_compute; reflexivity]. Qed.

(** C28: the done channel is closed at most once, whatever calls run. *)
Theorem C28_closed_once : forall info fuel sched, 0 <= closes info fuel sched <= 1.
Proof. exact closed_once. Qed.
Print Assumptions C28_closed_once.
Theorem C28_finder_closed_once : forall sched, 0 <= finder_closes sched <= 1.
Proof. exact finder_once. Qed.
Print Assumptions C28_finder_closed_once.

(** Spans answers nothing, or the triggering span's outcome and the collected spans
    connected to it through collected parents, each span once, all of one trace. *)
Theorem C28_spans : forall info fuel sched i a,
  distinct_ids info -> finish_once info fuel sched -> deep_enough info fuel sched ->
  spans_answer info fuel sched i a ->
  a = Some [] \/ exists r l, a = Some (r :: l) /\ ended info fuel sched r /\
    (forall x, x ∈ r :: l <-> connected info (collected info fuel sched) r x) /\ NoDup (map fs_span (r :: l)) /\
    (forall x, x ∈ r :: l -> si_trace (info (fs_span x)) = si_trace (info (fs_span r))).
Proof. exact spans_tree. Qed.
Print Assumptions C28_spans.

(** Not nothing if the end was recorded before Spans was called. *)
Theorem C28_spans_nonempty : forall info fuel pre post i r a,
  ended info fuel pre r -> spans_unbegun info fuel pre i -> spans_answer info fuel (pre ++ post) i a -> a <> Some [].
Proof. exact spans_after. Qed.
Print Assumptions C28_spans_nonempty.

(** There is one trigger, and only spans being finished after it and before its own end was
    recorded are collected. *)
Theorem C28_one_trigger : forall info fuel sched n n', trigger info fuel sched n -> trigger info fuel sched n' -> n = n'.
Proof. exact trigger_one. Qed.
Print Assumptions C28_one_trigger.
Theorem C28_collected_between : forall info fuel sched f, collected info fuel sched f ->
  exists pre post i e, sched = pre ++ post /\ cl_thread info fuel pre i (KThr (KFinish f) (F_store e)) /\ trigger info fuel pre e /\
    forall r, ~ ended info fuel pre r.
Proof. exact kept_during. Qed.
Print Assumptions C28_collected_between.

(** C29: every span that finished between the trigger and the call of the triggering
    span's Finish is collected, and returned if all its ancestors up to the trigger also
    finished in that period. *)
Theorem C29_collected : forall info fuel sched n f, in_period info fuel sched n f -> collected info fuel sched f.
Proof. exact period_collected. Qed.
Print Assumptions C29_collected.
Theorem C29_returned : forall info fuel sched pre post i n r a x,
  sched = pre ++ post -> distinct_ids info -> finish_once info fuel sched -> deep_enough info fuel sched ->
  ended info fuel pre r -> fs_span r = n -> spans_unbegun info fuel pre i -> spans_answer info fuel sched i a ->
  connected info (in_period info fuel sched n) r x ->
  exists l, a = Some (r :: l) /\ x ∈ r :: l.
Proof. exact period_returned. Qed.
Print Assumptions C29_returned.

(** A chain of spans 0 <- 1 <- 2 <- ..., ids 10, 11, ..., all of one trace. *)
Definition chain (n : nat) : sinfo := SInfo (10 + Z.of_nat n) 0 (match n with O => None | S m => Some (10 + Z.of_nat m) end).
Lemma chain_ids : distinct_ids chain.
Proof. intros a b. cbn. lia. Qed.
Definition ok (n : nat) : fin := Fin n None false.

(** Span 0 triggers; 2 and 1 finish; a second Stop races with Finish of 0. *)
Definition ex28_pre : list (action kcall) := [Spawn (KStart 0 true); Spawn (KFinish (ok 2)); Spawn (KFinish (ok 1)); Spawn (KFinish (ok 0)); Spawn KStop; Spawn KSpans]
  ++ steps 0 2 ++ steps 1 2 ++ steps 2 2 ++ steps 1 4 ++ steps 2 9 ++ steps 3 6 ++ steps 4 3 ++ steps 3 9.
Definition ex28 : list (action kcall) := ex28_pre ++ steps 5 5.
(** The same without span 1's Finish. *)
Definition ex29_pre : list (action kcall) := [Spawn (KForce 0); Spawn (KFinish (ok 2)); Spawn (KFinish (ok 0)); Spawn KSpans] ++ steps 0 2.
Definition ex29_mid : list (action kcall) := steps 1 9.
Definition ex29 : list (action kcall) := ex29_pre ++ ex29_mid ++ steps 2 9 ++ steps 3 5.

Example C28_example :
  spans_answer chain 5 ex28 5 (Some [ok 0; ok 1; ok 2]) /\ finish_once chain 5 ex28 /\ deep_enough chain 5 ex28 /\
  distinct_ids chain /\ closes chain 5 ex28 = 1 /\
  ended chain 5 ex28_pre (ok 0) /\ spans_unbegun chain 5 ex28_pre 5 /\ collected chain 5 ex28 (ok 2).
Proof.
  assert (E : threads (cl_exec chain 5 ex28) = [KThr (KStart 0 true) (M_done true); KThr (KFinish (ok 2)) (F_done true);
     KThr (KFinish (ok 1)) (F_done true); KThr (KFinish (ok 0)) (F_done true); KThr KStop P_done;
     KThr KSpans (V_done (Some [ok 0; ok 1; ok 2]))]) by (vm_compute; reflexivity).
  split_and!.
  - unfold spans_answer, cl_thread. rewrite E. reflexivity.
  - intros i j f g pc pc' Hi Hj Hs. unfold cl_thread in Hi, Hj. rewrite E in Hi, Hj.
    destruct i as [|[|[|[|[|[|i]]]]]]; cbn in Hi; try discriminate Hi;
    destruct j as [|[|[|[|[|[|j]]]]]]; cbn in Hj; try discriminate Hj;
    injection Hi as <- <-; injection Hj as <- <-; first [reflexivity|discriminate Hs].
  - intros i f pc Hi. unfold cl_thread in Hi. rewrite E in Hi.
    destruct i as [|[|[|[|[|[|i]]]]]]; cbn in Hi; try discriminate Hi; injection Hi as <- <-; cbn; lia.
  - apply chain_ids.
  - vm_compute. reflexivity.
  - split; [exists 0%nat; left; exists true; vm_compute; reflexivity|]. exists 3%nat, (F_done true). split; [vm_compute; reflexivity|auto].
  - intros t H. vm_compute in H. injection H as <-. reflexivity.
  - exists 1%nat, 0%nat. split; [right; vm_compute; reflexivity|]. split; [exists 0%nat; left; exists true; vm_compute; reflexivity|discriminate].
Qed.

Example C29_example :
  trigger chain 5 ex29_pre 0 /\ in_period chain 5 ex29 0 (ok 2) /\ spans_answer chain 5 ex29 3 (Some [ok 0]) /\
  finish_once chain 5 ex29 /\ deep_enough chain 5 ex29 /\ ended chain 5 ex29 (ok 0).
Proof.
  assert (E : threads (cl_exec chain 5 ex29) = [KThr (KForce 0) (M_done true); KThr (KFinish (ok 2)) (F_done true);
     KThr (KFinish (ok 0)) (F_done true); KThr KSpans (V_done (Some [ok 0]))]) by (vm_compute; reflexivity).
  assert (E' : threads (cl_exec chain 5 (ex29_pre ++ ex29_mid)) = [KThr (KForce 0) (M_done true); KThr (KFinish (ok 2)) (F_done true);
     KThr (KFinish (ok 0)) F_load; KThr KSpans V_lock]) by (vm_compute; reflexivity).
  split_and!.
  - exists 0%nat. right. vm_compute. reflexivity.
  - exists ex29_pre, ex29_mid, (steps 2 9 ++ steps 3 5), 1%nat, true. split; [reflexivity|]. split; [exists 0%nat; right; vm_compute; reflexivity|].
    split; [|split; [reflexivity|split]].
    + split.
      * intros i pc Hi. unfold cl_thread in Hi. rewrite E' in Hi. destruct i as [|[|[|[|i]]]]; cbn in Hi; try discriminate Hi.
      * intros i f pc Hi Hf. unfold cl_thread in Hi. rewrite E' in Hi. destruct i as [|[|[|[|i]]]]; cbn in Hi; try discriminate Hi; injection Hi as <- <-; [discriminate Hf|reflexivity].
    + intros t H. vm_compute in H. injection H as <-. reflexivity.
    + unfold cl_thread. rewrite E'. reflexivity.
  - unfold spans_answer, cl_thread. rewrite E. reflexivity.
  - intros i j f g pc pc' Hi Hj Hs. unfold cl_thread in Hi, Hj. rewrite E in Hi, Hj.
    destruct i as [|[|[|[|i]]]]; cbn in Hi; try discriminate Hi;
    destruct j as [|[|[|[|j]]]]; cbn in Hj; try discriminate Hj;
    injection Hi as <- <-; injection Hj as <- <-; first [reflexivity|discriminate Hs].
  - intros i f pc Hi. unfold cl_thread in Hi. rewrite E in Hi.
    destruct i as [|[|[|[|i]]]]; cbn in Hi; try discriminate Hi; injection Hi as <- <-; cbn; lia.
  - split; [exists 0%nat; right; vm_compute; reflexivity|]. exists 2%nat, (F_done true). split; [vm_compute; reflexivity|auto].
Qed.

(** The unrestricted claim is false: a span whose whole Finish lay in the period need not be
    returned (its parent was still running). *)
Theorem C29_refuted : exists info fuel sched i a r x,
  distinct_ids info /\ finish_once info fuel sched /\ deep_enough info fuel sched /\
  ended info fuel sched r /\ spans_answer info fuel sched i (Some a) /\ a <> [] /\ in_period info fuel sched (fs_span r) x /\ x ∉ a.
Proof.
  destruct C29_example as (_ & Hp & Ha & Ho & Hd & He). exists chain, 5%nat, ex29, 3%nat, [ok 0], (ok 0), (ok 2).
  split_and!; auto using chain_ids. intros H. apply elem_of_list_singleton in H. discriminate H.
Qed.
Print Assumptions C29_refuted.
