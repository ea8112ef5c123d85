(** Properties of keepAlive: C47. *)
From Verif Require Import Base KeepAliveModel KeepAliveSpec KeepAliveProofs.

(** When a stop returns no ping is running, and none starts or ends afterwards. *)
Theorem C47_stopped :
  forall acts a b i r,
    st_log (ka_exec acts) = a ++ EStopRet i r :: b ->
    quiet a /\ EStart ∉ b /\ forall e, EEnd e ∉ b.
Proof. intros acts a b i r H. exact (no_ping_after_stop _ a b i r (valid_exec acts) H). Qed.
Print Assumptions C47_stopped.

(** A failed ping is the last one. *)
Theorem C47_one_failure :
  forall acts a b e,
    st_log (ka_exec acts) = a ++ EEnd (Some e) :: b -> EStart ∉ b /\ forall e', EEnd e' ∉ b.
Proof. intros acts a b e H. exact (no_ping_after_failure _ a b e (valid_exec acts) H). Qed.
Print Assumptions C47_one_failure.

(** stop returns the failure that happened before it, if any. *)
Theorem C47_result :
  forall acts a b i r,
    st_log (ka_exec acts) = a ++ EStopRet i r :: b -> forall e, r = Some e <-> failed a e.
Proof. intros acts a b i r H. exact (stop_result _ a b i r (valid_exec acts) H). Qed.
Print Assumptions C47_result.

(** All calls of stop return the same. *)
Theorem C47_agree :
  forall acts i r j r',
    EStopRet i r ∈ st_log (ka_exec acts) -> EStopRet j r' ∈ st_log (ka_exec acts) -> r = r'.
Proof. intros acts i r j r'. exact (stops_agree _ i r j r' (valid_exec acts)). Qed.
Print Assumptions C47_agree.

(** Pings never overlap, and each needs a tick of its own. *)
Theorem C47_paced :
  forall acts a b,
    st_log (ka_exec acts) = a ++ EStart :: b -> quiet a /\ (count is_start a < count is_tick a)%nat.
Proof. intros acts a b H. exact (pings_bounded _ a b (valid_exec acts) H). Qed.
Print Assumptions C47_paced.

(** rctx is cancelled iff the parent was or keepAlive did, which it does only
    after a failed ping, and once. *)
Theorem C47_context :
  forall acts,
    (st_rctx (ka_exec acts) = true <-> EParent ∈ st_log (ka_exec acts) \/ ECancel ∈ st_log (ka_exec acts)) /\
    forall a b, st_log (ka_exec acts) = a ++ ECancel :: b -> (exists e, failed a e) /\ ECancel ∉ a ++ b.
Proof. intros acts. split; [exact (rctx_spec acts)|]. intros a b. exact (cancel_cause _ a b (valid_exec acts)). Qed.
Print Assumptions C47_context.

(** After a failed ping, two more steps of the loop cancel rctx, whatever else happens. *)
Theorem C47_cancelled :
  forall acts more e,
    failed (st_log (ka_exec acts)) e -> (2 <= loop_steps more)%nat -> st_rctx (ka_exec (acts ++ more)) = true.
Proof. exact cancelled_soon. Qed.
Print Assumptions C47_cancelled.

(** No call of stop is stuck: it can always be carried through to its return. *)
Theorem C47_progress :
  forall acts i,
    EStopCall i ∈ st_log (ka_exec acts) -> exists more r, EStopRet i r ∈ st_log (ka_exec (acts ++ more)).
Proof. exact stop_returns. Qed.
Print Assumptions C47_progress.

(** Panics of the ping function count as failures; only panic(nil) does not. *)
Theorem C47_panics :
  forall o, catch_panics o = None <-> o = Returns None \/ o = PanicsNil.
Proof.
  intros o. split; [destruct o; cbn; intros H; first [discriminate H|subst; auto]|]. intros [-> | ->]; reflexivity.
Qed.
Print Assumptions C47_panics.

(** Not guaranteed: that no ping starts once stop was called ... *)
Theorem C47_called_refuted :
  ~ forall acts a b i, st_log (ka_exec acts) = a ++ EStopCall i :: b -> EStart ∉ b.
Proof.
  intros H.
  apply (H [Tick; StopCall; StopStep 0; LoopStep ChTick PanicsNil; LoopStep ChTick PanicsNil] [ETick] [EStart] 0%nat).
  - reflexivity.
  - left.
Qed.
Print Assumptions C47_called_refuted.

(** ... nor that rctx is cancelled by the time stop reports a failure. *)
Theorem C47_context_refuted :
  ~ forall acts i e, EStopRet i (Some e) ∈ st_log (ka_exec acts) -> st_rctx (ka_exec acts) = true.
Proof.
  intros H.
  specialize (H [Tick; LoopStep ChTick PanicsNil; LoopStep ChTick PanicsNil; LoopStep ChTick (Returns (Some (Err 1)));
                 LoopStep ChTick PanicsNil; StopCall; StopStep 0; StopStep 0; StopStep 0] 0%nat (Err 1)).
  assert (false = true) as E; [|discriminate E]. apply H. cbn. right. right. right. right. left.
Qed.
Print Assumptions C47_context_refuted.

Example C47_example :
  st_log (ka_exec [Tick; LoopStep ChTick PanicsNil; LoopStep ChTick PanicsNil; StopCall; StopStep 0; StopStep 0;
                   LoopStep ChTick (Returns None); Tick; LoopStep ChTick PanicsNil; LoopStep ChTick PanicsNil;
                   StopStep 0; LoopStep ChTick (PanicsVal 3); StopStep 0; LoopStep ChTick PanicsNil; StopStep 0; StopStep 0;
                   LoopStep ChTick PanicsNil; StopCall; StopStep 1; StopStep 1; StopStep 1; Tick]) =
  [ETick; EStart; EStopCall 0; EEnd None; ETick; EStart; EEnd (Some (FmtErr 3)); EStopRet 0 (Some (FmtErr 3)); ECancel;
   EStopCall 1; EStopRet 1 (Some (FmtErr 3))].
Proof. reflexivity. Qed.
