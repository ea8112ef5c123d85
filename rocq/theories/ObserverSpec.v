(** Vocabulary for the observer properties. *)
From Verif Require Import Base Conc ScopeSpec ObserverModel.

(** ObserveSpans call [r] has returned. *)
Definition registered (sched : list (action ocall)) (r : nat) : Prop :=
  threads (ob_exec sched) !! r = Some (OThr OReg R_done).
(** Some cancel function of [r] has been called. *)
Definition cancel_called (sched : list (action ocall)) (r : nat) : Prop :=
  exists c pc, threads (ob_exec sched) !! c = Some (OThr (OCancel r) pc) /\ pc <> C_start.
(** Some cancel function of [r] has returned. *)
Definition cancelled (sched : list (action ocall)) (r : nat) : Prop :=
  exists c, threads (ob_exec sched) !! c = Some (OThr (OCancel r) C_done).
(** The pass has not begun. *)
Definition not_begun (sched : list (action ocall)) (p : nat) : Prop :=
  forall t, threads (ob_exec sched) !! p = Some t -> ot_pc t = N_start.
(** The pass is over and has called these observers, in this order. *)
Definition pass_done (sched : list (action ocall)) (p : nat) (calls : list nat) : Prop :=
  threads (ob_exec sched) !! p = Some (OThr ONotify (N_done calls)).
(** [a]'s ObserveSpans took effect before [b]'s: at some moment the one had returned and the
    other had not. *)
Definition registered_earlier (sched : list (action ocall)) (a b : nat) : Prop :=
  exists pre post, sched = pre ++ post /\ registered pre a /\ ~ registered pre b.

(** The same for trace watchers. *)
Definition w_registered (sched : list (action wcall)) (r : nat) : Prop :=
  exists ord acc, threads (wt_exec sched) !! r = Some (WThr (WReg ord) (W_done acc)).
Definition w_cancelled (sched : list (action wcall)) (r : nat) : Prop :=
  exists c ord acc, threads (wt_exec sched) !! c = Some (WThr (WCancel r ord) (W_done acc)).
Definition w_not_begun (sched : list (action wcall)) (p : nat) : Prop :=
  forall t, threads (wt_exec sched) !! p = Some t -> wh_pc t = W_start.
Definition w_done (sched : list (action wcall)) (p : nat) (calls : list nat) : Prop :=
  threads (wt_exec sched) !! p = Some (WThr WTrace (W_done calls)).
Definition w_orders (sched : list (action wcall)) : Prop :=
  forall i t, threads (wt_exec sched) !! i = Some t ->
    match wh_call t with WReg ord | WCancel _ ord => any_order ord | WTrace => True end.
