(** C25, C26: span observers and trace watchers. *)
From Verif Require Import Base Conc ScopeSpec ObserverModel ObserverSpec ObserverProofs.

(** C25: a finished notification pass called each observer at most once, newest
    registration first, and only registered ones; every observer registered before the pass
    began whose cancel was not called before it ended (whatever other registrations and
    cancels ran); none whose cancel had returned before it began. *)
Theorem C25_observers :
  forall sched p calls, pass_done sched p calls ->
    NoDup calls /\
    (forall i j a b, (i < j)%nat -> calls !! i = Some a -> calls !! j = Some b -> registered_earlier sched b a) /\
    (forall r, r ∈ calls -> registered sched r) /\
    (forall pre post r, sched = pre ++ post -> not_begun pre p -> registered pre r -> ~ cancel_called sched r -> r ∈ calls) /\
    (forall pre post r, sched = pre ++ post -> not_begun pre p -> cancelled pre r -> r ∉ calls).
Proof. exact observers_spec. Qed.
Print Assumptions C25_observers.

(** Four observers; the second is cancelled before the pass, the third during it (while the
    pass stands on it), and a fifth registers meanwhile. *)
Definition steps {A} (i n : nat) : list (action A) := List.repeat (Run i) n.
Definition ex25_pre : list (action ocall) :=
  [Spawn OReg; Spawn OReg; Spawn OReg; Spawn OReg; Spawn (OCancel 1); Spawn ONotify; Spawn (OCancel 2); Spawn OReg]
  ++ steps 0 2 ++ steps 1 2 ++ steps 2 1 ++ steps 3 2 ++ steps 2 3 ++ steps 4 9.
Definition ex25 : list (action ocall) := ex25_pre ++ steps 5 3 ++ steps 7 2 ++ steps 6 9 ++ steps 5 9.
Example C25_example :
  pass_done ex25 5 [2; 3; 0]%nat /\ not_begun ex25_pre 5 /\ cancelled ex25_pre 1 /\
  registered ex25_pre 0 /\ ~ cancel_called ex25 0 /\ cancelled ex25 2 /\ registered ex25 7.
Proof.
  assert (E : threads (ob_exec ex25) = [OThr OReg R_done; OThr OReg R_done; OThr OReg R_done; OThr OReg R_done;
     OThr (OCancel 1) C_done; OThr ONotify (N_done [2; 3; 0]%nat); OThr (OCancel 2) C_done; OThr OReg R_done]) by (vm_compute; reflexivity).
  split_and!.
  - vm_compute. reflexivity.
  - intros t H. vm_compute in H. injection H as <-. reflexivity.
  - exists 4%nat. vm_compute. reflexivity.
  - vm_compute. reflexivity.
  - intros (c & pc & H & _). rewrite E in H. apply elem_of_list_lookup_2 in H.
    repeat (apply elem_of_cons in H as [H|H]; [discriminate H|]). inversion H.
  - exists 6%nat. vm_compute. reflexivity.
  - vm_compute. reflexivity.
Qed.

(** C26: a trace was passed to each callback at most once, only to registered ones, to every
    one registered before the trace started and not cancelled, and to none cancelled before
    it started. *)
Theorem C26_watchers :
  forall sched p calls, w_orders sched -> w_done sched p calls ->
    NoDup calls /\
    (forall r, r ∈ calls -> w_registered sched r) /\
    (forall pre post r, sched = pre ++ post -> w_not_begun pre p -> w_registered pre r -> ~ w_cancelled sched r -> r ∈ calls) /\
    (forall pre post r, sched = pre ++ post -> w_not_begun pre p -> w_cancelled pre r -> r ∉ calls).
Proof. exact watchers_spec. Qed.
Print Assumptions C26_watchers.

(** C26: what a trace started now is passed to are the registrations not cancelled, each
    once.  So cancelling again changes nothing, and cancelling one leaves the others. *)
Theorem C26_current :
  forall sched, w_orders sched ->
    NoDup (wt_current (shared (wt_exec sched))) /\
    forall r, r ∈ wt_current (shared (wt_exec sched)) <-> w_registered sched r /\ ~ w_cancelled sched r.
Proof. exact watchers_now. Qed.
Print Assumptions C26_current.

(** Two callbacks, one of them cancelled twice, and a trace that loaded the watcher before. *)
Definition ex26_pre : list (action wcall) :=
  [Spawn (WReg (fun l => l)); Run 0%nat; Spawn (WReg (@rev nat)); Run 1%nat; Spawn WTrace; Run 2%nat;
   Spawn (WCancel 0 (fun l => l)); Run 3%nat; Spawn (WCancel 0 (fun l => l)); Run 4%nat; Spawn WTrace].
Definition ex26 : list (action wcall) := ex26_pre ++ steps 5 3 ++ steps 2 3.
Example C26_example :
  w_orders ex26 /\ w_done ex26 2 [1; 0]%nat /\ w_done ex26 5 [1]%nat /\
  w_not_begun ex26_pre 5 /\ w_cancelled ex26_pre 0 /\ w_registered ex26_pre 1 /\ ~ w_cancelled ex26 1.
Proof.
  assert (E : threads (wt_exec ex26) = [WThr (WReg (fun l => l)) (W_done []); WThr (WReg (@rev nat)) (W_done []); WThr WTrace (W_done [1; 0]%nat);
     WThr (WCancel 0 (fun l => l)) (W_done []); WThr (WCancel 0 (fun l => l)) (W_done []); WThr WTrace (W_done [1]%nat)]) by (vm_compute; reflexivity).
  split_and!.
  - intros i t H. rewrite E in H. apply elem_of_list_lookup_2 in H.
    repeat (apply elem_of_cons in H as [->|H]; [cbn; try exact I; intros l; try reflexivity; symmetry; apply Permutation_rev|]). inversion H.
  - vm_compute. reflexivity.
  - vm_compute. reflexivity.
  - intros t H. vm_compute in H. injection H as <-. reflexivity.
  - exists 3%nat, (fun l => l), []. vm_compute. reflexivity.
  - exists (@rev nat), []. vm_compute. reflexivity.
  - intros (c & o & a & H). rewrite E in H. apply elem_of_list_lookup_2 in H.
    repeat (apply elem_of_cons in H as [H|H]; [discriminate H|]). inversion H.
Qed.
