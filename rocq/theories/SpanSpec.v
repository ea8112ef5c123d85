(** Vocabulary for the span properties. *)
From Verif Require Import Base Conc FuncStatsModel SpanModel.
Local Open Scope Z_scope.

(** A history of Add and Remove calls on a bag. *)
Inductive bag_op := BAdd (s : nat) | BRemove (s : nat).
Definition bag_run (ops : list bag_op) : bag :=
  fold_left (fun b op => match op with BAdd s => bag_add s b | BRemove s => bag_remove s b end) ops bag_empty.
(** How often [s] is in the bag: adds minus removes. *)
Definition balance (s : nat) (ops : list bag_op) : Z :=
  fold_left (fun n op => match op with
             | BAdd s' => if Nat.eqb s s' then n + 1 else n
             | BRemove s' => if Nat.eqb s s' then n - 1 else n
             end) ops 0.
(** No span is removed more often than added, at any moment. *)
Definition balanced (ops : list bag_op) : Prop :=
  forall pre post s, ops = pre ++ post -> 0 <= balance s pre.

(** Span [i] is running: its Task call has returned, its exit function was not called. *)
Definition running (sched : list (action scall)) (i : nat) : Prop :=
  exists c, threads (sp_exec sched) !! i = Some (SThr c A_running).
(** Its exit function has returned (or re-panicked). *)
Definition finished (sched : list (action scall)) (i : nat) : Prop :=
  exists c u, threads (sp_exec sched) !! i = Some (SThr c (X_done u)).
(** Its exit function has marked it done: it began finishing. *)
Definition finishing (pc : spc) : bool :=
  match pc with X_children _ _ | X_unlink _ | X_orphanend | X_dec | X_done _ => true | _ => false end.
Definition began_finishing (sched : list (action scall)) (i : nat) : Prop :=
  exists t, threads (sp_exec sched) !! i = Some t /\ finishing (st_pc t) = true.
(** No start or finish is half-way done. *)
Definition quiet (sched : list (action scall)) : Prop :=
  forall i, (i < length (threads (sp_exec sched)))%nat -> running sched i \/ finished sched i.
(** The local parent of span [i]. *)
Definition parent_is (sched : list (action scall)) (i p : nat) : Prop :=
  exists t, threads (sp_exec sched) !! i = Some t /\ sc_parent (st_call t) = Some p.
Definition no_parent (sched : list (action scall)) (i : nat) : Prop :=
  exists t, threads (sp_exec sched) !! i = Some t /\ sc_parent (st_call t) = None.
Definition spans_after (sched : list (action scall)) : spans := shared (sp_exec sched).

(** Parents were created before their children, and ranging over children meets each once. *)
Definition well_formed (sched : list (action scall)) : Prop :=
  forall i t, threads (sp_exec sched) !! i = Some t ->
    (forall p, sc_parent (st_call t) = Some p -> (p < i)%nat) /\
    (forall l, Permutation (sc_ord (st_call t) l) l).

(** Spans of trace [tr] whose start has begun counting and whose finish has not ended. *)
Definition counted (tr : nat) (t : sthread) : bool :=
  Nat.eqb (sc_trace (st_call t)) tr && match st_pc t with A_inc | X_done _ => false | _ => true end.

(** The exits of span [i] among the recorded ones. *)
Definition ends_rec (i : nat) (l : list (nat * option bytes * bool)) := List.filter (fun e => Nat.eqb i (fst (fst e))) l.
