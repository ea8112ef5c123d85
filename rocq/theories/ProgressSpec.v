(** Vocabulary for the progress property: counting a call's own atomic steps, and the
    successes of others. *)
From Verif Require Import Base Conc FuncStatsModel ObserverModel.

(** How many atomic steps call [i] has been given in this part of a schedule. *)
Definition is_run {A} (i : nat) (a : action A) : bool := match a with Run j => Nat.eqb i j | Spawn _ => false end.
Definition steps_of {A} (i : nat) (sched : list (action A)) : nat := length (List.filter (is_run i) sched).

(** How many observers have been added to the trace and how many removed, so far. *)
Definition added (sched : list (action ocall)) : nat := length (ob_pushed (shared (ob_exec sched))).
Definition removed (sched : list (action ocall)) : nat := size (ob_unlinked (shared (ob_exec sched))).

(** How many of the steps of [post], after [pre], are taken by calls other than [i] and
    change the highwater mark. *)
Fixpoint raised_by_others (i : nat) (pre post : list (action fcall)) : nat :=
  match post with
  | [] => 0
  | a :: post' =>
      (if is_run i a then 0
       else if bool_decide (fs_highwater (shared (f_exec (pre ++ [a]))) = fs_highwater (shared (f_exec pre))) then 0 else 1)
      + raised_by_others i (pre ++ [a]) post'
  end.

(** The observed function's body is running, or has been. *)
Definition entered (sched : list (action fcall)) (i : nat) : Prop :=
  exists c pc, threads (f_exec sched) !! i = Some (FThr c pc) /\
    match pc with F_running | F_endlock | F_done _ => True | _ => False end.
