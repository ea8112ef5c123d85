(** Vocabulary for the FuncStats properties. *)
From Verif Require Import Base SeriesModel SpecBase Conc FuncStatsModel.
Local Open Scope Z_scope.

(** A call that has been started (its start returned): running, ending or ended. *)
Definition started (t : fthread) : Prop :=
  match ft_pc t with F_running | F_endlock | F_done _ => True | _ => False end.
(** A call counted as current: between the atomic increment and the atomic decrement. *)
Definition in_flight (t : fthread) : bool :=
  match ft_call t, ft_pc t with
  | FCall _ _ _ _, (F_hwload _ | F_hwcas _ _ | F_running) => true
  | _, _ => false
  end.
(** A start that has incremented current but not yet dealt with highwater. *)
Definition half_started (t : fthread) : Prop :=
  match ft_pc t with F_hwload _ | F_hwcas _ _ => True | _ => False end.

Definition state_after (sched : list (action fcall)) : fs := shared (f_exec sched).
Definition no_reset (sched : list (action fcall)) : Prop := ~ In (Spawn FReset) sched.

(** The outcome of a call. *)
Inductive class := CSuccess | CError (name : bytes) | CPanic.
Global Instance class_eq_dec : EqDecision class.
Proof. solve_decision. Defined.
Definition classify (err : option bytes) (panicked : bool) : class :=
  match panicked, err with
  | true, _ => CPanic
  | false, None => CSuccess
  | false, Some e => CError e
  end.

(** Outcomes and durations of the calls that ended after the last Reset, in order. *)
Fixpoint ends_after_reset (acc : list (class * Z)) (log : list event) : list (class * Z) :=
  match log with
  | [] => acc
  | EvReset :: log' => ends_after_reset [] log'
  | EvEnd _ err panicked dur :: log' => ends_after_reset (acc ++ [(classify err panicked, dur)]) log'
  end.
Definition ends (s : fs) : list (class * Z) := ends_after_reset [] (fs_log s).

Definition number_of (c : class) (l : list (class * Z)) : Z :=
  Z.of_nat (length (List.filter (fun x => bool_decide (fst x = c)) l)).
Definition is_error (c : class) : bool := match c with CError _ => true | _ => false end.
Definition number_of_errors (l : list (class * Z)) : Z :=
  Z.of_nat (length (List.filter (fun x => is_error (fst x)) l)).

(** The durations of the calls whose outcome satisfies [f], in order. *)
Definition durations (f : class -> bool) (l : list (class * Z)) : list Z :=
  map snd (List.filter (fun x => f (fst x)) l).

(** The log entries of thread [i]. *)
Definition ends_of (i : nat) (log : list event) : list event :=
  List.filter (fun e => match e with EvEnd j _ _ _ => Nat.eqb i j | EvReset => false end) log.

(** [snap] is a consistent view of state [s]'s locked fields. *)
Definition locked_view (sn : snapshot) (s : fs) : Prop :=
  sn_panics sn = fs_panics s /\ sn_errors sn = fs_errors s /\
  sn_success sn = fs_success s /\ sn_failure sn = fs_failure s.
