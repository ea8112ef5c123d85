(** Vocabulary for C37 and C54. *)
From Verif Require Import Base Conc SnapModel.

Section slices.
  Context {A Y : Type}.
  Context (zero : A) (grow : nat -> nat).
  Local Notation run := (@s_exec A Y zero grow).
  Local Notation thr i sched := (threads (run sched) !! i).

  Definition s_finished (pc : spc Y) : bool := match pc with W_done | C_done _ | S_done _ => true | _ => false end.
  Definition s_fresh (pc : spc Y) : bool := match pc with W_lock | C_lock | S_load => true | _ => false end.
  Definition done (sched : list (action (scall A Y))) (i : nat) : Prop := exists t, thr i sched = Some t /\ s_finished (st_pc t) = true.
  (** Call [i] has not taken a step. *)
  Definition fresh (sched : list (action (scall A Y))) (i : nat) : Prop := forall t, thr i sched = Some t -> s_fresh (st_pc t) = true.

  Definition appends (sched : list (action (scall A Y))) (i : nat) (x : A) : Prop := exists t, thr i sched = Some t /\ st_call t = SAppend x.
  Definition copied (sched : list (action (scall A Y))) (i : nat) (ret : option (nat * nat)) : Prop := thr i sched = Some (SThr SCopy (C_done ret)).
  Definition searched (sched : list (action (scall A Y))) (i : nat) (f : A -> option Y) (res : option Y) : Prop := thr i sched = Some (SThr (SSearch f) (S_done res)).
  (** What a slice that call [i] returned holds now. *)
  Definition holds_now (sched : list (action (scall A Y))) (ret : option (nat * nat)) (xs : list A) : Prop := ret_contents (ss_mem (shared (run sched))) ret = xs.

  (** [order] lists appends, each once: all that are finished, none that has not begun, in
      an order that respects which finished before which began. *)
  Definition append_order (sched : list (action (scall A Y))) (order : list nat) (xs : list A) : Prop :=
    NoDup order /\ Forall2 (appends sched) order xs /\
    (forall i x, appends sched i x -> done sched i -> i ∈ order) /\
    (forall i, i ∈ order -> ~ fresh sched i) /\
    (forall i j a b pre post, order !! a = Some i -> order !! b = Some j -> sched = pre ++ post -> done pre i -> fresh pre j -> (a < b)%nat).
  (** Reader [i] may have seen exactly the first [n] of [order]: it saw all appends finished
      before it began and none that began after it finished. *)
  Definition may_see (sched : list (action (scall A Y))) (order : list nat) (i n : nat) : Prop :=
    (forall pre post j x, sched = pre ++ post -> appends pre j x -> done pre j -> fresh pre i -> j ∈ take n order) /\
    (forall pre post j, sched = pre ++ post -> done pre i -> fresh pre j -> j ∉ take n order).

  (** The last element of [xs] that [f] accepts decides. *)
  Inductive last_accepted (f : A -> option Y) (xs : list A) : option Y -> Prop :=
  | la_some xs1 x xs2 y : xs = xs1 ++ x :: xs2 -> f x = Some y -> Forall (fun x => f x = None) xs2 -> last_accepted f xs (Some y)
  | la_none : Forall (fun x => f x = None) xs -> last_accepted f xs None.
End slices.

Section maps.
  Context {K V : Type} `{Countable K}.
  (** The value that the updates of [k] in a history lead to. *)
  Definition updated (os : list (mop K V)) (k : K) : option V :=
    fold_left (fun v o => match o with MUpdate k' f => if decide (k' = k) then Some (f v) else v | _ => v end) os None.
  Definition caller_of (n : nat) (o : mop K V) : bool := match o with MCaller n' _ _ => Nat.eqb n n' | _ => false end.
End maps.
