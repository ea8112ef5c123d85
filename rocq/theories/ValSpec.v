(** Vocabulary for BoolVal (C35), Timer (C36) and the other values behind a mutex (C59). *)
From Verif Require Import Base Conc Fval DistModel DistSpec ValModel.
Local Open Scope Z_scope.

(** ** BoolVal *)
Definition b_observes (v : bool) (t : bthread) : bool := match bt_call t with BObserve w => Bool.eqb v w | BStats => false end.
Definition b_finished (t : bthread) : bool := match bt_pc t with B_done _ => true | _ => false end.
Definition b_begun (t : bthread) : bool := match bt_pc t with B_add | B_trues => false | _ => true end.
(** How many observations of [v] are finished, or have at least begun. *)
Definition finished_count (v : bool) (sched : list (action bcall)) : Z :=
  Z.of_nat (length (List.filter (fun t => b_observes v t && b_finished t) (threads (b_exec sched)))).
Definition begun_count (v : bool) (sched : list (action bcall)) : Z :=
  Z.of_nat (length (List.filter (fun t => b_observes v t && b_begun t) (threads (b_exec sched)))).
(** The run is short enough for the int64 counters. *)
Definition bounded (sched : list (action bcall)) : Prop := Z.of_nat (length sched) < 2 ^ 63.
(** Call [i] has not done anything yet / is finished. *)
Definition b_unbegun (sched : list (action bcall)) (i : nat) : Prop := forall t, threads (b_exec sched) !! i = Some t -> b_begun t = false.
Definition b_is (sched : list (action bcall)) (i : nat) (c : bcall) (out : list (bytes * fval)) : Prop :=
  threads (b_exec sched) !! i = Some (BThr c (B_done out)).
Definition b_at_rest (sched : list (action bcall)) : Prop := Forall (fun t => b_finished t = true) (threads (b_exec sched)).

(** Call [j] is a finished observation of [v], and no observation that began after it
    finished is finished. *)
Definition latest (sched : list (action bcall)) (j : nat) (v : bool) : Prop :=
  b_is sched j (BObserve v) [] /\
  forall k w pre post, sched = pre ++ post -> b_is pre j (BObserve v) [] -> b_unbegun pre k -> ~ b_is sched k (BObserve w) [].

(** ** Values behind a mutex *)
Section dist.
  Context {V F R : Type}.
  Context (vzero : V) (vlt : V -> V -> bool) (vadd : V -> V -> V).
  Context (fzero : F) (to32 : V -> F) (fless : F -> F -> bool).
  Context (rng_next : R -> Z * R) (seed : R).
  Local Notation vrun := (v_exec vzero vlt vadd fzero to32 fless rng_next seed).
  Local Notation drun := (dist_run vzero vlt vadd to32 fless rng_next (dist_new vzero fzero seed)).

  (** What a call does to the distribution, given the calls before it. *)
  Definition is_stop (k : nat) (c : vcall V R) : bool := match c with VStop k' _ _ => Nat.eqb k k' | _ => false end.
  Definition effect (earlier : list (vcall V R)) (c : vcall V R) : list (Z * dist_op V R) :=
    match c with
    | VObserve W v => [(W, DInsert v)]
    | VQuantile => [(0, DQuery)]
    | VStop k W e => if existsb (is_stop k) earlier then [] else [(W, DInsert e)]
    | VStats _ | VValues _ => []
    end.
  Fixpoint effects (earlier calls : list (vcall V R)) : list (Z * dist_op V R) :=
    match calls with
    | [] => []
    | c :: rest => effect earlier c ++ effects (earlier ++ [c]) rest
    end.
  (** What a call returns or reports when it finds the distribution [d]. *)
  Definition answer (d : dist V F R) (c : vcall V R) : vresult V F R :=
    match c with
    | VObserve _ _ => RNone
    | VQuantile => RReads (query_reads fless d)
    | VStats r => RStats (dist_stats fless (dist_copy d r))
    | VValues r => RCopy (dist_copy d r)
    | VStop _ _ e => RElapsed e
    end.

  Definition calls_of (sched : list (action (vcall V R))) (l : list nat) : list (vcall V R) :=
    omap (fun i => vt_call <$> threads (vrun sched) !! i) l.
  Definition v_finished (sched : list (action (vcall V R))) (i : nat) (c : vcall V R) (res : vresult V F R) : Prop :=
    threads (vrun sched) !! i = Some (VThr c (V_done res)).
  Definition v_unbegun (sched : list (action (vcall V R))) (i : nat) : Prop :=
    forall t, threads (vrun sched) !! i = Some t -> vt_pc t = V_start.

  (** The calls act one at a time, in [order]: each once, each between its start and its
      end, and each with the answer that the calls before it in [order] determine. *)
  Definition sequential_order (sched : list (action (vcall V R))) (order : list nat) : Prop :=
    NoDup order /\
    (forall i c res, v_finished sched i c res ->
       exists k d, order !! k = Some i /\ drun (effects [] (calls_of sched (take k order))) = Ok d /\ res = answer d c) /\
    (forall i j a b pre post, order !! a = Some i -> order !! b = Some j -> sched = pre ++ post ->
       (exists c res, v_finished pre i c res) -> v_unbegun pre j -> (a < b)%nat).

  (** Timers: no other calls than Stop, Values and Stats. *)
  Definition timer_call (c : vcall V R) : Prop := match c with VStop _ _ _ | VValues _ | VStats _ => True | _ => False end.
  Definition timer_only (sched : list (action (vcall V R))) : Prop := Forall (fun a => match a with Spawn c => timer_call c | Run _ => True end) sched.
  Definition stop_of (sched : list (action (vcall V R))) (i k : nat) (W : Z) (e : V) : Prop :=
    exists t, threads (vrun sched) !! i = Some t /\ vt_call t = VStop k W e.
End dist.
