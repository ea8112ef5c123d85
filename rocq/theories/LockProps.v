(** Property C91: goroutines that use monkit do not wait for each other forever. *)
From Verif Require Import RaceModel RaceSpec RaceCheck RaceCode RaceTable RaceRun RaceProps LockSpec LockCheck LockTable LockProofs.
From stdpp Require Import relations.
Local Open Scope nat_scope.

Lemma monkit_ordered : ocheck_library lock_rank lock_quiet monkit = true.
Proof. vm_compute. reflexivity. Qed.

(** C91: no goroutines wait for each other's locks, and none for one of its own, as long as no
    function of the user that runs under a lock calls the library or panics. *)
Theorem C91_no_deadlock : forall s, polite_state monkit s -> ~ deadlock s.
Proof. exact (no_deadlock lock_rank lock_quiet monkit monkit_ordered). Qed.
Print Assumptions C91_no_deadlock.

(** C91: so a goroutine that waits, waits in the end for one that does not wait for anybody: if that
    one is about to take a lock, it may take it. *)
Theorem C91_somebody_goes_on :
  forall s t u, polite_state monkit s -> waits s t u ->
    exists v, tc (waits s) t v /\ (~ exists w, waits s v w) /\
      forall m o l, wants s v m o l -> m <> MO -> free (mem s) m o l.
Proof.
  intros s t u Hs H. destruct (somebody_goes_on lock_rank lock_quiet monkit monkit_ordered s t u Hs H) as (v & H1 & H2).
  exists v. split; [done|]. split; [done|]. intros m o l Hw Hm. by apply (not_waiting_free s v).
Qed.
Print Assumptions C91_somebody_goes_on.

(** C91: a goroutine that is in no function of the library holds no lock. *)
Theorem C91_released : forall s t, polite_state monkit s -> thr s !! t = Some [] -> ~ busy s t.
Proof. exact (idle_not_busy lock_rank lock_quiet monkit monkit_ordered). Qed.
Print Assumptions C91_released.

(** C91: functions of the user run under no locks but four: the lock of a Func or of a FuncStats, for
    an error-name handler or the method Name of an error (funcstats.go 88-105); a lock of a request for a
    remote trace, for the writer and the sampling callback (present/path.go 233-270); and the lock of the
    keepalive of a request, for the writer (present/utils.go 60-72). *)
Theorem C91_callbacks :
  forall s t o l, polite_state monkit s -> callback_under s t o l ->
    exists c, objs (mem s) !! o = Some c /\
      (c, l) ∈ [("Func", "Mutex"); ("FuncStats", "Mutex"); ("keepAlive", "mu"); ("remote", "traceMtx")]%string.
Proof.
  intros s t o l Hs H. destruct (callback_locks lock_rank lock_quiet monkit monkit_ordered s t o l Hs H) as (c & H1 & H2).
  exists c. split; [done|]. unfold lock_quiet in H2. apply existsb_exists in H2 as ([a b] & H2 & H3).
  apply andb_prop in H3 as [H3 H4]. cbn in H3, H4. apply String.eqb_eq in H3, H4. subst. by apply elem_of_list_In.
Qed.
Print Assumptions C91_callbacks.

(** C91: the same holds of any code, written in this language, whose locks can be ranked so that a
    lock is only taken under locks of lower ranks. *)
Theorem C91_checked :
  forall rank quiet L, ocheck_library rank quiet L = true -> forall s, polite_state L s -> ~ deadlock s.
Proof. exact no_deadlock. Qed.
Print Assumptions C91_checked.

(** Schedules in which nobody calls the library while holding a lock. *)
Definition busy_b (s : state) (t : nat) : bool := existsb (fun a => Nat.eqb a.1.1.1 t) (held (mem s)).

Fixpoint prun (L : library) (s : state) (sched : list (nat * act)) : option state :=
  match sched with
  | [] => Some s
  | (t, a) :: sched' =>
      if busy_b s t && match a with Do _ => false | _ => true end then None
      else match next L s t a with Some (_, s') => prun L s' sched' | None => None end
  end.

Lemma prun_sound L sched : forall s s', polite_state L s -> prun L s sched = Some s' -> polite_state L s'.
Proof.
  induction sched as [|[t a] sched IH]; intros s s' Hs; cbn [prun]; [by intros [= <-]|].
  destruct (busy_b s t && _) eqn:E; [done|]. destruct (next L s t a) as [[oe s1]|] eqn:En; [|done].
  apply IH. eapply ps_step; [exact Hs|eapply next_sound; exact En|].
  intros (m & o & l & Hin). assert (busy_b s t = true) as Hb.
  { apply existsb_exists. exists (t, m, o, l). split; [by apply elem_of_list_In|apply Nat.eqb_refl]. }
  rewrite Hb in E. cbn [andb] in E. destruct a as [|p| |]; try done.
  unfold next in En. destruct (thr s !! t) as [fs|] eqn:Ht; [|done]. cbn [mbind option_bind] in En.
  destruct fs as [|[e [|c k]] fs]; try done.
  assert (t < length (thr s)) as Hlt by by eapply lookup_lt_Some.
  assert ((exists b, c = Go b) \/ (r ← cnext (mem s) t e p c;
      match r with (oe, h', e', b) => Some (oe, {| mem := h'; thr := <[t := (e', b ++ k) :: fs]> (thr s);
          known := tells t e' ++ known s; mail := mail s |}) end) = Some (oe, s1)) as [[b ->]|Hc].
  { destruct c; eauto. }
  - injection En as <- <-. exists ((e, Go b :: k) :: fs), ((e, k) :: fs). split; [done|]. cbn [thr]. split.
    + rewrite lookup_app_l by (by rewrite insert_length). by apply list_lookup_insert.
    + left. by exists e, (Go b), k, e, k, fs.
  - destruct (cnext (mem s) t e p c) as [[[[oe1 h1] e1] b1]|] eqn:E1; [|done]. cbn [mbind option_bind] in Hc.
    injection Hc as <- <-. eexists _, _. split; [done|]. cbn [thr]. split; [by apply list_lookup_insert|].
    left. by exists e, c, k, e1, (b1 ++ k), fs.
Qed.

Definition in_funcs (i : nat) : nat := length (users ++ spans ++ contexts ++ traces) + i.
Definition in_error_names (i : nat) : nat :=
  length (users ++ spans ++ contexts ++ traces ++ funcs ++ registries ++ scopes ++ callbacks ++ counters ++ meters ++ vals) + i.

Definition wants_b (s : state) (t : nat) (m : mode) (o : nat) (l : string) : bool :=
  match thr s !! t with
  | Some ((e, Lk m' v l' :: k) :: fs) =>
      bool_decide (m' = m) && bool_decide (lookup_var e v = Some o) && bool_decide (l' = l)
  | _ => false
  end.

Definition holds_b (s : state) (t : nat) (m : mode) (o : nat) (l : string) : bool :=
  bool_decide ((t, m, o, l) ∈ held (mem s)).

Lemma wants_b_sound s t m o l : wants_b s t m o l = true -> wants s t m o l.
Proof.
  unfold wants_b, wants. destruct (thr s !! t) as [[|[e [|c k]] fs]|]; [discriminate..| |discriminate].
  destruct c as [| | | | | |m' v l'| | | | | |]; try discriminate.
  intros [[H1 H2]%andb_prop H3]%andb_prop. apply bool_decide_eq_true in H1, H2, H3. subst m' l'. by exists e, v, k, fs.
Qed.

Lemma waits_b_sound s t u m o l : wants_b s t MW o l = true -> holds_b s u m o l = true -> waits s t u.
Proof.
  intros H1%wants_b_sound H2%bool_decide_eq_true. exists MW, o, l. split; [done|]. left. exists m. split; [done|]. by intros [? _].
Qed.

Lemma prun_check L sched (p : state -> bool) :
  match prun L (init_state L) sched with Some s => p s | None => false end = true ->
  exists s, polite_state L s /\ p s = true.
Proof.
  destruct (prun L (init_state L) sched) as [s|] eqn:E; [|discriminate]. intros H. exists s. split; [|exact H].
  eapply prun_sound; [apply ps_init|exact E].
Qed.

Lemma run_check L sched (p : state -> bool) :
  match run0 L sched with Some (_, s) => p s | None => false end = true ->
  exists tr s, execution L tr s /\ p s = true.
Proof.
  destruct (run0 L sched) as [[tr s]|] eqn:E; [|discriminate]. intros H. exists tr, s. split; [|exact H].
  by apply run0_sound in E.
Qed.

(** A state of such an execution: goroutine 0 is incrementing a Counter, and goroutine 1, which
    would like to, waits for it. *)
Example C91_example :
  exists s, polite_state monkit s /\ waits s 1 0 /\ busy s 0 /\ ~ deadlock s.
Proof.
  destruct (prun_check monkit
    (make_counter ++ [(0, Call (in_counters 0) [9]); (1, Call (in_counters 0) [9])] ++ dos 0 [0; 0])
    (fun s => wants_b s 1 MW 9 "mtx" && holds_b s 0 MW 9 "mtx")) as (s & Hs & H); [vm_compute; reflexivity|].
  apply andb_prop in H as [H1 H2]. exists s. split; [exact Hs|]. split; [by eapply waits_b_sound|]. split.
  - apply bool_decide_eq_true in H2. by exists MW, 9, "mtx"%string.
  - by apply C91_no_deadlock.
Qed.

(** Two locks that are taken in either order. *)
Definition crossed : library :=
  {| globals := [("c", "C")];
     methods := [fn [("c", "C")] (locked "c" "a" (locked "c" "b" [])); fn [("c", "C")] (locked "c" "b" (locked "c" "a" []))] |}.
Example C91_crossed : exists s, polite_state crossed s /\ deadlock s.
Proof.
  destruct (prun_check crossed
    [(0, Fork); (0, Call 0 [0]); (0, Do 0); (1, Call 1 [0]); (1, Do 0)]
    (fun s => (wants_b s 0 MW 0 "b" && holds_b s 1 MW 0 "b") && (wants_b s 1 MW 0 "a" && holds_b s 0 MW 0 "a")))
    as (s & Hs & H); [vm_compute; reflexivity|].
  apply andb_prop in H as [[H1 H2]%andb_prop [H3 H4]%andb_prop]. exists s. split; [exact Hs|]. exists 0.
  eapply tc_l; [by eapply waits_b_sound|]. apply tc_once. by eapply waits_b_sound.
Qed.

(** An error-name handler (object 8), and a FuncStats (object 11) whose Observe ends with an error
    while goroutine 0 runs the handler. *)
Definition in_handler : list (nat * act) :=
  [(0, Call 0 [])] ++ dos 0 [0] ++ [(0, Ret); (0, Call (in_error_names 0) [8])] ++ dos 0 [0; 0; 0; 0; 0; 0] ++
  [(0, Ret); (0, Call (in_callbacks 4) [])] ++ dos 0 [0] ++ [(0, Ret); (0, Call (in_funcs 26) [10])] ++ dos 0 [0] ++
  [(0, Ret); (0, Fork); (0, Call (in_funcs 16) [11])] ++ dos 0 [0; 0; 1; 1; 0; 0; 1; 9; 1; 8].

Definition calls_back_b (s : state) (t : nat) : bool :=
  match thr s !! t with Some ((_, User :: _) :: _) => true | _ => false end.
Definition class_b (s : state) (o : nat) (c : string) : bool := bool_decide (objs (mem s) !! o = Some c).

(** Such a callback does happen. *)
Example C91_callbacks_example :
  exists s o, polite_state monkit s /\ callback_under s 0 o "Mutex" /\ objs (mem s) !! o = Some "FuncStats"%string.
Proof.
  destruct (prun_check monkit in_handler
    (fun s => calls_back_b s 0 && holds_b s 0 MW 11 "Mutex" && class_b s 11 "FuncStats")) as (s & Hs & H); [vm_compute; reflexivity|].
  apply andb_prop in H as [[H1 H2]%andb_prop H3]. apply bool_decide_eq_true in H2, H3.
  exists s, 11. split; [exact Hs|]. split; [|exact H3]. unfold calls_back_b in H1. unfold callback_under.
  destruct (thr s !! 0) as [[|[e [|[] k]] fs]|]; try discriminate. by exists e, k, fs, MW.
Qed.

(** C91 is false if the function of the user is not polite.  An error-name handler that asks the
    FuncStats for its successes waits for its own goroutine: the handler runs under the lock that
    Success takes (funcstats.go 88-105, 115-120). *)
Theorem C91_handler_refuted :
  exists tr s o, execution monkit tr s /\ objs (mem s) !! o = Some "FuncStats"%string /\
    wants s 0 MW o "Mutex" /\ waits s 0 0 /\ deadlock s.
Proof.
  destruct (run_check monkit (in_handler ++ [(0, Call (in_funcs 19) [11])])
    (fun s => wants_b s 0 MW 11 "Mutex" && holds_b s 0 MW 11 "Mutex" && class_b s 11 "FuncStats"))
    as (tr & s & Hs & H); [vm_compute; reflexivity|].
  apply andb_prop in H as [[H1 H2]%andb_prop H3]. apply bool_decide_eq_true in H3.
  assert (waits s 0 0) as Hw by by eapply waits_b_sound.
  exists tr, s, 11. split; [exact Hs|]. split; [exact H3|]. split; [by apply wants_b_sound|]. split; [exact Hw|].
  exists 0. by apply tc_once.
Qed.
Print Assumptions C91_handler_refuted.

(** Nor if it panics: end does not defer the unlocking, so the lock stays taken though the goroutine
    has left the library, and the next one to use the FuncStats waits for ever. *)
Theorem C91_panic_refuted :
  exists tr s o, execution monkit tr s /\ objs (mem s) !! o = Some "FuncStats"%string /\
    thr s !! 0 = Some [] /\ busy s 0 /\ wants s 1 MW o "Mutex" /\ waits s 1 0.
Proof.
  destruct (run_check monkit (in_handler ++ [(1, Call (in_funcs 19) [11])])
    (fun s => wants_b s 1 MW 11 "Mutex" && holds_b s 0 MW 11 "Mutex" && class_b s 11 "FuncStats" && calls_back_b s 0))
    as (tr & s & Hs & H); [vm_compute; reflexivity|].
  apply andb_prop in H as [[[H1 H2]%andb_prop H3]%andb_prop H4].
  destruct (thr s !! 0) as [fs|] eqn:Ht; [|unfold calls_back_b in H4; rewrite Ht in H4; discriminate].
  assert (0 < length (thr s)) as Hlt by by eapply lookup_lt_Some.
  pose proof (ex_quiet _ _ _ _ _ Hs (s_abandon _ _ _ _ Ht)) as Hs'.
  match type of Hs' with execution _ _ ?x => set (s' := x) in Hs' end.
  assert (wants_b s' 1 MW 11 "Mutex" = true) as H1'.
  { unfold wants_b in *. cbn [s' thr]. rewrite list_lookup_insert_ne by discriminate. exact H1. }
  assert (holds_b s' 0 MW 11 "Mutex" = true) as H2' by exact H2.
  exists tr, s', 11. split; [exact Hs'|]. split; [by apply bool_decide_eq_true in H3|].
  split; [by apply list_lookup_insert|]. split; [apply bool_decide_eq_true in H2'; by exists MW, 11, "Mutex"%string|].
  split; [by apply wants_b_sound|by eapply waits_b_sound].
Qed.
Print Assumptions C91_panic_refuted.
