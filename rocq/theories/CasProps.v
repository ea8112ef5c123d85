(** Property C89: the build for App Engine, which replaces the atomic pointer operations by
    plain ones under a global mutex, behaves like the other. *)
From Verif Require Import Base Conc CasModel CasSpec CasProofs CasUse CasProofs2 ScopeSpec FuncStatsModel FuncStatsSpec FuncStatsProofs ObserverModel ObserverSpec ObserverProofs CollectModel CollectSpec CollectProofs CollectorProofs.
Local Open Scope nat_scope.

(** C89: any program that accesses its pointers only through these functions can do in the
    one build exactly what it can do in the other. *)
Theorem C89_refines :
  forall A P S L C (eqP : EqDecision P) (get : A -> S -> P) set (start : C -> L) prog s0, only_through get prog ->
    does_no_more (h_exec get set start prog s0) (u_exec get set start prog s0) /\
    does_no_less (h_exec get set start prog s0) (u_exec get set start prog s0).
Proof.
  intros A P S L C eqP get set start prog s0 D. split.
  - exists (lin get set start prog s0). split; [apply lin_stepwise|]. intros sched. apply (safe_refines get set start prog D).
  - intros sched. apply unsafe_refines.
Qed.
Print Assumptions C89_refines.

(** C89: at most one goroutine is inside the functions, the mutex is free after at most three
    more steps of the goroutine that holds it, ... *)
Theorem C89_excludes :
  forall A P S L C (eqP : EqDecision P) (get : A -> S -> P) set (start : C -> L) prog s0, only_through get prog -> forall sched,
    (forall i j t u, threads (h_exec get set start prog s0 sched) !! i = Some t -> threads (h_exec get set start prog s0 sched) !! j = Some u ->
       inside t -> inside u -> i = j) /\
    (forall i, snd (shared (h_exec get set start prog s0 sched)) = Some i ->
       exists n, n <= 3 /\ snd (shared (h_exec get set start prog s0 (sched ++ repeat (Run i) n))) = None).
Proof.
  intros A P S L C eqP get set start prog s0 D sched. split.
  - intros i j t u. apply (safe_excludes get set start prog D).
  - intros i. apply (safe_releases get set start prog D).
Qed.
Print Assumptions C89_excludes.
(** ... and a goroutine that waits for it need only wait for these. *)
Theorem C89_completes :
  forall A P S L C (eqP : EqDecision P) (get : A -> S -> P) set (start : C -> L) prog s0, only_through get prog -> forall sched i l,
    threads (h_exec get set start prog s0 sched) !! i = Some (HOut l) ->
    exists more s ts, Forall (fun a => a = Run i \/ exists j, snd (shared (h_exec get set start prog s0 sched)) = Some j /\ a = Run j) more /\ length more <= 7 /\
      h_exec get set start prog s0 (sched ++ more) = Cfg (fst (u_step get set prog i s l), None) (<[i := HOut (snd (u_step get set prog i s l))]> ts).
Proof. intros A P S L C eqP get set start prog s0 D sched i l. apply (safe_completes get set start prog D). Qed.
Print Assumptions C89_completes.

(** C89: in particular the programs of this library: the sets of parents and counters of a
    Func, the observers of a trace, and span collectors.  [f_exec], [ob_exec], [cl_exec]
    are those of the properties C16-C18, C25 and C28. *)
Theorem C89_funcs : does_no_more f_safe f_exec /\ does_no_less f_safe f_exec.
Proof.
  destruct (C89_refines _ _ _ _ _ _ fp_get fp_set f_start f_prog fs_new f_prog_only) as [(f & H1 & H2) H3]. split.
  - exists f. split; [exact H1|]. intros sched. rewrite <- f_unsafe. apply H2.
  - intros sched. rewrite <- f_unsafe. apply H3.
Qed.
Print Assumptions C89_funcs.
Theorem C89_observers : does_no_more ob_safe ob_exec /\ does_no_less ob_safe ob_exec.
Proof.
  destruct (C89_refines _ _ _ _ _ _ ob_get ob_set ob_start ob_prog ob_new ob_prog_only) as [(f & H1 & H2) H3]. split.
  - exists f. split; [exact H1|]. intros sched. rewrite <- ob_unsafe. apply H2.
  - intros sched. rewrite <- ob_unsafe. apply H3.
Qed.
Print Assumptions C89_observers.
Theorem C89_collectors : forall info fuel, does_no_more (cl_safe info fuel) (cl_exec info fuel) /\ does_no_less (cl_safe info fuel) (cl_exec info fuel).
Proof.
  intros info fuel. destruct (C89_refines _ _ _ _ _ _ ck_get ck_set cl_start (cl_prog info fuel) cl_new (cl_prog_only info fuel)) as [(f & H1 & H2) H3]. split.
  - exists f. split; [exact H1|]. intros sched. rewrite <- cl_unsafe. apply H2.
  - intros sched. rewrite <- cl_unsafe. apply H3.
Qed.
Print Assumptions C89_collectors.

(** C89: so, in the App Engine build too, Func.Parents reports each parent once, and every
    parent of a call started before; ... *)
Theorem C89_safe_parents :
  forall sched more i t p err pk d j ord l,
    any_order ord -> threads (f_safe (sched ++ more)) !! j = Some (HOut (FuncStatsModel.FThr (FParents ord) (FuncStatsModel.F_done (FRParents l)))) ->
    NoDup l /\
    (threads (f_safe sched) !! i = Some (HOut t) -> FuncStatsModel.ft_call t = FCall p err pk d -> started t ->
     (forall u, threads (f_safe sched) !! j = Some u -> exists u', u = HOut u' /\ FuncStatsModel.ft_pc u' = F_iter1) -> p ∈ l).
Proof.
  intros sched more i t p err pk d j ord l Ho Hj. destruct C89_funcs as [(f & (F1 & _) & F2) _].
  destruct (F2 (sched ++ more)) as (_ & _ & G3). pose proof (G3 _ _ Hj) as Hj'. split; [exact (parents_nodup _ _ _ _ Ho Hj')|].
  intros Hi Hc Hs Hb. destruct (F1 sched more) as (more' & E). rewrite E in Hj'. destruct (F2 sched) as (_ & K2 & K3).
  apply (parents_complete (f sched) more' i t p err pk d j ord l Ho (K3 _ _ Hi) Hc Hs); [|exact Hj'].
  intros u Hu. destruct (threads (f_safe sched) !! j) as [u0|] eqn:Eu.
  - destruct (Hb u0 eq_refl) as (u' & -> & Hpc). rewrite (K3 _ _ Eu) in Hu. injection Hu as <-. exact Hpc.
  - apply lookup_ge_None in Eu. apply lookup_lt_Some in Hu. lia.
Qed.
Print Assumptions C89_safe_parents.
(** ... a span start or finish calls each observer at most once, all those registered before
    and not being cancelled, and none cancelled before; ... *)
Theorem C89_safe_observers :
  forall sched p calls, threads (ob_safe sched) !! p = Some (HOut (OThr ONotify (N_done calls))) ->
    NoDup calls /\
    forall pre post r, sched = pre ++ post ->
      (forall t, threads (ob_safe pre) !! p = Some t -> exists t', t = HOut t' /\ ot_pc t' = N_start) ->
      (threads (ob_safe pre) !! r = Some (HOut (OThr OReg R_done)) -> ~ In (OCancel r) (spawned sched) -> r ∈ calls) /\
      ((exists c, threads (ob_safe pre) !! c = Some (HOut (OThr (OCancel r) C_done))) -> r ∉ calls).
Proof.
  intros sched p calls Hp. destruct C89_observers as [(f & (F1 & F0) & F2) _].
  destruct (F2 sched) as (_ & _ & G3). pose proof (G3 _ _ Hp) as Hp'.
  destruct (observers_spec (f sched) p calls Hp') as (O1 & _ & _ & O4 & O5). split; [exact O1|].
  intros pre post r -> Hb. destruct (F1 pre post) as (more & E). destruct (F2 pre) as (_ & K2 & K3).
  assert (Nb : not_begun (f pre) p).
  { intros t Ht. destruct (threads (ob_safe pre) !! p) as [u0|] eqn:Eu.
    - destruct (Hb u0 eq_refl) as (u' & -> & Hpc). rewrite (K3 _ _ Eu) in Ht. injection Ht as <-. exact Hpc.
    - apply lookup_ge_None in Eu. apply lookup_lt_Some in Ht. lia. }
  split.
  - intros Hr Hc. apply (O4 (f pre) more r E Nb (K3 _ _ Hr)). intros (c & pc & Ht & _). apply Hc.
    rewrite <- (F0 (pre ++ post)). apply spawned_thread in Ht. exact Ht.
  - intros (c & Hc). apply (O5 (f pre) more r E Nb). exists c. apply (K3 _ _ Hc).
Qed.
Print Assumptions C89_safe_observers.
(** ... and a SpanCollector's channel is closed at most once, and one span triggers it. *)
Theorem C89_safe_collector :
  forall info fuel sched,
    (0 <= cl_closes (fst (shared (cl_safe info fuel sched))) <= 1)%Z /\
    forall i j n m a b, (a = KForce n \/ exists k, a = KStart n k) -> (b = KForce m \/ exists k, b = KStart m k) ->
      threads (cl_safe info fuel sched) !! i = Some (HOut (KThr a (M_done true))) ->
      threads (cl_safe info fuel sched) !! j = Some (HOut (KThr b (M_done true))) -> n = m.
Proof.
  intros info fuel sched. destruct (C89_collectors info fuel) as [(f & _ & F2) _]. destruct (F2 sched) as (G1 & _ & G3). split.
  - rewrite <- G1. apply closed_once.
  - intros i j n m a b Ha Hb Hi Hj. apply (trigger_one info fuel (f sched)).
    + exists i. destruct Ha as [->|(k & ->)]; [right|left; exists k]; apply G3, Hi.
    + exists j. destruct Hb as [->|(k & ->)]; [right|left; exists k]; apply G3, Hj.
Qed.
Print Assumptions C89_safe_collector.

(** Goroutine 1 takes the mutex for its compareAndSwapFunc while 0 is still waiting; 0 then
    finds the pointer set and its parent goes to the rest.  Both are reported. *)
Definition ex89 : list (action FuncStatsModel.fcall) :=
  [Spawn (FCall (Some 7) None false 1%Z); Spawn (FCall None None false 1%Z)] ++
  repeat (Run 0) 3 ++ repeat (Run 1) 3 ++ [Run 1; Run 0; Run 1; Run 0; Run 1; Run 1; Run 0] ++ repeat (Run 0) 9 ++ repeat (Run 1) 5 ++
  [Spawn (FParents (fun l => l))] ++ repeat (Run 2) 4.
Example C89_example :
  match threads (f_safe ex89) !! 2 with
  | Some (HOut (FuncStatsModel.FThr _ (FuncStatsModel.F_done (FRParents l)))) => length l = 2 /\ bool_decide (None ∈ l) = true /\ bool_decide (Some 7 ∈ l) = true
  | _ => False
  end.
Proof. vm_compute. auto. Qed.
Example C89_example_only : only_through fp_get f_prog /\ only_through ob_get ob_prog /\ forall info fuel, only_through ck_get (cl_prog info fuel).
Proof. exact (conj f_prog_only (conj ob_prog_only cl_prog_only)). Qed.
(** An observer registered before the pass is called, one cancelled before it is not. *)
Definition ex89_obs : list (action ocall) :=
  [Spawn OReg] ++ repeat (Run 0) 8 ++ [Spawn OReg] ++ repeat (Run 1) 8 ++ [Spawn (OCancel 0)] ++ repeat (Run 2) 30.
Example C89_example_observers :
  threads (ob_safe ex89_obs) !! 1 = Some (HOut (OThr OReg R_done)) /\ threads (ob_safe ex89_obs) !! 2 = Some (HOut (OThr (OCancel 0) C_done)) /\
  threads (ob_safe (ex89_obs ++ [Spawn ONotify] ++ repeat (Run 3) 12)) !! 3 = Some (HOut (OThr ONotify (N_done [1]))).
Proof. vm_compute. auto. Qed.
Example C89_example_collector :
  threads (cl_safe (fun n => SInfo (Z.of_nat n) 0 None) 5 ([Spawn (KStart 4 true)] ++ repeat (Run 0) 9)) !! 0 = Some (HOut (KThr (KStart 4 true) (M_done true))).
Proof. reflexivity. Qed.
