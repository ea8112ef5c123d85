(** Interleaving semantics.  A thread is one call made by some goroutine; a schedule is
    any list of "a goroutine makes a call" and "thread i performs its next atomic step".
    Program order inside a goroutine only restricts the schedules, so statements about
    all schedules cover it.  A finished thread's step does nothing. *)
From Verif Require Import Base.

Inductive action (A : Type) : Type :=
| Spawn (a : A)      (* a call with argument a starts; it has performed no step yet *)
| Run (i : nat).     (* thread i performs one atomic step *)
Arguments Spawn {A} a.
Arguments Run {A} i.

Record config (S L : Type) := Cfg { shared : S; threads : list L }.
Arguments Cfg {S L} _ _.
Arguments shared {S L} _.
Arguments threads {S L} _.

Section conc.
  Context {S L A : Type}.
  Context (start : A -> L) (step : nat -> S -> L -> S * L).

  Definition exec1 (c : config S L) (a : action A) : config S L :=
    match a with
    | Spawn a => Cfg (shared c) (threads c ++ [start a])
    | Run i =>
        match threads c !! i with
        | Some l => let r := step i (shared c) l in Cfg (fst r) (<[i := snd r]> (threads c))
        | None => c
        end
    end.

  Definition exec (s0 : S) (sched : list (action A)) : config S L :=
    fold_left exec1 sched (Cfg s0 []).

  Lemma exec_app s0 sched1 sched2 :
    exec s0 (sched1 ++ sched2) = fold_left exec1 sched2 (exec s0 sched1).
  Proof. unfold exec. apply fold_left_app. Qed.
  Lemma exec_snoc s0 sched a : exec s0 (sched ++ [a]) = exec1 (exec s0 sched) a.
  Proof. rewrite exec_app. reflexivity. Qed.

  Lemma exec_spawn s0 sched a :
    exec s0 (sched ++ [Spawn a]) = Cfg (shared (exec s0 sched)) (threads (exec s0 sched) ++ [start a]).
  Proof. rewrite exec_snoc. reflexivity. Qed.
  Lemma exec_run s0 sched i l :
    threads (exec s0 sched) !! i = Some l ->
    exec s0 (sched ++ [Run i]) =
    Cfg (fst (step i (shared (exec s0 sched)) l)) (<[i := snd (step i (shared (exec s0 sched)) l)]> (threads (exec s0 sched))).
  Proof. intros H. rewrite exec_snoc. cbn. rewrite H. reflexivity. Qed.
  Lemma exec_run_none s0 sched i : threads (exec s0 sched) !! i = None -> exec s0 (sched ++ [Run i]) = exec s0 sched.
  Proof. intros H. rewrite exec_snoc. cbn. rewrite H. reflexivity. Qed.

  (** Invariant rule. *)
  Lemma exec_inv (I : S -> list L -> Prop) (s0 : S) :
    I s0 [] ->
    (forall s ts a, I s ts -> I s (ts ++ [start a])) ->
    (forall s ts i l, I s ts -> ts !! i = Some l ->
       I (fst (step i s l)) (<[i := snd (step i s l)]> ts)) ->
    forall sched, I (shared (exec s0 sched)) (threads (exec s0 sched)).
  Proof.
    intros H0 Hsp Hst sched. induction sched as [|a sched IH] using rev_ind; [exact H0|].
    rewrite exec_snoc. set (c := exec s0 sched) in *. destruct a as [a|i]; cbn.
    - apply Hsp, IH.
    - destruct (threads c !! i) as [l|] eqn:E; [|exact IH]. cbn. apply Hst; assumption.
  Qed.

  (** The same with the schedule visible to the invariant (history variables). *)
  Lemma exec_inv_hist (I : list (action A) -> S -> list L -> Prop) (s0 : S) :
    I [] s0 [] ->
    (forall h s ts a, I h s ts -> I (h ++ [Spawn a]) s (ts ++ [start a])) ->
    (forall h s ts i, I h s ts -> ts !! i = None -> I (h ++ [Run i]) s ts) ->
    (forall h s ts i l, I h s ts -> ts !! i = Some l ->
       I (h ++ [Run i]) (fst (step i s l)) (<[i := snd (step i s l)]> ts)) ->
    forall sched, I sched (shared (exec s0 sched)) (threads (exec s0 sched)).
  Proof.
    intros H0 Hsp Hn Hst sched. induction sched as [|a sched IH] using rev_ind; [exact H0|].
    rewrite exec_snoc. set (c := exec s0 sched) in *. destruct a as [a|i]; cbn.
    - apply Hsp, IH.
    - destruct (threads c !! i) as [l|] eqn:E; [|apply Hn; assumption]. cbn. apply Hst; assumption.
  Qed.
End conc.
Arguments exec {S L A} start step s0 sched : simpl never.
Arguments exec1 {S L A} start step c a.
