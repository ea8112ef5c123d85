(** * What keeps the accesses to each field apart

    The table with which the functions of RaceCode.v pass the check of RaceCheck.v.  Not part of
    any statement. *)
From Verif Require Import RaceModel RaceSpec RaceCheck RaceCode RaceProofs5.

Local Notation imm fs := (map (fun f => (f, KImm)) fs).
Local Notation atomic fs := (map (fun f => (f, KAtomic)) fs).
Local Notation lock l fs := (map (fun f => (f, KLock l)) fs).

Definition func_fields : list (string * kind) :=
  imm ["id"; "scope"; "key"] ++ atomic ["current"; "highwater"; "first"] ++
  lock "Mutex" ["rest"; "errors"; "panics"; "successTimes"; "failureTimes"].

Definition table : list (string * list (string * kind)) := [
  ("Span", imm ["id"; "start"; "f"; "trace"; "parent"; "parentId"; "args"; "Context"] ++
           lock "mtx" ["done"; "orphaned"; "children"; "annotations"]);
  ("Annotation", imm ["Name"; "Value"]);
  ("exit", imm ["s"; "trace"]);
  ("Task", imm ["s"] ++ [("f", KOnce "initOnce")]);
  ("Trace", imm ["id"] ++ atomic ["spanCount"; "spanObservers"] ++ lock "mtx" ["vals"]);
  ("spanObserverTuple", imm ["car"] ++ atomic ["cdr"]);
  ("unobserve", imm ["t"; "ref"]);
  ("Func", func_fields); ("FuncStats", func_fields);
  ("Registry", imm ["registryInternal"; "transformers"]);
  ("registryInternal", atomic ["traceWatcher"] ++ lock "watcherMtx" ["watcherCounter"; "traceWatchers"] ++
     lock "scopeMtx" ["scopes"] ++ lock "spanMtx" ["spans"] ++ lock "orphanMtx" ["orphans"]);
  ("transformerCell", imm ["t"; "next"]);
  ("traceWatcherRef", imm ["watcher"]);
  ("watcherCell", imm ["cb"; "next"]);
  ("watcher", imm ["frame"]);
  ("unwatch", imm ["r"]);
  ("Scope", imm ["r"; "name"] ++ lock "mtx" ["sources"; "chains"]);
  ("gauge", imm ["cb"]);
  ("TagSet", imm ["all"] ++ [("str", KMine)]);
  ("local", [("items", KMine)]);
  ("DeltaTransformer", lock "mtx" ["lastTotals"]);
  ("Counter", imm ["key"] ++ lock "mtx" ["val"; "low"; "high"; "nonempty"]);
  ("Meter", imm ["key"] ++ lock "mtx" ["total"; "slices"]);
  ("meterCell", imm ["m"]);
  ("ticker", lock "mtx" ["started"; "meters"]);
  ("DiffMeter", imm ["key"; "meter1"; "meter2"]);
  ("IntVal", imm ["key"] ++ lock "mtx" ["dist"]);
  ("FloatVal", imm ["key"] ++ lock "mtx" ["dist"]);
  ("DurationVal", imm ["key"] ++ lock "mtx" ["dist"]);
  ("BoolVal", imm ["key"] ++ atomic ["trues"; "falses"; "recent"]);
  ("StructVal", imm ["key"] ++ lock "mtx" ["recent"]);
  ("Timer", imm ["key"] ++ lock "mtx" ["times"]);
  ("RunningTimer", imm ["start"; "t"] ++ [("stopped", KVia "t" "mtx")]);
  ("errorNameHandlers", atomic ["value"]);
  ("handlerCell", imm ["fn"; "next"]);
  ("ids", imm ["inc"] ++ atomic ["idCounter"]);
  ("ctxVar", imm ["value"]);
  ("SpanCollector", imm ["matcher"; "done"] ++ atomic ["check"] ++ lock "mtx" ["root"; "spansByParent"]);
  ("FinishedSpan", imm ["Span"; "Err"; "Panicked"; "Finish"]);
  ("spanFinder", imm ["matcher"; "doneCh"] ++ atomic ["doneFlag"]);
  ("frame", imm ["collector"] ++ lock "mtx" ["cancelers"; "stopping"; "existingTraces"]);
  ("cancelAll", imm ["frame"; "main"]);
  ("keepAlive", imm ["ping"] ++ lock "mu" ["pingErr"; "stopped"]);
  ("remote", lock "traceMtx" ["trace"]);
  ("crcCache", [("crc", KOnce "once"); ("err", KOnce "once")])
].

Fixpoint assoc {A} (l : list (string * A)) (x : string) : option A :=
  match l with
  | [] => None
  | (y, a) :: l' => if String.eqb x y then Some a else assoc l' x
  end.

Definition disc (c f : string) : option kind := fs ← assoc table c; assoc fs f.

Lemma assoc_in {A} (l : list (string * A)) x a : assoc l x = Some a -> (x, a) ∈ l.
Proof.
  induction l as [|[y b] l IH]; cbn; [done|].
  destruct (String.eqb_spec x y) as [->|_]; intros H.
  - injection H as ->. left.
  - right. auto.
Qed.

Lemma disc_via : forall c f, via_ok disc c f.
Proof.
  assert (forallb (fun p => forallb (fun q => match q.2 with
      | KVia g l => match disc p.1 g with Some KImm => true | _ => false end | _ => true end) p.2) table = true) as H
    by (vm_compute; reflexivity).
  intros c f. unfold via_ok. destruct (disc c f) as [[]|] eqn:E; try done.
  unfold disc in E. destruct (assoc table c) as [fs|] eqn:E1; cbn [mbind option_bind] in E; [|done].
  apply assoc_in in E1, E.
  rewrite forallb_forall in H. specialize (H _ (proj1 (elem_of_list_In _ _) E1)). cbn in H.
  rewrite forallb_forall in H. specialize (H _ (proj1 (elem_of_list_In _ _) E)). cbn [snd fst] in H.
  change (match disc c g with Some KImm => true | _ => false end = true) in H.
  destruct (disc c g) as [[]|]; congruence.
Qed.
