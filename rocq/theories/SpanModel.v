(** Spans: spanbag.go, span.go (children, orphans), newSpan and its exit function in ctx.go,
    root and orphan sets in registry.go, as interleaved lock sections. *)
From Verif Require Import Base Conc FuncStatsModel.
Local Open Scope Z_scope.

(** spanBag, spanbag.go 21-24; spans are numbered, nil and an empty map are the same, the
    int32 counts do not wrap. *)
Record bag := Bag { bag_first : option nat; bag_rest : gmap nat Z }.
Definition bag_empty : bag := Bag None ∅.

(** spanbag.go 26-35. *)
Definition bag_add (s : nat) (b : bag) : bag :=
  match bag_first b with
  | None => Bag (Some s) (bag_rest b)
  | Some _ => Bag (bag_first b) (<[s := default 0 (bag_rest b !! s) + 1]> (bag_rest b))
  end.

(** spanbag.go 37-49. *)
Definition bag_remove (s : nat) (b : bag) : bag :=
  if bool_decide (bag_first b = Some s) then Bag None (bag_rest b)
  else
    let count := default 0 (bag_rest b !! s) in
    if count <=? 1 then Bag (bag_first b) (delete s (bag_rest b))
    else Bag (bag_first b) (<[s := count - 1]> (bag_rest b)).

(** spanbag.go 52-59; [ord] is the order in which the map is ranged over. *)
Definition bag_iterate (ord : list nat -> list nat) (b : bag) : list nat :=
  (match bag_first b with Some s => [s] | None => [] end) ++ ord (elements (dom (bag_rest b))).

(** Sorting spans by (full function name, span id), registry.go 260-269; [info] gives a
    span's full name and id. *)
Definition span_less (info : nat -> bytes * Z) (i j : nat) : bool :=
  let iname := fst (info i) in let jname := fst (info j) in
  bytes_ltb iname jname || (beqb iname jname && (snd (info i) <? snd (info j))).

(** Collecting only spans not found before, span.go 93-98. *)
Fixpoint dedup (found : list nat) (l : list nat) : list nat :=
  match l with
  | [] => []
  | s :: l' => if bool_decide (s ∈ found) then dedup found l' else s :: dedup (s :: found) l'
  end.

(** The spans Children reports, span.go 88-104. *)
Definition bag_children (info : nat -> bytes * Z) (ord : list nat -> list nat) (b : bag) : list nat :=
  isort (span_less info) (dedup [] (bag_iterate ord b)).

(** ** Span life cycles *)

(** The mutable state of all spans (Span.done, orphaned, children, ctx.go 40-43), of their
    registry (spans, orphans, registry.go 36-40; one registry) and traces (spanCount), and
    as a history the calls of Func.end (span, err, panicked). *)
Record spans := Spans {
  sp_done : gset nat;
  sp_orphaned : gset nat;
  sp_children : gmap nat bag;
  sp_roots : gset nat;
  sp_orphans : gset nat;
  sp_count : gmap nat Z;
  sp_ends : list (nat * option bytes * bool)
}.
Definition sp_new : spans := Spans ∅ ∅ ∅ ∅ ∅ ∅ [].
Definition children_of (s : spans) (i : nat) : bag := default bag_empty (sp_children s !! i).
Definition trace_count (s : spans) (t : nat) : Z := default 0 (sp_count s !! t).

(** One span: its parent and trace as chosen by newSpan (CtxModel.v), how the function body
    ends, the error pointer given to the exit function and the order of ranging over its
    children.  The i-th thread is span number i. *)
Record scall := SCall {
  sc_parent : option nat;
  sc_trace : nat;
  sc_unwind : unwinding nat;
  sc_errptr : option (option bytes);
  sc_ord : list nat -> list nat
}.

Inductive spc :=
| A_inc                    (* newSpan: trace.incrementSpans, ctx.go 98 *)
| A_link                   (* parent.addChild's lock section, or rootSpanStart, 100-106 *)
| A_orphan                 (* addChild found the parent done: child.orphan(), span.go 43-45 *)
| A_running                (* newSpan has returned *)
| X_end                    (* exit: recover, f.end, 114-123 *)
| X_mark                   (* done := true, read orphaned and children, 126-132 *)
| X_children (o : bool) (l : list nat)   (* child.orphan() for the rest of them, 133-135 *)
| X_unlink (o : bool)      (* parent.removeChild or rootSpanEnd, 137-144 *)
| X_orphanend              (* orphanEnd, 139-141 *)
| X_dec                    (* decrementSpans, 146 *)
| X_done (u : unwinding nat).   (* exit has returned or re-panicked, 154-156 *)
Record sthread := SThr { st_call : scall; st_pc : spc }.

Definition sp_start (c : scall) : sthread := SThr c A_inc.

(** span.go 54-61, with the nested registry section (registry.go 164-168) in one step. *)
Definition orphan_span (i : nat) (s : spans) : spans :=
  if bool_decide (i ∉ sp_done s /\ i ∉ sp_orphaned s) then
    Spans (sp_done s) ({[i]} ∪ sp_orphaned s) (sp_children s) (sp_roots s) ({[i]} ∪ sp_orphans s)
          (sp_count s) (sp_ends s)
  else s.

Definition set_children (s : spans) (p : nat) (b : bag) : spans :=
  Spans (sp_done s) (sp_orphaned s) (<[p := b]> (sp_children s)) (sp_roots s) (sp_orphans s) (sp_count s) (sp_ends s).
Definition set_roots (s : spans) (r : gset nat) : spans :=
  Spans (sp_done s) (sp_orphaned s) (sp_children s) r (sp_orphans s) (sp_count s) (sp_ends s).
Definition add_count (s : spans) (t : nat) (d : Z) : spans :=
  Spans (sp_done s) (sp_orphaned s) (sp_children s) (sp_roots s) (sp_orphans s)
        (<[t := trace_count s t + d]> (sp_count s)) (sp_ends s).

(** One atomic step of span [i].  The steps of Func.start and end and of span observers
    (FuncStatsModel.v, ObserverModel.v) work on other state and are left out. *)
Definition sp_step (i : nat) (s : spans) (t : sthread) : spans * sthread :=
  let c := st_call t in
  let go pc := SThr c pc in
  match st_pc t with
  | A_inc => (add_count s (sc_trace c) 1, go A_link)
  | A_link =>
      match sc_parent c with
      | Some p =>
          (set_children s p (bag_add i (children_of s p)),
           go (if bool_decide (p ∈ sp_done s) then A_orphan else A_running))
      | None => (set_roots s ({[i]} ∪ sp_roots s), go A_running)
      end
  | A_orphan => (orphan_span i s, go A_running)
  | A_running => (s, go X_end)
  | X_end =>
      let r := fst (observe_exit (sc_unwind c) (sc_errptr c)) in
      (Spans (sp_done s) (sp_orphaned s) (sp_children s) (sp_roots s) (sp_orphans s) (sp_count s)
             (sp_ends s ++ [(i, fst r, snd r)]), go X_mark)
  | X_mark =>
      (Spans ({[i]} ∪ sp_done s) (sp_orphaned s) (sp_children s) (sp_roots s) (sp_orphans s) (sp_count s) (sp_ends s),
       go (X_children (bool_decide (i ∈ sp_orphaned s)) (bag_iterate (sc_ord c) (children_of s i))))
  | X_children o [] => (s, go (X_unlink o))
  | X_children o (ch :: l) => (orphan_span ch s, go (X_children o l))
  | X_unlink o =>
      match sc_parent c with
      | Some p => (set_children s p (bag_remove i (children_of s p)), go (if o then X_orphanend else X_dec))
      | None => (set_roots s (sp_roots s ∖ {[i]}), go X_dec)
      end
  | X_orphanend =>
      (Spans (sp_done s) (sp_orphaned s) (sp_children s) (sp_roots s) (sp_orphans s ∖ {[i]}) (sp_count s) (sp_ends s),
       go X_dec)
  | X_dec => (add_count s (sc_trace c) (-1), go (X_done (snd (observe_exit (sc_unwind c) (sc_errptr c)))))
  | X_done _ => (s, t)
  end.

Definition sp_exec (sched : list (action scall)) : config spans sthread := exec sp_start sp_step sp_new sched.

(** RootSpans, registry.go 178-196, and AllSpans with walkSpan, 198-208, when nothing else
    runs meanwhile.  [fuel] bounds the recursion depth of walkSpan; [mord] orders the range
    over the registry's maps and over the children. *)
Definition root_spans (info : nat -> bytes * Z) (mord : list nat -> list nat) (s : spans) : list nat :=
  isort (span_less info) (mord (elements (sp_roots s)) ++ mord (elements (sp_orphans s))).
Fixpoint walk_span (info : nat -> bytes * Z) (mord : list nat -> list nat) (s : spans) (fuel : nat) (i : nat) : list nat :=
  match fuel with
  | O => []
  | S fuel' =>
      i :: concat (map (walk_span info mord s fuel') (bag_children info mord (children_of s i)))
  end.
Definition all_spans (info : nat -> bytes * Z) (mord : list nat -> list nat) (s : spans) (fuel : nat) : list nat :=
  concat (map (walk_span info mord s fuel) (root_spans info mord s)).
