(** Vocabulary for transformers. *)
From Verif Require Import Base SeriesModel SeriesSpec Conc TransformModel.

(** Appends each stat to a log. *)
Definition recorder {V S} : callback V (S * list (stat V)) := fun s w => (fst w, snd w ++ [s]).

(** ** C30 *)
Section delta.
  Context {V : Type} (sub : V -> V -> V).

  Definition is_total (s : stat V) : Prop := st_field s = B "total".
  (** The value of the latest total of the same rendered series among [before]. *)
  Definition previous_total (before : list (stat V)) (s : stat V) : option V :=
    last_match (fun p => if decide (st_field p = B "total" /\ with_field (st_key p) (st_field p) = with_field (st_key s) (st_field s))
                         then Some (st_val p) else None) before.
  (** The same by key instead of name. *)
  Definition previous_total_of_key (before : list (stat V)) (s : stat V) : option V :=
    last_match (fun p => if decide (st_field p = B "total" /\ sk_measurement (st_key p) = sk_measurement (st_key s) /\ sk_tags (st_key p) = sk_tags (st_key s))
                         then Some (st_val p) else None) before.
  (** What becomes of one stat that follows [before]. *)
  Definition with_delta (prev : list (stat V) -> stat V -> option V) (before : list (stat V)) (s : stat V) : list (stat V) :=
    if decide (is_total s) then
      match prev before s with
      | Some v => [s; Stat (st_key s) (B "delta") (sub (st_val s) v)]
      | None => [s]
      end
    else [s].
  Fixpoint with_deltas (prev : list (stat V) -> stat V -> option V) (before input : list (stat V)) : list (stat V) :=
    match input with
    | [] => []
    | s :: rest => with_delta prev before s ++ with_deltas prev (before ++ [s]) rest
    end.

  (** Concurrent use: what thread [i] passed on; the totals in the order they took the lock. *)
  Definition passed_on (sched : list (action (stat V))) (i : nat) : list (stat V) :=
    map snd (List.filter (fun p => Nat.eqb (fst p) i) (ds_out (shared (d_exec sub sched)))).
  Definition call_finished (sched : list (action (stat V))) (i : nat) (s : stat V) : Prop :=
    threads (d_exec sub sched) !! i = Some (DThr s D_done).
  Definition call_unbegun (sched : list (action (stat V))) (i : nat) : Prop :=
    forall t, threads (d_exec sub sched) !! i = Some t -> dt_pc t = D_start.
  Definition stats_of (sched : list (action (stat V))) (l : list nat) : list (stat V) :=
    omap (fun i => dt_stat <$> threads (d_exec sub sched) !! i) l.
End delta.

(** The values of the totals of one rendered series, and the sum of its deltas. *)
Definition total_values (name : bytes) (l : list (stat Z)) : list Z :=
  omap (fun s => if decide (st_field s = B "total" /\ with_field (st_key s) (B "total") = name) then Some (st_val s) else None) l.
Definition delta_sum (name : bytes) (l : list (stat Z)) : Z :=
  fold_right Z.add 0%Z (omap (fun s => if decide (st_field s = B "delta" /\ with_field (st_key s) (B "total") = name) then Some (st_val s) else None) l).

(** The last value minus the first (0 if there is none). *)
Definition span_of (l : list Z) : Z := match head l, last l with Some a, Some b => (b - a)%Z | _, _ => 0%Z end.
(** The name of the series determines its key (C01). *)
Definition plain_key {V} (s : stat V) : Prop := no_trailing_backslash (sk_measurement (st_key s)) (sk_tags (st_key s)).

(** ** C31 *)

(** A transformer with private state: what it passes on for each stat. *)
Definition stage (V S : Type) : Type := S -> stat V -> S * list (stat V).
Fixpoint run_stage {V S} (f : stage V S) (s : S) (input : list (stat V)) : list (stat V) :=
  match input with
  | [] => []
  | x :: rest => snd (f s x) ++ run_stage f (fst (f s x)) rest
  end.
(** t1, ..., tn: the stats pass through tn first and t1 last. *)
Fixpoint pipe {V S} (f : nat -> stage V S) (init : nat -> S) (ks : list nat) (input : list (stat V)) : list (stat V) :=
  match ks with
  | [] => input
  | k :: ks' => run_stage (f k) (init k) (pipe f init ks' input)
  end.
(** Transformer number [k], whose state is a component of the world. *)
Definition stage_transformer {V S} (f : nat -> stage V S) (init : nat -> S) (k : nat) : transformer V (gmap nat S * list (stat V)) :=
  fun cb x w =>
    let r := f k (default (init k) (fst w !! k)) x in
    fold_left (fun w y => cb y w) (snd r) (<[k := fst r]> (fst w), snd w).

(** The transformers of a handle. *)
Definition handle_transformers (w : world) (h : nat) : option (list nat) :=
  (fun p => contents (wo_mem w) (snd p)) <$> wo_handles w !! h.
(** The contents of a caller's slice. *)
Definition caller_transformers (w : world) (c : nat) : option (list nat) := contents (wo_mem w) <$> wo_callers w !! c.
(** What handle.ScopeNamed(name) returns. *)
Definition scope_of (w : world) (h : nat) (name : bytes) : option nat :=
  (fun p => snd (scope_named w (fst p) name)) <$> wo_handles w !! h.
(** For each handle, the handle from NewRegistry it was derived from. *)
Fixpoint origins_from (acc : list nat) (slices : nat) (ops : list rop) : list nat :=
  match ops with
  | [] => acc
  | RNew :: ops => origins_from (acc ++ [length acc]) slices ops
  | RSlice _ _ :: ops => origins_from acc (S slices) ops
  | RAppend c _ :: ops => origins_from acc (if (c <? slices)%nat then S slices else slices) ops
  | RWith h c :: ops => origins_from (match acc !! h with Some o => if (c <? slices)%nat then acc ++ [o] else acc | None => acc end) slices ops
  | _ :: ops => origins_from acc slices ops
  end.
Definition origins (ops : list rop) : list nat := origins_from [] 0 ops.
Definition same_family (ops : list rop) (h h' : nat) : Prop := exists o, origins ops !! h = Some o /\ origins ops !! h' = Some o.

(** Scopes in increasing order of their names. *)
Definition name_before {X} (a b : bytes * X) : Prop := bytes_ltb (fst a) (fst b) = true.
