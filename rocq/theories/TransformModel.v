(** Callback transformers: transform.go, registry.go 46-79, 87-97, 210-234. *)
From Verif Require Import Base SeriesModel Conc.

(** ** Callbacks *)

(** A callback receives one stat and may change the world [W] (whatever it captured). *)
Definition callback (V W : Type) : Type := stat V -> W -> W.
Definition transformer (V W : Type) : Type := callback V W -> callback V W.

(** The loop of TransformStatSource (transform.go 39-41) and Registry.Stats
    (registry.go 231-233). *)
Definition transform_all {V W} (ts : list (transformer V W)) (cb : callback V W) : callback V W :=
  fold_left (fun cb t => t cb) ts cb.

(** A source is the sequence of callback calls it makes. *)
Definition run_source {V W} (source : list (stat V)) (cb : callback V W) (w : W) : W :=
  fold_left (fun w s => cb s w) source w.

(** TransformStatSource(s, ts...).Stats(cb), transform.go 37-44. *)
Definition transform_stat_source {V W} (source : list (stat V)) (ts : list (transformer V W)) (cb : callback V W) (w : W) : W :=
  run_source source (transform_all ts cb) w.

(** scopeSorter.Less, registry.go 275 (at most one scope has a name), and Scopes, 211-222:
    [range] are the scopes with their contents as the map yields them. *)
Definition scope_less {X} (a b : bytes * X) : bool := bytes_ltb (fst a) (fst b).
Definition scopes {X} (range : list (bytes * X)) : list (bytes * X) := isort scope_less range.
Definition registry_source {V} (range : list (bytes * list (stat V))) : list (stat V) := concat (map snd (scopes range)).
(** Funcs, registry.go 224-227; the Funcs of a scope are numbers, in the order its own map
    yields them. *)
Definition registry_funcs (range : list (bytes * list nat)) : list nat := concat (map snd (scopes range)).
(** Registry.Stats, registry.go 230-235. *)
Definition registry_stats {V W} (range : list (bytes * list (stat V))) (ts : list (transformer V W)) (cb : callback V W) (w : W) : W :=
  run_source (registry_source range) (transform_all ts cb) w.

(** ** DeltaTransformer *)

(** The body up to Unlock, transform.go 63-73: the map afterwards and the previous total. *)
Definition delta_total (V : Type) (last : gmap bytes V) (s : stat V) : gmap bytes V * option V :=
  let idx := with_field (st_key s) (st_field s) in
  (<[idx := st_val s]> last, last !! idx).

(** The calls made to the next callback, transform.go 64 and 75-78; [sub] is float64
    subtraction. *)
Definition delta_calls {V} (sub : V -> V -> V) (s : stat V) (found : option V) : list (stat V) :=
  s :: match found with Some v => [Stat (st_key s) (B "delta") (sub (st_val s) v)] | None => [] end.

(** Transform, transform.go 61-80, run by one goroutine; the transformer's map is the
    component of the world read by [get] and written by [set]. *)
Definition delta_transform {V W} (sub : V -> V -> V) (get : W -> gmap bytes V) (set : gmap bytes V -> W -> W) : transformer V W :=
  fun cb s w =>
    if beqb (st_field s) (B "total") then
      let '(last', found) := delta_total V (get w) s in
      fold_left (fun w x => cb x w) (delta_calls sub s found) (set last' w)
    else cb s w.

(** *** Several goroutines use one transformer *)

(** lastTotals; the calls in the order of their critical sections, and the downstream calls
    made, with the thread that made them. *)
Record dshared (V : Type) := DShared { ds_last : gmap bytes V; ds_order : list nat; ds_out : list (nat * stat V) }.
Arguments DShared {V}.
Arguments ds_last {V}.
Arguments ds_order {V}.
Arguments ds_out {V}.
Inductive dpc (V : Type) :=
| D_start
| D_cb (found : option V)     (* 75 *)
| D_delta (v : V)             (* 76-78 *)
| D_done.
Arguments D_start {V}.
Arguments D_cb {V}.
Arguments D_delta {V}.
Arguments D_done {V}.
Record dthread (V : Type) := DThr { dt_stat : stat V; dt_pc : dpc V }.
Arguments DThr {V}.
Arguments dt_stat {V}.
Arguments dt_pc {V}.
Definition d_start {V} (s : stat V) : dthread V := DThr s D_start.

(** The lock is held only around the two map accesses (70-73), which are one step here. *)
Definition d_step {V} (sub : V -> V -> V) (i : nat) (w : dshared V) (t : dthread V) : dshared V * dthread V :=
  let s := dt_stat t in
  match dt_pc t with
  | D_start =>
      if beqb (st_field s) (B "total") then
        let '(last', found) := delta_total V (ds_last w) s in
        (DShared last' (ds_order w ++ [i]) (ds_out w), DThr s (D_cb found))
      else (DShared (ds_last w) (ds_order w) (ds_out w ++ [(i, s)]), DThr s D_done)
  | D_cb found => (DShared (ds_last w) (ds_order w) (ds_out w ++ [(i, s)]), DThr s (match found with Some v => D_delta v | None => D_done end))
  | D_delta v => (DShared (ds_last w) (ds_order w) (ds_out w ++ [(i, Stat (st_key s) (B "delta") (sub (st_val s) v))]), DThr s D_done)
  | D_done => (w, t)
  end.
Definition d_exec {V} (sub : V -> V -> V) (sched : list (action (stat V))) : config (dshared V) (dthread V) :=
  exec d_start (d_step sub) (DShared ∅ [] []) sched.

(** ** Registry handles *)

(** Go slices of transformers: a backing array (by number), a length and a capacity; all
    start at the beginning of their array.  Transformers are numbers. *)
Record slice := Slice { sl_ptr : nat; sl_len : nat; sl_cap : nat }.
Definition nil_slice : slice := Slice 0 0 0.

(** Memory: the arrays and the next free number. *)
Record mem := Mem { me_arrays : gmap nat (list nat); me_next : nat }.
Definition array (m : mem) (p : nat) : list nat := default [] (me_arrays m !! p).
Definition contents (m : mem) (s : slice) : list nat := take (sl_len s) (array m (sl_ptr s)).

(** append: in place if the capacity allows, else into a new array whose capacity the runtime
    chooses ([grow], at least what is needed). *)
Definition append (grow : nat -> nat) (m : mem) (s : slice) (xs : list nat) : mem * slice :=
  let n := (sl_len s + length xs)%nat in
  if (n <=? sl_cap s)%nat then
    let a := array m (sl_ptr s) in
    (Mem (<[sl_ptr s := take (sl_len s) a ++ xs ++ drop n a]> (me_arrays m)) (me_next m), Slice (sl_ptr s) n (sl_cap s))
  else
    let c := Nat.max n (grow n) in
    (Mem (<[me_next m := contents m s ++ xs ++ repeat 0%nat (c - n)]> (me_arrays m)) (S (me_next m)), Slice (me_next m) n c).

(** A handle is the registryInternal (by number) and its transformers, registry.go 46-54;
    the scope table per registryInternal (37-38), scopes being numbers; the callers' slices. *)
Record world := World {
  wo_mem : mem;
  wo_handles : list (nat * slice);
  wo_internals : nat;
  wo_scopes : gmap (nat * bytes) nat;
  wo_scope_next : nat;
  wo_callers : list slice
}.
Definition new_world : world := World (Mem ∅ 0) [] 0 ∅ 0 [].

(** What programs do: NewRegistry (58-65); a slice of transformers made by the caller, with
    spare capacity; the caller's own element writes and appends; h.WithTransformers(ts...)
    (69-74); h.ScopeNamed(name) (87-97). *)
Inductive rop :=
| RNew
| RSlice (ts : list nat) (spare : nat)
| RWrite (c i t : nat)
| RAppend (c : nat) (ts : list nat)
| RWith (h c : nat)
| RScope (h : nat) (name : bytes).

Definition set_mem (w : world) (m : mem) : world := World m (wo_handles w) (wo_internals w) (wo_scopes w) (wo_scope_next w) (wo_callers w).
Definition add_caller (w : world) (s : slice) : world := World (wo_mem w) (wo_handles w) (wo_internals w) (wo_scopes w) (wo_scope_next w) (wo_callers w ++ [s]).
Definition add_handle (w : world) (h : nat * slice) (internals : nat) : world :=
  World (wo_mem w) (wo_handles w ++ [h]) internals (wo_scopes w) (wo_scope_next w) (wo_callers w).

(** ScopeNamed: the scope found or made, and the table afterwards. *)
Definition scope_named (w : world) (internal : nat) (name : bytes) : world * nat :=
  match wo_scopes w !! (internal, name) with
  | Some s => (w, s)
  | None => (World (wo_mem w) (wo_handles w) (wo_internals w) (<[(internal, name) := wo_scope_next w]> (wo_scopes w)) (S (wo_scope_next w)) (wo_callers w), wo_scope_next w)
  end.

Definition r_step (grow : nat -> nat) (w : world) (o : rop) : world :=
  match o with
  | RNew => add_handle w (wo_internals w, nil_slice) (S (wo_internals w))
  | RSlice ts spare =>
      let m := wo_mem w in
      add_caller (set_mem w (Mem (<[me_next m := ts ++ repeat 0%nat spare]> (me_arrays m)) (S (me_next m)))) (Slice (me_next m) (length ts) (length ts + spare))
  | RWrite c i t =>
      match wo_callers w !! c with
      | Some s =>
          if (i <? sl_len s)%nat
          then set_mem w (Mem (<[sl_ptr s := <[i := t]> (array (wo_mem w) (sl_ptr s))]> (me_arrays (wo_mem w))) (me_next (wo_mem w)))
          else w
      | None => w
      end
  | RAppend c ts =>
      match wo_callers w !! c with
      | Some s => let '(m, s') := append grow (wo_mem w) s ts in add_caller (set_mem w m) s'
      | None => w
      end
  | RWith h c =>
      match wo_handles w !! h, wo_callers w !! c with
      | Some (i, s), Some t =>
          (* append(append([]CallbackTransformer(nil), r.transformers...), t...), 72 *)
          let args := contents (wo_mem w) t in
          let '(m1, s1) := append grow (wo_mem w) nil_slice (contents (wo_mem w) s) in
          let '(m2, s2) := append grow m1 s1 args in
          add_handle (set_mem w m2) (i, s2) (wo_internals w)
      | _, _ => w
      end
  | RScope h name =>
      match wo_handles w !! h with
      | Some (i, _) => fst (scope_named w i name)
      | None => w
      end
  end.
Definition r_exec (grow : nat -> nat) (ops : list rop) : world := fold_left (r_step grow) ops new_world.
