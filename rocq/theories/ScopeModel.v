(** Scopes: scope.go (source table, gauges, chains, Stats) and func.go's keys. *)
From Verif Require Import Base SeriesModel Conc.

(** sourceName, scope.go 70-87 (the size computation for Grow has no effect). *)
Definition write_source_tags (tags : list (bytes * bytes)) : bytes :=
  flat_map (fun t => [chComma] ++ fst t ++ [chEq] ++ snd t) tags.
Definition source_name (namespace name : bytes) (tags : list (bytes * bytes)) : bytes :=
  namespace ++ name ++ write_source_tags tags.

(** The kinds of sources the typed accessors create, scope.go 95-260. *)
Inductive kind :=
| KFunc | KMeter | KDiffMeter | KIntVal | KFloatVal | KBoolVal | KStructVal
| KDurationVal | KTimer | KCounter.
#[global] Instance kind_eq_dec : EqDecision kind.
Proof. solve_decision. Defined.

(** The table key: only FuncNamed uses the "func:" namespace (96); the others use ""
    (124, 144, 155, 174, 193, 212, 225, 238, 251). *)
Definition namespace_of (k : kind) : bytes := match k with KFunc => B "func:" | _ => [] end.
Definition table_name (k : kind) (name : bytes) (tags : list (bytes * bytes)) : bytes :=
  source_name (namespace_of k) name tags.

(** The series key given to the constructor: 97 for Funcs, e.g. 125 for the others. *)
Definition constructor_key (k : kind) (name : bytes) (tags : list (bytes * bytes)) : series_key :=
  match k with
  | KFunc => with_tags (with_tag (SeriesKey (B "function") ∅) (B "name") name) tags
  | _ => with_tags (SeriesKey name ∅) tags
  end.

(** An entry of the table: an object created by an accessor (identity, dynamic type and
    series key; its contents are modelled in other files) or a gauge (264-284) with the
    callback it calls.  Callbacks and chained sources are opaque identities. *)
Inductive obj :=
| Src (id : nat) (k : kind) (key : series_key)
| Gauge (name : bytes) (cb : nat).

(** Scope, scope.go 25-31, with two ghost fields: the next fresh object identity and the
    table names for which a constructor has run. *)
Record scope := Scope {
  sc_sources : gmap bytes obj;
  sc_chains : list nat;
  sc_next : nat;
  sc_built : list bytes
}.
Definition new_scope : scope := Scope ∅ [] 0 [].

(** Calls on a scope.  [ord] is the order in which ranging over the table yields its
    entries (unspecified in Go; the theorems assume it permutes its input). *)
Inductive call :=
| CLookup (k : kind) (name : bytes) (tags : list (bytes * bytes))
| CGauge (name : bytes) (cb : nat)
| CChain (src : nat)
| CStats (ord : list (bytes * obj) -> list (bytes * obj)).

Inductive result :=
| RObj (r : outcome obj)          (* typed accessors *)
| RUnit (r : outcome unit)        (* Gauge, Chain *)
| RVisited (v : list (obj + nat)) (* the sources whose Stats method Stats called, in order *).

Inductive pc :=
| PStart
| PMissed                        (* newSource after an unsuccessful read, scope.go 55 *)
| PNamed (named : list obj)      (* Stats after allNamedSources, scope.go 311 *)
| PDone (r : result).
Record thread := Thr { th_call : call; th_pc : pc }.
Definition sc_start (c : call) : thread := Thr c PStart.

(** The type assertions after newSource, e.g. scope.go 99-103. *)
Definition already_used (name : bytes) : bytes := name ++ B " already used for another stats source".
Definition assert_kind (k : kind) (name : bytes) (o : obj) : outcome obj :=
  match o with
  | Src _ k' _ => if bool_decide (k' = k) then Ok o else Panic (already_used name)
  | Gauge _ _ => Panic (already_used name)
  end.

(** One atomic step: newSource's read section (49-51) and write section (57-65), the
    sections of Gauge (268-283), Chain (289-292), allNamedSources (296-301) and the
    chains snapshot (315-317).  The type assertion is local and merged into the
    preceding step. *)
Definition sc_step (_ : nat) (s : scope) (t : thread) : scope * thread :=
  let done r := Thr (th_call t) (PDone r) in
  match th_call t, th_pc t with
  | CLookup k name tags, PStart =>
      match sc_sources s !! table_name k name tags with
      | Some o => (s, done (RObj (assert_kind k name o)))
      | None => (s, Thr (th_call t) PMissed)
      end
  | CLookup k name tags, PMissed =>
      let n := table_name k name tags in
      match sc_sources s !! n with
      | Some o => (s, done (RObj (assert_kind k name o)))
      | None =>
          let o := Src (sc_next s) k (constructor_key k name tags) in
          (Scope (<[n := o]> (sc_sources s)) (sc_chains s) (S (sc_next s)) (sc_built s ++ [n]),
           done (RObj (assert_kind k name o)))
      end
  | CGauge name cb, PStart =>
      match sc_sources s !! name with
      | Some (Src _ _ _) => (s, done (RUnit (Panic (already_used name))))
      | _ => (Scope (<[name := Gauge name cb]> (sc_sources s)) (sc_chains s) (sc_next s) (sc_built s),
              done (RUnit (Ok tt)))
      end
  | CChain src, PStart =>
      (Scope (sc_sources s) (sc_chains s ++ [src]) (sc_next s) (sc_built s), done (RUnit (Ok tt)))
  | CStats ord, PStart =>
      (s, Thr (th_call t) (PNamed (map snd (ord (map_to_list (sc_sources s))))))
  | CStats _, PNamed named =>
      (s, done (RVisited (map inl named ++ map inr (sc_chains s))))
  | _, _ => (s, t)
  end.

Definition sc_exec (sched : list (action call)) : config scope thread := exec sc_start sc_step new_scope sched.

(** What Scope.Stats (306-322) passes to its callback: [calls] are, for each visited
    source in turn, the callback calls that source's Stats method makes. *)
Definition scope_forward {V} (scope_name : bytes) (calls : list (list (stat V))) : list (stat V) :=
  flat_map (map (fun st => Stat (with_tag (st_key st) (B "scope") scope_name) (st_field st) (st_val st))) calls.

(** What a gauge's Stats reports, scope.go 279-282; [cb_value] is what the callback returns. *)
Definition gauge_stats {V} (cb_value : nat -> V) (o : obj) : list (stat V) :=
  match o with
  | Gauge name cb => [Stat (SeriesKey name ∅) (B "value") (cb_value cb)]
  | Src _ _ _ => []
  end.

(** Scope.Funcs, scope.go 108-120: the Funcs handed to the callback; [range] is the table
    in iteration order.  The map keyed by *Func removes duplicates; its iteration order is
    again unspecified, [ord]. *)
Definition obj_id (o : obj) : option nat :=
  match o with Src id KFunc _ => Some id | _ => None end.
Definition scope_funcs (ord : list nat -> list nat) (range : list (bytes * obj)) : list nat :=
  ord (remove_dups (omap (fun e => obj_id (snd e)) range)).

(** ShortName and FullName, func.go 53-58; TagSet.Get of a missing key is "". *)
Definition func_short_name (key : series_key) : bytes := default [] (sk_tags key !! B "name").
Definition func_full_name (scope_name : bytes) (key : series_key) : bytes :=
  scope_name ++ B "." ++ func_short_name key.

(** The series keys of a Func's statistics: initFuncStats, funcstats.go 48-55, and the
    error family, 164. *)
Definition times_key (key : series_key) (knd : bytes) : series_key :=
  with_tag (SeriesKey (sk_measurement key ++ B "_times") (sk_tags key)) (B "kind") knd.
Definition success_key (key : series_key) : series_key := times_key key (B "success").
Definition failure_key (key : series_key) : series_key := times_key key (B "failure").
Definition error_key (key : series_key) (errname : bytes) : series_key :=
  with_tag key (B "error_name") errname.
