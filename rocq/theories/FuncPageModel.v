(** The pages /funcs, /funcs/text, /funcs/dot and /funcs/json: FuncsText, FuncsDot and FuncsJSON of present/funcs.go on the
    scopes of ScopeModel and the function statistics of FuncStatsModel, while goroutines go on
    calling the functions. *)
From Verif Require Import Base BaseProofs Conc SeriesModel ScopeModel TransformModel DistModel FuncStatsModel PresentModel ReportModel JsonModel RouteModel.
Local Open Scope Z_scope.

(** A scope: the calls made on it so far, and the orders in which Funcs (scope.go 108-120) ranges
    over its table and over the Funcs found. *)
Record rscope := RScope { rs_sched : list (action call); rs_range : list (bytes * obj); rs_ord : list nat -> list nat }.
(** Registry.Funcs, registry.go 210-227: the scope's name and the Func. *)
Definition page_funcs (range : list (bytes * rscope)) : list (bytes * nat) :=
  flat_map (fun e => map (pair (fst e)) (scope_funcs (rs_ord (snd e)) (rs_range (snd e)))) (scopes range).

(** What a report reads of one Func: each accessor at its own moment, given as what had happened to
    the function's statistics by then (funcstats.go 109-147, 177-191).  [fr_parents]: what Parents
    handed to its callback; [fr_errors]: the map Errors returned, as ranging over it yields it;
    [fr_sdist], [fr_fdist]: the copies that SuccessTimes and FailureTimes returned. *)
Record freads (F R : Type) := FReads {
  fr_parents : list parent; fr_errors : list (bytes * Z);
  fr_current : list (action fcall); fr_highwater : list (action fcall); fr_success : list (action fcall); fr_panics : list (action fcall);
  fr_sdist : dist Z F R; fr_fdist : dist Z F R }.
Arguments FReads {F R}. Arguments fr_parents {F R}. Arguments fr_errors {F R}. Arguments fr_current {F R}. Arguments fr_highwater {F R}.
Arguments fr_success {F R}. Arguments fr_panics {F R}. Arguments fr_sdist {F R}. Arguments fr_fdist {F R}.

Section page.
  (** Query for the observed quantiles and ReservoirAverage are given (QueryModel, AvgModel). *)
  Context {F R : Type} (query : dist Z F R -> list (bytes * Z)) (ravg : dist Z F R -> Z).
  (** Of a Func: Id(), its series key, and what is read; [fid]: Id() of the parent with this number. *)
  Context (fid : nat -> Z) (func_id : bytes * nat -> Z) (func_key : bytes * nat -> series_key) (reads : bytes * nat -> freads F R).
  (** formatDist, funcs.go 26-36 *)
  Definition page_dist (d : dist Z F R) : rdist := RDist (query d) (idist_FullAverage d) (ravg d) (d_recent d) (d_sum d).
  (** funcs.go 46-74 and 121-166; FullName, func.go 56-58. *)
  Definition page_func (f : bytes * nat) : rfunc :=
    let r := reads f in
    RFunc (func_id f) (func_full_name (fst f) (func_key f)) (map (option_map fid) (fr_parents r)) (fr_errors r)
      (fs_current (shared (f_exec (fr_current r)))) (fs_highwater (shared (f_exec (fr_highwater r))))
      (Z.of_nat (length (fs_success (shared (f_exec (fr_success r)))))) (fs_panics (shared (f_exec (fr_panics r))))
      (page_dist (fr_sdist r)) (page_dist (fr_fdist r)).
  (** funcs.go 38-116, 118-176 *)
  Definition funcs_page_text (faults : nat -> option nat) (w : sink) (range : list (bytes * rscope)) :=
    report_funcs_text faults w (map page_func (page_funcs range)).
  Definition funcs_page_dot (faults : nat -> option nat) (w : sink) (range : list (bytes * rscope)) :=
    report_funcs_dot faults w (map page_func (page_funcs range)).
  (** formatDuration, json.go 126-136; formatFunc, json.go 138-172; FuncsJSON, funcs.go 184-190. *)
  Definition page_jdist (d : dist Z F R) : jdist := JDist (idist_FullAverage d) (ravg d) (d_high d) (d_low d) (d_recent d) (query d).
  Definition page_jfunc (f : bytes * nat) : jfunc :=
    let r := reads f in
    JFunc (func_id f) (map (option_map fid) (fr_parents r)) (fst f) (func_short_name (func_key f))
      (fs_current (shared (f_exec (fr_current r)))) (fs_highwater (shared (f_exec (fr_highwater r))))
      (Z.of_nat (length (fs_success (shared (f_exec (fr_success r)))))) (fs_panics (shared (f_exec (fr_panics r)))) (fr_errors r)
      (page_jdist (fr_sdist r)) (page_jdist (fr_fdist r)).
  Definition funcs_page_json (short_bf : bool) (faults : nat -> option nat) (w : sink) (range : list (bytes * rscope)) :=
    json_list short_bf faults w (map (fun f => format_func (page_jfunc f)) (page_funcs range)).
  (** http.go 34-42 for these pages over a connection that does not fail, as ps_get of PsModel. *)
  Definition funcs_get (short_bf : bool) (a : answer) (range : list (bytes * rscope)) : option (bytes * (Z * bytes)) :=
    let fine := fun _ : nat => @None nat in
    let serve ct (r : sink * option werr) := Some (ct, serve_report fine [sk_out (fst r)] (snd r)) in
    match a with
    | APage PFuncsText ct => serve ct (funcs_page_text fine (Sink [] 0) range)
    | APage PFuncsDot ct => serve ct (funcs_page_dot fine (Sink [] 0) range)
    | APage PFuncsJSON ct => serve ct (funcs_page_json short_bf fine (Sink [] 0) range)
    | _ => None
    end.
End page.
