(** The text and DOT reports with their numbers: spans.go 25-128, funcs.go 25-182.  PresentModel
    has them with durations, counters and times as given text; here these are filled in. *)
From Verif Require Import Base PresentModel SvgModel.
Local Open Scope Z_scope.

(** ** spans.go 25-110: what outputDotSpan and outputTextSpan ask a span for; [args]: what Args()
    returns, [dur]: Duration() in nanoseconds. *)
Inductive rspan := RSpan (id tid : Z) (fname : bytes) (args : list bytes) (dur : Z) (orph : bool)
  (annots : list (bytes * bytes)) (kids : list rspan).
Fixpoint span_view (r : rspan) : sview :=
  match r with
  | RSpan id tid fname args dur orph annots kids => SView id tid fname args (duration_text dur) orph annots (map span_view kids)
  end.

(** ** funcs.go 26-36: formatDist.  [rd_query]: for each of ObservedQuantiles its %.02f and what
    Query gives, in order; durations in nanoseconds. *)
Record rdist := RDist { rd_query : list (bytes * Z); rd_average : Z; rd_reservoir : Z; rd_recent : Z; rd_sum : Z }.
Definition dist_line (indent : bytes) (e : bytes * Z) : bytes := indent ++ fst e ++ B ": " ++ duration_text (snd e) ++ [newline].
Definition format_dist (d : rdist) (indent : bytes) : bytes :=
  concat (map (dist_line indent) (rd_query d)) ++ dist_line indent (B "avg", rd_average d) ++ dist_line indent (B "ravg", rd_reservoir d) ++
  dist_line indent (B "recent", rd_recent d) ++ dist_line indent (B "sum", rd_sum d).

(** ** funcs.go 40-180: what FuncsDot and FuncsText ask a Func for. *)
Record rfunc := RFunc {
  rf_id : Z; rf_name : bytes; rf_parents : list (option Z); rf_errors : list (bytes * Z);
  rf_current : Z; rf_highwater : Z; rf_success : Z; rf_panics : Z; rf_stimes : rdist; rf_ftimes : rdist }.
(** total_errors: an int64. *)
Definition total_errors (f : rfunc) : Z := fold_left (fun n e => wrap64 (n + snd e)) (rf_errors f) 0.
Definition counts_text (f : rfunc) : bytes :=
  B "current: " ++ dec (rf_current f) ++ B ", highwater: " ++ dec (rf_highwater f) ++ B ", success: " ++ dec (rf_success f) ++
  B ", errors: " ++ dec (total_errors f) ++ B ", panics: " ++ dec (rf_panics f).
Definition func_view (f : rfunc) : fview :=
  FView (rf_id f) (rf_name f) (rf_parents f) (rf_errors f) (counts_text f)
    (if 0 <? rf_success f then Some (format_dist (rf_stimes f) (B "        ")) else None)
    (if 0 <? wrap64 (total_errors f + rf_panics f) then Some (format_dist (rf_ftimes f) (B "        ")) else None)
    (B "  success times:" ++ [newline] ++ format_dist (rf_stimes f) (B "    ") ++ B "  failure times:" ++ [newline] ++ format_dist (rf_ftimes f) (B "    ") ++ [newline]).

(** The reports themselves, on what they find. *)
Definition report_spans_dot (faults : nat -> option nat) (s : sink) (roots : list rspan) := spans_dot faults s (map span_view roots).
Definition report_spans_text (faults : nat -> option nat) (s : sink) (roots : list rspan) := spans_text faults s (map span_view roots).
Definition report_funcs_dot (faults : nat -> option nat) (s : sink) (fs : list rfunc) := funcs_dot faults s (map func_view fs).
Definition report_funcs_text (faults : nat -> option nat) (s : sink) (fs : list rfunc) := funcs_text faults s (map func_view fs).
