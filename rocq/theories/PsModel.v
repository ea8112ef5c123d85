(** The pages /ps, /ps/text, /ps/dot and /ps/json: the reports of present/spans.go on the spans of
    SpanModel, as http.go 34-42 and path.go 84-133 serve them.  The trees that ReportModel and
    JsonModel take as given are read off the registry here. *)
From Verif Require Import Base BaseProofs Conc PresentModel ArgsModel JsonModel ReportModel RouteModel FuncStatsModel SpanModel.
Local Open Scope Z_scope.

(** What a span is created with and has gathered, ctx.go 28-45; [si_remote]: the parent id given
    to RemoteTrace; [si_start]: Start().UnixNano(); [si_dur]: Duration() when the report asks. *)
Record sinfo := SInfo {
  si_id : Z; si_trace : Z; si_scope : bytes; si_name : bytes; si_args : list arg; si_remote : option Z;
  si_start : Z; si_dur : Z; si_annots : list (bytes * bytes) }.
(** FullName, func.go 56-58. *)
Definition si_full (x : sinfo) : bytes := si_scope x ++ B "." ++ si_name x.

Section page.
  Context (table : Z -> bool) (short_del : bool) (other : list arg -> bytes).
  (** The spans by number, the order of ranging over maps, and the spans' state. *)
  Context (about : nat -> sinfo) (mord : list nat -> list nat) (c : config spans sthread).
  (** What spanSorter compares, span.go 197-208. *)
  Definition ps_info (i : nat) : bytes * Z := (si_full (about i), si_id (about i)).
  (** Orphaned, span.go 186-191. *)
  Definition ps_orphaned (i : nat) : bool := bool_decide (i ∈ sp_orphaned (shared c)).
  (** spans.go 26-53 and 79-108: a span and, through Children, what is below it. *)
  Fixpoint ps_tree (fuel : nat) (i : nat) : rspan :=
    let x := about i in
    RSpan (si_id x) (si_trace x) (si_full x) (span_args table short_del other (si_args x)) (si_dur x) (ps_orphaned i) (si_annots x)
      match fuel with
      | O => []
      | S fuel' => map (ps_tree fuel') (bag_children ps_info mord (children_of (shared c) i))
      end.
  Definition ps_roots (fuel : nat) : list rspan := map (ps_tree fuel) (root_spans ps_info mord (shared c)).
  (** spans.go 55-77, 110-125. *)
  Definition ps_dot (faults : nat -> option nat) (w : sink) (fuel : nat) := report_spans_dot faults w (ps_roots fuel).
  Definition ps_text (faults : nat -> option nat) (w : sink) (fuel : nat) := report_spans_text faults w (ps_roots fuel).
  (** ParentId, span.go 156-163. *)
  Definition ps_parent (i : nat) : option Z :=
    match si_remote (about i) with
    | Some p => Some p
    | None => match threads c !! i with
              | Some t => match sc_parent (st_call t) with Some p => Some (si_id (about p)) | None => None end
              | None => None
              end
    end.
  Definition ps_jspan (i : nat) : jspan :=
    let x := about i in
    JSpan (si_id x) (ps_parent i) (si_scope x) (si_name x) (si_trace x) (si_start x) (ps_orphaned i) (si_args x) (si_annots x).
  (** spans.go 127-136. *)
  Definition ps_json (short_bf : bool) (faults : nat -> option nat) (w : sink) (fuel : nat) : sink * option werr :=
    json_list short_bf faults w
      (map (fun i => format_span table short_del other (ps_jspan i) (si_dur (about i))) (all_spans ps_info mord (shared c) fuel)).

  (** http.go 34-42 for these pages, over a connection that does not fail: content type, status and
      body.  A report writes to the bufio.Writer of path.go 94, which then does not fail either; that
      its many writes and one of all their text come to the same is C62_buffered. *)
  Definition ps_get (short_bf : bool) (a : answer) (fuel : nat) : option (bytes * (Z * bytes)) :=
    let fine := fun _ : nat => @None nat in
    let serve ct (r : sink * option werr) := Some (ct, serve_report fine [sk_out (fst r)] (snd r)) in
    match a with
    | APage PSpansText ct => serve ct (ps_text fine (Sink [] 0) fuel)
    | APage PSpansDot ct => serve ct (ps_dot fine (Sink [] 0) fuel)
    | APage PSpansJSON ct => serve ct (ps_json short_bf fine (Sink [] 0) fuel)
    | _ => None
    end.
End page.
