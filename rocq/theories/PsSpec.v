(** Vocabulary for C96: what a page of running spans has to show. *)
From Coq Require Import Sorted.
From Verif Require Import Base Conc PresentModel SvgModel ArgsModel JsonModel JsonSpec ReportModel ReportSpec SpanModel SpanSpec PsModel.
Local Open Scope Z_scope.

Section shown.
  Context (table : Z -> bool) (short_del : bool) (other : list arg -> bytes) (about : nat -> sinfo) (sched : list (action scall)).
  Definition parent_finished (i : nat) : Prop := exists p, parent_is sched i p /\ finished sched p.
  (** scope.name(arg, ...) *)
  Definition call_of (x : sinfo) : bytes :=
    (si_scope x ++ B "." ++ si_name x) ++ B "(" ++ join (B ", ") (span_args table short_del other (si_args x)) ++ B ")".
  (** A line of the text page about span [i] at depth [d]. *)
  Definition line_of (d i : nat) (l : tspan) : Prop :=
    let x := about i in
    ts_depth l = d /\ ts_id l = si_id x /\ ts_tid l = si_trace x /\ ts_call l = call_of x /\ ts_dur l = si_dur x /\
    (ts_orph l = true <-> parent_finished i) /\ ts_annots l = map (fun a => colon (fst a) (snd a)) (si_annots x).
  (** Those with [P], each once, by full name and then by id. *)
  Definition earlier (i j : nat) : Prop :=
    let n k := si_scope (about k) ++ B "." ++ si_name (about k) in
    bytes_lt (n i) (n j) \/ n i = n j /\ si_id (about i) <= si_id (about j).
  Definition all_with (P : nat -> Prop) (l : list nat) : Prop := NoDup l /\ (forall i, i ∈ l <-> P i) /\ StronglySorted earlier l.
  (** A span's line, then those of its running children, one deeper. *)
  Inductive block (d i : nat) : list tspan -> Prop :=
  | block_of l kids blocks : line_of d i l -> all_with (fun k => running sched k /\ parent_is sched k i) kids ->
      Forall2 (block (S d)) kids blocks -> block d i (l :: concat blocks).
  (** Traces start with the running spans that have no parent or whose parent is gone. *)
  Definition text_page (ls : list tspan) : Prop :=
    exists roots blocks, all_with (fun i => running sched i /\ (no_parent sched i \/ parent_finished i)) roots /\
      Forall2 (block 0) roots blocks /\ ls = concat blocks.
  (** Exactly the running spans, each once. *)
  Definition the_running (ids : list nat) : Prop := NoDup ids /\ forall i, i ∈ ids <-> running sched i.
  (** The label of a node. *)
  Definition label_of (i : nat) (text : bytes) : Prop :=
    exists orph : bool, (orph = true <-> parent_finished i) /\
      text = unlines ([call_of (about i); colon (B "elapsed") (duration_text (si_dur (about i)))] ++
                      (if orph then [B "orphaned"] else []) ++ map (fun a => colon (fst a) (snd a)) (si_annots (about i))).
  (** A node of the graph, with the text shown in it. *)
  Definition node_of (i : nat) (n : bytes * list (bytes * bytes)) : Prop :=
    exists text, label_of i text /\ shows_text (f_name (si_id (about i)), text) n.
  (** A JSON object about a span; [parent_id] is there for spans with a parent, remote or local. *)
  Definition object_of (i : nat) (j : json) : Prop :=
    let x := about i in
    exists s, span_object table short_del other (s, si_dur x) j /\
      js_id s = si_id x /\ js_package s = si_scope x /\ js_name s = si_name x /\ js_trace s = si_trace x /\ js_start s = si_start x /\
      js_args s = si_args x /\ js_annotations s = si_annots x /\ (js_orphaned s = true <-> parent_finished i) /\
      forall v, js_parent s = Some v <-> si_remote x = Some v \/ si_remote x = None /\ exists p, parent_is sched i p /\ v = si_id (about p).
  (** 64-bit numbers; ids from NewId (C15). *)
  Definition sound (x : sinfo) : Prop :=
    an_id (si_id x) /\ int64 (si_trace x) /\ int64 (si_start x) /\ int64 (si_dur x) /\ (forall p, si_remote x = Some p -> int64 p).
  (** No line ends in names, arguments and annotations. *)
  Definition unbroken (x : sinfo) : Prop :=
    one_line (si_scope x) /\ one_line (si_name x) /\ Forall one_line (span_args table short_del other (si_args x)) /\
    Forall (fun a => one_line (fst a) /\ one_line (snd a)) (si_annots x).
End shown.
