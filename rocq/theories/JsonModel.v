(** The JSON documents of package present: encoding/json.Marshal for the values used there,
    json.go 27-172, spans.go 128-136, funcs.go 182-190, stats.go 39-47, trace.go 419-426. *)
From Verif Require Import Base PresentModel SvgModel ArgsModel.
Local Open Scope Z_scope.

(** ** encoding/json *)
Section marshal.
  (** [short_bf]: whether U+0008 and U+000C are written \b and \f (Go 1.22 and later). *)
  Context (short_bf : bool).
  (** encodeState.string / appendString with escapeHTML, one rune. *)
  Definition json_rune (r : Z) (raw : bytes) : bytes :=
    if (r =? 34) || (r =? 92) then [backslash] ++ raw
    else if (r =? 8) && short_bf then B "\b" else if (r =? 12) && short_bf then B "\f"
    else if r =? 10 then B "\n" else if r =? 13 then B "\r" else if r =? 9 then B "\t"
    else if (r <? 32) || (r =? 60) || (r =? 62) || (r =? 38) then B "\u00" ++ hexn 2 r
    else if (r =? 8232) || (r =? 8233) then B "\u202" ++ hexn 1 r
    else raw.
  Fixpoint json_string_go (fuel : nat) (s : bytes) : bytes :=
    match fuel, s with
    | S fuel', _ :: _ =>
        let (r, width) := decode_rune s in
        (if (width =? 1)%nat && (r =? rune_error) then B "\ufffd" else json_rune r (take width s)) ++ json_string_go fuel' (drop width s)
    | _, _ => []
    end.
  Definition json_string (s : bytes) : bytes := [quote] ++ json_string_go (length s) s ++ [quote].
  (** The values marshalled.  [GFloat]: the text of a finite float64 (strconv), None for NaN and
      the infinities; [GStruct]: fields by JSON name, in order, those left out by omitempty
      absent; [GMap]: a map with string keys in any order of iteration; [GNil]: a nil slice or
      map. *)
  Inductive gov :=
  | GNil | GBool (b : bool) | GInt (v : Z) | GFloat (text : option bytes) | GString (s : bytes)
  | GSlice (l : list gov) | GStruct (l : list (bytes * gov)) | GMap (l : list (bytes * gov)).
  Definition json_field (f : bytes * bytes) : bytes := json_string (fst f) ++ B ":" ++ snd f.
  Definition json_object (l : list (bytes * bytes)) : bytes := B "{" ++ join (B ",") (map json_field l) ++ B "}".
  Definition key_less {A} (x y : bytes * A) : bool := bytes_ltb (fst x) (fst y).
  (** mapEncoder sorts the keys. *)
  Fixpoint json_enc (v : gov) : bytes :=
    match v with
    | GNil => B "null"
    | GBool b => if b then B "true" else B "false"
    | GInt v => dec v
    | GFloat t => default [] t
    | GString s => json_string s
    | GSlice l => B "[" ++ join (B ",") (map json_enc l) ++ B "]"
    | GStruct l => json_object (map (fun f => (fst f, json_enc (snd f))) l)
    | GMap l => json_object (isort key_less (map (fun f => (fst f, json_enc (snd f))) l))
    end.
  (** Marshal fails with UnsupportedValueError for NaN and the infinities. *)
  Fixpoint supported (v : gov) : bool :=
    match v with
    | GFloat None => false
    | GSlice l => forallb supported l
    | GStruct l | GMap l => forallb (fun f => supported (snd f)) l
    | _ => true
    end.
  Definition marshal (v : gov) : option bytes := if supported v then Some (json_enc v) else None.
End marshal.

(** ** json.go 27-107 *)
Section documents.
  Context (table : Z -> bool) (short_del : bool) (other : list arg -> bytes).
  (** What formatSpan and formatFinishedSpan ask a span for. *)
  Record jspan := JSpan {
    js_id : Z; js_parent : option Z; js_package : bytes; js_name : bytes; js_trace : Z;
    js_start : Z; js_orphaned : bool; js_args : list arg; js_annotations : list (bytes * bytes) }.
  Definition span_common (s : jspan) : list (bytes * gov) :=
    [(B "id", GInt (js_id s))] ++ match js_parent s with Some p => [(B "parent_id", GInt p)] | None => [] end ++
    [(B "func", GStruct [(B "package", GString (js_package s)); (B "name", GString (js_name s))]);
     (B "trace", GStruct [(B "id", GInt (js_trace s))]); (B "start", GInt (js_start s))].
  (** %#v of the strings of Args quotes them once more. *)
  Definition args_value (s : jspan) : gov := GSlice (map (fun t => GString (go_quote table short_del t)) (span_args table short_del other (js_args s))).
  Definition annotations_value (s : jspan) : gov := GSlice (map (fun a => GSlice [GString (fst a); GString (snd a)]) (js_annotations s)).
  (** json.go 27-65; [elapsed]: time.Since(s.Start()).Nanoseconds(). *)
  Definition format_span (s : jspan) (elapsed : Z) : gov :=
    GStruct (span_common s ++ [(B "elapsed", GInt elapsed); (B "orphaned", GBool (js_orphaned s)); (B "args", args_value s); (B "annotations", annotations_value s)]).
  (** json.go 67-111; [err]: what Error() of a non-nil error returns. *)
  Definition format_finished (s : jspan) (finish : Z) (err : option bytes) (panicked : bool) : gov :=
    GStruct (span_common s ++ [(B "finish", GInt finish); (B "orphaned", GBool (js_orphaned s)); (B "err", GString (default [] err)); (B "panicked", GBool panicked);
                               (B "args", args_value s); (B "annotations", annotations_value s)]).
End documents.

(** ** json.go 113-172 *)
(** [jd_query]: for each of ObservedQuantiles its %.02f and what Query gives, in order. *)
Record jdist := JDist { jd_average : Z; jd_reservoir : Z; jd_high : Z; jd_low : Z; jd_recent : Z; jd_query : list (bytes * Z) }.
(** Assigning to a map, as the list of its entries. *)
Fixpoint assign {A} (k : bytes) (v : A) (m : list (bytes * A)) : list (bytes * A) :=
  match m with
  | [] => [(k, v)]
  | e :: m' => if beqb (fst e) k then (k, v) :: m' else e :: assign k v m'
  end.
Definition quantiles (q : list (bytes * Z)) : list (bytes * Z) := fold_left (fun m e => assign (fst e) (snd e) m) q [].
Definition int_map (m : list (bytes * Z)) : gov := GMap (map (fun e => (fst e, GInt (snd e))) m).
Definition format_duration (d : jdist) : gov :=
  GStruct [(B "average", GInt (jd_average d)); (B "reservoir_average", GInt (jd_reservoir d)); (B "full_average", GInt (jd_average d));
           (B "max", GInt (jd_high d)); (B "min", GInt (jd_low d)); (B "recent", GInt (jd_recent d)); (B "quantiles", int_map (quantiles (jd_query d)))].
(** [jf_parents]: as f.Parents gives them, None for nil. *)
Record jfunc := JFunc {
  jf_id : Z; jf_parents : list (option Z); jf_package : bytes; jf_name : bytes; jf_current : Z; jf_highwater : Z;
  jf_success : Z; jf_panics : Z; jf_errors : list (bytes * Z); jf_stimes : jdist; jf_ftimes : jdist }.
(** json.go 149-155: the callback given to Parents. *)
Definition add_parent (st : bool * option (list Z)) (p : option Z) : bool * option (list Z) :=
  match p with None => (true, snd st) | Some id => (fst st, Some (default [] (snd st) ++ [id])) end.
Definition format_func (f : jfunc) : gov :=
  let (entry, ids) := fold_left add_parent (jf_parents f) (false, None) in
  GStruct [(B "id", GInt (jf_id f)); (B "parent_ids", match ids with Some l => GSlice (map GInt l) | None => GNil end);
           (B "package", GString (jf_package f)); (B "name", GString (jf_name f)); (B "current", GInt (jf_current f)); (B "highwater", GInt (jf_highwater f));
           (B "success", GInt (jf_success f)); (B "panics", GInt (jf_panics f)); (B "entry", GBool entry); (B "errors", int_map (jf_errors f));
           (B "success_times", format_duration (jf_stimes f)); (B "failure_times", format_duration (jf_ftimes f))].
(** stats.go 41-47: an element of StatsJSON; [tags]: None for a nil map. *)
Definition stats_elem (measurement : bytes) (tags : option (list (bytes * bytes))) (field : bytes) (val : option bytes) : gov :=
  GSlice [GString measurement; match tags with Some l => GMap (map (fun e => (fst e, GString (snd e))) l) | None => GNil end; GString field; GFloat val].

(** SpansJSON, FuncsJSON, StatsJSON and SpansToJSON: a list writer given each value. *)
Definition json_list (short_bf : bool) (faults : nat -> option nat) (s : sink) (values : list gov) : sink * option werr :=
  write_list faults s (map (marshal short_bf) values).
