(** Package present: DOT labels (dot.go), JSON lists (json.go), the text, DOT
    and JSON reports (stats.go, spans.go, funcs.go) on writers that may fail,
    and buffering (path.go 87-102). *)
From Verif Require Import Base Strings Fval.
Open Scope Z_scope.

(** ** Decimal numbers: fmt's "%d" of an int64. *)
Definition dec_digit (d : Z) : ascii := List.nth (Z.to_nat d) (B "0123456789") "0"%char.
Fixpoint dec_go (fuel : nat) (u : Z) (acc : bytes) : bytes :=
  match fuel with
  | O => acc
  | S fuel' =>
      if u <? 10 then dec_digit u :: acc
      else dec_go fuel' (u / 10) (dec_digit (u mod 10) :: acc)
  end.
Definition dec (v : Z) : bytes :=
  if v <? 0 then "-"%char :: dec_go 20 (- v) [] else dec_go 20 v [].

(** ** dot.go 21-35: escapeDotLabel, on the already formatted string. *)
Definition byte (c : ascii) : Z := Z.of_N (N_of_ascii c).
Definition newline : ascii := ascii_of_nat 10.
Definition quote : ascii := ascii_of_nat 34.
Definition backslash : ascii := ascii_of_nat 92.
Definition dot_plain (c : ascii) : bool :=
  let b := byte c in
  ((65 <=? b) && (b <=? 90)) || ((97 <=? b) && (b <=? 122)) || ((48 <=? b) && (b <=? 57)) || (128 <=? b) || (b =? 32).
Definition dot_byte (c : ascii) : bytes :=
  if dot_plain c then [c]
  else if Ascii.eqb c newline then [backslash; "l"%char]
  else B "&#" ++ dec (byte c) ++ B ";".
Definition escape_dot (s : bytes) : bytes := flat_map dot_byte s.

(** ** Writers that may fail

    A writer has a state; each Write either takes all bytes or fails after some
    of them. [faults k] says what happens to the k-th Write call: [Some n] means
    it fails, having taken at most [n] bytes. One fmt.Fprint or Fprintf is one
    Write. *)
Record sink := Sink { sk_out : bytes; sk_calls : nat }.
Inductive werr := EWrite (call : nat) | EMarshal (elem : nat).
Section writer.
  Context (faults : nat -> option nat).
  Definition fprint (s : sink) (data : bytes) : sink * option werr :=
    match faults (sk_calls s) with
    | None => (Sink (sk_out s ++ data) (S (sk_calls s)), None)
    | Some n => (Sink (sk_out s ++ take n data) (S (sk_calls s)), Some (EWrite (sk_calls s)))
    end.

  (** ** json.go 174-207: listWriter. An element is what json.Marshal gave for
      it, [None] if it failed; [lw_index] only numbers the elements. *)
  Record list_writer := LW { lw_sink : sink; lw_err : option werr; lw_sep : bytes; lw_index : nat }.
  Definition lw_new (s : sink) : list_writer :=
    let '(s', e) := fprint s (B "[") in LW s' e [newline] 0.
  Definition lw_elem (l : list_writer) (e : option bytes) : list_writer :=
    match lw_err l with
    | Some _ => LW (lw_sink l) (lw_err l) (lw_sep l) (S (lw_index l))
    | None =>
        match e with
        | None => LW (lw_sink l) (Some (EMarshal (lw_index l))) (lw_sep l) (S (lw_index l))
        | Some data =>
            let '(s', err) := fprint (lw_sink l) (lw_sep l ++ B " " ++ data) in
            LW s' err (B "," ++ [newline]) (S (lw_index l))
        end
    end.
  Definition lw_done (l : list_writer) : sink * option werr :=
    match lw_err l with
    | Some e => (lw_sink l, Some e)
    | None => fprint (lw_sink l) (B "]" ++ [newline])
    end.
  (** StatsJSON, SpansJSON, FuncsJSON, SpansToJSON: one element per item. *)
  Definition write_list (s : sink) (elems : list (option bytes)) : sink * option werr :=
    lw_done (fold_left lw_elem elems (lw_new s)).

  (** ** stats.go 29-37: StatsText; one line per stat. *)
  Definition stats_text (s : sink) (lines : list bytes) : sink * option werr :=
    fold_left (fun st line => match snd st with Some _ => st | None => fprint (fst st) line end) lines (s, None).

  (** ** spans.go: what a report reads from a span: id, trace id, the Func's full
      name, Args(), the formatted Duration(), Orphaned(), Annotations() and
      Children() (the tree is read as the report proceeds; here it is given). *)
  Inductive sview := SView (id tid : Z) (fname : bytes) (args : list bytes) (dur : bytes) (orph : bool)
    (annots : list (bytes * bytes)) (kids : list sview).
  Definition v_id (v : sview) : Z := match v with SView id _ _ _ _ _ _ _ => id end.

  (** Writing a list of pieces with "if err != nil { return err }" after each. *)
  Fixpoint write_all (s : sink) (ps : list bytes) : sink * option werr :=
    match ps with
    | [] => (s, None)
    | p :: ps' => match fprint s p with (s', Some e) => (s', Some e) | (s', None) => write_all s' ps' end
    end.

  Definition dot_head (id : Z) (fname : bytes) (args : list bytes) (dur : bytes) (orph : bool) : bytes :=
    B " f" ++ dec id ++ B " [label=" ++ [quote] ++
    escape_dot (fname ++ B "(" ++ join (B ", ") args ++ B ")" ++ [newline] ++ B "elapsed: " ++ dur ++ [newline] ++
                (if orph then B "orphaned" ++ [newline] else [])).
  Definition dot_annot (a : bytes * bytes) : bytes := escape_dot (fst a ++ B ": " ++ snd a ++ [newline]).
  Definition dot_close : bytes := [quote] ++ B "];" ++ [newline].
  Definition dot_edge (a b : Z) : bytes := B " f" ++ dec a ++ B " -> f" ++ dec b ++ B ";" ++ [newline].

  (** spans.go 25-63: outputDotSpan. *)
  Fixpoint out_dot (s : sink) (v : sview) : sink * option werr :=
    match v with
    | SView id _ fname args dur orph annots kids =>
        match fprint s (dot_head id fname args dur orph) with
        | (s1, Some e) => (s1, Some e)
        | (s1, None) =>
            match write_all s1 (map dot_annot annots) with
            | (s2, Some e) => (s2, Some e)
            | (s2, None) =>
                match fprint s2 dot_close with
                | (s3, Some e) => (s3, Some e)
                | (s3, None) =>
                    (fix go (ks : list sview) (st : sink * option werr) : sink * option werr :=
                       match ks with
                       | [] => st
                       | k :: ks' =>
                           go ks' (match snd st with
                                   | Some _ => st
                                   | None =>
                                       match out_dot (fst st) k with
                                       | (s', Some e) => (s', Some e)
                                       | (s', None) => fprint s' (dot_edge id (v_id k))
                                       end
                                   end)
                       end) kids (s3, None)
                end
            end
        end
    end.
  (** spans.go 67-83: SpansDot. *)
  Definition dot_open : bytes := B "digraph G {" ++ [newline] ++ B " node [shape=box];" ++ [newline].
  Definition spans_dot (s : sink) (roots : list sview) : sink * option werr :=
    match fprint s dot_open with
    | (s1, Some e) => (s1, Some e)
    | (s1, None) =>
        match fold_left (fun st v => match snd st with Some _ => st | None => out_dot (fst st) v end) roots (s1, None) with
        | (s2, Some e) => (s2, Some e)
        | (s2, None) => fprint s2 (B "}" ++ [newline])
        end
    end.

  (** spans.go 85-110: outputTextSpan. *)
  Definition text_head (indent : bytes) (id tid : Z) (fname : bytes) (args : list bytes) (dur : bytes) (orph : bool) : bytes :=
    indent ++ B "[" ++ dec id ++ B "," ++ dec tid ++ B "] " ++ fname ++ B "(" ++ join (B ", ") args ++ B ") (elapsed: " ++
    dur ++ (if orph then B ", orphaned" else []) ++ B ")" ++ [newline].
  Definition text_annot (indent : bytes) (a : bytes * bytes) : bytes := indent ++ B "  " ++ fst a ++ B ": " ++ snd a ++ [newline].
  Fixpoint out_text (indent : bytes) (s : sink) (v : sview) : sink * option werr :=
    match v with
    | SView id tid fname args dur orph annots kids =>
        match fprint s (text_head indent id tid fname args dur orph) with
        | (s1, Some e) => (s1, Some e)
        | (s1, None) =>
            match write_all s1 (map (text_annot indent) annots) with
            | (s2, Some e) => (s2, Some e)
            | (s2, None) =>
                (fix go (ks : list sview) (st : sink * option werr) : sink * option werr :=
                   match ks with
                   | [] => st
                   | k :: ks' => go ks' (match snd st with Some _ => st | None => out_text (indent ++ B " ") (fst st) k end)
                   end) kids (s2, None)
            end
        end
    end.
  (** spans.go 114-126: SpansText. *)
  Definition spans_text (s : sink) (roots : list sview) : sink * option werr :=
    fold_left (fun st v => match snd st with
                           | Some _ => st
                           | None => match out_text [] (fst st) v with
                                     | (s', Some e) => (s', Some e)
                                     | (s', None) => fprint s' [newline]
                                     end
                           end) roots (s, None).

  (** ** funcs.go: what a report reads from a Func. The counters and the blocks
      of formatted durations are given as text. *)
  Record fview := FView {
    fv_id : Z; fv_name : bytes;
    fv_parents : list (option Z);         (* None: entry point *)
    fv_errors : list (bytes * Z);         (* Errors() in iteration order *)
    fv_counts : bytes;                    (* current .. panics *)
    fv_success : option bytes;            (* success times, if success > 0 *)
    fv_failure : option bytes;            (* failure times, if errors+panics > 0 *)
    fv_times : bytes                      (* both, as FuncsText prints them *)
  }.
  (** The callbacks of Parents in FuncsDot (funcs.go 95-110) check err first. *)
  Definition dot_parent (id : Z) (p : option Z) : bytes :=
    match p with
    | Some q => dot_edge q id
    | None => B " r" ++ dec id ++ B " [label=" ++ [quote] ++ B "entry" ++ [quote] ++ B "];" ++ [newline] ++
              B " r" ++ dec id ++ B " -> f" ++ dec id ++ B ";" ++ [newline]
    end.
  (** funcs.go 43-113: the callback of FuncsDot for one Func. err_out is an
      in-memory buffer; WriteTo of an empty buffer writes nothing. *)
  Definition err_dot (e : bytes * Z) : bytes := escape_dot (B "error " ++ fst e ++ B ": " ++ dec (snd e) ++ [newline]).
  Definition buf_to (s : sink) (data : bytes) : sink * option werr :=
    match data with [] => (s, None) | _ => fprint s data end.
  Definition out_func_dot (s : sink) (f : fview) : sink * option werr :=
    match fprint s (B " f" ++ dec (fv_id f) ++ B " [label=" ++ [quote] ++
                    escape_dot (fv_name f ++ [newline] ++ fv_counts f ++ [newline])) with
    | (s1, Some e) => (s1, Some e)
    | (s1, None) =>
        match buf_to s1 (concat (map err_dot (fv_errors f))) with
        | (s2, Some e) => (s2, Some e)
        | (s2, None) =>
            match (match fv_success f with Some t => fprint s2 (escape_dot (B "success times:" ++ [newline] ++ t)) | None => (s2, None) end) with
            | (s3, Some e) => (s3, Some e)
            | (s3, None) =>
                match (match fv_failure f with Some t => fprint s3 (escape_dot (B "failure times:" ++ [newline] ++ t)) | None => (s3, None) end) with
                | (s4, Some e) => (s4, Some e)
                | (s4, None) =>
                    match fprint s4 dot_close with
                    | (s5, Some e) => (s5, Some e)
                    | (s5, None) =>
                        fold_left (fun st p => match snd st with Some _ => st | None => fprint (fst st) (dot_parent (fv_id f) p) end)
                                  (fv_parents f) (s5, None)
                    end
                end
            end
        end
    end.
  (** funcs.go 38-118: FuncsDot. *)
  Definition funcs_dot (s : sink) (fs : list fview) : sink * option werr :=
    match fprint s dot_open with
    | (s1, Some e) => (s1, Some e)
    | (s1, None) =>
        match fold_left (fun st f => match snd st with Some _ => st | None => out_func_dot (fst st) f end) fs (s1, None) with
        | (s2, Some e) => (s2, Some e)
        | (s2, None) => fprint s2 (B "}" ++ [newline])
        end
    end.

  (** funcs.go 122-180: the callback of FuncsText for one Func. Unlike FuncsDot,
      nothing checks err between the Parents loop and the following writes: the
      error loop (writing to memory) resets it to nil, and the next Fprintf
      overwrites it. *)
  Definition text_parent (st : (sink * option werr) * bool) (p : option Z) : (sink * option werr) * bool :=
    let '((s, e), printed) := st in
    match e with
    | Some _ => st
    | None =>
        let '(s1, e1) := if printed then fprint s (B ", ") else (s, None) in
        match e1 with
        | Some e => ((s1, Some e), true)
        | None => (fprint s1 (match p with Some q => dec q | None => B "entry" end), true)
        end
    end.
  Definition err_text (e : bytes * Z) : bytes := B "  error " ++ fst e ++ B ": " ++ dec (snd e) ++ [newline].
  Definition out_func_text (s : sink) (f : fview) : sink * option werr :=
    match fprint s (B "[" ++ dec (fv_id f) ++ B "] " ++ fv_name f ++ [newline] ++ B "  parents: ") with
    | (s1, Some e) => (s1, Some e)
    | (s1, None) =>
        let '((s2, _), _) := fold_left text_parent (fv_parents f) ((s1, None), false) in
        match fprint s2 ([newline] ++ B "  " ++ fv_counts f ++ [newline]) with
        | (s3, Some e) => (s3, Some e)
        | (s3, None) =>
            match buf_to s3 (concat (map err_text (fv_errors f))) with
            | (s4, Some e) => (s4, Some e)
            | (s4, None) => fprint s4 (fv_times f)
            end
        end
    end.
  Definition funcs_text (s : sink) (fs : list fview) : sink * option werr :=
    fold_left (fun st f => match snd st with Some _ => st | None => out_func_text (fst st) f end) fs (s, None).

  (** ** path.go 87-102: every result is written through a bufio.Writer of 4096
      bytes and flushed at the end if it succeeded.

      bufio.Writer.Write (bufio/bufio.go): while the data does not fit and no
      error: if the buffer is empty write directly, else fill the buffer and
      flush; errors are sticky. *)
  Record bufio := Buf { bf_sink : sink; bf_data : bytes; bf_err : option werr }.
  Definition bufio_size : nat := 4096.
  Definition bufio_flush (b : bufio) : bufio :=
    match bf_err b with
    | Some _ => b
    | None =>
        match bf_data b with
        | [] => b
        | _ =>
            match faults (sk_calls (bf_sink b)) with
            | None => Buf (Sink (sk_out (bf_sink b) ++ bf_data b) (S (sk_calls (bf_sink b)))) [] None
            | Some n => Buf (Sink (sk_out (bf_sink b) ++ take n (bf_data b)) (S (sk_calls (bf_sink b))))
                            (drop n (bf_data b)) (Some (EWrite (sk_calls (bf_sink b))))
            end
        end
    end.
  Fixpoint bufio_write (fuel : nat) (b : bufio) (p : bytes) : bufio :=
    match fuel with
    | O => b
    | S fuel' =>
        match bf_err b with
        | Some _ => b
        | None =>
            if (bufio_size - length (bf_data b) <? length p)%nat then
              match bf_data b with
              | [] => let '(s, e) := fprint (bf_sink b) p in Buf s [] e     (* all of p in one Write *)
              | _ =>
                  let n := (bufio_size - length (bf_data b))%nat in
                  bufio_write fuel' (bufio_flush (Buf (bf_sink b) (bf_data b ++ take n p) None)) (drop n p)
              end
            else Buf (bf_sink b) (bf_data b ++ p) None
        end
    end.
  (** Three rounds suffice: fill and flush, then write directly or keep. *)
  Definition bufio_fprint (b : bufio) (p : bytes) : bufio := bufio_write 3 b p.
End writer.

(** ** http.go 34-42 with path.go 92-101: a report that writes [chunks] and then
    returns [err] is served with status 200 through a new buffer, flushed only if
    the report returned nil; ServeHTTP drops the error. *)
Definition serve_report (faults : nat -> option nat) (chunks : list bytes) (err : option werr) : Z * bytes :=
  let b := fold_left (bufio_fprint faults) chunks (Buf (Sink [] 0) [] None) in
  let b := match err with Some _ => b | None => bufio_flush faults b end in
  (200, sk_out (bf_sink b)).
