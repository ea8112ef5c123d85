(** Vocabulary for the reports of package present. *)
From Verif Require Import Base Fval PresentModel.
Open Scope Z_scope.

(** [chunks] were written one after the other to a writer in state [s] until
    the first failure, if any: the state it was left in and the error reported. *)
Definition delivered (faults : nat -> option nat) (s : sink) (chunks : list bytes) (r : sink * option werr) : Prop :=
  let '(s', e) := r in
  match e with
  | None =>
      (forall i, (i < length chunks)%nat -> faults (sk_calls s + i)%nat = None) /\
      s' = Sink (sk_out s ++ concat chunks) (sk_calls s + length chunks)
  | Some err =>
      exists i p n, chunks !! i = Some p /\ err = EWrite (sk_calls s + i) /\ faults (sk_calls s + i)%nat = Some n /\
        (forall j, (j < i)%nat -> faults (sk_calls s + j)%nat = None) /\
        s' = Sink (sk_out s ++ concat (take i chunks) ++ take n p) (S (sk_calls s + i))
  end.

(** ** JSON lists *)
(** The text of a list of marshalled elements, up to the closing bracket. *)
Definition json_open (es : list bytes) : bytes :=
  B "[" ++ join (B ",") (map (fun e => [newline] ++ B " " ++ e) es).
Definition json_text (es : list bytes) : bytes := json_open es ++ B "]" ++ [newline].

(** ** Span reports, as the sequence of texts written *)
Fixpoint dot_chunks (v : sview) : list bytes :=
  match v with
  | SView id _ fname args dur orph annots kids =>
      dot_head id fname args dur orph :: map dot_annot annots ++ [dot_close] ++
      flat_map (fun k => dot_chunks k ++ [dot_edge id (v_id k)]) kids
  end.
Definition spans_dot_chunks (roots : list sview) : list bytes :=
  dot_open :: flat_map dot_chunks roots ++ [B "}" ++ [newline]].
Fixpoint text_chunks (indent : bytes) (v : sview) : list bytes :=
  match v with
  | SView id tid fname args dur orph annots kids =>
      text_head indent id tid fname args dur orph :: map (text_annot indent) annots ++
      flat_map (text_chunks (indent ++ B " ")) kids
  end.
Definition spans_text_chunks (roots : list sview) : list bytes :=
  flat_map (fun v => text_chunks [] v ++ [[newline]]) roots.

(** Func reports. *)
Definition opt_chunk (o : option bytes) (f : bytes -> bytes) : list bytes := match o with Some t => [f t] | None => [] end.
Definition nonempty_chunk (b : bytes) : list bytes := match b with [] => [] | _ => [b] end.
Definition func_dot_chunks (f : fview) : list bytes :=
  (B " f" ++ dec (fv_id f) ++ B " [label=" ++ [quote] ++ escape_dot (fv_name f ++ [newline] ++ fv_counts f ++ [newline])) ::
  nonempty_chunk (concat (map err_dot (fv_errors f))) ++
  opt_chunk (fv_success f) (fun t => escape_dot (B "success times:" ++ [newline] ++ t)) ++
  opt_chunk (fv_failure f) (fun t => escape_dot (B "failure times:" ++ [newline] ++ t)) ++
  [dot_close] ++ map (dot_parent (fv_id f)) (fv_parents f).
Definition funcs_dot_chunks (fs : list fview) : list bytes :=
  dot_open :: flat_map func_dot_chunks fs ++ [B "}" ++ [newline]].

(** ** What a DOT reader sees as quoted strings. A backslash only ever precedes
    an 'l' in these strings (C44), so an escaped quote plays no role. *)
Fixpoint dot_strings (inside : option bytes) (s : bytes) : list bytes :=
  match s with
  | [] => []
  | c :: s' =>
      match inside with
      | None => if Ascii.eqb c quote then dot_strings (Some []) s' else dot_strings None s'
      | Some cur => if Ascii.eqb c quote then cur :: dot_strings None s' else dot_strings (Some (cur ++ [c])) s'
      end
  end.
(** The label of a span, and the labels of a tree in the order drawn. *)
Definition span_label (v : sview) : bytes :=
  match v with
  | SView _ _ fname args dur orph annots _ =>
      escape_dot (fname ++ B "(" ++ join (B ", ") args ++ B ")" ++ [newline] ++ B "elapsed: " ++ dur ++ [newline] ++
                  (if orph then B "orphaned" ++ [newline] else [])) ++
      escape_dot (concat (map (fun a => fst a ++ B ": " ++ snd a ++ [newline]) annots))
  end.
Fixpoint span_labels (v : sview) : list bytes :=
  match v with SView _ _ _ _ _ _ _ kids => span_label v :: flat_map span_labels kids end.

(** A buffered report: a sequence of writes through the buffer, then Flush. *)
Definition buffered (faults : nat -> option nat) (s : sink) (chunks : list bytes) : bufio :=
  bufio_flush faults (fold_left (bufio_fprint faults) chunks (Buf s [] None)).

(** FuncsText: the parents are separated by commas. *)
Definition parent_text (p : option Z) : bytes := match p with Some q => dec q | None => B "entry" end.
Definition func_text (f : fview) : bytes :=
  B "[" ++ dec (fv_id f) ++ B "] " ++ fv_name f ++ [newline] ++ B "  parents: " ++
  join (B ", ") (map parent_text (fv_parents f)) ++ [newline] ++ B "  " ++ fv_counts f ++ [newline] ++
  concat (map err_text (fv_errors f)) ++ fv_times f.
