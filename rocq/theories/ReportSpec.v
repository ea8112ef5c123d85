(** Vocabulary for C81-C83: readers of the DOT language and of the text reports. *)
From Verif Require Import Base PresentModel PresentSpec SvgModel SvgSpec ArgsSpec ReportModel.
Local Open Scope Z_scope.

(** ** Spans and functions *)
Definition r_id (r : rspan) : Z := match r with RSpan id _ _ _ _ _ _ _ => id end.
Definition r_kids (r : rspan) : list rspan := match r with RSpan _ _ _ _ _ _ _ kids => kids end.
(** A span and its descendants, parents first; with depths. *)
Fixpoint below (r : rspan) : list rspan := match r with RSpan _ _ _ _ _ _ _ kids => r :: flat_map below kids end.
Fixpoint below_at (d : nat) (r : rspan) : list (nat * rspan) := match r with RSpan _ _ _ _ _ _ _ kids => (d, r) :: flat_map (below_at (S d)) kids end.
Definition colon (k v : bytes) : bytes := k ++ B ": " ++ v.
(** name(args) *)
Definition r_call (r : rspan) : bytes := match r with RSpan _ _ fname args _ _ _ _ => fname ++ B "(" ++ join (B ", ") args ++ B ")" end.
(** The lines of a span's label. *)
Definition label_lines (r : rspan) : list bytes :=
  match r with
  | RSpan _ _ _ _ dur orph annots _ =>
      [r_call r; colon (B "elapsed") (duration_text dur)] ++ (if orph then [B "orphaned"] else []) ++ map (fun a => colon (fst a) (snd a)) annots
  end.
Definition dist_lines (indent : bytes) (d : rdist) : list bytes :=
  map (fun e => indent ++ colon (fst e) (duration_text (snd e)))
    (rd_query d ++ [(B "avg", rd_average d); (B "ravg", rd_reservoir d); (B "recent", rd_recent d); (B "sum", rd_sum d)]).
Definition errors_sum (f : rfunc) : Z := fold_right Z.add 0 (map snd (rf_errors f)).
Definition counts_line (f : rfunc) : bytes :=
  join (B ", ") (map (fun e => colon (fst e) (dec (snd e)))
    [(B "current", rf_current f); (B "highwater", rf_highwater f); (B "success", rf_success f); (B "errors", errors_sum f); (B "panics", rf_panics f)]).
Definition func_label_lines (f : rfunc) : list bytes :=
  [rf_name f; counts_line f] ++ map (fun e => colon (B "error " ++ fst e) (dec (snd e))) (rf_errors f) ++
  (if 0 <? rf_success f then B "success times:" :: dist_lines (B "        ") (rf_stimes f) else []) ++
  (if 0 <? errors_sum f + rf_panics f then B "failure times:" :: dist_lines (B "        ") (rf_ftimes f) else []).
Definition unlines (l : list bytes) : bytes := flat_map (fun x => x ++ [newline]) l.

(** ** The DOT language (graphviz.org/doc/info/lang.html) as far as it is used *)
Inductive dtoken := DId (s : bytes) | DString (s : bytes) | DArrow | DPunct (c : ascii).
Inductive dmode := LOut | LName (cur : bytes) | LQuoted (cur : bytes) | LBack (cur : bytes) | LDash.
Definition id_start (c : ascii) : bool := let n := byte c in ((65 <=? n) && (n <=? 90)) || ((97 <=? n) && (n <=? 122)) || (n =? 95) || (128 <=? n).
Definition id_char (c : ascii) : bool := id_start c || ((48 <=? byte c) && (byte c <=? 57)).
Definition dot_punct (c : ascii) : bool := existsb (Ascii.eqb c) (B "{}[];,=").
(** A character outside of names and strings: the tokens it completes and what comes next. *)
Definition lex_out (c : ascii) : option (list dtoken * dmode) :=
  if xspace c then Some ([], LOut) else if id_start c then Some ([], LName [c]) else if Ascii.eqb c quote then Some ([], LQuoted [])
  else if Ascii.eqb c "-" then Some ([], LDash) else if dot_punct c then Some ([DPunct c], LOut) else None.
(** In a quoted string only a backslash before a quote or a line end means anything. *)
Definition lex_step (m : dmode) (c : ascii) : option (list dtoken * dmode) :=
  match m with
  | LOut => lex_out c
  | LName cur => if id_char c then Some ([], LName (cur ++ [c])) else match lex_out c with Some (ts, m') => Some (DId cur :: ts, m') | None => None end
  | LQuoted cur => if Ascii.eqb c quote then Some ([DString cur], LOut) else if Ascii.eqb c backslash then Some ([], LBack cur) else Some ([], LQuoted (cur ++ [c]))
  | LBack cur => Some ([], LQuoted (if Ascii.eqb c quote then cur ++ [quote] else if Ascii.eqb c newline then cur else cur ++ [backslash; c]))
  | LDash => if Ascii.eqb c ">" then Some ([DArrow], LOut) else None
  end.
Fixpoint lex (m : dmode) (s : bytes) : option (list dtoken) :=
  match s with
  | [] => match m with LOut => Some [] | LName cur => Some [DId cur] | _ => None end
  | c :: s' => match lex_step m c with
               | Some (ts, m') => match lex m' s' with Some ts' => Some (ts ++ ts') | None => None end
               | None => None
               end
  end.
(** Statements: a node with attributes, an edge, defaults for nodes. *)
Inductive dstmt := DNode (name : bytes) (attrs : list (bytes * bytes)) | DEdge (a b : bytes) | DDefault (attrs : list (bytes * bytes)).
Definition lower (c : ascii) : ascii := if (65 <=? byte c) && (byte c <=? 90) then ascii_of_N (N_of_ascii c + 32) else c.
Definition keyword (s : bytes) : bool := existsb (beqb (map lower s)) [B "node"; B "edge"; B "graph"; B "digraph"; B "subgraph"; B "strict"].
(** Attributes up to the closing bracket. *)
Fixpoint read_attrs (ts : list dtoken) : option (list (bytes * bytes) * list dtoken) :=
  match ts with
  | DPunct c :: ts' => if Ascii.eqb c "]" then Some ([], ts') else None
  | DId n :: DPunct e :: v :: ts' =>
      if Ascii.eqb e "=" then
        match v with
        | DId v | DString v =>
            match match ts' with DPunct c :: ts'' => if Ascii.eqb c "," || Ascii.eqb c ";" then read_attrs ts'' else read_attrs ts' | _ => read_attrs ts' end with
            | Some (l, r) => Some ((n, v) :: l, r)
            | None => None
            end
        | _ => None
        end
      else None
  | _ => None
  end.
Definition semicolon (ts : list dtoken) : list dtoken := match ts with DPunct c :: ts' => if Ascii.eqb c ";" then ts' else ts | _ => ts end.
Definition add_stmt (s : dstmt) (r : option (list dstmt * list dtoken)) := match r with Some (l, ts) => Some (s :: l, ts) | None => None end.
Fixpoint read_stmts (fuel : nat) (ts : list dtoken) : option (list dstmt * list dtoken) :=
  match fuel with
  | O => None
  | S fuel' =>
      match ts with
      | DPunct c :: ts' => if Ascii.eqb c "}" then Some ([], ts') else None
      | DId a :: DArrow :: DId b :: ts' => if keyword a || keyword b then None else add_stmt (DEdge a b) (read_stmts fuel' (semicolon ts'))
      | DId a :: DPunct c :: ts' =>
          if Ascii.eqb c "[" then
            match read_attrs ts' with
            | Some (l, r) =>
                if keyword a then (if beqb (map lower a) (B "node") then add_stmt (DDefault l) (read_stmts fuel' (semicolon r)) else None)
                else add_stmt (DNode a l) (read_stmts fuel' (semicolon r))
            | None => None
            end
          else None
      | _ => None
      end
  end.
Definition read_dot (s : bytes) : option (list dstmt) :=
  match lex LOut s with
  | Some (DId d :: DId g :: DPunct c :: ts) =>
      if beqb (map lower d) (B "digraph") && negb (keyword g) && Ascii.eqb c "{" then
        match read_stmts (length ts) ts with Some (l, []) => Some l | _ => None end
      else None
  | _ => None
  end.
Definition dot_nodes (l : list dstmt) : list (bytes * list (bytes * bytes)) := omap (fun s => match s with DNode n a => Some (n, a) | _ => None end) l.
Definition dot_edges (l : list dstmt) : list (bytes * bytes) := omap (fun s => match s with DEdge a b => Some (a, b) | _ => None end) l.
(** What is drawn for a label: \l, \n and \r end a line, &#N; is the character N. *)
Inductive umode := UText | UBack | UAmp | UNum (v : option Z).
Definition add_text (x : bytes) (r : option bytes) : option bytes := match r with Some t => Some (x ++ t) | None => None end.
Fixpoint unlabel (m : umode) (s : bytes) : option bytes :=
  match s with
  | [] => match m with UText => Some [] | _ => None end
  | c :: s' =>
      match m with
      | UText => if Ascii.eqb c backslash then unlabel UBack s' else if Ascii.eqb c "&" then unlabel UAmp s' else add_text [c] (unlabel UText s')
      | UBack => if existsb (Ascii.eqb c) (B "lnr") then add_text [newline] (unlabel UText s') else None
      | UAmp => if Ascii.eqb c "#" then unlabel (UNum None) s' else None
      | UNum v => match digit_value c with
                  | Some d => unlabel (UNum (Some (10 * default 0 v + d))) s'
                  | None => match v with
                            | Some n => if Ascii.eqb c ";" then add_text (utf8 n) (unlabel UText s') else None
                            | None => None
                            end
                  end
      end
  end.
(** A node of this name whose label shows this text, and nothing else said about it. *)
Definition shows_text (e : bytes * bytes) (n : bytes * list (bytes * bytes)) : Prop :=
  exists label, n = (fst e, [(B "label", label)]) /\ unlabel UText label = Some (snd e).
(** The name of a span's or function's node, and that of the entry to a function. *)
Definition f_name (id : Z) : bytes := B "f" ++ dec id.
Definition entry_name (id : Z) : bytes := B "r" ++ dec id.
(** The nodes and edges there should be. *)
Definition span_node (r : rspan) : bytes * bytes := (f_name (r_id r), unlines (label_lines r)).
Definition span_edges (r : rspan) : list (bytes * bytes) := map (fun k => (f_name (r_id r), f_name (r_id k))) (r_kids r).
Definition func_nodes (f : rfunc) : list (bytes * bytes) :=
  (f_name (rf_id f), unlines (func_label_lines f)) :: omap (fun p => match p with None => Some (entry_name (rf_id f), B "entry") | Some _ => None end) (rf_parents f).
Definition func_edges (f : rfunc) : list (bytes * bytes) :=
  map (fun p => (match p with Some q => f_name q | None => entry_name (rf_id f) end, f_name (rf_id f))) (rf_parents f).
(** What NewId gives (C15). *)
Definition an_id (v : Z) : Prop := 0 <= v < 2 ^ 63.
Definition ids_ok (f : rfunc) : Prop := an_id (rf_id f) /\ forall q, Some q ∈ rf_parents f -> an_id q.

(** ** Text reports *)
Fixpoint lines_go (cur : bytes) (s : bytes) : option (list bytes) :=
  match s with
  | [] => match cur with [] => Some [] | _ => None end
  | c :: s' => if Ascii.eqb c newline then match lines_go [] s' with Some l => Some (cur :: l) | None => None end else lines_go (cur ++ [c]) s'
  end.
(** The lines of a text; each has to end. *)
Definition lines (s : bytes) : option (list bytes) := lines_go [] s.
(** Splitting at the last [p]. *)
Fixpoint split_last (p s : bytes) : option (bytes * bytes) :=
  match s with
  | [] => None
  | c :: s' => match split_last p s' with
               | Some (a, b) => Some (c :: a, b)
               | None => match strip p s with Some r => Some ([], r) | None => None end
               end
  end.
(** At the first [c]. *)
Fixpoint split_first (c : ascii) (s : bytes) : option (bytes * bytes) :=
  match s with
  | [] => None
  | x :: s' => if Ascii.eqb x c then Some ([], s') else match split_first c s' with Some (a, b) => Some (x :: a, b) | None => None end
  end.
Definition strip_end (p s : bytes) : option bytes := match strip (rev p) (rev s) with Some r => Some (rev r) | None => None end.
Fixpoint indentation (s : bytes) : nat := match s with c :: s' => if Ascii.eqb c " " then S (indentation s') else 0 | [] => 0 end.
(** What a span's line says: ids, name(args), elapsed time, whether it is orphaned. *)
Record tspan := TSpan { ts_depth : nat; ts_id : Z; ts_tid : Z; ts_call : bytes; ts_dur : Z; ts_orph : bool; ts_annots : list bytes }.
Definition read_head (depth : nat) (s : bytes) : option tspan :=
  match strip (B "[") s with
  | Some s1 =>
      match split_first "," s1 with
      | Some (id, s2) =>
          match split_first "]" s2 with
          | Some (tid, s3) =>
              match strip (B " ") s3, strip_end (B ")") s3 with
              | Some _, Some s4 =>
                  match split_last (B " (elapsed: ") (drop 1 s4) with
                  | Some (call, d) =>
                      let (d, orph) := match strip_end (B ", orphaned") d with Some d => (d, true) | None => (d, false) end in
                      match read_dec id, read_dec tid, read_duration d with
                      | Some id, Some tid, Some d => Some (TSpan depth id tid call d orph [])
                      | _, _, _ => None
                      end
                  | None => None
                  end
              | _, _ => None
              end
          | None => None
          end
      | None => None
      end
  | None => None
  end.
(** Lines indented by two more than the span before are its annotations; an empty line ends a
    tree. *)
Fixpoint read_spans (before : option tspan) (l : list bytes) : option (list tspan) :=
  let out r := match before, r with Some b, Some l => Some (b :: l) | None, Some l => Some l | _, None => None end in
  match l with
  | [] => out (Some [])
  | x :: l' =>
      match x with
      | [] => out (read_spans None l')
      | _ =>
          let n := indentation x in
          match before with
          | Some b =>
              if (ts_depth b + 2 <=? n)%nat
              then read_spans (Some (TSpan (ts_depth b) (ts_id b) (ts_tid b) (ts_call b) (ts_dur b) (ts_orph b) (ts_annots b ++ [drop (ts_depth b + 2) x]))) l'
              else match read_head n (drop n x) with Some h => out (read_spans (Some h) l') | None => None end
          | None => match read_head n (drop n x) with Some h => read_spans (Some h) l' | None => None end
          end
      end
  end.
Definition read_spans_text (s : bytes) : option (list tspan) := match lines s with Some l => read_spans None l | None => None end.
(** What there is to be read for a span at a depth. *)
Definition told (e : nat * rspan) : tspan :=
  match snd e with
  | RSpan id tid _ _ dur orph annots _ => TSpan (fst e) id tid (r_call (snd e)) dur orph (map (fun a => colon (fst a) (snd a)) annots)
  end.
(** The tree of what there is to be read. *)
Inductive ttree := TTree (s : tspan) (kids : list ttree).
Fixpoint told_tree (r : rspan) : ttree := match r with RSpan _ _ _ _ _ _ _ kids => TTree (told (0%nat, r)) (map told_tree kids) end.
(** No line ends in names, arguments and annotations; 64-bit numbers. *)
Definition one_line (s : bytes) : Prop := newline ∉ s.
Definition int64b (v : Z) : Prop := - 2 ^ 63 <= v < 2 ^ 63.
Definition clear_span (r : rspan) : Prop :=
  match r with
  | RSpan id tid fname args dur _ annots _ =>
      int64b id /\ int64b tid /\ int64b dur /\ one_line fname /\ Forall one_line args /\ Forall (fun a => one_line (fst a) /\ one_line (snd a)) annots
  end.

(** FuncsText *)
Definition read_parent (s : bytes) : option (option Z) := if beqb s (B "entry") then Some None else match read_dec s with Some v => Some (Some v) | None => None end.
Fixpoint all_of {A} (l : list (option A)) : option (list A) :=
  match l with [] => Some [] | Some a :: l' => match all_of l' with Some r => Some (a :: r) | None => None end | None :: _ => None end.
(** Splitting at every comma followed by a space. *)
Fixpoint items (fuel : nat) (s : bytes) : list bytes :=
  match fuel, split_first "," s with
  | S fuel', Some (a, b) => a :: items fuel' (drop 1 b)
  | _, _ => [s]
  end.
Definition read_parents (s : bytes) : option (list (option Z)) := match s with [] => Some [] | _ => all_of (map read_parent (items (length s) s)) end.
(** key: value, the value being a number or a duration. *)
Definition read_entry (read : bytes -> option Z) (s : bytes) : option (bytes * Z) :=
  match split_last (B ": ") s with Some (k, v) => match read v with Some n => Some (k, n) | None => None end | None => None end.
(** Lines that start with [p], as entries, and the lines after them. *)
Fixpoint read_block (p : bytes) (read : bytes -> option Z) (l : list bytes) : option (list (bytes * Z) * list bytes) :=
  match l with
  | x :: l' =>
      match strip p x with
      | Some y => match read_entry read y, read_block p read l' with Some e, Some (es, r) => Some (e :: es, r) | _, _ => None end
      | None => Some ([], l)
      end
  | [] => Some ([], [])
  end.
Record tfunc := TFunc {
  tf_id : Z; tf_name : bytes; tf_parents : list (option Z); tf_counts : list (bytes * Z); tf_errors : list (bytes * Z);
  tf_success : list (bytes * Z); tf_failure : list (bytes * Z) }.
Definition read_func (l : list bytes) : option (tfunc * list bytes) :=
  match l with
  | x :: y :: z :: l1 =>
      match strip (B "[") x, strip (B "  parents: ") y, strip (B "  ") z with
      | Some x, Some y, Some z =>
          match split_first "]" x with
          | Some (id, name) =>
              match read_dec id, strip (B " ") name, read_parents y, all_of (map (read_entry read_dec) (items (length z) z)), read_block (B "  error ") read_dec l1 with
              | Some id, Some name, Some ps, Some cs, Some (es, s :: l2) =>
                  match beqb s (B "  success times:"), read_block (B "    ") read_duration l2 with
                  | true, Some (ss, f :: l3) =>
                      match beqb f (B "  failure times:"), read_block (B "    ") read_duration l3 with
                      | true, Some (fs, [] :: l4) => Some (TFunc id name ps cs es ss fs, l4)
                      | _, _ => None
                      end
                  | _, _ => None
                  end
              | _, _, _, _, _ => None
              end
          | None => None
          end
      | _, _, _ => None
      end
  | _ => None
  end.
Fixpoint read_funcs (fuel : nat) (l : list bytes) : option (list tfunc) :=
  match l, fuel with
  | [], _ => Some []
  | _, S fuel' => match read_func l with Some (f, r) => match read_funcs fuel' r with Some fs => Some (f :: fs) | None => None end | None => None end
  | _, O => None
  end.
Definition read_funcs_text (s : bytes) : option (list tfunc) := match lines s with Some l => read_funcs (length l) l | None => None end.
Definition dist_entries (d : rdist) : list (bytes * Z) :=
  rd_query d ++ [(B "avg", rd_average d); (B "ravg", rd_reservoir d); (B "recent", rd_recent d); (B "sum", rd_sum d)].
Definition told_func (f : rfunc) : tfunc :=
  TFunc (rf_id f) (rf_name f) (rf_parents f)
    [(B "current", rf_current f); (B "highwater", rf_highwater f); (B "success", rf_success f); (B "errors", errors_sum f); (B "panics", rf_panics f)]
    (rf_errors f) (dist_entries (rf_stimes f)) (dist_entries (rf_ftimes f)).
Definition clear_dist (d : rdist) : Prop :=
  Forall (fun e => one_line (fst e) /\ int64b (snd e)) (rd_query d) /\ int64b (rd_average d) /\ int64b (rd_reservoir d) /\ int64b (rd_recent d) /\ int64b (rd_sum d).
(** Error counts are not negative and fit together in an int64. *)
Definition clear_counts (f : rfunc) : Prop := Forall (fun e => 0 <= snd e) (rf_errors f) /\ 0 <= rf_panics f /\ errors_sum f + rf_panics f < 2 ^ 63.
Definition clear_func (f : rfunc) : Prop :=
  int64b (rf_id f) /\ one_line (rf_name f) /\ Forall (fun p => match p with Some q => int64b q | None => True end) (rf_parents f) /\
  int64b (rf_current f) /\ int64b (rf_highwater f) /\ int64b (rf_success f) /\ Forall (fun e => one_line (fst e)) (rf_errors f) /\
  clear_counts f /\ clear_dist (rf_stimes f) /\ clear_dist (rf_ftimes f).
