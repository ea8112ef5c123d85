(** present/path.go: FromRequest and shift; present/errs.go: status codes. *)
From Verif Require Import Base Strings HttpModel CallersModel.
Open Scope Z_scope.

(** path.go 284-291: shift. *)
Fixpoint trim_left (c : ascii) (s : bytes) : bytes :=
  match s with
  | a :: s' => if Ascii.eqb a c then trim_left c s' else s
  | [] => []
  end.
Definition shift (path : bytes) : bytes * bytes :=
  let p := trim_left slash path in
  match index_byte slash p with
  | None => (p, [])
  | Some i => (take i p, drop i p)
  end.

(** The pages. A trace page carries the matcher over (Func, trace id); a Func is
    its identity. A remote page says whether it answers in JSON. *)
Notation func := nat (only parsing).
Inductive page :=
| PIndex | PSpansText | PSpansDot | PSpansJSON | PFuncsText | PFuncsDot | PFuncsJSON | PStatsText | PStatsJSON.
Inductive tkind := TSvg | TJson | TRemote (json : bool).
Inductive answer :=
| APage (p : page) (ctype : bytes)
| ATrace (k : tkind) (ctype : bytes) (matcher : func -> Z -> bool)
| ABadRequest
| ANotFound.
Definition ct_text : bytes := B "text/plain; charset=utf-8".
Definition ct_json : bytes := B "application/json; charset=utf-8".
Definition ct_svg : bytes := B "image/svg+xml; charset=utf-8".
Definition ct_html : bytes := B "text/html; charset=utf-8".

(** The query parameters read, "" when absent (url.Values.Get). *)
Record query := Query { q_regex : bytes; q_trace_id : bytes; q_preselect : bytes; q_viz : bytes }.

(** strconv.ParseBool *)
Definition parse_bool (s : bytes) : option bool :=
  if List.existsb (beqb s) [B "1"; B "t"; B "T"; B "TRUE"; B "true"; B "True"] then Some true
  else if List.existsb (beqb s) [B "0"; B "f"; B "F"; B "FALSE"; B "false"; B "False"] then Some false
  else None.

(** errs.go 29-41: getStatusCode for the errors FromRequest returns. *)
Definition status_of (a : answer) : option Z :=
  match a with ABadRequest => Some 400 | ANotFound => Some 404 | _ => None end.

Section request.
  (** regexp.Compile with MatchString, url.Parse succeeding, Func.FullName, and
      the Funcs of the registry at the time of the request. *)
  Context (compile : bytes -> option (bytes -> bool)) (url_ok : bytes -> bool) (name : func -> bytes) (funcs : list func).

  (** path.go 148-181: the function matcher, [None] for a bad request. *)
  Definition fn_matcher (q : query) : option (func -> bool) :=
    match q_regex q with
    | [] => Some (fun _ => true)
    | re =>
        match compile re with
        | None => None
        | Some m =>
            match (match q_preselect q with [] => Some true | p => parse_bool p end) with
            | None => None
            | Some false => Some (fun f => m (name f))
            | Some true =>
                let sel := List.filter (fun f => m (name f)) funcs in
                match sel with
                | [] => None
                | _ => Some (fun f => List.existsb (Nat.eqb f) sel)
                end
            end
        end
    end.
  (** path.go 183-194: the span matcher. *)
  Definition span_matcher (q : query) : option (func -> Z -> bool) :=
    match fn_matcher q with
    | None => None
    | Some fm =>
        match q_trace_id q with
        | [] => Some (fun f _ => fm f)
        | s => match hex_to_uint64 s with
               | None => None
               | Some id => Some (fun f t => (t =? id) && fm f)
               end
        end
    end.
  (** path.go 206-217: does the remote page answer in JSON? *)
  Definition has_scheme (s : bytes) : bool := has_prefix (B "http:") s || has_prefix (B "https:") s.
  Definition send_json (viz : bytes) : bool :=
    match viz with
    | [] => true
    | _ => negb (url_ok (if has_scheme viz then viz else B "http://" ++ viz))
    end.

  (** path.go 84-277: FromRequest, up to what the returned function writes. *)
  Definition from_request (path : bytes) (q : query) : answer :=
    let '(first, rest) := shift path in
    let '(second, _) := shift rest in
    if beqb first [] then APage PIndex (B "text/html")
    else if beqb first (B "ps") then
      if beqb second [] || beqb second (B "text") then APage PSpansText ct_text
      else if beqb second (B "dot") then APage PSpansDot ct_text
      else if beqb second (B "json") then APage PSpansJSON ct_json
      else ANotFound
    else if beqb first (B "funcs") then
      if beqb second [] || beqb second (B "text") then APage PFuncsText ct_text
      else if beqb second (B "dot") then APage PFuncsDot ct_text
      else if beqb second (B "json") then APage PFuncsJSON ct_json
      else ANotFound
    else if beqb first (B "stats") then
      if beqb second [] || beqb second (B "text") || beqb second (B "old") then APage PStatsText ct_text
      else if beqb second (B "json") then APage PStatsJSON ct_json
      else ANotFound
    else if beqb first (B "trace") then
      if beqb (q_regex q) [] && beqb (q_trace_id q) [] then ABadRequest
      else
        match span_matcher q with
        | None => ABadRequest
        | Some m =>
            if beqb second (B "svg") then ATrace TSvg ct_svg m
            else if beqb second (B "json") then ATrace TJson ct_json m
            else if beqb second (B "remote") then
              ATrace (TRemote (send_json (q_viz q))) (if send_json (q_viz q) then ct_json else ct_html) m
            else ANotFound
        end
    else ANotFound.
End request.

(** path.go 302-318: the links on the index page. *)
Definition index_links : list bytes :=
  [B "ps"; B "ps/json"; B "ps/dot"; B "funcs"; B "funcs/json"; B "funcs/dot"; B "stats"; B "stats/json"; B "stats/svg";
   B "trace/json"; B "trace/svg"].
