(** The documented paths and parameters (present/path.go 53-83). *)
From Verif Require Import Base HttpModel HttpSpec CallersModel RouteModel.
Open Scope Z_scope.

(** The non-empty segments of a path. *)
Definition segments (path : bytes) (l : list bytes) : Prop :=
  exists pieces, pieces <> [] /\ path = join [slash] pieces /\ Forall (fun p => slash ∉ p) pieces /\
    l = List.filter (fun p => negb (beqb p [])) pieces.

(** Only the first two segments count. *)
Definition pages : list (list bytes * page) :=
  [ ([], PIndex);
    ([B "ps"], PSpansText); ([B "ps"; B "text"], PSpansText); ([B "ps"; B "dot"], PSpansDot); ([B "ps"; B "json"], PSpansJSON);
    ([B "funcs"], PFuncsText); ([B "funcs"; B "text"], PFuncsText); ([B "funcs"; B "dot"], PFuncsDot); ([B "funcs"; B "json"], PFuncsJSON);
    ([B "stats"], PStatsText); ([B "stats"; B "text"], PStatsText); ([B "stats"; B "old"], PStatsText); ([B "stats"; B "json"], PStatsJSON) ].
Definition trace_pages : list (bytes * (bool -> tkind)) :=
  [ (B "svg", fun _ => TSvg); (B "json", fun _ => TJson); (B "remote", TRemote) ].

Definition content_type (p : page) : bytes :=
  match p with
  | PIndex => B "text/html"
  | PSpansJSON | PFuncsJSON | PStatsJSON => B "application/json; charset=utf-8"
  | _ => B "text/plain; charset=utf-8"
  end.
Definition trace_type (k : tkind) : bytes :=
  match k with
  | TSvg => B "image/svg+xml; charset=utf-8"
  | TJson | TRemote true => B "application/json; charset=utf-8"
  | TRemote false => B "text/html; charset=utf-8"
  end.
(** Without a usable visualizer URL the remote page answers in JSON. *)
Definition no_visualizer (url_ok : bytes -> bool) (q : query) (b : bool) : Prop :=
  b = true <-> q_viz q = [] \/
    (((exists t, q_viz q = B "http:" ++ t) \/ (exists t, q_viz q = B "https:" ++ t)) /\ url_ok (q_viz q) = false) \/
    ((~ (exists t, q_viz q = B "http:" ++ t) /\ ~ (exists t, q_viz q = B "https:" ++ t)) /\ url_ok (B "http://" ++ q_viz q) = false).

Section request.
  Context (compile : bytes -> option (bytes -> bool)) (name : func -> bytes) (funcs : list func).
  (** preselect is on unless it says otherwise, in one of the spellings of strconv.ParseBool. *)
  Definition spelled (b : bool) (s : bytes) : Prop :=
    s ∈ (if b then [B "1"; B "t"; B "T"; B "TRUE"; B "true"; B "True"] else [B "0"; B "f"; B "F"; B "FALSE"; B "false"; B "False"]).
  Definition preselect (q : query) (b : bool) : Prop :=
    (q_preselect q = [] /\ b = true) \/ spelled b (q_preselect q).
  (** The parameters are valid, and a span of Func [f] in trace [t] is wanted iff [P f t]. *)
  Definition regex_wants (q : query) (P : func -> Prop) : Prop :=
    (q_regex q = [] /\ forall f, P f <-> True) \/
    (q_regex q <> [] /\ exists m b, compile (q_regex q) = Some m /\ preselect q b /\
       (b = true -> exists f, f ∈ funcs /\ m (name f) = true) /\
       forall f, P f <-> m (name f) = true /\ (b = true -> f ∈ funcs)).
  Definition trace_wants (q : query) (P : Z -> Prop) : Prop :=
    (q_trace_id q = [] /\ forall t, P t <-> True) \/
    (exists id, id_field (q_trace_id q) id /\ forall t, P t <-> t = id).
  Definition wants (q : query) (P : func -> Z -> Prop) : Prop :=
    (q_regex q <> [] \/ q_trace_id q <> []) /\
    exists F T, regex_wants q F /\ trace_wants q T /\ forall f t, P f t <-> F f /\ T t.
End request.

