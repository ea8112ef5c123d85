(** Vocabulary for C77. *)
From Verif Require Import Base PresentModel Conc CollectModel WatchModel KeepAliveModel TraceQueryModel.
Local Open Scope nat_scope.

(** The bytes the writer has taken. *)
Definition written (l : list wev) : bytes := concat (map (fun e => match e with WEnd b => b | WBegin _ => [] end) l).
(** Calls of Write never overlap; [open]: one is running. *)
Fixpoint one_at_a_time (open : bool) (l : list wev) : Prop :=
  match l with
  | [] => True
  | WBegin _ :: l' => open = false /\ one_at_a_time true l'
  | WEnd _ :: l' => open = true /\ one_at_a_time false l'
  end.
Definition newlines (k : nat) : bytes := repeat newline k.
Definition ticks (acts : list tqact) : nat := length (List.filter (fun a => match a with QTick => true | _ => false end) acts).
(** Steps the program takes by itself: no tick, no span, no choice that favours anything. *)
Definition by_itself (a : tqact) : Prop :=
  match a with QLoop ChTick (Returns None) _ => True | QGo false (Returns None) _ => True | _ => False end.

Section query.
  Context (info : nat -> sinfo) (fuel : nat) (document : option (list fin) -> list bytes).
  Definition q_returned (acts : list tqact) (r : tqres) : Prop := q_pc (q_exec info fuel document acts) = T_done r.
  (** What has been written. *)
  Definition output (acts : list tqact) : bytes := written (q_log (q_exec info fuel document acts)).
  (** WatchForSpans returned [l] to the query; it still waits. *)
  Definition found (acts : list tqact) (l : option (list fin)) : Prop :=
    w_pc (w_run info fuel (q_watch (q_exec info fuel document acts))) = W_done (WSpans l).
  Definition waits (acts : list tqact) : Prop :=
    w_pc (w_run info fuel (q_watch (q_exec info fuel document acts))) = W_select.
  (** A ping failed with [e]: in a step of keepAlive the Write of a ping ended that way. *)
  Definition ping_failed (acts : list tqact) (e : error) : Prop :=
    exists a c o n b, acts = a ++ QLoop c o n :: b /\ catch_panics o = Some e /\
      st_loop (ka (q_exec info fuel document a)) = LPing.
  (** A Write of the document failed with [e]. *)
  Definition write_failed (acts : list tqact) (e : error) : Prop :=
    exists a pick n b p todo, acts = a ++ QGo pick (Returns (Some e)) n :: b /\
      q_pc (q_exec info fuel document a) = T_write p todo.
End query.
