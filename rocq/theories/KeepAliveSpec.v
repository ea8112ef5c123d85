(** Vocabulary for keepAlive: counting events in a log. *)
From Verif Require Import Base KeepAliveModel.

Definition is_start (e : event) : bool := match e with EStart => true | _ => false end.
Definition is_end (e : event) : bool := match e with EEnd _ => true | _ => false end.
Definition is_tick (e : event) : bool := match e with ETick => true | _ => false end.
Definition count (p : event -> bool) (l : list event) : nat := length (List.filter p l).
(** No ping is running after [l]. *)
Definition quiet (l : list event) : Prop := count is_start l = count is_end l.
(** A ping failed with [e]. *)
Definition failed (l : list event) (e : error) : Prop := EEnd (Some e) ∈ l.
Definition loop_steps (acts : list act) : nat :=
  length (List.filter (fun a => match a with LoopStep _ _ => true | _ => false end) acts).
