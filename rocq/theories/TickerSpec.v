(** What the meters' goroutine does (C87). *)
From Verif Require Import Base MeterModel MeterSpec TickerModel.
Local Open Scope Z_scope.

(** The meters registered, in order. *)
Definition registered (log : list (Z * tevent)) : list nat :=
  omap (fun e => match snd e with ERegister m => Some m | _ => None end) log.
(** Those registered before pass p looked. *)
Fixpoint before_snap (p : nat) (log : list (Z * tevent)) : list (Z * tevent) :=
  match log with
  | [] => []
  | (t, e) :: log' => match e with ESnap p' => if decide (p' = p) then [] else (t, e) :: before_snap p log' | _ => (t, e) :: before_snap p log' end
  end.
Definition seen (p : nat) (log : list (Z * tevent)) : list nat := registered (before_snap p log).
(** The meters ticked in pass p, in order. *)
Definition ticked (p : nat) (log : list (Z * tevent)) : list nat :=
  omap (fun e => match snd e with ETick p' m _ => if decide (p' = p) then Some m else None | _ => None end) log.
Definition starts (log : list (Z * tevent)) : nat := length (List.filter (fun e => match snd e with EStart => true | _ => false end) log).
(** What was done with meter m, by callers and the goroutine. *)
Definition ops (m : nat) (log : list (Z * tevent)) : list meter_op :=
  omap (fun e => match snd e with ETick _ m' now => if decide (m' = m) then Some (MTick now) else None | EOp m' o => if decide (m' = m) then Some o else None | _ => None end) log.
Definition is_reset (o : meter_op) : bool := match o with MReset _ _ => true | _ => false end.
