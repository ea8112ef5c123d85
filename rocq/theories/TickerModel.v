(** The goroutine that advances meters: meter.go 24-31, 59-68, 183-210.

    The two critical sections of the ticker (register, and the reading of t.meters in run) are
    single steps; so is each method of a Meter.  Slices are kept as Go has them: t.meters is a
    backing array and a length, append writes into spare room or moves to a new array, and run
    goes on reading the array it saw although append may write to it. *)
From Verif Require Import Base SeriesModel Fval MeterModel.
Local Open Scope Z_scope.

(** meter.go 26, in nanoseconds *)
Definition timePerTick : Z := 600 * 10 ^ 9.

(** A slice: which array, and its length.  (The capacity is the length of the array.) *)
Definition slice : Type := nat * nat.
(** append(s, m).  If there is no room it moves to a new array, with any spare room. *)
Definition append_slice (arrays : list (list nat)) (s : slice) (m room : nat) : list (list nat) * slice :=
  let (p, len) := s in
  let arr := default [] (arrays !! p) in
  if (len <? length arr)%nat then (<[p := <[len := m]> arr]> arrays, (p, S len))
  else (arrays ++ [take len arr ++ [m] ++ replicate room 0%nat], (length arrays, S len)).

(** Where the goroutine is in run, meter.go 199-210. *)
Inductive at_line :=
| LSleep                              (** before time.Sleep *)
| LSleeping (until : Z)               (** in time.Sleep; it returns no sooner than [until] *)
| LLock                               (** before t.mtx.Lock *)
| LNow (meters : slice)               (** before monotime.Now *)
| LRange (now : Z) (meters : slice) (i : nat).   (** in the loop, element i is next *)
(** [g_pass]: how often it went round the for loop. *)
Record go := Go { g_pass : nat; g_at : at_line }.

(** What happens, with the time it happens at. *)
Inductive tevent :=
| EStart                                   (** go t.run() *)
| ERegister (m : nat)                      (** register returns *)
| ESnap (pass : nat)                       (** run reads t.meters *)
| ETick (pass : nat) (m : nat) (now : Z)   (** m.tick(now) *)
| EDone (pass : nat)                       (** the loop over the meters ends *)
| EOp (m : nat) (o : meter_op).            (** a caller uses meter m *)

(** [t_meters]: the meters made, and whether they are registered. *)
Record tstate := TState {
  t_clock : Z; t_started : bool; t_arrays : list (list nat); t_slice : slice; t_gos : list go;
  t_meters : list (Z * meter * bool); t_log : list (Z * tevent)
}.
Definition t_init : tstate := TState 0 false [[]] (0%nat, 0%nat) [] [] [].

(** What callers do with a meter: Mark, SetTotal, Reset. *)
Inductive user_op := UMark (a : Z) | USetTotal (t : Z) | UReset (t : Z).
Definition user_meter_op (clock : Z) (u : user_op) : meter_op :=
  match u with UMark a => MMark a | USetTotal t => MSetTotal t | UReset t => MReset t clock end.

Definition apply_op (meters : list (Z * meter * bool)) (m : nat) (o : meter_op) : list (Z * meter * bool) :=
  alter (fun e => (fst (fst e), meter_step (snd (fst e)) o, snd e)) m meters.

Inductive taction :=
| ANew                              (** NewMeter up to the call of register, 60-65 *)
| ARegister (m room : nat)          (** register, 189-197 *)
| AUse (m : nat) (u : user_op)
| ARun (i : nat)                    (** a step of ticker goroutine i *)
| ATime (d : Z).                    (** time passes *)

(** One step of run, 199-210. *)
Definition run_step (s : tstate) (i : nat) (g : go) : tstate :=
  let 'TState clock started arrays sl gos meters log := s in
  let goto meters' l g' := TState clock started arrays sl (<[i := g']> gos) meters' (log ++ map (pair clock) l) in
  match g_at g with
  | LSleep => goto meters [] (Go (g_pass g) (LSleeping (clock + timePerTick)))
  | LSleeping u => if u <=? clock then goto meters [] (Go (g_pass g) LLock) else s
  | LLock => goto meters [ESnap (g_pass g)] (Go (g_pass g) (LNow sl))
  | LNow ms => goto meters [] (Go (g_pass g) (LRange clock ms 0))
  | LRange now ms k =>
      if (k <? snd ms)%nat then
        match arrays !! fst ms ≫= (.!! k) with
        | Some m => goto (apply_op meters m (MTick now)) [ETick (g_pass g) m now] (Go (g_pass g) (LRange now ms (S k)))
        | None => s
        end
      else goto meters [EDone (g_pass g)] (Go (S (g_pass g)) LSleep)
  end.
Definition t_step (s : tstate) (a : taction) : tstate :=
  let 'TState clock started arrays sl gos meters log := s in
  match a with
  | ANew => TState clock started arrays sl gos (meters ++ [(clock, meter_new clock, false)]) log
  | ARegister m room =>
      match meters !! m with
      | Some (t0, mt, false) =>
          let (arrays', sl') := append_slice arrays sl m room in
          TState clock true arrays' sl' (if started then gos else gos ++ [Go 0 LSleep])
            (<[m := (t0, mt, true)]> meters) (log ++ map (pair clock) ((if started then [] else [EStart]) ++ [ERegister m]))
      | _ => s
      end
  | AUse m u =>
      match meters !! m with
      | Some (_, _, true) => TState clock started arrays sl gos (apply_op meters m (user_meter_op clock u)) (log ++ [(clock, EOp m (user_meter_op clock u))])
      | _ => s
      end
  | ARun i => match gos !! i with Some g => run_step s i g | None => s end
  | ATime d => TState (clock + Z.max 0 d) started arrays sl gos meters log
  end.
Definition t_run (acts : list taction) : tstate := fold_left t_step acts t_init.
