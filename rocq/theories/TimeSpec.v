(** What C94 says about clocks and recorded times. *)
From Verif Require Import Base TimeModel.
Local Open Scope Z_scope.

(** The monotonic clock never goes back and shows less than 292 years; the time of day may show
    anything. *)
Definition good_clock (r0 : reading) (h : list (reading * tev)) : Prop :=
  forall a b r e r' e', (a <= b)%nat -> h !! a = Some (r, e) -> h !! b = Some (r', e') ->
    0 <= rd_mono r0 <= rd_mono r /\ rd_mono r <= rd_mono r' /\ rd_mono r' < 2 ^ 63.
(** The performance counter never goes back and has not gone far enough for C50's overflow. *)
Definition good_counter (freq base : Z) (h : list (reading * tev)) : Prop :=
  0 < freq < 2 ^ 63 /\ in64 base /\
  forall a b r e r' e', (a <= b)%nat -> h !! a = Some (r, e) -> h !! b = Some (r', e') ->
    base <= rd_qpc r <= rd_qpc r' /\ rd_qpc r' < 2 ^ 63 /\ (rd_qpc r' - base) * 1000000000 < 2 ^ 63.

(** At [a] something is started, at [b] it is asked about, and it is not started anew between. *)
Definition pair_at (start stop : tev) (h : list (reading * tev)) (a b : nat) (ra rb : reading) : Prop :=
  (a < b)%nat /\ h !! a = Some (ra, start) /\ h !! b = Some (rb, stop) /\
  forall c r, (a < c < b)%nat -> h !! c <> Some (r, start).
Definition call (h : list (reading * tev)) (i a b : nat) (ra rb : reading) : Prop := pair_at (CallStart i) (CallEnd i) h a b ra rb.

(** The call between [a] and [b] was recorded with duration [d]. *)
Definition recorded_as (h : list (reading * tev)) (out : list shown) (a b : nat) (d : Z) : Prop :=
  exists i ra rb f, call h i a b ra rb /\ out !! b = Some (Ended f d).
(** One after the other, from [a] on, with durations [ds], all before [b]. *)
Fixpoint one_after_another (h : list (reading * tev)) (out : list shown) (a : nat) (ds : list Z) (b : nat) : Prop :=
  match ds with
  | [] => (a <= b)%nat
  | d :: ds' => exists x y, (a <= x)%nat /\ recorded_as h out x y d /\ one_after_another h out y ds' b
  end.
(** The time shown at position [a]: when a call started or when it finished. *)
Definition time_shown (out : list shown) (a : nat) (t : gotime) : Prop :=
  out !! a = Some (Began t) \/ exists d, out !! a = Some (Ended t d).
