(** * Data races, after the Go memory model (https://go.dev/ref/mem)

    Stated of a list of events in the order in which they took effect, each with the
    goroutine that did it, and of nothing else. *)
From Verif Require Import RaceModel.
From stdpp Require Import relations.

(** The event reads or writes field f of o: allocation writes all fields. *)
Definition touches (e : ev) (o : obj) (f : string) : Prop :=
  match e with
  | ENew o' _ => o' = o
  | ERd o' f' | EWr o' f' | EAt _ o' f' => o' = o /\ f' = f
  | _ => False
  end.

Definition is_plain_read (e : ev) : Prop := exists o f, e = ERd o f.
Definition is_atomic (e : ev) : Prop := exists a o f, e = EAt a o f.

(** Two accesses to the same variable conflict if they are not both reads and not both
    atomic. *)
Definition conflict (e1 e2 : ev) : Prop :=
  (exists o f, touches e1 o f /\ touches e2 o f) /\
  ~ (is_plain_read e1 /\ is_plain_read e2) /\
  ~ (is_atomic e1 /\ is_atomic e2).

(** Synchronization between two events, the first one earlier. *)
Definition synchronizes (e1 e2 : ev) : Prop :=
  match e1, e2 with
  | ERel MW o l, EAcq MW o' l' => o = o' /\ l = l'   (* Unlock, Lock *)
  | ERel MW o l, EAcq MR o' l' => o = o' /\ l = l'   (* Unlock, RLock *)
  | ERel MR o l, EAcq MW o' l' => o = o' /\ l = l'   (* RUnlock, Lock *)
  | ERel MO o l, EPass o' l' => o = o' /\ l = l'     (* the function of Once.Do, another Do *)
  | ESend c, ERecv c' => c = c'                      (* the user's own *)
  | _, _ => False
  end.

Definition writes (a : acc) : Prop := a <> ALoad.
Definition reads (a : acc) : Prop := a <> AStore.

(** The atomic operation j observes the effect of the atomic operation i: no other one wrote
    the variable in between. *)
Definition observes (tr : list (tid * ev)) (i j : nat) : Prop :=
  exists t1 a1 t2 a2 o f, tr !! i = Some (t1, EAt a1 o f) /\ tr !! j = Some (t2, EAt a2 o f) /\
    writes a1 /\ reads a2 /\
    forall k t a, i < k -> k < j -> tr !! k = Some (t, EAt a o f) -> ~ writes a.

(** Immediately before: in the same goroutine, by synchronization, starting it, or observed by
    it. *)
Definition before1 (tr : list (tid * ev)) (i j : nat) : Prop :=
  i < j /\
  exists t1 e1 t2 e2, tr !! i = Some (t1, e1) /\ tr !! j = Some (t2, e2) /\
    (t1 = t2 \/ synchronizes e1 e2 \/ e1 = ESpawn t2 \/ observes tr i j).

Definition happens_before (tr : list (tid * ev)) : nat -> nat -> Prop := tc (before1 tr).

(** A data race: two conflicting accesses of which the earlier does not happen before the
    later. *)
Definition races (tr : list (tid * ev)) (i j : nat) : Prop :=
  i < j /\
  (exists t1 e1 t2 e2, tr !! i = Some (t1, e1) /\ tr !! j = Some (t2, e2) /\ conflict e1 e2) /\
  ~ happens_before tr i j.

Definition has_race (tr : list (tid * ev)) : Prop := exists i j, races tr i j.

(** A library is free of races if no execution has one. *)
Definition race_free (L : library) : Prop :=
  forall tr s, execution L tr s -> ~ has_race tr.

(** ** What a read may observe *)

(** The event stores something in field f of o. *)
Definition sets (e : ev) (o : obj) (f : string) : Prop :=
  e = EWr o f \/ (exists c, e = ENew o c) \/ exists a, e = EAt a o f /\ writes a.

Definition sets_at (tr : list (tid * ev)) (w : nat) (o : obj) (f : string) : Prop :=
  exists t e, tr !! w = Some (t, e) /\ sets e o f.

(** The memory model lets the read r of that field observe the write w: w does not happen after
    r, and no other write happens after w and before r. *)
Definition may_observe (tr : list (tid * ev)) (w r : nat) (o : obj) (f : string) : Prop :=
  sets_at tr w o f /\ ~ happens_before tr r w /\
  ~ exists k, sets_at tr k o f /\ happens_before tr w k /\ happens_before tr k r.

(** w is the last write before r, in the order of the events. *)
Definition last_write (tr : list (tid * ev)) (w r : nat) (o : obj) (f : string) : Prop :=
  w < r /\ sets_at tr w o f /\ forall k, w < k -> k < r -> ~ sets_at tr k o f.
