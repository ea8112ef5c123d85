(** Properties C37 (error names), C54 (stable snapshots), C60 (values of a trace). *)
From Verif Require Import Base Conc SnapModel SnapSpec SnapProofs ErrNamesModel ErrNamesSpec ErrNamesProofs.
Local Arguments B : simpl never.

(** C37: the name is the one the documented precedence gives, which is unique. *)
Theorem C37_precedence : forall hs e n, get_error_name standard hs e = n <-> documented hs e n.
Proof. exact name_iff. Qed.
Print Assumptions C37_precedence.

(** C37: in the appengine build errnos, and in the tinygo build the four types missing there,
    are named as other network errors; all else is the same in every build. *)
Theorem C37_builds : forall b hs e,
  (unnamed hs e -> er_type e = TErrno -> get_error_name b hs e = if bd_appengine b then B "Network Error" else B "Errno") /\
  (unnamed hs e -> er_type e ∈ not_in_tinygo -> get_error_name b hs e = if bd_tinygo b then B "Network Error" else get_error_name standard hs e) /\
  (~ (unnamed hs e /\ er_type e ∈ TErrno :: not_in_tinygo) -> get_error_name b hs e = get_error_name standard hs e).
Proof. exact names_builds. Qed.
Print Assumptions C37_builds.
Example C37_builds_ex : unnamed [] (GErr None TErrno None) /\ get_error_name (Build true false) [] (GErr None TErrno None) = B "Network Error" /\
  get_error_name (Build false true) [] (GErr None TDNS None) = B "Network Error".
Proof. split; [split_and!; [constructor|left; reflexivity|reflexivity]|split; reflexivity]. Qed.

(** C37: concurrent additions: every lookup uses the handlers of one moment during the
    lookup, in the order in which they were added. *)
Theorem C37_concurrent : forall zero grow sched, exists order hs, append_order zero grow sched order hs /\
  forall i e res, searched zero grow sched i (fun h : handler => h e) res ->
    exists n, (n <= length hs)%nat /\ may_see zero grow sched order i n /\
      documented (take n hs) e (match res with Some m => m | None => after_handlers standard e end).
Proof. exact names_concurrent. Qed.
Print Assumptions C37_concurrent.

Definition h1 : handler := fun _ => Some (B "one").
Definition h2 : handler := fun e => match er_type e with TOp => Some (B "two") | _ => None end.
Definition eop : gerr := GErr None TOp None.
Definition ex_names : list (action (scall handler bytes)) :=
  [Spawn (SAppend h1); Run 0; Run 0; Run 0; Run 0; Spawn (SSearch (fun h => h eop)); Run 1; Spawn (SAppend h2); Run 2; Run 2; Run 2; Spawn (SSearch (fun h => h eop)); Run 3; Run 1; Run 3].
Example C37_example :
  get_error_name standard [h1; h2] eop = B "two" /\ get_error_name standard [h2] (GErr (Some KDeadlineExceeded) (TOther true) None) = B "Timeout" /\
  get_error_name standard [] (GErr None (TOther false) (Some (Some []))) = [] /\
  searched h1 (fun n => 2 * n) ex_names 1 (fun h => h eop) (Some (B "one")) /\ searched h1 (fun n => 2 * n) ex_names 3 (fun h => h eop) (Some (B "two")).
Proof. vm_compute. auto. Qed.

(** C54: the annotations returned are those of one moment of the call, in the order in
    which they were added. *)
Theorem C54_annotations : forall (A : Type) (zero : A) grow (sched : list (action (scall A bytes))), exists order xs, append_order zero grow sched order xs /\
  forall i ret, copied zero grow sched i ret -> exists n, (n <= length xs)%nat /\ may_see zero grow sched order i n /\ holds_now zero grow sched ret (take n xs).
Proof. exact (fun A zero grow sched => match readers zero grow sched with ex_intro _ order (ex_intro _ xs (conj H (conj Hc _))) => ex_intro _ order (ex_intro _ xs (conj H Hc)) end). Qed.
Print Assumptions C54_annotations.

(** C54: whatever happens later, the returned slice keeps its contents. *)
Theorem C54_stable : forall (A : Type) (zero : A) grow (pre post : list (action (scall A bytes))) i ret xs,
  copied zero grow pre i ret -> holds_now zero grow pre ret xs -> copied zero grow (pre ++ post) i ret /\ holds_now zero grow (pre ++ post) ret xs.
Proof. exact (fun A zero grow => stable zero grow). Qed.
Print Assumptions C54_stable.

(** C54: a map returned by GetAll or Errors holds the values of that moment for ever, unless
    its owner changes it. *)
Theorem C54_maps : forall (K V : Type) `{Countable K} (os os' : list (mop K V)) n,
  snd (m_step (fst (m_run m_new os)) MGetAll) = MRef n -> Forall (fun o => caller_of n o = false) os' ->
  exists m, fst (m_run m_new (os ++ [MGetAll] ++ os')) !! n = Some m /\ forall k, m !! k = updated os k.
Proof. exact (fun K V _ _ => getall_stable). Qed.
Print Assumptions C54_maps.

(** C60: Get returns the value last Set, whatever callers do to maps they were given. *)
Theorem C60_get : forall (K V : Type) `{Countable K} (os : list (mop K V)) k,
  snd (m_step (fst (m_run m_new os)) (MGet k)) = MVal (updated os k).
Proof. exact (fun K V _ _ => get_latest). Qed.
Print Assumptions C60_get.

(** The copy of call 1 is being made while the array is extended in place by call 2. *)
Definition ex_snap : list (action (scall nat bytes)) :=
  [Spawn (SAppend 7); Run 0; Run 0; Run 0; Run 0; Spawn SCopy; Run 1; Run 1; Run 1; Spawn (SAppend 8); Run 2; Run 2; Run 1; Run 2; Run 1; Run 1].
Example C54_example :
  copied 0 (fun n => 2 * n) ex_snap 1 (Some (2, 1)) /\ holds_now (Y := bytes) 0 (fun n => 2 * n) ex_snap (Some (2, 1)) [7] /\
  gcontents (ss_mem (shared (s_exec 0 (fun n => 2 * n) ex_snap))) 1 2 = [7; 8].
Proof. vm_compute. auto. Qed.
Example C60_example :
  snd (m_run (K := nat) (V := nat) m_new [MGet 1; MUpdate 1 (fun _ => 5); MGetAll; MUpdate 1 (fun _ => 6); MCaller 1 1 9; MGet 1]) =
    [MVal None; MNone; MRef 1; MNone; MNone; MVal (Some 6)].
Proof. vm_compute. reflexivity. Qed.
