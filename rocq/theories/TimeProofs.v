(** Proofs about recorded times. *)
From Verif Require Import Base BaseProofs ClockModel ClockProps TimeModel TimeSpec.
Local Open Scope Z_scope.

Lemma clamp64_id x : - 2 ^ 63 <= x < 2 ^ 63 -> clamp64 x = x.
Proof. unfold clamp64. lia. Qed.

(** ** Histories with a known clock *)
Section known.
  Variables (p : platform) (init : gotime) (now : reading -> gotime).
  Definition k_step (s : tstate) (r : reading) (e : tev) : tstate * shown :=
    match e with
    | CallStart i => (TState (<[i := now r]> (ts_calls s)) (ts_timers s), Began (now r))
    | CallEnd i => (s, match ts_calls s !! i with Some t => Ended (now r) (go_sub (now r) t) | None => Nothing end)
    | CallDuration i => (s, match ts_calls s !! i with Some t => Lasted (go_since t r) | None => Nothing end)
    | TimerStart i => (TState (ts_calls s) (<[i := now r]> (ts_timers s)), Nothing)
    | TimerElapsed i => (s, match ts_timers s !! i with Some t => Lasted (go_since t r) | None => Nothing end)
    end.
  Fixpoint k_from (s : tstate) (h : list (reading * tev)) : list shown :=
    match h with
    | [] => []
    | (r, e) :: h' => snd (k_step s r e) :: k_from (fst (k_step s r e)) h'
    end.
  Definition k_state (s : tstate) (h : list (reading * tev)) : tstate := fold_left (fun s x => fst (k_step s (fst x) (snd x))) h s.

  Lemma t_step_known s r e : mono_now p init r = Ok (now r) -> t_step p init s r e = Ok (k_step s r e).
  Proof. intros E. unfold t_step, k_step. rewrite ?E. destruct e; try reflexivity; destruct (_ !! i); reflexivity. Qed.
  Lemma t_from_known h : Forall (fun x => mono_now p init (fst x) = Ok (now (fst x))) h -> forall s, t_from p init s h = Ok (k_from s h).
  Proof.
    induction 1 as [|[r e] h E H IH]; intros s; [reflexivity|]. cbn [t_from k_from]. cbn [fst] in E. rewrite (t_step_known _ _ _ E).
    destruct (k_step s r e) as [s' o] eqn:K. rewrite IH. reflexivity.
  Qed.

  Lemma k_lookup h : forall s b r e, h !! b = Some (r, e) -> k_from s h !! b = Some (snd (k_step (k_state s (take b h)) r e)).
  Proof.
    induction h as [|[r0 e0] h IH]; intros s [|b] r e E; cbn in E; try discriminate.
    - injection E as -> ->. reflexivity.
    - cbn [k_from lookup list_lookup take]. rewrite (IH _ _ _ _ E). reflexivity.
  Qed.
  Lemma k_lookup_inv h s b o : k_from s h !! b = Some o -> exists r e, h !! b = Some (r, e) /\ o = snd (k_step (k_state s (take b h)) r e).
  Proof.
    intros E. destruct (h !! b) as [[r e]|] eqn:Eh.
    - rewrite (k_lookup _ _ _ _ _ Eh) in E. injection E as <-. eauto.
    - exfalso. revert s b o E Eh. induction h as [|[r0 e0] h IH]; intros s [|b] o E Eh; cbn in *; try discriminate. eapply IH; eauto.
  Qed.

  (** what is kept for a number *)
  Lemma kept_call i h : Forall (fun x => snd x <> CallStart i) h -> forall s, ts_calls (k_state s h) !! i = ts_calls s !! i.
  Proof.
    induction 1 as [|[r e] h Hn H IH]; intros s; [reflexivity|]. unfold k_state in *. cbn [fold_left]. rewrite IH. cbn [snd fst] in *.
    destruct e; cbn; try reflexivity. rewrite lookup_insert_ne; [reflexivity|congruence].
  Qed.
  Lemma kept_timer i h : Forall (fun x => snd x <> TimerStart i) h -> forall s, ts_timers (k_state s h) !! i = ts_timers s !! i.
  Proof.
    induction 1 as [|[r e] h Hn H IH]; intros s; [reflexivity|]. unfold k_state in *. cbn [fold_left]. rewrite IH. cbn [snd fst] in *.
    destruct e; cbn; try reflexivity. rewrite lookup_insert_ne; [reflexivity|congruence].
  Qed.
  Lemma take_split {A} (h : list A) a b x : (a < b)%nat -> h !! a = Some x -> take b h = take a h ++ x :: drop (S a) (take b h).
  Proof.
    intros Hab Ha. assert (E : take b h !! a = Some x) by (rewrite lookup_take; [exact Ha|exact Hab]).
    rewrite <- (take_drop_middle (take b h) a x E) at 1. rewrite take_take. replace (a `min` b)%nat with a by lia. reflexivity.
  Qed.
  Lemma between_all (P : tev -> Prop) (h : list (reading * tev)) a b :
    (forall c r e, (a < c < b)%nat -> h !! c = Some (r, e) -> P e) -> Forall (fun x => P (snd x)) (drop (S a) (take b h)).
  Proof.
    intros H. apply Forall_lookup. intros n [r e] E. rewrite lookup_drop in E. destruct (decide (S a + n < b)%nat) as [L|L].
    - rewrite lookup_take in E by exact L. apply (H (S a + n)%nat r e); [lia|exact E].
    - rewrite lookup_take_ge in E by lia. discriminate.
  Qed.
  Lemma call_kept s h i a b ra rb stop : pair_at (CallStart i) stop h a b ra rb -> ts_calls (k_state s (take b h)) !! i = Some (now ra).
  Proof.
    intros (Hab & Ha & _ & Hn). rewrite (take_split h a b _ Hab Ha). unfold k_state. rewrite fold_left_app. cbn [fold_left].
    change (ts_calls (k_state (fst (k_step (k_state s (take a h)) ra (CallStart i))) (drop (S a) (take b h))) !! i = Some (now ra)).
    rewrite kept_call; [apply lookup_insert|]. apply (between_all (fun e => e <> CallStart i)). intros c r e Hc E ->. exact (Hn c r Hc E).
  Qed.
  Lemma timer_kept s h i a b ra rb stop : pair_at (TimerStart i) stop h a b ra rb -> ts_timers (k_state s (take b h)) !! i = Some (now ra).
  Proof.
    intros (Hab & Ha & _ & Hn). rewrite (take_split h a b _ Hab Ha). unfold k_state. rewrite fold_left_app. cbn [fold_left].
    change (ts_timers (k_state (fst (k_step (k_state s (take a h)) ra (TimerStart i))) (drop (S a) (take b h))) !! i = Some (now ra)).
    rewrite kept_timer; [apply lookup_insert|]. apply (between_all (fun e => e <> TimerStart i)). intros c r e Hc E ->. exact (Hn c r Hc E).
  Qed.

  Lemma k_begin s h a r i : h !! a = Some (r, CallStart i) -> k_from s h !! a = Some (Began (now r)).
  Proof. intros E. rewrite (k_lookup _ _ _ _ _ E). reflexivity. Qed.
  Lemma k_end s h i a b ra rb : call h i a b ra rb -> k_from s h !! b = Some (Ended (now rb) (go_sub (now rb) (now ra))).
  Proof. intros H. pose proof H as (_ & _ & Hb & _). rewrite (k_lookup _ _ _ _ _ Hb). cbn. rewrite (call_kept _ _ _ _ _ _ _ _ H). reflexivity. Qed.
  Lemma k_duration s h i a b ra rb : pair_at (CallStart i) (CallDuration i) h a b ra rb -> k_from s h !! b = Some (Lasted (go_since (now ra) rb)).
  Proof. intros H. pose proof H as (_ & _ & Hb & _). rewrite (k_lookup _ _ _ _ _ Hb). cbn. rewrite (call_kept _ _ _ _ _ _ _ _ H). reflexivity. Qed.
  Lemma k_timer s h i a b ra rb : pair_at (TimerStart i) (TimerElapsed i) h a b ra rb -> k_from s h !! b = Some (Lasted (go_since (now ra) rb)).
  Proof. intros H. pose proof H as (_ & _ & Hb & _). rewrite (k_lookup _ _ _ _ _ Hb). cbn. rewrite (timer_kept _ _ _ _ _ _ _ _ H). reflexivity. Qed.
  Lemma k_shown s h a t : time_shown (k_from s h) a t -> exists r e, h !! a = Some (r, e) /\ t = now r.
  Proof.
    intros [E|[d E]]; destruct (k_lookup_inv _ _ _ _ E) as (r & e & Eh & Eo); exists r, e; (split; [exact Eh|]);
      destruct e; cbn in Eo; try discriminate; try (destruct (_ !! i); discriminate).
    - congruence.
    - destruct (_ !! i); [|discriminate]. congruence.
  Qed.
End known.

(** ** Not Windows *)
Definition plain_now (r0 r : reading) : gotime := GoTime (rd_wall r0 + (rd_mono r - rd_mono r0)) (Some (rd_mono r)).
Lemma good_at r0 h a r e : good_clock r0 h -> h !! a = Some (r, e) -> 0 <= rd_mono r0 <= rd_mono r /\ rd_mono r < 2 ^ 63.
Proof. intros H E. pose proof (H a a r e r e ltac:(lia) E E). lia. Qed.
Lemma other_now r0 r : 0 <= rd_mono r0 <= rd_mono r -> rd_mono r < 2 ^ 63 -> mono_now Other (go_now r0) r = Ok (plain_now r0 r).
Proof.
  intros H1 H2. unfold mono_now, elapsed, go_since, go_sub, go_now, go_add, plain_now. cbn [gt_mono gt_wall]. rewrite clamp64_id by lia.
  rewrite bool_decide_eq_true_2 by lia. repeat f_equal. lia.
Qed.
Lemma other_run r0 h : good_clock r0 h -> time_run Other r0 h = Ok (k_from (plain_now r0) (TState ∅ ∅) h).
Proof.
  intros H. apply t_from_known, Forall_lookup. intros a [r e] E. destruct (good_at _ _ _ _ _ H E). apply other_now; assumption.
Qed.
Lemma other_sub r0 ra rb : go_sub (plain_now r0 rb) (plain_now r0 ra) = clamp64 (rd_mono rb - rd_mono ra).
Proof. reflexivity. Qed.
Lemma other_since r0 ra rb : go_since (plain_now r0 ra) rb = clamp64 (rd_mono rb - rd_mono ra).
Proof. reflexivity. Qed.
Lemma good_pair r0 h start stop a b ra rb : good_clock r0 h -> pair_at start stop h a b ra rb -> clamp64 (rd_mono rb - rd_mono ra) = rd_mono rb - rd_mono ra /\ 0 <= rd_mono rb - rd_mono ra.
Proof. intros H (Hab & Ha & Hb & _). pose proof (H a b ra _ rb _ ltac:(lia) Ha Hb). rewrite clamp64_id by lia. lia. Qed.

(** ** Windows *)
Definition qpc_ns (freq base : Z) (r : reading) : Z := (rd_qpc r - base) * 1000000000 / freq.
Definition win_now (freq base : Z) (r0 r : reading) : gotime := go_add (go_now r0) (qpc_ns freq base r).
Lemma counter_at freq base h a r e : good_counter freq base h -> h !! a = Some (r, e) ->
  win_elapsed freq base (rd_qpc r) = Ok (qpc_ns freq base r) /\ 0 <= qpc_ns freq base r < 2 ^ 63.
Proof.
  intros (Hf & Hb & H) E. destruct (H a a r e r e ltac:(lia) E E) as (H1 & H2 & H3). unfold in64 in Hb. split.
  - apply C50_clock_exact; unfold in64; lia.
  - unfold qpc_ns. split; [apply Z.div_pos; lia|]. apply Z.div_lt_upper_bound; nia.
Qed.
Lemma win_run freq base r0 h : good_counter freq base h -> time_run (Windows freq base) r0 h = Ok (k_from (win_now freq base r0) (TState ∅ ∅) h).
Proof.
  intros H. apply t_from_known, Forall_lookup. intros a [r e] E. destruct (counter_at _ _ _ _ _ _ H E) as [Ew _].
  unfold mono_now, elapsed. cbn [fst]. rewrite Ew. reflexivity.
Qed.
Lemma win_sub freq base r0 h a b ra ea rb eb : good_counter freq base h -> (a <= b)%nat -> h !! a = Some (ra, ea) -> h !! b = Some (rb, eb) ->
  go_sub (win_now freq base r0 rb) (win_now freq base r0 ra) = qpc_ns freq base rb - qpc_ns freq base ra /\ qpc_ns freq base ra <= qpc_ns freq base rb.
Proof.
  intros H Hab Ea Eb. destruct (counter_at _ _ _ _ _ _ H Ea) as [_ Ra]. destruct (counter_at _ _ _ _ _ _ H Eb) as [_ Rb].
  assert (L : qpc_ns freq base ra <= qpc_ns freq base rb).
  { destruct H as (Hf & _ & H). destruct (H a b ra ea rb eb Hab Ea Eb) as (H1 & _). apply Z.div_le_mono; lia. }
  split; [|exact L]. unfold win_now, go_sub, go_add, go_now. cbn [gt_mono gt_wall].
  repeat case_bool_decide; cbn [gt_mono]; rewrite clamp64_id by lia; lia.
Qed.

(** ** Consequences *)
Section consequences.
  Variables (r0 : reading) (h : list (reading * tev)) (out : list shown).
  Hypotheses (Hg : good_clock r0 h) (Hr : time_run Other r0 h = Ok out).
  Lemma out_is : out = k_from (plain_now r0) (TState ∅ ∅) h.
  Proof. rewrite (other_run _ _ Hg) in Hr. injection Hr as <-. reflexivity. Qed.
  Lemma recorded_is a b d : recorded_as h out a b d -> (a < b)%nat /\ exists ra ea rb eb, h !! a = Some (ra, ea) /\ h !! b = Some (rb, eb) /\ d = rd_mono rb - rd_mono ra.
  Proof.
    intros (i & ra & rb & f & Hc & Eo). pose proof Hc as (Hab & Ha & Hb & _). split; [exact Hab|]. exists ra, (CallStart i), rb, (CallEnd i). split_and!; [exact Ha|exact Hb|].
    rewrite out_is, (k_end _ _ _ _ _ _ _ _ Hc), other_sub in Eo. injection Eo as _ <-. apply (good_pair _ _ _ _ _ _ _ _ Hg Hc).
  Qed.
  Lemma one_after_another_le ds : forall a b ra ea rb eb, one_after_another h out a ds b -> h !! a = Some (ra, ea) -> h !! b = Some (rb, eb) ->
    (a <= b)%nat /\ foldr Z.add 0 ds <= rd_mono rb - rd_mono ra.
  Proof.
    induction ds as [|d ds IH]; intros a b ra ea rb eb H Ea Eb.
    - cbn in H. split; [exact H|]. pose proof (Hg a b ra ea rb eb H Ea Eb). cbn. lia.
    - destruct H as (x & y & Hax & Hrec & Hrest). destruct (recorded_is _ _ _ Hrec) as (Hxy & rx & ex & ry & ey & Ex & Ey & ->).
      destruct (IH y b ry ey rb eb Hrest Ey Eb) as [Hyb Hs]. split; [lia|]. cbn [foldr].
      pose proof (Hg a x ra ea rx ex Hax Ea Ex). lia.
  Qed.
End consequences.
