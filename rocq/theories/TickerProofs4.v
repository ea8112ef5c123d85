(** What follows from the invariant of the ticker (for C87). *)
From Verif Require Import Base BaseProofs SeriesModel Fval MeterModel MeterSpec MeterProofs TickerModel TickerSpec TickerProofs TickerProofs2 TickerProofs3.
Local Open Scope Z_scope.
Local Arguments wrap64 : simpl never.
Local Notation T := timePerTick.
Local Opaque timePerTick.

Lemma started_inv s : TInv s -> registered (t_log s) <> [] \/ t_gos s <> [] \/ t_log s <> [] ->
  t_started s = true /\ starts (t_log s) = 1%nat /\ exists g, t_gos s = [g] /\ in_pass s g /\ timed (t_clock s) g (t_log s).
Proof.
  intros (_ & _ & H) Hne. destruct (t_started s); [auto|]. destruct H as [Hg Hl]. rewrite Hg, Hl in Hne.
  destruct Hne as [Hne|[Hne|Hne]]; destruct Hne; reflexivity.
Qed.

Lemma goroutines s : TInv s ->
  length (t_gos s) = starts (t_log s) /\ (starts (t_log s) <= 1)%nat /\ (registered (t_log s) <> [] -> starts (t_log s) = 1%nat).
Proof.
  intros (_ & _ & H). destruct (t_started s).
  - destruct H as (H & g & -> & _). rewrite H. cbn. auto.
  - destruct H as [-> ->]. cbn. split_and!; auto. intros Hn. destruct Hn. reflexivity.
Qed.

Lemma seen_NoDup s p : TInv s -> NoDup (seen p (t_log s)).
Proof.
  intros ((H & _) & _). destruct (seen_prefix p (t_log s)) as [l E]. rewrite E in H. apply NoDup_app in H. tauto.
Qed.
Lemma ticked_later clock g log p : timed clock g log -> (g_pass g < p)%nat -> ticked p log = [].
Proof.
  intros Ht Hp. destruct (ticked p log) as [|m l] eqn:E; [reflexivity|exfalso].
  assert (Hin : m ∈ ticked p log) by (rewrite E; left).
  unfold ticked in Hin. apply elem_of_list_omap in Hin as ([t e] & Hin & He).
  cbn in He. destruct e; try discriminate. destruct (decide _) as [->|]; [|discriminate].
  apply elem_of_list_In in Hin. destruct (timed_tick _ _ _ _ _ _ _ Ht Hin) as (_ & _ & Hle). lia.
Qed.
Lemma ticked_prefix s p : TInv s -> exists k, ticked p (t_log s) = take k (seen p (t_log s)).
Proof.
  intros (_ & _ & H). destruct (t_started s); [|destruct H as [_ ->]; exists 0%nat; reflexivity].
  destruct H as (_ & g & _ & (H1 & H2 & H3 & H4) & Ht). destruct (Nat.lt_trichotomy p (g_pass g)) as [Hlt|[->|Hgt]].
  - destruct (H1 p Hlt) as [-> _]. exists (length (seen p (t_log s))). rewrite take_ge by lia. reflexivity.
  - destruct (g_at g); try (destruct H4 as [_ ->]; exists 0%nat; reflexivity).
    + destruct H4 as (_ & -> & _). exists 0%nat; reflexivity.
    + destruct H4 as (_ & _ & -> & _). eauto.
  - exists 0%nat. rewrite (ticked_later _ _ _ _ Ht Hgt). reflexivity.
Qed.
Lemma ticked_NoDup s p : TInv s -> NoDup (ticked p (t_log s)).
Proof.
  intros H. destruct (ticked_prefix s p H) as [k ->]. pose proof (seen_NoDup s p H) as Hn.
  rewrite <- (take_drop k (seen p (t_log s))) in Hn. apply NoDup_app in Hn. tauto.
Qed.
Lemma done_pass s t p : TInv s -> In (t, EDone p) (t_log s) -> ticked p (t_log s) = seen p (t_log s).
Proof.
  intros (_ & _ & H) Hin. destruct (t_started s); [|destruct H as [_ E]; rewrite E in Hin; destruct Hin].
  destruct H as (_ & g & _ & (H1 & H2 & H3 & H4) & Ht). apply H1. eauto.
Qed.

Lemma tick_spacing s t p m n t' p' m' n' : TInv s ->
  In (t, ETick p m n) (t_log s) -> In (t', ETick p' m' n') (t_log s) -> (p < p')%nat ->
  n + Z.of_nat (p' - p) * T <= n'.
Proof.
  intros H Hin Hin' Hlt. destruct (started_inv s H) as (_ & _ & g & _ & _ & Ht).
  { right; right. intros E. rewrite E in Hin. destruct Hin. }
  apply in_split in Hin as (l1 & l2 & E).
  destruct (Ht _ _ _ _ E) as (_ & _ & q & _ & [<- Hn] & Hl2 & _).
  rewrite E in Hin'. apply in_app_or in Hin' as [Hin'|[Hin'|Hin']].
  - exfalso. apply in_split in Hin' as (x & y & ->). rewrite <- app_assoc in E. cbn in E.
    destruct (Ht _ _ _ _ E) as (_ & _ & q' & _ & [<- _] & Hl2' & _).
    destruct (Hl2' t p m n) as [Hle _]; [apply in_or_app; right; left; reflexivity|]. lia.
  - apply pair_equal_spec in Hin' as [_ Hin']. injection Hin' as -> _ _. lia.
  - destruct (Hl2 _ _ _ _ Hin') as [_ Hb]. specialize (Hb Hlt). lia.
Qed.

(** Ticks of one meter. *)
Definition passes (m : nat) (log : list (Z * tevent)) : list nat :=
  omap (fun e => match snd e with ETick p m' _ => if decide (m' = m) then Some p else None | _ => None end) log.
Lemma passes_NoDup m log : (forall p, NoDup (ticked p log)) -> NoDup (passes m log).
Proof.
  induction log as [|[t e] log IH]; intros H; [constructor|].
  assert (H' : forall p, NoDup (ticked p log)).
  { intros p. specialize (H p). unfold ticked in *. cbn in H. destruct e; try exact H. destruct (decide _); [|exact H]. apply NoDup_cons in H. tauto. }
  unfold passes. cbn. fold (passes m log). destruct e; try (apply IH; exact H').
  destruct (decide _) as [->|]; [|apply IH; exact H']. apply NoDup_cons. split; [|apply IH; exact H'].
  intros Hin. specialize (H pass). unfold ticked in H. cbn in H. fold (ticked pass log) in H. destruct (decide _); [|congruence].
  apply NoDup_cons in H as [H _]. apply H. unfold passes in Hin.
  apply elem_of_list_omap in Hin as ([t' e'] & Hin & He). cbn in He. destruct e'; try discriminate.
  destruct (decide _) as [->|]; [|discriminate]. apply Some_inj in He as ->.
  apply elem_of_list_omap. exists (t', ETick pass m now0). split; [exact Hin|]. cbn. destruct (decide _); [reflexivity|congruence].
Qed.
Lemma ticked_app p l1 l2 : ticked p (l1 ++ l2) = ticked p l1 ++ ticked p l2.
Proof. apply omap_app. Qed.
Definition no_ticks_used (log : list (Z * tevent)) : Prop := forall t m o, In (t, EOp m o) log -> is_tick o = false.
Lemma nticks_passes m log : no_ticks_used log -> nticks (ops m log) = length (passes m log).
Proof.
  intros H. induction log as [|[t e] log IH]; [reflexivity|].
  specialize (IH ltac:(intros t' m' o' Hin; eapply H; right; exact Hin)).
  unfold ops, passes. cbn. fold (ops m log) (passes m log). destruct e; try exact IH.
  - destruct (decide _); [|exact IH]. unfold nticks in *. cbn. lia.
  - destruct (decide _); [|exact IH]. unfold nticks in *. cbn [List.filter].
    rewrite (H t m0 o) by (left; reflexivity). exact IH.
Qed.
Lemma no_ticks_run acts : no_ticks_used (t_log (t_run acts)).
Proof.
  unfold t_run. assert (H0 : no_ticks_used (t_log t_init)) by (intros t m o []).
  revert H0. generalize t_init. induction acts as [|a acts IH]; intros s H; [exact H|]. cbn. apply IH. clear IH.
  destruct s as [clock st ar sl gos ms log]. cbn [t_log] in H.
  assert (Hext : forall l, (forall m o, In (EOp m o) l -> is_tick o = false) -> no_ticks_used (log ++ map (pair clock) l)).
  { intros l Hl t m o Hin. apply in_app_or in Hin as [Hin|Hin]; [eauto|].
    apply in_map_iff in Hin as (e & E & Hin). apply pair_equal_spec in E as [_ ->]. eauto. }
  destruct a as [|m room|m u|i|d]; cbn [t_step]; try exact H.
  - destruct (ms !! m) as [[[t0 mt] b]|]; [|exact H]. destruct b; [exact H|].
    destruct (append_slice ar sl m room). cbn [t_log]. apply Hext.
    intros m' o Hin. apply in_app_or in Hin as [Hin|[Hin|[]]]; [|discriminate]. destruct st; [destruct Hin|destruct Hin as [Hin|[]]; discriminate].
  - destruct (ms !! m) as [[[t0 mt] b]|]; [|exact H]. destruct b; [|exact H]. cbn [t_log].
    apply (Hext [EOp m (user_meter_op clock u)]). intros m' o [Hin|[]]. injection Hin as _ <-. destruct u; reflexivity.
  - destruct (gos !! i) as [g|]; [|exact H]. destruct g as [P a]. destruct a as [|u| |sl1|now sl1 k]; cbn [run_step g_at g_pass t_log].
    + apply Hext. intros ? ? [].
    + destruct (u <=? clock); [|exact H]. cbn [t_log]. apply Hext. intros ? ? [].
    + apply Hext. intros ? ? [Hin|[]]. discriminate.
    + apply Hext. intros ? ? [].
    + destruct (k <? snd sl1)%nat; [|cbn [t_log]; apply Hext; intros ? ? [Hin|[]]; discriminate].
      destruct (ar !! fst sl1 ≫= _); [|exact H]. cbn [t_log]. apply Hext. intros ? ? [Hin|[]]. discriminate.
Qed.

(** A mark stays in the window for 230 minutes. *)
Lemma recent_mark acts m t a l1 l2 t0 mt b :
  let s := t_run acts in
  t_log s = l1 ++ (t, EOp m (MMark a)) :: l2 -> t_meters s !! m = Some (t0, mt, b) ->
  t_clock s < t + 23 * T -> Forall (fun o => is_reset o = false) (ops m l2) ->
  exists older recent start,
    ops m (t_log s) = older ++ recent /\ (exists x, recent = x ++ MMark a :: ops m l2) /\ start <= t /\
    meter_Rate mt (t_clock s) =
      if 0 <? t_clock s - start then FRatio (wrap64 (sum_marks recent)) (t_clock s - start) else FInt 0.
Proof.
  intros s El Em Hrecent Hr. pose proof (run_TInv acts) as Hinv. fold s in Hinv.
  pose proof (no_ticks_run acts) as Hnt. fold s in Hnt. clearbody s. pose proof T_pos as HT.
  destruct (started_inv s Hinv) as (_ & _ & g & _ & _ & Ht).
  { right; right. rewrite El. destruct l1; discriminate. }
  pose proof Hinv as ((_ & _ & M3 & M4 & M5) & _).
  destruct (M3 _ _ _ _ Em) as [-> _].
  assert (Eo : ops m (t_log s) = ops m l1 ++ MMark a :: ops m l2).
  { rewrite El, ops_app. f_equal. unfold ops at 1. cbn. destruct (decide _); [reflexivity|congruence]. }
  destruct (Ht _ _ _ _ El) as (Htc & Hs & q & Hq & _ & Hl2 & _).
  (* at most 23 ticks since *)
  assert (Hticks : (nticks (ops m l2) <= 23)%nat).
  { rewrite nticks_passes by (intros t' m' o' Hin; apply (Hnt t' m' o'); rewrite El; apply in_or_app; right; right; exact Hin).
    assert (Hn : NoDup (passes m l2)).
    { apply passes_NoDup. intros p. pose proof (ticked_NoDup s p Hinv) as Hn. rewrite El, ticked_app in Hn.
      apply NoDup_app in Hn as (_ & _ & Hn). exact Hn. }
    assert (Hsub : passes m l2 ⊆+ seq q 23).
    { apply NoDup_submseteq; [exact Hn|]. intros p Hp. apply elem_of_list_omap in Hp as ([t' e'] & Hin & He).
      cbn in He. destruct e'; try discriminate. destruct (decide _); [|discriminate]. apply Some_inj in He as ->. subst m0.
      apply elem_of_list_In in Hin. destruct (Hl2 _ _ _ _ Hin) as [Hle Hb].
      destruct (timed_tick _ _ _ t' p m now Ht) as (Hn1 & Hn2 & _).
      { rewrite El. apply in_or_app. right; right. exact Hin. }
      apply elem_of_list_In, in_seq. split; [exact Hle|].
      destruct (decide (q < p)%nat) as [Hlt|]; [|lia]. specialize (Hb Hlt).
      assert (Z.of_nat (p - q) < 23) by nia. lia. }
    apply submseteq_length in Hsub. rewrite seq_length in Hsub. exact Hsub. }
  rewrite Eo.
  destruct (window_covers t0 (ops m l1) a (ops m l2) Hr Hticks) as (older & recent & st & E & Hx & Hop & Hhead & Hsum).
  exists older, recent, st. split; [exact E|]. split; [exact Hx|]. split.
  - (* the oldest bucket was opened before the mark *)
    destruct Hx as [x ->]. rewrite app_assoc in E. 
    assert (E1 : ops m l1 = older ++ x).
    { apply (app_inv_tail (MMark a :: ops m l2)). exact E. }
    assert (Hmem : forall o, In o older -> exists t' e', In (t', e') l1 /\
       ((exists p n, e' = ETick p m n /\ o = MTick n) \/ e' = EOp m o)).
    { intros o Ho. assert (Hin : o ∈ ops m l1) by (rewrite E1; apply elem_of_app; left; apply elem_of_list_In; exact Ho).
      apply elem_of_list_omap in Hin as ([t' e'] & Hin & He). apply elem_of_list_In in Hin. exists t', e'. split; [exact Hin|].
      cbn in He. destruct e'; try discriminate; (destruct (decide _) as [->|]; [|discriminate]); apply Some_inj in He as <-; eauto. }
    destruct Hop as [[_ ->]|[[pre' ->]|(pre' & y & ->)]].
    + destruct (M4 t (EOp m (MMark a)) m) as [_ H]; [rewrite El; apply in_or_app; right; left; reflexivity|reflexivity|]. eauto.
    + destruct (Hmem (MTick st)) as (t' & e' & Hin & [(p & n & -> & Hn)| ->]); [apply in_or_app; right; left; reflexivity| |].
      * injection Hn as ->. destruct (timed_tick _ _ _ t' p m n Ht) as (Hn & _); [rewrite El; apply in_or_app; left; exact Hin|].
        specialize (Hs _ _ Hin). lia.
      * specialize (Hnt t' m (MTick st) ltac:(rewrite El; apply in_or_app; left; exact Hin)). discriminate.
    + destruct (Hmem (MReset y st)) as (t' & e' & Hin & [(p & n & _ & Hn)| ->]); [apply in_or_app; right; left; reflexivity|discriminate|].
      rewrite (M5 t' m y st) by (rewrite El; apply in_or_app; left; exact Hin). apply (Hs _ _ Hin).
  - destruct (meter_rate_ledger t0 (ops m l1 ++ MMark a :: ops m l2) (t_clock s)) as (oldest & Ho & ->).
    rewrite Ho in Hhead. cbn in Hhead. apply Some_inj in Hhead as ->. rewrite Hsum. reflexivity.
Qed.

(** The goroutine goes on. *)
Definition runs (n : nat) (s : tstate) : tstate := fold_left t_step (replicate n (ARun 0)) s.
Lemma runs_S n s : runs (S n) s = runs n (t_step s (ARun 0)).
Proof. reflexivity. Qed.
Lemma runs_add n k s : runs (n + k) s = runs k (runs n s).
Proof. unfold runs. rewrite replicate_add, fold_left_app. reflexivity. Qed.
Lemma runs_TInv n s : TInv s -> TInv (runs n s).
Proof. revert s. induction n as [|n IH]; intros s H; [exact H|]. rewrite runs_S. apply IH, step_inv, H. Qed.

Definition keeps (s s' : tstate) : Prop :=
  t_clock s' = t_clock s /\ registered (t_log s') = registered (t_log s) /\ exists l, t_log s' = t_log s ++ l.
Lemma keeps_refl s : keeps s s.
Proof. split_and!; auto. exists []. rewrite app_nil_r. reflexivity. Qed.
Lemma keeps_same s s' : t_clock s' = t_clock s -> t_log s' = t_log s -> keeps s s'.
Proof. intros E1 E2. split; [exact E1|]. rewrite E2. split; [reflexivity|]. exists []. rewrite app_nil_r. reflexivity. Qed.
Lemma keeps_trans a b c : keeps a b -> keeps b c -> keeps a c.
Proof.
  intros (A1 & A2 & l & A3) (B1 & B2 & l' & B3). split_and!; [congruence|congruence|].
  exists (l ++ l'). rewrite B3, A3, app_assoc. reflexivity.
Qed.
Lemma keeps_ev clock st ar sl gs ms log gs' ms' e : (forall m, e <> ERegister m) ->
  keeps (TState clock st ar sl gs ms log) (TState clock st ar sl gs' ms' (log ++ [(clock, e)])).
Proof.
  intros He. split_and!; cbn [t_clock t_log]; [reflexivity| |eauto]. rewrite registered_snoc.
  destruct e; try apply app_nil_r. destruct (He m eq_refl).
Qed.

Lemma finish s P now ms k : TInv s -> t_gos s = [Go P (LRange now ms k)] ->
  exists n, let s' := runs n s in t_gos s' = [Go (S P) LSleep] /\ keeps s s' /\ exists t, In (t, EDone P) (t_log s').
Proof.
  remember (snd ms - k)%nat as d eqn:Ed. revert s k Ed. induction d as [|d IH]; intros s k Ed H Hg.
  - exists 1%nat. destruct s as [clock st ar sl gos mts log]. cbn [t_gos] in Hg. subst gos.
    cbn [runs replicate fold_left t_step lookup list_lookup run_step g_at g_pass].
    destruct (Nat.ltb_spec k (snd ms)); [lia|]. split; [reflexivity|]. split; [apply keeps_ev; discriminate|].
    exists clock. apply in_or_app. right. left. reflexivity.
  - destruct (started_inv s H) as (_ & _ & g & Hg' & (_ & _ & _ & Hp) & _); [right; left; rewrite Hg; discriminate|].
    rewrite Hg in Hg'. injection Hg' as <-. cbn [g_at] in Hp. destruct Hp as (_ & (arr & Ha & Hl & _) & _ & Hk & _).
    pose proof (step_inv s (ARun 0) H) as H1.
    assert (Hst : exists m, t_gos (t_step s (ARun 0)) = [Go P (LRange now ms (S k))] /\ keeps s (t_step s (ARun 0)) /\ m = 0%nat).
    { exists 0%nat. destruct s as [clock st ar sl gos mts log]. cbn [t_gos t_arrays] in *. subst gos.
      cbn [t_step lookup list_lookup run_step g_at g_pass].
      destruct (Nat.ltb_spec k (snd ms)); [|lia].
      change (list_lookup (fst ms) ar) with (ar !! fst ms). 
      match goal with |- context [match ?x with Some _ => _ | None => _ end] => replace x with (arr !! k) end.
      2: { unfold mbind, option_bind. rewrite Ha. reflexivity. }
      destruct (lookup_lt_is_Some_2 arr k ltac:(lia)) as [m ->].
      split; [reflexivity|]. split; [apply keeps_ev; discriminate|reflexivity]. }
    destruct Hst as (_ & Hg1 & Hk1 & _).
    destruct (IH (t_step s (ARun 0)) (S k) ltac:(lia) H1 Hg1) as (n & Hgn & Hkn & Hdone).
    exists (S n). cbv zeta. rewrite runs_S. split; [exact Hgn|]. split; [|exact Hdone]. eapply keeps_trans; eassumption.
Qed.

Lemma from_lock s P : TInv s -> t_gos s = [Go P LLock] ->
  exists n, let s' := runs n s in t_gos s' = [Go (S P) LSleep] /\ keeps s s' /\ (exists t, In (t, EDone P) (t_log s')) /\
    seen P (t_log s') = registered (t_log s).
Proof.
  intros H Hg. destruct (started_inv s H) as (_ & _ & g & Hg' & (_ & _ & _ & Hp) & _); [right; left; rewrite Hg; discriminate|].
  rewrite Hg in Hg'. injection Hg' as <-. cbn [g_at g_pass] in Hp. destruct Hp as [Hns _].
  pose proof (runs_TInv 2 s H) as H2.
  assert (Hst : exists sl, t_gos (runs 2 s) = [Go P (LRange (t_clock s) sl 0)] /\ keeps s (runs 2 s) /\
     t_log (runs 2 s) = t_log s ++ [(t_clock s, ESnap P)]).
  { exists (t_slice s). destruct s as [clock st ar sl gos mts log]. cbn [t_gos] in Hg. subst gos.
    cbn. rewrite app_nil_r. split; [reflexivity|]. split; [apply keeps_ev; discriminate|reflexivity]. }
  destruct Hst as (sl & Hg2 & Hk2 & El).
  destruct (finish _ _ _ _ _ H2 Hg2) as (n & Hgn & Hkn & Hdone). exists (2 + n)%nat. cbv zeta. rewrite runs_add.
  split; [exact Hgn|]. split; [eapply keeps_trans; eassumption|]. split; [exact Hdone|].
  destruct Hkn as (_ & _ & l & ->). unfold seen. rewrite before_snap_snapped.
  - rewrite El. apply seen_now. exact Hns.
  - rewrite El. apply snapped_snoc. auto.
Qed.

Definition sleeps_bounded (s : tstate) : Prop :=
  Forall (fun g => match g_at g with LSleeping u => u <= t_clock s + T | _ => True end) (t_gos s).
Lemma sleeps_bounded_step s a : sleeps_bounded s -> sleeps_bounded (t_step s a).
Proof.
  destruct s as [clock st ar sl gos ms log]. unfold sleeps_bounded. intros H. cbn [t_gos t_clock] in H.
  destruct a as [|m room|m u|i|d]; cbn [t_step]; try exact H.
  - destruct (ms !! m) as [[[t0 mt] b]|]; [|exact H]. destruct b; [exact H|].
    destruct (append_slice ar sl m room). cbn [t_gos t_clock]. destruct st; [exact H|].
    apply Forall_app. split; [exact H|]. apply Forall_cons_2; [exact I|apply Forall_nil_2].
  - destruct (ms !! m) as [[[t0 mt] b]|]; [|exact H]. destruct b; exact H.
  - destruct (gos !! i) as [g|]; [|exact H]. destruct g as [P a].
    destruct a as [|u| |sl1|now sl1 k]; cbn [run_step g_at g_pass t_gos t_clock].
    + apply Forall_insert; [exact H|]. cbn. lia.
    + destruct (u <=? clock); [|exact H]. cbn [t_gos t_clock]. apply Forall_insert; [exact H|exact I].
    + apply Forall_insert; [exact H|exact I].
    + apply Forall_insert; [exact H|exact I].
    + destruct (k <? snd sl1)%nat; [|cbn [t_gos t_clock]; apply Forall_insert; [exact H|exact I]].
      destruct (ar !! fst sl1 ≫= _); [|exact H]. cbn [t_gos t_clock]. apply Forall_insert; [exact H|exact I].
  - cbn [t_gos t_clock]. eapply Forall_impl; [exact H|]. intros g. cbn. destruct (g_at g); try tauto. lia.
Qed.
Lemma sleeps_bounded_run acts : sleeps_bounded (t_run acts).
Proof.
  unfold t_run. assert (H0 : sleeps_bounded t_init) by (constructor).
  revert H0. generalize t_init. induction acts as [|a acts IH]; intros s H; [exact H|]. cbn. apply IH, sleeps_bounded_step, H.
Qed.

Lemma to_sleep s : TInv s -> sleeps_bounded s -> registered (t_log s) <> [] ->
  exists n P u, t_gos (runs n s) = [Go P (LSleeping u)] /\ u <= t_clock s + T /\ keeps s (runs n s).
Proof.
  intros H Hb Hne. destruct (started_inv s H (or_introl Hne)) as (_ & _ & g & Hg & _ & _). clear Hne.
  assert (Hsleep : forall s P, t_gos s = [Go P LSleep] -> exists P u, t_gos (runs 1 s) = [Go P (LSleeping u)] /\ u <= t_clock s + T /\ keeps s (runs 1 s)).
  { intros s' P' Hg'. exists P', (t_clock s' + T). destruct s' as [clock st ar sl gos mts log]. cbn [t_gos] in Hg'. subst gos.
    cbn. rewrite app_nil_r. split; [reflexivity|]. split; [lia|]. apply keeps_same; reflexivity. }
  assert (Hthen : forall n, (exists P, t_gos (runs n s) = [Go P LSleep]) -> keeps s (runs n s) ->
     exists n P u, t_gos (runs n s) = [Go P (LSleeping u)] /\ u <= t_clock s + T /\ keeps s (runs n s)).
  { intros n [P' Hg'] Hk. destruct (Hsleep _ _ Hg') as (P1 & u & Hg1 & Hu & Hk1).
    exists (n + 1)%nat, P1, u. rewrite runs_add. split; [exact Hg1|]. split; [destruct Hk as (Hc & _); rewrite Hc in Hu; exact Hu|].
    eapply keeps_trans; eassumption. }
  destruct g as [P a]. destruct a as [|u| |sl1|now sl1 k].
  - apply (Hthen 0%nat); [exists P; exact Hg|apply keeps_refl].
  - exists 0%nat, P, u. split; [exact Hg|]. split; [|apply keeps_refl]. unfold sleeps_bounded in Hb. rewrite Hg in Hb.
    apply Forall_cons in Hb as [Hb _]. exact Hb.
  - destruct (from_lock s P H Hg) as (n & Hgn & Hkn & _). apply (Hthen n); [eauto|exact Hkn].
  - assert (Hst : t_gos (runs 1 s) = [Go P (LRange (t_clock s) sl1 0)] /\ keeps s (runs 1 s)).
    { destruct s as [clock st ar sl gos mts log]. cbn [t_gos] in Hg. subst gos. cbn. rewrite app_nil_r. split; [reflexivity|apply keeps_same; reflexivity]. }
    destruct Hst as [Hg1 Hk1]. destruct (finish _ _ _ _ _ (runs_TInv 1 s H) Hg1) as (n & Hgn & Hkn & _).
    rewrite <- runs_add in Hgn, Hkn. apply (Hthen (1 + n)%nat); [eauto|]. eapply keeps_trans; eassumption.
  - destruct (finish _ _ _ _ _ H Hg) as (n & Hgn & Hkn & _). apply (Hthen n); [eauto|exact Hkn].
Qed.

Lemma next_tick acts m : In m (registered (t_log (t_run acts))) ->
  exists n1 n2, let s' := t_run (acts ++ replicate n1 (ARun 0) ++ [ATime T] ++ replicate n2 (ARun 0)) in
    exists new t p now, t_log s' = t_log (t_run acts) ++ new /\ In (t, ETick p m now) new.
Proof.
  intros Hm. set (s := t_run acts) in *. pose proof (run_TInv acts) as H. fold s in H.
  pose proof (sleeps_bounded_run acts) as Hb. fold s in Hb.
  destruct (to_sleep s H Hb) as (n1 & P & u & Hg1 & Hu & Hk1).
  { intros E. rewrite E in Hm. destruct Hm. }
  pose proof (runs_TInv n1 s H) as H1. set (s1 := runs n1 s) in *.
  pose proof (step_inv s1 (ATime T) H1) as H2. set (s2 := t_step s1 (ATime T)) in *.
  pose proof T_pos as HT.
  assert (E2 : t_gos s2 = [Go P (LSleeping u)] /\ u <= t_clock s2 /\ t_log s2 = t_log s1).
  { destruct Hk1 as (Hc & _). unfold s2. destruct s1 as [clock st ar sl gos mts log]. cbn in *. split_and!; auto. lia. }
  destruct E2 as (Hg2 & Hu2 & El2).
  pose proof (runs_TInv 1 s2 H2) as H3.
  assert (E3 : t_gos (runs 1 s2) = [Go P LLock] /\ keeps s2 (runs 1 s2)).
  { clearbody s2. destruct s2 as [clock st ar sl gos mts log]. cbn [t_gos t_clock] in *. subst gos. cbn.
    destruct (Z.leb_spec u clock); [|lia]. cbn. rewrite app_nil_r. split; [reflexivity|apply keeps_same; reflexivity]. }
  destruct E3 as [Hg3 Hk3].
  destruct (from_lock _ _ H3 Hg3) as (n2 & Hg4 & Hk4 & (t & Hdone) & Hseen).
  exists n1, (1 + n2)%nat. cbv zeta.
  replace (t_run (acts ++ replicate n1 (ARun 0) ++ [ATime T] ++ replicate (1 + n2) (ARun 0))) with (runs n2 (runs 1 s2)).
  2: { unfold t_run. rewrite !fold_left_app. rewrite <- runs_add. reflexivity. }
  set (s4 := runs n2 (runs 1 s2)) in *.
  assert (H4 : TInv s4) by (apply runs_TInv; exact H3).
  assert (Hmt : In m (ticked P (t_log s4))).
  { rewrite (done_pass s4 t P H4 Hdone), Hseen. destruct Hk3 as (_ & -> & _). rewrite El2. destruct Hk1 as (_ & -> & _). exact Hm. }
  destruct (keeps_trans _ _ _ Hk3 Hk4) as (_ & _ & l & El4). rewrite El2 in El4.
  destruct Hk1 as (_ & _ & l1 & El1).
  destruct (started_inv s2 H2) as (_ & _ & g & Hg' & (_ & _ & _ & Hp) & _); [right; left; rewrite Hg2; discriminate|].
  rewrite Hg2 in Hg'. injection Hg' as <-. cbn [g_at g_pass] in Hp. destruct Hp as [_ Hnil]. rewrite El2 in Hnil.
  rewrite El4, ticked_app, Hnil in Hmt. cbn [app] in Hmt.
  apply elem_of_list_In, elem_of_list_omap in Hmt as ([t' e] & Hin & He). cbn in He. destruct e; try discriminate.
  destruct (decide _) as [->|]; [|discriminate]. apply Some_inj in He as ->. apply elem_of_list_In in Hin.
  exists (l1 ++ l), t', P, now. split; [rewrite El4, El1, app_assoc; reflexivity|]. apply in_or_app. right. exact Hin.
Qed.
