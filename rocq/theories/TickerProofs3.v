(** Every step keeps the invariant of the ticker (for C87). *)
From Verif Require Import Base BaseProofs SeriesModel Fval MeterModel MeterSpec MeterProofs TickerModel TickerSpec TickerProofs TickerProofs2.
Local Open Scope Z_scope.
Local Arguments wrap64 : simpl never.
Local Notation T := timePerTick.
Local Opaque timePerTick.

Definition of_pass (e : tevent) : bool := match e with ESnap _ | ETick _ _ _ | EDone _ => true | _ => false end.

Lemma in_pass_other clock st ar sl gs ms log clock' st' ar' sl' gs' ms' c e g :
  in_pass (TState clock st ar sl gs ms log) g -> of_pass e = false -> clock <= clock' ->
  (forall s l, holds ar sl s l -> holds ar' sl' s l) ->
  in_pass (TState clock' st' ar' sl' gs' ms' (log ++ [(c, e)])) g.
Proof.
  intros (H1 & H2 & H3 & H4) He Hc Hh. unfold in_pass. cbn [t_log t_arrays t_slice t_clock] in *.
  assert (Et : forall p, ticked p (log ++ [(c, e)]) = ticked p log).
  { intros p. rewrite ticked_snoc. destruct e; try apply app_nil_r; discriminate. }
  assert (Es : forall p, snapped p (log ++ [(c, e)]) <-> snapped p log).
  { intros p. rewrite snapped_snoc. split; [intros [H| ->]; [exact H|discriminate]|auto]. }
  split; [intros p Hp; destruct (H1 p Hp) as [H Hs]; rewrite Et, Es, seen_snoc by exact Hs; auto|].
  split; [intros p Hp; rewrite Es; auto|].
  split.
  { intros t p Hin. apply in_app_or in Hin as [Hin|[Hin|[]]]; [eauto|]. apply pair_equal_spec in Hin as [_ ->]. discriminate. }
  destruct (g_at g); rewrite Et, Es; try exact H4.
  - destruct H4 as (Hs & Ht & Hm). rewrite seen_snoc by exact Hs. auto.
  - destruct H4 as (Hs & Hm & Ht & Hk & Hn). rewrite seen_snoc by exact Hs. split_and!; auto. lia.
Qed.

Lemma holds_regs ar sl l l' : l = l' -> holds ar sl sl l -> holds ar sl sl l'.
Proof. intros ->. exact id. Qed.

Lemma bound_at clock clock' g g' p :
  g_pass g' = g_pass g -> (g_pass g <= p)%nat -> base clock (g_at g) <= base clock' (g_at g') ->
  (match g_at g with LRange n _ _ => n | a => base clock a end <= match g_at g' with LRange n _ _ => n | a => base clock' a end) ->
  bound clock g p <= bound clock' g' p.
Proof. intros E Hp H1 H2. unfold bound. rewrite E. destruct (decide _); lia. Qed.

Lemma run_inv s i g : TInv s -> t_gos s !! i = Some g -> TInv (run_step s i g).
Proof.
  destruct s as [clock st ar sl gos ms log]. intros (Hm & Hh & Hst) Hg. cbn [t_gos t_started t_log t_arrays t_slice t_clock] in *.
  destruct st; [|destruct Hst as [-> _]; discriminate].
  destruct Hst as (Hstart & g0 & -> & Hp & Ht).
  destruct i as [|i]; [|discriminate]. cbn in Hg. apply Some_inj in Hg as ->.
  destruct g as [P a]. pose proof T_pos as HT.
  pose proof Hp as (H1 & H2 & H3 & H4). cbn [t_log t_arrays t_slice t_clock g_pass g_at] in *.
  (* moving on without an event *)
  assert (Hmove : forall a', base clock a <= base clock a' ->
      (match a with LRange n _ _ => n | a => base clock a end <= match a' with LRange n _ _ => n | a => base clock a end) ->
      in_pass (TState clock true ar sl [Go P a'] ms log) (Go P a') ->
      TInv (TState clock true ar sl [Go P a'] ms log)).
  { intros a' Hb1 Hb2 Hip. split; [exact Hm|]. split; [exact Hh|]. cbn [t_started t_log t_gos t_clock]. split; [exact Hstart|].
    exists (Go P a'). split; [reflexivity|]. split; [exact Hip|].
    apply (timed_mono clock (Go P a)); [exact Ht|lia|cbn; lia|].
    intros p Hpp. apply bound_at; [reflexivity|exact Hpp|exact Hb1|]. cbn [g_at]. clear -Hb2. destruct a, a'; exact Hb2. }
  destruct a as [|u| |sl1|now sl1 k]; cbn [run_step g_at g_pass map].
  - rewrite app_nil_r. apply Hmove; cbn [base]; [lia|lia|]. unfold in_pass. cbn [g_pass g_at t_log]. auto.
  - destruct (Z.leb_spec u clock) as [Hu|Hu].
    + rewrite app_nil_r. apply Hmove; cbn [base]; [lia|lia|]. unfold in_pass. cbn [g_pass g_at t_log]. auto.
    + split; [exact Hm|]. split; [exact Hh|]. cbn. eauto 6.
  - (* the snapshot *)
    destruct H4 as [Hns Htk].
    split; [apply (meters_ok_quiet _ _ _ _ _ _ _ _ _ _ _ _ Hm); [reflexivity|discriminate]|].
    split. { cbn. eapply holds_regs; [|exact Hh]. rewrite registered_snoc, app_nil_r. reflexivity. }
    cbn [t_started t_log t_gos t_clock]. rewrite starts_snoc. split; [lia|].
    exists (Go P (LNow sl)). split; [reflexivity|]. split.
    + unfold in_pass. cbn [g_pass g_at t_log t_arrays t_slice].
      assert (Et : forall p, ticked p (log ++ [(clock, ESnap P)]) = ticked p log).
      { intros p. rewrite ticked_snoc. apply app_nil_r. }
      split; [intros p Hpp; destruct (H1 p Hpp) as [H Hs]; rewrite Et, seen_snoc by exact Hs; split; [exact H|apply snapped_snoc; auto]|].
      split; [intros p Hpp; rewrite snapped_snoc; intros [H|H]; [apply (H2 p Hpp H)|injection H as ->; lia]|].
      split; [intros t p Hin; apply in_app_or in Hin as [Hin|[Hin|[]]]; [eauto|discriminate]|].
      split; [apply snapped_snoc; auto|]. split; [rewrite Et; exact Htk|]. rewrite seen_now by exact Hns. exact Hh.
    + apply (timed_mono clock (Go P LLock)); [apply timed_snoc; [exact Ht|exact I]|lia|cbn; lia|].
      intros p Hpp. apply bound_at; cbn [g_pass g_at base] in *; auto; lia.
  - rewrite app_nil_r. apply Hmove; cbn [base]; [lia|lia|]. unfold in_pass. cbn [g_pass g_at t_log t_arrays t_slice t_clock].
    split; [exact H1|]. split; [exact H2|]. split; [exact H3|].
    destruct H4 as (Hs & Htk & Hhd). split_and!; auto; lia.
  - destruct H4 as (Hs & Hhd & Htk & Hk & Hnow).
    pose proof Hhd as (arr & Ha & Hl & Htake & _).
    destruct (Nat.ltb_spec k (snd sl1)) as [Hk'|Hk'].
    + rewrite Ha. cbn [mbind option_bind].
      destruct (lookup_lt_is_Some_2 arr k ltac:(lia)) as [m Hmk]. rewrite Hmk.
      assert (Hsm : seen P log !! k = Some m) by (rewrite <- Htake, lookup_take by exact Hk'; exact Hmk).
      assert (Hreg : In m (registered log)).
      { destruct (seen_prefix P log) as [l El]. rewrite El. apply in_or_app. left.
        apply elem_of_list_In. apply elem_of_list_lookup. eauto. }
      split; [apply (meters_ok_op _ _ _ _ _ _ _ _ _ _ _ _ _ _ Hm Hreg); [right; eauto|discriminate]|].
      split. { cbn. eapply holds_regs; [|exact Hh]. rewrite registered_snoc, app_nil_r. reflexivity. }
      cbn [t_started t_log t_gos t_clock]. rewrite starts_snoc. split; [lia|].
      exists (Go P (LRange now sl1 (S k))). split; [reflexivity|]. split.
      * unfold in_pass. cbn [g_pass g_at t_log t_arrays t_slice t_clock].
        split.
        { intros p Hpp. destruct (H1 p Hpp) as [H Hsp]. rewrite ticked_snoc, seen_snoc by exact Hsp.
          destruct (decide _); [lia|]. rewrite app_nil_r. split; [exact H|apply snapped_snoc; auto]. }
        split; [intros p Hpp; rewrite snapped_snoc; intros [H|H]; [apply (H2 p Hpp H)|discriminate]|].
        split; [intros t p Hin; apply in_app_or in Hin as [Hin|[Hin|[]]]; [eauto|discriminate]|].
        split; [apply snapped_snoc; auto|]. rewrite seen_snoc by exact Hs. split; [exact Hhd|].
        split; [|split; [lia|exact Hnow]].
        rewrite ticked_snoc. destruct (decide _); [|congruence]. rewrite Htk.
        symmetry. apply take_S_r. exact Hsm.
      * apply (timed_mono clock (Go P (LRange now sl1 k))).
        { apply timed_snoc; [exact Ht|]. cbn [g_pass]. split; [reflexivity|]. split; [exact Hnow|].
          unfold bound. cbn [g_pass g_at]. destruct (decide _); [|congruence]. lia. }
        { lia. } { cbn; lia. }
        intros p Hpp. apply bound_at; cbn [g_pass g_at base] in *; auto; lia.
    + (* the end of the pass *)
      assert (k = snd sl1) as -> by lia.
      split; [apply (meters_ok_quiet _ _ _ _ _ _ _ _ _ _ _ _ Hm); [reflexivity|discriminate]|].
      split. { cbn. eapply holds_regs; [|exact Hh]. rewrite registered_snoc, app_nil_r. reflexivity. }
      cbn [t_started t_log t_gos t_clock]. rewrite starts_snoc. split; [lia|].
      exists (Go (S P) LSleep). split; [reflexivity|]. split.
      * unfold in_pass. cbn [g_pass g_at t_log].
        assert (Et : forall p, ticked p (log ++ [(clock, EDone P)]) = ticked p log).
        { intros p. rewrite ticked_snoc. apply app_nil_r. }
        assert (Hfull : ticked P log = seen P log).
        { rewrite Htk, <- Htake, take_take, Nat.min_id. reflexivity. }
        assert (Hno : ~ snapped (S P) (log ++ [(clock, EDone P)])).
        { rewrite snapped_snoc. intros [H|H]; [apply (H2 (S P)); [lia|exact H]|discriminate]. }
        split.
        { intros p Hpp. assert (Hsp : ticked p log = seen p log /\ snapped p log).
          { destruct (decide (p = P)) as [->|Hne]; [auto|]. apply H1. lia. }
          destruct Hsp as [H Hsp]. rewrite Et, seen_snoc by exact Hsp. split; [exact H|apply snapped_snoc; auto]. }
        split; [intros p Hpp; rewrite snapped_snoc; intros [H|H]; [apply (H2 p); [lia|exact H]|discriminate]|].
        split; [intros t p Hin; apply in_app_or in Hin as [Hin|[Hin|[]]]; [specialize (H3 _ _ Hin); lia|apply pair_equal_spec in Hin as [_ Hin]; injection Hin as ->; lia]|].
        split; [exact Hno|]. rewrite Et.
        (* nothing of a later pass is in the log *)
        unfold ticked. destruct (omap _ log) as [|m l] eqn:E; [reflexivity|exfalso].
        assert (Hin : m ∈ ticked (S P) log) by (unfold ticked; rewrite E; left).
        unfold ticked in Hin. apply elem_of_list_omap in Hin as ([t e] & Hin & He).
        cbn in He. destruct e; try discriminate. destruct (decide _) as [->|]; [|discriminate].
        apply elem_of_list_In in Hin. destruct (timed_tick _ _ _ _ _ _ _ Ht Hin) as (_ & _ & Hle). cbn in Hle. lia.
      * apply (timed_mono clock (Go P (LRange now sl1 (snd sl1)))); [apply timed_snoc; [exact Ht|exact I]|lia|cbn; lia|].
        intros p Hpp. cbn [g_pass] in Hpp. unfold bound. cbn [g_pass g_at base].
        destruct (decide (p = P)); [lia|]. 
        replace (p - P)%nat with (S (p - S P)) by lia. destruct (decide _); lia.
Qed.

Lemma step_inv s a : TInv s -> TInv (t_step s a).
Proof.
  destruct s as [clock st ar sl gos ms log]. intros H. destruct a as [|m room|m u|i|d]; cbn [t_step].
  - (* a new meter *)
    destruct H as ((M1 & M2 & M3 & M4 & M5) & Hh & Hst). cbn [t_gos t_started t_log t_arrays t_slice t_clock t_meters] in *.
    assert (El : forall m e, (ms ++ [(clock, meter_new clock, false)]) !! m = Some e ->
       ms !! m = Some e \/ (m = length ms /\ e = (clock, meter_new clock, false))).
    { intros m e H. apply lookup_app_Some in H as [H|[Hle H]]; [auto|]. right.
      destruct (m - length ms)%nat as [|j] eqn:Ej; [|destruct j; discriminate]. cbn in H. apply Some_inj in H as <-. split; [lia|reflexivity]. }
    assert (Hfresh : ~ In (length ms) (registered log)).
    { rewrite M2. intros (t0 & mt & H). apply lookup_lt_Some in H. lia. }
    split; [|split; [exact Hh|]].
    + unfold meters_ok. cbn [t_log t_meters t_clock]. split; [exact M1|]. split.
      { intros m. rewrite M2. split; intros (t0 & mt & H).
        - exists t0, mt. apply lookup_app_l_Some. exact H.
        - apply El in H as [H|[_ H]]; [eauto|]. discriminate. }
      split.
      { intros m t0 mt b H. apply El in H as [H|[-> H]]; [eauto|].
        apply pair_equal_spec in H as [H _]. apply pair_equal_spec in H as [-> ->]. split; [|lia].
        replace (ops (length ms) log) with (@nil meter_op); [reflexivity|]. symmetry.
        destruct (ops (length ms) log) as [|o l] eqn:E; [reflexivity|exfalso]. apply Hfresh.
        assert (Hin : o ∈ ops (length ms) log) by (rewrite E; left). apply elem_of_list_omap in Hin as ([t e] & Hin & He).
        apply elem_of_list_In in Hin. apply (M4 _ _ _ Hin). cbn in He. destruct e; try discriminate; destruct (decide _); try discriminate; cbn; congruence. }
      split; [|exact M5].
      intros t e m Hin Hm. destruct (M4 _ _ _ Hin Hm) as [Hr Ht]. split; [exact Hr|].
      intros t0 mt b H. apply El in H as [H|[-> _]]; [eauto|]. destruct (Hfresh Hr).
    + destruct st; [|exact Hst]. destruct Hst as (Hs & g & -> & Hp & Ht). cbn. eauto 6.
  - (* register *)
    destruct (ms !! m) as [[[t0 mt] b]|] eqn:Em; [|exact H]. destruct b; [exact H|].
    destruct H as (Hm & Hh & Hst). pose proof Hm as (M1 & M2 & M3 & M4 & M5).
    cbn [t_gos t_started t_log t_arrays t_slice t_clock t_meters] in *.
    destruct (append_slice ar sl m room) as [ar' sl'] eqn:Ea.
    destruct (append_holds _ _ _ _ _ _ _ Hh Ea) as [Hh' Hkeep].
    assert (Hnr : ~ In m (registered log)).
    { rewrite M2. intros (t1 & mt1 & H). rewrite Em in H. discriminate. }
    assert (Hlt : (m < length ms)%nat) by (eapply lookup_lt_Some; exact Em).
    set (pre := if st then log else log ++ [(clock, EStart)]).
    assert (Elog : log ++ map (pair clock) ((if st then [] else [EStart]) ++ [ERegister m]) = pre ++ [(clock, ERegister m)]).
    { unfold pre. destruct st; [reflexivity|]. cbn. rewrite <- app_assoc. reflexivity. }
    rewrite Elog.
    assert (Er : registered (pre ++ [(clock, ERegister m)]) = registered log ++ [m]).
    { rewrite registered_snoc. f_equal. unfold pre. destruct st; [reflexivity|]. rewrite registered_snoc. apply app_nil_r. }
    assert (Eo : forall m', ops m' (pre ++ [(clock, ERegister m)]) = ops m' log).
    { intros m'. rewrite ops_snoc, app_nil_r. unfold pre. destruct st; [reflexivity|]. rewrite ops_snoc. apply app_nil_r. }
    assert (Ein : forall t e, In (t, e) (pre ++ [(clock, ERegister m)]) -> on_meter e <> None -> In (t, e) log).
    { intros t e Hin He. apply in_app_or in Hin as [Hin|[Hin|[]]].
      - unfold pre in Hin. destruct st; [exact Hin|]. apply in_app_or in Hin as [Hin|[Hin|[]]]; [exact Hin|].
        apply pair_equal_spec in Hin as [_ <-]. destruct (He eq_refl).
      - apply pair_equal_spec in Hin as [_ <-]. destruct (He eq_refl). }
    assert (El : forall m' t1 mt1 b, <[m := (t0, mt, true)]> ms !! m' = Some (t1, mt1, b) ->
       exists b', ms !! m' = Some (t1, mt1, b')).
    { intros m' t1 mt1 b H. destruct (decide (m = m')) as [<-|Hne].
      - rewrite list_lookup_insert in H by exact Hlt. apply Some_inj in H. apply pair_equal_spec in H as [H _].
        apply pair_equal_spec in H as [<- <-]. eauto.
      - rewrite list_lookup_insert_ne in H by exact Hne. eauto. }
    split; [|split].
    + unfold meters_ok. cbn [t_log t_meters t_clock]. rewrite Er. split.
      { apply NoDup_app. split; [exact M1|]. split; [|apply NoDup_singleton].
        intros x Hx Hx'. apply elem_of_list_singleton in Hx' as ->. apply Hnr. apply elem_of_list_In. exact Hx. }
      split.
      { intros m'. rewrite in_app_iff, M2. destruct (decide (m = m')) as [<-|Hne].
        - rewrite list_lookup_insert by exact Hlt. split; [eauto|]. intros _. right. left. reflexivity.
        - rewrite list_lookup_insert_ne by exact Hne. split; [intros [H|[H|[]]]; [exact H|congruence]|auto]. }
      split; [intros m' t1 mt1 b H; rewrite Eo; apply El in H as [b' H]; eauto|].
      split.
      { intros t e m' Hin He. apply Ein in Hin; [|congruence]. destruct (M4 _ _ _ Hin He) as [Hr Ht].
        split; [apply in_or_app; auto|]. intros t1 mt1 b H. apply El in H as [b' H]. eauto. }
      intros t m' x n Hin. apply Ein in Hin; [|discriminate]. eauto.
    + cbn [t_arrays t_slice t_log]. rewrite Er. exact Hh'.
    + cbn [t_started t_log t_gos t_clock]. destruct st.
      * destruct Hst as (Hs & g & -> & Hp & Ht). unfold pre. rewrite starts_snoc. split; [lia|].
        exists g. split; [reflexivity|]. split; [|apply timed_snoc; [exact Ht|exact I]].
        eapply in_pass_other; [exact Hp|reflexivity|lia|exact Hkeep].
      * destruct Hst as [-> ->]. split; [reflexivity|]. exists (Go 0 LSleep). split; [reflexivity|].
        assert (Hno : forall p, ~ snapped p ([(clock, EStart)] ++ [(clock, ERegister m)])).
        { intros p (t & [H|[H|[]]]); discriminate. }
        split.
        { unfold in_pass. cbn [g_pass g_at t_log]. split; [lia|]. split; [intros p _; apply Hno|].
          split; [intros t p [H|[H|[]]]; discriminate|]. split; [apply Hno|reflexivity]. }
        unfold pre. apply timed_snoc; [|exact I]. apply timed_snoc; [|exact I].
        intros l1 t e l2 E. destruct l1; discriminate.
  - (* use *)
    destruct (ms !! m) as [[[t0 mt] b]|] eqn:Em; [|exact H]. destruct b; [|exact H].
    destruct H as (Hm & Hh & Hst). pose proof Hm as (_ & M2 & _ & _ & _).
    cbn [t_gos t_started t_log t_arrays t_slice t_clock t_meters] in *.
    assert (Hr : In m (registered log)) by (apply M2; eauto).
    split; [apply (meters_ok_op _ _ _ _ _ _ _ _ _ _ _ _ _ _ Hm Hr); [auto|]|].
    { intros x n H. destruct u; cbn in H; congruence. }
    split. { cbn. eapply holds_regs; [|exact Hh]. rewrite registered_snoc, app_nil_r. reflexivity. }
    cbn [t_started t_log t_gos t_clock]. destruct st; [|destruct Hst as [_ ->]; destruct Hr].
    destruct Hst as (Hs & g & -> & Hp & Ht). rewrite starts_snoc. split; [lia|].
    exists g. split; [reflexivity|]. split; [|apply timed_snoc; [exact Ht|exact I]].
    eapply in_pass_other; [exact Hp|reflexivity|lia|auto].
  - destruct (gos !! i) as [g|] eqn:Eg; [|exact H]. apply run_inv; [exact H|exact Eg].
  - destruct H as ((M1 & M2 & M3 & M4 & M5) & Hh & Hst). cbn [t_gos t_started t_log t_arrays t_slice t_clock t_meters] in *.
    split; [|split; [exact Hh|]].
    + unfold meters_ok. cbn [t_log t_meters t_clock]. split; [exact M1|]. split; [exact M2|]. split; [|auto].
      intros m t0 mt b H. destruct (M3 _ _ _ _ H). split; [assumption|lia].
    + destruct st; [|exact Hst]. destruct Hst as (Hs & g & -> & Hp & Ht). cbn [t_started t_log t_gos t_clock].
      split; [exact Hs|]. exists g. split; [reflexivity|]. split.
      * destruct Hp as (H1 & H2 & H3 & H4). unfold in_pass in *. cbn [t_log t_arrays t_slice t_clock] in *.
        split; [exact H1|]. split; [exact H2|]. split; [exact H3|].
        destruct (g_at g); try exact H4. destruct H4 as (? & ? & ? & ? & ?). split_and!; auto. lia.
      * apply (timed_mono clock g); [exact Ht|lia|lia|].
        intros p Hp'. apply bound_at; auto; destruct (g_at g); cbn [base]; lia.
Qed.

Lemma run_TInv acts : TInv (t_run acts).
Proof.
  unfold t_run. generalize TInv_init. generalize t_init. induction acts as [|a acts IH]; intros s H; [exact H|].
  cbn. apply IH, step_inv, H.
Qed.
