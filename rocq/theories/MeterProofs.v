From Verif Require Import Base BaseProofs SeriesModel Fval MeterModel MeterSpec.
From Coq Require Import ZifyBool.
Local Open Scope Z_scope.
Local Arguments wrap64 : simpl never.

Definition to_pair (b : bucket) : Z * Z := (b_count b, b_start b).

(** The ledger is what left the window followed by the window. *)
Definition MInv (l : ledger) (m : meter) : Prop :=
  exists gone, l_buckets l = gone ++ map to_pair (m_slices m) /\
    length (m_slices m) = 24%nat /\ (l_skip l <= length gone)%nat /\
    wrap64 (m_total m) = wrap64 (l_base l + zsum (map fst (drop (l_skip l) gone))).

Lemma zsum_app x y : zsum (x ++ y) = zsum x + zsum y.
Proof. unfold zsum. induction x as [|a x IH]; cbn; [lia|]. rewrite IH. lia. Qed.

Lemma fold_wrap_sum l acc :
  fold_left (fun a b => wrap64 (a + b_count b)) l acc = 
  match l with [] => acc | _ => wrap64 (acc + zsum (map b_count l)) end.
Proof.
  revert acc. induction l as [|b l IH]; intros acc; [reflexivity|].
  cbn [fold_left]. rewrite IH. destruct l as [|b' l].
  - cbn. f_equal. lia.
  - rewrite wrap64_add_l. f_equal. cbn. lia.
Qed.

Lemma map_fst_to_pair l : map fst (map to_pair l) = map b_count l.
Proof. rewrite map_map. reflexivity. Qed.

Lemma MInv_window l m : MInv l m -> window l = map to_pair (m_slices m).
Proof.
  intros (gone & Hb & Hl & _). unfold window. rewrite Hb, app_length, map_length, Hl.
  rewrite drop_app_alt; [reflexivity|]. lia.
Qed.

Lemma meter_total_spec l m now : MInv l m -> snd (meter_stats m now) = ledger_total l.
Proof.
  intros (gone & Hb & Hl & Hs & Ht).
  unfold meter_stats, ledger_total. cbn [snd]. rewrite fold_wrap_sum.
  destruct (m_slices m) as [|b r] eqn:E; [discriminate|].
  rewrite wrap64_add_r, <- wrap64_add_l, Ht, wrap64_add_l. f_equal.
  rewrite Hb, drop_app_le by assumption.
  rewrite map_app, zsum_app, map_fst_to_pair. lia.
Qed.

Lemma meter_rate_spec l m now :
  MInv l m ->
  exists oldest, head (window l) = Some oldest /\
    meter_Rate m now =
    if 0 <? now - snd oldest then FRatio (wrap64 (zsum (map fst (window l)))) (now - snd oldest) else FInt 0.
Proof.
  intros H. rewrite (MInv_window l m H), map_fst_to_pair.
  destruct H as (gone & Hb & Hl & Hs & Ht).
  unfold meter_Rate, meter_stats. cbn [fst]. rewrite fold_wrap_sum.
  destruct (m_slices m) as [|b r] eqn:E; [discriminate|].
  exists (to_pair b). split; [reflexivity|]. unfold to_pair. cbn [snd].
  destruct (0 <? now - b_start b); reflexivity.
Qed.

Lemma list_split_last {A} (l : list A) (n : nat) :
  length l = S n -> exists l' x, l = l' ++ [x] /\ length l' = n.
Proof.
  intros H. destruct l as [|x l _] using rev_ind; [discriminate|].
  exists l, x. split; [reflexivity|]. rewrite app_length in H. cbn in H. lia.
Qed.
Lemma alter_last {A} f (l : list A) x : alter f (length l) (l ++ [x]) = l ++ [f x].
Proof. induction l; cbn; [reflexivity|]. f_equal. assumption. Qed.
Lemma insert_last {A} y (l : list A) x : <[length l := y]> (l ++ [x]) = l ++ [y].
Proof. induction l; cbn; [reflexivity|]. f_equal. assumption. Qed.

Lemma add_last_snoc a l n t : add_last a (l ++ [(n, t)]) = l ++ [(wrap64 (n + a), t)].
Proof. unfold add_last. rewrite last_snoc, removelast_last. reflexivity. Qed.

Lemma MInv_step l m o : MInv l m -> MInv (ledger_step l o) (meter_step m o).
Proof.
  intros (gone & Hb & Hl & Hs & Ht).
  destruct (list_split_last (m_slices m) 23 Hl) as (ss & s & Es & Ls).
  assert (Hb' : l_buckets l = (gone ++ map to_pair ss) ++ [(b_count s, b_start s)]).
  { rewrite Hb, Es, map_app, app_assoc. reflexivity. }
  destruct o as [a|now|t|t now]; cbn [meter_step ledger_step].
  - (* mark *)
    exists gone. cbn [l_buckets l_skip l_base]. unfold meter_Mark. cbn [m_slices m_total].
    rewrite Hb', add_last_snoc, Es.
    change (ticksToKeep - 1)%nat with 23%nat. rewrite <- Ls, alter_last, map_app.
    split; [rewrite <- app_assoc; reflexivity|].
    split; [rewrite app_length; cbn; lia|]. split; assumption.
  - (* tick *)
    unfold meter_tick, marked_in_last. rewrite Hb', last_snoc.
    destruct ss as [|f ss]; [discriminate|]. cbn in Ls.
    assert (Hlast : m_slices m !! 23%nat = Some s).
    { rewrite Es. apply list_lookup_middle. cbn. lia. }
    assert (Hfirst : m_slices m !! 0%nat = Some f) by (rewrite Es; reflexivity).
    change (ticksToKeep - 1)%nat with 23%nat. rewrite Hlast, Hfirst.
    destruct (decide (b_count s = 0)) as [Hz|Hz].
    { rewrite Hz. cbn [Z.eqb negb]. exists gone. auto. }
    destruct (Z.eqb_spec (b_count s) 0); [lia|]. cbn [negb].
    exists (gone ++ [to_pair f]). cbn [l_buckets l_skip l_base m_slices m_total].
    assert (Hc : <[23%nat := Bucket 0 now]> (go_copy (m_slices m) (drop 1 (m_slices m)))
                 = ss ++ [s; Bucket 0 now]).
    { unfold go_copy. rewrite Es.
      change (drop 1 ((f :: ss) ++ [s])) with (ss ++ [s]).
      rewrite take_ge by (rewrite !app_length; cbn; lia).
      change ((f :: ss) ++ [s]) with (f :: ss ++ [s]).
      replace (drop (length (ss ++ [s])) (f :: ss ++ [s])) with [s].
      - replace 23%nat with (length (ss ++ [s])) by (rewrite app_length; cbn; lia).
        rewrite insert_last, <- app_assoc. reflexivity.
      - symmetry. change (f :: ss ++ [s]) with ((f :: ss) ++ [s]).
        apply drop_app_alt. rewrite app_length. cbn. lia. }
    rewrite Hc. split.
    { rewrite map_app. cbn [map]. unfold to_pair at 6. cbn. rewrite <- !app_assoc. cbn. reflexivity. }
    split; [rewrite app_length; cbn; lia|].
    split; [rewrite app_length; lia|].
    rewrite wrap64_wrap64, <- wrap64_add_l, Ht, wrap64_add_l, drop_app_le by assumption.
    rewrite map_app, zsum_app. f_equal. cbn. lia.
  - (* set total *)
    exists gone. cbn [l_buckets l_skip l_base]. unfold meter_SetTotal. cbn [m_slices m_total].
    split; [assumption|]. split; [assumption|].
    assert (Hlen : (length (l_buckets l) - 24 = length gone)%nat).
    { rewrite Hb, app_length, map_length, Hl. lia. }
    rewrite Hlen. split; [lia|]. rewrite drop_all. cbn. f_equal. lia.
  - (* reset *)
    exists []. unfold ledger_new, meter_Reset. cbn [l_buckets l_skip l_base m_slices m_total].
    split.
    { rewrite map_map, <- Hl. clear.
      change ([] ++ ?x) with x. cbn [app].
      induction (m_slices m) as [|b bs IH]; [reflexivity|]. cbn. f_equal. exact IH. }
    split; [rewrite map_length; assumption|]. split; [cbn; lia|]. cbn. f_equal. lia.
Qed.

Lemma MInv_new t0 : MInv (ledger_new 0 t0) (meter_new t0).
Proof.
  exists []. repeat split; try reflexivity.
Qed.

Lemma MInv_run t0 h : MInv (ledger_run t0 h) (meter_run t0 h).
Proof.
  unfold ledger_run, meter_run. generalize (MInv_new t0).
  generalize (ledger_new 0 t0) as l, (meter_new t0) as m.
  induction h as [|o h IH]; intros l m H; [exact H|]. cbn. apply IH, MInv_step, H.
Qed.

Lemma meter_total_ledger t0 h now : meter_Total (meter_run t0 h) now = FInt (ledger_total (ledger_run t0 h)).
Proof. unfold meter_Total. f_equal. apply meter_total_spec, MInv_run. Qed.

Lemma meter_rate_ledger t0 h now :
  exists oldest, head (window (ledger_run t0 h)) = Some oldest /\
  meter_Rate (meter_run t0 h) now =
    if 0 <? now - snd oldest
    then FRatio (wrap64 (zsum (map fst (window (ledger_run t0 h))))) (now - snd oldest) else FInt 0.
Proof. apply meter_rate_spec, MInv_run. Qed.

(** ** Sums of marks *)
Lemma add_last_sum a l k : (k < length l)%nat ->
  wrap64 (zsum (map fst (drop k (add_last a l)))) = wrap64 (zsum (map fst (drop k l)) + a).
Proof.
  intros H. destruct l as [|[n t] l _] using rev_ind; [cbn in H; lia|].
  rewrite add_last_snoc. rewrite app_length in H. cbn in H.
  rewrite !drop_app_le by lia. rewrite !map_app, !zsum_app. cbn.
  rewrite Z.add_0_r, wrap64_add_r. f_equal. lia.
Qed.
Lemma add_last_length a l : length (add_last a l) = length l.
Proof.
  destruct l as [|[n t] l _] using rev_ind; [reflexivity|].
  rewrite add_last_snoc, !app_length. reflexivity.
Qed.

Definition LWf (l : ledger) : Prop := (24 <= length (l_buckets l) /\ l_skip l <= length (l_buckets l) - 24)%nat.
Lemma LWf_step l o : LWf l -> LWf (ledger_step l o).
Proof.
  unfold LWf. intros [H1 H2]. destruct o as [a|now|t|t now]; cbn [ledger_step].
  - cbn. rewrite add_last_length. lia.
  - destruct (decide _); [lia|]. cbn. rewrite app_length. cbn. lia.
  - cbn. lia.
  - cbn. lia.
Qed.
Lemma LWf_run t0 h : LWf (ledger_run t0 h).
Proof.
  unfold ledger_run. assert (H : LWf (ledger_new 0 t0)) by (cbn; unfold LWf; cbn; lia).
  revert H. generalize (ledger_new 0 t0) as l.
  induction h as [|o h IH]; intros l H; [exact H|]. cbn. apply IH, LWf_step, H.
Qed.

Lemma ledger_total_tick l now : ledger_total (ledger_step l (MTick now)) = ledger_total l \/ (l_skip l > length (l_buckets l))%nat.
Proof.
  cbn. destruct (decide _); [auto|]. destruct (le_lt_dec (l_skip l) (length (l_buckets l))).
  - left. unfold ledger_total. cbn. rewrite drop_app_le by assumption.
    rewrite map_app, zsum_app. cbn. f_equal. lia.
  - right. lia.
Qed.

Lemma ledger_marks h l :
  LWf l -> marks_and_ticks h ->
  ledger_total (fold_left ledger_step h l) = wrap64 (ledger_total l + sum_marks h).
Proof.
  revert l. induction h as [|o h IH]; intros l Hw Hm.
  - cbn. unfold sum_marks. cbn. rewrite Z.add_0_r. unfold ledger_total. rewrite wrap64_wrap64. reflexivity.
  - inversion_clear Hm as [|?? Ho Hm']. cbn [fold_left].
    rewrite IH; [|apply LWf_step; assumption|assumption].
    destruct o as [a|now|t|t now]; try contradiction.
    + unfold sum_marks. cbn [map zsum foldr]. cbn [ledger_step].
      rewrite <- wrap64_add_l with (x := ledger_total _).
      assert (E : ledger_total (Ledger (l_base l) (l_skip l) (add_last a (l_buckets l))) = wrap64 (ledger_total l + a)).
      { unfold ledger_total. cbn. destruct Hw. rewrite <- wrap64_add_r, add_last_sum by lia.
        rewrite wrap64_add_r, wrap64_add_l. f_equal. lia. }
      rewrite E, wrap64_wrap64, wrap64_add_l. f_equal. unfold zsum. lia.
    + destruct (ledger_total_tick l now) as [->|Hx].
      * reflexivity.
      * destruct Hw. lia.
Qed.

Lemma meter_total_marks t0 h now :
  marks_and_ticks h -> meter_Total (meter_run t0 h) now = FInt (wrap64 (sum_marks h)).
Proof.
  intros H. rewrite meter_total_ledger. unfold ledger_run.
  rewrite ledger_marks; [|unfold LWf; cbn; lia|assumption]. reflexivity.
Qed.

Lemma meter_total_after_reset t0 h1 x t1 h2 now :
  in64 x -> marks_and_ticks h2 ->
  meter_Total (meter_run t0 (h1 ++ MReset x t1 :: h2)) now = FInt (wrap64 (x + sum_marks h2)).
Proof.
  intros Hx H. rewrite meter_total_ledger. unfold ledger_run. rewrite fold_left_app. cbn [fold_left].
  rewrite ledger_marks; [|unfold LWf; cbn; lia|assumption]. cbn [ledger_step].
  unfold ledger_new, ledger_total. cbn. rewrite Z.add_0_r, wrap64_add_l. reflexivity.
Qed.

Lemma meter_tick_total t0 h tk now :
  meter_Total (meter_run t0 (h ++ [MTick tk])) now = meter_Total (meter_run t0 h) now.
Proof.
  rewrite !meter_total_ledger. f_equal. unfold ledger_run at 1. rewrite fold_left_app. cbn [fold_left].
  destruct (ledger_total_tick (ledger_run t0 h) tk) as [H|H]; [exact H|].
  destruct (LWf_run t0 h). lia.
Qed.

Lemma meter_set_total t0 h x h2 now :
  in64 x -> marks_and_ticks h2 ->
  meter_Total (meter_run t0 (h ++ MSetTotal x :: h2)) now =
  FInt (wrap64 (x + zsum (map fst (window (ledger_run t0 h))) + sum_marks h2)).
Proof.
  intros Hx H. rewrite meter_total_ledger. unfold ledger_run at 1. rewrite fold_left_app. cbn [fold_left].
  rewrite ledger_marks; [|apply LWf_step, LWf_run|assumption].
  unfold ledger_total. cbn. fold (ledger_run t0 h). rewrite wrap64_add_l. reflexivity.
Qed.

Lemma diffmeter_total m1 m2 now :
  exists r, diffmeter_Stats m1 m2 now =
    [(B "rate", r); (B "total", FInt (wrap64 (snd (meter_stats m1 now) - snd (meter_stats m2 now))))].
Proof. unfold diffmeter_Stats. destruct (meter_stats m1 now), (meter_stats m2 now). eexists. reflexivity. Qed.

Lemma meter_quiet t0 h a b :
  meter_run t0 (h ++ [MTick a; MTick b]) = meter_run t0 (h ++ [MTick a]).
Proof.
  unfold meter_run. rewrite !fold_left_app. cbn [fold_left]. fold (meter_run t0 h).
  destruct (MInv_run t0 h) as (gone & Hb & Hl & _).
  destruct (list_split_last (m_slices (meter_run t0 h)) 23 Hl) as (ss & s & Es & Ls).
  set (m := meter_run t0 h) in *. cbn [meter_step].
  destruct ss as [|f ss]; [discriminate|].
  assert (Hlast : m_slices m !! 23%nat = Some s) by (rewrite Es; apply list_lookup_middle; cbn in *; lia).
  assert (Hfirst : m_slices m !! 0%nat = Some f) by (rewrite Es; reflexivity).
  assert (E : meter_tick m a = m \/ m_slices (meter_tick m a) !! 23%nat = Some (Bucket 0 a)).
  { unfold meter_tick. change (ticksToKeep - 1)%nat with 23%nat. rewrite Hlast, Hfirst.
    destruct (negb (b_count s =? 0)); [right|auto]. cbn [m_slices].
    apply list_lookup_insert. unfold go_copy. rewrite app_length, take_length, !drop_length. lia. }
  unfold meter_tick in E |- *. change (ticksToKeep - 1)%nat with 23%nat in *.
  rewrite Hlast, Hfirst in E |- *.
  destruct (negb (b_count s =? 0)) eqn:Eb.
  - destruct E as [E|E].
    + rewrite E, Hlast, Hfirst. rewrite Eb in *. unfold m in E.
      exfalso. apply (f_equal m_slices) in E. cbn [m_slices] in E.
      assert (X : (<[23%nat := Bucket 0 a]> (go_copy (m_slices m) (drop 1 (m_slices m)))) !! 23%nat = Some (Bucket 0 a)).
      { apply list_lookup_insert. unfold go_copy. rewrite app_length, take_length, !drop_length. lia. }
      unfold m in X. rewrite E in X. fold m in X. rewrite Hlast in X. injection X as ->. discriminate.
    + rewrite E. cbn [b_count Z.eqb negb].
      destruct (m_slices (Meter _ _) !! 0%nat); reflexivity.
  - rewrite Hlast, Hfirst, Eb. reflexivity.
Qed.

Lemma diffmeter_rate m1 m2 now : exists t,
  diffmeter_Stats m1 m2 now = [(B "rate", FSub (meter_Rate m1 now) (meter_Rate m2 now)); (B "total", t)].
Proof.
  unfold diffmeter_Stats, meter_Rate. destruct (meter_stats m1 now) as [r1 t1], (meter_stats m2 now) as [r2 t2]. eexists. reflexivity.
Qed.
