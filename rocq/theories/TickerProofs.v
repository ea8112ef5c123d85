(** The recorded history of a meter, cut at its bucket boundaries (for C87). *)
From Verif Require Import Base BaseProofs SeriesModel Fval MeterModel MeterSpec MeterProofs TickerModel TickerSpec.
Local Open Scope Z_scope.
Local Arguments wrap64 : simpl never.

Section cut.
Variable t0 : Z.

(** After [pre] a bucket with start time [st] is opened. *)
Definition opened (pre : list meter_op) (st : Z) : Prop :=
  (pre = [] /\ st = t0) \/ (exists pre', pre = pre' ++ [MTick st]) \/ (exists pre' x, pre = pre' ++ [MReset x st]).

Fixpoint chain (pre : list meter_op) (segs : list (list meter_op)) (bs : list (Z * Z)) : Prop :=
  match segs, bs with
  | [], [] => True
  | s :: segs', b :: bs' => opened pre (snd b) /\ wrap64 (sum_marks s) = wrap64 (fst b) /\ chain (pre ++ s) segs' bs'
  | _, _ => False
  end.

Lemma chain_length pre segs bs : chain pre segs bs -> length segs = length bs.
Proof. revert pre bs. induction segs as [|s segs IH]; intros pre [|b bs] H; cbn in *; try tauto. destruct H as (_ & _ & H). f_equal. eauto. Qed.
Lemma chain_app pre s1 s2 b1 b2 : length s1 = length b1 ->
  chain pre (s1 ++ s2) (b1 ++ b2) <-> chain pre s1 b1 /\ chain (pre ++ concat s1) s2 b2.
Proof.
  revert pre b1. induction s1 as [|s s1 IH]; intros pre [|b b1] Hl; try discriminate.
  - cbn. rewrite app_nil_r. tauto.
  - cbn. rewrite IH by (cbn in Hl; lia). rewrite <- app_assoc. tauto.
Qed.
Lemma sum_marks_app h1 h2 : sum_marks (h1 ++ h2) = sum_marks h1 + sum_marks h2.
Proof. unfold sum_marks. rewrite map_app, zsum_app. reflexivity. Qed.
Lemma chain_sum pre segs bs : chain pre segs bs -> wrap64 (sum_marks (concat segs)) = wrap64 (zsum (map fst bs)).
Proof.
  revert pre bs. induction segs as [|s segs IH]; intros pre [|b bs] H; cbn [chain] in H; try contradiction.
  - reflexivity.
  - destruct H as (_ & Hb & H). apply IH in H. cbn [concat map]. rewrite sum_marks_app.
    change (zsum (fst b :: map fst bs)) with (fst b + zsum (map fst bs)).
    rewrite <- wrap64_add_l, Hb, wrap64_add_l, <- wrap64_add_r, H, wrap64_add_r. reflexivity.
Qed.
Lemma chain_empties pre b n : opened pre (snd b) -> fst b = 0 -> chain pre (replicate n []) (replicate n b).
Proof.
  intros Ho Hb. induction n as [|n IH]; cbn; [exact I|]. rewrite app_nil_r, Hb. auto.
Qed.

Definition closed (s : list meter_op) : Prop := exists s' now, s = s' ++ [MTick now].

(** The history: what is before the buckets, empty ones, closed ones, the newest. *)
Definition cut (h : list meter_op) (l : ledger) : Prop :=
  exists h0 fulls cur,
    h = h0 ++ concat fulls ++ cur /\ Forall closed fulls /\
    (h0 = [] \/ exists h' x n, h0 = h' ++ [MReset x n]) /\
    chain h0 ((replicate 23 [] ++ fulls) ++ [cur]) (l_buckets l).

Lemma concat_empties n (x : list (list meter_op)) : concat (replicate n [] ++ x) = concat x.
Proof. induction n; cbn; auto. Qed.

Lemma cut_run h : cut h (ledger_run t0 h).
Proof.
  induction h as [|o h IH] using rev_ind.
  - exists [], [], []. split; [reflexivity|]. split; [constructor|]. split; [auto|].
    apply (chain_empties [] (0, t0) 24); [left; auto|reflexivity].
  - unfold ledger_run. rewrite fold_left_app. fold (ledger_run t0 h). cbn [fold_left].
    set (l := ledger_run t0 h) in *. clearbody l.
    destruct IH as (h0 & fulls & cur & -> & Hf & H0 & Hc).
    pose proof (chain_length _ _ _ Hc) as Hl.
    destruct (l_buckets l) as [|[n st] bs _] eqn:Eb using rev_ind; [rewrite !app_length in Hl; cbn in Hl; lia|].
    rewrite !app_length in Hl. cbn [length] in Hl.
    apply chain_app in Hc; [|rewrite app_length; lia]. destruct Hc as [Hc (Ho & Hn & _)]. cbn [fst snd] in *.
    rewrite concat_empties in Ho.
    assert (Hsnoc : forall o', wrap64 (sum_marks [o']) = 0 ->
      chain h0 ((replicate 23 [] ++ fulls) ++ [cur ++ [o']]) (bs ++ [(n, st)])).
    { intros o' Hz. apply chain_app; [rewrite app_length; lia|]. split; [exact Hc|]. cbn [chain fst snd].
      rewrite concat_empties. split; [exact Ho|]. split; [|exact I].
      rewrite sum_marks_app, <- wrap64_add_r, Hz, Z.add_0_r. exact Hn. }
    destruct o as [a|now|t|t now]; cbn [ledger_step].
    + exists h0, fulls, (cur ++ [MMark a]). cbn [l_buckets]. split; [rewrite <- !app_assoc; reflexivity|].
      split; [exact Hf|]. split; [exact H0|]. rewrite Eb, add_last_snoc.
      apply chain_app; [rewrite app_length; lia|]. split; [exact Hc|]. cbn [chain fst snd].
      rewrite concat_empties. split; [exact Ho|]. split; [|exact I].
      rewrite wrap64_wrap64, sum_marks_app, <- wrap64_add_l, Hn, wrap64_add_l.
      f_equal. unfold sum_marks. cbn. lia.
    + destruct (decide _) as [Hz|Hz].
      * exists h0, fulls, (cur ++ [MTick now]). split; [rewrite <- !app_assoc; reflexivity|].
        split; [exact Hf|]. split; [exact H0|]. rewrite Eb. apply Hsnoc. reflexivity.
      * exists h0, (fulls ++ [cur ++ [MTick now]]), []. cbn [l_buckets].
        split; [rewrite concat_app; cbn; rewrite !app_nil_r, <- !app_assoc; reflexivity|].
        split; [apply Forall_app; split; [exact Hf|apply Forall_cons_2; [exists cur, now; reflexivity|apply Forall_nil_2]]|].
        split; [exact H0|]. rewrite Eb, (app_assoc (replicate 23 [])).
        apply chain_app; [rewrite !app_length; cbn [length]; lia|]. split; [apply Hsnoc; reflexivity|].
        cbn [chain fst snd]. split; [|split; [reflexivity|exact I]].
        right; left. rewrite concat_app, concat_empties. cbn [concat]. rewrite app_nil_r.
        exists (h0 ++ concat fulls ++ cur). rewrite <- !app_assoc. reflexivity.
    + exists h0, fulls, (cur ++ [MSetTotal t]). cbn [l_buckets]. split; [rewrite <- !app_assoc; reflexivity|].
      split; [exact Hf|]. split; [exact H0|]. rewrite Eb. apply Hsnoc. reflexivity.
    + exists ((h0 ++ concat fulls ++ cur) ++ [MReset t now]), [], []. cbn [concat]. rewrite !app_nil_r.
      split; [reflexivity|]. split; [constructor|]. split; [right; eauto|].
      unfold ledger_new. cbn [l_buckets].
      apply (chain_empties _ (0, now) 24); [right; right; eauto|reflexivity].
Qed.

Definition is_tick (o : meter_op) : bool := match o with MTick _ => true | _ => false end.
Definition nticks (h : list meter_op) : nat := length (List.filter is_tick h).
Lemma nticks_app h1 h2 : nticks (h1 ++ h2) = (nticks h1 + nticks h2)%nat.
Proof. unfold nticks. rewrite List.filter_app, app_length. reflexivity. Qed.
Lemma nticks_closed fs : Forall closed fs -> (length fs <= nticks (concat fs))%nat.
Proof.
  induction 1 as [|f fs (s & n & ->) _ IH]; cbn [concat length]; [lia|]. rewrite !nticks_app. unfold nticks at 2. cbn [List.filter is_tick length]. lia.
Qed.

(** Two ways of cutting a list: one of the tails contains the other. *)
Lemma cut_two {A} (a b c d : list A) : a ++ b = c ++ d ->
  (exists x, b = x ++ d /\ c = a ++ x) \/ (exists y x, d = x :: y ++ b /\ a = c ++ x :: y).
Proof.
  revert c. induction a as [|x a IH]; intros [|y c] H; cbn in *.
  - left. exists []. auto.
  - left. exists (y :: c). split; [exact H|reflexivity].
  - right. exists a, x. subst d. auto.
  - injection H as -> H. destruct (IH c H) as [(z & -> & ->)|(z & w & -> & ->)].
    + left. exists z. auto.
    + right. exists z, w. auto.
Qed.

(** The oldest bucket of the window is not younger than a mark with at most 23 ticks after it. *)
Lemma window_covers pre a h2 :
  Forall (fun o => is_reset o = false) h2 -> (nticks h2 <= 23)%nat ->
  exists older recent st,
    pre ++ MMark a :: h2 = older ++ recent /\ (exists x, recent = x ++ MMark a :: h2) /\ opened older st /\
    fmap snd (head (window (ledger_run t0 (pre ++ MMark a :: h2)))) = Some st /\
    wrap64 (zsum (map fst (window (ledger_run t0 (pre ++ MMark a :: h2))))) = wrap64 (sum_marks recent).
Proof.
  intros Hr Ht. set (h := pre ++ MMark a :: h2).
  destruct (cut_run h) as (h0 & fulls & cur & Eh & Hf & H0 & Hc).
  set (l := ledger_run t0 h) in *. clearbody l.
  pose proof (chain_length _ _ _ Hc) as Hl. rewrite !app_length, replicate_length in Hl. cbn [length] in Hl.
  set (segs := (replicate 23 [] ++ fulls) ++ [cur]) in *.
  assert (Ls : length segs = (24 + length fulls)%nat) by (unfold segs; rewrite !app_length, replicate_length; cbn [length]; lia).
  set (k := (length (l_buckets l) - 24)%nat).
  assert (Hk : k = length fulls) by (unfold k; lia).
  rewrite <- (take_drop k segs), <- (take_drop k (l_buckets l)) in Hc.
  apply chain_app in Hc; [|rewrite !take_length; lia]. destruct Hc as [_ Hc].
  change (drop k (l_buckets l)) with (window l) in Hc.
  set (older := h0 ++ concat (take k segs)) in *. set (recent := concat (drop k segs)).
  assert (E : h = older ++ recent).
  { unfold older, recent. rewrite <- app_assoc, <- concat_app, take_drop, Eh. unfold segs.
    rewrite concat_app, concat_empties. cbn [concat]. rewrite app_nil_r. reflexivity. }
  pose proof (chain_sum _ _ _ Hc) as Hsum.
  destruct (window l) as [|[c st] w] eqn:Ew.
  { apply chain_length in Hc. rewrite drop_length, Ls in Hc. cbn [length] in Hc. clearbody k. lia. }
  destruct (drop k segs) as [|s ss] eqn:Ed; [cbn in Hc; tauto|].
  destruct Hc as (Hop & _ & _). cbn [snd] in Hop.
  exists older, recent, st. split; [exact E|]. split; [|split; [exact Hop|split; [reflexivity|symmetry; exact Hsum]]].
  unfold h in E. destruct (cut_two older recent pre (MMark a :: h2) (eq_sym E)) as [(x & Ex & _)|(y & x & Ey & Eo)]; [eauto|exfalso].
  (* older ends inside or right after the mark *)
  injection Ey as <- Ey. destruct (decide (k <= 23)%nat) as [Hk23|Hk23].
  - (* the window reaches back to the beginning *)
    assert (Eold : older = h0).
    { unfold older, segs. rewrite <- app_assoc, take_app_le by (rewrite replicate_length; lia).
      rewrite take_replicate, Nat.min_l by lia.
      replace (concat (replicate k [])) with (@nil meter_op); [apply app_nil_r|].
      clear. induction k; cbn; auto. }
    rewrite Eold in Eo. destruct H0 as [->|(h' & xx & nn & ->)]; [destruct pre; discriminate|].
    destruct y as [|z y _] using rev_ind.
    + apply app_inj_tail in Eo as [_ Eo]. discriminate.
    + rewrite app_comm_cons, app_assoc in Eo. apply app_inj_tail in Eo as [_ <-].
      rewrite Ey in Hr. apply Forall_app in Hr as [Hr _]. apply Forall_app in Hr as [_ Hr].
      apply Forall_cons in Hr as [Hr _]. discriminate.
  - (* the window is 23 closed buckets and the newest, after a closed one *)
    set (j := (k - 23)%nat).
    assert (Hrec : recent = concat (drop j fulls) ++ cur).
    { unfold recent. rewrite <- Ed. unfold segs. rewrite <- app_assoc, drop_app_ge by (rewrite replicate_length; lia).
      rewrite replicate_length. fold j. rewrite drop_app_le by lia. rewrite concat_app. cbn. rewrite app_nil_r. reflexivity. }
    assert (Hold : older = h0 ++ concat (take j fulls)).
    { unfold older, segs. rewrite <- app_assoc, take_app_ge by (rewrite replicate_length; lia).
      rewrite replicate_length. fold j. rewrite take_app_le by lia. rewrite concat_empties. reflexivity. }
    pose proof (nticks_closed (drop j fulls) (Forall_drop _ _ _ Hf)) as Hnt. rewrite drop_length in Hnt.
    assert (Hc' : Forall closed (take j fulls)) by (apply Forall_take; exact Hf).
    assert (Hj : length (take j fulls) = j) by (rewrite take_length; lia).
    destruct (take j fulls) as [|f fs _] eqn:Etk using rev_ind; [cbn in Hj; lia|].
    apply Forall_app in Hc' as [_ Hc']. apply Forall_cons in Hc' as [(s' & n & ->) _].
    rewrite Hold, concat_app in Eo. cbn [concat] in Eo. rewrite app_nil_r, !app_assoc in Eo.
    destruct y as [|z y _] using rev_ind.
    + apply app_inj_tail in Eo as [_ Eo]. discriminate.
    + rewrite app_comm_cons, (app_assoc pre) in Eo. apply app_inj_tail in Eo as [_ <-].
      rewrite Ey, Hrec, !nticks_app in Ht. unfold nticks at 2 in Ht. cbn [List.filter is_tick length] in Ht. lia.
Qed.
End cut.
