From Verif Require Import Base BaseProofs DistModel DistSpec.
From Coq Require Import ZifyBool.
Local Open Scope Z_scope.
Local Arguments wrap64 : simpl never.
Local Arguments Z.pow : simpl never.
Set Default Proof Using "All".

Lemma submseteq_insert {A} (ys xs : list A) j v :
  (j < length ys)%nat -> ys ⊆+ xs -> <[j := v]> ys ⊆+ xs ++ [v].
Proof.
  intros Hj Hs. rewrite insert_take_drop by assumption.
  rewrite <- Permutation_middle. rewrite <- Permutation_cons_append.
  apply submseteq_skip. etransitivity; [|exact Hs].
  rewrite <- (take_drop j ys) at 3. apply submseteq_app; [reflexivity|].
  replace (S j) with (j + 1)%nat by lia. rewrite <- drop_drop. apply sublist_submseteq, sublist_drop.
Qed.

Section generic.
  Context {V F R : Type}.
  Context (vzero : V) (vlt : V -> V -> bool) (vadd : V -> V -> V).
  Context (fzero : F) (to32 : V -> F) (fless : F -> F -> bool).
  Context (rng_next : R -> Z * R).
  Notation dist := (dist V F R).
  Notation insert := (dist_insert vlt vadd to32 rng_next).
  Notation run := (dist_run vzero vlt vadd to32 fless rng_next).
  Notation step := (dist_step vzero vlt vadd to32 fless rng_next).

  (** The used prefix of the reservoir. *)
  Definition used (d : dist) : list F := take (Z.to_nat (rlen d)) (d_res d).

  Definition DInv (xs : list V) (d : dist) : Prop :=
    d_count d = Z.of_nat (length xs) /\ length (d_res d) = 64%nat /\
    exists ys, used d = map to32 ys /\ ys ⊆+ xs /\ ((length xs <= 64)%nat -> ys ≡ₚ xs).

  Lemma rlen_min (xs : list V) (d : dist) : d_count d = Z.of_nat (length xs) -> Z.to_nat (rlen d) = min (length xs) 64.
  Proof. intros H. unfold rlen, ReservoirSize. rewrite H. destruct (Z.ltb_spec (Z.of_nat (length xs)) 64); lia. Qed.

  Lemma used_length xs d : DInv xs d -> length (used d) = min (length xs) 64.
  Proof.
    intros (Hc & Hl & _). unfold used. rewrite (rlen_min xs d Hc), take_length, Hl. lia.
  Qed.

  Lemma DInv_new r : DInv [] (dist_new vzero fzero r).
  Proof.
    split; [reflexivity|]. split; [reflexivity|]. exists []. split; [reflexivity|].
    split; [apply submseteq_nil_l | auto].
  Qed.

  (** What Insert does to the reservoir. *)
  Lemma insert_ok W d val xs :
    DInv xs d -> Z.of_nat (length xs) + 1 < 2 ^ 63 ->
    exists d', insert W d val = Ok d' /\ DInv (xs ++ [val]) d' /\
      d_low d' = (if negb (d_count d =? 0) then (if vlt val (d_low d) then val else d_low d) else val) /\
      d_high d' = (if negb (d_count d =? 0) then (if vlt (d_high d) val then val else d_high d) else val) /\
      d_recent d' = val /\ d_sum d' = vadd (d_sum d) val.
  Proof.
    intros Hd Hb. pose proof (used_length xs d Hd) as Hu.
    destruct Hd as (Hc & Hl & ys & Hy & Hsub & Hall).
    assert (Hw : wrap64 (d_count d + 1) = Z.of_nat (length (xs ++ [val]))).
    { rewrite Hc, wrap64_id by (unfold in64; lia). rewrite app_length. cbn. lia. }
    assert (Hly : length ys = min (length xs) 64) by (rewrite <- Hu, Hy, map_length; reflexivity).
    unfold dist_insert. rewrite Hw. unfold ReservoirSize at 1.
    destruct (Z.ltb_spec (d_count d) 64) as [Hlt|Hge].
    - unfold set_slot. rewrite Hl, Hc.
      destruct (Z.leb_spec 0 (Z.of_nat (length xs))); [|lia].
      destruct (Z.ltb_spec (Z.of_nat (length xs)) (Z.of_nat 64)); [|lia]. cbn [andb].
      eexists. split; [reflexivity|]. cbn [d_low d_high d_recent d_sum]. split; [|auto].
      split; [reflexivity|]. cbn [d_res]. split; [rewrite insert_length; assumption|].
      exists (ys ++ [val]).
      assert (Hyx : ys ≡ₚ xs) by (apply Hall; lia).
      split; [|split].
      + unfold used. erewrite rlen_min by reflexivity. cbn [d_res].
        rewrite app_length. cbn [length].
        replace (min (length xs + 1) 64) with (S (length xs)) by lia.
        rewrite Nat2Z.id.
        rewrite (take_S_r _ _ (to32 val)).
        * rewrite take_insert by lia. rewrite map_app. cbn. f_equal.
          rewrite <- Hy. unfold used. rewrite (rlen_min xs d Hc). f_equal. lia.
        * apply list_lookup_insert. lia.
      + rewrite Hyx. reflexivity.
      + intros _. rewrite Hyx. reflexivity.
    - set (window := if (0 <? W) && (W <? Z.of_nat (length (xs ++ [val]))) then W else Z.of_nat (length (xs ++ [val]))).
      assert (Hwin : 0 < window < 2 ^ 64).
      { unfold window. rewrite app_length. cbn [length].
        destruct (Z.ltb_spec 0 W), (Z.ltb_spec W (Z.of_nat (length xs + 1))); cbn [andb]; lia. }
      destruct (rng_next (d_rng d)) as [x rng'].
      assert (Hu64 : u64 window = window) by (unfold u64; apply Z.mod_small; lia).
      rewrite Hu64. destruct (Z.eqb_spec window 0); [lia|].
      pose proof (Z.mod_pos_bound x window ltac:(lia)) as Hj.
      assert (Hlen64 : length ys = 64%nat) by lia.
      assert (Hres : d_res d = map to32 ys).
      { rewrite <- Hy. unfold used. rewrite (rlen_min xs d Hc), take_ge; [reflexivity|lia]. }
      unfold ReservoirSize. destruct (Z.ltb_spec (x mod window) 64).
      + unfold set_slot. rewrite Hl.
        destruct (Z.leb_spec 0 (x mod window)); [|lia].
        destruct (Z.ltb_spec (x mod window) (Z.of_nat 64)); [|lia]. cbn [andb].
        eexists. split; [reflexivity|]. cbn [d_low d_high d_recent d_sum]. split; [|auto].
        split; [reflexivity|]. cbn [d_res]. split; [rewrite insert_length; assumption|].
        exists (<[Z.to_nat (x mod window) := val]> ys). split; [|split].
        * unfold used. erewrite rlen_min by reflexivity. cbn [d_res].
          rewrite app_length. cbn [length]. rewrite take_ge by (rewrite insert_length; lia).
          rewrite Hres. apply (eq_sym (list_fmap_insert to32 _ _ _)).
        * apply submseteq_insert; [lia|assumption].
        * rewrite app_length. cbn. lia.
      + eexists. split; [reflexivity|]. cbn [d_low d_high d_recent d_sum]. split; [|auto].
        split; [reflexivity|]. cbn [d_res]. split; [assumption|]. exists ys. split; [|split].
        * unfold used. erewrite rlen_min by reflexivity. cbn [d_res].
          rewrite app_length. cbn [length]. rewrite take_ge by lia. assumption.
        * etransitivity; [exact Hsub|]. apply submseteq_inserts_r. reflexivity.
        * rewrite app_length. cbn. lia.
  Qed.

  Lemma query_state_used (d : dist) : (length (d_res d) = 64)%nat -> used (query_state fless d) ≡ₚ used d.
  Proof.
    intros Hl. unfold query_state. destruct (rlen d <? 2); [reflexivity|].
    destruct (d_sorted d); [reflexivity|].
    unfold used at 1. unfold rlen at 1. cbn [d_count d_res]. fold (rlen d).
    rewrite take_app_alt; [apply isort_perm|].
    rewrite isort_length, take_length. unfold rlen, ReservoirSize.
    destruct (Z.ltb_spec (d_count d) 64); lia.
  Qed.

  Lemma query_state_fields (d : dist) :
    d_low (query_state fless d) = d_low d /\ d_high (query_state fless d) = d_high d /\
    d_recent (query_state fless d) = d_recent d /\ d_count (query_state fless d) = d_count d /\
    d_sum (query_state fless d) = d_sum d /\ d_rng (query_state fless d) = d_rng d /\
    length (d_res (query_state fless d)) = length (d_res d).
  Proof.
    unfold query_state. destruct (rlen d <? 2); [tauto|]. destruct (d_sorted d); [tauto|].
    cbn. repeat split. rewrite app_length, isort_length, take_length, drop_length. lia.
  Qed.

  Lemma DInv_query xs d : DInv xs d -> DInv xs (query_state fless d).
  Proof.
    intros (Hc & Hl & ys & Hy & Hsub & Hall).
    destruct (query_state_fields d) as (_ & _ & _ & Qc & _ & _ & Ql).
    split; [congruence|]. split; [congruence|].
    pose proof (query_state_used d Hl) as Hp. rewrite Hy in Hp.
    apply Permutation_map_inv in Hp as (ys' & Hy' & Hp).
    exists ys'. split; [assumption|]. rewrite Hp in Hsub. split; [assumption|].
    intros Hle. rewrite <- Hp. auto.
  Qed.

  Lemma step_ok W d o xs :
    DInv xs d -> Z.of_nat (length xs) + 1 < 2 ^ 63 ->
    exists d', step W d o = Ok d' /\
      DInv (match o with DInsert v => xs ++ [v] | DReset => [] | _ => xs end) d'.
  Proof.
    intros Hd Hb. destruct o as [v| | |r|]; cbn [dist_step].
    - destruct (insert_ok W d v xs Hd Hb) as (d' & -> & H & _). eauto.
    - eexists. split; [reflexivity|]. apply DInv_query, Hd.
    - eauto.
    - eexists. split; [reflexivity|]. exact Hd.
    - eexists. split; [reflexivity|]. destruct Hd as (_ & Hl & _).
      split; [reflexivity|]. split; [assumption|]. exists []. split; [reflexivity|].
      split; [apply submseteq_nil_l|auto].
  Qed.

  Definition rec_step (xs : list V) (wo : Z * dist_op V R) : list V :=
    match snd wo with DInsert v => xs ++ [v] | DReset => [] | _ => xs end.

  Lemma inserts_cons W o (h : list (Z * dist_op V R)) :
    inserts ((W, o) :: h) = (match o with DInsert _ => 1 | _ => 0 end) + inserts h.
  Proof. unfold inserts. destruct o; cbn [List.filter snd]; cbn [length]; lia. Qed.
  Lemma inserts_nonneg (h : list (Z * dist_op V R)) : 0 <= inserts h.
  Proof. unfold inserts. lia. Qed.

  Lemma run_ok h xs d :
    DInv xs d -> Z.of_nat (length xs) + inserts h + 1 < 2 ^ 63 ->
    exists d', run d h = Ok d' /\ DInv (fold_left rec_step h xs) d'.
  Proof.
    revert xs d. induction h as [|[W o] h IH]; intros xs d Hd Hb; [cbn; eauto|].
    rewrite inserts_cons in Hb. pose proof (inserts_nonneg h).
    cbn [dist_run fold_left].
    destruct (step_ok W d o xs Hd) as (d' & -> & Hd').
    { destruct o; lia. }
    apply (IH _ _ Hd').
    destruct o; cbn; rewrite ?app_length; cbn [length]; lia.
  Qed.

  Lemma recorded_fold h : recorded h = fold_left rec_step h ([] : list V).
  Proof. reflexivity. Qed.

  Lemma run_new_ok r h :
    inserts h + 1 < 2 ^ 63 ->
    exists d, run (dist_new vzero fzero r) h = Ok d /\ DInv (recorded h) d.
  Proof. intros H. apply run_ok; [apply DInv_new|]. cbn. lia. Qed.

  (** C10 *)
  Lemma reservoir_holds r h d :
    inserts h + 1 < 2 ^ 63 -> run (dist_new vzero fzero r) h = Ok d ->
    Z.of_nat (length (average_reads d)) = Z.min (Z.of_nat (length (recorded h))) 64 /\
    images_of_distinct to32 (average_reads d) (recorded h) /\
    ((length (recorded h) <= 64)%nat -> average_reads d ≡ₚ map to32 (recorded h)) /\
    (recorded h <> [] -> query_reads fless d ≡ₚ average_reads d).
  Proof.
    intros Hb Hr. destruct (run_new_ok r h Hb) as (d0 & Hr' & Hd).
    rewrite Hr in Hr'. injection Hr' as <-.
    pose proof (used_length _ _ Hd) as Hu. pose proof Hd as (Hc & Hl & ys & Hy & Hsub & Hall).
    assert (Ha : average_reads d = used d).
    { unfold average_reads, used. destruct (Z.leb_spec (rlen d) 0); [|reflexivity].
      replace (Z.to_nat (rlen d)) with 0%nat by lia. reflexivity. }
    rewrite Ha. split; [rewrite Hu; lia|]. split; [exists ys; rewrite Hy; auto|].
    split; [intros Hle; rewrite Hy, (Hall Hle); reflexivity|].
    intros Hne. unfold query_reads.
    assert (Hn : (1 <= length (recorded h))%nat) by (destruct (recorded h); [congruence|cbn; lia]).
    destruct (Z.ltb_spec (rlen d) 2) as [Hlt|Hge].
    - unfold used. replace (Z.to_nat (rlen d)) with 1%nat; [reflexivity|].
      pose proof (rlen_min _ _ Hc). lia.
    - rewrite <- (query_state_used d Hl). unfold used.
      destruct (query_state_fields d) as (_ & _ & _ & Qc & _).
      unfold rlen. rewrite Qc. reflexivity.
  Qed.

  (** ** C13 *)
  Lemma replacement_rule W d val xs :
    DInv xs d -> Z.of_nat (length xs) + 1 < 2 ^ 63 -> (64 <= length xs)%nat ->
    let x := fst (rng_next (d_rng d)) in
    let n := Z.of_nat (length xs) + 1 in
    let w := if decide (0 < W) then Z.min n W else n in
    0 < w /\
    exists d', insert W d val = Ok d' /\
      d_res d' = (if decide (x mod w < 64) then <[Z.to_nat (x mod w) := to32 val]> (d_res d) else d_res d) /\
      d_rng d' = snd (rng_next (d_rng d)).
  Proof.
    intros Hd Hb H64. destruct Hd as (Hc & Hl & _). cbn zeta.
    set (n := Z.of_nat (length xs) + 1) in *.
    assert (Hw : (if (0 <? W) && (W <? n) then W else n) = (if decide (0 < W) then Z.min n W else n)).
    { destruct (Z.ltb_spec 0 W), (Z.ltb_spec W n); cbn [andb]; destruct (decide (0 < W)); lia. }
    assert (Hp : 0 < (if decide (0 < W) then Z.min n W else n) < 2 ^ 64) by (destruct (decide (0 < W)); lia).
    split; [apply Hp|].
    unfold dist_insert. unfold ReservoirSize at 1. rewrite Hc.
    destruct (Z.ltb_spec (Z.of_nat (length xs)) 64); [lia|].
    replace (wrap64 (Z.of_nat (length xs) + 1)) with n by (symmetry; apply wrap64_id; unfold in64; lia).
    rewrite Hw. set (w := if decide (0 < W) then Z.min n W else n) in *.
    destruct (rng_next (d_rng d)) as [x rng']. cbn [fst snd].
    replace (u64 w) with w by (unfold u64; rewrite Z.mod_small; lia).
    destruct (Z.eqb_spec w 0); [lia|].
    pose proof (Z.mod_pos_bound x w ltac:(lia)) as Hj.
    unfold ReservoirSize. destruct (Z.ltb_spec (x mod w) 64); destruct (decide (x mod w < 64)); try lia.
    - unfold set_slot. rewrite Hl. destruct (Z.leb_spec 0 (x mod w)); [|lia].
      destruct (Z.ltb_spec (x mod w) (Z.of_nat 64)); [|lia]. cbn [andb]. eexists. split; [reflexivity|]. auto.
    - eexists. split; [reflexivity|]. auto.
  Qed.

  Lemma run_app h1 h2 d : run d (h1 ++ h2) = match run d h1 with Ok d' => run d' h2 | Panic m => Panic m end.
  Proof.
    revert d. induction h1 as [|[W o] h1 IH]; intros d; [reflexivity|]. cbn.
    destruct (step W d o); [apply IH|reflexivity].
  Qed.

  (** ** C12 *)
  Definition same_visible (d1 d2 : dist) : Prop :=
    d_low d1 = d_low d2 /\ d_high d1 = d_high d2 /\ d_recent d1 = d_recent d2 /\
    d_count d1 = d_count d2 /\ d_sum d1 = d_sum d2 /\ used d1 = used d2 /\ d_rng d1 = d_rng d2 /\
    length (d_res d1) = 64%nat /\ length (d_res d2) = 64%nat /\ 0 <= d_count d1 /\
    (d_count d1 <> 0 -> d_sorted d1 = d_sorted d2).

  Lemma same_visible_insert W d1 d2 v :
    same_visible d1 d2 -> d_count d1 + 1 < 2 ^ 63 ->
    match insert W d1 v, insert W d2 v with
    | Ok e1, Ok e2 => same_visible e1 e2
    | Panic m1, Panic m2 => m1 = m2
    | _, _ => False
    end.
  Proof.
    intros (Hlo & Hhi & Hre & Hc & Hs & Hu & Hg & Hl1 & Hl2 & Hnn & Hso) Hb.
    assert (Hr : rlen d1 = rlen d2) by (unfold rlen; rewrite Hc; reflexivity).
    unfold used in Hu. rewrite <- Hr in Hu.
    unfold dist_insert. rewrite <- Hlo, <- Hhi, <- Hc, <- Hs, <- Hg.
    assert (Hw : wrap64 (d_count d1 + 1) = d_count d1 + 1) by (apply wrap64_id; unfold in64; lia).
    rewrite Hw. unfold ReservoirSize. unfold rlen, ReservoirSize in Hu.
    destruct (Z.ltb_spec (d_count d1) 64) as [Hlt|Hge].
    - unfold set_slot. rewrite Hl1, Hl2.
      destruct (Z.leb_spec 0 (d_count d1)); [|lia].
      destruct (Z.ltb_spec (d_count d1) (Z.of_nat 64)); [|lia]. cbn [andb].
      unfold same_visible, used, rlen. cbn [d_low d_high d_recent d_count d_sum d_res d_rng d_sorted].
      rewrite !insert_length. repeat split; try auto; try lia.
      unfold ReservoirSize. set (k := Z.to_nat (if d_count d1 + 1 <? 64 then d_count d1 + 1 else 64)).
      assert (Hk : k = S (Z.to_nat (d_count d1))) by (unfold k; destruct (Z.ltb_spec (d_count d1 + 1) 64); lia).
      rewrite Hk. rewrite !(take_S_r _ _ (to32 v)) by (apply list_lookup_insert; lia).
      rewrite !take_insert by lia. f_equal. exact Hu.
    - assert (Hres : d_res d1 = d_res d2).
      { rewrite !take_ge in Hu by (rewrite ?Hl1, ?Hl2; lia). exact Hu. }
      rewrite <- Hres. rewrite (Hso ltac:(lia)).
      destruct (rng_next (d_rng d1)) as [x g]. destruct (u64 _ =? 0); [reflexivity|].
      destruct (_ <? 64).
      + unfold set_slot. destruct (_ && _); [|reflexivity].
        unfold same_visible, used, rlen. cbn [d_low d_high d_recent d_count d_sum d_res d_rng d_sorted].
        rewrite !insert_length. repeat split; try auto; lia.
      + unfold same_visible, used, rlen. cbn [d_low d_high d_recent d_count d_sum d_res d_rng d_sorted].
        repeat split; try auto; lia.
  Qed.

  Lemma same_visible_query d1 d2 :
    same_visible d1 d2 -> same_visible (query_state fless d1) (query_state fless d2).
  Proof.
    intros H. pose proof H as (Hlo & Hhi & Hre & Hc & Hs & Hu & Hg & Hl1 & Hl2 & Hnn & Hso).
    assert (Hr : rlen d1 = rlen d2) by (unfold rlen; rewrite Hc; reflexivity).
    unfold query_state. rewrite <- Hr.
    destruct (Z.ltb_spec (rlen d1) 2); [assumption|].
    assert (Hn0 : d_count d1 <> 0).
    { unfold rlen, ReservoirSize in *. destruct (Z.ltb_spec (d_count d1) 64); lia. }
    rewrite <- (Hso Hn0). destruct (d_sorted d1) eqn:E; [assumption|].
    unfold used in Hu. rewrite <- Hr in Hu.
    unfold same_visible, used, rlen. cbn [d_low d_high d_recent d_count d_sum d_res d_rng d_sorted].
    rewrite <- Hc. fold (rlen d1). rewrite Hu.
    assert (Hk : (Z.to_nat (rlen d1) <= 64)%nat).
    { unfold rlen, ReservoirSize. destruct (Z.ltb_spec (d_count d1) 64); lia. }
    repeat split; auto.
    - rewrite !take_app_alt; [reflexivity| |]; rewrite isort_length, take_length; lia.
    - rewrite app_length, isort_length, take_length, drop_length. lia.
    - rewrite app_length, isort_length, take_length, drop_length. lia.
  Qed.

  Lemma same_visible_run h d1 d2 :
    same_visible d1 d2 -> d_count d1 + inserts h + 1 < 2 ^ 63 ->
    match run d1 h, run d2 h with
    | Ok e1, Ok e2 => same_visible e1 e2
    | Panic m1, Panic m2 => m1 = m2
    | _, _ => False
    end.
  Proof.
    revert d1 d2. induction h as [|[W o] h IH]; intros d1 d2 H Hb; [exact H|].
    rewrite inserts_cons in Hb. pose proof (inserts_nonneg h).
    cbn [dist_run]. destruct o as [v| | |r|]; cbn [dist_step].
    - pose proof (same_visible_insert W d1 d2 v H ltac:(lia)) as Hi.
      destruct (insert W d1 v) as [e1|] eqn:E1, (insert W d2 v) as [e2|] eqn:E2; try contradiction; [|assumption].
      apply IH; [assumption|].
      assert (Hec : d_count e1 = d_count d1 + 1).
      { destruct H as (_ & _ & _ & _ & _ & _ & _ & _ & _ & Hnn & _).
        unfold dist_insert in E1.
        assert (Hw : wrap64 (d_count d1 + 1) = d_count d1 + 1) by (apply wrap64_id; unfold in64; lia).
        rewrite Hw in E1.
        destruct (d_count d1 <? ReservoirSize).
        - destruct (set_slot _ _ _); [|discriminate]. injection E1 as <-. reflexivity.
        - destruct (rng_next _). destruct (_ =? 0); [discriminate|]. destruct (_ <? ReservoirSize).
          + destruct (set_slot _ _ _); [|discriminate]. injection E1 as <-. reflexivity.
          + injection E1 as <-. reflexivity. }
      lia.
    - apply IH; [apply same_visible_query, H|].
      destruct (query_state_fields d1) as (_ & _ & _ & -> & _). lia.
    - apply IH; [assumption|lia].
    - apply IH; [|cbn; lia]. destruct H as (Hlo & Hhi & Hre & Hc & Hs & Hu & Hg & Hl1 & Hl2 & Hnn & Hso).
      repeat split; assumption.
    - destruct H as (Hlo & Hhi & Hre & Hc & Hs & Hu & Hg & Hl1 & Hl2 & Hnn & Hso).
      apply IH; [|cbn; lia].
      repeat split; try assumption; try (cbn; lia).
  Qed.

  Lemma same_visible_visible d1 d2 : same_visible d1 d2 -> visible fless d1 = visible fless d2.
  Proof.
    intros H. pose proof (same_visible_query d1 d2 H) as HQ.
    destruct H as (Hlo & Hhi & Hre & Hc & Hs & Hu & Hg & Hl1 & Hl2 & Hnn & Hso).
    assert (Hr : rlen d1 = rlen d2) by (unfold rlen; rewrite Hc; reflexivity).
    unfold visible. rewrite Hlo, Hhi, Hre, Hc, Hs.
    assert (Ha : average_reads d1 = average_reads d2).
    { unfold average_reads. rewrite <- Hr. destruct (_ <=? 0); [reflexivity|].
      unfold used in Hu. rewrite <- Hr in Hu. exact Hu. }
    rewrite Ha. destruct (decide (d_count d2 = 0)) as [H0|H0]; [reflexivity|].
    f_equal. f_equal. unfold query_reads. rewrite <- Hr.
    destruct (Z.ltb_spec (rlen d1) 2).
    - assert (Z.to_nat (rlen d1) = 1%nat) as E.
      { unfold rlen, ReservoirSize in *. destruct (Z.ltb_spec (d_count d1) 64); lia. }
      unfold used in Hu. rewrite <- Hr, E in Hu. exact Hu.
    - destruct HQ as (_ & _ & _ & Qc & _ & Qu & _).
      unfold used, rlen in Qu.
      destruct (query_state_fields d1) as (_ & _ & _ & Q1 & _).
      destruct (query_state_fields d2) as (_ & _ & _ & Q2 & _).
      rewrite Q1, Q2 in Qu. rewrite <- Hc in Qu. exact Qu.
  Qed.

  Lemma reset_fresh r h1 W h2 d1 :
    inserts h1 + 1 < 2 ^ 63 -> inserts h2 + 1 < 2 ^ 63 ->
    run (dist_new vzero fzero r) h1 = Ok d1 ->
    exists e1 e2,
      run (dist_new vzero fzero r) (h1 ++ (W, DReset) :: h2) = Ok e1 /\
      run (dist_new vzero fzero (d_rng d1)) h2 = Ok e2 /\
      visible fless e1 = visible fless e2.
  Proof.
    intros Hb1 Hb2 Hr.
    destruct (run_new_ok r h1 Hb1) as (d0 & Hr' & Hd). rewrite Hr in Hr'. injection Hr' as <-.
    destruct (run_new_ok (d_rng d1) h2 Hb2) as (e2 & He2 & _).
    rewrite run_app, Hr. cbn [dist_run dist_step].
    assert (Hsv : same_visible (dist_reset vzero d1) (dist_new vzero fzero (d_rng d1))).
    { destruct Hd as (_ & Hl & _). unfold same_visible, dist_reset, dist_new, used, rlen. cbn.
      repeat split; auto; lia. }
    pose proof (same_visible_run h2 _ _ Hsv ltac:(cbn; lia)) as Hm.
    rewrite He2 in Hm. destruct (run (dist_reset vzero d1) h2) as [e1|]; [|contradiction].
    exists e1, e2. split; [reflexivity|]. split; [exact He2|]. apply same_visible_visible, Hm.
  Qed.
End generic.

(** ** C09: the int64 / Duration instance *)
Section ints.
  Context {F R : Type} (fzero : F) (to32 : Z -> F) (fless : F -> F -> bool) (rng_next : R -> Z * R).

  Definition IInv (xs : list Z) (d : dist Z F R) : Prop :=
    smallest xs (d_low d) /\ largest xs (d_high d) /\ d_recent d = latest xs /\
    d_sum d = wrap64 (zsum xs).

  Lemma zsum_snoc xs v : zsum (xs ++ [v]) = zsum xs + v.
  Proof. unfold zsum. induction xs; cbn; lia. Qed.

  Lemma IInv_insert W xs d v d' :
    DInv to32 xs d -> IInv xs d -> Z.of_nat (length xs) + 1 < 2 ^ 63 ->
    idist_insert to32 rng_next W d v = Ok d' -> IInv (xs ++ [v]) d'.
  Proof.
    intros Hd (Hl & Hh & Hre & Hs) Hb Hi.
    destruct (insert_ok 0 Z.ltb (fun x y => wrap64 (x + y)) fzero to32 fless rng_next W d v xs Hd Hb)
      as (d0 & Hi' & _ & Elo & Ehi & Ere & Esu).
    unfold idist_insert in Hi. rewrite Hi in Hi'. injection Hi' as <-.
    destruct Hd as (Hc & _). rewrite Hc in Elo, Ehi.
    unfold IInv. rewrite Elo, Ehi, Ere, Esu, Hs, wrap64_add_l, zsum_snoc.
    unfold latest. rewrite last_snoc.
    destruct xs as [|x xs].
    - change (negb (Z.of_nat (length (@nil Z)) =? 0)) with false. cbn [app smallest largest].
      repeat split; try set_solver; (constructor; [lia|constructor]).
    - destruct (Z.eqb_spec (Z.of_nat (length (x :: xs))) 0) as [E0|_]; [cbn in E0; lia|]. cbn [negb].
      cbn [smallest largest app] in *. destruct Hl as [Hl1 Hl2], Hh as [Hh1 Hh2].
      split; [split|split; [split|split; reflexivity]].
      + destruct (Z.ltb_spec v (d_low d)); rewrite app_comm_cons, elem_of_app; set_solver.
      + rewrite app_comm_cons, Forall_app. split.
        * eapply Forall_impl; [exact Hl2|]. cbn; intros. destruct (Z.ltb_spec v (d_low d)); lia.
        * constructor; [|constructor]. destruct (Z.ltb_spec v (d_low d)); lia.
      + destruct (Z.ltb_spec (d_high d) v); rewrite app_comm_cons, elem_of_app; set_solver.
      + rewrite app_comm_cons, Forall_app. split.
        * eapply Forall_impl; [exact Hh2|]. cbn; intros. destruct (Z.ltb_spec (d_high d) v); lia.
        * constructor; [|constructor]. destruct (Z.ltb_spec (d_high d) v); lia.
  Qed.

  Lemma irun_inv h xs d d' :
    DInv to32 xs d -> IInv xs d -> Z.of_nat (length xs) + inserts h + 1 < 2 ^ 63 ->
    idist_run to32 fless rng_next d h = Ok d' ->
    IInv (fold_left rec_step h xs) d' /\ DInv to32 (fold_left rec_step h xs) d'.
  Proof.
    revert xs d. induction h as [|[W o] h IH]; intros xs d Hd HI Hb Hr.
    - injection Hr as <-. auto.
    - rewrite (inserts_cons 0 Z.ltb Z.add fzero to32 fless rng_next) in Hb. pose proof (inserts_nonneg 0 Z.ltb Z.add fzero to32 fless rng_next h).
      unfold idist_run in Hr. cbn [dist_run] in Hr. cbn [fold_left].
      destruct (step_ok 0 Z.ltb (fun x y => wrap64 (x + y)) fzero to32 fless rng_next W d o xs Hd) as (d1 & E & Hd1).
      { destruct o; lia. }
      rewrite E in Hr.
      apply (IH _ d1); [exact Hd1| |destruct o; cbn; rewrite ?app_length; cbn [length]; lia|exact Hr].
      destruct o as [v| | |r|]; cbn [dist_step] in E; unfold rec_step; cbn [snd].
      + eapply IInv_insert; [exact Hd|exact HI| |exact E]. lia.
      + injection E as <-. destruct (query_state_fields 0 Z.ltb Z.add fzero to32 fless rng_next d) as (Q1 & Q2 & Q3 & _ & Q5 & _).
        unfold IInv. rewrite Q1, Q2, Q3, Q5. exact HI.
      + injection E as <-. exact HI.
      + injection E as <-. exact HI.
      + injection E as <-. repeat split.
  Qed.

  Lemma idist_exact r h d :
    inserts h + 1 < 2 ^ 63 -> idist_run to32 fless rng_next (idist_new fzero r) h = Ok d ->
    let xs := recorded h in
    d_count d = Z.of_nat (length xs) /\ d_sum d = wrap64 (zsum xs) /\
    smallest xs (d_low d) /\ largest xs (d_high d) /\ d_recent d = latest xs.
  Proof.
    intros Hb Hr xs.
    destruct (irun_inv h [] (idist_new fzero r) d) as [(H1 & H2 & H3 & H4) (H5 & _)];
      [apply (DInv_new 0 Z.ltb Z.add fzero to32 fless rng_next)|repeat split|cbn; lia|exact Hr|].
    exact (conj H5 (conj H4 (conj H1 (conj H2 H3)))).
  Qed.

  Lemma idist_no_panic r h :
    inserts h + 1 < 2 ^ 63 -> exists d, idist_run to32 fless rng_next (idist_new fzero r) h = Ok d.
  Proof.
    intros Hb. destruct (run_new_ok 0 Z.ltb (fun x y => wrap64 (x + y)) fzero to32 fless rng_next r h Hb) as (d & H & _).
    eauto.
  Qed.

  Lemma zsum_bounds lo hi xs :
    Forall (fun v => lo <= v) xs -> Forall (fun v => v <= hi) xs ->
    lo * Z.of_nat (length xs) <= zsum xs <= hi * Z.of_nat (length xs).
  Proof.
    induction xs as [|x xs IH]; intros H1 H2; [cbn; lia|].
    inversion_clear H1. inversion_clear H2. specialize (IH ltac:(assumption) ltac:(assumption)).
    cbn [zsum foldr length] in *. unfold zsum in *. lia.
  Qed.

  (** FullAverage is the truncated mean and lies between Low and High when the
      sum does not overflow. *)
  Lemma full_average r h d :
    inserts h + 1 < 2 ^ 63 -> idist_run to32 fless rng_next (idist_new fzero r) h = Ok d ->
    let xs := recorded h in
    in64 (zsum xs) -> xs <> [] ->
    idist_FullAverage d = Z.quot (zsum xs) (Z.of_nat (length xs)) /\
    d_low d <= idist_FullAverage d <= d_high d.
  Proof.
    intros Hb Hr xs Hin Hne.
    destruct (idist_exact r h d Hb Hr) as (Hc & Hs & Hl & Hh & _). fold xs in Hc, Hs, Hl, Hh.
    assert (Hn : 0 < Z.of_nat (length xs)) by (destruct xs; [congruence|cbn; lia]).
    unfold idist_FullAverage. rewrite Hc, Hs, wrap64_id by assumption.
    destruct (Z.ltb_spec 0 (Z.of_nat (length xs))); [|lia].
    split; [reflexivity|].
    assert (Hl2 : Forall (fun v => d_low d <= v) xs) by (destruct xs; [congruence|apply Hl]).
    assert (Hh2 : Forall (fun v => v <= d_high d) xs) by (destruct xs; [congruence|apply Hh]).
    pose proof (zsum_bounds _ _ xs Hl2 Hh2) as [B1 B2].
    set (n := Z.of_nat (length xs)) in *. set (s := zsum xs) in *.
    split.
    - destruct (Z.le_gt_cases 0 s).
      + rewrite Z.quot_div_nonneg by lia. apply Z.div_le_lower_bound; lia.
      + replace s with (- (- s)) by lia. rewrite Z.quot_opp_l by lia.
        rewrite Z.quot_div_nonneg by lia.
        assert ((- s) / n <= - d_low d) by (apply Z.div_le_upper_bound; lia). lia.
    - destruct (Z.le_gt_cases 0 s).
      + rewrite Z.quot_div_nonneg by lia. apply Z.div_le_upper_bound; lia.
      + replace s with (- (- s)) by lia. rewrite Z.quot_opp_l by lia.
        rewrite Z.quot_div_nonneg by lia.
        assert (- d_high d <= (- s) / n) by (apply Z.div_le_lower_bound; lia). lia.
  Qed.
End ints.

(** ** C13: how many draws replace *)
Lemma count_below_mod k w n :
  0 <= k <= w -> 0 < w ->
  count_below (fun x => x mod w <? k) n = k * (Z.of_nat n / w) + Z.min k (Z.of_nat n mod w).
Proof.
  intros Hk Hw. induction n as [|n IH].
  - cbn. rewrite Z.div_0_l, Z.mod_0_l by lia. lia.
  - cbn [count_below]. rewrite IH. clear IH.
    rewrite Nat2Z.inj_succ, <- Z.add_1_r.
    set (m := Z.of_nat n) in *.
    pose proof (Z.div_mod m w ltac:(lia)) as Hm. pose proof (Z.mod_pos_bound m w Hw) as Hb.
    set (q := m / w) in *. set (r := m mod w) in *.
    destruct (Z.eq_dec (r + 1) w) as [E|E].
    + assert (Hq : (m + 1) / w = q + 1) by (symmetry; apply Z.div_unique with 0; lia).
      assert (Hr : (m + 1) mod w = 0) by (symmetry; apply Z.mod_unique with (q + 1); lia).
      rewrite Hq, Hr. destruct (Z.ltb_spec r k); lia.
    + assert (Hq : (m + 1) / w = q) by (symmetry; apply Z.div_unique with (r + 1); lia).
      assert (Hr : (m + 1) mod w = r + 1) by (symmetry; apply Z.mod_unique with q; lia).
      rewrite Hq, Hr. destruct (Z.ltb_spec r k); lia.
Qed.

Lemma count_below_all P n : (forall x, P x = true) -> count_below P n = Z.of_nat n.
Proof. intros H. induction n as [|n IH]; [reflexivity|]. cbn [count_below]. rewrite IH, H. lia. Qed.

Lemma replacement_floor w Window :
  0 < w <= Window -> 64 <= Window ->
  64 * (2 ^ 64 / Window) <= count_below (fun x => x mod w <? 64) (Z.to_nat (2 ^ 64)).
Proof.
  intros Hw HW. assert (0 <= 2 ^ 64 / Window) by (apply Z.div_pos; lia).
  destruct (Z.le_gt_cases 64 w) as [H64|H64].
  - rewrite count_below_mod by lia. rewrite Z2Nat.id by lia.
    assert (2 ^ 64 / Window <= 2 ^ 64 / w) by (apply Z.div_le_compat_l; lia).
    pose proof (Z.mod_pos_bound (2 ^ 64) w ltac:(lia)). lia.
  - rewrite count_below_all.
    + rewrite Z2Nat.id by lia.
      pose proof (Z.mul_div_le (2 ^ 64) Window ltac:(lia)). nia.
    + intros x. apply Z.ltb_lt. pose proof (Z.mod_pos_bound x w ltac:(lia)). lia.
Qed.

Lemma replacement_exact w :
  64 <= w ->
  count_below (fun x => x mod w <? 64) (Z.to_nat (2 ^ 64)) = 64 * (2 ^ 64 / w) + Z.min 64 (2 ^ 64 mod w).
Proof. intros H. rewrite count_below_mod by lia. rewrite Z2Nat.id by lia. reflexivity. Qed.

Lemma run_total {V F R} (vzero : V) vlt vadd (fzero : F) to32 fless (rng_next : R -> Z * R) r h :
  inserts h + 1 < 2 ^ 63 ->
  exists d, dist_run vzero vlt vadd to32 fless rng_next (dist_new vzero fzero r) h = Ok d
            /\ d_count d = Z.of_nat (length (recorded h)).
Proof.
  intros H. destruct (run_new_ok vzero vlt vadd fzero to32 fless rng_next r h H) as (d & H1 & H2 & _). eauto.
Qed.

Lemma replacement_rule_reachable {V F R} (vzero : V) vlt vadd (fzero : F) to32 fless (rng_next : R -> Z * R) r h d W val :
  inserts h + 2 < 2 ^ 63 ->
  dist_run vzero vlt vadd to32 fless rng_next (dist_new vzero fzero r) h = Ok d ->
  64 <= d_count d ->
  let x := fst (rng_next (d_rng d)) in
  let n := d_count d + 1 in
  let w := if decide (0 < W) then Z.min n W else n in
  0 < w /\
  exists d', dist_insert vlt vadd to32 rng_next W d val = Ok d' /\
    d_res d' = (if decide (x mod w < 64) then <[Z.to_nat (x mod w) := to32 val]> (d_res d) else d_res d) /\
    d_rng d' = snd (rng_next (d_rng d)).
Proof.
  intros H Hr Hc.
  destruct (run_new_ok vzero vlt vadd fzero to32 fless rng_next r h) as (d0 & H1 & H2); [lia|].
  rewrite Hr in H1. injection H1 as <-. pose proof H2 as (H3 & _). rewrite H3 in Hc |- *.
  apply (replacement_rule vzero vlt vadd fzero to32 fless rng_next); [assumption| |lia].
  assert (Hle : forall (h : list (Z * dist_op V R)) xs, Z.of_nat (length (fold_left rec_step h xs)) <= Z.of_nat (length xs) + inserts h).
  { clear. induction h as [|[W o] h IH]; intros xs.
    - change (inserts ([] : list (Z * dist_op V R))) with 0. cbn. lia.
    - cbn [fold_left]. etransitivity; [apply IH|].
      unfold inserts. cbn [List.filter]. unfold rec_step. cbn [snd].
      destruct o; cbn [length]; rewrite ?app_length; cbn [length]; lia. }
  specialize (Hle h []). cbn in Hle. change (fold_left rec_step h []) with (recorded h) in Hle. lia.
Qed.
