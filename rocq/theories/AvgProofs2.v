(** The averages of distributions (for C88). *)
From Coq Require Import Reals Lra Lia.
From Flocq Require Import Core BinarySingleNaN Plus_error Relative.
From Verif Require Import Base BaseProofs DistModel DistSpec DistProofs QueryReal QueryModel QuerySpec QueryProofs AvgModel AvgSpec AvgProofs.
Open Scope Z_scope.

(** ** The sum of a distribution is the sum in order *)
Section order.
  Context {V F R : Type} (vzero : V) (vlt : V -> V -> bool) (vadd : V -> V -> V) (fzero : F) (to32 : V -> F) (fless : F -> F -> bool) (rng_next : R -> Z * R).
  Lemma run_sum h xs d d' :
    DInv to32 xs d -> d_sum d = fold_left vadd xs vzero -> Z.of_nat (length xs) + inserts h + 1 < 2 ^ 63 ->
    dist_run vzero vlt vadd to32 fless rng_next d h = Ok d' ->
    d_sum d' = fold_left vadd (fold_left rec_step h xs) vzero /\ DInv to32 (fold_left rec_step h xs) d'.
  Proof.
    revert xs d. induction h as [|[W o] h IH]; intros xs d Hd HI Hb Hr.
    - injection Hr as <-. auto.
    - rewrite (inserts_cons vzero vlt vadd fzero to32 fless rng_next) in Hb. pose proof (inserts_nonneg vzero vlt vadd fzero to32 fless rng_next h).
      cbn [dist_run] in Hr. cbn [fold_left].
      destruct (step_ok vzero vlt vadd fzero to32 fless rng_next W d o xs Hd) as (d1 & E & Hd1).
      { destruct o; lia. }
      rewrite E in Hr.
      apply (IH _ d1); [exact Hd1| |destruct o; cbn; rewrite ?app_length; cbn [length]; lia|exact Hr].
      destruct o as [v| | |r|]; cbn [dist_step] in E; unfold rec_step; cbn [snd].
      + destruct (insert_ok vzero vlt vadd fzero to32 fless rng_next W d v xs Hd ltac:(lia)) as (d0 & E' & _ & _ & _ & _ & Es).
        rewrite E in E'. injection E' as <-. rewrite Es, HI, fold_left_app. reflexivity.
      + injection E as <-. destruct (query_state_fields vzero vlt vadd fzero to32 fless rng_next d) as (_ & _ & _ & _ & Q5 & _).
        rewrite Q5. exact HI.
      + injection E as <-. exact HI.
      + injection E as <-. exact HI.
      + injection E as <-. reflexivity.
  Qed.
  Lemma dist_sum r h d : inserts h + 1 < 2 ^ 63 -> dist_run vzero vlt vadd to32 fless rng_next (dist_new vzero fzero r) h = Ok d ->
    d_sum d = fold_left vadd (recorded h) vzero /\ d_count d = Z.of_nat (length (recorded h)).
  Proof.
    intros Hb Hr. destruct (run_sum h [] (dist_new vzero fzero r) d) as [H1 (H2 & _)];
      [apply (DInv_new vzero vlt vadd fzero to32 fless rng_next)|reflexivity|cbn; lia|exact Hr|]. auto.
  Qed.
End order.

Local Open Scope R_scope.
Lemma u24 : u_ro radix2 24 = pow2 (-24). Proof. unfold u_ro. change (- (24) + 1)%Z with (1 + -24)%Z. rewrite bpow_plus. change (pow2 1) with 2. lra. Qed.
Lemma u53 : u_ro radix2 53 = pow2 (-53). Proof. unfold u_ro. change (- (53) + 1)%Z with (1 + -53)%Z. rewrite bpow_plus. change (pow2 1) with 2. lra. Qed.
Lemma pow2_half e : / 2 * pow2 e = pow2 (e - 1).
Proof. replace (e - 1)%Z with (-(1) + e)%Z by lia. rewrite bpow_plus. reflexivity. Qed.

Lemma int64_64_exact z : (0 <= z <= 2 ^ 53)%Z -> is_finite (int64_64 z) = true /\ B2R (int64_64 z) = IZR z.
Proof.
  intros Hz. unfold int64_64.
  pose proof (binary_normalize_correct 53 1024 prec53 emax1024 mode_NE z 0 false) as C. cbv zeta in C. cbn [round_mode] in C.
  assert (E : F2R (Float radix2 z 0) = IZR z) by (unfold F2R; cbn; lra). rewrite E in C.
  rewrite small_finite in C.
  2:{ rewrite <- abs_IZR. apply Rle_trans with (IZR (2 ^ 53)); [apply IZR_le; lia|]. apply (bpow_le radix2 53 200). lia. }
  destruct C as (C1 & C2 & _). split; [exact C2|]. rewrite C1. apply rnd_fmt.
  destruct (Z.eq_dec z (2 ^ 53)%Z) as [->|Hne].
  - change (IZR (2 ^ 53)) with (pow2 53). apply fmt_pow. lia.
  - apply generic_format_FLT with (emin := (-1074)%Z) (prec := 53%Z).
    exists (Float radix2 z 0); [unfold F2R; cbn; lra|cbn [Fnum]; change (radix2 ^ 53)%Z with (2 ^ 53)%Z; lia|cbn; lia].
Qed.
Lemma int64_32_small z : (0 <= z <= 64)%Z -> B2R (int64_32 z) = IZR z.
Proof.
  intros Hz. rewrite int64_32_value by (unfold in64; lia). replace z with (z * 2 ^ 0)%Z by lia. apply rnd32_small; lia.
Qed.

Lemma growth53 n : (Z.of_nat n <= 2 ^ 50)%Z -> (1 + u_ro radix2 53) ^ n - 1 <= INR n * pow2 (-52).
Proof.
  intros Hn. rewrite u53. pose proof (bpow_gt_0 radix2 (-53)) as Hu.
  assert (E : pow2 (-52) = pow2 (-53) * 2) by (change (-52)%Z with (-53 + 1)%Z; rewrite bpow_plus; reflexivity).
  assert (Hb : INR n * pow2 (-53) * (1 + 1) <= 1).
  { rewrite INR_IZR_INZ. apply Rle_trans with (pow2 50 * pow2 (-53) * (1 + 1)).
    - apply Rmult_le_compat_r; [lra|]. apply Rmult_le_compat_r; [lra|]. change (pow2 50) with (IZR (2 ^ 50)). apply IZR_le. exact Hn.
    - rewrite <- bpow_plus. change (50 + -53)%Z with (-3)%Z. change (pow2 (-3)) with (/ 8). lra. }
  pose proof (pow_bound (pow2 (-53)) 1 n ltac:(lra) ltac:(lra) Hb). rewrite E. lra.
Qed.
Lemma growth24 n : (n <= 65)%nat -> (1 + u_ro radix2 24) ^ n - 1 <= pow2 (-17).
Proof.
  intros Hn. rewrite u24. assert (Hn' : INR n <= 65) by (rewrite INR_IZR_INZ; apply (IZR_le _ 65); lia).
  pose proof (pos_INR n). change (pow2 (-24)) with (/ 16777216). change (pow2 (-17)) with (/ 131072).
  pose proof (pow_bound (/ 16777216) (/ 8) n ltac:(lra) ltac:(lra) ltac:(nra)). nra.
Qed.

(** ** FloatDist: Sum and FullAverage *)
Lemma mean_abs_nonneg l : 0 <= mean_abs l.
Proof.
  unfold mean_abs, mean. rewrite map_length. destruct l as [|x l].
  - unfold total. cbn. unfold Rdiv. rewrite Rmult_0_l. lra.
  - apply Rmult_le_pos; [apply total_abs_nonneg|]. apply Rlt_le, Rinv_0_lt_compat. apply lt_0_INR. cbn; lia.
Qed.
Section floats.
  Context {R : Type} (rng_next : R -> Z * R) (r : R) (h : list (Z * dist_op f64 R)) (d : dist f64 f32 R).
  Hypothesis Hb : (inserts h + 1 < 2 ^ 63)%Z.
  Hypothesis Hr : fdist_run rng_next (fdist_new r) h = Ok d.
  Let n := length (recorded h).
  Hypothesis Hn : (Z.of_nat n < 2 ^ 50)%Z.
  Hypothesis Hf : is_finite (d_sum d) = true.
  Let xs := map B2R (recorded h).

  Lemma float_sum_err : Forall (fun x => is_finite x = true) (recorded h) /\
    Rabs (B2R (d_sum d) - total xs) <= INR n * pow2 (-52) * total (map Rabs xs).
  Proof.
    destruct (dist_sum _ _ _ _ _ _ _ r h d Hb Hr) as [Es _]. rewrite Es in *.
    split; [apply (fold_plus_finite 53 1024 prec53 emax1024 (recorded h) (B754_zero false)); exact Hf|].
    pose proof (fold_plus_err 53 1024 prec53 emax1024 (recorded h) (B754_zero false) Hf) as H.
    cbn [B2R] in H. rewrite Rplus_0_l, Rabs_R0, Rplus_0_l in H. apply Rle_trans with (1 := H).
    apply Rmult_le_compat_r; [apply total_abs_nonneg|]. apply growth53. unfold n in Hn. lia.
  Qed.
  Lemma float_average_err : recorded h <> [] ->
    is_finite (float_FullAverage d) = true /\
    Rabs (B2R (float_FullAverage d) - mean xs) <= (INR n + 1) * pow2 (-52) * mean_abs xs + pow2 (-1075).
  Proof.
    intros Hne. destruct (dist_sum _ _ _ _ _ _ _ r h d Hb Hr) as [Es Ec]. unfold float_FullAverage. rewrite Ec, Es in *.
    assert (Hl : (0 < Z.of_nat (length (recorded h)))%Z) by (destruct (recorded h); [congruence|cbn; lia]).
    destruct (Z.ltb_spec 0 (Z.of_nat (length (recorded h)))); [|lia].
    destruct (int64_64_exact (Z.of_nat (length (recorded h)))) as [_ Ey]; [unfold n in Hn; lia|].
    destruct (mean_err 53 1024 prec53 emax1024 (recorded h) _ Hne Ey Hf) as [H1 H2]. split; [exact H1|].
    apply Rle_trans with (1 := H2). change (3 - 1024 - 53)%Z with (-1074)%Z. rewrite pow2_half. apply Rplus_le_compat_r.
    apply Rmult_le_compat_r; [apply mean_abs_nonneg|]. pose proof (growth53 (S n)) as G. rewrite S_INR in G. apply G. lia.
  Qed.
End floats.

(** ** ReservoirAverage *)
Lemma total_bound l m : Forall (fun x => Rabs x <= m) l -> total (map Rabs l) <= INR (length l) * m.
Proof.
  induction 1 as [|x l Hx Hl IH]; [unfold total; cbn; lra|]. cbn [map length]. rewrite S_INR. unfold total in *. cbn in *. lra.
Qed.
Lemma avg32_err (reads : list f32) : reads <> [] -> (length reads <= 64)%nat ->
  Forall (fun x => is_finite x = true /\ Rabs (B2R x) <= pow2 120) reads ->
  is_finite (avg32 reads) = true /\
  Rabs (B2R (avg32 reads) - mean (map B2R reads)) <= pow2 (-17) * mean_abs (map B2R reads) + pow2 (-150).
Proof.
  intros Hne Hl Hv. unfold avg32, sum32.
  assert (Hfin : is_finite (fold_left (Bplus mode_NE) reads (B754_zero false : f32)) = true).
  { apply (fold_plus_small 24 128 prec24 emax128); [reflexivity| |].
    - apply (Forall_impl _ _ _ Hv). intros x [H _]. exact H.
    - cbn [B2R]. rewrite Rabs_R0, Rplus_0_l.
      pose proof (total_bound (map B2R reads) (pow2 120)) as Ht. rewrite map_length in Ht.
      assert (Ht' : total (map Rabs (map B2R reads)) <= 64 * pow2 120).
      { apply Rle_trans with (INR (length reads) * pow2 120).
        - apply Ht. apply Forall_map. apply (Forall_impl _ _ _ Hv). intros x [_ H]. exact H.
        - apply Rmult_le_compat_r; [apply bpow_ge_0|]. rewrite INR_IZR_INZ. apply (IZR_le _ 64). lia. }
      pose proof (growth24 (length reads) ltac:(lia)) as G. pose proof (total_abs_nonneg (map B2R reads)) as G0.
      change (pow2 (-17)) with (/ 131072) in G.
      assert (E : pow2 128 = 256 * pow2 120) by (change 128%Z with (8 + 120)%Z; rewrite bpow_plus; reflexivity). rewrite E.
      pose proof (bpow_gt_0 radix2 120).
      apply Rle_lt_trans with (2 * (64 * pow2 120)); [|lra]. apply Rmult_le_compat; try lra.
      apply pow_le. pose proof (u_nonneg 24). lra. }
  destruct (mean_err 24 128 prec24 emax128 reads (int64_32 (Z.of_nat (length reads))) Hne) as [H1 H2]; [apply int64_32_small; lia|exact Hfin|].
  split; [exact H1|]. apply Rle_trans with (1 := H2). change (3 - 128 - 24)%Z with (-149)%Z. rewrite pow2_half. apply Rplus_le_compat_r.
  apply Rmult_le_compat_r; [apply mean_abs_nonneg|]. apply growth24. lia.
Qed.
