(** ReservoirAverage against the values recorded (for C88). *)
From Coq Require Import Reals Lra Lia.
From Flocq Require Import Core BinarySingleNaN Plus_error Relative.
From Verif Require Import Base BaseProofs DistModel DistSpec DistProofs QueryReal QueryModel QuerySpec QueryProofs AvgModel AvgSpec AvgProofs AvgProofs2.
Local Open Scope R_scope.

Lemma rnd32_err x : Rabs (rnd32 x - x) <= pow2 (-24) * Rabs x + pow2 (-150).
Proof.
  destruct (error_N_FLT radix2 (-149) 24 eq_refl (fun z => negb (Z.even z)) x) as (e & t & H1 & H2 & _ & H3).
  fold (u_ro radix2 24) in H1. rewrite u24 in H1. rewrite pow2_half in H2. change (-149 - 1)%Z with (-150)%Z in H2.
  change (Rabs (round radix2 (FLT_exp (-149) 24) (Znearest (fun z => negb (Z.even z))) x - x) <= pow2 (-24) * Rabs x + pow2 (-150)).
  rewrite H3. replace (x * (1 + e) + t - x) with (x * e + t) by ring.
  apply Rle_trans with (1 := Rabs_triang _ _). rewrite Rabs_mult. apply Rplus_le_compat; [|exact H2].
  rewrite Rmult_comm. apply Rmult_le_compat_r; [apply Rabs_pos|exact H1].
Qed.
Lemma rnd32_abs x m : Rabs x <= pow2 m -> (-149 <= m)%Z -> Rabs (rnd32 x) <= pow2 m.
Proof.
  intros Hx Hm. apply abs_round_le_generic; [exact (fexp_correct 24 128 prec24)|apply valid_rnd_N|apply generic_format_bpow; rewrite fexp32_eq; lia|exact Hx].
Qed.
Lemma float64_32_value (x : f64) : is_finite x = true -> Rabs (B2R x) <= pow2 127 -> B2R (float64_32 x) = rnd32 (B2R x).
Proof.
  destruct x as [s|s| |s m e H]; intros Hf Hx; try discriminate.
  - cbn. unfold rnd32. rewrite round_0; [reflexivity|apply valid_rnd_N].
  - unfold float64_32.
    pose proof (binary_normalize_correct 24 128 prec24 emax128 mode_NE (cond_Zopp s (Zpos m)) e s) as C. cbv zeta in C. cbn [round_mode] in C.
    rewrite Rlt_bool_true in C; [apply C|]. apply Rle_lt_trans with (pow2 127); [|apply bpow_lt; lia].
    apply (rnd32_abs _ 127); [exact Hx|lia].
Qed.

Lemma total_image a b (xs vs : list R) : 0 <= b -> Forall2 (fun x v => Rabs (x - v) <= a * Rabs v + b) xs vs ->
  Rabs (total xs - total vs) <= a * total (map Rabs vs) + INR (length vs) * b /\
  total (map Rabs xs) <= (1 + a) * total (map Rabs vs) + INR (length vs) * b.
Proof.
  intros Hb. induction 1 as [|x v xs vs Hx Hf [IH1 IH2]].
  - unfold total. cbn. rewrite Rminus_0_r, Rabs_R0. lra.
  - cbn [map length]. rewrite S_INR. unfold total in *. cbn [fold_right map] in *. split.
    + match goal with |- Rabs (x + ?p - (v + ?q)) <= _ => replace (x + p - (v + q)) with ((x - v) + (p - q)) by ring end.
      apply Rle_trans with (1 := Rabs_triang _ _). lra.
    + pose proof (Rabs_triang (x - v) v) as T. replace (x - v + v) with x in T by ring. lra.
Qed.
Lemma mean_image a b (xs vs : list R) : vs <> [] -> 0 <= b -> Forall2 (fun x v => Rabs (x - v) <= a * Rabs v + b) xs vs ->
  Rabs (mean xs - mean vs) <= a * mean_abs vs + b /\ mean_abs xs <= (1 + a) * mean_abs vs + b.
Proof.
  intros Hne Hb Hf. destruct (total_image a b xs vs Hb Hf) as [H1 H2].
  pose proof (Forall2_length _ _ _ Hf) as Hl. unfold mean_abs, mean. rewrite !map_length, Hl.
  assert (Hn : 0 < INR (length vs)) by (apply lt_0_INR; destruct vs; [congruence|cbn; lia]).
  set (n := INR (length vs)) in *. clearbody n. assert (Hi : 0 < / n) by (apply Rinv_0_lt_compat; exact Hn). split.
  - replace (total xs / n - total vs / n) with ((total xs - total vs) / n) by (field; lra).
    unfold Rdiv at 1. rewrite Rabs_mult, (Rabs_pos_eq (/ n)) by lra.
    apply Rle_trans with ((a * total (map Rabs vs) + n * b) * / n); [apply Rmult_le_compat_r; lra|].
    apply Req_le. field. lra.
  - apply Rle_trans with (((1 + a) * total (map Rabs vs) + n * b) * / n); [apply Rmult_le_compat_r; lra|].
    apply Req_le. field. lra.
Qed.
Lemma mean_perm l l' : l ≡ₚ l' -> mean l = mean l'.
Proof. intros H. unfold mean. rewrite (total_perm _ _ H), (Permutation_length H). reflexivity. Qed.

(** The average of the images of the values [vs], in whatever order they are added. *)
Lemma avg_values (reads : list f32) (xs : list f32) (vs : list R) :
  reads ≡ₚ xs -> vs <> [] -> (length vs <= 64)%nat ->
  Forall2 (fun x v => is_finite x = true /\ B2R x = rnd32 v /\ Rabs v <= pow2 120) xs vs ->
  is_finite (avg32 reads) = true /\
  Rabs (B2R (avg32 reads) - mean vs) <= pow2 (-17) * ((1 + pow2 (-24)) * mean_abs vs + pow2 (-150)) + pow2 (-24) * mean_abs vs + 2 * pow2 (-150).
Proof.
  intros Hp Hne Hl Hf. pose proof (Forall2_length _ _ _ Hf) as Hxl. pose proof (Permutation_length Hp) as Hrl.
  assert (Hv : Forall (fun x => is_finite x = true /\ Rabs (B2R x) <= pow2 120) reads).
  { rewrite Hp. clear - Hf. induction Hf as [|x v xs vs (H1 & H2 & H3) Hf IH]; [apply Forall_nil_2|]. apply Forall_cons_2; [|exact IH].
    split; [exact H1|]. rewrite H2. apply rnd32_abs; [exact H3|lia]. }
  destruct (avg32_err reads) as [H1 H2]; [destruct reads; [destruct vs; [congruence|]; cbn in *; lia|discriminate]|lia|exact Hv|].
  split; [exact H1|].
  destruct (mean_image (pow2 (-24)) (pow2 (-150)) (map B2R xs) vs Hne) as [H3 H4]; [apply bpow_ge_0| |].
  { clear - Hf. induction Hf as [|x v xs vs (H1 & H2 & H3) Hf IH]; cbn; constructor; [|exact IH]. rewrite H2. apply rnd32_err. }
  assert (E1 : mean (map B2R reads) = mean (map B2R xs)) by (apply mean_perm, fmap_Permutation, Hp).
  assert (E2 : mean_abs (map B2R reads) = mean_abs (map B2R xs)).
  { unfold mean_abs. apply mean_perm. do 2 apply (fmap_Permutation _). exact Hp. }
  rewrite E1, E2 in H2.
  replace (B2R (avg32 reads) - mean vs) with ((B2R (avg32 reads) - mean (map B2R xs)) + (mean (map B2R xs) - mean vs)) by ring.
  apply Rle_trans with (1 := Rabs_triang _ _).
  assert (pow2 (-17) * mean_abs (map B2R xs) <= pow2 (-17) * ((1 + pow2 (-24)) * mean_abs vs + pow2 (-150))) by (apply Rmult_le_compat_l; [apply bpow_ge_0|exact H4]).
  lra.
Qed.

Section held.
  Context {V R : Type} (vzero : V) (vlt : V -> V -> bool) (vadd : V -> V -> V) (fzero : f32) (to32 : V -> f32) (rng_next : R -> Z * R).
  Variables (r : R) (h : list (Z * dist_op V R)) (d : dist V f32 R).
  Hypothesis Hb : (inserts h + 1 < 2 ^ 63)%Z.
  Hypothesis Hr : dist_run vzero vlt vadd to32 f32_less rng_next (dist_new vzero fzero r) h = Ok d.
  Hypothesis Hne : recorded h <> [].
  Lemma held_values : exists ys, ys ⊆+ recorded h /\ average_reads d ≡ₚ map to32 ys /\ Z.of_nat (length ys) = Z.min (Z.of_nat (length (recorded h))) 64.
  Proof.
    destruct (reservoir_holds vzero vlt vadd fzero to32 f32_less rng_next r h d Hb Hr) as (H1 & (ys & H2 & H3) & _).
    exists ys. split_and!; [exact H2|exact H3|]. rewrite <- H1, H3, map_length. reflexivity.
  Qed.
End held.

Lemma numbers m : 0 <= m ->
  pow2 (-17) * ((1 + pow2 (-24)) * m + pow2 (-150)) + pow2 (-24) * m + 2 * pow2 (-150) <= / 100000 * m + 3 * pow2 (-150).
Proof.
  intros Hm. change (pow2 (-17)) with (/ 131072). change (pow2 (-24)) with (/ 16777216). pose proof (bpow_gt_0 radix2 (-150)). lra.
Qed.

Lemma float_ravg_err {R} (rng_next : R -> Z * R) r h d :
  (inserts h + 1 < 2 ^ 63)%Z -> fdist_run rng_next (fdist_new r) h = Ok d -> recorded h <> [] ->
  Forall (fun v => is_finite v = true /\ Rabs (B2R v) <= pow2 120) (recorded h) ->
  exists ys, ys ⊆+ recorded h /\ Z.of_nat (length ys) = Z.min (Z.of_nat (length (recorded h))) 64 /\
    average_reads d ≡ₚ map float64_32 ys /\ is_finite (float_ravg d) = true /\
    Rabs (B2R (float_ravg d) - mean (map B2R ys)) <= pow2 (-16) * mean_abs (map B2R ys) + pow2 (-148).
Proof.
  intros Hb Hr Hne Hv. destruct (held_values _ _ _ _ _ _ r h d Hb Hr) as (ys & H1 & H2 & H3).
  assert (Hy : ys <> []) by (destruct ys, (recorded h); cbn in *; try congruence; lia).
  assert (Hf : Forall2 (fun x v => is_finite x = true /\ B2R x = rnd32 v /\ Rabs v <= pow2 120) (map float64_32 ys) (map B2R ys)).
  { rewrite Forall2_fmap. apply Forall_Forall2_diag. apply Forall_forall. intros v Hin.
    rewrite Forall_forall in Hv. destruct (Hv v) as [F1 F2]; [apply (elem_of_submseteq _ _ _ Hin H1)|].
    assert (F3 : Rabs (B2R v) <= pow2 127) by (apply Rle_trans with (1 := F2); apply bpow_le; lia).
    split_and!; [apply float64_32_finite; assumption|apply float64_32_value; assumption|exact F2]. }
  assert (Hne' : map B2R ys <> []) by (destruct ys; [congruence|discriminate]).
  destruct (avg_values _ _ (map B2R ys) H2 Hne' ltac:(rewrite map_length; lia) Hf) as [G1 G2].
  assert (E : float_ravg d = to64 (avg32 (average_reads d))).
  { unfold float_ravg. destruct (average_reads d); [apply Permutation_length in H2; rewrite map_length in H2; destruct ys; [congruence|discriminate]|reflexivity]. }
  destruct (to64_spec _ G1) as [T1 T2]. rewrite E. exists ys. split_and!; [exact H1|exact H3|exact H2|exact T1|]. rewrite T2.
  pose proof (mean_abs_nonneg (map B2R ys)) as Hm. pose proof (numbers _ Hm).
  change (pow2 (-16)) with (/ 65536). assert (E4 : pow2 (-148) = 4 * pow2 (-150)) by (change (-148)%Z with (2 + -150)%Z; rewrite bpow_plus; reflexivity).
  pose proof (bpow_gt_0 radix2 (-150)). lra.
Qed.

(** ** Integer parts *)
Lemma trunc_near x : Rabs (IZR (Ztrunc x) - x) < 1.
Proof.
  destruct (Rle_or_lt 0 x) as [H|H].
  - rewrite Ztrunc_floor by exact H. pose proof (Zfloor_lb x). pose proof (Zfloor_ub x). apply Rabs_def1; lra.
  - rewrite Ztrunc_ceil by lra. pose proof (Zceil_ub x). pose proof (Zceil_lb x). apply Rabs_def1; lra.
Qed.
Lemma total_ints (ys : list Z) : total (map Rabs (map IZR ys)) = IZR (fold_right (fun z s => Z.abs z + s)%Z 0%Z ys).
Proof. induction ys as [|z ys IH]; [reflexivity|]. unfold total in *. cbn [map fold_right]. rewrite IH, plus_IZR, abs_IZR. reflexivity. Qed.
Lemma mean_abs_ints (ys : list Z) : (length ys <= 64)%nat -> mean_abs (map IZR ys) = 0 \/ / 64 <= mean_abs (map IZR ys).
Proof.
  intros Hl. unfold mean_abs, mean. rewrite !map_length, total_ints.
  set (s := fold_right _ 0%Z ys). assert (Hs : (0 <= s)%Z) by (subst s; induction ys; cbn [fold_right length] in *; lia).
  destruct (Z.eq_dec s 0%Z) as [->|Hz]; [left; unfold Rdiv; rewrite Rmult_0_l; reflexivity|right].
  assert (Hn : 0 < INR (length ys)) by (apply lt_0_INR; destruct ys; [exfalso; apply Hz; reflexivity|cbn; lia]).
  assert (Hn' : INR (length ys) <= 64) by (rewrite INR_IZR_INZ; apply (IZR_le _ 64); lia).
  assert (H1 : 1 <= IZR s) by (apply (IZR_le 1); lia). clearbody s.
  apply Rle_trans with (/ INR (length ys)); [apply Rinv_le; lra|].
  unfold Rdiv. assert (0 < / INR (length ys)) by (apply Rinv_0_lt_compat; exact Hn). nra.
Qed.
Lemma mean_le_abs l : Rabs (mean l) <= mean_abs l.
Proof.
  unfold mean_abs, mean. rewrite map_length. destruct l as [|x l].
  - unfold total. cbn. unfold Rdiv. rewrite Rmult_0_l, Rabs_R0. lra.
  - set (n := INR (length (x :: l))). assert (Hn : 0 < n) by (apply lt_0_INR; cbn; lia).
    unfold Rdiv. rewrite Rabs_mult, (Rabs_pos_eq (/ n)) by (apply Rlt_le, Rinv_0_lt_compat, Hn).
    apply Rmult_le_compat_r; [apply Rlt_le, Rinv_0_lt_compat, Hn|apply total_abs].
Qed.
Lemma mean_abs_bound l m : l <> [] -> Forall (fun x => Rabs x <= m) l -> mean_abs l <= m.
Proof.
  intros Hne Hf. pose proof (total_bound l m Hf). unfold mean_abs, mean. rewrite map_length.
  assert (Hn : 0 < INR (length l)) by (apply lt_0_INR; destruct l; [congruence|cbn; lia]).
  apply Rmult_le_reg_r with (1 := Hn). unfold Rdiv. rewrite Rmult_assoc, Rinv_l by lra. lra.
Qed.

Lemma int_ravg_err {R} vlt vadd fzero (rng_next : R -> Z * R) r h d :
  (inserts h + 1 < 2 ^ 63)%Z -> dist_run 0%Z vlt vadd int64_32 f32_less rng_next (dist_new 0%Z fzero r) h = Ok d -> recorded h <> [] ->
  Forall (fun z => Z.abs z <= 2 ^ 62)%Z (recorded h) ->
  exists k ys, int_ravg d = Some k /\ ys ⊆+ recorded h /\ Z.of_nat (length ys) = Z.min (Z.of_nat (length (recorded h))) 64 /\
    average_reads d ≡ₚ map int64_32 ys /\
    Rabs (IZR k - mean (map IZR ys)) < 1 + pow2 (-16) * mean_abs (map IZR ys).
Proof.
  intros Hb Hr Hne Hv. destruct (held_values _ _ _ _ _ _ r h d Hb Hr) as (ys & H1 & H2 & H3).
  assert (Hy : ys <> []) by (destruct ys, (recorded h); cbn in *; try congruence; lia).
  assert (Hyv : Forall (fun z => Z.abs z <= 2 ^ 62)%Z ys).
  { rewrite Forall_forall in Hv. apply Forall_forall. intros v Hin. apply Hv. apply (elem_of_submseteq _ _ _ Hin H1). }
  assert (Hyr : Forall (fun x => Rabs x <= pow2 62) (map IZR ys)).
  { apply Forall_map. apply (Forall_impl _ _ _ Hyv). intros z Hz. rewrite <- abs_IZR. change (pow2 62) with (IZR (2 ^ 62)). apply IZR_le, Hz. }
  assert (Hf : Forall2 (fun x v => is_finite x = true /\ B2R x = rnd32 v /\ Rabs v <= pow2 120) (map int64_32 ys) (map IZR ys)).
  { rewrite Forall2_fmap. apply Forall_Forall2_diag. apply (Forall_impl _ _ _ Hyv). intros z Hz.
    split_and!; [apply int64_32_finite; unfold in64; lia|apply int64_32_value; unfold in64; lia|].
    rewrite <- abs_IZR. apply Rle_trans with (pow2 62); [|apply bpow_le; lia]. change (pow2 62) with (IZR (2 ^ 62)). apply IZR_le, Hz. }
  assert (Hne' : map IZR ys <> []) by (destruct ys; [congruence|discriminate]).
  destruct (avg_values _ _ _ H2 Hne' ltac:(rewrite map_length; lia) Hf) as [G1 G2].
  pose proof (mean_abs_nonneg (map IZR ys)) as Hm. pose proof (numbers _ Hm) as N. pose proof (mean_abs_bound _ _ Hne' Hyr) as Hub.
  pose proof (mean_le_abs (map IZR ys)) as Hma. pose proof (mean_abs_ints ys ltac:(lia)) as Hint.
  set (a := B2R (avg32 (average_reads d))) in *. set (m := mean (map IZR ys)) in *. set (ma := mean_abs (map IZR ys)) in *.
  assert (Hd : Rabs (a - m) <= / 100000 * ma + 3 * pow2 (-150)) by lra. clear N G2.
  assert (Hp : 3 * pow2 (-150) <= / 1000000000).
  { apply Rle_trans with (3 * pow2 (-40)); [apply Rmult_le_compat_l; [lra|apply bpow_le; lia]|]. change (pow2 (-40)) with (/ IZR (2 ^ 40)). lra. }
  pose proof (bpow_gt_0 radix2 (-150)) as Hp0.
  pose proof (trunc_near a) as Ht.
  assert (Hk : (- 2 ^ 63 <= Ztrunc a < 2 ^ 63)%Z).
  { assert (B : Rabs a < IZR (2 ^ 63 - 1)).
    { pose proof (Rabs_triang (a - m) m) as T. replace (a - m + m) with a in T by ring.
      change (pow2 62) with 4611686018427387904 in Hub. change (IZR (2 ^ 63 - 1)) with 9223372036854775807. lra. }
    assert (B1 : Rabs (IZR (Ztrunc a)) < IZR (2 ^ 63)).
    { pose proof (Rabs_triang (IZR (Ztrunc a) - a) a) as T. replace (IZR (Ztrunc a) - a + a) with (IZR (Ztrunc a)) in T by ring.
      rewrite minus_IZR in B. lra. }
    rewrite <- abs_IZR in B1. apply lt_IZR in B1. lia. }
  exists (Ztrunc a), ys. split_and!; [|exact H1|exact H3|exact H2|].
  - assert (E : int_ravg d = int64_of32 (avg32 (average_reads d))).
    { unfold int_ravg. destruct (average_reads d); [apply Permutation_length in H2; rewrite map_length in H2; destruct ys; [congruence|discriminate]|reflexivity]. }
    rewrite E. unfold int64_of32. rewrite G1. pose proof (Btrunc_correct 24 128 emax128 (avg32 (average_reads d))) as C.
    rewrite round_FIX_IZR in C. apply eq_IZR in C. rewrite C. fold a.
    destruct (Z.leb_spec (- 2 ^ 63) (Ztrunc a)); [|lia]. destruct (Z.ltb_spec (Ztrunc a) (2 ^ 63)); [reflexivity|lia].
  - change (Rabs (IZR (Ztrunc a) - m) < 1 + pow2 (-16) * ma). change (pow2 (-16)) with (/ 65536). clearbody a m ma. clear - Hd Hm Hma Hint Hp Hp0 Ht. destruct Hint as [E0|E64].
    + assert (Em : m = 0) by (apply Rabs_eq_R0; rewrite E0 in Hma; pose proof (Rabs_pos m); lra).
      assert (Ha : Rabs a < 1) by (rewrite Em, Rminus_0_r, E0 in Hd; lra).
      assert (Et : Ztrunc a = 0%Z).
      { destruct (Rle_or_lt 0 a).
        - rewrite Ztrunc_floor by assumption. apply Zfloor_imp. rewrite Rabs_pos_eq in Ha by assumption. change (0 + 1)%Z with 1%Z. split; lra.
        - rewrite Ztrunc_ceil by lra. apply Zceil_imp. rewrite Rabs_left in Ha by assumption. change (0 - 1)%Z with (-1)%Z. split; lra. }
      rewrite Et, Em, Rminus_0_r, Rabs_R0. lra.
    + replace (IZR (Ztrunc a) - m) with ((IZR (Ztrunc a) - a) + (a - m)) by ring.
      apply Rle_lt_trans with (1 := Rabs_triang _ _). lra.
Qed.
