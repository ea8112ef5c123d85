(** Proofs about sums and averages in floating point. *)
From Coq Require Import Reals Lra Lia.
From Flocq Require Import Core BinarySingleNaN Plus_error Relative.
From Verif Require Import Base BaseProofs DistModel DistSpec DistProofs QueryReal QueryModel QuerySpec QueryProofs AvgModel AvgSpec.
Open Scope Z_scope.

(** ** Real sums *)
Local Open Scope R_scope.
Lemma total_app a b : total (a ++ b) = total a + total b.
Proof. unfold total. induction a as [|x a IH]; cbn in *; lra. Qed.
Lemma total_perm a b : a ≡ₚ b -> total a = total b.
Proof. induction 1; unfold total in *; cbn in *; lra. Qed.
Lemma total_abs_nonneg l : 0 <= total (map Rabs l).
Proof. unfold total. induction l as [|x l IH]; cbn in *; [lra|]. pose proof (Rabs_pos x). lra. Qed.
Lemma total_abs l : Rabs (total l) <= total (map Rabs l).
Proof.
  unfold total. induction l as [|x l IH]; cbn in *; [rewrite Rabs_R0; lra|].
  pose proof (Rabs_triang x (fold_right Rplus 0 l)). lra.
Qed.
Lemma pow_bound u d n : 0 <= u -> 0 <= d -> INR n * u * (1 + d) <= d -> (1 + u) ^ n <= 1 + INR n * u * (1 + d).
Proof.
  intros Hu Hd. induction n as [|n IH]; intros H; [cbn; lra|].
  rewrite S_INR in *. cbn [Rpow_def.pow].
  assert (Hn : 0 <= INR n) by apply pos_INR.
  assert (Hnu : 0 <= INR n * u) by (apply Rmult_le_pos; assumption).
  assert (Hsub : INR n * u * (1 + d) <= d).
  { apply Rle_trans with (2 := H). apply Rmult_le_compat_r; [lra|]. nra. }
  specialize (IH Hsub).
  apply Rle_trans with ((1 + u) * (1 + INR n * u * (1 + d))); [apply Rmult_le_compat_l; [lra|exact IH]|].
  assert (u * (INR n * u * (1 + d)) <= u * d) by (apply Rmult_le_compat_l; assumption). nra.
Qed.

(** ** Naive summation *)
Section sum.
Variables prec emax : Z.
Context (Hp : Prec_gt_0 prec) (He : Prec_lt_emax prec emax).
Notation bf := (binary_float prec emax).
Notation fexp := (SpecFloat.fexp prec emax).
Notation rnd := (round radix2 fexp ZnearestE).
Local Notation u := (u_ro radix2 prec).

Lemma u_nonneg : 0 <= u. Proof. apply u_ro_pos. Qed.

Lemma plus_err (x y : bf) : exists e, Rabs e <= u /\ rnd (B2R x + B2R y) = (B2R x + B2R y) * (1 + e).
Proof.
  destruct (FLT_plus_error_N_ex radix2 (3 - emax - prec) prec (fun z => negb (Z.even z)) (B2R x) (B2R y)) as (e & H1 & H2).
  - apply generic_format_B2R.
  - apply generic_format_B2R.
  - exists e. split; [|exact H2]. apply Rle_trans with (1 := H1). pose proof u_nonneg.
    apply Rmult_le_reg_r with (1 + u); [lra|]. unfold Rdiv. rewrite Rmult_assoc, Rinv_l by lra. nra.
Qed.
Lemma plus_abs (x y : bf) : Rabs (rnd (B2R x + B2R y)) <= (1 + u) * (Rabs (B2R x) + Rabs (B2R y)).
Proof.
  destruct (plus_err x y) as (e & He' & ->). rewrite Rabs_mult.
  pose proof (Rabs_triang (B2R x) (B2R y)). pose proof (Rabs_triang 1 e). rewrite Rabs_R1 in *.
  pose proof (Rabs_pos (B2R x + B2R y)). pose proof (Rabs_pos (1 + e)). rewrite Rmult_comm.
  apply Rmult_le_compat; lra.
Qed.

(** Once infinite or NaN, always so. *)
Lemma plus_finite (x y : bf) : is_finite (Bplus mode_NE x y) = true -> is_finite x = true /\ is_finite y = true.
Proof. destruct x as [s1|s1| |s1 m1 e1 H1], y as [s2|s2| |s2 m2 e2 H2]; cbn; auto; try discriminate. destruct (Bool.eqb s1 s2); discriminate. Qed.
Lemma plus_value (x y : bf) : is_finite (Bplus mode_NE x y) = true -> B2R (Bplus mode_NE x y) = rnd (B2R x + B2R y).
Proof.
  intros H. destruct (plus_finite x y H) as [Hx Hy].
  pose proof (Bplus_correct prec emax Hp He mode_NE x y Hx Hy) as C. cbn [round_mode] in C.
  destruct (Rlt_bool _ _); [apply C|]. destruct C as [C _].
  apply (f_equal is_finite_SF) in C. rewrite is_finite_SF_B2SF, H in C. discriminate.
Qed.
Lemma fold_plus_finite (l : list bf) (acc : bf) : is_finite (fold_left (Bplus mode_NE) l acc) = true -> is_finite acc = true /\ Forall (fun x => is_finite x = true) l.
Proof.
  revert acc. induction l as [|x l IH]; intros acc H; [split; [exact H|constructor]|].
  cbn in H. apply IH in H as [H Hl]. apply plus_finite in H as [Ha Hx]. split; [exact Ha|]. constructor; assumption.
Qed.

Lemma fold_plus_err (l : list bf) (acc : bf) : is_finite (fold_left (Bplus mode_NE) l acc) = true ->
  Rabs (B2R (fold_left (Bplus mode_NE) l acc) - (B2R acc + total (map B2R l))) <=
  ((1 + u) ^ length l - 1) * (Rabs (B2R acc) + total (map Rabs (map B2R l))).
Proof.
  pose proof u_nonneg as Hu. revert acc. induction l as [|x l IH]; intros acc H.
  - cbn. unfold total. cbn. rewrite Rplus_0_r, Rminus_diag_eq, Rabs_R0 by reflexivity. lra.
  - cbn [fold_left] in H |- *. specialize (IH _ H). apply fold_plus_finite in H as [H _].
    pose proof (plus_value acc x H) as Ev. destruct (plus_err acc x) as (e & He' & Er). pose proof (plus_abs acc x) as Ha.
    set (S := B2R (fold_left _ l _)) in *. set (a' := B2R (Bplus mode_NE acc x)) in *. clearbody S.
    rewrite <- Ev in Er, Ha. clear Ev. clearbody a'.
    cbn [map length Rpow_def.pow]. change (total (B2R x :: map B2R l)) with (B2R x + total (map B2R l)).
    change (total (Rabs (B2R x) :: map Rabs (map B2R l))) with (Rabs (B2R x) + total (map Rabs (map B2R l))).
    pose proof (total_abs_nonneg (map B2R l)) as HL.
    set (L := total (map Rabs (map B2R l))) in *. set (s := total (map B2R l)) in *. set (a := B2R acc) in *. set (b := B2R x) in *.
    set (p := (1 + u) ^ length l) in *.
    assert (Hp1 : 1 <= p) by (apply pow_R1_Rle; lra). clearbody L s a b p.
    replace (S - (a + (b + s))) with ((S - (a' + s)) + (a' - (a + b))) by ring.
    apply Rle_trans with (1 := Rabs_triang _ _).
    assert (Hd : Rabs (a' - (a + b)) <= u * (Rabs a + Rabs b)).
    { rewrite Er. replace ((a + b) * (1 + e) - (a + b)) with ((a + b) * e) by ring. rewrite Rabs_mult, Rmult_comm.
      pose proof (Rabs_triang a b). apply Rmult_le_compat; try apply Rabs_pos; assumption. }
    pose proof (Rabs_pos a). pose proof (Rabs_pos b).
    assert (Hm : (p - 1) * (Rabs a' + L) <= (p - 1) * ((1 + u) * (Rabs a + Rabs b) + L)) by (apply Rmult_le_compat_l; lra).
    assert (0 <= u * p * L) by (apply Rmult_le_pos; [apply Rmult_le_pos; lra|exact HL]).
    nra.
Qed.

(** No overflow when the magnitudes are small. *)
Lemma fold_plus_small (l : list bf) (acc : bf) :
  is_finite acc = true -> Forall (fun x => is_finite x = true) l ->
  (1 + u) ^ length l * (Rabs (B2R acc) + total (map Rabs (map B2R l))) < bpow radix2 emax ->
  is_finite (fold_left (Bplus mode_NE) l acc) = true.
Proof.
  pose proof u_nonneg as Hu. revert acc. induction l as [|x l IH]; intros acc Ha Hl Hb; [exact Ha|].
  apply Forall_cons in Hl as [Hx Hl]. cbn [fold_left].
  cbn [map length Rpow_def.pow] in Hb. change (total (Rabs (B2R x) :: map Rabs (map B2R l))) with (Rabs (B2R x) + total (map Rabs (map B2R l))) in Hb.
  pose proof (total_abs_nonneg (map B2R l)) as HL. pose proof (plus_abs acc x) as Hab.
  set (L := total (map Rabs (map B2R l))) in *. set (p := (1 + u) ^ length l) in *.
  assert (Hp1 : 1 <= p) by (apply pow_R1_Rle; lra).
  pose proof (Rabs_pos (B2R acc)) as P1. pose proof (Rabs_pos (B2R x)) as P2.
  assert (Hstep : p * (Rabs (rnd (B2R acc + B2R x)) + L) < bpow radix2 emax).
  { apply Rle_lt_trans with (2 := Hb).
    apply Rle_trans with (p * ((1 + u) * (Rabs (B2R acc) + Rabs (B2R x)) + L)); [apply Rmult_le_compat_l; lra|].
    assert (0 <= u * p * L) by (apply Rmult_le_pos; [apply Rmult_le_pos; lra|exact HL]). nra. }
  pose proof (Bplus_correct prec emax Hp He mode_NE acc x Ha Hx) as C. cbn [round_mode] in C.
  rewrite Rlt_bool_true in C.
  - destruct C as (C1 & C2 & _). apply IH; [exact C2|exact Hl|]. rewrite C1. exact Hstep.
  - apply Rle_lt_trans with (2 := Hstep). pose proof (Rabs_pos (rnd (B2R acc + B2R x))). nra.
Qed.

(** Division by an integer. *)
Lemma div_err (x y : bf) n : is_finite x = true -> B2R y = IZR n -> (1 <= n)%Z ->
  exists e t, Rabs e <= u /\ Rabs t <= /2 * bpow radix2 (3 - emax - prec) /\
    is_finite (Bdiv mode_NE x y) = true /\ B2R (Bdiv mode_NE x y) = B2R x / IZR n * (1 + e) + t.
Proof.
  intros Hx Ey Hn. assert (H1 : 1 <= IZR n) by (apply (IZR_le 1); exact Hn).
  destruct (error_N_FLT radix2 (3 - emax - prec) prec Hp (fun z => negb (Z.even z)) (B2R x / IZR n)) as (e & t & H2 & H3 & _ & H4).
  pose proof (Bdiv_correct prec emax Hp He mode_NE x y) as C. cbn [round_mode] in C. rewrite Ey in C.
  rewrite Rlt_bool_true in C.
  - destruct C as (C1 & C2 & _); [lra|]. exists e, t. rewrite C1, C2. split; [|auto].
    unfold u_ro. replace (1 - prec)%Z with (- prec + 1)%Z by lia. exact H2.
  - apply Rle_lt_trans with (Rabs (B2R x)).
    + apply abs_round_le_generic; auto with typeclass_instances; [apply fexp_correct; exact Hp|apply generic_format_abs, generic_format_B2R|].
      unfold Rdiv. rewrite Rabs_mult. apply Rle_trans with (Rabs (B2R x) * 1); [|lra].
      apply Rmult_le_compat_l; [apply Rabs_pos|]. rewrite Rabs_inv, Rabs_pos_eq by lra. rewrite <- Rinv_1. apply Rinv_le; lra.
    + apply abs_B2R_lt_emax.
Qed.

Lemma mean_err (l : list bf) (y : bf) : l <> [] -> B2R y = IZR (Z.of_nat (length l)) ->
  is_finite (fold_left (Bplus mode_NE) l (B754_zero false)) = true ->
  is_finite (Bdiv mode_NE (fold_left (Bplus mode_NE) l (B754_zero false)) y) = true /\
  Rabs (B2R (Bdiv mode_NE (fold_left (Bplus mode_NE) l (B754_zero false)) y) - mean (map B2R l)) <=
    ((1 + u) ^ S (length l) - 1) * mean_abs (map B2R l) + /2 * bpow radix2 (3 - emax - prec).
Proof.
  intros Hne Ey Hf. pose proof u_nonneg as Hu.
  assert (Hn : (1 <= Z.of_nat (length l))%Z) by (destruct l; [congruence|cbn; lia]).
  destruct (div_err _ y _ Hf Ey Hn) as (e & t & H1 & H2 & H3 & H4). split; [exact H3|]. rewrite H4.
  pose proof (fold_plus_err l (B754_zero false) Hf) as Hs. cbn [B2R] in Hs. rewrite Rplus_0_l, Rabs_R0, Rplus_0_l in Hs.
  set (S := B2R (fold_left _ l _)) in *. clearbody S. unfold mean_abs, mean. rewrite !map_length.
  rewrite INR_IZR_INZ. set (n := IZR (Z.of_nat (length l))) in *.
  assert (H0 : 1 <= n) by (apply (IZR_le 1); exact Hn). clearbody n.
  pose proof (total_abs (map B2R l)) as Ht.
  set (s := total (map B2R l)) in *. set (L := total (map Rabs (map B2R l))) in *. cbn [Rpow_def.pow]. set (p := (1 + u) ^ length l) in *.
  assert (Hp1 : 1 <= p) by (apply pow_R1_Rle; lra). clearbody s L p.
  assert (Hi : 0 < / n) by (apply Rinv_0_lt_compat; lra).
  assert (HS : Rabs S <= p * L).
  { replace S with ((S - s) + s) by ring. apply Rle_trans with (1 := Rabs_triang _ _). lra. }
  replace (S / n * (1 + e) + t - s / n) with ((((S - s) + S * e) * / n) + t) by (unfold Rdiv; ring).
  apply Rle_trans with (1 := Rabs_triang _ _). apply Rplus_le_compat; [|exact H2].
  rewrite Rabs_mult, (Rabs_pos_eq (/ n)) by lra. unfold Rdiv. rewrite <- Rmult_assoc. apply Rmult_le_compat_r; [lra|].
  apply Rle_trans with (1 := Rabs_triang _ _). rewrite Rabs_mult.
  assert (Rabs S * Rabs e <= (p * L) * u) by (apply Rmult_le_compat; try apply Rabs_pos; assumption). nra.
Qed.
End sum.
