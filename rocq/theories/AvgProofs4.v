(** Low, High and Recent of a FloatDist (for C88). *)
From Coq Require Import Reals Lra Lia.
From Flocq Require Import Core BinarySingleNaN.
From Verif Require Import Base BaseProofs DistModel DistSpec DistProofs QueryReal QueryModel QuerySpec QueryProofs AvgModel AvgSpec AvgProofs AvgProofs2.
Local Open Scope R_scope.

(** The order of floats other than NaN, in the reals. *)
Definition ext (x : f64) : R := match x with B754_infinity s => if s then - pow2 1024 else pow2 1024 | _ => B2R x end.
Lemma ext_finite x : is_finite x = true -> ext x = B2R x /\ - pow2 1024 < ext x < pow2 1024.
Proof.
  intros H. assert (E : ext x = B2R x) by (destruct x; try discriminate; reflexivity). split; [exact E|]. rewrite E.
  pose proof (abs_B2R_lt_emax 53 1024 x) as A. apply Rabs_lt_inv in A. exact A.
Qed.
Lemma ext_lt x y : is_nan x = false -> is_nan y = false -> Bltb x y = Rlt_bool (ext x) (ext y).
Proof.
  intros Hx Hy. pose proof (bpow_gt_0 radix2 1024) as P.
  destruct (is_finite x) eqn:Fx; [destruct (is_finite y) eqn:Fy|].
  - rewrite Bltb_correct by assumption. destruct (ext_finite x Fx) as [-> _]. destruct (ext_finite y Fy) as [-> _]. reflexivity.
  - destruct (ext_finite x Fx) as [_ B]. destruct y as [s|s| |s m e H]; try discriminate. cbn [ext]. symmetry.
    destruct s; [replace (Bltb x (B754_infinity true)) with false; [apply Rlt_bool_false; lra|]|replace (Bltb x (B754_infinity false)) with true; [apply Rlt_bool_true; lra|]];
      destruct x; try discriminate; reflexivity.
  - destruct x as [s|s| |s m e H]; try discriminate. cbn [ext]. symmetry. destruct (is_finite y) eqn:Fy.
    + destruct (ext_finite y Fy) as [_ B].
      destruct s; [replace (Bltb (B754_infinity true) y) with true; [apply Rlt_bool_true; lra|]|replace (Bltb (B754_infinity false) y) with false; [apply Rlt_bool_false; lra|]];
        destruct y; try discriminate; reflexivity.
    + destruct y as [s'|s'| |s' m e H]; try discriminate. cbn [ext]. destruct s, s'; first [apply Rlt_bool_true; lra|apply Rlt_bool_false; lra].
Qed.
Lemma ext_le x y : is_nan x = false -> is_nan y = false -> ext x <= ext y -> Bleb x y = true.
Proof.
  intros Hx Hy Hle. pose proof (bpow_gt_0 radix2 1024) as P.
  destruct (is_finite x) eqn:Fx; [destruct (is_finite y) eqn:Fy|].
  - rewrite Bleb_correct by assumption. destruct (ext_finite x Fx) as [<- _]. destruct (ext_finite y Fy) as [<- _]. apply Rle_bool_true, Hle.
  - destruct (ext_finite x Fx) as [_ B]. destruct y as [s|s| |s m e H]; try discriminate. cbn [ext] in Hle.
    destruct s; [lra|]. destruct x; try discriminate; reflexivity.
  - destruct x as [s|s| |s m e H]; try discriminate. cbn [ext] in Hle. destruct (is_finite y) eqn:Fy.
    + destruct (ext_finite y Fy) as [_ B]. destruct s; [|lra]. destruct y; try discriminate; reflexivity.
    + destruct y as [s'|s'| |s' m e H]; try discriminate. cbn [ext] in Hle. destruct s, s'; try reflexivity. lra.
Qed.

Definition FInv {R} (xs : list f64) (d : dist f64 f32 R) : Prop :=
  xs <> [] -> Forall (fun v => is_nan v = false) xs ->
  d_low d ∈ xs /\ d_high d ∈ xs /\ Forall (fun v => ext (d_low d) <= ext v <= ext (d_high d)) xs /\ last xs = Some (d_recent d).
Section counters.
  Context {R : Type} (rng_next : R -> Z * R).
  Local Notation zero := (B754_zero false : f64).
  Local Notation plus := (Bplus mode_NE : f64 -> f64 -> f64).
  Local Notation fz := (B754_zero false : f32).
  Lemma run_FInv h xs d d' :
    DInv float64_32 xs d -> FInv xs d -> (Z.of_nat (length xs) + inserts h + 1 < 2 ^ 63)%Z ->
    fdist_run rng_next d h = Ok d' -> FInv (fold_left rec_step h xs) d'.
  Proof.
    unfold fdist_run. revert xs d. induction h as [|[W o] h IH]; intros xs d Hd HI Hb Hr.
    - injection Hr as <-. exact HI.
    - rewrite (inserts_cons zero Bltb plus fz float64_32 f32_less rng_next) in Hb. pose proof (inserts_nonneg zero Bltb plus fz float64_32 f32_less rng_next h).
      cbn [dist_run] in Hr. cbn [fold_left].
      destruct (step_ok zero Bltb plus fz float64_32 f32_less rng_next W d o xs Hd) as (d1 & E & Hd1).
      { destruct o; lia. }
      rewrite E in Hr.
      apply (IH _ d1); [exact Hd1| |destruct o; cbn; rewrite ?app_length; cbn [length]; lia|exact Hr].
      destruct o as [v| | |r|]; cbn [dist_step] in E; unfold rec_step; cbn [snd].
      * destruct (insert_ok zero Bltb plus fz float64_32 f32_less rng_next W d v xs Hd ltac:(lia)) as (d0 & E' & _ & L1 & L2 & L3 & _).
        rewrite E in E'. injection E' as <-. intros _ Hx. apply Forall_app in Hx as [Hx Ho]. apply Forall_cons in Ho as [Ho _]. rewrite L1, L2, L3.
        destruct Hd as (Hc & _). rewrite Hc. destruct xs as [|x xs].
        -- cbn. split_and!; [constructor|constructor| |reflexivity]. repeat constructor; apply Rle_refl.
        -- destruct (Z.eqb_spec (Z.of_nat (length (x :: xs))) 0); [cbn in *; lia|]. cbn [negb].
           destruct (HI ltac:(discriminate) Hx) as (I1 & I2 & I3 & _).
           assert (N1 : is_nan (d_low d) = false) by (rewrite Forall_forall in Hx; apply Hx, I1).
           assert (N2 : is_nan (d_high d) = false) by (rewrite Forall_forall in Hx; apply Hx, I2).
           rewrite !ext_lt by assumption.
           assert (Hlh : ext (d_low d) <= ext (d_high d)) by (rewrite Forall_forall in I3; apply (I3 _ I1)).
           split_and!.
           ++ destruct (Rlt_bool_spec (ext v) (ext (d_low d))); apply elem_of_app; [right; constructor|left; exact I1].
           ++ destruct (Rlt_bool_spec (ext (d_high d)) (ext v)); apply elem_of_app; [right; constructor|left; exact I2].
           ++ apply Forall_app. split; [apply (Forall_impl _ _ _ I3); intros w Hw|apply Forall_cons_2; [|apply Forall_nil_2]];
                destruct (Rlt_bool_spec (ext v) (ext (d_low d))), (Rlt_bool_spec (ext (d_high d)) (ext v)); lra.
           ++ apply last_snoc.
      * injection E as <-. destruct (query_state_fields zero Bltb plus fz float64_32 f32_less rng_next d) as (Q1 & Q2 & Q3 & _ & Q5 & _).
        unfold FInv. rewrite Q1, Q2, Q3. exact HI.
      * injection E as <-. exact HI.
      * injection E as <-. exact HI.
      * injection E as <-. intros F. destruct (F eq_refl).
  Qed.
  Lemma float_counters r h d : (inserts h + 1 < 2 ^ 63)%Z -> fdist_run rng_next (fdist_new r) h = Ok d ->
    recorded h <> [] -> Forall (fun v => is_nan v = false) (recorded h) ->
    d_low d ∈ recorded h /\ d_high d ∈ recorded h /\
    Forall (fun v => Bleb (d_low d) v = true /\ Bleb v (d_high d) = true) (recorded h) /\ last (recorded h) = Some (d_recent d).
  Proof.
    intros Hb Hr Hne Hx. destruct (run_FInv h [] (fdist_new r) d) as (H1 & H2 & H3 & H4);
      [apply (DInv_new zero Bltb plus fz float64_32 f32_less rng_next)|intros F; destruct (F eq_refl)|cbn; lia|exact Hr|exact Hne|exact Hx|].
    split_and!; [exact H1|exact H2| |exact H4]. rewrite Forall_forall in Hx. rewrite Forall_forall in H3. apply Forall_forall. intros v Hv.
    destruct (H3 v Hv). split; apply ext_le; auto.
  Qed.
End counters.
