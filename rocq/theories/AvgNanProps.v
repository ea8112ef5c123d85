(** C88, with NaN among the values of a FloatDist: what Low, High and Sum are then. *)
From Coq Require Import Reals Lra Lia.
From Flocq Require Import Core BinarySingleNaN.
From Verif Require Import Base BaseProofs DistModel DistSpec DistProofs QueryReal QueryModel QuerySpec QueryProofs AvgModel AvgSpec AvgProofs AvgProofs2 AvgProofs4 AvgProps.
Local Open Scope R_scope.

Lemma nan_lt_l (x y : f64) : is_nan x = true -> Bltb x y = false.
Proof. destruct x; intros H; try discriminate H. reflexivity. Qed.
Lemma nan_lt_r (x y : f64) : is_nan y = true -> Bltb x y = false.
Proof. destruct y; intros H; try discriminate H. destruct x as [[]|[]| |[]]; reflexivity. Qed.
Lemma nan_plus (x y : f64) : is_nan x = true \/ is_nan y = true -> is_nan (Bplus mode_NE x y) = true.
Proof. intros [H|H]; [destruct x|destruct x, y]; try discriminate H; reflexivity. Qed.

(** The first value decides whether Low and High are numbers; Sum is NaN after any. *)
Definition NInv {R} (xs : list f64) (d : dist f64 f32 R) : Prop :=
  (Exists (fun v => is_nan v = true) xs -> is_nan (d_sum d) = true) /\
  match xs with
  | [] => True
  | x :: _ =>
      if is_nan x then is_nan (d_low d) = true /\ is_nan (d_high d) = true
      else d_low d ∈ xs /\ d_high d ∈ xs /\ is_nan (d_low d) = false /\ is_nan (d_high d) = false /\
           Forall (fun v => is_nan v = false -> ext (d_low d) <= ext v <= ext (d_high d)) xs
  end.
Section nan.
  Context {R : Type} (rng_next : R -> Z * R).
  Local Notation zero := (B754_zero false : f64).
  Local Notation plus := (Bplus mode_NE : f64 -> f64 -> f64).
  Local Notation fz := (B754_zero false : f32).
  Lemma run_NInv h xs d d' :
    DInv float64_32 xs d -> NInv xs d -> (Z.of_nat (length xs) + inserts h + 1 < 2 ^ 63)%Z ->
    fdist_run rng_next d h = Ok d' -> NInv (fold_left rec_step h xs) d'.
  Proof.
    unfold fdist_run. revert xs d. induction h as [|[W o] h IH]; intros xs d Hd HI Hb Hr.
    - injection Hr as <-. exact HI.
    - rewrite (inserts_cons zero Bltb plus fz float64_32 f32_less rng_next) in Hb. pose proof (inserts_nonneg zero Bltb plus fz float64_32 f32_less rng_next h).
      cbn [dist_run] in Hr. cbn [fold_left].
      destruct (step_ok zero Bltb plus fz float64_32 f32_less rng_next W d o xs Hd) as (d1 & E & Hd1).
      { destruct o; lia. }
      rewrite E in Hr.
      apply (IH _ d1); [exact Hd1| |destruct o; cbn; rewrite ?app_length; cbn [length]; lia|exact Hr].
      destruct o as [v| | |r|]; cbn [dist_step] in E; unfold rec_step; cbn [snd].
      * destruct (insert_ok zero Bltb plus fz float64_32 f32_less rng_next W d v xs Hd ltac:(lia)) as (d0 & E' & _ & L1 & L2 & L3 & L4).
        rewrite E in E'. injection E' as <-. destruct HI as [HS HI]. split.
        { intros Hn. rewrite L4. apply nan_plus. apply Exists_app in Hn as [Hn|Hn]; [left; apply HS, Hn|right]. apply Exists_cons in Hn as [Hn|Hn]; [exact Hn|]. apply Exists_nil in Hn as []. }
        clear HS L3 L4. destruct Hd as (Hc & _). rewrite Hc in L1, L2. destruct xs as [|x xs].
        -- cbn in L1, L2. cbn [app]. rewrite L1, L2. destruct (is_nan v) eqn:Nv; [split; exact Nv|].
           split_and!; [left|left|exact Nv|exact Nv|]. apply Forall_cons_2; [|apply Forall_nil_2]. intros _. split; apply Rle_refl.
        -- destruct (Z.eqb_spec (Z.of_nat (length (x :: xs))) 0); [cbn in *; lia|]. cbn [negb] in L1, L2. cbn [app]. rewrite L1, L2. clear L1 L2. destruct (is_nan x) eqn:Nx.
           ++ destruct HI as [I1 I2]. rewrite (nan_lt_r v (d_low d) I1), (nan_lt_l (d_high d) v I2). split; assumption.
           ++ destruct HI as (I1 & I2 & N1 & N2 & I3). rewrite app_comm_cons. destruct (is_nan v) eqn:Nv.
              ** rewrite (nan_lt_l v (d_low d) Nv), (nan_lt_r (d_high d) v Nv). split_and!; try assumption; [apply elem_of_app; left; assumption|apply elem_of_app; left; assumption|].
                 apply Forall_app. split; [exact I3|]. apply Forall_cons_2; [|apply Forall_nil_2]. intros F. rewrite Nv in F. discriminate F.
              ** rewrite !ext_lt by assumption.
                 assert (Hlh : ext (d_low d) <= ext (d_high d)) by (rewrite Forall_forall in I3; apply (I3 _ I1 N1)).
                 split_and!.
                 --- destruct (Rlt_bool_spec (ext v) (ext (d_low d))); apply elem_of_app; [right; constructor|left; exact I1].
                 --- destruct (Rlt_bool_spec (ext (d_high d)) (ext v)); apply elem_of_app; [right; constructor|left; exact I2].
                 --- destruct (Rlt_bool (ext v) (ext (d_low d))); assumption.
                 --- destruct (Rlt_bool (ext (d_high d)) (ext v)); assumption.
                 --- apply Forall_app. split; [apply (Forall_impl _ _ _ I3); intros w Hw Nw; specialize (Hw Nw)|apply Forall_cons_2; [intros _|apply Forall_nil_2]];
                       destruct (Rlt_bool_spec (ext v) (ext (d_low d))), (Rlt_bool_spec (ext (d_high d)) (ext v)); lra.
      * injection E as <-. destruct (query_state_fields zero Bltb plus fz float64_32 f32_less rng_next d) as (Q1 & Q2 & _ & _ & Q5 & _).
        unfold NInv. rewrite Q1, Q2, Q5. exact HI.
      * injection E as <-. exact HI.
      * injection E as <-. exact HI.
      * injection E as <-. split; [|exact I]. intros F. apply Exists_nil in F as [].
  Qed.
End nan.

(** C88: if the first value since the beginning or the last Reset is NaN, Low and High are NaN from
    then on; if not, they are the extremes of those that are not NaN.  Sum is NaN as soon as one is. *)
Theorem C88_float_nan :
  forall R (rng_next : R -> Z * R) r h d x xs,
    (inserts h + 1 < 2 ^ 63)%Z -> fdist_run rng_next (fdist_new r) h = Ok d -> recorded h = x :: xs ->
    (is_nan x = true -> is_nan (d_low d) = true /\ is_nan (d_high d) = true) /\
    (is_nan x = false -> d_low d ∈ recorded h /\ d_high d ∈ recorded h /\
       Forall (fun v => is_nan v = true \/ Bleb (d_low d) v = true /\ Bleb v (d_high d) = true) (recorded h)) /\
    (Exists (fun v => is_nan v = true) (recorded h) -> is_nan (d_sum d) = true).
Proof.
  intros R rng_next r h d x xs Hb Hr Hx.
  destruct (run_NInv rng_next h [] (fdist_new r) d) as [HS HI];
    [apply (DInv_new (B754_zero false : f64) Bltb (Bplus mode_NE) (B754_zero false : f32) float64_32 f32_less rng_next)|split; [intros F; apply Exists_nil in F as []|exact I]|cbn; lia|exact Hr|].
  change (fold_left rec_step h []) with (recorded h) in HS, HI. split; [|split; [|exact HS]].
  - intros N. rewrite Hx, N in HI. exact HI.
  - intros N. rewrite Hx in HI |- *. rewrite N in HI. destruct HI as (I1 & I2 & N1 & N2 & I3). split; [exact I1|]. split; [exact I2|].
    apply (Forall_impl _ _ _ I3). intros v Hv. destruct (is_nan v) eqn:Nv; [left; reflexivity|right]. destruct (Hv eq_refl). split; apply ext_le; auto.
Qed.
Print Assumptions C88_float_nan.

Example C88_example_nan :
  match fdist_run (fun r : Z => (r, r + 1)%Z) (fdist_new 5%Z) (floats [int64_64 3; B754_nan; int64_64 8]) with
  | Ok d => B2SF (d_low d) = B2SF (int64_64 3) /\ B2SF (d_high d) = B2SF (int64_64 8) /\ is_nan (d_sum d) = true
  | _ => False
  end /\ recorded (floats [int64_64 3; B754_nan; int64_64 8]) = [int64_64 3; B754_nan; int64_64 8].
Proof. split; [vm_compute; split_and!; reflexivity|reflexivity]. Qed.
