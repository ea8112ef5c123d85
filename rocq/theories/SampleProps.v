(** C84: the reservoir is a fair sample.  Chances are stated by counting sequences of draws. *)
From Verif Require Import Base DistModel SampleSpec SampleProofs.
Local Open Scope Z_scope.

(** Up to Window observations (any number, if Window is not positive) each of the n values recorded
    is in the reservoir for the same share of the draws: 64/n. *)
Theorem C84_uniform :
  forall less W h k,
    W <= 0 \/ (64 <= W /\ Z.of_nat (records h) <= W) -> Z.of_nat (records h) < 2 ^ 63 - 1 -> (k < records h)%nat ->
    Z.of_nat (records h) * favourable less W h (Z.of_nat k) = Z.min 64 (Z.of_nat (records h)) * possible W h.
Proof. exact favourable_uniform. Qed.
Print Assumptions C84_uniform.

(** In general: the value enters with chance 64/w and each later one replaces it with chance 1/w,
    w being its window. *)
Theorem C84_chance :
  forall less W h k,
    W <= 0 \/ 64 <= W -> Z.of_nat (records h) < 2 ^ 63 - 1 -> (k < records h)%nat ->
    favourable less W h (Z.of_nat k) =
    product (take (k - 64) (windows W (records h))) * ((if decide (k < 64)%nat then 1 else 64) * product (map (fun w => w - 1) (drop (S k - 64) (windows W (records h))))).
Proof.
  intros less W h k HW Hn Hk. rewrite (favourable_exact less W h k HW Hn Hk). unfold enter. rewrite windows_wl. f_equal; [|f_equal; f_equal; f_equal].
  - destruct (decide (k <= 64)%nat) as [L|L].
    + replace (k - 64)%nat with 0%nat by lia. rewrite wl_nil by lia. reflexivity.
    + rewrite (wl_split W 64 k (records h)) by lia. rewrite take_app_alt; [reflexivity|]. unfold wl. rewrite map_length, seq_length. reflexivity.
  - destruct (decide (S k <= 64)%nat) as [L|L].
    + replace (S k - 64)%nat with 0%nat by lia. replace (Nat.max (S k) 64) with 64%nat by lia. reflexivity.
    + replace (Nat.max (S k) 64) with (S k) by lia. rewrite (wl_split W 64 (S k) (records h)) by lia. rewrite drop_app_alt; [reflexivity|]. unfold wl. rewrite map_length, seq_length. reflexivity.
Qed.
Print Assumptions C84_chance.

(** Past the window the chance decays by the factor 1 - 1/Window with each later observation. *)
Theorem C84_decay :
  forall less W h k,
    64 <= W -> W <= Z.of_nat (S k) -> Z.of_nat (records h) < 2 ^ 63 - 1 -> (S k < records h)%nat -> (64 <= k)%nat ->
    W * favourable less W h (Z.of_nat k) = (W - 1) * favourable less W h (Z.of_nat (S k)).
Proof.
  intros less W h k HW Hk Hn Hr Hl. pose proof (favourable_next less W h k (or_intror HW) Hn Hr Hl) as E.
  assert (E1 : window W (Z.of_nat k) = W) by (unfold window; destruct (decide (0 < W)); lia).
  assert (E2 : window W (Z.of_nat (S k)) = W) by (unfold window; destruct (decide (0 < W)); lia). rewrite E1, E2 in E. exact E.
Qed.
Print Assumptions C84_decay.

(** A later value is never less likely to be there than an earlier one. *)
Theorem C84_newer :
  forall less W h k,
    W <= 0 \/ 64 <= W -> Z.of_nat (records h) < 2 ^ 63 - 1 -> (S k < records h)%nat ->
    favourable less W h (Z.of_nat k) <= favourable less W h (Z.of_nat (S k)).
Proof. exact favourable_newer. Qed.
Print Assumptions C84_newer.

(** With the 64-bit numbers the generator gives, reduced modulo the window, it is off by rounding only. *)
Theorem C84_bias :
  forall less W h k,
    W <= 0 \/ 64 <= W -> Z.of_nat (records h) < 2 ^ 63 - 1 -> (k < records h)%nat ->
    let T := 2 ^ 64 in
    let rest := drop (S k - 64) (windows W (records h)) in
    let w := window W (Z.of_nat k) in
    let chance q := if decide (k < 64)%nat then 1 else 64 * q in
    T ^ Z.of_nat (k - 64) * (chance (quot_lo T w) * product (map (fun w => T - quot_hi T w) rest)) <= favourable64 less W h (Z.of_nat k) <=
    T ^ Z.of_nat (k - 64) * (chance (quot_hi T w) * product (map (fun w => T - quot_lo T w) rest)).
Proof. exact favourable64_bounds. Qed.
Print Assumptions C84_bias.

(** A run on any values and any generator is the run on positions with the generator's numbers:
    the reservoir holds the float32 images of the values at those positions. *)
Theorem C84_values :
  forall V F R (vzero : V) vlt vadd (fzero : F) (to32 : V -> F) fless (next : R -> Z * R) (val : Z -> V) W h r,
    let see := image fzero to32 val in
    match dist_run vzero vlt vadd to32 fless next (dist_new vzero fzero r) (history val W 0 h),
          positions (fun a b => fless (see a) (see b)) W h (outputs next r (records h)) with
    | Ok d, Ok t => d_res d = map see (d_res t)
    | Panic a, Panic b => a = b
    | _, _ => False
    end.
Proof. intros V F R vzero vlt vadd fzero to32 fless next val W h r. exact (run_like vzero vlt vadd fzero to32 fless next val W h 0 _ _ (start_like vzero fzero to32 next val r (records h))). Qed.
Print Assumptions C84_values.

(** With Window below 64 it is not fair: it matters in which slot a value is. *)
Definition by_position (a b : option Z) : bool := match a, b with Some x, Some y => x <? y | _, _ => false end.
Theorem C84_small_window_refuted :
  ~ forall less W h k, 0 < W -> Z.of_nat (records h) < 2 ^ 63 - 1 -> (S k < records h)%nat ->
      favourable less W h (Z.of_nat k) <= favourable less W h (Z.of_nat (S k)).
Proof.
  intros H. specialize (H by_position 1 (replicate 66 URecord) 63%nat ltac:(lia)). vm_compute in H. destruct H; reflexivity || lia.
Qed.
Print Assumptions C84_small_window_refuted.

Example C84_example :
  records (replicate 64 URecord ++ [UQuery; URecord; UAverage; URecord]) = 66%nat /\
  windows 0 66 = [65; 66] /\ windows 65 66 = [65; 65] /\
  map (fun k => sampled k (positions by_position 0 (replicate 64 URecord ++ [UQuery; URecord; UAverage; URecord]) [3; 64])) [2; 3; 4; 64; 65] = [true; false; true; true; false].
Proof. split_and!; vm_compute; reflexivity. Qed.
