From Verif Require Import Base BaseProofs Conc ClockModel.
Local Open Scope Z_scope.

Lemma win_elapsed_exact freq base t :
  0 < freq -> freq < 2 ^ 63 -> in64 base -> in64 t -> base <= t -> (t - base) * 1000000000 < 2 ^ 63 ->
  win_elapsed freq base t = Ok (((t - base) * 1000000000) / freq).
Proof.
  intros Hf Hf2 Hb Ht Hle Hw. unfold win_elapsed.
  rewrite (wrap64_id (freq * 1)) by (unfold in64; lia).
  destruct (Z.eqb_spec (freq * 1) 0); [lia|].
  rewrite (wrap64_id (t - base)) by (unfold in64; lia).
  rewrite (wrap64_id ((t - base) * 1000000000)) by (unfold in64; lia).
  rewrite Z.mul_1_r. rewrite Z.quot_div_nonneg by lia.
  rewrite wrap64_id; [reflexivity|]. unfold in64.
  assert (0 <= (t - base) * 1000000000 / freq) by (apply Z.div_pos; lia).
  assert ((t - base) * 1000000000 / freq <= (t - base) * 1000000000).
  { apply Z.div_le_upper_bound; nia. }
  lia.
Qed.

Lemma win_elapsed_mono freq base t1 t2 :
  0 < freq -> freq < 2 ^ 63 -> in64 base -> in64 t2 -> base <= t1 <= t2 -> (t2 - base) * 1000000000 < 2 ^ 63 ->
  exists d1 d2, win_elapsed freq base t1 = Ok d1 /\ win_elapsed freq base t2 = Ok d2 /\ 0 <= d1 <= d2.
Proof.
  intros Hf Hf2 Hb Ht Hle Hw. unfold in64 in *.
  eexists _, _. rewrite !win_elapsed_exact by (unfold in64; lia).
  split; [reflexivity|]. split; [reflexivity|]. split; [apply Z.div_pos; lia|].
  apply Z.div_le_mono; lia.
Qed.

Lemma win_elapsed_backwards :
  exists freq base t1 t2 d1 d2,
    0 < freq < 2 ^ 63 /\ in64 base /\ in64 t2 /\ base <= t1 <= t2 /\ t2 - base <= 1000 * freq /\
    win_elapsed freq base t1 = Ok d1 /\ win_elapsed freq base t2 = Ok d2 /\ d2 < d1.
Proof.
  exists 10000000, 0, 9000000000, 9300000000, 900000000000, (-914674407370).
  unfold in64. repeat split; try lia; vm_compute; congruence.
Qed.

(** ** Spin lock *)
Definition criticals (ts : list sl_pc) : nat :=
  length (List.filter (fun pc => match pc with SL_critical => true | _ => false end) ts).

Lemma criticals_app a b : criticals (a ++ b) = (criticals a + criticals b)%nat.
Proof. unfold criticals. rewrite List.filter_app, app_length. reflexivity. Qed.

Definition crit1 (pc : sl_pc) : nat := match pc with SL_critical => 1%nat | _ => 0%nat end.
Lemma criticals_insert ts i pc pc' :
  ts !! i = Some pc -> (criticals (<[i := pc']> ts) + crit1 pc = criticals ts + crit1 pc')%nat.
Proof.
  intros H. rewrite insert_take_drop by (eapply lookup_lt_Some; eauto).
  rewrite <- (take_drop_middle ts i pc H) at 3.
  rewrite !criticals_app. change (?x :: ?l) with ([x] ++ l). rewrite !criticals_app.
  destruct pc, pc'; cbn; lia.
Qed.

Lemma sl_inv sched :
  let c := exec sl_start sl_step 0 sched in
  shared c = Z.of_nat (criticals (threads c)) /\ (shared c = 0 \/ shared c = 1).
Proof.
  refine (exec_inv sl_start sl_step (fun w ts => w = Z.of_nat (criticals ts) /\ (w = 0 \/ w = 1)) 0 _ _ _ sched).
  - split; [reflexivity|auto].
  - intros s ts a [H1 H2]. rewrite criticals_app. cbn. split; [lia|assumption].
  - intros s ts i l [H1 H2] Hl. destruct l; cbn.
    + destruct (Z.eqb_spec s 0); cbn.
      * pose proof (criticals_insert ts i _ SL_critical Hl) as E. cbn in E. lia.
      * pose proof (criticals_insert ts i _ SL_cas Hl) as E. cbn in E. lia.
    + pose proof (criticals_insert ts i _ SL_unlocked Hl) as E. cbn in E. lia.
    + pose proof (criticals_insert ts i _ SL_unlocked Hl) as E. cbn in E. lia.
Qed.

Lemma criticals_two ts i j :
  i <> j -> ts !! i = Some SL_critical -> ts !! j = Some SL_critical -> (2 <= criticals ts)%nat.
Proof.
  intros Hn Hi Hj.
  pose proof (criticals_insert ts i _ SL_cas Hi) as E1. cbn in E1.
  assert (Hj' : (<[i := SL_cas]> ts) !! j = Some SL_critical) by (rewrite list_lookup_insert_ne; assumption).
  pose proof (criticals_insert _ j _ SL_cas Hj') as E2. cbn in E2. lia.
Qed.

Lemma sl_mutex sched i j :
  let ts := threads (exec sl_start sl_step 0 sched) in
  ts !! i = Some SL_critical -> ts !! j = Some SL_critical -> i = j.
Proof.
  intros ts Hi Hj. destruct (Nat.eq_dec i j) as [|Hn]; [assumption|exfalso].
  pose proof (criticals_two ts i j Hn Hi Hj). pose proof (sl_inv sched) as [H1 H2].
  cbn zeta in *. fold ts in H1. lia.
Qed.

Lemma criticals_zero ts : (forall i, ts !! i <> Some SL_critical) -> criticals ts = 0%nat.
Proof.
  intros H. induction ts as [|pc ts IH]; [reflexivity|].
  assert (criticals ts = 0%nat) as E by (apply IH; intros i; exact (H (S i))).
  specialize (H 0%nat). destruct pc; [exact E| |exact E]. cbn in H. congruence.
Qed.

Lemma sl_progress sched i :
  let c := exec sl_start sl_step 0 sched in
  threads c !! i = Some SL_cas -> (forall j, threads c !! j <> Some SL_critical) ->
  threads (exec sl_start sl_step 0 (sched ++ [Run i])) !! i = Some SL_critical.
Proof.
  intros c Hi Hn. rewrite exec_snoc. fold c. cbn. rewrite Hi. cbn.
  pose proof (sl_inv sched) as [H1 _]. cbn zeta in H1. fold c in H1.
  rewrite (criticals_zero _ Hn) in H1. rewrite H1. cbn. apply list_lookup_insert.
  eapply lookup_lt_Some; eauto.
Qed.

Lemma sl_holder_leaves sched i :
  threads (exec sl_start sl_step 0 sched) !! i = Some SL_critical ->
  let c' := exec sl_start sl_step 0 (sched ++ [Run i]) in
  forall j, threads c' !! j <> Some SL_critical.
Proof.
  intros Hi c' j Hj. unfold c' in Hj. rewrite exec_snoc in Hj.
  set (c := exec sl_start sl_step 0 sched) in *. cbn in Hj. rewrite Hi in Hj. cbn in Hj.
  destruct (Nat.eq_dec i j) as [<-|Hn].
  - rewrite list_lookup_insert in Hj by (eapply lookup_lt_Some; eauto). discriminate.
  - rewrite list_lookup_insert_ne in Hj by assumption.
    apply Hn. exact (sl_mutex sched i j Hi Hj).
Qed.
