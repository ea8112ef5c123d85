From Verif Require Import Base BaseProofs SeriesModel Fval CounterModel CounterSpec.
From Coq Require Import ZifyBool.
Local Open Scope Z_scope.

Local Arguments latest : simpl never.
Local Arguments wrap64 : simpl never.

Definition CInv (vs : list Z) (c : counter) : Prop :=
  c_val c = latest vs /\ smallest vs (c_low c) /\ largest vs (c_high c) /\
  c_nonempty c = match vs with [] => false | _ => true end.

Lemma latest_snoc vs v : latest (vs ++ [v]) = v.
Proof. unfold latest. rewrite last_snoc. reflexivity. Qed.

Lemma counter_set_inv vs c v : CInv vs c -> CInv (vs ++ [v]) (counter_set c v).
Proof.
  intros (Hv & Hl & Hh & Hn). unfold CInv, counter_set. cbn [c_val c_low c_high c_nonempty].
  rewrite latest_snoc.
  assert (Hne : exists x l, vs ++ [v] = x :: l) by (destruct vs; eauto).
  destruct vs as [|x vs].
  - cbn in *. rewrite Hn. cbn. repeat split; try set_solver; constructor; try lia; constructor.
  - rewrite Hn. cbn [negb orb]. cbn [app] in *. cbn [smallest largest] in *.
    destruct Hl as [Hl1 Hl2], Hh as [Hh1 Hh2].
    repeat split.
    + destruct (v <? c_low c)%Z; [|]; rewrite app_comm_cons, elem_of_app; set_solver.
    + rewrite app_comm_cons, Forall_app. split.
      * eapply Forall_impl; [exact Hl2|]. cbn; intros. destruct (Z.ltb_spec v (c_low c)); lia.
      * constructor; [|constructor]. destruct (Z.ltb_spec v (c_low c)); lia.
    + destruct (c_high c <? v)%Z; [|]; rewrite app_comm_cons, elem_of_app; set_solver.
    + rewrite app_comm_cons, Forall_app. split.
      * eapply Forall_impl; [exact Hh2|]. cbn; intros. destruct (Z.ltb_spec (c_high c) v); lia.
      * constructor; [|constructor]. destruct (Z.ltb_spec (c_high c) v); lia.
Qed.

Lemma counter_step_inv vs c o : CInv vs c -> CInv (take_value vs o) (counter_step c o).
Proof.
  intros H. assert (Hv : c_val c = latest vs) by apply H.
  destruct o as [v|d|d|]; cbn.
  - apply counter_set_inv, H.
  - rewrite Hv. apply counter_set_inv, H.
  - rewrite Hv, wrap64_add_r. apply (counter_set_inv vs c _ H).
  - repeat split.
Qed.

Lemma counter_run_inv h : CInv (values_taken h) (counter_run h).
Proof.
  unfold counter_run, values_taken.
  assert (H : CInv [] counter_new) by (repeat split).
  revert H. generalize (@nil Z) as vs, counter_new as c.
  induction h as [|o h IH]; intros vs c H; [exact H|].
  cbn. apply IH, counter_step_inv, H.
Qed.

Lemma counter_views h :
  let vs := values_taken h in let c := counter_run h in
  counter_Current c = latest vs /\ largest vs (counter_High c) /\ smallest vs (counter_Low c).
Proof. destruct (counter_run_inv h) as (H1 & H2 & H3 & _). auto. Qed.

Lemma counter_results h o :
  let vs := values_taken h in let c := counter_run h in
  match o with
  | CSet _ => counter_result c o = [latest vs]
  | CInc _ | CDec _ => counter_result c o = [latest (take_value vs o)]
  | CReset => exists lo hi, counter_result c o = [latest vs; lo; hi] /\ smallest vs lo /\ largest vs hi
  end.
Proof.
  destruct (counter_run_inv h) as (H1 & H2 & H3 & _).
  destruct o as [v|d|d|]; cbn.
  - rewrite H1. reflexivity.
  - rewrite H1, latest_snoc. reflexivity.
  - rewrite H1, wrap64_add_r, latest_snoc. reflexivity.
  - rewrite H1. eauto.
Qed.

Lemma counter_stats_spec h :
  let vs := values_taken h in
  match vs with
  | [] => counter_Stats (counter_run h) = [(B "high", FNaN); (B "low", FNaN); (B "value", FInt 0)]
  | _ => exists hi lo, largest vs hi /\ smallest vs lo /\
           counter_Stats (counter_run h) = [(B "high", FInt hi); (B "low", FInt lo); (B "value", FInt (latest vs))]
  end.
Proof.
  destruct (counter_run_inv h) as (H1 & H2 & H3 & H4). cbn zeta. unfold counter_Stats.
  rewrite H1, H4. destruct (values_taken h) eqn:E.
  - reflexivity.
  - eexists _, _. split; [exact H3|]. split; [exact H2|]. reflexivity.
Qed.

Lemma values_taken_app h1 h2 : values_taken (h1 ++ h2) = fold_left take_value h2 (values_taken h1).
Proof. apply fold_left_app. Qed.

Lemma latest_deltas h vs :
  only_deltas h -> in64 (latest vs) ->
  latest (fold_left take_value h vs) = wrap64 (latest vs + sum_deltas h).
Proof.
  revert vs. induction h as [|o h IH]; intros vs Ho Hr; cbn.
  - rewrite Z.add_0_r, wrap64_id by assumption. reflexivity.
  - inversion_clear Ho as [|?? Ho1 Ho2].
    assert (E : exists d, delta_of o = d /\ take_value vs o = vs ++ [wrap64 (latest vs + d)]).
    { destruct o as [v|d|d|]; try contradiction; eexists; split; reflexivity. }
    destruct E as (d & Ed & Et). rewrite Et, IH.
    + rewrite latest_snoc, wrap64_add_l, Ed. f_equal. unfold sum_deltas. lia.
    + assumption.
    + rewrite latest_snoc. apply wrap64_in64.
Qed.

Lemma counter_sum_from_set h1 v h2 :
  in64 v -> only_deltas h2 ->
  counter_Current (counter_run (h1 ++ CSet v :: h2)) = wrap64 (v + sum_deltas h2).
Proof.
  intros Hv Ho. destruct (counter_views (h1 ++ CSet v :: h2)) as (-> & _).
  rewrite values_taken_app. cbn. rewrite latest_deltas; rewrite ?latest_snoc; auto.
Qed.
Lemma counter_sum_from_reset h1 h2 :
  only_deltas h2 ->
  counter_Current (counter_run (h1 ++ CReset :: h2)) = wrap64 (sum_deltas h2) /\
  counter_Current (counter_run h2) = wrap64 (sum_deltas h2).
Proof.
  intros Ho. destruct (counter_views (h1 ++ CReset :: h2)) as (-> & _).
  destruct (counter_views h2) as (-> & _). split.
  - rewrite values_taken_app. cbn. rewrite latest_deltas; auto. unfold latest, in64; cbn; lia.
  - unfold values_taken. rewrite latest_deltas; auto. unfold latest, in64; cbn; lia.
Qed.
