From Verif Require Import Base Conc SnapModel SnapSpec SnapProofs ErrNamesModel ErrNamesSpec.
Local Arguments B : simpl never.

Lemma after_documented hs e : Forall (fun h => h e = None) hs -> documented hs e (after_handlers standard e).
Proof.
  intros Hf. unfold after_handlers. destruct (er_name e) as [[n|]|] eqn:En.
  1: apply by_itself; assumption.
  all: assert (Hno : er_name e = None \/ er_name e = Some None) by auto; clear En; destruct (er_known e) as [k|] eqn:Ek;
    [destruct k; eapply by_value; try eassumption; apply elem_of_list_In; cbn; tauto|]; unfold is_errno, net_name; cbn [bd_appengine bd_tinygo standard];
    destruct (er_type e) as [| | | | | | | | |[]] eqn:Et;
    try (apply by_errno; assumption);
    try (apply by_type; try assumption; rewrite Et; apply elem_of_list_In; cbn; tauto);
    apply by_default; try assumption; try congruence; intros n Hn; rewrite Et in Hn; apply elem_of_list_In in Hn; cbn in Hn; intuition congruence.
Qed.
Lemma accepted_documented hs e r : last_accepted (fun h : handler => h e) hs r -> documented hs e (match r with Some n => n | None => after_handlers standard e end).
Proof.
  intros [xs1 x xs2 y -> Hx Hf|Hf]; [eapply by_handler; [reflexivity|exact Hx|exact Hf]|apply after_documented, Hf].
Qed.
Lemma try_accepted hs e : last_accepted (fun h : handler => h e) hs (try_handlers (rev hs) e).
Proof.
  induction hs as [|h hs IH] using rev_ind; [apply la_none; constructor|]. rewrite rev_unit. cbn. destruct (h e) as [n|] eqn:E.
  - eapply la_some; [reflexivity|exact E|constructor].
  - destruct IH as [xs1 x xs2 y -> Hx Hf|Hf].
    + eapply la_some; [rewrite <- app_assoc; reflexivity|exact Hx|]. apply Forall_app. auto.
    + apply la_none. apply Forall_app. auto.
Qed.
Lemma name_documented hs e : documented hs e (get_error_name standard hs e).
Proof. apply accepted_documented, try_accepted. Qed.

Lemma handler_wins (hs hs1 hs2 : list handler) e h n : hs = hs1 ++ h :: hs2 -> h e = Some n -> Forall (fun h => h e = None) hs -> False.
Proof. intros -> Hn Hf. apply Forall_app in Hf as [_ Hf]. apply Forall_cons in Hf as [Hf _]. congruence. Qed.
Lemma last_unique (e : gerr) (a1 b1 a2 b2 : list handler) x y : a1 ++ x :: a2 = b1 ++ y :: b2 -> x e <> None -> y e <> None -> Forall (fun h => h e = None) a2 -> Forall (fun h => h e = None) b2 -> x = y.
Proof.
  revert b1. induction a1 as [|a a1 IH]; intros [|b b1] E Hx Hy Ha Hb; cbn in E; injection E as E1 E2.
  - exact E1.
  - subst a2. exfalso. apply Forall_app in Ha as [_ Ha]. apply Forall_cons in Ha as [Ha _]. auto.
  - subst b2. exfalso. apply Forall_app in Hb as [_ Hb]. apply Forall_cons in Hb as [Hb _]. auto.
  - eapply IH; eassumption.
Qed.
Lemma documented_unique hs e n n' : documented hs e n -> documented hs e n' -> n = n'.
Proof.
  intros H H'.
  assert (K : forall k m m', (k, m) ∈ known_names -> (k, m') ∈ known_names -> m = m').
  { intros k m m' A1 A2. apply elem_of_list_In in A1, A2. cbn in A1, A2. destruct k; intuition congruence. }
  assert (N : forall k m m', (k, m) ∈ net_names -> (k, m') ∈ net_names -> m = m').
  { intros k m m' A1 A2. apply elem_of_list_In in A1, A2. cbn in A1, A2. destruct k as [| | | | | | | | |[]]; intuition congruence. }
  assert (NE : forall m, (TErrno, m) ∉ net_names) by (intros m A1; apply elem_of_list_In in A1; cbn in A1; intuition congruence).
  destruct H as [hs1 h hs2 n E Hn Hf|n Hf E|k n Hf E Hk Hin|Hf E Hk Ht|n Hf E Hk Hin|Hf E Hk Ht Hnot];
  destruct H' as [hs1' h' hs2' n' E' Hn' Hf'|n' Hf' E'|k' n' Hf' E' Hk' Hin'|Hf' E' Hk' Ht'|n' Hf' E' Hk' Hin'|Hf' E' Hk' Ht' Hnot'];
    try (exfalso; eapply handler_wins; eassumption);
    try (exfalso; intuition congruence).
  - assert (h = h') as <- by (apply (last_unique e hs1 hs1' hs2 hs2'); [congruence|congruence|congruence|exact Hf|exact Hf']). congruence.
  - congruence.
  - assert (k = k') as <- by congruence. eapply K; eassumption.
  - reflexivity.
  - rewrite Ht in Hin'. destruct (NE _ Hin').
  - rewrite Ht' in Hin. destruct (NE _ Hin).
  - eapply N; eassumption.
  - destruct (Hnot' _ Hin).
  - destruct (Hnot _ Hin').
  - reflexivity.
Qed.
Lemma name_iff hs e n : get_error_name standard hs e = n <-> documented hs e n.
Proof. split; [intros <-; apply name_documented|intros H; eapply documented_unique; [apply name_documented|exact H]]. Qed.

Lemma names_concurrent (zero : handler) grow sched : exists order hs, append_order zero grow sched order hs /\
  forall i e res, searched zero grow sched i (fun h => h e) res ->
    exists n, (n <= length hs)%nat /\ may_see zero grow sched order i n /\ documented (take n hs) e (match res with Some m => m | None => after_handlers standard e end).
Proof.
  destruct (readers (Y := bytes) zero grow sched) as (order & hs & H1 & _ & H2). exists order, hs. split; [exact H1|]. intros i e res Hi. destruct (H2 _ _ _ Hi) as (n & Hn & Hs & Hl). exists n. split; [exact Hn|]. split; [exact Hs|]. apply accepted_documented, Hl.
Qed.

Lemma unnamed_type b hs e : unnamed hs e -> get_error_name b hs e =
  if is_errno b e then B "Errno" else match (if bd_tinygo b then net_name_tinygo e else net_name e) with [] => B "System Error" | n => n end.
Proof.
  intros (Hf & Hn & Hk). unfold get_error_name. destruct (try_accepted hs e) as [xs1 x xs2 y E Hx _|_]; [exfalso; eapply handler_wins; eassumption|].
  unfold after_handlers. destruct Hn as [-> | ->]; rewrite Hk; destruct (is_errno b e); try reflexivity; (destruct (bd_tinygo b); [destruct (net_name_tinygo e)|destruct (net_name e)]; reflexivity).
Qed.
Lemma names_builds b hs e :
  (unnamed hs e -> er_type e = TErrno -> get_error_name b hs e = if bd_appengine b then B "Network Error" else B "Errno") /\
  (unnamed hs e -> er_type e ∈ not_in_tinygo -> get_error_name b hs e = if bd_tinygo b then B "Network Error" else get_error_name standard hs e) /\
  (~ (unnamed hs e /\ er_type e ∈ TErrno :: not_in_tinygo) -> get_error_name b hs e = get_error_name standard hs e).
Proof.
  split_and!.
  - intros H Ht. rewrite (unnamed_type _ _ _ H). unfold is_errno, net_name, net_name_tinygo. rewrite Ht. destruct (bd_appengine b), (bd_tinygo b); reflexivity.
  - intros H Ht. rewrite !(unnamed_type _ _ _ H). unfold is_errno, net_name, net_name_tinygo. unfold not_in_tinygo in Ht.
    rewrite !elem_of_cons, elem_of_nil in Ht. destruct Ht as [E|[E|[E|[E|[]]]]]; rewrite E; destruct (bd_appengine b), (bd_tinygo b); reflexivity.
  - intros H. unfold get_error_name. destruct (try_accepted hs e) as [|Hf]; [reflexivity|]. unfold after_handlers.
    assert (N : (er_name e = None \/ er_name e = Some None) -> er_known e = None -> er_type e ∉ TErrno :: not_in_tinygo).
    { intros Hn Hk Ht. apply H. split; [split_and!; assumption|exact Ht]. }
    destruct (er_name e) as [[n|]|]; [reflexivity| |]; (destruct (er_known e); [reflexivity|]; specialize (N ltac:(auto) eq_refl);
      unfold is_errno, net_name, net_name_tinygo, not_in_tinygo in *; rewrite !elem_of_cons, elem_of_nil in N;
      destruct (er_type e) as [| | | | | | | | |[]]; try (exfalso; apply N; tauto); destruct (bd_appengine b), (bd_tinygo b); reflexivity).
Qed.
