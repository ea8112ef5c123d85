(** * What plain reads observe *)
From Verif Require Import RaceModel RaceSpec RaceCheck RaceProofs RaceProofs2 RaceProofs3 RaceProofs4 RaceProofs5.
From stdpp Require Import relations.

Lemma step_objs L s t oe s' : step L s t oe s' -> objs (mem s) `prefix_of` objs (mem s').
Proof.
  destruct 1; cbn; try done.
  match goal with H : cstep _ _ _ _ _ _ _ _ |- _ => destruct H end; cbn; try done.
  by eexists.
Qed.

Lemma prefix_look {A} (l l' : list A) i x : l `prefix_of` l' -> l !! i = Some x -> l' !! i = Some x.
Proof. intros [k ->]. apply lookup_app_l_Some. Qed.

Lemma made L tr s : execution L tr s -> forall o c, objs (mem s) !! o = Some c ->
  exists n t, tr !! n = Some (t, ENew o c).
Proof.
  induction 1 as [|tr s t s' _ IH H|tr s t e s' _ IH H]; intros o c Ho.
  - cbn in Ho. rewrite list_lookup_fmap in Ho. destruct (globals L !! o) as [g|] eqn:E; [|done].
    cbn in Ho. injection Ho as <-. exists o, 0. unfold init_trace. by rewrite list_lookup_imap, E.
  - apply IH. inversion H; subst; cbn in Ho; try done.
    match goal with H : cstep _ _ _ _ _ _ _ _ |- _ => inversion H; subst end; cbn in Ho; done.
  - assert (objs (mem s) !! o = Some c \/ e = ENew o c) as [H1| ->].
    { inversion H; subst; cbn in Ho; try (by left).
      match goal with H : cstep _ _ _ _ _ _ _ _ |- _ => inversion H; subst end; cbn in Ho; try (by left).
      apply lookup_app_Some in Ho as [Ho|[Hlen Ho]]; [by left|right].
      apply list_lookup_singleton_Some in Ho as [Hz ->]. f_equal. lia. }
    + destruct (IH _ _ H1) as (n & u & Hn). exists n, u. by apply lookup_app_l_Some.
    + exists (length tr), t. apply last_event.
Qed.

Section executions.
  Variable disc : string -> string -> option kind.
  Variable L : library.
  Hypothesis via : forall c f, via_ok disc c f.
  Hypothesis ok : check_library disc L = true.

  Lemma at_checked h tr t fs css e c k oe h' e' b a o f :
    fs = (e, c :: k) :: css -> thread_inv disc h tr t fs -> cstep h t e c oe h' e' b ->
    oe = Some (EAt a o f) -> exists cl, objs h !! o = Some cl /\ disc cl f = Some KAtomic.
  Proof.
    intros -> (cs & HF & _) Hs ->. inversion HF as [|? ? ? ? (_ & K & Hf & _ & Hw) _]; subst.
    cbn [fst snd] in *. inversion Hw as [|? k0 ? ? k1 Hl Hc _]; subst.
    assert (forall v, lookup_var e v = Some o -> may_atomic disc k0 v f = true ->
      exists cl, objs h !! o = Some cl /\ disc cl f = Some KAtomic) as G.
    { intros v Hv Hm. unfold may_atomic, kind_of in Hm.
      destruct (lookup_cls (cls k0) v) as [cl|] eqn:Ec; cbn in Hm; [|done].
      destruct (disc cl f) as [[]|] eqn:Ed; try done. exists cl. split; [|done].
      destruct Hl as (Hl & _). apply Hl in Ec. destruct Hf as (Hf & _).
      destruct (Hf _ _ Ec) as (o1 & Ho1 & Ho2 & _). congruence. }
    inversion Hs; subst; cbn in Hc.
    - unfold test in Hc. destruct (may_atomic disc k0 v f) eqn:E; [|done]. by eapply G.
    - destruct (may_atomic disc k0 v f) eqn:E; [|done]. by eapply G.
  Qed.

  Lemma atomic_kind tr s : execution L tr s -> forall j t a o f, tr !! j = Some (t, EAt a o f) ->
    exists c, objs (mem s) !! o = Some c /\ disc c f = Some KAtomic.
  Proof.
    induction 1 as [|tr s t s' He IH H|tr s t e s' He IH H]; intros j u a o f Hj.
    - unfold init_trace in Hj. rewrite list_lookup_imap in Hj. by destruct (globals L !! j).
    - destruct (IH _ _ _ _ _ Hj) as (c & H1 & H2). exists c. split; [|done].
      eapply prefix_look; [by eapply step_objs|done].
    - assert (exists c, objs (mem s) !! o = Some c /\ disc c f = Some KAtomic) as (c & H1 & H2).
      { apply lookup_snoc in Hj as [Hj|[_ Hj]]; [by eapply IH|]. injection Hj as -> <-.
        pose proof (inv_execution _ _ via ok _ _ He) as I.
        inversion H; subst.
        match goal with Ht : thr s !! t = Some _, Hc : cstep _ _ _ _ _ _ _ _ |- _ =>
          eapply at_checked; [reflexivity|exact (i_thr _ _ _ _ I _ _ Ht)|exact Hc|reflexivity] end. }
      exists c. split; [|done]. eapply prefix_look; [by eapply step_objs|done].
  Qed.

  Lemma allocated tr s : execution L tr s -> forall j t e o f, tr !! j = Some (t, e) -> touches e o f -> ~ is_new e ->
    exists n u c, n < j /\ tr !! n = Some (u, ENew o c).
  Proof.
    induction 1 as [|tr s t s' He IH H|tr s t e s' He IH H]; intros j u e1 o f Hj Ht Hn.
    - unfold init_trace in Hj. rewrite list_lookup_imap in Hj. destruct (globals L !! j); [|done].
      cbn in Hj. injection Hj as <- <-. exfalso. apply Hn. by eexists _, _.
    - by eapply IH.
    - assert (execution L (tr ++ [(t, e)]) s') as He' by (by econstructor).
      pose proof Hj as Hj0. apply lookup_snoc in Hj as [Hj|[-> Hj]].
      + destruct (IH _ _ _ _ _ Hj Ht Hn) as (n & v & c & H1 & H2). exists n, v, c.
        split; [done|]. by apply lookup_app_l_Some.
      + destruct (i_acc _ _ _ (i_heap _ _ _ _ (inv_execution _ _ via ok _ _ He')) _ _ _ _ _ Hj0 Ht Hn)
          as (c & kd & Ho & _).
        destruct (made _ _ _ He' _ _ Ho) as (n & v & H1). exists n, v, c. split; [|done].
        pose proof H1 as H2. apply lookup_snoc in H2 as [H2|[_ H2]]; [by eapply lookup_lt_Some|].
        exfalso. apply Hn. injection Hj as _ ->. injection H2 as _ <-. by eexists _, _.
  Qed.

  Lemma latest_of (P : nat -> Prop) (Pd : forall k, P k \/ ~ P k) r : forall n, n < r -> P n ->
    exists w, w < r /\ P w /\ forall k, w < k -> k < r -> ~ P k.
  Proof.
    induction r as [|r IH]; intros n Hn HP; [lia|].
    destruct (Pd r) as [Hr|Hr].
    - exists r. split; [lia|]. split; [done|]. intros k. lia.
    - destruct (decide (n = r)) as [->|]; [done|].
      destruct (IH n ltac:(lia) HP) as (w & H1 & H2 & H3). exists w. split; [lia|]. split; [done|].
      intros k Hk1 Hk2. destruct (decide (k = r)) as [->|]; [done|]. apply H3; lia.
  Qed.

  Lemma sets_dec tr k o f : sets_at tr k o f \/ ~ sets_at tr k o f.
  Proof.
    unfold sets_at. destruct (tr !! k) as [[t e]|]; [|right; by intros (? & ? & ? & _)].
    assert (sets e o f \/ ~ sets e o f) as [H|H]; [|left; eauto|right; intros (? & ? & E & H1); congruence].
    unfold sets. destruct e as [o1 c|o1 f1|o1 f1|a o1 f1| | | | | |];
      try (right; intros [?|[[? ?]|(? & ? & _)]]; done).
    - destruct (decide (o1 = o)) as [->|]; [left; eauto|].
      right. intros [?|[[? [=]]|(? & ? & _)]]; done.
    - destruct (decide (o1 = o)) as [->|]; [|right; intros [[=]|[[? ?]|(? & ? & _)]]; done].
      destruct (decide (f1 = f)) as [->|]; [left; eauto|].
      right. intros [[=]|[[? ?]|(? & ? & _)]]; done.
    - destruct (decide (o1 = o)) as [->|]; [|right; intros [?|[[? ?]|(? & [=] & _)]]; done].
      destruct (decide (f1 = f)) as [->|]; [|right; intros [?|[[? ?]|(? & [=] & _)]]; done].
      destruct a.
      + right. intros [?|[[? ?]|(? & [= <-] & H)]]; done.
      + left. right; right. by exists AStore.
      + left. right; right. by exists ARmw.
  Qed.

  Lemma sets_touches e o f : sets e o f -> touches e o f /\ ~ is_plain_read e.
  Proof.
    intros [->|[[c ->]|(a & -> & _)]]; (split; [by cbn|by intros (? & ? & ?)]).
  Qed.

  Lemma reads_last tr s r t o f : execution L tr s -> tr !! r = Some (t, ERd o f) ->
    exists w, last_write tr w r o f /\ happens_before tr w r /\ forall w', may_observe tr w' r o f <-> w' = w.
  Proof.
    intros He Hr. pose proof (inv_execution _ _ via ok _ _ He) as I.
    assert (~ is_new (ERd o f)) as Nn by (by intros (? & ? & ?)).
    destruct (allocated _ _ He _ _ _ _ _ Hr (conj eq_refl eq_refl) Nn) as (n & u & c & Hn & Ha).
    destruct (latest_of (fun k => sets_at tr k o f) (fun k => sets_dec tr k o f) r n Hn) as (w & Hw1 & Hw2 & Hw3).
    { exists u, (ENew o c). split; [done|]. right; left. by exists c. }
    assert (forall a o1 f1, ERd o f <> EAt a o1 f1) as Nr by done.
    assert (forall j v a, tr !! j <> Some (v, EAt a o f)) as Na.
    { intros j v a Hj. destruct (atomic_kind _ _ He _ _ _ _ _ Hj) as (cl & H1 & H2).
      destruct (i_acc _ _ _ (i_heap _ _ _ _ I) _ _ _ _ _ Hr (conj eq_refl eq_refl) Nn) as (cl' & kd & H3 & H4 & H5).
      assert (cl' = cl) as -> by congruence. assert (kd = KAtomic) as -> by congruence.
      cbn in H5. destruct H5 as [? ?]. done. }
    assert (forall i j, sets_at tr i o f -> sets_at tr j o f -> i < j -> happens_before tr i j) as WW.
    { intros i j (t1 & e1 & E1 & S1) (t2 & e2 & E2 & S2) Hlt.
      eapply (i_rf _ _ _ (i_heap _ _ _ _ I)); [done..|].
      destruct (sets_touches _ _ _ S1), (sets_touches _ _ _ S2).
      split; [by exists o, f|]. split; [by intros [? _]|].
      intros [(a & o1 & f1 & ->) _]. destruct S1 as [?|[[? ?]|(a1 & [= -> -> ->] & _)]]; try done.
      by apply (Na i t1 a1). }
    assert (happens_before tr w r) as WR.
    { destruct Hw2 as (t1 & e1 & E1 & S1). eapply (i_rf _ _ _ (i_heap _ _ _ _ I)); [done..|].
      destruct (sets_touches _ _ _ S1). split; [by exists o, f|]. split; [by intros [? _]|].
      intros [_ (a & o1 & f1 & ?)]. done. }
    exists w. split; [done|]. split; [done|]. intros w'. split.
    - intros (S & N1 & N2).
      destruct (Nat.lt_trichotomy w' w) as [Hlt|[->|Hlt]]; [|done|].
      + exfalso. apply N2. exists w. split; [done|]. split; [by apply WW|done].
      + exfalso. destruct (Nat.lt_trichotomy w' r) as [H1|[->|H1]].
        * by apply (Hw3 w').
        * destruct S as (t1 & e1 & E1 & S1). rewrite Hr in E1. injection E1 as <- <-.
          apply sets_touches in S1 as [_ S1]. apply S1. by eexists _, _.
        * apply N1. destruct S as (t1 & e1 & E1 & S1). eapply (i_rf _ _ _ (i_heap _ _ _ _ I)); [done..|].
          destruct (sets_touches _ _ _ S1). split; [by exists o, f|]. split; [by intros [_ ?]|].
          intros [(a & o1 & f1 & ?) _]. done.
    - intros ->. split; [done|]. split; [intros H%hb_lt; lia|].
      intros (k & H1 & H2%hb_lt & H3%hb_lt). by apply (Hw3 k).
  Qed.
End executions.
