(** The two builds of the pointer operations (for C89). *)
From Verif Require Import Base BaseProofs Conc CasModel CasSpec.
Local Open Scope nat_scope.

Section cas.
  Context {A P S L C : Type} {eqP : EqDecision P}.
  Context (get : A -> S -> P) (set : A -> P -> S -> S) (start : C -> L) (prog : nat -> L -> stmt A P S L).
  Context (disc : only_through get prog).
  Local Notation ustep := (u_step get set prog).
  Local Notation hstep := (h_step get set prog).
  Local Notation hexec := (h_exec get set start prog).
  Local Notation uexec := (u_exec get set start prog).
  Local Notation hexec1 := (exec1 (h_start (P := P) start) hstep).
  Local Notation uexec1 := (exec1 start ustep).

  (** The step at which an operation takes effect. *)
  Definition takes_effect (i : nat) (s : S) (t : @hthread P L) : bool :=
    match t with
    | HOut l => match prog i l with Other _ => true | _ => false end
    | HRead l => match prog i l with Ptr (Load _) _ _ => true | Ptr (Cas a old _) _ _ => negb (bool_decide (get a s = old)) | _ => false end
    | HWrite l v => match prog i l with Ptr (Store _ _) _ _ => true | Ptr (Cas _ _ _) _ _ => true | Ptr (Swap _ _) _ _ => match v with Some _ => true | None => false end | _ => false end
    | HUnlock _ => false
    end.
  Definition lin1 (c : config (S * option nat) (@hthread P L)) (a : action C) : list (action C) :=
    match a with
    | Spawn x => [Spawn x]
    | Run i => match threads c !! i with Some t => if takes_effect i (fst (shared c)) t then [Run i] else [] | None => [] end
    end.
  Fixpoint lin_from c (sched : list (action C)) : list (action C) :=
    match sched with [] => [] | a :: sched => lin1 c a ++ lin_from (hexec1 c a) sched end.
  Definition lin s0 sched := lin_from (Cfg (s0, None) []) sched.

  Definition seen (t : @hthread P L) : L := match t with HOut l => l | HRead l => l | HWrite l _ => l | HUnlock l => l end.
  Definition abs (c : config (S * option nat) (@hthread P L)) : config S L := Cfg (fst (shared c)) (map seen (threads c)).

  Definition in_good (i : nat) (s : S) (t : @hthread P L) : Prop :=
    match t with
    | HOut _ => True
    | HRead l => match prog i l with Ptr (Store _ _) _ _ => False | Ptr _ _ _ => True | Other _ => False end
    | HWrite l v =>
        match prog i l with
        | Ptr (Store _ _) _ _ => True
        | Ptr (Swap a _) _ _ => v = Some (get a s)
        | Ptr (Cas a old _) _ _ => get a s = old
        | _ => False
        end
    | HUnlock _ => True
    end.
  Definition HInv (c : config (S * option nat) (@hthread P L)) : Prop :=
    (forall i t, threads c !! i = Some t -> inside t -> snd (shared c) = Some i) /\
    (forall i t, threads c !! i = Some t -> in_good i (fst (shared c)) t) /\
    (forall i, snd (shared c) = Some i -> exists t, threads c !! i = Some t /\ inside t).

  Lemma inside_out l : ~ inside (HOut l : @hthread P L).
  Proof. intros H. exact (H l eq_refl). Qed.
  Lemma inside_or t : inside t \/ exists l, t = (HOut l : @hthread P L).
  Proof. destruct t; [right; eauto|left; intros l' H; discriminate..]. Qed.

  (** One step of the safe build. *)
  Lemma step_effect i s m t : in_good i s t ->
    let r := hstep i (s, m) t in
    (if takes_effect i s t then ustep i s (seen t) = (fst (fst r), seen (snd r)) else fst (fst r) = s /\ seen (snd r) = seen t).
  Proof.
    intros Hg. unfold u_step, h_step, takes_effect, in_good in *. destruct t as [l|l|l v|l]; cbn [seen].
    - destruct (prog i l) as [o hist k|f] eqn:Ep.
      + destruct m; cbn; [auto|]. destruct o; auto.
      + destruct (f s) as [s' l'] eqn:Ef. reflexivity.
    - destruct (prog i l) as [[a|a v|a v|a old new] hist k|f] eqn:Ep; try contradiction; cbn; [reflexivity|auto|].
      destruct (bool_decide (get a s = old)) eqn:Eb; cbn; [auto|]. reflexivity.
    - destruct (prog i l) as [[a|a w|a w|a old new] hist k|f] eqn:Ep; try contradiction; cbn; [reflexivity| |].
      + subst v. reflexivity.
      + rewrite bool_decide_eq_true_2 by exact Hg. reflexivity.
    - cbn. auto.
  Qed.

  Lemma step_inv c i t : HInv c -> threads c !! i = Some t ->
    HInv (Cfg (fst (hstep i (shared c) t)) (<[i := snd (hstep i (shared c) t)]> (threads c))).
  Proof.
    intros (I1 & I2 & I3) Ht. destruct c as [[s m] ts]. cbn [shared threads fst snd] in *.
    assert (Hlt : i < length ts) by (apply lookup_lt_Some in Ht; exact Ht).
    assert (Hothers : forall j u, j <> i -> ts !! j = Some u -> m = Some i \/ m = None -> in_good j s u -> forall s', in_good j s' u).
    { intros j u Hne Hu Hm Hgood s'. destruct (inside_or u) as [Hin|(l & ->)]; [|exact I].
      specialize (I1 j u Hu Hin). destruct Hm as [Em|Em]; congruence. }
    pose proof (I2 i t Ht) as Hg.
    (* what the step does to the mutex and to the goroutine *)
    assert (Hcases : let r := hstep i (s, m) t in
      (r = ((s, m), t)) \/
      (exists l f, t = HOut l /\ prog i l = Other f /\ r = ((fst (f s), m), HOut (snd (f s)))) \/
      (m = None /\ (exists l, t = HOut l) /\ fst r = (s, Some i) /\ inside (snd r) /\ in_good i s (snd r)) \/
      (inside t /\ snd (fst r) = m /\ inside (snd r) /\ in_good i (fst (fst r)) (snd r)) \/
      (inside t /\ fst r = (s, None) /\ exists l, snd r = HOut l)).
    { unfold h_step, in_good in *. destruct t as [l|l|l v|l]; cbn.
      - destruct (prog i l) as [o hist k|f] eqn:Ep.
        + destruct m; [left; reflexivity|]. right; right; left. split; [reflexivity|]. split; [eauto|]. cbn.
          destruct o; cbn; (split; [reflexivity|]); (split; [intros l' H; discriminate|]); rewrite Ep; exact I.
        + right; left. exists l, f. destruct (f s). auto.
      - right; right; right; left. split; [intros l' H; discriminate|].
        destruct (prog i l) as [[a|a v|a v|a old new] hist k|f] eqn:Ep; try contradiction; cbn.
        + split; [reflexivity|]. split; [intros l' H; discriminate|exact I].
        + split; [reflexivity|]. split; [intros l' H; discriminate|]. rewrite Ep. reflexivity.
        + destruct (bool_decide (get a s = old)) eqn:Eb; cbn; (split; [reflexivity|]); (split; [intros l' H; discriminate|]); [|exact I].
          rewrite Ep. apply bool_decide_eq_true in Eb. exact Eb.
      - right; right; right; left. split; [intros l' H; discriminate|].
        destruct (prog i l) as [[a|a w|a w|a old new] hist k|f] eqn:Ep; try contradiction; cbn.
        + split; [reflexivity|]. split; [intros l' H; discriminate|exact I].
        + subst v. cbn. split; [reflexivity|]. split; [intros l' H; discriminate|exact I].
        + split; [reflexivity|]. split; [intros l' H; discriminate|exact I].
      - right; right; right; right. split; [intros l' H; discriminate|]. eauto. }
    cbv zeta in Hcases. remember (hstep i (s, m) t) as r eqn:Hr in *. clear Hr.
    destruct Hcases as [->|[(l & f & -> & Ep & ->)|[(-> & (l & ->) & E & Hin & Hgood)|[(Hin & E & Hin' & Hgood)|(Hin & E & l & E')]]]]; cbn.
    - rewrite list_insert_id by exact Ht. exact (conj I1 (conj I2 I3)).
    - split; [|split]; cbn.
      + intros j u Hu Hinu. destruct (decide (j = i)) as [->|Hne].
        * rewrite list_lookup_insert in Hu by exact Hlt. injection Hu as <-. destruct (inside_out _ Hinu).
        * rewrite list_lookup_insert_ne in Hu by congruence. eauto.
      + intros j u Hu. destruct (decide (j = i)) as [->|Hne].
        * rewrite list_lookup_insert in Hu by exact Hlt. injection Hu as <-. exact I.
        * rewrite list_lookup_insert_ne in Hu by congruence. specialize (I2 j u Hu). unfold in_good in *.
          destruct u as [lu|lu|lu v|lu]; try exact I2. destruct (prog j lu) as [[| | |]|]; try exact I2;
            rewrite (disc i l f _ s Ep); exact I2.
      + intros j Hj. destruct (I3 j Hj) as (u & Hu & Hinu). destruct (decide (j = i)) as [->|Hne].
        * rewrite Ht in Hu. injection Hu as <-. destruct (inside_out _ Hinu).
        * exists u. rewrite list_lookup_insert_ne by congruence. auto.
    - rewrite E. split; [|split]; cbn.
      + intros j u Hu Hinu. destruct (decide (j = i)) as [->|Hne]; [reflexivity|].
        rewrite list_lookup_insert_ne in Hu by congruence. specialize (I1 j u Hu Hinu). discriminate.
      + intros j u Hu. destruct (decide (j = i)) as [->|Hne].
        * rewrite list_lookup_insert in Hu by exact Hlt. injection Hu as <-. exact Hgood.
        * rewrite list_lookup_insert_ne in Hu by congruence. exact (I2 j u Hu).
      + intros j [= <-]. exists (snd r). rewrite list_lookup_insert by exact Hlt. auto.
    - pose proof (I1 i t Ht Hin) as Em. rewrite Em in E. split; [|split]; cbn.
      + intros j u Hu Hinu. rewrite E. destruct (decide (j = i)) as [->|Hne]; [reflexivity|].
        rewrite list_lookup_insert_ne in Hu by congruence. rewrite <- Em. exact (I1 j u Hu Hinu).
      + intros j u Hu. destruct (decide (j = i)) as [->|Hne].
        * rewrite list_lookup_insert in Hu by exact Hlt. injection Hu as <-. exact Hgood.
        * rewrite list_lookup_insert_ne in Hu by congruence. apply (Hothers j u Hne Hu); [auto|]. exact (I2 j u Hu).
      + intros j Hj. rewrite E in Hj. injection Hj as <-. exists (snd r). rewrite list_lookup_insert by exact Hlt. auto.
    - pose proof (I1 i t Ht Hin) as Em. subst m. rewrite E, E'. split; [|split]; cbn.
      + intros j u Hu Hinu. destruct (decide (j = i)) as [->|Hne].
        * rewrite list_lookup_insert in Hu by exact Hlt. injection Hu as <-. destruct (inside_out _ Hinu).
        * rewrite list_lookup_insert_ne in Hu by congruence. specialize (I1 j u Hu Hinu). congruence.
      + intros j u Hu. destruct (decide (j = i)) as [->|Hne].
        * rewrite list_lookup_insert in Hu by exact Hlt. injection Hu as <-. exact I.
        * rewrite list_lookup_insert_ne in Hu by congruence. exact (I2 j u Hu).
      + intros j Hj. discriminate.
  Qed.

  Lemma exec1_inv c a : HInv c -> HInv (hexec1 c a).
  Proof.
    intros Hc. destruct a as [x|i]; cbn [exec1].
    - destruct Hc as (I1 & I2 & I3). split; [|split]; cbn.
      + intros j u Hu Hin. apply lookup_app_Some in Hu as [Hu|[_ Hu]]; [eauto|].
        apply list_lookup_singleton_Some in Hu as [_ <-]. destruct (inside_out _ Hin).
      + intros j u Hu. apply lookup_app_Some in Hu as [Hu|[_ Hu]]; [exact (I2 j u Hu)|].
        apply list_lookup_singleton_Some in Hu as [_ <-]. exact I.
      + intros j Hj. destruct (I3 j Hj) as (u & Hu & Hin). exists u. split; [apply lookup_app_l_Some, Hu|exact Hin].
    - destruct (threads c !! i) as [t|] eqn:E; [|exact Hc]. apply step_inv; assumption.
  Qed.
  Lemma exec1_abs c a : HInv c -> abs (hexec1 c a) = fold_left uexec1 (lin1 c a) (abs c).
  Proof.
    intros (_ & I2 & _). destruct a as [x|i]; cbn [exec1 lin1].
    - cbn. unfold abs. cbn. rewrite map_app. reflexivity.
    - destruct (threads c !! i) as [t|] eqn:E; [|reflexivity].
      destruct c as [[s m] ts]. cbn [shared threads fst] in *. pose proof (step_effect i s m t (I2 i t E)) as H. cbv zeta in H.
      remember (hstep i (s, m) t) as r eqn:Hr. clear Hr. unfold abs. cbn [shared threads].
      assert (Hm : map seen (<[i := snd r]> ts) = <[i := seen (snd r)]> (map seen ts)) by apply list_fmap_insert.
      assert (Hl : map seen ts !! i = Some (seen t)) by (rewrite list_lookup_fmap, E; reflexivity).
      destruct (takes_effect i s t) eqn:Et; cbn [fold_left].
      + unfold exec1. cbn [shared threads fst]. rewrite Hl, H, Hm. reflexivity.
      + destruct H as [H1 H2]. cbn [fst]. rewrite H1, Hm, H2, list_insert_id by exact Hl. reflexivity.
  Qed.
  Lemma fold_inv sched c : HInv c -> HInv (fold_left hexec1 sched c).
  Proof. revert c. induction sched as [|a sched IH]; intros c Hc; [exact Hc|]. cbn. apply IH, exec1_inv, Hc. Qed.
  Lemma fold_abs sched c : HInv c -> abs (fold_left hexec1 sched c) = fold_left uexec1 (lin_from c sched) (abs c).
  Proof.
    revert c. induction sched as [|a sched IH]; intros c Hc; [reflexivity|]. cbn [fold_left lin_from].
    rewrite IH by (apply exec1_inv, Hc). rewrite fold_left_app, exec1_abs by exact Hc. reflexivity.
  Qed.
  Lemma HInv_new s0 : HInv (Cfg (s0, None) []).
  Proof. split; [|split]; cbn; intros i; [intros t; rewrite lookup_nil; discriminate..|discriminate]. Qed.
  Lemma exec_HInv s0 sched : HInv (hexec s0 sched).
  Proof. apply fold_inv, HInv_new. Qed.
  Lemma exec_abs s0 sched : abs (hexec s0 sched) = uexec s0 (lin s0 sched).
  Proof. exact (fold_abs sched _ (HInv_new s0)). Qed.

  Lemma lin_from_app c pre post : lin_from c (pre ++ post) = lin_from c pre ++ lin_from (fold_left hexec1 pre c) post.
  Proof. revert c. induction pre as [|a pre IH]; intros c; [reflexivity|]. cbn. rewrite IH, app_assoc. reflexivity. Qed.
  Lemma spawned_app (x y : list (action C)) : spawned (x ++ y) = spawned x ++ spawned y.
  Proof. unfold spawned. rewrite map_app, concat_app. reflexivity. Qed.
  Lemma lin_from_spawned c sched : spawned (lin_from c sched) = spawned sched.
  Proof.
    revert c. induction sched as [|a sched IH]; intros c; [reflexivity|]. cbn [lin_from]. rewrite spawned_app, IH.
    change (a :: sched) with ([a] ++ sched). rewrite spawned_app. f_equal. destruct a as [x|i]; [reflexivity|]. cbn.
    destruct (threads c !! i); [|reflexivity]. destruct (takes_effect _ _ _); reflexivity.
  Qed.
  Lemma lin_stepwise s0 : stepwise (lin s0).
  Proof.
    split; [|intros; apply lin_from_spawned]. intros pre post. exists (lin_from (hexec s0 pre) post). apply lin_from_app.
  Qed.

  (** The safe build does what the other can do. *)
  Lemma safe_refines s0 sched :
    shared (uexec s0 (lin s0 sched)) = fst (shared (hexec s0 sched)) /\
    length (threads (uexec s0 (lin s0 sched))) = length (threads (hexec s0 sched)) /\
    (forall i l, threads (hexec s0 sched) !! i = Some (HOut l) -> threads (uexec s0 (lin s0 sched)) !! i = Some l).
  Proof.
    rewrite <- exec_abs. unfold abs. cbn. split; [reflexivity|]. split; [apply map_length|].
    intros i l Hi. rewrite list_lookup_fmap, Hi. reflexivity.
  Qed.

  (** A goroutine that runs alone gets through its operation. *)
  Fixpoint alone (n i : nat) (st : (S * option nat) * @hthread P L) : (S * option nat) * @hthread P L :=
    match n with O => st | Datatypes.S n => alone n i (hstep i (fst st) (snd st)) end.
  Lemma fold_alone n i c t : threads c !! i = Some t ->
    fold_left hexec1 (repeat (Run i) n) c = Cfg (fst (alone n i (shared c, t))) (<[i := snd (alone n i (shared c, t))]> (threads c)).
  Proof.
    revert c t. induction n as [|n IH]; intros c t Ht; cbn [repeat fold_left alone].
    - cbn. rewrite list_insert_id by exact Ht. destruct c; reflexivity.
    - cbn [exec1]. rewrite Ht.
      assert (Hlt : i < length (threads c)) by (apply lookup_lt_Some in Ht; exact Ht).
      rewrite (IH _ (snd (hstep i (shared c) t))); cbn; [|apply list_lookup_insert, Hlt].
      rewrite list_insert_insert. destruct (hstep i (shared c) t). reflexivity.
  Qed.
  Lemma alone_call i s l : exists n, n <= 4 /\ alone n i ((s, None), HOut l) = ((fst (ustep i s l), None), HOut (snd (ustep i s l))).
  Proof.
    unfold u_step. destruct (prog i l) as [[a|a v|a v|a old new] hist k|f] eqn:Ep.
    - exists 3. split; [lia|]. cbn. rewrite Ep. cbn. rewrite Ep. cbn. reflexivity.
    - exists 3. split; [lia|]. cbn. rewrite Ep. cbn. rewrite Ep. cbn. reflexivity.
    - exists 4. split; [lia|]. cbn. rewrite Ep. cbn. rewrite Ep. cbn. rewrite Ep. cbn. reflexivity.
    - cbn [atomic_op]. destruct (bool_decide (get a s = old)) eqn:Eb.
      + exists 4. split; [lia|]. cbn. rewrite Ep. cbn. rewrite Ep, Eb. cbn. rewrite Ep. cbn. reflexivity.
      + exists 3. split; [lia|]. cbn. rewrite Ep. cbn. rewrite Ep, Eb. cbn. reflexivity.
    - exists 1. split; [lia|]. cbn. rewrite Ep. destruct (f s). reflexivity.
  Qed.
  Lemma alone_release i s t : in_good i s t -> inside t ->
    exists n s' l, n <= 3 /\ alone n i ((s, Some i), t) = ((s', None), HOut l).
  Proof.
    intros Hg Hin. unfold in_good in Hg. destruct t as [l|l|l v|l].
    - destruct (inside_out _ Hin).
    - destruct (prog i l) as [[a|a v|a v|a old new] hist k|f] eqn:Ep; try contradiction.
      + exists 2. do 2 eexists. split; [lia|]. cbn. rewrite Ep. cbn. reflexivity.
      + exists 3. do 2 eexists. split; [lia|]. cbn. rewrite Ep. cbn. rewrite Ep. cbn. reflexivity.
      + destruct (bool_decide (get a s = old)) eqn:Eb.
        * exists 3. do 2 eexists. split; [lia|]. cbn. rewrite Ep, Eb. cbn. rewrite Ep. cbn. reflexivity.
        * exists 2. do 2 eexists. split; [lia|]. cbn. rewrite Ep, Eb. cbn. reflexivity.
    - destruct (prog i l) as [[a|a w|a w|a old new] hist k|f] eqn:Ep; try contradiction.
      + exists 2. do 2 eexists. split; [lia|]. cbn. rewrite Ep. cbn. reflexivity.
      + subst v. exists 2. do 2 eexists. split; [lia|]. cbn. rewrite Ep. cbn. reflexivity.
      + exists 2. do 2 eexists. split; [lia|]. cbn. rewrite Ep. cbn. reflexivity.
    - exists 1. do 2 eexists. split; [lia|]. reflexivity.
  Qed.

  (** What the other build does, the safe build can do. *)
  Lemma exec1_repeat s0 sched i t n : threads (hexec s0 sched) !! i = Some t ->
    hexec s0 (sched ++ repeat (Run i) n) =
    Cfg (fst (alone n i (shared (hexec s0 sched), t))) (<[i := snd (alone n i (shared (hexec s0 sched), t))]> (threads (hexec s0 sched))).
  Proof. intros Ht. unfold h_exec. rewrite exec_app. apply fold_alone, Ht. Qed.
  Lemma spawned_repeat i n : spawned (repeat (Run i : action C) n) = [].
  Proof. induction n; [reflexivity|]. cbn. exact IHn. Qed.
  Lemma unsafe_refines s0 sched : exists sched', spawned sched' = spawned sched /\
    hexec s0 sched' = Cfg (shared (uexec s0 sched), None) (map HOut (threads (uexec s0 sched))).
  Proof.
    induction sched as [|a sched (sched' & Es & IH)] using rev_ind; [exists []; split; reflexivity|].
    unfold u_exec in *. rewrite exec_snoc. destruct a as [x|i]; cbn [exec1].
    - exists (sched' ++ [Spawn x]). rewrite !spawned_app, Es. split; [reflexivity|].
      unfold h_exec in *. rewrite exec_snoc. cbn [exec1]. rewrite IH. cbn. rewrite map_app. reflexivity.
    - destruct (threads (exec start ustep s0 sched) !! i) as [l|] eqn:El.
      + destruct (alone_call i (shared (exec start ustep s0 sched)) l) as (n & _ & En).
        exists (sched' ++ repeat (Run i) n). rewrite !spawned_app, spawned_repeat, Es. split; [reflexivity|].
        rewrite (exec1_repeat s0 sched' i (HOut l)); rewrite IH; cbn [shared threads].
        * rewrite En. cbn. f_equal. symmetry. apply list_fmap_insert.
        * rewrite list_lookup_fmap, El. reflexivity.
      + exists sched'. rewrite spawned_app, app_nil_r. auto.
  Qed.

  (** At most one goroutine is inside; it is the one that holds the mutex, and running it
      up to three times frees it. *)
  Lemma safe_excludes s0 sched i j t u :
    threads (hexec s0 sched) !! i = Some t -> threads (hexec s0 sched) !! j = Some u -> inside t -> inside u -> i = j.
  Proof.
    intros Hi Hj Ht Hu. destruct (exec_HInv s0 sched) as (I1 & _). pose proof (I1 i t Hi Ht). pose proof (I1 j u Hj Hu). congruence.
  Qed.
  Lemma safe_releases s0 sched i : snd (shared (hexec s0 sched)) = Some i ->
    exists n, n <= 3 /\ snd (shared (hexec s0 (sched ++ repeat (Run i) n))) = None.
  Proof.
    intros Hm. destruct (exec_HInv s0 sched) as (_ & I2 & I3). destruct (I3 i Hm) as (t & Ht & Hin).
    destruct (shared (hexec s0 sched)) as [s m] eqn:E. cbn in Hm. subst m. specialize (I2 i t Ht). cbn in I2.
    destruct (alone_release i s t I2 Hin) as (n & s' & l & Hn & En). exists n. split; [exact Hn|].
    rewrite (exec1_repeat s0 sched i t n Ht), E, En. reflexivity.
  Qed.
  (** A goroutine waiting for the mutex gets it and completes its operation, with the answer
      that operation has then, if the holder and then the goroutine run. *)
  Lemma safe_completes s0 sched i l : threads (hexec s0 sched) !! i = Some (HOut l) ->
    exists more s m, Forall (fun a => a = Run i \/ exists j, snd (shared (hexec s0 sched)) = Some j /\ a = Run j) more /\ length more <= 7 /\
      hexec s0 (sched ++ more) = Cfg (fst (ustep i s l), None) (<[i := HOut (snd (ustep i s l))]> m) .
  Proof.
    intros Hi. destruct (exec_HInv s0 sched) as (_ & I2 & I3). destruct (shared (hexec s0 sched)) as [s m] eqn:E. cbn [fst snd] in *.
    assert (Hcall : forall sched' s', threads (hexec s0 sched') !! i = Some (HOut l) -> shared (hexec s0 sched') = (s', None) ->
      exists n, n <= 4 /\ hexec s0 (sched' ++ repeat (Run i) n) = Cfg (fst (ustep i s' l), None) (<[i := HOut (snd (ustep i s' l))]> (threads (hexec s0 sched')))).
    { intros sched' s' Hi' E'. destruct (alone_call i s' l) as (n & Hn & En). exists n. split; [exact Hn|].
      rewrite (exec1_repeat s0 sched' i _ n Hi'), E', En. reflexivity. }
    destruct m as [j|].
    - destruct (I3 j eq_refl) as (t & Ht & Hin). pose proof (I2 j t Ht) as Hg. cbn in Hg.
      destruct (alone_release j s t Hg Hin) as (n1 & s1 & l1 & Hn1 & En1).
      assert (Hij : i <> j) by (intros ->; rewrite Hi in Ht; injection Ht as <-; destruct (inside_out _ Hin)).
      pose proof (exec1_repeat s0 sched j t n1 Ht) as E1. rewrite E, En1 in E1. cbn in E1.
      destruct (Hcall (sched ++ repeat (Run j) n1) s1) as (n2 & Hn2 & E2).
      { rewrite E1. cbn. rewrite list_lookup_insert_ne by congruence. exact Hi. }
      { rewrite E1. reflexivity. }
      exists (repeat (Run j) n1 ++ repeat (Run i) n2), s1, (threads (hexec s0 (sched ++ repeat (Run j) n1))). split; [|split].
      + apply Forall_app. split; apply Forall_forall; intros a Ha; apply elem_of_list_In, repeat_spec in Ha; subst a; [right; eauto|left; reflexivity].
      + rewrite app_length, !repeat_length. lia.
      + rewrite app_assoc. exact E2.
    - destruct (Hcall sched s Hi E) as (n & Hn & En). exists (repeat (Run i) n), s, (threads (hexec s0 sched)). split; [|split].
      + apply Forall_forall; intros a Ha; apply elem_of_list_In, repeat_spec in Ha; subst a. left. reflexivity.
      + rewrite repeat_length. lia.
      + exact En.
  Qed.
End cas.
