(** Proofs of C71 (FindSpan) and C72 (CollectSpans). *)
From Verif Require Import Base Conc ScopeSpec CollectModel CollectSpec CollectorProofs WatchModel WatchSpec WatchProofs.
Local Open Scope Z_scope.

Section collecting.
  Context (info : nat -> sinfo) (fuel : nat).
  Notation cexec := (cl_exec info fuel).
  Notation cthread := (cl_thread info fuel).

  Lemma call_keep i h k c pc : cthread h i (KThr c pc) -> exists pc', cthread (h ++ k) i (KThr c pc').
  Proof.
    intros H. revert k. apply (cl_ind info fuel (fun h => exists pc', cthread h i (KThr c pc'))).
    - eauto.
    - intros p c' (pc' & Hi). exists pc'. apply thread_spawn. auto.
    - intros p j u (pc' & Hi) Hj. destruct (decide (j = i)) as [->|Hne].
      + pose proof (fun th => proj2 (thread_run info fuel (h ++ p) i u i th Hj)) as Hth. pose proof (cl_step_call info fuel i (shared (cexec (h ++ p))) u) as Ec.
        assert (u = KThr c pc') as -> by (unfold cl_thread in *; congruence). destruct (snd (cl_step _ _ _ _ _)) as [c' q]. cbn in Ec. subst c'. exists q. apply Hth. auto.
      + exists pc'. apply (thread_run _ _ _ _ _ _ _ Hj). auto.
    - intros p j (pc' & Hi) Hj. exists pc'. unfold cl_thread. rewrite run_none by exact Hj. exact Hi.
  Qed.
  (** Which call a thread is. *)
  Lemma call_where pre c0 post j c pc : cthread ((pre ++ [Spawn c0]) ++ post) j (KThr c pc) ->
    (j = length (threads (cexec pre)) /\ c = c0) \/ Spawn c ∈ pre \/ Spawn c ∈ post.
  Proof.
    revert c pc. induction post as [|a post IH] using rev_ind; intros c pc Hi.
    - rewrite app_nil_r in Hi. apply thread_spawn in Hi as [Hi|[-> E]]; [right; left; eapply call_spawned, Hi|]. left. split; [reflexivity|].
      destruct c0; unfold cl_start in E; congruence.
    - assert (Hw : forall q, cthread ((pre ++ [Spawn c0]) ++ post) j (KThr c q) -> (j = length (threads (cexec pre)) /\ c = c0) \/ Spawn c ∈ pre \/ Spawn c ∈ post ++ [a]).
      { intros q Hq. destruct (IH _ _ Hq) as [H|[H|H]]; [auto|auto|]. right. right. apply elem_of_app. auto. }
      rewrite app_assoc in Hi. destruct a as [c'|i].
      + apply thread_spawn in Hi as [Hi|[_ E]]; [eapply Hw, Hi|]. right. right. apply elem_of_app. right. apply elem_of_list_singleton. f_equal. destruct c'; unfold cl_start in E; congruence.
      + destruct (threads (cexec ((pre ++ [Spawn c0]) ++ post)) !! i) as [u|] eqn:Hu.
        * apply (thread_run _ _ _ _ _ _ _ Hu) in Hi as [[-> E]|[_ Hi]]; [|eapply Hw, Hi]. destruct u as [c' q].
          pose proof (cl_step_call info fuel i (shared (cexec ((pre ++ [Spawn c0]) ++ post))) (KThr c' q)) as Ec. rewrite <- E in Ec. cbn in Ec. subst c'. eapply Hw, Hu.
        * unfold cl_thread in Hi. rewrite run_none in Hi by exact Hu. eapply Hw, Hi.
  Qed.

  (** No trigger without a match or ForceStart. *)
  Lemma no_trigger h : (forall n, Spawn (KStart n true) ∉ h) -> (forall i n, ~ cthread h i (KThr (KForce n) (M_done true))) -> Spawn KStop ∉ h ->
    cl_check (shared (cexec h)) = CNil.
  Proof.
    intros H1 H2 H3. assert (Hw : forall n, ~ trigger info fuel h n).
    { intros n (i & [[m Hi]|Hi]); [|exact (H2 _ _ Hi)]. pose proof (won_matched _ _ _ _ _ _ _ Hi (or_intror eq_refl)). subst m. apply (H1 n). eapply call_spawned, Hi. }
    pose proof (kinv_exec info fuel h) as H. pose proof (K3 _ _ _ _ H) as Hk. destruct (cl_check (shared (cexec h))) as [| |n] eqn:E; [reflexivity| |].
    - exfalso. destruct (k8_exec info fuel h E) as (i & [c pc] & Hi & [He|[r Hr]]).
      + destruct c; try discriminate He. apply H3. eapply call_spawned, Hi.
      + apply root_ended in Hr as [Hr _]. exact (Hw _ Hr).
    - exfalso. apply win_trigger in Hk. exact (Hw _ Hk).
  Qed.

  (** The only ForceStart wins. *)
  Lemma force_wins i h root pc : (forall n, Spawn (KStart n true) ∉ h) -> Spawn KStop ∉ h ->
    (forall j n q, cthread h j (KThr (KForce n) q) -> j = i) -> cthread h i (KThr (KForce root) pc) -> pc = M_cas \/ pc = M_done true.
  Proof.
    revert pc. induction h as [|a h IH] using rev_ind; intros pc H1 H2 H3 Hi; [discriminate Hi|].
    assert (H1' : forall n, Spawn (KStart n true) ∉ h) by (intros n Hn; apply (H1 n); apply elem_of_app; auto).
    assert (H2' : Spawn KStop ∉ h) by (intros Hn; apply H2; apply elem_of_app; auto).
    assert (H3' : forall j n q, cthread h j (KThr (KForce n) q) -> j = i) by (intros j n q Hj; destruct (call_keep j h [a] _ _ Hj) as [q' Hq]; eapply H3, Hq).
    destruct a as [c|j].
    - apply thread_spawn in Hi as [Hi|[_ E]]; [auto|]. destruct c; try discriminate E. injection E as _ ->. auto.
    - destruct (threads (cexec h) !! j) as [u|] eqn:Hu; [|unfold cl_thread in Hi; rewrite run_none in Hi by exact Hu; auto].
      apply (thread_run _ _ _ _ _ _ _ Hu) in Hi as [[-> E]|[_ Hi]]; [|auto]. destruct u as [c q].
      pose proof (cl_step_call info fuel j (shared (cexec h)) (KThr c q)) as Ec. rewrite <- E in Ec. cbn in Ec. subst c.
      destruct (IH _ H1' H2' H3' Hu) as [->| ->]; [|injection E as ->; auto].
      assert (En : cl_check (shared (cexec h)) = CNil).
      { apply no_trigger; [exact H1'| |exact H2']. intros k n Hk. pose proof (H3' _ _ _ Hk). subst k. unfold cl_thread in Hk. rewrite Hu in Hk. discriminate Hk. }
      unfold cl_step in E. cbn [kt_call kt_pc] in E. rewrite En in E. injection E as ->. auto.
  Qed.

  (** The Finish that ends the collection. *)
  Definition good (pc : kpc) : Prop :=
    match pc with F_load | F_lock _ | F_root _ | F_store _ | F_unlock_stop | F_swap | F_close | F_done true => True | _ => False end.
  Lemma root_finish pre f post pc : trigger info fuel pre (fs_span f) ->
    (forall g, Spawn (KFinish g) ∈ pre -> fs_span g <> fs_span f) -> (forall g, Spawn (KFinish g) ∈ post -> fs_span g <> fs_span f) ->
    Spawn KStop ∉ pre -> Spawn KStop ∉ post ->
    cthread ((pre ++ [Spawn (KFinish f)]) ++ post) (length (threads (cexec pre))) (KThr (KFinish f) pc) -> good pc.
  Proof.
    intros Htr Hpre. set (i := length (threads (cexec pre))). revert pc. induction post as [|a post IH] using rev_ind; intros pc Hpost Hs1 Hs2 Hi.
    { rewrite app_nil_r in Hi. apply thread_spawn in Hi as [Hi|[_ E]]; [apply lookup_lt_Some in Hi; subst i; lia|]. injection E as ->. exact I. }
    assert (Hpost' : forall g, Spawn (KFinish g) ∈ post -> fs_span g <> fs_span f) by (intros g Hg; apply Hpost, elem_of_app; auto).
    assert (Hs2' : Spawn KStop ∉ post) by (intros H; apply Hs2, elem_of_app; auto).
    specialize (fun pc => IH pc Hpost' Hs1 Hs2'). rewrite app_assoc in Hi. set (h := (pre ++ [Spawn (KFinish f)]) ++ post) in *.
    destruct a as [c|j].
    { apply thread_spawn in Hi as [Hi|[E _]]; [auto|]. exfalso.
      assert (exists q, cthread h i (KThr (KFinish f) q)) as [q Hq] by (apply (call_keep i (pre ++ [Spawn (KFinish f)]) post (KFinish f) F_load), thread_spawn; right; split; reflexivity).
      apply lookup_lt_Some in Hq. lia. }
    destruct (threads (cexec h) !! j) as [u|] eqn:Hu; [|unfold cl_thread in Hi; rewrite run_none in Hi by exact Hu; auto].
    apply (thread_run _ _ _ _ _ _ _ Hu) in Hi as [[<- E]|[_ Hi]]; [|auto]. destruct u as [c q].
    pose proof (cl_step_call info fuel i (shared (cexec h)) (KThr c q)) as Ec. rewrite <- E in Ec. cbn in Ec. subst c. specialize (IH _ Hu).
    assert (Htr' : trigger info fuel h (fs_span f)) by (unfold h; rewrite <- app_assoc; apply trigger_stay, Htr).
    assert (Huniq : forall k g r, cthread h k (KThr (KFinish g) r) -> fs_span g = fs_span f -> k = i).
    { intros k g r Hk Eg. apply call_where in Hk as [[-> _]|[Hk|Hk]]; [reflexivity| |]; exfalso; [exact (Hpre _ Hk Eg)|exact (Hpost' _ Hk Eg)]. }
    assert (Hns : forall k r, ~ cthread h k (KThr KStop r)).
    { intros k r Hk. apply call_where in Hk as [[_ Hk]|[Hk|Hk]]; [discriminate Hk|contradiction|contradiction]. }
    pose proof (kinv_exec info fuel h) as Hinv. unfold cl_step in E. cbn [kt_call kt_pc] in E.
    destruct q; try contradiction IH; cbn [snd] in E.
    - assert (Hch : cl_check (shared (cexec h)) = CSpan (fs_span f)).
      { apply (undisturbed_check info fuel h (fs_span f) Htr'). split; [intros k r Hk; destruct (Hns _ _ Hk)|]. intros k g r Hk Eg. pose proof (Huniq _ _ _ Hk Eg). subst k.
        unfold cl_thread in Hk. rewrite Hu in Hk. injection Hk as _ ->. reflexivity. }
      rewrite Hch, Nat.eqb_refl in E. injection E as ->. exact I.
    - destruct (cl_mtx (shared (cexec h))); injection E as ->; exact I.
    - destruct (cl_root (shared (cexec h))) as [r|] eqn:Er; [|injection E as ->; exact I]. exfalso.
      apply root_ended in Er as (Ht & k & p & Hk & Hp). assert (Ek : k = i) by (eapply Huniq; [exact Hk|]; eapply trigger_one; eassumption). subst k.
      unfold cl_thread in Hk. rewrite Hu in Hk. injection Hk as _ <-. destruct Hp as [Hp|[Hp|[Hp|Hp]]]; discriminate Hp.
    - pose proof (K4 _ _ _ _ Hinv _ _ Hu) as (Hw & _). apply win_trigger in Hw. assert (existing = fs_span f) as -> by (eapply trigger_one; eassumption).
      rewrite Nat.eqb_refl in E. injection E as ->. exact I.
    - injection E as ->. exact I.
    - destruct (chk_eqb _ _); injection E as ->; exact I.
    - injection E as ->. exact I.
    - injection E as ->. exact IH.
  Qed.

  Context (root : nat).
  Notation run := (x_run info fuel root).
  Definition answered_by (h : list (action kcall)) (l : option (list fin)) : Prop :=
    exists j pre post, h = pre ++ post /\ ended info fuel pre (Fin root None false) /\ spans_unbegun info fuel pre j /\ spans_answer info fuel h j l.
  Lemma answered_by_more h k l : answered_by h l -> answered_by (h ++ k) l.
  Proof.
    intros (j & pre & post & -> & H1 & H2 & H3). exists j, pre, (post ++ k). rewrite app_assoc. split_and!; [reflexivity|exact H1|exact H2|].
    apply (settled_stay info fuel _ _ _ _ H3). reflexivity.
  Qed.
  Definition noroot (h : list (action kcall)) : Prop := forall f, Spawn (KFinish f) ∈ h -> fs_span f <> root.
  Definition xpc_ok (x : collecting) : Prop :=
    let h := x_hist x in
    match x_pc x with
    | X_begin => Spawn KStop ∉ h /\ noroot h /\ forall n, Spawn (KForce n) ∉ h
    | X_force i => Spawn KStop ∉ h /\ noroot h /\ (forall j n q, cthread h j (KThr (KForce n) q) -> j = i) /\ exists pc, cthread h i (KThr (KForce root) pc)
    | X_work => Spawn KStop ∉ h /\ noroot h /\ trigger info fuel h root
    | X_finish i p => Spawn KStop ∉ h /\ exists pre post, h = (pre ++ [Spawn (KFinish (Fin root None p))]) ++ post /\ i = length (threads (cexec pre)) /\
        trigger info fuel pre root /\ noroot pre /\ noroot post
    | X_spans i => Spawn KStop ∉ h /\ exists pre post, h = pre ++ post /\ ended info fuel pre (Fin root None false) /\ spans_unbegun info fuel pre i
    | X_stop i (Some l) => answered_by h l
    | X_stop i None => True
    | X_done (Some l) => answered_by h l
    | X_done None => True
    end.
  Record xinv (acts : list xact) (x : collecting) : Prop := {
    U1 : forall n m, Spawn (KStart n m) ∈ x_hist x -> m = false;
    U2 : forall f, Spawn (KFinish f) ∈ x_hist x -> XFinish f ∈ acts \/ fs_span f = root;
    U3 : xpc_ok x
  }.
  Lemma not_snoc {A} (x : A) l y : x ∉ l -> x <> y -> x ∉ l ++ [y].
  Proof. intros H1 H2 H. apply in_snoc in H as [H|H]; contradiction. Qed.
  Lemma noroot_snoc h a : noroot h -> (forall f, a = Spawn (KFinish f) -> fs_span f <> root) -> noroot (h ++ [a]).
  Proof. intros H1 H2 f H. apply in_snoc in H as [H|H]; [exact (H1 _ H)|]. apply H2. congruence. Qed.

  (** An action of the environment: any but Stop, ForceStart and Finish of the root. *)
  Lemma xpc_env h a p : xpc_ok (Collecting h p) -> a <> Spawn KStop -> (forall n, a <> Spawn (KForce n)) -> (forall f, a = Spawn (KFinish f) -> fs_span f <> root) ->
    xpc_ok (Collecting (h ++ [a]) p).
  Proof.
    unfold xpc_ok. cbn [x_pc x_hist]. intros H Ha Hf Hr. assert (Hs : Spawn KStop ∉ h -> Spawn KStop ∉ h ++ [a]) by (intros Hn; apply not_snoc; congruence).
    destruct p as [|i| |i p|i|i [l|]|[l|]].
    - destruct H as (H1 & H2 & H3). split_and!; [auto|apply noroot_snoc; assumption|]. intros n. apply not_snoc; [apply H3|intros E; symmetry in E; exact (Hf _ E)].
    - destruct H as (H1 & H2 & H3 & pc & H4). split_and!; [auto|apply noroot_snoc; assumption| |eapply call_keep, H4].
      intros j n q Hj. destruct a as [c|k].
      + apply thread_spawn in Hj as [Hj|[_ E]]; [eapply H3, Hj|]. destruct c; try discriminate E. exfalso. exact (Hf _ eq_refl).
      + destruct (threads (cexec h) !! k) as [u|] eqn:Hu; [|unfold cl_thread in Hj; rewrite run_none in Hj by exact Hu; eapply H3, Hj].
        destruct (proj1 (thread_run info fuel h k u j _ Hu) Hj) as [[Ek E]|[_ Hj']]; [|eapply H3, Hj']. destruct u as [c q'].
        pose proof (cl_step_call info fuel k (shared (cexec h)) (KThr c q')) as Ec. rewrite <- E in Ec. cbn in Ec. subst c. rewrite Ek; eapply H3, Hu.
    - destruct H as (H1 & H2 & H3). split_and!; [auto|apply noroot_snoc; assumption|apply trigger_stay, H3].
    - destruct H as (H1 & pre & post & -> & -> & H2 & H3 & H4). split; [auto|]. exists pre, (post ++ [a]). rewrite app_assoc. split_and!; [reflexivity|reflexivity|exact H2|exact H3|apply noroot_snoc; assumption].
    - destruct H as (H1 & pre & post & -> & H2 & H3). split; [auto|]. exists pre, (post ++ [a]). rewrite app_assoc. auto.
    - apply answered_by_more, H.
    - exact I.
    - apply answered_by_more, H.
    - exact I.
  Qed.

  Lemma xinv_run acts : x_own root acts -> xinv acts (run acts).
  Proof.
    unfold x_run. induction acts as [|a acts IH] using rev_ind; intros Hown.
    - constructor; cbn; [intros n m H; inversion H|intros f H; inversion H|]. split_and!; [intros H; inversion H|intros f H; inversion H|intros n H; inversion H].
    - rewrite fold_left_app. cbn [fold_left]. assert (Hown' : x_own root acts) by (intros f Hf; apply Hown, elem_of_app; auto). specialize (IH Hown').
      set (x := fold_left (x_act info fuel root) acts x_new) in *. clearbody x. destruct x as [h p]. destruct IH as [I1 I2 I3]. cbn [x_hist] in *.
      assert (G : forall b p', (forall n m, b = Spawn (KStart n m) -> m = false) -> (forall f, b = Spawn (KFinish f) -> XFinish f ∈ acts ++ [a] \/ fs_span f = root) ->
                xpc_ok (Collecting (h ++ [b]) p') -> xinv (acts ++ [a]) (Collecting (h ++ [b]) p')).
      { intros b p' Hb1 Hb2 Hp. constructor; cbn [x_hist]; [| |exact Hp].
        - intros n m H. apply in_snoc in H as [H|H]; [eapply I1, H|]. symmetry in H. eapply Hb1, H.
        - intros f H. apply in_snoc in H as [H|H]; [|symmetry in H; apply Hb2, H]. destruct (I2 _ H) as [H'|H']; [left; apply elem_of_app; auto|auto]. }
      assert (G0 : forall p', xpc_ok (Collecting h p') -> xinv (acts ++ [a]) (Collecting h p')).
      { intros p' Hp. constructor; cbn [x_hist]; [exact I1| |exact Hp]. intros f H. destruct (I2 _ H) as [H'|H']; [left; apply elem_of_app; auto|auto]. }
      assert (Grun : forall i p', xpc_ok (Collecting h p') -> xinv (acts ++ [a]) (Collecting (h ++ [Run i]) p')).
      { intros i p' Hp. apply G; [discriminate|discriminate|]. apply xpc_env; [exact Hp|discriminate..]. }
      assert (Hsp : forall j, spans_unbegun info fuel h (length (threads (cexec h)) + j)).
      { intros j th Hth. unfold cl_thread in Hth. apply lookup_lt_Some in Hth. lia. }
      specialize (Hsp 0%nat). rewrite Nat.add_0_r in Hsp.
      destruct a as [n|f|i| | |]; cbn [x_act x_hist x_pc].
      + apply G; [intros n' m E; injection E as _ <-; reflexivity|discriminate|]. apply xpc_env; [exact I3|discriminate..].
      + apply G; [discriminate|intros f' E; injection E as <-; left; apply in_snoc_r|]. apply xpc_env; [exact I3|discriminate|discriminate|].
        intros f' E. injection E as <-. apply Hown, in_snoc_r.
      + apply Grun, I3.
      + destruct p; try (apply G0; exact I3). destruct I3 as (H1 & H2 & H3). apply G; [discriminate|intros f E; injection E as <-; auto|]. cbn.
        split; [apply not_snoc; [exact H1|discriminate]|]. exists h, []. rewrite app_nil_r. split_and!; [reflexivity|reflexivity|exact H3|exact H2|intros f H; inversion H].
      + destruct p; try (apply G0; exact I3). destruct I3 as (H1 & H2 & H3). apply G; [discriminate|intros f E; injection E as <-; auto|]. cbn.
        split; [apply not_snoc; [exact H1|discriminate]|]. exists h, []. rewrite app_nil_r. split_and!; [reflexivity|reflexivity|exact H3|exact H2|intros f H; inversion H].
      + destruct p as [|i| |i p|i|i r|r]; unfold xpc_ok in I3; cbn [x_hist x_pc] in I3.
        * destruct I3 as (H1 & H2 & H3). apply G; [discriminate|discriminate|]. unfold xpc_ok, next_thread. cbn [x_hist x_pc].
          split_and!; [apply not_snoc; [exact H1|discriminate]|apply noroot_snoc; [exact H2|discriminate]| |eexists; apply thread_spawn; right; split; reflexivity].
          intros j n q Hj. apply thread_spawn in Hj as [Hj|[-> _]]; [|reflexivity]. destruct (H3 n). eapply call_spawned, Hj.
        * assert (Hgo : xinv (acts ++ [XGo]) (Collecting (h ++ [Run i]) (X_force i))) by (apply Grun; exact I3).
          destruct (hist_thread info fuel h i) as [[[] []]|] eqn:Et; try exact Hgo. apply G0. destruct I3 as (H1 & H2 & H3 & q & H4).
          unfold hist_thread in Et. unfold cl_thread in H4. rewrite Et in H4. injection H4 as -> <-.
          unfold xpc_ok. cbn [x_hist x_pc]. split_and!; [exact H1|exact H2|]. exists i. right.
          destruct (force_wins i h root (M_done won)) as [E|E]; [| | |exact Et|discriminate E|rewrite E in Et; exact Et]; [|exact H1|exact H3].
          intros n Hn. apply I1 in Hn. discriminate Hn.
        * apply G0. exact I3.
        * assert (Hgo : xinv (acts ++ [XGo]) (Collecting (h ++ [Run i]) (X_finish i p))) by (apply Grun; exact I3).
          destruct (hist_thread info fuel h i) as [[[] []]|] eqn:Et; try exact Hgo. destruct I3 as (H1 & pre & post & Eh & -> & H2 & H3 & H4).
          destruct p.
          { apply G; [discriminate|discriminate|exact I]. }
          apply G; [discriminate|discriminate|]. unfold xpc_ok. cbn [x_hist x_pc]. split; [apply not_snoc; [exact H1|discriminate]|].
          exists h, [Spawn KSpans]. split_and!; [reflexivity| |exact Hsp].
          unfold hist_thread in Et. assert (Hc : cthread h (length (threads (cexec pre))) (KThr (KFinish f) (F_done kept))) by exact Et.
          assert (f = Fin root None false).
          { destruct (call_keep (length (threads (cexec pre))) (pre ++ [Spawn (KFinish (Fin root None false))]) post (KFinish (Fin root None false)) F_load) as [q Hq]; [apply thread_spawn; right; split; reflexivity|].
            rewrite <- Eh in Hq. unfold cl_thread in Hq, Hc. rewrite Hc in Hq. injection Hq as -> _. reflexivity. }
          subst f. rewrite Eh in Hc. assert (Hg : good (F_done kept)).
          { apply (root_finish pre (Fin root None false) post); [exact H2|exact H3|exact H4| | |exact Hc]; intros Hx; apply H1; rewrite Eh; apply elem_of_app; [left; apply elem_of_app; auto|auto]. }
          destruct kept; [|contradiction Hg]. split; [cbn; rewrite Eh, <- app_assoc; apply trigger_stay, H2|]. rewrite <- Eh in Hc. eexists _, _. split; [exact Hc|auto].
        * assert (Hgo : xinv (acts ++ [XGo]) (Collecting (h ++ [Run i]) (X_spans i))) by (apply Grun; exact I3).
          destruct (hist_thread info fuel h i) as [[[] []]|] eqn:Et; try exact Hgo. destruct I3 as (H1 & pre & post & Eh & H2 & H3).
          apply G; [discriminate|discriminate|]. unfold xpc_ok. cbn [x_hist x_pc]. apply answered_by_more. exists i, pre, post. auto.
        * assert (Hgo : xinv (acts ++ [XGo]) (Collecting (h ++ [Run i]) (X_stop i r))) by (apply Grun; exact I3).
          destruct (hist_thread info fuel h i) as [[[] []]|] eqn:Et; try exact Hgo. apply G0. exact I3.
        * apply G0. exact I3.
  Qed.

  Lemma xrun_app acts more : run (acts ++ more) = fold_left (x_act info fuel root) more (run acts).
  Proof. apply fold_left_app. Qed.
  Lemma xhist_app acts more : exists k, x_calls info fuel root (acts ++ more) = x_calls info fuel root acts ++ k.
  Proof.
    unfold x_calls. rewrite xrun_app. generalize (run acts). intros x. revert x. induction more as [|a more IH]; intros x; cbn [fold_left]; [exists []; rewrite app_nil_r; reflexivity|].
    assert (H : exists k, x_hist (x_act info fuel root x a) = x_hist x ++ k).
    { assert (E : exists k, x_hist x = x_hist x ++ k) by (exists []; rewrite app_nil_r; reflexivity).
      destruct a; cbn; eauto; try (destruct (x_pc x); cbn; eauto; fail). destruct (x_pc x); cbn; eauto; destruct (hist_thread _ _ _ _) as [[[] []]|]; cbn; eauto. destruct panicking; cbn; eauto. }
    destruct H as [k Hk], (IH (x_act info fuel root x a)) as [k' Hk']. exists (k ++ k'). rewrite Hk', Hk, app_assoc. reflexivity.
  Qed.
  Lemma during_period acts f : x_own root acts -> during_work info fuel root acts f -> in_period info fuel (x_calls info fuel root acts) root f.
  Proof.
    intros Hown (a1 & a2 & a3 & i & b & -> & W1 & W2 & Ht & Hi & Hj).
    assert (O1 : x_own root a1) by (intros g Hg; apply Hown, elem_of_app; auto).
    assert (O2 : x_own root (a1 ++ a2)) by (intros g Hg; apply Hown; rewrite app_assoc; apply elem_of_app; auto).
    pose proof (U3 _ _ (xinv_run _ O1)) as P1. pose proof (U3 _ _ (xinv_run _ O2)) as P2. unfold xpc_ok in P1, P2. unfold x_working in W1, W2. rewrite W1 in P1. rewrite W2 in P2.
    destruct (xhist_app a1 a2) as [k Hk], (xhist_app (a1 ++ a2) a3) as [k' Hk']. rewrite app_assoc.
    exists (x_calls info fuel root a1), k, k', i, b. rewrite <- Hk. split_and!.
    - rewrite Hk', Hk, app_assoc. reflexivity.
    - apply P1.
    - destruct P2 as (Q1 & Q2 & _). split; [intros j pc Hx; destruct Q1; eapply call_spawned, Hx|]. intros j g pc Hx Eg. destruct (Q2 g); [eapply call_spawned, Hx|exact Eg].
    - exact Ht.
    - exact Hi.
    - exact Hj.
  Qed.
  Lemma collect_result acts a : x_own root acts -> distinct_ids info -> finish_once info fuel (x_calls info fuel root acts) -> deep_enough info fuel (x_calls info fuel root acts) ->
    x_returned info fuel root acts a ->
    exists l, a = Some (Fin root None false :: l) /\ (forall x, x ∈ l -> XFinish x ∈ acts) /\ NoDup (map fs_span (Fin root None false :: l)) /\
      (forall x, x ∈ l -> si_trace (info (fs_span x)) = si_trace (info root)) /\
      (forall x, x ∈ Fin root None false :: l <-> connected info (collected info fuel (x_calls info fuel root acts)) (Fin root None false) x) /\
      (forall x, connected info (during_work info fuel root acts) (Fin root None false) x -> x ∈ Fin root None false :: l).
  Proof.
    intros Hown Hids Hone Hdeep Hret. pose proof (xinv_run acts Hown) as Hinv. pose proof (U3 _ _ Hinv) as Hp. unfold xpc_ok in Hp. unfold x_returned in Hret. rewrite Hret in Hp.
    destruct Hp as (j & pre & post & Eh & H1 & H2 & H3). unfold x_calls in *. set (h := x_hist (run acts)) in *. set (r := Fin root None false) in *.
    destruct (spans_tree info fuel h j a Hids Hone Hdeep H3) as [->|(r' & l & -> & He & Hx & Hn & Ht)].
    - destruct (spans_after info fuel pre post j r (Some []) H1 H2); [rewrite <- Eh; exact H3|reflexivity].
    - assert (r' = r) as ->. { apply Some_inj. rewrite <- (proj2 (root_ended info fuel h r') He). apply root_ended. rewrite Eh. apply ended_stay, H1. }
      exists l. split; [reflexivity|]. split.
      { intros x Hin. assert (Hx' : x ∈ r :: l) by (right; exact Hin). apply Hx in Hx'. inversion Hx' as [E|p f Hp HP Hf]; subst x.
        - exfalso. cbn [map] in Hn. apply NoDup_cons in Hn as [Hn _]. apply Hn. apply elem_of_list_fmap. exists r. auto.
        - destruct HP as (i & e & Hi & He' & Hne). assert (Hsp : Spawn (KFinish f) ∈ h) by (destruct Hi as [Hi|Hi]; eapply call_spawned, Hi).
          destruct (U2 _ _ Hinv _ Hsp) as [H|H]; [exact H|]. exfalso. apply Hne. rewrite H. change root with (fs_span r). eapply trigger_one; [exact (proj1 He)|exact He']. }
      split; [exact Hn|]. split; [intros x Hin; change root with (fs_span r); apply Ht; right; exact Hin|]. split; [exact Hx|].
      intros x Hc. destruct (period_returned info fuel h pre post j root r (Some (r :: l)) x Eh Hids Hone Hdeep H1 eq_refl H2 H3) as (l' & E & Hin).
      { eapply connected_mono; [|exact Hc]. intros f Hf. apply (during_period acts f Hown Hf). }
      assert (l' = l) as -> by congruence. exact Hin.
  Qed.
End collecting.

(** ** FindSpan *)
Section finding.
  Notation fex h := (exec fi_start fi_step (Finder false 0) h).
  Lemma fi_count h : 0 <= fi_closes (shared (fi_exec h)) /\ fi_closes (shared (fi_exec h)) + tally fclosing (threads (fi_exec h)) = b2z (fi_flag (shared (fi_exec h))).
  Proof.
    apply (exec_inv fi_start fi_step (fun s ts => 0 <= fi_closes s /\ fi_closes s + tally fclosing ts = b2z (fi_flag s))).
    - split; [cbn; lia|reflexivity].
    - intros s ts c [H0 H]. split; [exact H0|]. rewrite tally_app, tally_cons. change (tally fclosing []) with 0. assert (fclosing (fi_start c) = false) as -> by (destruct c; reflexivity). cbn. lia.
    - intros s ts i t [H0 H] Hi. rewrite (tally_insert _ _ _ _ _ Hi). destruct t as [c pc]. unfold fi_step. cbn [ft_call ft_pc].
      destruct pc.
      + destruct c as [m|]; [|cbn; split; [exact H0|lia]]. destruct (fi_flag s || negb m); cbn; split; try exact H0; lia.
      + destruct (fi_flag s); cbn in *; split; try exact H0; lia.
      + pose proof (tally_pos fclosing ts i _ Hi eq_refl). destruct (fi_flag s); cbn in *; split; lia.
      + cbn. split; [exact H0|lia].
  Qed.
  Lemma tally_zero {A} (p : A -> bool) l : (forall i x, l !! i = Some x -> p x = false) -> tally p l = 0.
  Proof.
    induction l as [|x l IH]; intros H; [reflexivity|]. rewrite tally_cons, (H 0%nat x eq_refl), IH; [reflexivity|]. intros i y Hi. apply (H (S i) y Hi).
  Qed.
  (** What is known of the threads. *)
  Definition past (pc : fpc) : bool := match pc with Q_close | Q_done => true | _ => false end.
  Definition fth_ok (s : finder) (t : fthread) : Prop :=
    match ft_call t, ft_pc t with
    | FStart m, Q_load => True
    | FStart m, Q_swap => m = true
    | FStart m, Q_close => m = true /\ fi_flag s = true
    | FStart m, Q_done => m = true -> fi_flag s = true
    | FStop, Q_load => False
    | FStop, Q_swap => True
    | FStop, _ => fi_flag s = true
    end.
  Definition finv (s : finder) (ts : list fthread) : Prop :=
    (forall i t, ts !! i = Some t -> fth_ok s t) /\
    (fi_flag s = true -> exists i t, ts !! i = Some t /\ past (ft_pc t) = true /\ (ft_call t = FStart true \/ ft_call t = FStop)).
  Lemma finv_exec h : finv (shared (fi_exec h)) (threads (fi_exec h)).
  Proof.
    apply (exec_inv fi_start fi_step finv).
    - split; [intros i t H; discriminate H|discriminate].
    - intros s ts c [H1 H2]. split.
      + intros i t Hi. apply lookup_app_Some in Hi as [Hi|[Hle Hi]]; [eapply H1, Hi|]. destruct (i - length ts)%nat as [|k]; cbn in Hi; [|destruct k; discriminate Hi]. injection Hi as <-. destruct c; exact I.
      + intros E. destruct (H2 E) as (i & t & Hi & Ht). exists i, t. split; [apply lookup_app_l_Some, Hi|exact Ht].
    - intros s ts i t [H1 H2] Hi. assert (Hlt : (i < length ts)%nat) by (eapply lookup_lt_Some; exact Hi). pose proof (H1 _ _ Hi) as Ht.
      assert (Hflag : fi_flag s = true -> fi_flag (fst (fi_step i s t)) = true).
      { intros E. destruct t as [[m|] []]; cbn; auto. destruct (_ || _); auto. }
      assert (Hmono : forall u, fth_ok s u -> fth_ok (fst (fi_step i s t)) u).
      { intros u Hu. destruct u as [[m|] []]; unfold fth_ok in *; cbn [ft_call ft_pc] in *; try (destruct Hu; split); auto. }
      split.
      + intros j u Hj. apply list_lookup_insert_Some in Hj as [(<- & <- & _)|[_ Hj]]; [|apply Hmono, (H1 _ _ Hj)].
        destruct t as [[m|] []]; unfold fth_ok in *; cbn in *; auto.
        * destruct (fi_flag s) eqn:E; cbn [orb]; [cbn; auto|]. destruct m; cbn; auto; congruence.
        * destruct (fi_flag s); cbn; auto.
        * destruct Ht. auto.
        * destruct (fi_flag s); cbn; auto.
      + intros E. destruct (fi_flag s) eqn:E0.
        * destruct (H2 eq_refl) as (j & u & Hj & Hp & Hc). destruct (decide (j = i)) as [->|Hne].
          -- assert (u = t) by congruence. subst u. exists i, (snd (fi_step i s t)). split; [apply list_lookup_insert, Hlt|]. destruct t as [c []]; try discriminate Hp; cbn; auto.
          -- exists j, u. rewrite list_lookup_insert_ne by congruence. auto.
        * exists i, (snd (fi_step i s t)). split; [apply list_lookup_insert, Hlt|]. destruct t as [c []]; cbn in *.
          -- destruct c; cbn in *; [destruct (_ || _); cbn in *; congruence|congruence].
          -- rewrite E0. cbn. split; [reflexivity|]. destruct c as [m|]; [left; unfold fth_ok in Ht; cbn in Ht; congruence|auto].
          -- congruence.
          -- congruence.
  Qed.
  Lemma fthread_spawn h c i t : fi_thread (h ++ [Spawn c]) i t <-> fi_thread h i t \/ (i = length (threads (fi_exec h)) /\ t = fi_start c).
  Proof.
    unfold fi_thread, fi_exec. rewrite exec_spawn. cbn. split.
    - intros Hi. apply lookup_app_Some in Hi as [Hi|[Hle Hi]]; [auto|]. right. destruct (i - length (threads (fex h)))%nat as [|k] eqn:E; cbn in Hi; [|destruct k; discriminate Hi]. injection Hi as <-. split; [lia|reflexivity].
    - intros [Hi|[-> ->]]; [apply lookup_app_l_Some, Hi|]. rewrite lookup_app_r, Nat.sub_diag by lia. reflexivity.
  Qed.
  Lemma fthread_run h j u i t : fi_thread h j u ->
    fi_thread (h ++ [Run j]) i t <-> (i = j /\ t = snd (fi_step j (shared (fi_exec h)) u)) \/ (i <> j /\ fi_thread h i t).
  Proof.
    unfold fi_thread, fi_exec. intros Hj. rewrite (exec_run _ _ _ _ _ _ Hj). cbn. split.
    - intros Hi. apply list_lookup_insert_Some in Hi as [(-> & <- & _)|[Hne Hi]]; auto.
    - intros [[-> ->]|[Hne Hi]]; [apply list_lookup_insert; eapply lookup_lt_Some; exact Hj|rewrite list_lookup_insert_ne by congruence; exact Hi].
  Qed.
  Lemma frun_none h i : threads (fi_exec h) !! i = None -> fi_exec (h ++ [Run i]) = fi_exec h.
  Proof. unfold fi_exec. intros Hi. apply exec_run_none, Hi. Qed.
  Lemma fi_step_call i s t : ft_call (snd (fi_step i s t)) = ft_call t.
  Proof. destruct t as [[m|] []]; cbn; try reflexivity. destruct (_ || _); reflexivity. Qed.
  Lemma fcall_spawned h i c pc : fi_thread h i (FThr c pc) -> Spawn c ∈ h.
  Proof.
    revert c pc. induction h as [|a h IH] using rev_ind; intros c pc Hi; [discriminate Hi|]. destruct a as [c'|j].
    - apply fthread_spawn in Hi as [Hi|[_ E]]; apply elem_of_app; [left; eapply IH, Hi|right]. apply elem_of_list_singleton. f_equal. destruct c'; unfold fi_start in E; congruence.
    - apply elem_of_app. left. destruct (threads (fi_exec h) !! j) as [u|] eqn:Hu; [|unfold fi_thread in Hi; rewrite frun_none in Hi by exact Hu; eapply IH, Hi].
      destruct (proj1 (fthread_run h j u i _ Hu) Hi) as [[-> E]|[_ Hi']]; [|eapply IH, Hi']. destruct u as [c' q].
      pose proof (fi_step_call j (shared (fi_exec h)) (FThr c' q)) as Ec. rewrite <- E in Ec. cbn in Ec. subst c'. eapply IH, Hu.
  Qed.
  Lemma flag_stay h k : fi_flag (shared (fi_exec h)) = true -> fi_flag (shared (fi_exec (h ++ k))) = true.
  Proof.
    intros E. induction k as [|a k IH] using rev_ind; [rewrite app_nil_r; exact E|]. rewrite app_assoc. unfold fi_exec in *. rewrite exec_snoc. destruct a as [c|j]; cbn; [exact IH|].
    destruct (threads _ !! j) as [t|]; [|exact IH]. cbn. destruct t as [[m|] []]; cbn; auto. destruct (_ || _); auto.
  Qed.
  (** A Start begun after the flag is up does nothing. *)
  Lemma flag_idle h k i m pc : fi_flag (shared (fi_exec h)) = true -> (forall t, ~ fi_thread h i t) -> fi_thread (h ++ k) i (FThr (FStart m) pc) -> pc = Q_load \/ pc = Q_done.
  Proof.
    intros E Hun. revert pc. induction k as [|a k IH] using rev_ind; intros pc Hi; [rewrite app_nil_r in Hi; destruct (Hun _ Hi)|]. rewrite app_assoc in Hi. destruct a as [c|j].
    - apply fthread_spawn in Hi as [Hi|[_ Ei]]; [auto|]. destruct c; try discriminate Ei. injection Ei as _ ->. auto.
    - destruct (threads (fi_exec (h ++ k)) !! j) as [u|] eqn:Hu; [|unfold fi_thread in Hi; rewrite frun_none in Hi by exact Hu; auto].
      destruct (proj1 (fthread_run _ j u i _ Hu) Hi) as [[-> Ei]|[_ Hi']]; [|auto]. destruct u as [c' q].
      pose proof (fi_step_call j (shared (fi_exec (h ++ k))) (FThr c' q)) as Ec. rewrite <- Ei in Ec. cbn in Ec. subst c'.
      destruct (IH _ Hu) as [->| ->]; [|injection Ei as ->; auto]. unfold fi_step in Ei. cbn [ft_pc ft_call] in Ei. rewrite (flag_stay h k E) in Ei. injection Ei as ->. auto.
  Qed.

  Notation run b := (d_run b).
  Definition fstop_left (h : list (action fcall)) (i n : nat) : Prop :=
    (n = 3%nat /\ fi_thread h i (FThr FStop Q_swap)) \/ (n = 2%nat /\ fi_thread h i (FThr FStop Q_close)) \/ (n = 1%nat /\ fi_thread h i (FThr FStop Q_done)).
  Lemma fstop_act h i n b : fstop_left h i n -> exists n', fstop_left (h ++ [b]) i n' /\ (n' <= n)%nat /\ (b = Run i -> (n' <= Nat.max 1 (pred n))%nat).
  Proof.
    intros H. destruct b as [c|j].
    - exists n. split; [|split; [lia|discriminate]]. unfold fstop_left in *. rewrite !fthread_spawn. destruct H as [[? ?]|[[? ?]|[? ?]]]; auto 6.
    - destruct (threads (fi_exec h) !! j) as [u|] eqn:Hj.
      + destruct (decide (j = i)) as [->|Hne].
        * unfold fstop_left in *. assert (Hth := fun th => fthread_run h i u i th Hj).
          destruct H as [[-> H]|[[-> H]|[-> H]]]; unfold fi_thread in H; rewrite Hj in H; injection H as H; subst u; unfold fi_step in Hth; cbn [ft_call ft_pc snd] in Hth.
          -- destruct (fi_flag _); [exists 1%nat|exists 2%nat]; rewrite !Hth; (split; [|lia]); auto 6.
          -- exists 1%nat. rewrite !Hth. split; [|lia]. auto 6.
          -- exists 1%nat. rewrite !Hth. split; [|lia]. auto 6.
        * exists n. split; [|split; [lia|intros E; congruence]]. unfold fstop_left in *. rewrite !(fthread_run _ _ _ _ _ Hj).
          destruct H as [[? ?]|[[? ?]|[? ?]]]; auto 8.
      + exists n. split; [|split; [lia|]].
        * unfold fstop_left, fi_thread in *. rewrite frun_none by exact Hj. exact H.
        * intros E. injection E as ->. exfalso. unfold fstop_left, fi_thread in H. destruct H as [[? H]|[[? H]|[? H]]]; congruence.
  Qed.

  Definition found (h : list (action fcall)) : Prop := exists i pc, fi_thread h i (FThr (FStart true) pc) /\ pc <> Q_load.
  Lemma found_more h k : found h -> found (h ++ k).
  Proof.
    intros H. induction k as [|a k IH] using rev_ind; [rewrite app_nil_r; exact H|]. rewrite app_assoc. destruct IH as (i & pc & Hi & Hp). destruct a as [c|j].
    - exists i, pc. split; [apply fthread_spawn; auto|exact Hp].
    - destruct (threads (fi_exec (h ++ k)) !! j) as [u|] eqn:Hu; [|exists i, pc; unfold fi_thread; rewrite frun_none by exact Hu; auto].
      destruct (decide (j = i)) as [->|Hne]; [|exists i, pc; split; [apply (fthread_run _ _ _ _ _ Hu); auto|exact Hp]].
      unfold fi_thread in Hi. rewrite Hu in Hi. injection Hi as ->. assert (Hth := fun th => proj2 (fthread_run _ i _ i th Hu)).
      unfold fi_step in Hth. cbn [ft_call ft_pc snd] in Hth. destruct pc; [congruence| | |]; (eexists i, _; split; [apply Hth; left; split; reflexivity|]); [destruct (fi_flag _)| |]; discriminate.
  Qed.
  Definition dinv (acts : list dact) (d : finding) : Prop :=
    (d_ctx d = true <-> DCtx ∈ acts) /\
    match d_pc d with
    | D_select => Spawn FStop ∉ d_hist d
    | D_cancel => d_ctx d = true \/ found (d_hist d)
    | D_stop i => (d_ctx d = true \/ found (d_hist d)) /\ exists n, fstop_left (d_hist d) i n
    | D_done => (d_ctx d = true \/ found (d_hist d)) /\ fi_flag (shared (fi_exec (d_hist d))) = true
    end.
  Lemma dinv_run acts : dinv acts (run false acts).
  Proof.
    unfold d_run. induction acts as [|a acts IH] using rev_ind; [split; [split; [discriminate|intros H; inversion H]|intros H; inversion H]|].
    rewrite fold_left_app. cbn [fold_left]. set (d := fold_left d_act acts (d_new false)) in *. clearbody d. destruct d as [h x p]. destruct IH as [I1 I2]. cbn [d_ctx d_hist d_pc] in *.
    assert (Hctx : a <> DCtx -> x = true <-> DCtx ∈ acts ++ [a]).
    { intros Ha. rewrite I1. split; [intros H; apply elem_of_app; auto|]. intros H. apply in_snoc in H as [H|H]; [exact H|congruence]. }
    assert (Henv : forall b, b <> Spawn FStop -> a <> DCtx -> dinv (acts ++ [a]) (Finding (h ++ [b]) x p)).
    { intros b Hb Ha. split; [cbn; auto|]. cbn [d_pc d_hist d_ctx]. assert (Hf : x = true \/ found h -> x = true \/ found (h ++ [b])) by (intros [?|?]; auto using found_more).
      destruct p.
      - apply not_snoc; congruence.
      - auto.
      - destruct I2 as [H1 [n H2]]. split; [auto|]. destruct (fstop_act _ _ _ b H2) as (n' & H & _). eauto.
      - destruct I2 as [H1 H2]. split; [auto|]. apply flag_stay, H2. }
    destruct a as [m|i| |]; cbn [d_act d_hist d_ctx d_pc].
    - apply Henv; discriminate.
    - apply Henv; discriminate.
    - split; [cbn; split; [intros _; apply in_snoc_r|reflexivity]|]. cbn [d_pc d_hist d_ctx]. destruct p; auto; [destruct I2 as [_ I2]|destruct I2 as [_ I2]]; auto.
    - assert (Hc : DGo <> DCtx) by discriminate. specialize (Hctx Hc). destruct p.
      + destruct ((0 <? fi_closes (shared (fi_exec h))) || x) eqn:E; [|split; [cbn; exact Hctx|exact I2]].
        split; [cbn; exact Hctx|]. cbn [d_pc d_hist d_ctx]. destruct x; [auto|]. rewrite orb_false_r in E. apply Z.ltb_lt in E. right.
        destruct (fi_count h) as [_ Hn]. pose proof (tally_nonneg fclosing (threads (fi_exec h))). destruct (fi_flag (shared (fi_exec h))) eqn:Ef; cbn [b2z] in Hn; [|lia].
        destruct (proj2 (finv_exec h) Ef) as (i & [c pc] & Hi & Hp & [Hcall|Hcall]); cbn in Hp, Hcall; subst c.
        * exists i, pc. split; [exact Hi|]. intros ->. discriminate Hp.
        * destruct I2. eapply fcall_spawned, Hi.
      + split; [cbn; exact Hctx|]. cbn [d_pc d_hist d_ctx]. split; [destruct I2; auto using found_more|]. exists 3%nat. left. split; [reflexivity|]. apply fthread_spawn. right. split; reflexivity.
      + destruct I2 as [H1 [n H2]].
        assert (Hgo : dinv (acts ++ [DGo]) (Finding (h ++ [Run i]) x (D_stop i))).
        { split; [cbn; exact Hctx|]. cbn [d_pc d_hist d_ctx]. split; [destruct H1; auto using found_more|]. destruct (fstop_act _ _ _ (Run i) H2) as (n' & H & _). eauto. }
        destruct (threads (fi_exec h) !! i) as [[[m|] []]|] eqn:Et; try exact Hgo. split; [cbn; exact Hctx|]. cbn [d_pc d_hist d_ctx]. split; [exact H1|].
        exact (proj1 (finv_exec h) _ _ Et).
      + split; [cbn; exact Hctx|exact I2].
  Qed.
  Lemma find_why acts : d_returned false acts -> DCtx ∈ acts \/ exists i pc, d_thread false acts i (FThr (FStart true) pc) /\ pc <> Q_load.
  Proof.
    intros H. destruct (dinv_run acts) as [I1 I2]. unfold d_returned in H. rewrite H in I2. destruct I2 as [[E|E] _]; [left; apply I1, E|right; exact E].
  Qed.
  Lemma find_started acts m : Spawn (FStart m) ∈ d_hist (run false acts) -> DStart m ∈ acts.
  Proof.
    unfold d_run. induction acts as [|a acts IH] using rev_ind; [intros H; inversion H|]. rewrite fold_left_app. cbn [fold_left]. set (d := fold_left d_act acts (d_new false)) in *. clearbody d.
    intros H. apply elem_of_app. assert (Hs : forall b, Spawn (FStart m) ∈ d_hist d ++ [b] -> b <> Spawn (FStart m) -> DStart m ∈ acts).
    { intros b Hb Hn. apply in_snoc in Hb as [Hb|Hb]; [apply IH, Hb|congruence]. }
    destruct a as [m'|i| |]; cbn [d_act d_hist] in H.
    - apply in_snoc in H as [H|H]; [left; apply IH, H|right]. injection H as ->. apply elem_of_list_singleton. reflexivity.
    - left. apply (Hs _ H). discriminate.
    - left. apply IH, H.
    - left. destruct (d_pc d); cbn [d_hist] in H.
      + destruct (_ || _) in H; apply IH, H.
      + apply (Hs _ H). discriminate.
      + destruct (threads (fi_exec (d_hist d)) !! i) as [[[m'|] []]|]; cbn [d_hist] in H; first [apply (Hs _ H); discriminate|apply IH, H].
      + apply IH, H.
  Qed.
  Lemma find_why' acts : d_returned false acts -> DCtx ∈ acts \/ DStart true ∈ acts /\ exists i pc, d_thread false acts i (FThr (FStart true) pc) /\ pc <> Q_load.
  Proof.
    intros H. destruct (find_why acts H) as [Hc|(i & pc & Hi & Hp)]; [auto|]. right. split; [|eauto]. apply find_started. eapply fcall_spawned, Hi.
  Qed.
  Lemma drun_app b acts more : run b (acts ++ more) = fold_left d_act more (run b acts).
  Proof. apply fold_left_app. Qed.
  Lemma dhist_app b acts more : exists k, d_hist (run b (acts ++ more)) = d_hist (run b acts) ++ k.
  Proof.
    rewrite drun_app. generalize (run b acts). intros x. revert x. induction more as [|a more IH]; intros x; cbn [fold_left]; [exists []; rewrite app_nil_r; reflexivity|].
    assert (H : exists k, d_hist (d_act x a) = d_hist x ++ k).
    { assert (E : exists k, d_hist x = d_hist x ++ k) by (exists []; rewrite app_nil_r; reflexivity).
      destruct a; cbn; eauto. destruct (d_pc x); cbn; eauto; [destruct (_ || _); cbn; eauto|]. destruct (_ !! _) as [[[m|] []]|]; cbn; eauto. }
    destruct H as [k Hk], (IH (d_act x a)) as [k' Hk']. exists (k ++ k'). rewrite Hk', Hk, app_assoc. reflexivity.
  Qed.
  Lemma find_idle acts more i m pc : d_returned false acts -> (forall t, ~ d_thread false acts i t) -> d_thread false (acts ++ more) i (FThr (FStart m) pc) -> pc = Q_load \/ pc = Q_done.
  Proof.
    intros H Hun Hi. destruct (dinv_run acts) as [_ I2]. unfold d_returned in H. rewrite H in I2. destruct I2 as [_ Hf]. unfold d_thread in *.
    destruct (dhist_app false acts more) as [k Hk]. rewrite Hk in Hi. eapply flag_idle; eassumption.
  Qed.

  Definition dleft (d : finding) (n : nat) : Prop :=
    match d_pc d with
    | D_select => n = 5%nat /\ ((0 <? fi_closes (shared (fi_exec (d_hist d)))) || d_ctx d) = true
    | D_cancel => n = 4%nat
    | D_stop i => fstop_left (d_hist d) i n
    | D_done => n = 0%nat
    end.
  Lemma closes_stay h b : 0 < fi_closes (shared (fi_exec h)) -> 0 < fi_closes (shared (fi_exec (h ++ [b]))).
  Proof.
    intros H. unfold fi_exec in *. rewrite exec_snoc. destruct b as [c|j]; cbn; [exact H|]. destruct (threads _ !! j) as [t|]; [|exact H]. cbn. destruct t as [[m|] []]; cbn; try exact H; try lia.
    destruct (_ || _); exact H.
  Qed.
  Lemma dleft_step d a n : dleft d n -> exists n', dleft (d_act d a) n' /\ (n' <= match a with DGo => pred n | _ => n end)%nat.
  Proof.
    destruct d as [h x p]. unfold dleft. cbn [d_pc d_hist d_ctx]. intros H.
    assert (Henv : forall b, exists n', match p with D_select => n' = 5%nat /\ ((0 <? fi_closes (shared (fi_exec (h ++ [b])))) || x) = true | D_cancel => n' = 4%nat
        | D_stop i => fstop_left (h ++ [b]) i n' | D_done => n' = 0%nat end /\ (n' <= n)%nat).
    { intros b. destruct p.
      - destruct H as [-> H]. exists 5%nat. split; [|lia]. split; [reflexivity|]. destruct x; [apply orb_true_r|]. rewrite orb_false_r in *. apply Z.ltb_lt in H. apply Z.ltb_lt, closes_stay, H.
      - exists 4%nat. split; [reflexivity|lia].
      - destruct (fstop_act _ _ _ b H) as (n' & Hn & Hle & _). exists n'. auto.
      - exists 0%nat. split; [reflexivity|lia]. }
    destruct a as [m|i| |]; cbn [d_act d_pc d_hist d_ctx].
    - apply Henv.
    - apply Henv.
    - exists n. split; [|lia]. destruct p; auto. destruct H as [-> H]. split; [reflexivity|]. apply orb_true_r.
    - destruct p.
      + destruct H as [-> ->]. exists 4%nat. cbn. split; [reflexivity|lia].
      + subst n. exists 3%nat. cbn [d_pc d_hist]. split; [|lia]. left. split; [reflexivity|]. apply fthread_spawn. right. split; reflexivity.
      + assert (Hgo : (n = 1%nat -> False) -> exists n', fstop_left (h ++ [Run i]) i n' /\ (n' <= pred n)%nat).
        { intros Hn. destruct (fstop_act _ _ _ (Run i) H) as (n' & Hn' & _ & Hle). exists n'. split; [exact Hn'|]. specialize (Hle eq_refl).
          destruct H as [[-> _]|[[-> _]|[-> _]]]; [lia|lia|destruct (Hn eq_refl)]. }
        destruct H as [[-> H]|[[-> H]|[-> H]]]; unfold fi_thread in H; rewrite H; cbn [d_pc d_hist].
        * apply Hgo. discriminate.
        * apply Hgo. discriminate.
        * exists 0%nat. auto.
      + subst n. exists 0%nat. cbn. auto.
  Qed.
  Lemma dleft_run d more n : dleft d n -> exists n', dleft (fold_left d_act more d) n' /\ (n' <= n - d_steps more)%nat.
  Proof.
    revert d n. induction more as [|a more IH]; intros d n H; cbn [fold_left]; [exists n; split; [exact H|cbn; lia]|].
    destruct (dleft_step d a n H) as (n1 & H1 & L1). destruct (IH _ _ H1) as (n2 & H2 & L2). exists n2. split; [exact H2|].
    unfold d_steps in *. destruct a; cbn in *; lia.
  Qed.
  Lemma find_returns acts more : d_waiting false acts ->
    DCtx ∈ acts \/ ((exists i, d_thread false acts i (FThr (FStart true) Q_done)) /\ forall i t, d_thread false acts i t -> ft_pc t <> Q_close) ->
    (5 <= d_steps more)%nat -> d_returned false (acts ++ more).
  Proof.
    intros Hw Hc Hs. unfold d_returned. rewrite drun_app. unfold d_waiting in Hw.
    assert (H : dleft (run false acts) 5).
    { unfold dleft. rewrite Hw. split; [reflexivity|]. destruct Hc as [Hc|[[i Hi] Hn]].
      - apply (proj1 (dinv_run acts)) in Hc. rewrite Hc. apply orb_true_r.
      - assert (Hf : fi_flag (shared (fi_exec (d_hist (run false acts)))) = true) by (exact (proj1 (finv_exec _) _ _ Hi eq_refl)).
        destruct (fi_count (d_hist (run false acts))) as [_ H]. rewrite Hf, tally_zero in H; [cbn in H; rewrite (proj2 (Z.ltb_lt 0 _)); [reflexivity|lia]|].
        intros j t Hj. unfold fclosing. specialize (Hn j t Hj). destruct (ft_pc t); congruence. }
    destruct (dleft_run _ more _ H) as (n & Hl & Hle). assert (n = 0%nat) as -> by lia. unfold dleft in Hl.
    destruct (fold_left d_act more (run false acts)) as [h x p]. cbn [d_pc d_hist d_ctx] in *. destruct p.
    - destruct Hl. discriminate.
    - discriminate Hl.
    - destruct Hl as [[? _]|[[? _]|[? _]]]; discriminate.
    - reflexivity.
  Qed.
End finding.

(** If work panics CollectSpans returns no list. *)
Section panicking.
  Context (info : nat -> sinfo) (fuel : nat) (root : nat).
  Definition panicked_pc (p : xpc) : bool := match p with X_finish _ true | X_stop _ None | X_done None => true | _ => false end.
  Lemma panic_act x a : panicked_pc (x_pc x) = true -> panicked_pc (x_pc (x_act info fuel root x a)) = true.
  Proof.
    destruct x as [h p]. intros H. cbn [x_pc] in H. destruct a; cbn [x_act x_pc x_hist]; try exact H; destruct p as [| | |i [|]| |i [r|]|[r|]]; try discriminate H; try exact H; cbn [x_pc].
    - destruct (hist_thread info fuel h i) as [[[] []]|]; reflexivity.
    - destruct (hist_thread info fuel h i) as [[[] []]|]; reflexivity.
  Qed.
  Lemma panic_none acts more a : x_working info fuel root acts -> ~ x_returned info fuel root (acts ++ XPanic :: more) a.
  Proof.
    unfold x_working, x_returned, x_run. rewrite fold_left_app. cbn [fold_left]. set (x := fold_left _ acts x_new). clearbody x. intros Hw.
    assert (H : panicked_pc (x_pc (x_act info fuel root x XPanic)) = true) by (unfold x_act; rewrite Hw; reflexivity).
    revert H. generalize (x_act info fuel root x XPanic). clear. induction more as [|a' more IH]; intros x H E; cbn [fold_left] in E; [rewrite E in H; discriminate H|].
    eapply IH, E. apply panic_act, H.
  Qed.
End panicking.
