(** Proofs of C70-C72. *)
From Verif Require Import Base Conc ScopeSpec CollectModel CollectSpec CollectorProofs WatchModel WatchSpec.
Local Open Scope Z_scope.

Section hist.
  Context (info : nat -> sinfo) (fuel : nat).
  Notation cexec := (cl_exec info fuel).
  Notation cthread := (cl_thread info fuel).

  Lemma hist_ind (Q : list (action kcall) -> Prop) :
    Q [] ->
    (forall h c, Q h -> Q (h ++ [Spawn c])) ->
    (forall h i th, Q h -> threads (cexec h) !! i = Some th -> Q (h ++ [Run i])) ->
    (forall h i, Q h -> threads (cexec h) !! i = None -> Q (h ++ [Run i])) ->
    forall h, Q h.
  Proof. intros H0 Hs Hr Hn h. apply (cl_ind info fuel Q [] H0 (fun p => Hs p) (fun p => Hr p) (fun p => Hn p) h). Qed.
  Lemma thread_spawn h c i th : cthread (h ++ [Spawn c]) i th <-> cthread h i th \/ (i = length (threads (cexec h)) /\ th = cl_start c).
  Proof.
    unfold cl_thread, cl_exec. rewrite exec_spawn. cbn. split; [apply (kt_lookup_snoc info)|].
    intros [Hi|[-> ->]]; [apply lookup_app_l_Some, Hi|]. rewrite lookup_app_r, Nat.sub_diag by lia. reflexivity.
  Qed.
  Lemma thread_run h j u i th : cthread h j u ->
    cthread (h ++ [Run j]) i th <-> (i = j /\ th = snd (cl_step info fuel j (shared (cexec h)) u)) \/ (i <> j /\ cthread h i th).
  Proof.
    unfold cl_thread, cl_exec. intros Hj. rewrite (exec_run _ _ _ _ _ _ Hj). cbn. split.
    - intros Hi. apply list_lookup_insert_Some in Hi as [(-> & <- & _)|[Hne Hi]]; auto.
    - intros [[-> ->]|[Hne Hi]]; [apply list_lookup_insert; eapply lookup_lt_Some; exact Hj|rewrite list_lookup_insert_ne by congruence; exact Hi].
  Qed.
  Lemma shared_spawn h c : shared (cexec (h ++ [Spawn c])) = shared (cexec h).
  Proof. unfold cl_exec. rewrite exec_spawn. reflexivity. Qed.
  Lemma shared_run h i th : cthread h i th -> shared (cexec (h ++ [Run i])) = fst (cl_step info fuel i (shared (cexec h)) th).
  Proof. unfold cl_thread, cl_exec. intros Hi. rewrite (exec_run _ _ _ _ _ _ Hi). reflexivity. Qed.
  Lemma run_none h i : threads (cexec h) !! i = None -> cexec (h ++ [Run i]) = cexec h.
  Proof. unfold cl_exec. intros Hi. apply exec_run_none, Hi. Qed.

  (** Every thread is a call that was made. *)
  Lemma call_spawned h i c pc : cthread h i (KThr c pc) -> Spawn c ∈ h.
  Proof.
    revert h i c pc. apply (hist_ind (fun h => forall i c pc, cthread h i (KThr c pc) -> Spawn c ∈ h)).
    - intros i c pc Hi. discriminate Hi.
    - intros h c IH i c' pc Hi. apply thread_spawn in Hi as [Hi|[_ E]]; [apply elem_of_app; left; eapply IH, Hi|].
      apply elem_of_app. right. apply elem_of_list_singleton. f_equal. destruct c; unfold cl_start in E; congruence.
    - intros h j u IH Hj i c pc Hi. apply elem_of_app. left. apply (thread_run _ _ _ _ _ Hj) in Hi as [[-> E]|[_ Hi]]; [|eapply IH, Hi].
      destruct u as [c' pc']. pose proof (cl_step_call info fuel j (shared (cexec h)) (KThr c' pc')) as Ec. rewrite <- E in Ec. cbn in Ec. subst c'. eapply IH, Hj.
    - intros h j IH Hj i c pc Hi. apply elem_of_app. left. unfold cl_thread in Hi. rewrite run_none in Hi by exact Hj. eapply IH, Hi.
  Qed.
  Lemma spawned_call h c : Spawn c ∈ h -> exists i pc, cthread h i (KThr c pc).
  Proof.
    revert h. apply (hist_ind (fun h => Spawn c ∈ h -> exists i pc, cthread h i (KThr c pc))).
    - intros H. inversion H.
    - intros h c' IH H. apply elem_of_app in H as [H|H].
      + destruct (IH H) as (i & pc & Hi). exists i, pc. apply thread_spawn. auto.
      + apply elem_of_list_singleton in H. injection H as <-. eexists _, _. apply thread_spawn. right. split; reflexivity.
    - intros h j u IH Hj H. apply elem_of_app in H as [H|H]; [|apply elem_of_list_singleton in H; discriminate H]. destruct (IH H) as (i & pc & Hi).
      destruct (decide (i = j)) as [->|Hne].
      + pose proof (cl_step_call info fuel j (shared (cexec h)) u) as Ec. assert (u = KThr c pc) as -> by (unfold cl_thread in *; congruence). cbn [kt_call] in Ec.
        pose proof (fun th => proj2 (thread_run h j (KThr c pc) j th Hj)) as Hth. destruct (snd (cl_step info fuel j (shared (cexec h)) (KThr c pc))) as [c' pc'].
        cbn in Ec. subst c'. exists j, pc'. apply Hth. auto.
      + exists i, pc. apply (thread_run _ _ _ _ _ Hj). auto.
    - intros h j IH Hj H. apply elem_of_app in H as [H|H]; [|apply elem_of_list_singleton in H; discriminate H]. destruct (IH H) as (i & pc & Hi). exists i, pc. unfold cl_thread. rewrite run_none by exact Hj. exact Hi.
  Qed.
  (** Only a matching span triggers. *)
  Lemma won_matched h i n m pc : cthread h i (KThr (KStart n m) pc) -> pc = M_cas \/ pc = M_done true -> m = true.
  Proof.
    revert h i n m pc. apply (hist_ind (fun h => forall i n m pc, cthread h i (KThr (KStart n m) pc) -> pc = M_cas \/ pc = M_done true -> m = true)).
    - intros i n m pc Hi. discriminate Hi.
    - intros h c IH i n m pc Hi Hp. apply thread_spawn in Hi as [Hi|[_ E]]; [eapply IH; eassumption|]. destruct c; try discriminate E. injection E as -> -> ->. destruct Hp; discriminate.
    - intros h j u IH Hj i n m pc Hi Hp. apply (thread_run _ _ _ _ _ Hj) in Hi as [[-> E]|[_ Hi]]; [|eapply IH; eassumption].
      destruct u as [c pc']. pose proof (cl_step_call info fuel j (shared (cexec h)) (KThr c pc')) as Ec. rewrite <- E in Ec. cbn in Ec. subst c.
      unfold cl_step in E. cbn [kt_call kt_pc] in E. destruct pc'; cbn [snd] in E.
      all: try (injection E as ->; destruct Hp; discriminate).
      + destruct m; [reflexivity|]. rewrite orb_true_r in E. injection E as ->. destruct Hp; discriminate.
      + eapply IH; [exact Hj|auto].
      + injection E as ->. eapply IH; [exact Hj|exact Hp].
    - intros h j IH Hj i n m pc Hi. unfold cl_thread in Hi. rewrite run_none in Hi by exact Hj. eapply IH, Hi.
  Qed.

  (** Once stopped, stopped. *)
  Lemma done_step i s th : cl_check s = CDone -> cl_check (fst (cl_step info fuel i s th)) = CDone.
  Proof.
    intros E. destruct th as [c pc]. unfold cl_step. cbn [kt_call kt_pc]. destruct c; destruct pc; cbn; try exact E; try reflexivity;
      try (destruct (_ || _); exact E); try (destruct (cl_mtx s); exact E); try (destruct (cl_root s); exact E); try (destruct (Nat.eqb _ _); exact E); rewrite E; try exact E; reflexivity.
  Qed.
  Lemma done_stay h post : cl_check (shared (cexec h)) = CDone -> cl_check (shared (cexec (h ++ post))) = CDone.
  Proof.
    intros E. revert post. apply (cl_ind info fuel (fun h => cl_check (shared (cexec h)) = CDone)); [exact E| | |].
    - intros post c IH. rewrite shared_spawn. exact IH.
    - intros post i th IH Hi. rewrite (shared_run _ _ _ Hi). apply done_step, IH.
    - intros post i IH Hi. rewrite run_none by exact Hi. exact IH.
  Qed.
  Lemma stop_done h i pc : cthread h i (KThr KStop pc) -> pc = P_close \/ pc = P_done -> cl_check (shared (cexec h)) = CDone.
  Proof.
    revert h i pc. apply (hist_ind (fun h => forall i pc, cthread h i (KThr KStop pc) -> pc = P_close \/ pc = P_done -> cl_check (shared (cexec h)) = CDone)).
    - intros i pc Hi. discriminate Hi.
    - intros h c IH i pc Hi Hp. rewrite shared_spawn. apply thread_spawn in Hi as [Hi|[_ E]]; [eapply IH; eassumption|]. destruct c; try discriminate E. injection E as ->. destruct Hp; discriminate.
    - intros h j u IH Hj i pc Hi Hp. rewrite (shared_run _ _ _ Hj). apply (thread_run _ _ _ _ _ Hj) in Hi as [[-> E]|[_ Hi]]; [|apply done_step; eapply IH; eassumption].
      destruct u as [c pc']. pose proof (cl_step_call info fuel j (shared (cexec h)) (KThr c pc')) as Ec. rewrite <- E in Ec. cbn in Ec. subst c.
      destruct pc'; try (injection E as ->; destruct Hp; discriminate); [reflexivity| |]; apply done_step; eapply IH; [exact Hj|auto|exact Hj|auto].
    - intros h j IH Hj i pc Hi. unfold cl_thread in Hi. rewrite run_none in * by exact Hj. eapply IH, Hi.
  Qed.
  Definition idle (th : kthread) : Prop :=
    match kt_call th with
    | KStart _ _ => kt_pc th = M_load \/ kt_pc th = M_done false
    | KFinish _ => kt_pc th = F_load \/ kt_pc th = F_done false
    | _ => True
    end.
  Lemma done_idle h post i th : cl_check (shared (cexec h)) = CDone -> (forall u, ~ cthread h i u) -> cthread (h ++ post) i th -> idle th.
  Proof.
    intros E Hun. revert th. apply (cl_ind info fuel (fun k => forall th, cthread k i th -> idle th)).
    - intros th Hi. destruct (Hun _ Hi).
    - intros p c IH th Hi. apply thread_spawn in Hi as [Hi|[_ ->]]; [apply IH, Hi|]. destruct c; cbn; auto.
    - intros p j u IH Hj th Hi. apply (thread_run _ _ _ _ _ Hj) in Hi as [[-> ->]|[_ Hi]]; [|apply IH, Hi]. specialize (IH _ Hj).
      pose proof (done_stay h p E) as Ed. destruct u as [c pc]. unfold idle in *. rewrite cl_step_call. cbn [kt_call kt_pc] in *.
      destruct c; try exact I; destruct IH as [-> | ->]; cbn; rewrite ?Ed; cbn; auto.
    - intros p j IH Hj th Hi. unfold cl_thread in Hi. rewrite run_none in Hi by exact Hj. apply IH, Hi.
  Qed.

  (** The done channel closed although nobody called Stop: the end was recorded. *)
  Lemma closed_ended h : (Spawn KStop ∉ h) -> is_closed info fuel h = true -> exists r, ended info fuel h r.
  Proof.
    intros Hns Hc. unfold is_closed in Hc. apply Z.ltb_lt in Hc. pose proof (kinv_exec info fuel h) as H. pose proof (K1 _ _ _ _ H) as H1.
    pose proof (tally_nonneg closing (threads (cexec h))). destruct (chk_eqb (cl_check (shared (cexec h))) CDone) eqn:E; cbn [b2z] in H1; [|lia].
    destruct (cl_check (shared (cexec h))) eqn:E'; try discriminate E. destruct (k8_exec info fuel h E') as (i & [c pc] & Hi & [He|[r Hr]]).
    - destruct c; try discriminate He. destruct Hns. eapply call_spawned, Hi.
    - exists r. apply root_ended, Hr.
  Qed.
End hist.

(** ** WatchForSpans *)
Section watch.
  Context (info : nat -> sinfo) (fuel : nat).
  Notation cthread := (cl_thread info fuel).
  Notation run := (w_run info fuel).

  (** The answer of Spans, asked for after the end was recorded. *)
  Definition answered (h : list (action kcall)) (l : option (list fin)) : Prop :=
    exists j pre post r, h = pre ++ post /\ ended info fuel pre r /\ spans_unbegun info fuel pre j /\ spans_answer info fuel h j l.
  Lemma answered_more h k l : answered h l -> answered (h ++ k) l.
  Proof.
    intros (j & pre & post & r & -> & H1 & H2 & H3). exists j, pre, (post ++ k), r. rewrite app_assoc. split_and!; [reflexivity|exact H1|exact H2|].
    apply (settled_stay info fuel _ _ _ _ H3). reflexivity.
  Qed.
  Definition res_ok (w : watch) (r : wres) : Prop := match r with WErr => w_ctx w = true | WSpans l => answered (w_hist w) l end.
  Definition pc_ok (w : watch) : Prop :=
    match w_pc w with
    | W_select => Spawn KStop ∉ w_hist w
    | W_spans i => Spawn KStop ∉ w_hist w /\ exists pre post r, w_hist w = pre ++ post /\ ended info fuel pre r /\ spans_unbegun info fuel pre i
    | W_cancel r => Spawn KStop ∉ w_hist w /\ res_ok w r
    | W_stop i r => res_ok w r /\ exists pc, cthread (w_hist w) i (KThr KStop pc)
    | W_done r => res_ok w r /\ cl_check (shared (cl_exec info fuel (w_hist w))) = CDone
    end.
  Record winv (acts : list wact) (w : watch) : Prop := {
    V1 : forall n m, Spawn (KStart n m) ∈ w_hist w -> WStart n m ∈ acts;
    V2 : forall f, Spawn (KFinish f) ∈ w_hist w -> WFinish f ∈ acts;
    V3 : forall n, Spawn (KForce n) ∉ w_hist w;
    V4 : w_ctx w = true <-> WCtx ∈ acts;
    V5 : pc_ok w
  }.
  Lemma res_more w k c r : res_ok w r -> (w_ctx w = true -> c = true) -> forall p, res_ok (Watch (w_hist w ++ k) c p) r.
  Proof. intros H Hc p. destruct r; cbn in *; [auto|apply answered_more, H]. Qed.
  Lemma kstop_keep i h k pc : cthread h i (KThr KStop pc) -> exists pc', cthread (h ++ k) i (KThr KStop pc').
  Proof.
    intros H. revert k. apply (cl_ind info fuel (fun h => exists pc', cthread h i (KThr KStop pc'))).
    - eauto.
    - intros p c (pc' & Hi). exists pc'. apply thread_spawn. auto.
    - intros p j u (pc' & Hi) Hj. destruct (decide (j = i)) as [->|Hne].
      + pose proof (fun th => proj2 (thread_run info fuel (h ++ p) i u i th Hj)) as Hth. pose proof (cl_step_call info fuel i (shared (cl_exec info fuel (h ++ p))) u) as Ec.
        assert (u = KThr KStop pc') as -> by (unfold cl_thread in *; congruence). destruct (snd (cl_step _ _ _ _ _)) as [c q]. cbn in Ec. subst c. exists q. apply Hth. auto.
      + exists pc'. apply (thread_run _ _ _ _ _ _ _ Hj). auto.
    - intros p j (pc' & Hi) Hj. exists pc'. unfold cl_thread. rewrite run_none by exact Hj. exact Hi.
  Qed.
  (** The environment's steps. *)
  Lemma pc_more w k c : pc_ok w -> Spawn KStop ∉ k -> (w_ctx w = true -> c = true) -> pc_ok (Watch (w_hist w ++ k) c (w_pc w)).
  Proof.
    unfold pc_ok. cbn [w_pc w_hist]. intros H Hk Hc.
    assert (Hn : Spawn KStop ∉ w_hist w -> Spawn KStop ∉ w_hist w ++ k) by (intros Hw Hin; apply elem_of_app in Hin as [?|?]; auto).
    destruct (w_pc w).
    - auto.
    - destruct H as (H & pre & post & r & Eh & H1 & H2). split; [auto|]. exists pre, (post ++ k), r. rewrite app_assoc, <- Eh. auto.
    - destruct H as [H1 H2]. split; [auto|]. apply res_more; assumption.
    - destruct H as [H1 (pc & H2)]. split; [apply res_more; assumption|]. eapply kstop_keep, H2.
    - destruct H as [H1 H2]. split; [apply res_more; assumption|]. apply done_stay, H2.
  Qed.
  Lemma notin_one {A} (x y : A) : x <> y -> x ∉ [y].
  Proof. intros H Hin. apply elem_of_list_singleton in Hin. contradiction. Qed.
  Lemma in_snoc {A} (x : A) l y : x ∈ l ++ [y] -> x ∈ l \/ x = y.
  Proof. intros H. apply elem_of_app in H as [H|H]; [auto|]. apply elem_of_list_singleton in H. auto. Qed.
  Lemma in_snoc_l {A} (x : A) l y : x ∈ l -> x ∈ l ++ [y].
  Proof. intros H. apply elem_of_app. auto. Qed.
  Lemma in_snoc_r {A} (x : A) l : x ∈ l ++ [x].
  Proof. apply elem_of_app. right. apply elem_of_list_singleton. reflexivity. Qed.
  Hint Resolve in_snoc_l in_snoc_r : core.

  Lemma winv_run acts : winv acts (run acts).
  Proof.
    unfold w_run. induction acts as [|a acts IH] using rev_ind.
    - constructor; cbn; try (intros; intros Hx; inversion Hx); try (intros; match goal with H : _ ∈ [] |- _ => inversion H end).
      + split; [discriminate|intros H; inversion H].
    - rewrite fold_left_app. cbn [fold_left]. set (w := fold_left (w_act info fuel) acts w_new) in *. clearbody w. destruct IH as [I1 I2 I3 I4 I5].
      assert (I4' : a <> WCtx -> w_ctx w = true <-> WCtx ∈ acts ++ [a]).
      { intros Ha. rewrite I4. split; [auto|]. intros H. apply in_snoc in H as [H|H]; [exact H|congruence]. }
      assert (G : forall k p, (forall c, c ∈ k -> c = Spawn KSpans \/ c = Spawn KStop \/ (exists i, c = Run i)) -> a <> WCtx -> pc_ok (Watch (w_hist w ++ k) (w_ctx w) p) ->
                winv (acts ++ [a]) (Watch (w_hist w ++ k) (w_ctx w) p)).
      { intros k p Hk Ha Hp. assert (Hx : forall c, Spawn c ∈ w_hist w ++ k -> c = KSpans \/ c = KStop \/ Spawn c ∈ w_hist w).
        { intros c Hc. apply elem_of_app in Hc as [Hc|Hc]; [auto|]. apply Hk in Hc as [Hc|[Hc|[i Hc]]]; [injection Hc as ->; auto|injection Hc as ->; auto|discriminate Hc]. }
        constructor; cbn [w_hist w_ctx]; [| | |auto|exact Hp].
        - intros n m H. apply Hx in H as [H|[H|H]]; [discriminate H..|]. apply in_snoc_l, I1, H.
        - intros f H. apply Hx in H as [H|[H|H]]; [discriminate H..|]. apply in_snoc_l, I2, H.
        - intros n H. apply Hx in H as [H|[H|H]]; [discriminate H..|]. apply (I3 n), H. }
      assert (G0 : forall p, a <> WCtx -> pc_ok (Watch (w_hist w) (w_ctx w) p) -> winv (acts ++ [a]) (Watch (w_hist w) (w_ctx w) p)).
      { intros p Ha Hp. specialize (G [] p). rewrite app_nil_r in G. apply G; [|exact Ha|exact Hp]. intros c Hc. inversion Hc. }
      destruct a as [n m|f|i| |pick]; cbn [w_act].
      + constructor; cbn [w_hist w_ctx w_pc].
        * intros n' m' H. apply in_snoc in H as [H|H]; [auto|]. injection H as -> ->. auto.
        * intros f H. apply in_snoc in H as [H|H]; [auto|discriminate H].
        * intros n' H. apply in_snoc in H as [H|H]; [apply (I3 _ H)|discriminate H].
        * apply I4'. discriminate.
        * apply pc_more; [exact I5|apply notin_one; discriminate|auto].
      + constructor; cbn [w_hist w_ctx w_pc].
        * intros n' m' H. apply in_snoc in H as [H|H]; [auto|discriminate H].
        * intros f' H. apply in_snoc in H as [H|H]; [auto|]. injection H as ->. auto.
        * intros n' H. apply in_snoc in H as [H|H]; [apply (I3 _ H)|discriminate H].
        * apply I4'. discriminate.
        * apply pc_more; [exact I5|apply notin_one; discriminate|auto].
      + apply G; [|discriminate|apply pc_more; [exact I5|apply notin_one; discriminate|auto]]. intros c Hc. apply elem_of_list_singleton in Hc. eauto.
      + constructor; cbn [w_hist w_ctx w_pc]; auto.
        * split; auto.
        * pose proof (pc_more w [] true I5) as H. rewrite app_nil_r in H. apply H; [intros Hx; inversion Hx|auto].
      + assert (Hone : forall c, c = Spawn KSpans \/ c = Spawn KStop \/ (exists i, c = Run i) -> forall c', c' ∈ [c] -> c' = Spawn KSpans \/ c' = Spawn KStop \/ (exists i, c' = Run i)).
        { intros c Hc c' Hx. apply elem_of_list_singleton in Hx. subst c'. exact Hc. }
        assert (Hsame : winv (acts ++ [WGo pick]) w) by (destruct w; apply G0; [discriminate|exact I5]).
        unfold pc_ok in I5. destruct (w_pc w) eqn:Epc.
        * destruct (is_closed info fuel (w_hist w) && (pick || negb (w_ctx w))) eqn:Es.
          -- apply andb_true_iff in Es as [Ec _]. apply G; [apply Hone; auto|discriminate|]. cbn.
             split; [intros H; apply in_snoc in H as [H|H]; [contradiction|discriminate H]|].
             destruct (closed_ended info fuel _ I5 Ec) as [r Hr]. exists (w_hist w), [Spawn KSpans], r. split; [reflexivity|]. split; [exact Hr|].
             intros th Hth. unfold cl_thread, next_thread in Hth. apply lookup_lt_Some in Hth. lia.
          -- destruct (w_ctx w) eqn:Ex; [|exact Hsame]. rewrite <- Ex in *. apply G0; [discriminate|]. cbn. auto.
        * destruct I5 as (Hns & pre & post & r & Eh & H1 & H2).
          assert (Hgo : winv (acts ++ [WGo pick]) (Watch (w_hist w ++ [Run i]) (w_ctx w) (W_spans i))).
          { apply G; [apply Hone; eauto|discriminate|]. cbn. split; [intros H; apply in_snoc in H as [H|H]; [contradiction|discriminate H]|].
            exists pre, (post ++ [Run i]), r. rewrite app_assoc, <- Eh. auto. }
          destruct (hist_thread info fuel (w_hist w) i) as [[[] []]|] eqn:Et; try exact Hgo.
          apply G0; [discriminate|]. cbn. split; [exact Hns|]. exists i, pre, post, r. auto.
        * destruct I5 as [Hns Hr]. apply G; [apply Hone; auto|discriminate|]. cbn [pc_ok w_pc].
          split; [apply res_more; auto|]. eexists. apply thread_spawn. right. split; reflexivity.
        * destruct I5 as [Hr [pc Hi]].
          assert (Hgo : winv (acts ++ [WGo pick]) (Watch (w_hist w ++ [Run i]) (w_ctx w) (W_stop i r))).
          { apply G; [apply Hone; eauto|discriminate|]. cbn [pc_ok w_pc]. split; [apply res_more; auto|]. eapply kstop_keep, Hi. }
          destruct (hist_thread info fuel (w_hist w) i) as [[[] []]|] eqn:Et; try exact Hgo.
          apply G0; [discriminate|]. cbn [pc_ok w_pc]. split; [destruct r; exact Hr|]. eapply stop_done; [exact Et|auto].
        * exact Hsame.
  Qed.

  Lemma watch_error acts : w_returned info fuel acts WErr -> w_cancelled acts.
  Proof.
    unfold w_returned. intros H. pose proof (winv_run acts) as I. pose proof (V5 _ _ I) as Hp. unfold pc_ok in Hp. rewrite H in Hp.
    apply (V4 _ _ I), Hp.
  Qed.
  Lemma watch_result acts a : distinct_ids info -> finish_once info fuel (w_calls info fuel acts) -> deep_enough info fuel (w_calls info fuel acts) ->
    w_returned info fuel acts (WSpans a) ->
    exists r l, a = Some (r :: l) /\ ended info fuel (w_calls info fuel acts) r /\
      WStart (fs_span r) true ∈ acts /\ (forall x, x ∈ r :: l -> WFinish x ∈ acts) /\
      (forall x, x ∈ r :: l <-> connected info (collected info fuel (w_calls info fuel acts)) r x) /\ NoDup (map fs_span (r :: l)) /\
      (forall x, x ∈ r :: l -> si_trace (info (fs_span x)) = si_trace (info (fs_span r))) /\
      (forall x, connected info (in_period info fuel (w_calls info fuel acts) (fs_span r)) r x -> x ∈ r :: l).
  Proof.
    unfold w_returned, w_calls. intros Hids Hone Hdeep H. pose proof (winv_run acts) as I. pose proof (V5 _ _ I) as Hp. unfold pc_ok in Hp. rewrite H in Hp.
    destruct Hp as [(j & pre & post & r & Eh & H1 & H2 & H3) _]. set (h := w_hist (run acts)) in *.
    destruct (spans_tree info fuel h j a Hids Hone Hdeep H3) as [->|(r' & l & -> & He & Hx & Hn & Ht)].
    - destruct (spans_after info fuel pre post j r (Some []) H1 H2); [rewrite <- Eh; exact H3|reflexivity].
    - assert (r' = r) as ->. { apply Some_inj. rewrite <- (proj2 (root_ended info fuel h r') He). apply root_ended. rewrite Eh. apply ended_stay, H1. }
      exists r, l. split; [reflexivity|]. split; [exact He|]. split.
      { destruct He as [(i & [[m Hi]|Hi]) _].
        - pose proof (won_matched info fuel h i _ m _ Hi (or_intror eq_refl)). subst m. apply (V1 _ _ I). eapply call_spawned, Hi.
        - exfalso. apply (V3 _ _ I (fs_span r)). eapply call_spawned, Hi. }
      split.
      { intros x Hin. apply Hx in Hin. apply (V2 _ _ I). inversion Hin as [|p f Hp HP Hf]; subst.
        - destruct He as (_ & i & pc & Hi & _). eapply call_spawned, Hi.
        - destruct HP as (i & e & [Hi|Hi] & _); eapply call_spawned, Hi. }
      split; [exact Hx|]. split; [exact Hn|]. split; [exact Ht|].
      intros x Hc. destruct (period_returned info fuel h pre post j (fs_span r) r (Some (r :: l)) x Eh Hids Hone Hdeep H1 eq_refl H2 H3 Hc) as (l' & E & Hin).
      assert (l' = l) as -> by congruence. exact Hin.
  Qed.

  Lemma run_app acts more : run (acts ++ more) = fold_left (w_act info fuel) more (run acts).
  Proof. apply fold_left_app. Qed.
  Lemma hist_app acts more : exists k, w_calls info fuel (acts ++ more) = w_calls info fuel acts ++ k.
  Proof.
    unfold w_calls. rewrite run_app. generalize (run acts). intros w. revert w. induction more as [|a more IH]; intros w; cbn [fold_left]; [exists []; rewrite app_nil_r; reflexivity|].
    assert (H : exists k, w_hist (w_act info fuel w a) = w_hist w ++ k).
    { destruct a as [n m|f|i| |pick]; cbn; eauto; [exists []; rewrite app_nil_r; reflexivity|].
      assert (E : exists k, w_hist w = w_hist w ++ k) by (exists []; rewrite app_nil_r; reflexivity).
      destruct (w_pc w); cbn; eauto.
      - destruct (_ && _); cbn; eauto. destruct (w_ctx w); cbn; eauto.
      - destruct (hist_thread _ _ _ _) as [[[] []]|]; cbn; eauto.
      - destruct (hist_thread _ _ _ _) as [[[] []]|]; cbn; eauto. }
    destruct H as [k Hk], (IH (w_act info fuel w a)) as [k' Hk']. exists (k ++ k'). rewrite Hk', Hk, app_assoc. reflexivity.
  Qed.
  Lemma watch_idle acts more r i th : w_returned info fuel acts r -> unmade info fuel (w_calls info fuel acts) i ->
    cthread (w_calls info fuel (acts ++ more)) i th -> idle th.
  Proof.
    intros Hr Hu Hi. pose proof (V5 _ _ (winv_run acts)) as Hp. unfold pc_ok in Hp. rewrite Hr in Hp. destruct Hp as [_ Hd].
    destruct (hist_app acts more) as [k Hk]. rewrite Hk in Hi. eapply done_idle; [exact Hd|exact Hu|exact Hi].
  Qed.

  (** Steps left after the deferred cancel. *)
  Definition stop_left (h : list (action kcall)) (i n : nat) : Prop :=
    (n = 3%nat /\ cthread h i (KThr KStop P_swap)) \/ (n = 2%nat /\ cthread h i (KThr KStop P_close)) \/ (n = 1%nat /\ cthread h i (KThr KStop P_done)).
  Lemma stop_act h i n b : stop_left h i n -> exists n', stop_left (h ++ [b]) i n' /\ (n' <= n)%nat /\ (b = Run i -> (n' <= Nat.max 1 (pred n))%nat).
  Proof.
    intros H. destruct b as [c|j].
    - exists n. split; [|split; [lia|discriminate]]. unfold stop_left in *. rewrite !thread_spawn. destruct H as [[? ?]|[[? ?]|[? ?]]]; auto 6.
    - destruct (threads (cl_exec info fuel h) !! j) as [u|] eqn:Hj.
      + destruct (decide (j = i)) as [->|Hne].
        * unfold stop_left in *. assert (Hth := fun th => thread_run info fuel h i u i th Hj).
          destruct H as [[-> H]|[[-> H]|[-> H]]]; unfold cl_thread in H; rewrite Hj in H; injection H as H; subst u; unfold cl_step in Hth; cbn [kt_call kt_pc snd] in Hth.
          -- destruct (chk_eqb _ _); [exists 1%nat|exists 2%nat]; rewrite !Hth; (split; [|lia]); auto 6.
          -- exists 1%nat. rewrite !Hth. split; [|lia]. auto 6.
          -- exists 1%nat. rewrite !Hth. split; [|lia]. auto 6.
        * exists n. split; [|split; [lia|intros E; congruence]]. unfold stop_left in *. rewrite !(thread_run _ _ _ _ _ _ _ Hj).
          destruct H as [[? ?]|[[? ?]|[? ?]]]; auto 8.
      + exists n. split; [|split; [lia|]].
        * unfold stop_left, cl_thread in *. rewrite run_none by exact Hj. exact H.
        * intros E. injection E as ->. exfalso. unfold stop_left, cl_thread in H. destruct H as [[? H]|[[? H]|[? H]]]; congruence.
  Qed.
  Definition left (w : watch) (n : nat) (r : wres) : Prop :=
    match w_pc w with
    | W_cancel r' => n = 4%nat /\ r' = r
    | W_stop i r' => stop_left (w_hist w) i n /\ r' = r
    | W_done r' => n = 0%nat /\ r' = r
    | _ => False
    end.
  Lemma left_step w a n r : left w n r -> exists n', left (w_act info fuel w a) n' r /\ (n' <= match a with WGo _ => pred n | _ => n end)%nat.
  Proof.
    unfold left. intros H.
    assert (Henv : forall b c, exists n', match w_pc (Watch (w_hist w ++ [b]) c (w_pc w)) with W_cancel r' => n' = 4%nat /\ r' = r
        | W_stop i r' => stop_left (w_hist w ++ [b]) i n' /\ r' = r | W_done r' => n' = 0%nat /\ r' = r | _ => False end /\ (n' <= n)%nat).
    { intros b c. cbn. destruct (w_pc w); try contradiction.
      - destruct H as [-> ->]. exists 4%nat. auto.
      - destruct H as [H ->]. destruct (stop_act _ _ _ b H) as (n' & Hn & Hle & _). exists n'. auto.
      - destruct H as [-> ->]. exists 0%nat. auto. }
    destruct a as [m b|f|i| |pick]; cbn [w_act].
    1-3: apply (Henv _ (w_ctx w)).
    { cbn. exists n. split; [exact H|lia]. }
    destruct (w_pc w) as [|i|r'|i r'|r'] eqn:Epc; try contradiction.
    - destruct H as [-> ->]. exists 3%nat. cbn [w_pc w_hist]. split; [|lia]. split; [|reflexivity]. left. split; [reflexivity|]. apply thread_spawn. right. split; reflexivity.
    - destruct H as [H ->].
      assert (Hgo : (n = 1%nat -> False) -> exists n', match w_pc (Watch (w_hist w ++ [Run i]) (w_ctx w) (W_stop i r)) with W_stop i r' => stop_left (w_hist w ++ [Run i]) i n' /\ r' = r | _ => False end /\ (n' <= pred n)%nat).
      { intros Hn. cbn. destruct (stop_act _ _ _ (Run i) H) as (n' & Hn' & _ & Hle). exists n'. split; [auto|]. specialize (Hle eq_refl).
        destruct H as [[-> _]|[[-> _]|[-> _]]]; [lia|lia|destruct (Hn eq_refl)]. }
      unfold hist_thread. destruct H as [[-> H]|[[-> H]|[-> H]]]; unfold cl_thread in H; rewrite H.
      + apply Hgo. discriminate.
      + apply Hgo. discriminate.
      + exists 0%nat. cbn. auto.
    - destruct H as [-> ->]. exists 0%nat. rewrite Epc. auto.
  Qed.
  Lemma left_run w more n r : left w n r -> exists n', left (fold_left (w_act info fuel) more w) n' r /\ (n' <= n - w_steps more)%nat.
  Proof.
    revert w n. induction more as [|a more IH]; intros w n H; cbn [fold_left]; [exists n; split; [exact H|cbn; lia]|].
    destruct (left_step w a n r H) as (n1 & H1 & L1). destruct (IH _ _ H1) as (n2 & H2 & L2). exists n2. split; [exact H2|].
    unfold w_steps in *. destruct a; cbn in *; lia.
  Qed.
  Lemma watch_cancel acts more : w_waiting info fuel acts -> w_cancelled acts -> (4 <= w_steps more)%nat ->
    w_returned info fuel (acts ++ WGo false :: more) WErr.
  Proof.
    intros Hw Hc Hs. unfold w_returned. rewrite run_app. cbn [fold_left]. unfold w_waiting in Hw.
    assert (Hx : w_ctx (run acts) = true) by (apply (V4 _ _ (winv_run acts)), Hc).
    assert (H : left (w_act info fuel (run acts) (WGo false)) 4 WErr).
    { unfold w_act. rewrite Hw, Hx. cbn [negb orb]. rewrite andb_false_r. unfold left. cbn. auto. }
    destruct (left_run _ more _ _ H) as (n & Hl & Hle). assert (n = 0%nat) as -> by lia. unfold left in Hl. revert Hl. clear.
    generalize (w_pc (fold_left (w_act info fuel) more (w_act info fuel (run acts) (WGo false)))). intros [|i|r'|i r'|r'] Hl; try contradiction.
    - destruct Hl. discriminate.
    - destruct Hl as [[[? _]|[[? _]|[? _]]] _]; discriminate.
    - destruct Hl as [_ ->]. reflexivity.
  Qed.
End watch.
