(** Calls that have started can always go on to their end (for C98). *)
From Verif Require Import Base BaseProofs SpecBase Conc FuncStatsModel FuncStatsSpec SpanModel SpanSpec TaskModel TaskSpec TaskProofs.
Local Open Scope Z_scope.

Fixpoint alone (i : nat) (n : nat) (wt : whole * wthread) : whole * wthread :=
  match n with O => wt | S n' => alone i n' (w_step i (fst wt) (snd wt)) end.
Definition soon (i : nat) (w : whole) (t : wthread) : Prop := exists n, is_over (snd (alone i n (w, t))) = true.
Lemma soon_step i w t : soon i (fst (w_step i w t)) (snd (w_step i w t)) -> soon i w t.
Proof. intros [n H]. exists (S n). cbn [alone fst snd]. destruct (w_step i w t) as [w' t']. exact H. Qed.
Definition at_ (c : wcall) (pc : spc) (fp : fpc) : wthread := WThr c (SThr (wc_span c) pc) (FThr (w_fcall c) fp).
Lemma stats_put w f s : stats_of (Whole (w_spans w) (<[f := s]> (w_stats w))) f = s.
Proof. unfold stats_of. cbn. rewrite lookup_insert. reflexivity. Qed.

Section chain.
  Context (i : nat) (c : wcall).
  Ltac go := intros; apply soon_step; unfold w_step, stat_next, at_; cbn [wt_call wt_span wt_stat st_pc ft_pc fst snd]; unfold sp_step, f_step, w_fcall; cbn [ft_call ft_pc st_call st_pc fst snd].
  Lemma s_done w u fp : soon i w (at_ c (X_done u) fp). Proof. exists 0%nat. reflexivity. Qed.
  Lemma s_dec w fp : soon i w (at_ c X_dec fp). Proof. go. apply s_done. Qed.
  Lemma s_orphanend w fp : soon i w (at_ c X_orphanend fp). Proof. go. apply s_dec. Qed.
  Lemma s_unlink w o fp : soon i w (at_ c (X_unlink o) fp).
  Proof. go. destruct (sc_parent (wc_span c)); cbn [fst snd]; [destruct o; [apply s_orphanend|]|]; apply s_dec. Qed.
  Lemma s_children w o l fp : soon i w (at_ c (X_children o l) fp).
  Proof. revert w. induction l as [|ch l IH]; go; [apply s_unlink|apply IH]. Qed.
  Lemma s_mark w fp : soon i w (at_ c X_mark fp). Proof. go. apply s_children. Qed.
  Lemma s_end_done w r : soon i w (at_ c X_end (F_done r)). Proof. go. apply s_mark. Qed.
  Lemma s_endlock w : soon i w (at_ c X_end F_endlock). Proof. go. apply s_end_done. Qed.
  Lemma s_end w : soon i w (at_ c X_end F_running). Proof. go. apply s_endlock. Qed.
  Lemma s_running w : soon i w (at_ c A_running F_running). Proof. go. apply s_end. Qed.
  Lemma s_orphan w : soon i w (at_ c A_orphan F_running). Proof. go. apply s_running. Qed.
  Lemma s_link w : soon i w (at_ c A_link F_running).
  Proof. go. destruct (sc_parent (wc_span c)); cbn [fst snd]; [destruct (bool_decide _); [apply s_orphan|]|]; apply s_running. Qed.
  Lemma s_hwload w x : soon i w (at_ c A_link (F_hwload x)).
  Proof.
    go. destruct (x <=? fs_highwater (stats_of w (wc_func c))); cbn [fst snd]; [apply s_link|].
    go. rewrite stats_put, Z.eqb_refl. apply s_link.
  Qed.
  Lemma s_hwcas w x h : soon i w (at_ c A_link (F_hwcas x h)).
  Proof. go. destruct (fs_highwater (stats_of w (wc_func c)) =? h); cbn [fst snd]; [apply s_link|apply s_hwload]. Qed.
  Lemma s_inc w : soon i w (at_ c A_link F_inc). Proof. go. apply s_hwload. Qed.
  Lemma s_lock w : soon i w (at_ c A_link F_lock). Proof. go. apply s_inc. Qed.
  Lemma s_cas w : soon i w (at_ c A_link F_cas). Proof. go. destruct (fs_first _); cbn [fst snd]; [apply s_lock|apply s_inc]. Qed.
  Lemma s_load w : soon i w (at_ c A_link F_load). Proof. go. destruct (bool_decide _); cbn [fst snd]; [apply s_inc|apply s_cas]. Qed.
  Lemma s_begin w : soon i w (at_ c A_inc F_load). Proof. go. apply s_load. Qed.
End chain.
Lemma soon_all i w t : in_step t -> soon i w t.
Proof.
  destruct t as [c [sc pc] [fc fp]]. unfold in_step. cbn [wt_call wt_span wt_stat st_call st_pc ft_call ft_pc]. intros (-> & -> & H).
  change (soon i w (at_ c pc fp)).
  destruct pc; try (match type of H with ex _ => destruct H as [r ->] end); try (destruct fp; try contradiction; try discriminate H);
    auto using s_done, s_dec, s_orphanend, s_unlink, s_children, s_mark, s_end_done, s_endlock, s_end, s_running, s_orphan, s_link, s_hwload, s_hwcas, s_inc, s_lock, s_cas, s_load, s_begin.
Qed.

(** Running one call only. *)
Lemma runs sched i n t : threads (w_exec sched) !! i = Some t ->
  w_exec (sched ++ repeat (Run i) n) = Cfg (fst (alone i n (shared (w_exec sched), t))) (<[i := snd (alone i n (shared (w_exec sched), t))]> (threads (w_exec sched))).
Proof.
  revert sched t. induction n as [|n IH]; intros sched t Ht.
  - cbn [repeat alone fst snd]. rewrite app_nil_r, list_insert_id by exact Ht. destruct (w_exec sched); reflexivity.
  - cbn [repeat]. change (Run i :: repeat (Run i) n) with ([Run i] ++ repeat (@Run wcall i) n). rewrite app_assoc.
    assert (E : w_exec (sched ++ [Run i]) = Cfg (fst (w_step i (shared (w_exec sched)) t)) (<[i := snd (w_step i (shared (w_exec sched)) t)]> (threads (w_exec sched)))) by (apply exec_run, Ht).
    rewrite (IH (sched ++ [Run i]) (snd (w_step i (shared (w_exec sched)) t))).
    + rewrite E. cbn [shared threads alone fst snd]. rewrite <- surjective_pairing, list_insert_insert. reflexivity.
    + rewrite E. cbn [threads]. apply list_lookup_insert. eapply lookup_lt_Some, Ht.
Qed.
(** All calls up to number [k] can be brought to their end. *)
Lemma settle sched k : exists more, (forall a, a ∈ more -> exists i, a = Run i) /\
  length (threads (w_exec (sched ++ more))) = length (threads (w_exec sched)) /\
  forall j t, (j < k)%nat -> threads (w_exec (sched ++ more)) !! j = Some t -> is_over t = true.
Proof.
  induction k as [|k (more & Hm & Hl & Hk)].
  - exists []. rewrite app_nil_r. split; [intros a Ha; apply elem_of_nil in Ha as []|]. split; [reflexivity|]. intros j t Hj. lia.
  - destruct (threads (w_exec (sched ++ more)) !! k) as [t|] eqn:Ht.
    + destruct (soon_all k (shared (w_exec (sched ++ more))) t (threads_in_step _ _ _ Ht)) as [n Hn].
      exists (more ++ repeat (Run k) n). rewrite app_assoc, (runs _ k n t Ht). cbn [threads]. split; [|split].
      * intros a Ha. apply elem_of_app in Ha as [Ha|Ha]; [exact (Hm a Ha)|]. exists k. apply elem_of_list_In, repeat_spec in Ha. exact Ha.
      * rewrite insert_length. exact Hl.
      * intros j u Hj Hu. apply list_lookup_insert_Some in Hu as [(<- & <- & _)|[Ne Hu]]; [exact Hn|]. apply (Hk j u); [lia|exact Hu].
    + exists more. split; [exact Hm|]. split; [exact Hl|]. intros j u Hj Hu. destruct (decide (j = k)) as [->|Ne]; [rewrite Ht in Hu; discriminate Hu|]. apply (Hk j u); [lia|exact Hu].
Qed.
