(** C77: after a failed ping the query ends by itself. *)
From Verif Require Import Base PresentModel Conc CollectModel WatchModel WatchSpec WatchProofs KeepAliveModel KeepAliveSpec KeepAliveProofs TraceQueryModel TraceQuerySpec TraceQueryProofs.
Local Open Scope nat_scope.

Lemma in_stop_value i v l : EStopRet i v ∈ l -> stop_value i l <> None.
Proof.
  induction l as [|e l IH]; intros H; [inversion H|]. apply elem_of_cons in H as [<-|H].
  - cbn. rewrite Nat.eqb_refl. discriminate.
  - cbn. destruct e; try exact (IH H). destruct (i0 =? i); [discriminate|exact (IH H)].
Qed.
Lemma ret_done acts i v : EStopRet i v ∈ st_log (ka_exec acts) -> st_stops (ka_exec acts) !! i = Some SRet.
Proof.
  induction acts as [|a acts IH] using rev_ind; [intros H; inversion H|]. rewrite exec_one. set (s := ka_exec acts) in *.
  destruct a; cbn [ka_step].
  - destruct (st_loop s); fields; rewrite ?elem_snoc; intros H; try (destruct H as [H|H]; [|discriminate]); exact (IH H).
  - destruct (st_parent s); fields; rewrite ?elem_snoc; intros H; try (destruct H as [H|H]; [|discriminate]); exact (IH H).
  - unfold loop_step. repeat case_match; fields; rewrite ?elem_snoc; intros Hx; try (destruct Hx as [Hx|Hx]; [|discriminate]); exact (IH Hx).
  - fields. rewrite elem_snoc. intros [H|H]; [|discriminate]. apply lookup_app_l_Some. exact (IH H).
  - unfold stop_step. destruct (st_stops s !! i0) as [[]|] eqn:E; fields; try exact IH.
    + intros H. specialize (IH H). rewrite list_lookup_insert_ne; [exact IH|]. intros ->. congruence.
    + destruct (st_mu s); fields; try exact IH. intros H. specialize (IH H). rewrite list_lookup_insert_ne; [exact IH|]. intros ->. congruence.
    + rewrite elem_snoc. intros [H|H].
      * specialize (IH H). rewrite list_lookup_insert_ne; [exact IH|]. intros ->. congruence.
      * injection H as -> _. apply list_lookup_insert. eapply lookup_lt_Some; eauto.
Qed.

Lemma loop_failed s c o : st_loop s = LFailed -> loop_step s c o = set_loop (set_mu s HFree) LCancel.
Proof. intros E. unfold loop_step. rewrite E. reflexivity. Qed.
Lemma loop_cancel s c o : st_loop s = LCancel -> loop_step s c o = set_loop (set_rctx (emit s ECancel)) LExit.
Proof. intros E. unfold loop_step. rewrite E. reflexivity. Qed.
Lemma loop_exit s c o : st_loop s = LExit -> loop_step s c o = s.
Proof. intros E. unfold loop_step. rewrite E. reflexivity. Qed.

Section query.
  Context (info : nat -> sinfo) (fuel : nat) (document : option (list fin) -> list bytes).
  Local Notation exec := (q_exec info fuel document).
  Local Notation act1 := (q_act info fuel document).
  Local Notation wa := (wa info fuel).
  Local Notation go := (QGo false (Returns None) 0).
  Local Notation lp := (QLoop ChTick (Returns None) 0).
  Local Notation run acts q := (fold_left act1 acts q).

  Lemma sv_none q i : st_stops (ka q) !! i <> Some SRet -> stop_value i (st_log (ka q)) = None.
  Proof. intros H. destruct (stop_value i (st_log (ka q))) as [v|] eqn:E; [|reflexivity]. exfalso. apply H. apply stop_value_in in E. exact (ret_done _ _ _ E). Qed.
  Lemma sv_some q i : st_stops (ka q) !! i = Some SRet -> stop_value i (st_log (ka q)) = Some (st_err (ka q)).
  Proof.
    intros H. destruct (proj2 (calls_inv (q_ka q) i) H) as (r & Hr). destruct (stop_value i (st_log (ka q))) as [v|] eqn:E.
    - apply stop_value_in in E. rewrite (stop_err _ _ _ (ka_inv q) E). reflexivity.
    - exfalso. exact (in_stop_value _ _ _ Hr E).
  Qed.

  (** keepAlive is over, with the error [e]; stop has been called [n] times, of which the last
      is at [c]. *)
  Definition over (q : tq) (e : error) (pre : list stop_call) (c : stop_call) (m : holder) : Prop :=
    st_loop (ka q) = LExit /\ st_mu (ka q) = m /\ st_err (ka q) = Some e /\ st_stops (ka q) = pre ++ [c].
  Definition at_stop (q : tq) (i : nat) (x : tqpc) : Prop :=
    q_pc q = x /\ ((i = 0 /\ exists r, x = T_stop r) \/ (i = 1 /\ exists v r, x = T_defer v r)).
  Lemma stop_go q i x : at_stop q i x -> st_stops (ka q) !! i <> Some SRet -> act1 q go = ka_do info fuel q (StopStep i) quiet_outcome 0.
  Proof.
    intros [E X] H. cbn [q_act]. unfold q_go. rewrite E. destruct X as [[-> (r & ->)]|[-> (v & r & ->)]]; rewrite sv_none by exact H; reflexivity.
  Qed.
  Lemma last_lookup {A} (pre : list A) c : (pre ++ [c]) !! length pre = Some c.
  Proof. rewrite lookup_app_r by lia. rewrite Nat.sub_diag. reflexivity. Qed.
  Lemma last_insert {A} (pre : list A) c d : <[length pre := d]> (pre ++ [c]) = pre ++ [d].
  Proof. rewrite insert_app_r_alt by lia. rewrite Nat.sub_diag. reflexivity. Qed.
  Lemma stop_three q x e pre : at_stop q (length pre) x -> over q e pre SNew HFree -> exists q', run [go; go; go] q = q' /\ q_pc q' = x /\ over q' e pre SRet HFree.
  Proof.
    intros A (L & M & E & S). eexists. split; [reflexivity|]. cbn [fold_left].
    assert (N1 : st_stops (ka q) !! length pre <> Some SRet) by (rewrite S, last_lookup; discriminate).
    rewrite (stop_go q _ x A N1). set (q1 := ka_do info fuel q (StopStep (length pre)) quiet_outcome 0).
    assert (O1 : over q1 e pre SClosed HFree).
    { unfold over, q1. rewrite ka_do_ka. cbn [ka_step]. unfold stop_step. rewrite S, last_lookup. fields. rewrite last_insert. auto. }
    assert (A1 : at_stop q1 (length pre) x) by exact A. destruct O1 as (L1 & M1 & E1 & S1).
    assert (N2 : st_stops (ka q1) !! length pre <> Some SRet) by (rewrite S1, last_lookup; discriminate).
    rewrite (stop_go q1 _ x A1 N2). set (q2 := ka_do info fuel q1 (StopStep (length pre)) quiet_outcome 0).
    assert (O2 : over q2 e pre SLocked (HStop (length pre))).
    { unfold over, q2. rewrite ka_do_ka. cbn [ka_step]. unfold stop_step. rewrite S1, last_lookup, M1. fields. rewrite last_insert. auto. }
    assert (A2 : at_stop q2 (length pre) x) by exact A. destruct O2 as (L2 & M2 & E2 & S2).
    assert (N3 : st_stops (ka q2) !! length pre <> Some SRet) by (rewrite S2, last_lookup; discriminate).
    rewrite (stop_go q2 _ x A2 N3). split; [exact (proj1 A)|]. unfold over. rewrite ka_do_ka. cbn [ka_step]. unfold stop_step. rewrite S2, last_lookup. fields. rewrite last_insert. auto.
  Qed.
  Lemma stop_finish q r e : q_pc q = T_stop r -> over q e [] SNew HFree -> exists m, q_pc (run (repeat go m) q) = T_done (TWrite e).
  Proof.
    intros P O. exists 8. change (repeat go 8) with ([go; go; go] ++ [go] ++ [go; go; go] ++ [go]). rewrite !fold_left_app.
    destruct (stop_three q (T_stop r) e [] ltac:(split; [exact P|left; eauto]) O) as (q1 & -> & P1 & (L1 & M1 & E1 & S1)).
    cbn [fold_left]. assert (G : act1 q1 go = goto (ka_do info fuel q1 StopCall quiet_outcome 0) (T_defer (Some e) r)).
    { cbn [q_act]. unfold q_go. rewrite P1. rewrite sv_some by (rewrite S1; reflexivity). rewrite E1. reflexivity. }
    rewrite G. set (q2 := goto _ _). assert (O2 : over q2 e [SRet] SNew HFree).
    { unfold over, q2. change (ka (goto ?q ?p)) with (ka q). rewrite ka_do_ka. cbn [ka_step]. fields. rewrite S1. auto. }
    destruct (stop_three q2 (T_defer (Some e) r) e [SRet] ltac:(split; [reflexivity|right; eauto]) O2) as (q3 & E3 & P3 & (L3 & M3 & Er3 & S3)).
    cbn [fold_left] in E3. rewrite E3. cbn [q_act]. unfold q_go. rewrite P3. rewrite sv_some by (rewrite S3; reflexivity). reflexivity.
  Qed.

  (** WatchForSpans gives up. *)
  Lemma wrun_done acts more r : w_pc (w_run info fuel acts) = W_done r -> w_pc (w_run info fuel (acts ++ more)) = W_done r.
  Proof. intros H. induction more as [|a more IH] using rev_ind; [rewrite app_nil_r; exact H|]. rewrite app_assoc, w_run_snoc. apply w_done_keeps, IH. Qed.
  Lemma repeat_snoc {A} (x : A) n : repeat x n ++ [x] = repeat x (S n).
  Proof. induction n as [|n IH]; [reflexivity|]. cbn in *. rewrite IH. reflexivity. Qed.
  Lemma repeat_plus {A} (x : A) n m : repeat x (n + m) = repeat x n ++ repeat x m.
  Proof. induction n as [|n IH]; [reflexivity|]. cbn. rewrite IH. reflexivity. Qed.
  Lemma watch_go q w0 : q_pc q = T_watch -> q_watch q = w0 -> w_pc (w_run info fuel w0) = W_select -> WCtx ∈ w0 ->
    exists m q', run (repeat go m) q = q' /\ q_pc q' = T_stop WErr /\ ka q' = ka_step (ka q) StopCall.
  Proof.
    intros P E W C.
    assert (D : w_pc (w_run info fuel (w0 ++ repeat (WGo false) 5)) = W_done WErr).
    { change (repeat (WGo false) 5) with (WGo false :: repeat (WGo false) 4). apply (watch_cancel info fuel w0); [exact W|exact C|cbn; lia]. }
    assert (J : forall j, j <= 5 -> (exists m q', run (repeat go m) q = q' /\ q_pc q' = T_stop WErr /\ ka q' = ka_step (ka q) StopCall) \/
      (let q' := run (repeat go j) q in q_pc q' = T_watch /\ q_watch q' = w0 ++ repeat (WGo false) j /\ ka q' = ka q)).
    { induction j as [|j IH]; intros Hj; [right; cbn; rewrite app_nil_r; auto|]. destruct IH as [IH|(P' & E' & K')]; [lia|left; exact IH|].
      assert (R : run (repeat go (S j)) q = act1 (run (repeat go j) q) go) by (rewrite <- repeat_snoc, fold_left_app; reflexivity).
      set (q' := run (repeat go j) q) in *. destruct (w_pc (wa q')) as [|i|r|i r|r] eqn:Ew.
      5: { left. exists (S j). eexists. split; [reflexivity|]. rewrite R. cbn [q_act]. unfold q_go. rewrite P', Ew.
           assert (r = WErr) as ->.
           { unfold TraceQueryModel.wa in Ew. rewrite E' in Ew. pose proof (wrun_done _ (repeat (WGo false) (5 - j)) _ Ew) as X.
             rewrite <- app_assoc, <- repeat_plus in X. replace (j + (5 - j)) with 5 in X by lia. rewrite D in X. congruence. }
           split; [reflexivity|]. change (ka (goto ?q ?p)) with (ka q). rewrite ka_do_ka, K'. reflexivity. }
      all: right; cbn zeta; rewrite R; cbn [q_act]; unfold q_go; rewrite P', Ew; cbn [w_do q_pc q_watch];
        rewrite E', <- app_assoc, repeat_snoc; auto. }
    destruct (J 5 ltac:(lia)) as [J5|(P5 & E5 & K5)]; [exact J5|]. exists 6. eexists. split; [reflexivity|].
    rewrite <- repeat_snoc, fold_left_app. cbn [fold_left]. set (q' := run (repeat go 5) q) in *. cbn [q_act]. unfold q_go. rewrite P5.
    unfold TraceQueryModel.wa. rewrite E5, D. split; [reflexivity|]. change (ka (goto ?q ?p)) with (ka q). rewrite ka_do_ka, K5. reflexivity.
  Qed.

  Lemma exec_app acts more : exec (acts ++ more) = run more (exec acts).
  Proof. unfold q_exec. apply fold_left_app. Qed.
  Lemma q_gives_up acts e : ping_failed info fuel document acts e -> waits info fuel document acts ->
    exists more, Forall by_itself more /\ q_returned info fuel document (acts ++ more) (TWrite e).
  Proof.
    intros F W. pose proof (qinv_exec info fuel document acts) as I. apply ping_failed_err in F. unfold waits in W. fold (wa (exec acts)) in W.
    assert (P : q_pc (exec acts) = T_watch).
    { pose proof (v_stop _ _ _ _ I) as S. unfold stop_ok in S. destruct (q_pc (exec acts)); [reflexivity|..].
      - congruence.
      - destruct S. congruence.
      - destruct S as [[l S] _]. congruence.
      - destruct S as [[l S] _]. congruence.
      - destruct S as [[l S] _]. congruence. }
    assert (S : st_stops (ka (exec acts)) = []) by (pose proof (v_stop _ _ _ _ I) as S; unfold stop_ok in S; rewrite P in S; exact S).
    (* two steps of the loop *)
    set (q0 := exec acts) in *. set (q1 := act1 q0 lp). set (q2 := act1 q1 lp).
    assert (K1 : ka q1 = ka_step (ka q0) (LoopStep ChTick (Returns None))) by apply ka_do_ka.
    assert (K2 : ka q2 = ka_step (ka q1) (LoopStep ChTick (Returns None))) by apply ka_do_ka.
    assert (H2 : st_loop (ka q2) = LExit /\ st_err (ka q2) = Some e /\ st_stops (ka q2) = []).
    { rewrite K2, K1. cbn [ka_step].
      destruct (i_failed _ (ka_inv q0)) as [L|[L|L]]; [congruence|..].
      - rewrite (loop_failed _ _ _ L). rewrite loop_cancel by reflexivity. fields. auto.
      - rewrite (loop_cancel _ _ _ L). rewrite loop_exit by reflexivity. fields. auto.
      - rewrite (loop_exit _ _ _ L), (loop_exit _ _ _ L). auto. }
    destruct H2 as (L2 & E2 & S2).
    assert (M2 : st_mu (ka q2) = HFree).
    { destruct (st_mu (ka q2)) as [| |i] eqn:M; [reflexivity|..].
      - apply (i_loop _ (ka_inv q2)) in M as [M|M]; congruence.
      - apply (i_stop _ (ka_inv q2)) in M. rewrite S2 in M. discriminate. }
    assert (R2 : st_rctx (ka q2) = true).
    { apply (i_rctx _ (ka_inv q2)). right. apply (i_exit _ (ka_inv q2)); [exact L2|congruence]. }
    assert (I2 : qinv info fuel document q2) by (apply qinv_act, qinv_act, I).
    assert (P2 : q_pc q2 = T_watch) by exact P.
    assert (W2 : w_pc (wa q2) = W_select).
    { assert (Kp : forall q, w_pc (wa q) = W_select -> w_pc (wa (act1 q lp)) = W_select).
      { intros q H. unfold TraceQueryModel.wa, q_act, ka_do. cbn [q_watch]. destruct (_ && _); [|exact H]. rewrite w_run_snoc. exact H. }
      apply Kp, Kp, W. }
    assert (C2 : WCtx ∈ q_watch q2) by (apply (w_ctx_in info fuel); rewrite <- R2; apply (v_ctx _ _ _ _ I2)).
    destruct (watch_go q2 (q_watch q2) P2 eq_refl W2 C2) as (m & q3 & R3 & P3 & K3).
    destruct (stop_finish q3 WErr e P3) as (m' & D).
    { unfold over. rewrite K3. cbn [ka_step]. fields. rewrite S2. auto. }
    exists ([lp; lp] ++ repeat go m ++ repeat go m'). split.
    - assert (G : forall j, Forall by_itself (repeat go j)) by (induction j; constructor; [exact Logic.I|assumption]).
      apply Forall_app_2; [apply Forall_cons_2; [exact Logic.I|]; apply Forall_cons_2; [exact Logic.I|apply Forall_nil_2]|]. apply Forall_app_2; apply G.
    - unfold q_returned. rewrite exec_app, !fold_left_app. fold q0. cbn [fold_left]. fold q1 q2. rewrite R3. exact D.
  Qed.

  (** The notifications WatchForSpans saw were made. *)
  Definition is_note (a : wact) : Prop := match a with WStart _ _ | WFinish _ | WRun _ => True | _ => False end.
  Lemma watch_act q a w : w ∈ q_watch (act1 q a) -> is_note w -> w ∈ q_watch q \/ a = QNote w.
  Proof.
    assert (K : forall k o n p, w ∈ q_watch (goto (ka_do info fuel q k o n) p) -> is_note w -> w ∈ q_watch q \/ a = QNote w).
    { intros k o n p H N. unfold goto, ka_do in H. cbn [q_watch] in H. destruct (_ && _); [|auto]. apply elem_of_app in H as [H|H]; [auto|].
      apply elem_of_list_singleton in H. subst w. contradiction. }
    assert (G : forall x p, w ∈ q_watch (goto (w_do q x) p) -> is_note w -> w ∈ q_watch q \/ w = x).
    { intros x p H N. cbn [goto w_do q_watch] in H. apply elem_of_app in H as [H|H]; [auto|]. apply elem_of_list_singleton in H. auto. }
    intros H N. destruct a as [|c o n|x|pick o n]; cbn [q_act] in H.
    - exact (K Tick quiet_outcome 0 (q_pc q) H N).
    - exact (K (LoopStep c o) o n (q_pc q) H N).
    - destruct x; try (left; exact H); match goal with _ : context [w_do q ?y] |- _ => destruct (G y (q_pc q) H N) as [G'| ->]; auto end.
    - unfold q_go in H. destruct (q_pc q) as [|r|v r|todo|p todo|r].
      + destruct (w_pc (wa q)); try (destruct (G (WGo pick) (q_pc q) H N) as [G'|E]; [left; exact G'|subst w; contradiction]). exact (K _ _ _ _ H N).
      + destruct (stop_value 0 _); [exact (K _ _ _ _ H N)|exact (K (StopStep 0) quiet_outcome 0 (q_pc q) H N)].
      + destruct (stop_value 1 _); [|exact (K (StopStep 1) quiet_outcome 0 (q_pc q) H N)]. left. destruct v; [exact H|]. destruct r; exact H.
      + left. destruct todo; exact H.
      + left. exact H.
      + left. exact H.
  Qed.
  Lemma note_in acts w : w ∈ q_watch (exec acts) -> is_note w -> QNote w ∈ acts.
  Proof.
    induction acts as [|a acts IH] using rev_ind; intros H N; [inversion H|]. rewrite exec_snoc in H. apply elem_of_app.
    destruct (watch_act _ _ _ H N) as [H'| ->]; [left; exact (IH H' N)|right; left].
  Qed.
End query.
