(** Proofs for C77. *)
From Verif Require Import Base PresentModel Conc CollectModel WatchModel WatchSpec WatchProofs KeepAliveModel KeepAliveSpec KeepAliveProofs TraceQueryModel TraceQuerySpec.
Local Open Scope nat_scope.

(** ** keepAlive *)
Lemma stop_value_in i l v : stop_value i l = Some v -> EStopRet i v ∈ l.
Proof.
  induction l as [|e l IH]; cbn; [discriminate|]. destruct e; try (intros H; right; exact (IH H)).
  destruct (Nat.eqb_spec i0 i) as [->|]; [intros [= ->]; left|intros H; right; exact (IH H)].
Qed.
Lemma count_zero p l : (forall e, e ∈ l -> p e = false) -> count p l = 0.
Proof.
  intros H. unfold count. induction l as [|e l IH]; [reflexivity|]. cbn. rewrite (H e) by left. apply IH. intros x Hx. apply H. right. exact Hx.
Qed.
Lemma count_app p l k : count p (l ++ k) = count p l + count p k.
Proof. unfold count. rewrite List.filter_app, app_length. reflexivity. Qed.
Lemma stopped_quiet s i v : inv s -> EStopRet i v ∈ st_log s -> is_ping (st_loop s) = false.
Proof.
  intros I H. destruct (split_elem _ _ H) as (a & b & E). destruct (no_ping_after_stop _ _ _ _ _ (i_valid s I) E) as (Q & S & N).
  pose proof (i_count s I) as C. rewrite E in C. rewrite !count_app in C.
  change (count is_start (EStopRet i v :: b)) with (count is_start b) in C. change (count is_end (EStopRet i v :: b)) with (count is_end b) in C.
  rewrite (count_zero is_start b) in C by (intros e He; destruct e; try reflexivity; contradiction).
  rewrite (count_zero is_end b) in C by (intros e He; destruct e; try reflexivity; exfalso; exact (N _ He)).
  unfold quiet in Q. rewrite Q in C. destruct (is_ping (st_loop s)); [cbn in C; lia|reflexivity].
Qed.
(** The error stop returned is the one there is for ever. *)
Lemma stop_err s i v : inv s -> EStopRet i v ∈ st_log s -> st_err s = v.
Proof.
  intros I H. destruct (split_elem _ _ H) as (a & b & E). destruct (no_ping_after_stop _ _ _ _ _ (i_valid s I) E) as (_ & _ & N).
  pose proof (stop_result _ _ _ _ _ (i_valid s I) E) as R.
  destruct (st_err s) as [e|] eqn:Ee.
  - apply (i_err s I) in Ee. unfold failed in Ee. rewrite E in Ee. apply elem_of_app in Ee as [Ee|Ee].
    + symmetry. apply R. exact Ee.
    + apply elem_of_cons in Ee as [Ee|Ee]; [discriminate|]. exfalso. exact (N _ Ee).
  - destruct v as [e|]; [|reflexivity]. assert (F : failed (st_log s) e).
    { unfold failed. rewrite E. apply elem_of_app. left. apply R. reflexivity. }
    apply (i_err s I) in F. congruence.
Qed.
Lemma parent_step s a : a <> ParentCancel -> st_parent s = false -> st_parent (ka_step s a) = false.
Proof.
  intros Ha H. destruct a; cbn [ka_step]; try congruence.
  - destruct (st_loop s); exact H.
  - unfold loop_step. destruct (st_loop s); try exact H.
    + destruct c; [destruct (st_done s)|destruct (st_parent s) eqn:E|destruct (st_tick s)]; cbn; congruence.
    + destruct (st_mu s); try exact H. destruct (_ || _); exact H.
    + destruct (catch_panics o); exact H.
  - exact H.
  - unfold stop_step. destruct (st_stops s !! i) as [[]|]; try exact H. destruct (st_mu s); exact H.
Qed.
(** Without a cancelled parent, a cancelled context means a failed ping. *)
Lemma rctx_err s : inv s -> st_parent s = false -> st_rctx s = true -> st_err s <> None.
Proof.
  intros I P R. apply (i_rctx s I) in R as [R|R]; [apply (i_parent s I) in R; congruence|].
  destruct (split_elem _ _ R) as (a & b & E). destruct (cancel_cause _ _ _ (i_valid s I) E) as [[e F] _].
  assert (st_err s = Some e) as ->; [|discriminate]. apply (i_err s I). unfold failed in *. rewrite E. apply elem_of_app. left. exact F.
Qed.
Lemma err_step s a e : st_err s = Some e -> st_err (ka_step s a) <> None.
Proof.
  intros H. destruct a; cbn [ka_step]; try (cbn; congruence).
  - destruct (st_loop s); cbn; congruence.
  - destruct (st_parent s); cbn; congruence.
  - unfold loop_step. destruct (st_loop s); try (cbn; congruence).
    + destruct c; [destruct (st_done s)|destruct (st_parent s) eqn:E|destruct (st_tick s)]; cbn; congruence.
    + destruct (st_mu s); try (cbn; congruence). destruct (_ || _); cbn; congruence.
    + destruct (catch_panics o); cbn; congruence.
  - unfold stop_step. destruct (st_stops s !! i) as [[]|]; try (cbn; congruence). destruct (st_mu s); cbn; congruence.
Qed.
(** Only steps of the loop make it enter or leave a ping. *)
Lemma ping_step s a : in_ping (ka_step s a) = in_ping s \/ exists c o, a = LoopStep c o.
Proof.
  destruct a; cbn [ka_step]; try (right; eauto; fail); left; unfold in_ping.
  - destruct (st_loop s) eqn:E; cbn; rewrite ?E; reflexivity.
  - destruct (st_parent s); reflexivity.
  - reflexivity.
  - unfold stop_step. destruct (st_stops s !! i) as [[]|]; try reflexivity. destruct (st_mu s); reflexivity.
Qed.
Lemma ping_leaves s c o : in_ping s = true -> in_ping (ka_step s (LoopStep c o)) = false.
Proof. unfold in_ping. cbn [ka_step]. unfold loop_step. destruct (st_loop s); try discriminate. intros _. destruct (catch_panics o); reflexivity. Qed.
Lemma tick_count s a : count is_tick (st_log (ka_step s a)) <= count is_tick (st_log s) + match a with Tick => 1 | _ => 0 end.
Proof.
  destruct a; cbn [ka_step].
  - destruct (st_loop s); fields; rewrite ?count_snoc; cbn; lia.
  - destruct (st_parent s); fields; rewrite ?count_snoc; cbn; lia.
  - unfold loop_step. destruct (st_loop s); fields; try lia.
    + destruct c; [destruct (st_done s)|destruct (st_parent s) eqn:E|destruct (st_tick s)]; fields; lia.
    + destruct (st_mu s); fields; try lia. destruct (_ || _); fields; rewrite ?count_snoc; cbn; lia.
    + destruct (catch_panics o); fields; rewrite ?count_snoc; cbn; lia.
    + rewrite ?count_snoc; cbn; lia.
  - fields; rewrite ?count_snoc; cbn; lia.
  - unfold stop_step. destruct (st_stops s !! i) as [[]|]; fields; try lia; [destruct (st_mu s); fields; lia|]. rewrite count_snoc; cbn; lia.
Qed.
Lemma end_count s a : count is_end (st_log (ka_step s a)) = count is_end (st_log s) + match a with LoopStep _ _ => if in_ping s then 1 else 0 | _ => 0 end.
Proof.
  unfold in_ping. destruct a; cbn [ka_step].
  - destruct (st_loop s); fields; rewrite ?count_snoc; cbn; lia.
  - destruct (st_parent s); fields; rewrite ?count_snoc; cbn; lia.
  - unfold loop_step. destruct (st_loop s); fields; try lia.
    + destruct c; [destruct (st_done s)|destruct (st_parent s) eqn:E|destruct (st_tick s)]; fields; lia.
    + destruct (st_mu s); fields; try lia. destruct (_ || _); fields; rewrite ?count_snoc; cbn; lia.
    + destruct (catch_panics o); fields; rewrite ?count_snoc; cbn; lia.
    + rewrite ?count_snoc; cbn; lia.
  - fields; rewrite ?count_snoc; cbn; lia.
  - unfold stop_step. destruct (st_stops s !! i) as [[]|]; fields; try lia; [destruct (st_mu s); fields; lia|]. rewrite count_snoc; cbn; lia.
Qed.

(** ** The writer's log *)
Lemma written_snoc l e : written (l ++ [e]) = written l ++ match e with WEnd b => b | WBegin _ => [] end.
Proof. unfold written. rewrite map_app, concat_app. cbn. rewrite app_nil_r. reflexivity. Qed.
(** [l] is well-behaved and ends with a Write running iff [o]. *)
Fixpoint log_state (o : bool) (l : list wev) : option bool :=
  match l with
  | [] => Some o
  | WBegin _ :: l' => if o then None else log_state true l'
  | WEnd _ :: l' => if o then log_state false l' else None
  end.
Lemma log_state_snoc l e : forall o, log_state o (l ++ [e]) = match log_state o l with Some b => log_state b [e] | None => None end.
Proof. induction l as [|x l IH]; intros o; [reflexivity|]. destruct x; cbn; destruct o; try reflexivity; apply IH. Qed.
Lemma log_state_ok l : forall o b, log_state o l = Some b -> one_at_a_time o l.
Proof.
  induction l as [|x l IH]; intros o b; cbn; [trivial|]. destruct x; destruct o; try discriminate; intros H; (split; [reflexivity|exact (IH _ _ H)]).
Qed.

Lemma taken_newline o n : taken [newline] o n = [] \/ taken [newline] o n = [newline].
Proof. destruct o as [[e|]| | |]; cbn; destruct n; cbn; rewrite ?take_nil; auto. Qed.
Lemma newlines_snoc k : newlines k ++ [newline] = newlines (S k).
Proof. unfold newlines. induction k as [|k IH]; [reflexivity|]. cbn in *. rewrite IH. reflexivity. Qed.

Section query.
  Context (info : nat -> sinfo) (fuel : nat) (document : option (list fin) -> list bytes).
  Local Notation exec := (q_exec info fuel document).
  Local Notation act1 := (q_act info fuel document).
  Local Notation wa := (wa info fuel).

  Lemma exec_snoc acts a : exec (acts ++ [a]) = act1 (exec acts) a.
  Proof. unfold q_exec. rewrite fold_left_app. reflexivity. Qed.
  Lemma w_run_snoc l a : w_run info fuel (l ++ [a]) = w_act info fuel (w_run info fuel l) a.
  Proof. unfold w_run. rewrite fold_left_app. reflexivity. Qed.
  Lemma w_done_keeps w a r : w_pc w = W_done r -> w_pc (w_act info fuel w a) = W_done r.
  Proof. intros H. destruct a; cbn; try exact H. rewrite H. exact H. Qed.
  Lemma w_ctx_keeps w a : w_ctx (w_act info fuel w a) = match a with WCtx => true | _ => w_ctx w end.
  Proof.
    destruct a; cbn; try reflexivity. destruct (w_pc w); try reflexivity.
    - destruct (is_closed _ _ _ && _); [reflexivity|]. destruct (w_ctx w) eqn:E; [reflexivity|exact E].
    - destruct (hist_thread _ _ _ _) as [[[] []]|]; reflexivity.
    - destruct (hist_thread _ _ _ _) as [[[] []]|]; reflexivity.
  Qed.
  Lemma w_ctx_in acts : w_ctx (w_run info fuel acts) = true <-> WCtx ∈ acts.
  Proof.
    induction acts as [|a acts IH] using rev_ind; [cbn; split; [discriminate|inversion 1]|].
    rewrite w_run_snoc, w_ctx_keeps, elem_of_app, elem_of_list_singleton. destruct a; rewrite ?IH; intuition congruence.
  Qed.

  (** What the pc says about keepAlive. *)
  Definition stop_ok (q : tq) : Prop :=
    match q_pc q with
    | T_watch => st_stops (ka q) = []
    | T_stop r => w_pc (wa q) = W_done r
    | T_defer v r => w_pc (wa q) = W_done r /\ EStopRet 0 v ∈ st_log (ka q)
    | T_doc _ | T_write _ _ => (exists l, w_pc (wa q) = W_done (WSpans l)) /\ EStopRet 0 None ∈ st_log (ka q)
    | T_done _ => (exists r, w_pc (wa q) = W_done r) /\ exists v, EStopRet 0 v ∈ st_log (ka q)
    end.
  Definition writing (p : tqpc) : bool := match p with T_write _ _ => true | _ => false end.
  (** What has been written: [k] pings and [d] of the document. *)
  Definition wrote (q : tq) (k : nat) (d : bytes) : Prop :=
    written (q_log q) = newlines k ++ d /\ k <= count is_end (st_log (ka q)) /\
    match q_pc q with
    | T_watch | T_stop _ | T_defer _ _ => d = []
    | T_doc todo => exists l, w_pc (wa q) = W_done (WSpans l) /\ d ++ concat todo = concat (document l)
    | T_write p todo => exists l, w_pc (wa q) = W_done (WSpans l) /\ d ++ p ++ concat todo = concat (document l)
    | T_done r =>
        match r with
        | TNil => exists l, w_pc (wa q) = W_done (WSpans l) /\ d = concat (document l) /\ st_err (ka q) = None
        | TCtx => False
        | TWrite e => d = [] /\ st_err (ka q) = Some e \/
                      exists l t, w_pc (wa q) = W_done (WSpans l) /\ d ++ t = concat (document l) /\ st_err (ka q) = None
        | TPanic => exists l t, w_pc (wa q) = W_done (WSpans l) /\ d ++ t = concat (document l) /\ st_err (ka q) = None
        end
    end.
  Record qinv (q : tq) : Prop := QInv {
    v_parent : st_parent (ka q) = false;
    v_ctx : w_ctx (wa q) = st_rctx (ka q);
    v_stop : stop_ok q;
    v_log : log_state false (q_log q) = Some (in_ping (ka q) || writing (q_pc q));
    v_wrote : exists k d, wrote q k d
  }.
  Lemma ka_inv q : inv (ka q).
  Proof. apply inv_exec. Qed.
  Lemma ping_same s : in_ping s = is_ping (st_loop s).
  Proof. reflexivity. Qed.

  (** A step of keepAlive that is not of the loop or happens while the query is anywhere. *)
  Lemma ka_do_ka q a o n : ka (ka_do info fuel q a o n) = ka_step (ka q) a.
  Proof. unfold ka, ka_do. cbn. apply exec_one. Qed.
  Lemma ka_do_pc q a o n : q_pc (ka_do info fuel q a o n) = q_pc q.
  Proof. reflexivity. Qed.
  Lemma ka_do_wpc q a o n r : w_pc (wa q) = W_done r -> w_pc (wa (ka_do info fuel q a o n)) = W_done r.
  Proof. intros H. unfold TraceQueryModel.wa, ka_do. cbn [q_watch]. destruct (_ && _); [|exact H]. rewrite w_run_snoc. apply w_done_keeps. exact H. Qed.
  Lemma ka_do_ctx q a o n : w_ctx (wa q) = st_rctx (ka q) -> w_ctx (wa (ka_do info fuel q a o n)) = st_rctx (ka_step (ka q) a).
  Proof.
    intros H. unfold TraceQueryModel.wa in *. unfold ka_do. cbn [q_watch]. rewrite exec_one. fold (ka q). unfold TraceQueryModel.wa.
    assert (M : st_rctx (ka q) = true -> st_rctx (ka_step (ka q) a) = true).
    { intros E. apply (i_rctx _ (inv_step _ a (ka_inv q))). apply (i_rctx _ (ka_inv q)) in E as [E|E]; [left|right]; apply log_mono; exact E. }
    destruct (st_rctx (ka_step (ka q) a)) eqn:E1; cbn [andb].
    - destruct (w_ctx (w_run info fuel (q_watch q))) eqn:E2; cbn [negb]; [exact E2|]. rewrite w_run_snoc, w_ctx_keeps. reflexivity.
    - rewrite H. destruct (st_rctx (ka q)); [exfalso; discriminate (M eq_refl)|reflexivity].
  Qed.

  Lemma ret_keeps q a o n i v : EStopRet i v ∈ st_log (ka q) -> EStopRet i v ∈ st_log (ka (ka_do info fuel q a o n)).
  Proof. intros H. rewrite ka_do_ka. apply log_mono. exact H. Qed.
  Lemma err_keeps q a o n i v : EStopRet i v ∈ st_log (ka q) -> st_err (ka (ka_do info fuel q a o n)) = st_err (ka q).
  Proof. intros H. rewrite (stop_err _ i v (ka_inv q) H). apply (stop_err _ i v (ka_inv _)). apply ret_keeps. exact H. Qed.
  (** Once a stop returned keepAlive writes nothing. *)
  Lemma ka_do_log q a o n i v : EStopRet i v ∈ st_log (ka q) -> q_log (ka_do info fuel q a o n) = q_log q.
  Proof.
    intros H. unfold ka_do. cbn [q_log]. rewrite !ping_same, exec_one. fold (ka q).
    rewrite (stopped_quiet _ i v (ka_inv q) H). rewrite (stopped_quiet _ i v (inv_step _ a (ka_inv q)) (log_mono _ _ _ H)). reflexivity.
  Qed.

  (** Before the document: what a step of keepAlive writes. *)
  Lemma ka_do_wrote q a o n k d : wrote q k d -> d = [] \/ (exists i v, EStopRet i v ∈ st_log (ka q)) ->
    exists k', written (q_log (ka_do info fuel q a o n)) = newlines k' ++ d /\ k' <= count is_end (st_log (ka (ka_do info fuel q a o n))).
  Proof.
    intros (W & C & _) [-> | (i & v & H)].
    - rewrite ka_do_ka, end_count. unfold ka_do. cbn [q_log]. rewrite app_nil_r in W.
      destruct (in_ping (ka q)) eqn:Ep.
      + destruct a; try (exists k; rewrite W, app_nil_r; split; [reflexivity|lia]).
        rewrite written_snoc, W. destruct (taken_newline o n) as [-> | ->].
        * exists k. split; [reflexivity|lia].
        * exists (S k). rewrite newlines_snoc, app_nil_r. split; [reflexivity|lia].
      + destruct (in_ping (ka_exec _)); [rewrite written_snoc, app_nil_r|]; rewrite W; exists k; rewrite app_nil_r; (split; [reflexivity|lia]).
    - exists k. rewrite (ka_do_log q a o n i v H), W. split; [reflexivity|]. rewrite ka_do_ka, end_count. lia.
  Qed.
  Lemma ka_do_state q a o n : log_state false (q_log q) = Some (in_ping (ka q) || writing (q_pc q)) -> stop_ok q ->
    log_state false (q_log (ka_do info fuel q a o n)) = Some (in_ping (ka_step (ka q) a) || writing (q_pc q)).
  Proof.
    intros L S. unfold ka_do. cbn [q_log]. rewrite exec_one. fold (ka q).
    destruct (writing (q_pc q)) eqn:Ew.
    - destruct (q_pc q) eqn:Ep; try discriminate Ew. unfold stop_ok in S. rewrite Ep in S. destruct S as [_ H].
      rewrite !ping_same. rewrite (stopped_quiet _ 0 None (ka_inv q) H). rewrite (stopped_quiet _ 0 None (inv_step _ a (ka_inv q)) (log_mono _ _ _ H)).
      rewrite L, ping_same. rewrite (stopped_quiet _ 0 None (ka_inv q) H). reflexivity.
    - rewrite !orb_false_r in *. destruct (in_ping (ka q)) eqn:Ep.
      + destruct (ping_step (ka q) a) as [E|(c & x & ->)].
        * rewrite E, Ep. destruct a; try exact L. rewrite ping_leaves in E by exact Ep. congruence.
        * rewrite log_state_snoc, L. rewrite ping_leaves by exact Ep. reflexivity.
      + destruct (in_ping (ka_step (ka q) a)) eqn:En; [rewrite log_state_snoc, L; reflexivity|exact L].
  Qed.

  (** Steps of keepAlive other than the start of a stop. *)
  Lemma stops_step s a : a <> StopCall -> st_stops s = [] -> st_stops (ka_step s a) = [].
  Proof.
    intros Ha H. destruct a; cbn [ka_step]; try congruence.
    - destruct (st_loop s); exact H.
    - destruct (st_parent s); exact H.
    - unfold loop_step. destruct (st_loop s); try exact H.
      + destruct c; [destruct (st_done s)|destruct (st_parent s) eqn:E|destruct (st_tick s)]; exact H.
      + destruct (st_mu s); try exact H. destruct (_ || _); exact H.
      + destruct (catch_panics o); exact H.
    - unfold stop_step. rewrite H, lookup_nil. exact H.
  Qed.
  Lemma stop_ok_ka q a o n : a <> StopCall -> stop_ok q -> stop_ok (ka_do info fuel q a o n).
  Proof.
    intros Ha. unfold stop_ok. rewrite ka_do_pc. destruct (q_pc q).
    - rewrite ka_do_ka. apply stops_step. exact Ha.
    - apply ka_do_wpc.
    - intros [A E]. split; [apply ka_do_wpc, A|apply ret_keeps, E].
    - intros [[l A] E]. split; [exists l; apply ka_do_wpc, A|apply ret_keeps, E].
    - intros [[l A] E]. split; [exists l; apply ka_do_wpc, A|apply ret_keeps, E].
    - intros [[r' A] [v E]]. split; [exists r'; apply ka_do_wpc, A|]. exists v. apply ret_keeps, E.
  Qed.
  Lemma wrote_ka q a o n k d : stop_ok q -> wrote q k d -> exists k', wrote (ka_do info fuel q a o n) k' d.
  Proof.
    intros S W. assert (D : d = [] \/ exists i v, EStopRet i v ∈ st_log (ka q)).
    { unfold stop_ok in S. destruct W as (_ & _ & W). destruct (q_pc q); try (left; exact W); right.
      - destruct S as [_ S]. eauto.
      - destruct S as [_ S]. eauto.
      - destruct S as [_ [v S]]. eauto. }
    destruct (ka_do_wrote q a o n k d W D) as (k' & E & C). exists k'. split; [exact E|]. split; [exact C|].
    destruct W as (_ & _ & W). rewrite ka_do_pc. unfold stop_ok in S. destruct (q_pc q) as [|?|? ?|?|? ?|r] eqn:Ep; try exact W.
    - destruct W as (l & A & W). exists l. split; [apply ka_do_wpc, A|exact W].
    - destruct W as (l & A & W). exists l. split; [apply ka_do_wpc, A|exact W].
    - destruct S as [_ [v S]]. destruct r.
      + destruct W as (l & A & W). exists l. split; [apply ka_do_wpc, A|]. rewrite (err_keeps _ _ _ _ _ _ S). exact W.
      + exact W.
      + rewrite (err_keeps _ _ _ _ _ _ S). destruct W as [W|(l & t & A & W)]; [left; exact W|right]. exists l, t. split; [apply ka_do_wpc, A|exact W].
      + rewrite (err_keeps _ _ _ _ _ _ S). destruct W as (l & t & A & W). exists l, t. split; [apply ka_do_wpc, A|exact W].
  Qed.
  Lemma qinv_ka q a o n : a <> StopCall -> a <> ParentCancel -> qinv q -> qinv (ka_do info fuel q a o n).
  Proof.
    intros Ha Hp [P C S L (k & d & W)]. constructor.
    - rewrite ka_do_ka. apply parent_step; assumption.
    - rewrite ka_do_ctx by exact C. rewrite ka_do_ka. reflexivity.
    - apply stop_ok_ka; assumption.
    - rewrite ka_do_ka, ka_do_pc. apply ka_do_state; assumption.
    - destruct (wrote_ka q a o n k d S W) as [k' W']. eauto.
  Qed.

  Lemma w_do_wpc q a r : w_pc (wa q) = W_done r -> w_pc (wa (w_do q a)) = W_done r.
  Proof. intros H. unfold TraceQueryModel.wa, w_do. cbn [q_watch]. rewrite w_run_snoc. apply w_done_keeps. exact H. Qed.
  Lemma qinv_w q a : a <> WCtx -> qinv q -> qinv (w_do q a).
  Proof.
    intros Ha [P C S L (k & d & W)]. constructor.
    - exact P.
    - unfold TraceQueryModel.wa, w_do. cbn [q_watch]. rewrite w_run_snoc, w_ctx_keeps. destruct a; try exact C. contradiction.
    - unfold stop_ok in *. change (q_pc (w_do q a)) with (q_pc q). change (ka (w_do q a)) with (ka q). destruct (q_pc q).
      + exact S.
      + apply w_do_wpc, S.
      + destruct S as [A S]. split; [apply w_do_wpc, A|exact S].
      + destruct S as [[l A] S]. split; [exists l; apply w_do_wpc, A|exact S].
      + destruct S as [[l A] S]. split; [exists l; apply w_do_wpc, A|exact S].
      + destruct S as [[r' A] S]. split; [exists r'; apply w_do_wpc, A|exact S].
    - exact L.
    - exists k, d. destruct W as (E & D & W). split; [exact E|]. split; [exact D|].
      change (q_pc (w_do q a)) with (q_pc q). change (ka (w_do q a)) with (ka q). destruct (q_pc q) as [|?|? ?|?|? ?|r]; try exact W.
      + destruct W as (l & A & W). exists l. split; [apply w_do_wpc, A|exact W].
      + destruct W as (l & A & W). exists l. split; [apply w_do_wpc, A|exact W].
      + destruct r; try exact W.
        * destruct W as (l & A & W). exists l. split; [apply w_do_wpc, A|exact W].
        * destruct W as [W|(l & t & A & W)]; [left; exact W|right]. exists l, t. split; [apply w_do_wpc, A|exact W].
        * destruct W as (l & t & A & W). exists l, t. split; [apply w_do_wpc, A|exact W].
  Qed.

  (** WatchForSpans returns an error only after its context was cancelled. *)
  Lemma werr_ctx q : w_pc (wa q) = W_done WErr -> w_ctx (wa q) = true.
  Proof. intros H. apply w_ctx_in. apply (watch_error info fuel). exact H. Qed.

  Lemma stopcall_log s : st_log (ka_step s StopCall) = st_log s ++ [EStopCall (length (st_stops s))].
  Proof. reflexivity. Qed.
  Lemma qinv_stopcall q p : qinv q -> q_pc q = T_watch \/ (exists r, q_pc q = T_stop r) -> (exists r, p = T_stop r /\ w_pc (wa q) = W_done r) \/
      (exists v r, p = T_defer v r /\ w_pc (wa q) = W_done r /\ EStopRet 0 v ∈ st_log (ka q)) ->
    qinv (goto (ka_do info fuel q StopCall quiet_outcome 0) p).
  Proof.
    intros [P C S L (k & d & W)] Hq Hp.
    assert (Kw : writing (q_pc q) = false /\ writing p = false).
    { destruct Hq as [-> |[? ->]]; destruct Hp as [(? & -> & _)|(? & ? & -> & _)]; auto. }
    constructor.
    - change (ka (goto ?q p)) with (ka q). rewrite ka_do_ka. exact P.
    - change (ka (goto ?q p)) with (ka q). change (wa (goto ?q p)) with (wa q). rewrite ka_do_ctx by exact C. rewrite ka_do_ka. reflexivity.
    - unfold stop_ok. cbn [goto q_pc]. destruct Hp as [(r & -> & A)|(v & r & -> & A & E)].
      + exact (ka_do_wpc q _ _ _ _ A).
      + split; [exact (ka_do_wpc q _ _ _ _ A)|exact (ret_keeps q _ _ _ _ _ E)].
    - change (q_log (goto ?q p)) with (q_log q). change (ka (goto ?q p)) with (ka q). cbn [goto q_pc].
      rewrite ka_do_ka. destruct Kw as [E1 ->]. rewrite (ka_do_state q StopCall quiet_outcome 0 L S), E1. reflexivity.
    - destruct (wrote_ka q StopCall quiet_outcome 0 k d S W) as (k' & W'). exists k', d. destruct W' as (E & D & X). split; [exact E|]. split; [exact D|].
      cbn [goto q_pc]. rewrite ka_do_pc in X. destruct Hq as [Eq|[r0 Eq]]; rewrite Eq in X; destruct Hp as [(r & -> & A)|(v & r & -> & A & F)]; exact X.
  Qed.

  Lemma qinv_go q pick o n : qinv q -> qinv (q_go info fuel document q pick o n).
  Proof.
    intros I. unfold q_go. destruct (q_pc q) as [|r|v r|todo|p todo|r] eqn:Ep.
    - destruct (w_pc (wa q)) eqn:Ew; try (apply qinv_w; [discriminate|exact I]).
      apply qinv_stopcall; [exact I|auto|]. left. eauto.
    - destruct (stop_value 0 (st_log (ka q))) as [v|] eqn:Ev; [|apply qinv_ka; [discriminate|discriminate|exact I]].
      apply qinv_stopcall; [exact I|eauto|]. right. exists v, r. pose proof (v_stop q I) as S. unfold stop_ok in S. rewrite Ep in S.
      split; [reflexivity|]. split; [exact S|]. apply stop_value_in. exact Ev.
    - destruct (stop_value 1 (st_log (ka q))) as [v'|] eqn:Ev; [|apply qinv_ka; [discriminate|discriminate|exact I]].
      destruct I as [P C S L (k & d & W)]. unfold stop_ok in S. rewrite Ep in S. destruct S as [A S].
      destruct W as (E & D & W). rewrite Ep in W, L. subst d.
      pose proof (stop_err _ _ _ (ka_inv q) S) as Er.
      assert (G : forall p, qinv (goto q p) <-> (stop_ok (goto q p) /\ log_state false (q_log q) = Some (in_ping (ka q) || writing p) /\ exists k d, wrote (goto q p) k d)).
      { intros p. split; [intros [? ? ? ? ?]; auto|]. intros (H1 & H2 & H3). constructor; assumption. }
      destruct v as [e|].
      + apply G. split; [split; [exists r; exact A|exists (Some e); exact S]|]. split; [exact L|]. exists k, []. split; [exact E|]. split; [exact D|]. cbn. left. split; [reflexivity|exact Er].
      + destruct r as [|l].
        * exfalso. apply (rctx_err _ (ka_inv q) P); [|exact Er]. rewrite <- C. apply werr_ctx. exact A.
        * apply G. split; [split; [exists l; exact A|exact S]|]. split; [exact L|]. exists k, []. split; [exact E|]. split; [exact D|]. cbn. exists l. split; [exact A|reflexivity].
    - destruct I as [P C S L (k & d & W)]. unfold stop_ok in S. rewrite Ep in S. destruct S as [A S].
      destruct W as (E & D & W). rewrite Ep in W, L. destruct W as (l & Al & W). pose proof (stop_err _ _ _ (ka_inv q) S) as Er.
      destruct todo as [|p todo].
      + constructor; [exact P|exact C|split; [destruct A as [l' A]; exists (WSpans l'); exact A|exists None; exact S]|exact L|]. exists k, d. split; [exact E|]. split; [exact D|]. cbn.
        exists l. split; [exact Al|]. cbn in W. rewrite app_nil_r in W. split; [exact W|exact Er].
      + constructor; [exact P|exact C|split; [exact A|exact S]| |].
        * cbn [goto log_write q_log q_pc ka q_ka]. rewrite log_state_snoc, L. change (ka (goto (log_write q (WBegin p)) (T_write p todo))) with (ka q).
          rewrite ping_same, (stopped_quiet _ _ _ (ka_inv q) S). reflexivity.
        * exists k, d. split; [cbn [goto log_write q_log]; rewrite written_snoc, app_nil_r; exact E|]. split; [exact D|]. cbn. exists l. split; [exact Al|exact W].
    - destruct I as [P C S L (k & d & W)]. unfold stop_ok in S. rewrite Ep in S. destruct S as [A S].
      destruct W as (E & D & W). rewrite Ep in W, L. destruct W as (l & Al & W). pose proof (stop_err _ _ _ (ka_inv q) S) as Er.
      assert (Lg : log_state false (q_log q ++ [WEnd (taken p o n)]) = Some false).
      { rewrite log_state_snoc, L, orb_true_r. reflexivity. }
      assert (Wr : written (q_log q ++ [WEnd (taken p o n)]) = newlines k ++ d ++ taken p o n) by (rewrite written_snoc, E, app_assoc; reflexivity).
      assert (Pg : in_ping (ka q) = false) by (rewrite ping_same; exact (stopped_quiet _ _ _ (ka_inv q) S)).
      assert (F : o <> Returns None -> exists t, (d ++ taken p o n) ++ t = concat (document l)).
      { intros Ho. exists (drop n p ++ concat todo). rewrite <- W, <- !app_assoc. f_equal. rewrite app_assoc. f_equal. unfold taken.
        destruct o as [[e|]| | |]; try apply take_drop. contradiction. }
      destruct o as [[e|]|e|v|].
      + constructor; [exact P|exact C|split; [destruct A as [l' A]; exists (WSpans l'); exact A|exists None; exact S]|exact (eq_trans Lg (f_equal Some (eq_sym (orb_false_intro _ _ Pg eq_refl))))|].
        exists k, (d ++ taken p (Returns (Some e)) n). split; [exact Wr|]. split; [exact D|]. cbn. right. destruct F as [t F]; [discriminate|]. exists l, t. auto.
      + constructor; [exact P|exact C|split; [exact A|exact S]|exact (eq_trans Lg (f_equal Some (eq_sym (orb_false_intro _ _ Pg eq_refl))))|].
        exists k, (d ++ p). split; [exact Wr|]. split; [exact D|]. cbn. exists l. split; [exact Al|]. rewrite <- app_assoc. exact W.
      + constructor; [exact P|exact C|split; [destruct A as [l' A]; exists (WSpans l'); exact A|exists None; exact S]|exact (eq_trans Lg (f_equal Some (eq_sym (orb_false_intro _ _ Pg eq_refl))))|].
        exists k, (d ++ taken p (PanicsErr e) n). split; [exact Wr|]. split; [exact D|]. cbn. destruct F as [t F]; [discriminate|]. exists l, t. auto.
      + constructor; [exact P|exact C|split; [destruct A as [l' A]; exists (WSpans l'); exact A|exists None; exact S]|exact (eq_trans Lg (f_equal Some (eq_sym (orb_false_intro _ _ Pg eq_refl))))|].
        exists k, (d ++ taken p (PanicsVal v) n). split; [exact Wr|]. split; [exact D|]. cbn. destruct F as [t F]; [discriminate|]. exists l, t. auto.
      + constructor; [exact P|exact C|split; [destruct A as [l' A]; exists (WSpans l'); exact A|exists None; exact S]|exact (eq_trans Lg (f_equal Some (eq_sym (orb_false_intro _ _ Pg eq_refl))))|].
        exists k, (d ++ taken p PanicsNil n). split; [exact Wr|]. split; [exact D|]. cbn. destruct F as [t F]; [discriminate|]. exists l, t. auto.
    - exact I.
  Qed.
  Lemma qinv_act q a : qinv q -> qinv (act1 q a).
  Proof.
    intros I. destruct a as [|c o n|w|pick o n]; cbn [q_act].
    - apply qinv_ka; [discriminate|discriminate|exact I].
    - apply qinv_ka; [discriminate|discriminate|exact I].
    - destruct w; try exact I; (apply qinv_w; [discriminate|exact I]).
    - apply qinv_go. exact I.
  Qed.
  Lemma qinv_exec acts : qinv (exec acts).
  Proof.
    induction acts as [|a acts IH] using rev_ind; [|rewrite exec_snoc; apply qinv_act, IH].
    constructor; try reflexivity. exists 0, []. split; [reflexivity|]. split; [cbn; lia|reflexivity].
  Qed.

  (** ** Results *)
  Lemma q_exclusive acts : one_at_a_time false (q_log (exec acts)).
  Proof. exact (log_state_ok _ _ _ (v_log _ (qinv_exec acts))). Qed.

  Lemma act_ka q a : ka (act1 q a) = ka q \/ exists k, ka (act1 q a) = ka_step (ka q) k /\
    (forall c o, k = LoopStep c o -> exists n, a = QLoop c o n) /\ (k = Tick -> a = QTick) /\ k <> ParentCancel.
  Proof.
    destruct a as [|c o n|w|pick o n]; cbn [q_act].
    - right. exists Tick. rewrite ka_do_ka. split; [reflexivity|]. split; [discriminate|]. split; [reflexivity|discriminate].
    - right. exists (LoopStep c o). rewrite ka_do_ka. split; [reflexivity|]. split; [intros ? ? [= <- <-]; eauto|]. split; discriminate.
    - left. destruct w; reflexivity.
    - assert (K : forall x p, x = StopCall \/ (exists i, x = StopStep i) -> exists k, ka (goto (ka_do info fuel q x quiet_outcome 0) p) = ka_step (ka q) k /\
        (forall c o', k = LoopStep c o' -> exists n', QGo pick o n = QLoop c o' n') /\ (k = Tick -> QGo pick o n = QTick) /\ k <> ParentCancel).
      { intros x p H. exists x. change (ka (goto ?q p)) with (ka q). rewrite ka_do_ka. split; [reflexivity|]. destruct H as [-> |[i ->]]; (split; [discriminate|]; split; discriminate). }
      unfold q_go. destruct (q_pc q) as [|r|v r|todo|p todo|r].
      + destruct (w_pc (wa q)); try (left; reflexivity). right. apply K. auto.
      + destruct (stop_value 0 _); [right; apply K; auto|]. right. apply (K (StopStep 0) (q_pc q)). eauto.
      + destruct (stop_value 1 _); [|right; apply (K (StopStep 1) (q_pc q)); eauto]. left. destruct v; [reflexivity|]. destruct r; reflexivity.
      + left. destruct todo; reflexivity.
      + left. reflexivity.
      + left. reflexivity.
  Qed.
  Lemma tick_bound acts : count is_tick (st_log (ka (exec acts))) <= ticks acts.
  Proof.
    induction acts as [|a acts IH] using rev_ind; [cbn; lia|]. rewrite exec_snoc.
    assert (T : ticks (acts ++ [a]) = ticks acts + match a with QTick => 1 | _ => 0 end).
    { unfold ticks. rewrite List.filter_app, app_length. destruct a; reflexivity. }
    rewrite T. destruct (act_ka (exec acts) a) as [-> |(k & -> & _ & Ht & _)]; [lia|].
    pose proof (tick_count (ka (exec acts)) k) as H. destruct k; try lia. rewrite (Ht eq_refl). lia.
  Qed.
  Lemma end_bound acts : count is_end (st_log (ka (exec acts))) <= ticks acts.
  Proof.
    pose proof (ka_inv (exec acts)) as I. pose proof (i_count _ I). pose proof (i_ticks _ I). pose proof (tick_bound acts). lia.
  Qed.

  Lemma end_step s k e : EEnd (Some e) ∈ st_log (ka_step s k) <-> EEnd (Some e) ∈ st_log s \/ exists c o, k = LoopStep c o /\ st_loop s = LPing /\ catch_panics o = Some e.
  Proof.
    split.
    - destruct k; cbn [ka_step].
      + destruct (st_loop s); fields; rewrite ?elem_snoc; intuition discriminate.
      + destruct (st_parent s); fields; rewrite ?elem_snoc; intuition discriminate.
      + unfold loop_step. destruct (st_loop s) eqn:El; fields; rewrite ?elem_snoc; try (intuition discriminate).
        * destruct c; [destruct (st_done s)|destruct (st_parent s) eqn:E|destruct (st_tick s)]; fields; auto.
        * destruct (st_mu s); auto. destruct (_ || _); fields; rewrite ?elem_snoc; intuition discriminate.
        * destruct (catch_panics o) eqn:Eo; fields; rewrite elem_snoc; (intros [H|H]; [left; exact H|]); [|discriminate]. injection H as ->. right. eauto.
      + fields. rewrite elem_snoc. intuition discriminate.
      + unfold stop_step. destruct (st_stops s !! i) as [[]|]; fields; auto; [destruct (st_mu s); fields; auto|]. rewrite elem_snoc. intuition discriminate.
    - intros [H|(c & o & -> & El & Eo)]; [apply log_mono, H|]. cbn [ka_step]. unfold loop_step. rewrite El, Eo. fields. apply elem_snoc. auto.
  Qed.
  Lemma ping_failed_more acts more e : ping_failed info fuel document acts e -> ping_failed info fuel document (acts ++ more) e.
  Proof. intros (a & c & o & n & b & -> & H). exists a, c, o, n, (b ++ more). rewrite <- app_assoc. split; [reflexivity|exact H]. Qed.
  Lemma ping_failed_end acts e : ping_failed info fuel document acts e <-> EEnd (Some e) ∈ st_log (ka (exec acts)).
  Proof.
    induction acts as [|x acts IH] using rev_ind.
    - split; [intros (a & c & o & n & b & H & _); destruct a; discriminate|]. cbn. intros H. inversion H.
    - rewrite exec_snoc. split.
      + intros (a & c & o & n & b & H & Eo & El). destruct b as [|y b _] using rev_ind.
        * apply app_inj_tail in H as [-> ->]. cbn [q_act]. rewrite ka_do_ka. apply end_step. right. eauto.
        * rewrite app_comm_cons, app_assoc in H. apply app_inj_tail in H as [-> ->].
          assert (P : EEnd (Some e) ∈ st_log (ka (exec (a ++ QLoop c o n :: b)))) by (apply IH; exists a, c, o, n, b; auto).
          destruct (act_ka (exec (a ++ QLoop c o n :: b)) y) as [-> |(k & -> & _)]; [exact P|apply log_mono, P].
      + intros H. destruct (act_ka (exec acts) x) as [E|(k & E & Hk & _)]; rewrite E in H; [apply ping_failed_more, IH, H|].
        apply end_step in H as [H|(c & o & -> & El & Eo)]; [apply ping_failed_more, IH, H|].
        destruct (Hk c o eq_refl) as (n & ->). exists acts, c, o, n, []. auto.
  Qed.
  Lemma ping_failed_err acts e : ping_failed info fuel document acts e <-> st_err (ka (exec acts)) = Some e.
  Proof. rewrite ping_failed_end. symmetry. apply (i_err _ (ka_inv (exec acts))). Qed.

  Lemma q_output acts : exists k d, output info fuel document acts = newlines k ++ d /\ k <= ticks acts /\
    (d = [] \/ exists l, found info fuel document acts l /\ d `prefix_of` concat (document l)).
  Proof.
    destruct (qinv_exec acts) as [P C S L (k & d & W & K & D)]. exists k, d. split; [exact W|].
    split; [pose proof (end_bound acts); lia|]. unfold found. fold (wa (exec acts)).
    destruct (q_pc (exec acts)) as [|r|v r|todo|p todo|r].
    - auto.
    - auto.
    - auto.
    - right. destruct D as (l & A & D). exists l. split; [exact A|]. exists (concat todo). symmetry. exact D.
    - right. destruct D as (l & A & D). exists l. split; [exact A|]. exists (p ++ concat todo). symmetry. exact D.
    - destruct r.
      + right. destruct D as (l & A & -> & _). exists l. split; [exact A|]. reflexivity.
      + contradiction.
      + destruct D as [[D _]|(l & t & A & D & _)]; [auto|]. right. exists l. split; [exact A|]. exists t. symmetry. exact D.
      + destruct D as (l & t & A & D & _). right. exists l. split; [exact A|]. exists t. symmetry. exact D.
  Qed.
  Lemma q_complete acts : q_returned info fuel document acts TNil ->
    exists k l, found info fuel document acts l /\ output info fuel document acts = newlines k ++ concat (document l) /\ k <= ticks acts /\
      forall e, ~ ping_failed info fuel document acts e.
  Proof.
    unfold q_returned. intros H. destruct (qinv_exec acts) as [P C S L (k & d & W & K & D)]. rewrite H in D. destruct D as (l & A & -> & E).
    exists k, l. split; [exact A|]. split; [exact W|]. split; [pose proof (end_bound acts); lia|]. intros e F. apply ping_failed_err in F. congruence.
  Qed.

  Lemma done_step q a r : q_pc q = T_done r -> q_pc (act1 q a) = T_done r.
  Proof. intros H. destruct a as [|c o n|w|pick o n]; cbn [q_act]; [exact H|exact H|destruct w; exact H|]. unfold q_go. rewrite H. exact H. Qed.
  Lemma done_log q a r : qinv q -> q_pc q = T_done r -> q_log (act1 q a) = q_log q.
  Proof.
    intros I H. pose proof (v_stop _ I) as S. unfold stop_ok in S. rewrite H in S. destruct S as [_ [v S]].
    destruct a as [|c o n|w|pick o n]; cbn [q_act]; [apply (ka_do_log q _ _ _ _ _ S)|apply (ka_do_log q _ _ _ _ _ S)|destruct w; reflexivity|].
    unfold q_go. rewrite H. reflexivity.
  Qed.
  Lemma q_after acts more r : q_returned info fuel document acts r ->
    q_returned info fuel document (acts ++ more) r /\ q_log (exec (acts ++ more)) = q_log (exec acts).
  Proof.
    intros H. induction more as [|a more IH] using rev_ind; [rewrite app_nil_r; auto|]. destruct IH as [H1 H2]. unfold q_returned in *.
    rewrite app_assoc, exec_snoc. split; [apply done_step, H1|]. rewrite (done_log _ _ r (qinv_exec _) H1). exact H2.
  Qed.

  Lemma write_failed_more acts more e : write_failed info fuel document acts e -> write_failed info fuel document (acts ++ more) e.
  Proof. intros (a & pick & n & b & p & todo & -> & H). exists a, pick, n, (b ++ more), p, todo. rewrite <- app_assoc. split; [reflexivity|exact H]. Qed.
  Lemma cause acts e : q_returned info fuel document acts (TWrite e) -> ping_failed info fuel document acts e \/ write_failed info fuel document acts e.
  Proof.
    unfold q_returned. induction acts as [|a acts IH] using rev_ind; [discriminate|]. rewrite exec_snoc. intros H.
    destruct (q_pc (exec acts)) as [|r|v r|todo|p todo|r] eqn:Ep.
    1-5: destruct a as [|c o n|w|pick o n]; cbn [q_act] in H; try (rewrite ka_do_pc in H; congruence); try (destruct w; cbn in H; congruence);
         unfold q_go in H; rewrite Ep in H.
    - destruct (w_pc (wa (exec acts))); cbn in H; try congruence.
    - destruct (stop_value 0 _); cbn in H; congruence.
    - destruct (stop_value 1 _); [|cbn in H; congruence]. destruct v as [e'|]; [|destruct r; cbn in H; discriminate].
      cbn in H. injection H as ->. left. apply ping_failed_more. apply ping_failed_err.
      pose proof (v_stop _ (qinv_exec acts)) as S. unfold stop_ok in S. rewrite Ep in S. destruct S as [_ S]. exact (stop_err _ _ _ (ka_inv _) S).
    - destruct todo; cbn in H; discriminate.
    - right. destruct o as [[e'|]| | |]; cbn in H; try discriminate. injection H as ->. exists acts, pick, n, [], p, todo. auto.
    - rewrite (done_step _ _ _ Ep) in H. injection H as ->. destruct IH as [IH|IH]; [reflexivity|left; apply ping_failed_more, IH|right; apply write_failed_more, IH].
  Qed.
  (** A failed ping is what the query returns. *)
  Lemma ping_result acts e r : ping_failed info fuel document acts e -> q_returned info fuel document acts r ->
    r = TWrite e /\ exists k, output info fuel document acts = newlines k.
  Proof.
    intros F H. apply ping_failed_err in F. unfold q_returned in H. destruct (qinv_exec acts) as [P C S L (k & d & W & K & D)]. rewrite H in D. destruct r.
    - destruct D as (l & _ & _ & E). congruence.
    - contradiction.
    - destruct D as [[-> E]|(l & t & _ & _ & E)]; [|congruence]. rewrite app_nil_r in W. split; [congruence|]. exists k. exact W.
    - destruct D as (l & t & _ & _ & E). congruence.
  Qed.
  Lemma no_ctx acts : ~ q_returned info fuel document acts TCtx.
  Proof. unfold q_returned. intros H. destruct (qinv_exec acts) as [P C S L (k & d & W & K & D)]. rewrite H in D. exact D. Qed.
End query.
