(** Proofs about keepAlive. *)
From Verif Require Import Base KeepAliveModel KeepAliveSpec.
Local Open Scope nat_scope.

Lemma count_snoc p l e : count p (l ++ [e]) = count p l + (if p e then 1 else 0).
Proof. unfold count. rewrite List.filter_app, app_length. cbn [List.filter]. destruct (p e); reflexivity. Qed.
Lemma elem_snoc (l : list event) e x : x ∈ l ++ [e] <-> x ∈ l \/ x = e.
Proof. rewrite elem_of_app, elem_of_list_singleton. tauto. Qed.

(** What each event may follow. *)
Definition allowed (l : list event) (e : event) : Prop :=
  match e with
  | EStart => (forall i r, EStopRet i r ∉ l) /\ (forall e, ~ failed l e) /\ quiet l /\ count is_start l < count is_tick l
  | EEnd _ => count is_start l = S (count is_end l)
  | EStopRet i r => quiet l /\ (forall e, r = Some e <-> failed l e)
  | ECancel => (exists e, failed l e) /\ ECancel ∉ l
  | _ => True
  end.
Definition valid (l : list event) : Prop := forall a e b, l = a ++ e :: b -> allowed a e.
Lemma valid_nil : valid [].
Proof. intros a e b H. destruct a; discriminate. Qed.
Lemma valid_snoc l e : valid l -> allowed l e -> valid (l ++ [e]).
Proof.
  intros Hv Ha a x b H. destruct b as [|y b _] using rev_ind.
  - apply app_inj_tail in H as [-> ->]. exact Ha.
  - rewrite app_comm_cons, app_assoc in H. apply app_inj_tail in H as [H _]. exact (Hv a x b H).
Qed.

Definition b2n (b : bool) : nat := if b then 1 else 0.
Definition is_ping (l : loop) : bool := match l with LPing => true | _ => false end.
Definition is_ltick (l : loop) : bool := match l with LTick => true | _ => false end.
Record inv (s : state) : Prop := Inv {
  i_valid : valid (st_log s);
  i_count : count is_start (st_log s) = count is_end (st_log s) + b2n (is_ping (st_loop s));
  i_ticks : count is_start (st_log s) + b2n (st_tick s) + b2n (is_ltick (st_loop s)) <= count is_tick (st_log s);
  i_err : forall e, st_err s = Some e <-> failed (st_log s) e;
  i_ret : forall i r, EStopRet i r ∈ st_log s -> st_stopped s = true;
  i_loop : st_mu s = HLoop <-> st_loop s = LPing \/ st_loop s = LFailed;
  i_stop : forall i, st_mu s = HStop i <-> st_stops s !! i = Some SLocked;
  i_failed : st_err s <> None -> st_loop s = LFailed \/ st_loop s = LCancel \/ st_loop s = LExit;
  i_failed' : st_loop s = LFailed \/ st_loop s = LCancel -> st_err s <> None;
  i_cancel : ECancel ∈ st_log s -> st_loop s = LExit;
  i_rctx : st_rctx s = true <-> EParent ∈ st_log s \/ ECancel ∈ st_log s;
  i_parent : st_parent s = true <-> EParent ∈ st_log s;
  i_exit : st_loop s = LExit -> st_err s <> None -> ECancel ∈ st_log s
}.
Lemma inv_init : inv ka_init.
Proof.
  constructor; unfold ka_init; cbn [st_loop st_mu st_done st_stopped st_err st_tick st_parent st_rctx st_stops st_log]; unfold failed;
    repeat (setoid_rewrite elem_of_nil); try (exact valid_nil); try (cbn; lia); naive_solver.
Qed.

Lemma count_le_quiet l : count is_start l = count is_end l + 0 -> quiet l.
Proof. unfold quiet. lia. Qed.


Lemma snoc_other (l : list event) e x : e <> x -> x ∈ l ++ [e] <-> x ∈ l.
Proof. intros H. rewrite elem_snoc. split; [intros [A|A]; [exact A|congruence]|auto]. Qed.

(** A step that appends an event of no consequence keeps what only depends on the log. *)
Ltac fields := cbn [emit set_tick set_mu set_err set_done set_stopped set_parent set_rctx set_stops set_loop
                    st_loop st_mu st_done st_stopped st_err st_tick st_parent st_rctx st_stops st_log] in *.
Ltac logs := rewrite ?count_snoc; unfold failed in *; repeat (setoid_rewrite elem_snoc); cbn [is_start is_end is_tick b2n is_ping is_ltick] in *.
Ltac use H := first [exact H | solve [clear -H; let e := fresh in intros e; specialize (H e); intuition (first [discriminate|congruence|eauto])]
  | solve [clear -H; intros; intuition (first [discriminate|congruence|eauto])]].
Ltac ticks T := revert T; unfold b2n; repeat match goal with |- context [if ?b then _ else _] => destruct b end; lia.
Ltac neutral V := apply valid_snoc; [exact V|exact Logic.I].

Lemma inv_tick s : inv s -> inv (ka_step s Tick).
Proof.
  intros I. cbn [ka_step]. destruct (st_loop s) eqn:El; try exact I; (destruct I as [V C T E R L S F F' K X P Q]; rewrite El in *;
    constructor; fields; rewrite ?El; [neutral V|..]; logs; [lia|ticks T|use E|use R|use L|use S|use F|use F'|use K|use X|use P|use Q]).
Qed.
Lemma inv_parent s : inv s -> inv (ka_step s ParentCancel).
Proof.
  intros I. cbn [ka_step]. destruct (st_parent s) eqn:Ep; try exact I; (destruct I as [V C T E R L S F F' K X P Q];
    constructor; fields; [neutral V|..]; logs; [lia|lia|use E|use R|use L|use S|use F|use F'|use K|use X|use P|use Q]).
Qed.
Lemma inv_stopcall s : inv s -> inv (ka_step s StopCall).
Proof.
  intros I. cbn [ka_step]. destruct I as [V C T E R L S F F' K X P Q];
    constructor; fields; [neutral V|..]; logs; [lia|lia|use E|use R|use L| |use F|use F'|use K|use X|use P|use Q].
  intros i. rewrite S. destruct (decide (i < length (st_stops s))).
  - rewrite lookup_app_l by assumption. tauto.
  - rewrite (lookup_ge_None_2 (st_stops s)) by lia. split; [discriminate|]. intros H.
    apply lookup_app_Some in H as [H|[_ H]]; [rewrite lookup_ge_None_2 in H by lia; discriminate|].
    destruct (i - length (st_stops s)) as [|k]; [discriminate|]. destruct k; discriminate.
Qed.
Lemma inv_stopstep s i : inv s -> inv (ka_step s (StopStep i)).
Proof.
  intros I. cbn [ka_step]. unfold stop_step. destruct (st_stops s !! i) as [[]|] eqn:Es; try exact I.
  - destruct I as [V C T E R L S F F' K X P Q]; constructor; fields; try assumption.
    intros j. rewrite S. destruct (decide (i = j)) as [<-|Hne].
    + rewrite list_lookup_insert by (eapply lookup_lt_Some; eauto). rewrite Es. split; discriminate.
    + rewrite list_lookup_insert_ne by assumption. tauto.
  - destruct (st_mu s) eqn:Em; try exact I. destruct I as [V C T E R L S F F' K X P Q]; constructor; fields; try assumption.
    + split; [discriminate|]. intros H. rewrite <- L in H. congruence.
    + intros j. destruct (decide (i = j)) as [<-|Hne].
      * rewrite list_lookup_insert by (eapply lookup_lt_Some; eauto). tauto.
      * rewrite list_lookup_insert_ne by assumption. rewrite <- S, Em. split; congruence.
  - assert (st_mu s = HStop i) as Em by (apply i_stop; assumption).
    assert (st_loop s <> LPing) as Hl.
    { intros E. assert (st_mu s = HLoop) by (apply i_loop; auto). congruence. }
    destruct I as [V C T E R L S F F' K X P Q]; constructor; fields; [|logs..]; [|lia|lia|use E|intros; reflexivity| | |use F|use F'|use K|use X|use P|use Q].
    + apply valid_snoc; [exact V|]. cbn [allowed]. split; [|intros e; apply E].
      apply count_le_quiet. rewrite C. destruct (st_loop s); try reflexivity. congruence.
    + split; [discriminate|]. intros H. rewrite <- L in H. congruence.
    + intros j. split; [discriminate|]. intros H. exfalso. destruct (decide (i = j)) as [<-|Hne].
      * rewrite list_lookup_insert in H by (eapply lookup_lt_Some; eauto). discriminate.
      * rewrite list_lookup_insert_ne in H by assumption. apply S in H. congruence.
Qed.
Lemma inv_loopstep s c o : inv s -> inv (ka_step s (LoopStep c o)).
Proof.
  intros I. cbn [ka_step]. unfold loop_step. destruct (st_loop s) eqn:El.
  - (* select *)
    assert (forall l t, l = LExit \/ (l = LTick /\ t = false /\ st_tick s = true) -> t = st_tick s \/ t = false ->
              inv (set_loop (set_tick s t) l)) as Hsel.
    { intros l t Hl Ht. destruct I as [V C T E R L S F F' K X P Q]. rewrite El in *.
      assert (st_err s = None) as Hn. { destruct (st_err s); [|reflexivity]. destruct F as [H|[H|H]]; congruence. }
      assert (ECancel ∉ st_log s) as Hk by (intros H; apply K in H; discriminate).
      constructor; fields; rewrite ?Hn in *; try assumption.
      - destruct Hl as [->|(-> & _)]; exact C.
      - destruct Hl as [->|(-> & -> & Ht')]; [destruct Ht as [->| ->]; cbn [is_ltick b2n] in *; [lia|ticks T]|]. rewrite Ht' in T. cbn in *. lia.
      - rewrite L. destruct Hl as [->|(-> & _)]; split; intros [H|H]; discriminate.
      - congruence.
      - destruct Hl as [->|(-> & _)]; intros [H|H]; discriminate.
      - intros H. contradiction.
      - congruence. }
    destruct c.
    + destruct (st_done s); [|exact I]. apply (Hsel LExit (st_tick s)); auto.
    + destruct (st_parent s); [|exact I]. apply (Hsel LExit (st_tick s)); auto.
    + destruct (st_tick s) eqn:Et; [|exact I]. apply (Hsel LTick false); auto.
  - (* got a tick *)
    destruct (st_mu s) eqn:Em; [|exact I|exact I].
    destruct (st_err s) as [e|] eqn:Ee.
    { exfalso. destruct (i_failed s I) as [H|[H|H]]; congruence. }
    destruct I as [V C T E R L S F F' K X P Q]. rewrite El, Ee in *.
    assert (ECancel ∉ st_log s) as Hk by (intros H; apply K in H; discriminate).
    destruct (st_stopped s) eqn:Es; cbn [orb].
    { constructor; fields; rewrite ?Em, ?Ee; try assumption; try congruence.
      - cbn [is_ping is_ltick b2n] in *. lia.
      - split; [discriminate|]. intros [H|H]; discriminate.
      - intros i. rewrite <- S, Em. tauto.
      - intros [H|H]; discriminate. }
    constructor; fields; rewrite ?Ee; [|logs..]; [|lia|lia|use E| | | |congruence|intros [H|H]; discriminate| |use X|use P|discriminate].
    + apply valid_snoc; [exact V|]. cbn [allowed]. split_and!.
      * intros i r H. apply R in H. congruence.
      * intros e H. apply E in H. discriminate.
      * apply count_le_quiet. exact C.
      * cbn [is_ltick b2n] in T. lia.
    + intros i r [H|H]; [discriminate (R i r H)|discriminate].
    + split; auto.
    + intros i. split; [discriminate|]. intros H. apply S in H. congruence.
    + intros [H|H]; [contradiction|discriminate].
  - (* ping ends *)
    destruct I as [V C T E R L S F F' K X P Q]. rewrite El in *.
    assert (st_err s = None) as Hn. { destruct (st_err s); [|reflexivity]. destruct F as [H|[H|H]]; congruence. }
    assert (ECancel ∉ st_log s) as Hk by (intros H; apply K in H; discriminate).
    assert (st_mu s = HLoop) as Em by (apply L; auto).
    destruct (catch_panics o) as [e|] eqn:Eo.
    + constructor; fields; [|logs..]; [|lia|lia| |use R| |use S| | | |use X|use P| ].
      * apply valid_snoc; [exact V|]. cbn [allowed is_ping b2n] in *. lia.
      * intros e'. split; [intros H; right; congruence|]. intros [H|H]; [|congruence].
        apply E in H. congruence.
      * rewrite Em. split; auto.
      * auto.
      * congruence.
      * intros [H|H]; [contradiction|discriminate].
      * discriminate.
    + constructor; fields; [|logs..]; [|lia|lia|use E|use R| | | | | |use X|use P| ].
      * apply valid_snoc; [exact V|]. cbn [allowed is_ping b2n] in *. lia.
      * split; [discriminate|]. intros [H|H]; discriminate.
      * intros i. split; [discriminate|]. intros H. apply S in H. congruence.
      * congruence.
      * intros [H|H]; discriminate.
      * intros [H|H]; [contradiction|discriminate].
      * discriminate.
  - (* failed: unlock *)
    destruct I as [V C T E R L S F F' K X P Q]. rewrite El in *. assert (st_mu s = HLoop) as Em by (apply L; auto).
    constructor; fields; cbn [is_ping is_ltick b2n] in *; try assumption; try (intros; auto; congruence).
    + split; [discriminate|]. intros [H|H]; discriminate.
    + intros i. split; [discriminate|]. intros H. apply S in H. congruence.
    + intros H. apply K in H. discriminate.
  - (* cancel *)
    destruct I as [V C T E R L S F F' K X P Q]. rewrite El in *. assert (st_err s <> None) as Hn by auto.
    constructor; fields; [|logs..]; [|lia|lia|use E|use R| |use S| | | | |use P| ].
    + apply valid_snoc; [exact V|]. cbn [allowed]. split.
      * destruct (st_err s) as [e|] eqn:Ee; [|contradiction]. exists e. apply E. reflexivity.
      * intros H. apply K in H. discriminate.
    + rewrite L. split; intros [H|H]; discriminate.
    + auto.
    + intros [H|H]; discriminate.
    + auto.
    + split; auto.
    + auto.
  - exact I.
Qed.
Lemma inv_step s a : inv s -> inv (ka_step s a).
Proof.
  destruct a; [apply inv_tick|apply inv_parent|apply inv_loopstep|apply inv_stopcall|apply inv_stopstep].
Qed.
Lemma inv_exec acts : inv (ka_exec acts).
Proof.
  induction acts as [|a acts IH] using rev_ind; [exact inv_init|].
  unfold ka_exec. rewrite fold_left_app. cbn [fold_left]. apply inv_step, IH.
Qed.

(** ** Consequences for the log *)
Lemma valid_exec acts : valid (st_log (ka_exec acts)).
Proof. apply i_valid, inv_exec. Qed.
Lemma split_elem (b : list event) x : x ∈ b -> exists b1 b2, b = b1 ++ x :: b2.
Proof. apply elem_of_list_split. Qed.
Lemma after_split (l a b b1 b2 : list event) e x : l = a ++ e :: b -> b = b1 ++ x :: b2 -> l = (a ++ e :: b1) ++ x :: b2.
Proof. intros -> ->. rewrite <- app_assoc. reflexivity. Qed.

Lemma no_ping_after_stop l a b i r : valid l -> l = a ++ EStopRet i r :: b ->
  quiet a /\ EStart ∉ b /\ forall e, EEnd e ∉ b.
Proof.
  intros V Hl. assert (HS : EStart ∉ b).
  { intros H. apply split_elem in H as (b1 & b2 & Hb). destruct (V _ _ _ (after_split _ _ _ _ _ _ _ Hl Hb)) as [H _].
    apply (H i r). apply elem_of_app. right. left. }
  pose proof (V _ _ _ Hl) as [Hq _]. split; [exact Hq|]. split; [exact HS|].
  intros e H. apply split_elem in H as (b1 & b2 & Hb). pose proof (V _ _ _ (after_split _ _ _ _ _ _ _ Hl Hb)) as Hc. cbn [allowed] in Hc.
  assert (count is_start b1 = 0) as Hs.
  { clear -HS Hb. subst b. induction b1 as [|x b1 IH]; [reflexivity|]. unfold count in *. cbn [List.filter].
    destruct (is_start x) eqn:Ex; [destruct x; try discriminate; destruct HS; left|]. apply IH. intros H. apply HS. right. exact H. }
  unfold quiet, count in *. rewrite !List.filter_app, !app_length in Hc. cbn [List.filter is_start is_end] in Hc. lia.
Qed.
Lemma no_ping_after_failure l a b e : valid l -> l = a ++ EEnd (Some e) :: b -> EStart ∉ b /\ forall e', EEnd e' ∉ b.
Proof.
  intros V Hl. assert (HS : EStart ∉ b).
  { intros H. apply split_elem in H as (b1 & b2 & Hb). destruct (V _ _ _ (after_split _ _ _ _ _ _ _ Hl Hb)) as (_ & H & _).
    apply (H e). apply elem_of_app. right. left. }
  split; [exact HS|]. pose proof (V _ _ _ Hl) as Hq. cbn [allowed] in Hq.
  intros e' H. apply split_elem in H as (b1 & b2 & Hb). pose proof (V _ _ _ (after_split _ _ _ _ _ _ _ Hl Hb)) as Hc. cbn [allowed] in Hc.
  assert (count is_start b1 = 0) as Hs.
  { clear -HS Hb. subst b. induction b1 as [|x b1 IH]; [reflexivity|]. unfold count in *. cbn [List.filter].
    destruct (is_start x) eqn:Ex; [destruct x; try discriminate; destruct HS; left|]. apply IH. intros H. apply HS. right. exact H. }
  unfold count in *. rewrite !List.filter_app, !app_length in Hc. cbn [List.filter is_start is_end length] in Hc. lia.
Qed.
Lemma stop_result l a b i r : valid l -> l = a ++ EStopRet i r :: b -> forall e, r = Some e <-> failed a e.
Proof. intros V Hl. exact (proj2 (V _ _ _ Hl)). Qed.
Lemma stops_agree l i r j r' : valid l -> EStopRet i r ∈ l -> EStopRet j r' ∈ l -> r = r'.
Proof.
  intros V Hi Hj. apply split_elem in Hi as (a & b & Hl). rewrite Hl in Hj.
  assert (Hcut : forall a b b1 b2 i j r r', l = a ++ EStopRet i r :: b -> b = b1 ++ EStopRet j r' :: b2 -> r = r').
  { clear -V. intros a b b1 b2 i j r r' Hl Hb. pose proof (stop_result l a b i r V Hl) as H1.
    pose proof (stop_result l _ _ j r' V (after_split _ _ _ _ _ _ _ Hl Hb)) as H2.
    destruct (no_ping_after_stop l a b i r V Hl) as (_ & _ & HE).
    assert (forall e, r = Some e <-> r' = Some e) as H.
    { intros e. rewrite H1, H2. unfold failed. rewrite elem_of_app, elem_of_cons. split; [auto|].
      intros [H|[H|H]]; [exact H|discriminate|]. exfalso. apply (HE (Some e)). rewrite Hb. apply elem_of_app. auto. }
    destruct r as [e|]; [symmetry; apply H; reflexivity|]. destruct r' as [e'|]; [|reflexivity]. apply H. reflexivity. }
  apply elem_of_app in Hj as [Hj|Hj].
  - apply split_elem in Hj as (a1 & a2 & ->). symmetry. rewrite <- app_assoc in Hl. exact (Hcut a1 _ a2 b j i r' r Hl eq_refl).
  - apply elem_of_cons in Hj as [Hj|Hj]; [congruence|]. apply split_elem in Hj as (b1 & b2 & Hb). exact (Hcut a b b1 b2 i j r r' Hl Hb).
Qed.
Lemma pings_bounded l a b : valid l -> l = a ++ EStart :: b -> quiet a /\ count is_start a < count is_tick a.
Proof. intros V Hl. destruct (V _ _ _ Hl) as (_ & _ & H1 & H2). auto. Qed.
Lemma cancel_cause l a b : valid l -> l = a ++ ECancel :: b -> (exists e, failed a e) /\ ECancel ∉ a ++ b.
Proof.
  intros V Hl. destruct (V _ _ _ Hl) as [H1 H2]. split; [exact H1|]. intros H. apply elem_of_app in H as [H|H]; [exact (H2 H)|].
  apply split_elem in H as (b1 & b2 & Hb). destruct (V _ _ _ (after_split _ _ _ _ _ _ _ Hl Hb)) as [_ H].
  apply H, elem_of_app. right. left.
Qed.

(** ** The derived context *)
Lemma rctx_spec acts : st_rctx (ka_exec acts) = true <-> EParent ∈ st_log (ka_exec acts) \/ ECancel ∈ st_log (ka_exec acts).
Proof. apply i_rctx, inv_exec. Qed.
(** A failed ping leads to cancellation within two steps of the loop. *)
Definition pending (s : state) (n : nat) : Prop :=
  st_err s <> None /\
  (ECancel ∈ st_log s \/ (st_loop s = LCancel /\ 1 <= n) \/ (st_loop s = LFailed /\ 2 <= n)).
Lemma log_mono s a x : x ∈ st_log s -> x ∈ st_log (ka_step s a).
Proof.
  intros H. destruct a; cbn [ka_step]; unfold loop_step, stop_step; repeat case_match; fields; auto; apply elem_of_app; auto.
Qed.
Lemma log_grows s a : exists l, st_log (ka_step s a) = st_log s ++ l.
Proof.
  destruct a; cbn [ka_step]; unfold loop_step, stop_step; repeat case_match; fields; eauto; exists []; rewrite app_nil_r; reflexivity.
Qed.
Lemma pending_step s a n : inv s -> pending s n ->
  pending (ka_step s a) (n - match a with LoopStep _ _ => 1 | _ => 0 end).
Proof.
  intros I [He H].
  assert (Hs : st_err (ka_step s a) <> None).
  { destruct a; cbn [ka_step]; unfold loop_step, stop_step; repeat case_match; fields; auto; congruence. }
  split; [exact Hs|]. destruct H as [H|H]; [left; apply log_mono, H|].
  destruct a; cbn [ka_step]; rewrite ?Nat.sub_0_r.
  - destruct H as [[E H]|[E H]]; rewrite E; fields; auto.
  - destruct (st_parent s); fields; auto.
  - unfold loop_step. destruct H as [[E H]|[E H]]; rewrite E; fields; [left; apply elem_snoc; auto|right; left; split; [reflexivity|lia]].
  - fields. auto.
  - unfold stop_step. repeat case_match; fields; auto.
Qed.
Lemma cancelled_soon acts more e : failed (st_log (ka_exec acts)) e -> 2 <= loop_steps more ->
  st_rctx (ka_exec (acts ++ more)) = true.
Proof.
  intros Hf Hn. apply rctx_spec. right.
  assert (pending (ka_exec acts) 2) as Hp.
  { pose proof (inv_exec acts) as I. apply (i_err _ I) in Hf. assert (st_err (ka_exec acts) <> None) as He by congruence. split; [exact He|].
    destruct (i_failed _ I He) as [H|[H|H]]; auto. left. exact (i_exit _ I H He). }
  assert (forall n, pending (ka_exec acts) n -> loop_steps more >= n -> pending (ka_exec (acts ++ more)) 0) as Hgen.
  { clear. intros n Hp Hn.
    cut (pending (ka_exec (acts ++ more)) (n - loop_steps more)). { replace (n - loop_steps more) with 0 by lia. auto. }
    clear Hn. induction more as [|a more IH] using rev_ind.
    - rewrite app_nil_r. cbn. rewrite Nat.sub_0_r. exact Hp.
    - rewrite app_assoc. unfold ka_exec at 1. rewrite fold_left_app. cbn [fold_left]. fold (ka_exec (acts ++ more)).
      pose proof (pending_step _ a _ (inv_exec (acts ++ more)) IH) as H.
      replace (n - loop_steps (more ++ [a])) with (n - loop_steps more - match a with LoopStep _ _ => 1 | _ => 0 end); [exact H|].
      unfold loop_steps. rewrite List.filter_app, app_length. cbn [List.filter]. destruct a; cbn [length]; lia. }
  destruct (Hgen 2 Hp Hn) as [_ [H|[[_ H]|[_ H]]]]; [exact H|lia|lia].
Qed.

(** ** Progress: a stop call can always be completed, given that a running ping returns. *)
Lemma exec_one acts a : ka_exec (acts ++ [a]) = ka_step (ka_exec acts) a.
Proof. unfold ka_exec. rewrite fold_left_app. reflexivity. Qed.
Definition waiting (s : state) (i : nat) : Prop := st_stops s !! i = Some SNew \/ st_stops s !! i = Some SClosed.
Lemma free_up s i : inv s -> waiting s i -> exists more, st_mu (fold_left ka_step more s) = HFree /\ waiting (fold_left ka_step more s) i.
Proof.
  intros I Hi. destruct (st_mu s) as [| |j] eqn:Em.
  - exists []. auto.
  - apply (i_loop _ I) in Em as [E|E]; exists [LoopStep ChDone (Returns None)]; cbn [fold_left ka_step]; unfold loop_step; rewrite E; cbn [catch_panics]; fields; auto.
  - pose proof (proj1 (i_stop _ I j) Em) as Ej. exists [StopStep j]. cbn [fold_left ka_step]. unfold stop_step. rewrite Ej. fields. split; [reflexivity|].
    unfold waiting in *. fields. rewrite !list_lookup_insert_ne by (intros ->; destruct Hi; congruence). exact Hi.
Qed.
Lemma finish_stop s i : inv s -> waiting s i -> exists more, st_stops (fold_left ka_step more s) !! i = Some SRet.
Proof.
  intros I Hi. destruct (free_up s i I Hi) as (more & Hm & [Hw|Hw]); set (s1 := fold_left ka_step more s) in *.
  - exists (more ++ [StopStep i; StopStep i; StopStep i]). rewrite fold_left_app. fold s1. cbn [fold_left ka_step].
    unfold stop_step at 3. rewrite Hw. unfold stop_step at 2. fields. rewrite list_lookup_insert by (eapply lookup_lt_Some; eauto). fields. rewrite Hm. fields.
    unfold stop_step. fields. rewrite list_insert_insert. rewrite list_lookup_insert by (eapply lookup_lt_Some; eauto). fields.
    rewrite list_insert_insert. apply list_lookup_insert. eapply lookup_lt_Some; eauto.
  - exists (more ++ [StopStep i; StopStep i]). rewrite fold_left_app. fold s1. cbn [fold_left ka_step].
    unfold stop_step at 2. rewrite Hw, Hm. unfold stop_step. fields. rewrite list_lookup_insert by (eapply lookup_lt_Some; eauto). fields.
    rewrite list_insert_insert. apply list_lookup_insert. eapply lookup_lt_Some; eauto.
Qed.
Lemma stop_can_return acts i : i < length (st_stops (ka_exec acts)) ->
  exists more, st_stops (ka_exec (acts ++ more)) !! i = Some SRet.
Proof.
  intros Hi. apply lookup_lt_is_Some in Hi as (c & Hc).
  assert (H : exists more, st_stops (fold_left ka_step more (ka_exec acts)) !! i = Some SRet).
  { pose proof (inv_exec acts) as I. destruct c; [apply finish_stop; [exact I|left; exact Hc]|apply finish_stop; [exact I|right; exact Hc]| |exists []; exact Hc].
    exists [StopStep i]. cbn [fold_left ka_step]. unfold stop_step. rewrite Hc. fields. apply list_lookup_insert. eapply lookup_lt_Some; eauto. }
  destruct H as (more & H). exists more. unfold ka_exec. rewrite fold_left_app. exact H.
Qed.
Lemma calls_inv acts : forall i,
  (EStopCall i ∈ st_log (ka_exec acts) <-> i < length (st_stops (ka_exec acts))) /\
  (st_stops (ka_exec acts) !! i = Some SRet -> exists r, EStopRet i r ∈ st_log (ka_exec acts)).
Proof.
  induction acts as [|a acts IH] using rev_ind; intros i.
  - split; [|discriminate]. cbn. split; [intros H; inversion H|lia].
  - rewrite exec_one. set (s := ka_exec acts) in *. destruct (IH i) as [IH1 IH2]. clear IH.
    destruct a; cbn [ka_step].
    + destruct (st_loop s); fields; rewrite ?elem_snoc; (split; [naive_solver|]); intros H; destruct (IH2 H) as (r & Hr); exists r; rewrite ?elem_snoc; auto.
    + destruct (st_parent s); fields; rewrite ?elem_snoc; (split; [naive_solver|]); intros H; destruct (IH2 H) as (r & Hr); exists r; rewrite ?elem_snoc; auto.
    + unfold loop_step. repeat case_match; fields; rewrite ?elem_snoc; (split; [naive_solver|]); intros Hx; destruct (IH2 Hx) as (r & Hr); exists r; rewrite ?elem_snoc; auto.
    + fields. rewrite elem_snoc, app_length. cbn [length]. split.
      * rewrite IH1. split; [intros [H|H]; [lia|injection H as ->; lia]|]. intros H. destruct (decide (i = length (st_stops s))); [right; congruence|left; lia].
      * intros H. apply lookup_app_Some in H as [H|[_ H]]; [destruct (IH2 H) as (r & Hr); exists r; apply elem_snoc; auto|].
        destruct (i - length (st_stops s)) as [|[|k]]; discriminate.
    + unfold stop_step. destruct (st_stops s !! i0) as [[]|] eqn:E; [| |..]; try (split; [exact IH1|exact IH2]).
      * fields. rewrite insert_length. split; [exact IH1|]. intros H. destruct (decide (i0 = i)) as [->|Hne].
        -- rewrite list_lookup_insert in H by (eapply lookup_lt_Some; eauto). discriminate.
        -- rewrite list_lookup_insert_ne in H by assumption. auto.
      * destruct (st_mu s); fields; rewrite ?insert_length; (split; [exact IH1|]); try exact IH2. intros H. destruct (decide (i0 = i)) as [->|Hne].
        -- rewrite list_lookup_insert in H by (eapply lookup_lt_Some; eauto). discriminate.
        -- rewrite list_lookup_insert_ne in H by assumption. auto.
      * fields. rewrite insert_length, elem_snoc. split; [naive_solver|]. intros H. destruct (decide (i0 = i)) as [->|Hne].
        -- exists (st_err s). apply elem_snoc. auto.
        -- rewrite list_lookup_insert_ne in H by assumption. destruct (IH2 H) as (r & Hr). exists r. apply elem_snoc. auto.
Qed.
Lemma stop_returns acts i : EStopCall i ∈ st_log (ka_exec acts) ->
  exists more r, EStopRet i r ∈ st_log (ka_exec (acts ++ more)).
Proof.
  intros H. apply calls_inv in H. destruct (stop_can_return acts i H) as (more & Hm).
  destruct (proj2 (calls_inv (acts ++ more) i) Hm) as (r & Hr). eauto.
Qed.
