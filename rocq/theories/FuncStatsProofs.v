(** Proofs about FuncStats and funcSet. *)
From Verif Require Import BaseProofs SeriesModel Fval SpecBase Conc ScopeModel ScopeSpec FuncStatsModel FuncStatsSpec.
Local Open Scope Z_scope.
Local Arguments B : simpl never.

(** ** General facts on one step *)
Ltac fsplit :=
  repeat match goal with
  | |- context [if bool_decide ?b then _ else _] => destruct (bool_decide b) eqn:?
  | |- context [if ?a <=? ?b then _ else _] => destruct (a <=? b) eqn:?
  | |- context [if ?a =? ?b then _ else _] => destruct (a =? b) eqn:?
  | |- context [if ?b then _ else _] => is_var b; destruct b eqn:?
  | |- context [match fs_first ?s with _ => _ end] => destruct (fs_first s) eqn:?
  | |- context [match ?e with Some _ => _ | None => _ end] => is_var e; destruct e eqn:?
  end; cbn.
Ltac fcases t :=
  destruct t as [[q err pk d| |ord|] pc]; destruct pc; cbn; unfold end_section; fsplit.

Lemma f_step_call i s t : ft_call (snd (f_step i s t)) = ft_call t.
Proof. fcases t; reflexivity. Qed.

Lemma f_threads_call sched i t : threads (f_exec sched) !! i = Some t ->
  forall more, exists t', threads (f_exec (sched ++ more)) !! i = Some t' /\ ft_call t' = ft_call t.
Proof.
  intros H more. induction more as [|a more IH] using rev_ind.
  - rewrite app_nil_r. eauto.
  - destruct IH as (t' & Ht' & E). rewrite app_assoc. destruct a as [a|j].
    + unfold f_exec. rewrite exec_spawn. cbn. exists t'. split; [|exact E].
      apply lookup_app_l_Some. exact Ht'.
    + destruct (threads (f_exec (sched ++ more)) !! j) as [l|] eqn:El.
      * pose proof (exec_run f_start f_step fs_new (sched ++ more) j l El) as X.
        fold (f_exec ((sched ++ more) ++ [Run j])) in X. rewrite X. cbn.
        destruct (decide (i = j)) as [->|Hij].
        -- rewrite list_lookup_insert by (eapply lookup_lt_Some; exact El).
           eexists; split; [reflexivity|]. rewrite f_step_call. congruence.
        -- rewrite list_lookup_insert_ne by congruence. eauto.
      * pose proof (exec_run_none f_start f_step fs_new (sched ++ more) j El) as X.
        fold (f_exec ((sched ++ more) ++ [Run j])) in X. rewrite X. exact (ex_intro _ t' (conj Ht' E)).
Qed.

(** ** C16 *)
(** funcSet contents *)
Definition added (s : fs) (p : parent) : Prop := fs_first s = Some p \/ p ∈ fs_rest s.

Lemma f_step_added i s t p : added s p -> added (fst (f_step i s t)) p.
Proof.
  unfold added. destruct t as [[q err pk d| |ord|] pc]; destruct pc; cbn; unfold end_section; try tauto;
    fsplit; try tauto; (intros [?|?]; [first [left; congruence|congruence]|right; set_solver]).
Qed.

Lemma f_exec_added sched more p : added (state_after sched) p -> added (state_after (sched ++ more)) p.
Proof.
  intros H. induction more as [|a more IH] using rev_ind; [rewrite app_nil_r; exact H|].
  rewrite app_assoc. unfold state_after, f_exec in *. destruct a as [a|j].
  - rewrite exec_spawn. exact IH.
  - destruct (threads (exec f_start f_step fs_new (sched ++ more)) !! j) as [l|] eqn:El.
    + rewrite (exec_run _ _ _ _ _ _ El). cbn. apply f_step_added. exact IH.
    + rewrite (exec_run_none _ _ _ _ _ El). exact IH.
Qed.

Definition begun_add (t : fthread) (p : parent) : Prop :=
  match ft_call t, ft_pc t with
  | FCall q _ _ _, (F_load | F_cas | F_lock) => False
  | FCall q _ _ _, _ => q = p
  | _, _ => False
  end.

Definition inv16 (s : fs) (ts : list fthread) : Prop :=
  (forall t p, t ∈ ts -> begun_add t p -> added s p) /\
  (forall p, added s p -> exists t, t ∈ ts /\ begun_add t p) /\
  (forall i ord rest, ts !! i = Some (FThr (FParents ord) (F_iter2 rest)) ->
     forall p, p ∈ rest -> exists t, t ∈ ts /\ begun_add t p) /\
  (forall i ord l, ts !! i = Some (FThr (FParents ord) (F_done (FRParents l))) ->
     any_order ord -> NoDup l /\ forall p, p ∈ l -> exists t, t ∈ ts /\ begun_add t p).

Lemma begun_mono i s t p : begun_add t p -> begun_add (snd (f_step i s t)) p.
Proof.
  destruct t as [[q err pk d| |ord|] pc]; destruct pc; unfold begun_add; cbn; try tauto;
    fsplit; tauto.
Qed.

Lemma elem_insert {A} (ts : list A) i (l l' : A) t :
  ts !! i = Some l -> t ∈ <[i := l']> ts -> t = l' \/ t ∈ ts.
Proof.
  intros Hl Ht. apply elem_of_list_lookup in Ht as [j Hj].
  destruct (decide (i = j)) as [<-|Hij].
  - rewrite list_lookup_insert in Hj by (eapply lookup_lt_Some; exact Hl). left. congruence.
  - rewrite list_lookup_insert_ne in Hj by congruence. right. eapply elem_of_list_lookup_2; exact Hj.
Qed.
Lemma elem_insert_new {A} (ts : list A) i (l l' : A) : ts !! i = Some l -> l' ∈ <[i := l']> ts.
Proof.
  intros Hl. eapply elem_of_list_lookup_2. apply list_lookup_insert. eapply lookup_lt_Some; exact Hl.
Qed.
Lemma elem_insert_old {A} (ts : list A) i (l l' : A) t :
  ts !! i = Some l -> t ∈ ts -> t = l \/ t ∈ <[i := l']> ts.
Proof.
  intros Hl Ht. apply elem_of_list_lookup in Ht as [j Hj].
  destruct (decide (i = j)) as [<-|Hij].
  - left. congruence.
  - right. apply (elem_of_list_lookup_2 _ j). rewrite list_lookup_insert_ne by congruence. exact Hj.
Qed.

Lemma step_not_begun i s t p : begun_add (snd (f_step i s t)) p -> ~ begun_add t p ->
  added (fst (f_step i s t)) p.
Proof.
  unfold added. destruct t as [[q err pk d| |ord|] pc]; destruct pc; unfold begun_add; cbn; unfold end_section; try tauto;
    fsplit; intros; subst; try tauto; try congruence.
  - left. match goal with H : bool_decide _ = true |- _ => apply bool_decide_eq_true in H; exact H end.
  - right. set_solver.
Qed.

Lemma step_added_new i s t p : added (fst (f_step i s t)) p -> added s p \/ begun_add (snd (f_step i s t)) p.
Proof.
  unfold added. destruct t as [[q err pk d| |ord|] pc]; destruct pc; unfold begun_add; cbn; unfold end_section; try tauto;
    fsplit; intros; subst; try tauto; try congruence.
  - left. destruct H as [?|?]; [left; congruence|right; assumption].
  - destruct H as [?|?]; [right; congruence|tauto].
  - destruct H as [?|H]; [tauto|]. apply elem_of_union in H as [H|H]; [|tauto].
    apply elem_of_singleton in H. subst. tauto.
Qed.

Lemma begun_dec t p : begun_add t p \/ ~ begun_add t p.
Proof.
  destruct t as [[q err pk d| |ord|] pc]; unfold begun_add; cbn; try tauto.
  destruct pc; try tauto; destruct (decide (q = p)); tauto.
Qed.

Lemma step_iter2 i s t ord rest :
  snd (f_step i s t) = FThr (FParents ord) (F_iter2 rest) ->
  (t = FThr (FParents ord) (F_iter2 rest)) \/ (t = FThr (FParents ord) F_iter1 /\ rest = fs_rest s).
Proof.
  destruct t as [[q err pk d| |o|] pc]; destruct pc; cbn; fsplit; try congruence;
    intros H; try (inversion H; subst; tauto).
Qed.
Lemma step_iterdone i s t ord l :
  snd (f_step i s t) = FThr (FParents ord) (F_done (FRParents l)) ->
  t = FThr (FParents ord) (F_done (FRParents l)) \/
  (exists rest, t = FThr (FParents ord) (F_iter2 rest) /\
     l = ord (elements (match fs_first s with Some f => {[f]} ∪ rest | None => rest end)) /\ fst (f_step i s t) = s).
Proof.
  destruct t as [[q err pk d| |o|] pc]; destruct pc; cbn; fsplit; try congruence;
    intros E'; inversion E'; subst; eauto 10.
Qed.

Lemma inv16_holds sched : inv16 (state_after sched) (threads (f_exec sched)).
Proof.
  unfold state_after, f_exec. apply exec_inv; clear sched.
  - repeat split; try (intros; set_solver).
    intros p [H|H]; [discriminate H|set_solver].
  - intros s ts a (H1 & H2 & H3 & H4).
    assert (Hk : forall p, (exists t, t ∈ ts /\ begun_add t p) -> exists t, t ∈ ts ++ [f_start a] /\ begun_add t p).
    { intros p (t & ? & ?). exists t. split; [apply elem_of_app; tauto|assumption]. }
    repeat split.
    + intros t p Ht Hb. apply elem_of_app in Ht as [Ht|Ht]; [eapply H1; eassumption|].
      apply elem_of_list_singleton in Ht. subst t. destruct a; cbn in Hb; contradiction.
    + intros p Hp. apply Hk, H2, Hp.
    + intros i ord rest Hi p Hp. apply lookup_app_Some in Hi as [Hi|[_ Hi]].
      * apply Hk. eapply H3; eassumption.
      * destruct (i - length ts)%nat as [|n]; [|destruct n; discriminate Hi]. destruct a; discriminate Hi.
    + apply lookup_app_Some in H as [Hi|[_ Hi]].
      * eapply H4; eassumption.
      * destruct (i - length ts)%nat as [|n]; [|destruct n; discriminate Hi]. destruct a; discriminate Hi.
    + intros p Hp. apply lookup_app_Some in H as [Hi|[_ Hi]].
      * apply Hk. eapply H4; eassumption.
      * destruct (i - length ts)%nat as [|n]; [|destruct n; discriminate Hi]. destruct a; discriminate Hi.
  - intros s ts i t (H1 & H2 & H3 & H4) Hi.
    assert (Hk : forall p, (exists t, t ∈ ts /\ begun_add t p) ->
              exists t', t' ∈ <[i := snd (f_step i s t)]> ts /\ begun_add t' p).
    { intros p (u & Hu & Hb). destruct (elem_insert_old _ _ _ (snd (f_step i s t)) _ Hi Hu) as [->|Hin].
      - exists (snd (f_step i s t)). split; [eapply elem_insert_new; exact Hi|apply begun_mono, Hb].
      - exists u. tauto. }
    repeat split.
    + intros u p Hu Hb. destruct (elem_insert _ _ _ _ _ Hi Hu) as [->|Hin].
      * destruct (begun_dec t p) as [Ht|Ht].
        -- apply f_step_added. eapply H1; [eapply elem_of_list_lookup_2; exact Hi|exact Ht].
        -- eapply step_not_begun; eassumption.
      * apply f_step_added. eapply H1; eassumption.
    + intros p Hp. destruct (step_added_new _ _ _ _ Hp) as [Ho|Hb].
      * apply Hk, H2, Ho.
      * eexists; split; [eapply elem_insert_new; exact Hi|exact Hb].
    + intros j ord rest Hj p Hp. apply list_lookup_insert_Some in Hj as [(<- & E & _)|[_ Hj]].
      * destruct (step_iter2 _ _ _ _ _ E) as [->|[-> ->]].
        -- apply Hk. eapply H3; eassumption.
        -- apply Hk, H2. right. exact Hp.
      * apply Hk. eapply H3; eassumption.
    + apply list_lookup_insert_Some in H as [(<- & E & _)|[_ Hj]].
      * destruct (step_iterdone _ _ _ _ _ E) as [->|(rest & -> & -> & _)].
        -- eapply H4; eassumption.
        -- rewrite (H0 _). apply NoDup_elements.
      * eapply H4; eassumption.
    + intros p Hp. apply list_lookup_insert_Some in H as [(<- & E & _)|[_ Hj]].
      * destruct (step_iterdone _ _ _ _ _ E) as [->|(rest & -> & -> & _)].
        -- apply Hk. eapply H4; eassumption.
        -- rewrite (H0 _) in Hp. apply elem_of_elements in Hp.
           destruct (fs_first s) as [f|] eqn:Ef.
           ++ apply elem_of_union in Hp as [Hp|Hp].
              ** apply elem_of_singleton in Hp. subst. apply Hk, H2. left. exact Ef.
              ** apply Hk. eapply H3; [exact Hi|exact Hp].
           ++ apply Hk. eapply H3; [exact Hi|exact Hp].
      * apply Hk. eapply H4; eassumption.
Qed.

Lemma parents_nodup sched i ord l :
  any_order ord -> threads (f_exec sched) !! i = Some (FThr (FParents ord) (F_done (FRParents l))) -> NoDup l.
Proof. intros Ho Hi. destruct (inv16_holds sched) as (_ & _ & _ & H). eapply H; eassumption. Qed.

Lemma parents_sound sched i ord l p :
  any_order ord -> threads (f_exec sched) !! i = Some (FThr (FParents ord) (F_done (FRParents l))) -> p ∈ l ->
  exists j t err pk d, threads (f_exec sched) !! j = Some t /\ ft_call t = FCall p err pk d.
Proof.
  intros Ho Hi Hp. destruct (inv16_holds sched) as (_ & _ & _ & H).
  destruct (H _ _ _ Hi Ho) as [_ Hs]. destruct (Hs p Hp) as (t & Ht & Hb).
  apply elem_of_list_lookup in Ht as [j Hj]. exists j, t.
  destruct t as [[q err pk d| |o|] pc]; unfold begun_add in Hb; cbn in Hb; try contradiction.
  exists err, pk, d. split; [exact Hj|]. destruct pc; try contradiction; cbn; congruence.
Qed.

Lemma started_begun sched i p err pk d t :
  threads (f_exec sched) !! i = Some t -> ft_call t = FCall p err pk d -> started t -> added (state_after sched) p.
Proof.
  intros Hi Hc Hs. destruct (inv16_holds sched) as (H & _). eapply H; [eapply elem_of_list_lookup_2; exact Hi|].
  destruct t as [c pc]; cbn in *; subst c. unfold begun_add; cbn. destruct pc; cbn in Hs; try contradiction; reflexivity.
Qed.

(** After the start of a Parents call, p stays visible. *)
Lemma parents_complete sched more i t p err pk d j ord l :
  any_order ord ->
  threads (f_exec sched) !! i = Some t -> ft_call t = FCall p err pk d -> started t ->
  (forall u, threads (f_exec sched) !! j = Some u -> ft_pc u = F_iter1) ->
  threads (f_exec (sched ++ more)) !! j = Some (FThr (FParents ord) (F_done (FRParents l))) -> p ∈ l.
Proof.
  intros Ho Hi Hc Hs Hj Hl.
  pose proof (started_begun _ _ _ _ _ _ _ Hi Hc Hs) as Ha.
  enough (Hinv : forall u, threads (f_exec (sched ++ more)) !! j = Some u ->
            match u with
            | FThr (FParents ord) (F_iter2 rest) => p ∈ rest \/ fs_first (state_after (sched ++ more)) = Some p
            | FThr (FParents ord) (F_done (FRParents l)) => any_order ord -> p ∈ l
            | _ => True
            end).
  { exact (Hinv _ Hl Ho). }
  clear Hl l ord Ho Hi Hc Hs t i.
  induction more as [|a more IH] using rev_ind.
  - rewrite app_nil_r. intros [c pc] Hu. specialize (Hj _ Hu). cbn in Hj. subst pc. destruct c; exact I.
  - pose proof (f_exec_added sched more p Ha) as Ha'. rewrite app_assoc.
    unfold state_after, f_exec in *. intros u Hu. destruct a as [a|k].
    + rewrite exec_spawn in *. cbn in Hu |- *. apply lookup_app_Some in Hu as [Hu|[_ Hu]]; [exact (IH _ Hu)|].
      destruct (j - length _)%nat as [|n]; [|destruct n; discriminate Hu].
      inversion Hu; subst u. destruct a; exact I.
    + destruct (threads (exec f_start f_step fs_new (sched ++ more)) !! k) as [t|] eqn:Ek.
      2: { rewrite (exec_run_none _ _ _ _ _ Ek) in *. exact (IH _ Hu). }
      rewrite (exec_run _ _ _ _ _ _ Ek) in *. cbn in Hu |- *.
      set (c := exec f_start f_step fs_new (sched ++ more)) in *.
      apply list_lookup_insert_Some in Hu as [(<- & E & _)|[Hne Hu]].
      * specialize (IH _ Ek). subst u. destruct t as [[q err' pk' d'| |o|] pc]; destruct pc; cbn; fsplit; try exact I; try exact IH.
        -- destruct Ha' as [Ha'|Ha']; [right; exact Ha'|left; exact Ha'].
        -- intros Ho. rewrite (Ho _). apply elem_of_elements.
           destruct IH as [IH|IH]; [set_solver|]. assert (p = p0) as -> by congruence. set_solver.
        -- intros Ho. rewrite (Ho _). apply elem_of_elements.
           destruct IH as [IH|IH]; [exact IH|]. congruence.
      * specialize (IH _ Hu). destruct u as [[q err' pk' d'| |o|] pc]; destruct pc; try exact I; try exact IH.
        destruct IH as [IH|IH]; [left; exact IH|]. right.
        clear -IH. fcases t; congruence.
Qed.

(** ** C17 *)
Lemma ends_app acc l1 l2 :
  ends_after_reset acc (l1 ++ l2) = ends_after_reset (ends_after_reset acc l1) l2.
Proof.
  revert acc. induction l1 as [|e l1 IH]; intros acc; cbn; [reflexivity|].
  destruct e; apply IH.
Qed.

Lemma number_of_app c l1 l2 : number_of c (l1 ++ l2) = number_of c l1 + number_of c l2.
Proof. unfold number_of. rewrite List.filter_app, app_length. lia. Qed.
Lemma number_of_errors_app l1 l2 : number_of_errors (l1 ++ l2) = number_of_errors l1 + number_of_errors l2.
Proof. unfold number_of_errors. rewrite List.filter_app, app_length. lia. Qed.
Lemma number_of_one c c' d : number_of c [(c', d)] = if decide (c' = c) then 1 else 0.
Proof. unfold number_of. cbn [List.filter fst].
  destruct (decide (c' = c)); [rewrite bool_decide_eq_true_2 by assumption|rewrite bool_decide_eq_false_2 by assumption]; reflexivity. Qed.
Lemma durations_one f c d : durations f [(c, d)] = if f c then [d] else [].
Proof. unfold durations. cbn. destruct (f c); reflexivity. Qed.
Lemma number_of_nonneg c l : 0 <= number_of c l.
Proof. unfold number_of. lia. Qed.

(** The locked fields as functions of the ends since the last Reset. *)
Definition locked_ok (s : fs) : Prop :=
  fs_panics s = number_of CPanic (ends s) /\
  (forall e n, fs_errors s !! e = Some n <-> n = number_of (CError e) (ends s) /\ 0 < n) /\
  fs_success s = durations (fun c => bool_decide (c = CSuccess)) (ends s) /\
  fs_failure s = durations (fun c => negb (bool_decide (c = CSuccess))) (ends s).

Lemma durations_app f l1 l2 : durations f (l1 ++ l2) = durations f l1 ++ durations f l2.
Proof. unfold durations. rewrite List.filter_app, map_app. reflexivity. Qed.

Lemma count_default (m : gmap bytes Z) l e :
  (forall e n, m !! e = Some n <-> n = number_of (CError e) l /\ 0 < n) ->
  default 0 (m !! e) = number_of (CError e) l.
Proof.
  intros H2. destruct (m !! e) as [n|] eqn:Em; cbn.
  - apply H2 in Em. tauto.
  - destruct (Z.eq_dec (number_of (CError e) l) 0) as [H0|H0]; [lia|].
    pose proof (number_of_nonneg (CError e) l).
    enough (m !! e = Some (number_of (CError e) l)) by congruence.
    apply H2. lia.
Qed.

Lemma locked_ok_end i err pk d s : locked_ok s -> locked_ok (end_section i err pk d s).
Proof.
  intros (H1 & H2 & H3 & H4).
  assert (E : ends (end_section i err pk d s) = ends s ++ [(classify err pk, d)]).
  { unfold ends. unfold end_section. destruct pk; [|destruct err]; cbn; rewrite ends_app; reflexivity. }
  unfold locked_ok. rewrite E, number_of_app, !durations_app, number_of_one, !durations_one.
  assert (Hsame : (forall e, classify err pk <> CError e) -> forall e n,
    fs_errors s !! e = Some n <-> n = number_of (CError e) (ends s ++ [(classify err pk, d)]) /\ 0 < n).
  { intros Hne e n. rewrite number_of_app, number_of_one, decide_False by apply Hne. rewrite Z.add_0_r. apply H2. }
  unfold end_section.
  destruct pk; [|destruct err as [e|]]; cbn [fs_panics fs_errors fs_success fs_failure classify] in *.
  - rewrite H1, H3, H4. rewrite decide_True by reflexivity. cbn. rewrite app_nil_r.
    split; [lia|]. split; [|tauto]. apply Hsame. congruence.
  - rewrite H1, H3, H4. rewrite decide_False by congruence. rewrite bool_decide_eq_false_2 by congruence. cbn. rewrite app_nil_r.
    split; [lia|]. split; [|tauto]. intros e' n. rewrite number_of_app, number_of_one.
    rewrite (count_default _ _ _ H2).
    destruct (decide (e = e')) as [<-|Hne].
    + rewrite lookup_insert, decide_True by reflexivity. pose proof (number_of_nonneg (CError e) (ends s)).
      split; [intros X; inversion X; lia|intros [-> _]; reflexivity].
    + rewrite lookup_insert_ne, decide_False by congruence. rewrite Z.add_0_r. apply H2.
  - rewrite H1, H3, H4. rewrite decide_False by congruence. rewrite bool_decide_eq_true_2 by reflexivity. cbn. rewrite app_nil_r.
    split; [lia|]. split; [|tauto]. apply Hsame. congruence.
Qed.

Lemma locked_ok_reset s : locked_ok (reset_section s).
Proof.
  assert (E : ends (reset_section s) = []).
  { unfold ends. cbn. rewrite ends_app. reflexivity. }
  unfold locked_ok. rewrite E. cbn. repeat split; try (intros; rewrite lookup_empty in *; congruence).
  intros [-> Hp]. unfold number_of in Hp. cbn in Hp. lia.
Qed.

Lemma locked_ok_step i s t : locked_ok s -> locked_ok (fst (f_step i s t)).
Proof.
  intros H. destruct t as [[q err pk d| |ord|] pc]; destruct pc; cbn; try exact H; fsplit; try exact H.
  - apply locked_ok_end, H.
  - apply locked_ok_reset.
Qed.

Lemma locked_ok_exec sched : locked_ok (state_after sched).
Proof.
  unfold state_after, f_exec. apply (exec_inv f_start f_step (fun s _ => locked_ok s)); clear sched.
  - unfold locked_ok. cbn. repeat split; try (intros; rewrite lookup_empty in *; congruence).
    intros [-> Hp]. unfold number_of in Hp. cbn in Hp. lia.
  - intros; assumption.
  - intros s ts i l H _. apply locked_ok_step, H.
Qed.

(** Each finished call is in the log exactly once. *)
Definition log_of (t : fthread) (i : nat) : list event :=
  match t with
  | FThr (FCall _ err pk d) (F_done _) => [EvEnd i err pk d]
  | _ => []
  end.

Lemma ends_of_app i l1 l2 : ends_of i (l1 ++ l2) = ends_of i l1 ++ ends_of i l2.
Proof. apply List.filter_app. Qed.

Lemma log_inv sched :
  (forall i t, threads (f_exec sched) !! i = Some t -> ends_of i (fs_log (state_after sched)) = log_of t i) /\
  (forall i, threads (f_exec sched) !! i = None -> ends_of i (fs_log (state_after sched)) = []).
Proof.
  unfold state_after, f_exec. apply (exec_inv f_start f_step (fun s ts =>
    (forall i t, ts !! i = Some t -> ends_of i (fs_log s) = log_of t i) /\
    (forall i, ts !! i = None -> ends_of i (fs_log s) = []))); clear sched.
  - split; [intros i t H; rewrite lookup_nil in H; discriminate H|reflexivity].
  - intros s ts a [H1 H2]. split.
    + intros i t H. apply lookup_app_Some in H as [H|[Hl H]]; [exact (H1 _ _ H)|].
      rewrite H2 by (apply lookup_ge_None; lia).
      destruct (i - length ts)%nat as [|n]; [|destruct n; discriminate H].
      inversion H; subst. destruct a; reflexivity.
    + intros i H. apply H2. apply lookup_ge_None in H. apply lookup_ge_None. rewrite app_length in H. lia.
  - intros s ts k t [H1 H2] Hk.
    assert (Hlen : (k < length ts)%nat) by (eapply lookup_lt_Some; exact Hk).
    assert (Hs : (exists q err pk d, t = FThr (FCall q err pk d) F_endlock /\
                    fs_log (fst (f_step k s t)) = fs_log s ++ [EvEnd k err pk d] /\
                    snd (f_step k s t) = FThr (FCall q err pk d) (F_done FRNone)) \/
                 ((fs_log (fst (f_step k s t)) = fs_log s \/ fs_log (fst (f_step k s t)) = fs_log s ++ [EvReset]) /\
                  log_of (snd (f_step k s t)) k = log_of t k)).
    { destruct t as [[q err pk d| |ord|] pc]; destruct pc; cbn; try (right; fsplit; tauto).
      left. exists q, err, pk, d. split; [reflexivity|]. split; [|reflexivity].
      unfold end_section. destruct pk; [|destruct err]; reflexivity. }
    destruct Hs as [(q & err & pk & d & -> & Hlog & Hsnd)|[Hlog Hsame]].
    + rewrite Hlog, Hsnd. split.
      * intros i u Hu. rewrite ends_of_app. apply list_lookup_insert_Some in Hu as [(<- & <- & _)|[Hne Hu]].
        -- rewrite (H1 _ _ Hk). cbn. rewrite Nat.eqb_refl. reflexivity.
        -- rewrite (H1 _ _ Hu). cbn. rewrite (proj2 (Nat.eqb_neq i k)) by congruence. apply app_nil_r.
      * intros i Hi. rewrite ends_of_app. rewrite list_lookup_insert_ne in Hi.
        -- rewrite (H2 _ Hi). cbn. destruct (Nat.eqb_spec i k) as [->|]; [congruence|reflexivity].
        -- intros ->. rewrite list_lookup_insert in Hi by exact Hlen. discriminate Hi.
    + assert (Hl : forall i, ends_of i (fs_log (fst (f_step k s t))) = ends_of i (fs_log s)).
      { intros i. destruct Hlog as [->| ->]; [reflexivity|]. rewrite ends_of_app. apply app_nil_r. }
      split.
      * intros i u Hu. rewrite Hl. apply list_lookup_insert_Some in Hu as [(<- & <- & _)|[Hne Hu]].
        -- rewrite Hsame. exact (H1 _ _ Hk).
        -- exact (H1 _ _ Hu).
      * intros i Hi. rewrite Hl. apply H2. destruct (decide (k = i)) as [->|Hne].
        -- rewrite list_lookup_insert in Hi by exact Hlen. discriminate Hi.
        -- rewrite list_lookup_insert_ne in Hi by exact Hne. exact Hi.
Qed.

Lemma end_counted_once sched i p err pk d pc :
  threads (f_exec sched) !! i = Some (FThr (FCall p err pk d) pc) ->
  ends_of i (fs_log (state_after sched)) =
  match pc with F_done _ => [EvEnd i err pk d] | _ => [] end.
Proof. intros H. rewrite (proj1 (log_inv sched) _ _ H). destruct pc; reflexivity. Qed.

Lemma log_entry_of_call sched i err pk d :
  EvEnd i err pk d ∈ fs_log (state_after sched) ->
  exists p r, threads (f_exec sched) !! i = Some (FThr (FCall p err pk d) (F_done r)).
Proof.
  intros H. assert (Hin : In (EvEnd i err pk d) (ends_of i (fs_log (state_after sched)))).
  { apply List.filter_In. split; [apply elem_of_list_In, H|apply Nat.eqb_refl]. }
  destruct (threads (f_exec sched) !! i) as [t|] eqn:E.
  - rewrite (proj1 (log_inv sched) _ _ E) in Hin.
    destruct t as [[q err' pk' d'| |o|] pc]; cbn in Hin; try contradiction.
    destruct pc; cbn in Hin; try contradiction. destruct Hin as [Hin|[]]. inversion Hin; subst. eauto.
  - rewrite (proj2 (log_inv sched) _ E) in Hin. contradiction.
Qed.

(** Sums *)
Lemma class_sum l : number_of CSuccess l + number_of_errors l + number_of CPanic l = Z.of_nat (length l).
Proof.
  induction l as [|[c d] l IH]; [reflexivity|].
  change ((c, d) :: l) with ([(c, d)] ++ l). rewrite !number_of_app, number_of_errors_app, app_length.
  rewrite !number_of_one. unfold number_of_errors at 1. cbn [fst List.filter].
  destruct c; cbn [is_error length app List.filter fst]; repeat (destruct (decide _); try congruence); lia.
Qed.

Lemma durations_length c l :
  Z.of_nat (length (durations (fun c' => bool_decide (c' = c)) l)) = number_of c l.
Proof. unfold durations, number_of. rewrite map_length. reflexivity. Qed.

(** The sum of an error map in any order. *)
Lemma fold_sum_perm (l l' : list (bytes * Z)) acc :
  Permutation l l' -> fold_left (fun a e => a + snd e) l acc = fold_left (fun a e => a + snd e) l' acc.
Proof.
  intros H. revert acc. induction H as [|x l l' _ IH|x y l|l1 l2 l3 _ IH1 _ IH2]; intros acc; cbn.
  - reflexivity.
  - apply IH.
  - f_equal. lia.
  - rewrite IH1. apply IH2.
Qed.
Lemma fold_sum_acc (l : list (bytes * Z)) acc :
  fold_left (fun a e => a + snd e) l acc = acc + fold_left (fun a e => a + snd e) l 0.
Proof.
  revert acc. induction l as [|x l IH]; intros acc; cbn [fold_left]; [lia|]. rewrite (IH (acc + snd x)), (IH (0 + snd x)). lia.
Qed.

Definition map_sum (m : gmap bytes Z) : Z := fold_left (fun a e => a + snd e) (map_to_list m) 0.
Lemma map_sum_insert m e n : m !! e = None -> map_sum (<[e := n]> m) = n + map_sum m.
Proof.
  intros H. unfold map_sum. rewrite (fold_sum_perm _ ((e, n) :: map_to_list m)) by (apply map_to_list_insert, H).
  cbn. rewrite fold_sum_acc. lia.
Qed.
Lemma map_sum_empty : map_sum ∅ = 0.
Proof. unfold map_sum. rewrite map_to_list_empty. reflexivity. Qed.

(** If the map counts the error classes of l then its sum is the number of errors. *)
Lemma map_sum_errors l : forall m : gmap bytes Z,
  (forall e n, m !! e = Some n <-> n = number_of (CError e) l /\ 0 < n) -> map_sum m = number_of_errors l.
Proof.
  induction l as [|[c d] l IH] using rev_ind; intros m Hm.
  - replace m with (∅ : gmap bytes Z); [apply map_sum_empty|].
    symmetry. apply map_eq. intros e. rewrite lookup_empty.
    destruct (m !! e) as [n|] eqn:E; [|reflexivity]. apply Hm in E. unfold number_of in E. cbn in E. lia.
  - rewrite number_of_errors_app. destruct c as [|e|].
    + change (number_of_errors [(CSuccess, d)]) with 0. rewrite Z.add_0_r. apply IH. intros e n.
      rewrite Hm, number_of_app. rewrite number_of_one, decide_False by congruence. rewrite Z.add_0_r. reflexivity.
    + change (number_of_errors [(CError e, d)]) with 1.
      set (k := number_of (CError e) l).
      assert (He : m !! e = Some (k + 1)).
      { apply Hm. rewrite number_of_app. rewrite number_of_one, decide_True by reflexivity. pose proof (number_of_nonneg (CError e) l). fold k. lia. }
      rewrite <- (insert_delete m e (k + 1) He).
      rewrite map_sum_insert by apply lookup_delete.
      destruct (Z.eq_dec k 0) as [Hk|Hk].
      * rewrite (IH (delete e m)); [lia|]. intros e' n. destruct (decide (e' = e)) as [->|Hne].
        -- rewrite lookup_delete. split; [discriminate|]. fold k. lia.
        -- rewrite lookup_delete_ne by congruence. rewrite Hm, number_of_app. rewrite number_of_one, decide_False by congruence. rewrite Z.add_0_r. reflexivity.
      * assert (Hs : map_sum (<[e := k]> (delete e m)) = number_of_errors l).
        { apply IH. intros e' n. destruct (decide (e' = e)) as [->|Hne].
          - rewrite lookup_insert. fold k. pose proof (number_of_nonneg (CError e) l). fold k in H.
            split; [intros E; inversion E; lia|intros [-> _]; reflexivity].
          - rewrite lookup_insert_ne, lookup_delete_ne by congruence. rewrite Hm, number_of_app. rewrite number_of_one, decide_False by congruence. rewrite Z.add_0_r. reflexivity. }
        rewrite map_sum_insert in Hs by apply lookup_delete. lia.
    + change (number_of_errors [(CPanic, d)]) with 0. rewrite Z.add_0_r. apply IH. intros e n.
      rewrite Hm, number_of_app. rewrite number_of_one, decide_False by congruence. rewrite Z.add_0_r. reflexivity.
Qed.

Lemma counted_once_sum sched :
  let s := state_after sched in
  Z.of_nat (length (fs_success s)) + map_sum (fs_errors s) + fs_panics s = Z.of_nat (length (ends s)).
Proof.
  intros s. destruct (locked_ok_exec sched) as (H1 & H2 & H3 & H4). fold s in H1, H2, H3, H4.
  rewrite H1, H3, durations_length, (map_sum_errors (ends s) _ H2). apply class_sum.
Qed.


(** A Stats call's snapshot is the locked state at one moment of the execution, and the
    two atomic values are those of earlier moments. *)
Lemma f_exec_nil : threads (f_exec []) = [].
Proof. reflexivity. Qed.
Definition stats_ok (h : list (action fcall)) (t : fthread) : Prop :=
  match t with
  | FThr FStats (F_stats2 c) => exists p1 q1, h = p1 ++ q1 /\ c = fs_current (state_after p1)
  | FThr FStats (F_stats3 c w) =>
      exists p1 p2 q, h = p1 ++ p2 ++ q /\ c = fs_current (state_after p1) /\ w = fs_highwater (state_after (p1 ++ p2))
  | FThr FStats (F_done (FRStats sn)) =>
      exists p1 p2 p3 q, h = p1 ++ p2 ++ p3 ++ q /\ sn_current sn = fs_current (state_after p1) /\
        sn_highwater sn = fs_highwater (state_after (p1 ++ p2)) /\ locked_view sn (state_after (p1 ++ p2 ++ p3))
  | _ => True
  end.
Lemma stats_ok_more h t a : stats_ok h t -> stats_ok (h ++ [a]) t.
Proof.
  destruct t as [[q err pk d| |ord|] pc]; destruct pc as [| | | | | | | | | | | | | | | |r]; try exact id.
  - intros (p1 & q1 & -> & E). exists p1, (q1 ++ [a]). rewrite app_assoc. auto.
  - intros (p1 & p2 & q1 & -> & E). exists p1, p2, (q1 ++ [a]). rewrite <- !app_assoc. auto.
  - destruct r as [| |sn]; try exact id.
    intros (p1 & p2 & p3 & q1 & -> & E). exists p1, p2, p3, (q1 ++ [a]). rewrite <- !app_assoc. auto.
Qed.
Lemma stats_ok_exec sched i t : threads (f_exec sched) !! i = Some t -> stats_ok sched t.
Proof.
  revert i t. induction sched as [|a sched IH] using rev_ind; intros i t H.
  - rewrite f_exec_nil, lookup_nil in H. discriminate H.
  - unfold f_exec in *. destruct a as [a|k].
    + rewrite exec_spawn in H. cbn in H. apply lookup_app_Some in H as [H|[_ H]].
      * apply stats_ok_more. eapply IH, H.
      * destruct (i - length _)%nat as [|n]; [|destruct n; discriminate H]. inversion H; subst. destruct a; exact I.
    + destruct (threads (exec f_start f_step fs_new sched) !! k) as [u|] eqn:Ek.
      2: { rewrite (exec_run_none _ _ _ _ _ Ek) in H. apply stats_ok_more. eapply IH, H. }
      rewrite (exec_run _ _ _ _ _ _ Ek) in H. cbn in H.
      apply list_lookup_insert_Some in H as [(<- & <- & _)|[_ H]].
      2: { apply stats_ok_more. eapply IH, H. }
      pose proof (stats_ok_more _ _ (Run k) (IH _ _ Ek)) as Hm.
      specialize (IH _ _ Ek).
      destruct u as [[q err pk d| |ord|] pc]; destruct pc; cbn [f_step ft_call ft_pc]; fsplit; try exact I; try exact Hm.
      * exists sched, [Run k]. split; reflexivity.
      * destruct IH as (p1 & q1 & E & Ec). exists p1, q1, [Run k].
        split; [rewrite app_assoc, <- E; reflexivity|]. split; [exact Ec|]. rewrite <- E. reflexivity.
      * destruct IH as (p1 & p2 & q1 & E & Ec & Eh). exists p1, p2, q1, [Run k].
        split; [rewrite E, <- !app_assoc; reflexivity|]. split; [exact Ec|]. split; [exact Eh|].
        rewrite <- E. repeat split.
Qed.

Lemma stats_emission sched i sn key ds errs :
  threads (f_exec sched) !! i = Some (FThr FStats (F_done (FRStats sn))) ->
  Permutation errs (map_to_list (sn_errors sn)) ->
  exists p1 p2 p3 q, sched = p1 ++ p2 ++ p3 ++ q /\
  let l := ends (state_after (p1 ++ p2 ++ p3)) in
  (forall e n, In (e, n) errs <-> n = number_of (CError e) l /\ 0 < n) /\
  NoDup (map fst errs) /\
  fs_stats key ds sn errs =
    [Stat key (B "current") (FInt (fs_current (state_after p1)));
     Stat key (B "highwater") (FInt (fs_highwater (state_after (p1 ++ p2))));
     Stat key (B "successes") (FInt (number_of CSuccess l))]
    ++ map (fun e => Stat (error_key key (fst e)) (B "count") (FInt (snd e))) errs
    ++ [Stat key (B "errors") (FInt (number_of_errors l));
        Stat key (B "panics") (FInt (number_of CPanic l));
        Stat key (B "failures") (FInt (number_of_errors l + number_of CPanic l));
        Stat key (B "total") (FInt (Z.of_nat (length l)))]
    ++ ds (success_key key) (durations (fun c => bool_decide (c = CSuccess)) l)
    ++ ds (failure_key key) (durations (fun c => negb (bool_decide (c = CSuccess))) l).
Proof.
  intros Hi Hp. pose proof (stats_ok_exec _ _ _ Hi) as (p1 & p2 & p3 & q & E & Ec & Eh & (V1 & V2 & V3 & V4)).
  exists p1, p2, p3, q. split; [exact E|]. intros l.
  destruct (locked_ok_exec (p1 ++ p2 ++ p3)) as (H1 & H2 & H3 & H4). fold l in H1, H2, H3, H4.
  rewrite <- V2 in H2. split; [|split].
  - intros e n. rewrite <- H2, <- elem_of_map_to_list, <- elem_of_list_In, Hp. reflexivity.
  - rewrite Hp. apply NoDup_fst_map_to_list.
  - unfold fs_stats. rewrite Ec, Eh, V1, V3, V4, H3, durations_length, H1, H4.
    rewrite (fold_sum_perm _ _ _ Hp). change (fold_left _ (map_to_list (sn_errors sn)) 0) with (map_sum (sn_errors sn)).
    rewrite (map_sum_errors l _ H2), <- class_sum. reflexivity.
Qed.

(** ** C18 *)
Definition flight_count (ts : list fthread) : Z := Z.of_nat (length (List.filter in_flight ts)).

Lemma flight_count_app ts1 ts2 : flight_count (ts1 ++ ts2) = flight_count ts1 + flight_count ts2.
Proof. unfold flight_count. rewrite List.filter_app, app_length. lia. Qed.
Definition b2z (b : bool) : Z := if b then 1 else 0.
Lemma flight_count_insert ts i t t' : ts !! i = Some t ->
  flight_count (<[i := t']> ts) = flight_count ts - b2z (in_flight t) + b2z (in_flight t').
Proof.
  intros H. rewrite insert_take_drop by (eapply lookup_lt_Some; exact H).
  rewrite <- (take_drop_middle ts i t H) at 3.
  change (t' :: drop (S i) ts) with ([t'] ++ drop (S i) ts). change (t :: drop (S i) ts) with ([t] ++ drop (S i) ts).
  rewrite !flight_count_app. unfold flight_count at 2 5. cbn. destruct (in_flight t), (in_flight t'); cbn; lia.
Qed.

Definition no_reset_thread (ts : list fthread) : Prop := forall t, t ∈ ts -> ft_call t <> FReset.

Lemma no_reset_threads sched : no_reset sched -> no_reset_thread (threads (f_exec sched)).
Proof.
  induction sched as [|a sched IH] using rev_ind; intros Hn.
  - intros t Ht. set_solver.
  - assert (Hn' : no_reset sched). { intros H. apply Hn. apply in_or_app. tauto. }
    specialize (IH Hn'). unfold f_exec in *. destruct a as [a|k].
    + rewrite exec_spawn. cbn. intros t Ht. apply elem_of_app in Ht as [Ht|Ht]; [exact (IH _ Ht)|].
      apply elem_of_list_singleton in Ht. subst t. intros Ha. apply Hn. apply in_or_app. right. left.
      destruct a; cbn in Ha; congruence.
    + destruct (threads (exec f_start f_step fs_new sched) !! k) as [u|] eqn:Ek.
      * rewrite (exec_run _ _ _ _ _ _ Ek). cbn. intros t Ht.
        destruct (elem_insert _ _ _ _ _ Ek Ht) as [->|Hin]; [|exact (IH _ Hin)].
        rewrite f_step_call. apply IH. eapply elem_of_list_lookup_2; exact Ek.
      * rewrite (exec_run_none _ _ _ _ _ Ek). exact IH.
Qed.

Lemma no_reset_app h1 h2 : no_reset (h1 ++ h2) -> no_reset h1.
Proof. intros H X. apply H. apply in_or_app. tauto. Qed.

Lemma step_current i s t : ft_call t <> FReset ->
  fs_current (fst (f_step i s t)) = fs_current s - b2z (in_flight t) + b2z (in_flight (snd (f_step i s t))).
Proof. intros H. fcases t; cbn in *; try congruence; lia. Qed.

Lemma current_counts sched : no_reset sched ->
  fs_current (state_after sched) = flight_count (threads (f_exec sched)).
Proof.
  induction sched as [|a sched IH] using rev_ind; intros Hn; [reflexivity|].
  pose proof (no_reset_app _ _ Hn) as Hn'. specialize (IH Hn'). pose proof (no_reset_threads _ Hn') as Ht.
  unfold state_after, f_exec in *. destruct a as [a|k].
  - rewrite exec_spawn. cbn. rewrite flight_count_app, IH. destruct a; unfold flight_count at 3; cbn; lia.
  - destruct (threads (exec f_start f_step fs_new sched) !! k) as [u|] eqn:Ek.
    + rewrite (exec_run _ _ _ _ _ _ Ek). cbn. rewrite (flight_count_insert _ _ _ _ Ek), <- IH.
      apply step_current, Ht. eapply elem_of_list_lookup_2; exact Ek.
    + rewrite (exec_run_none _ _ _ _ _ Ek). exact IH.
Qed.

(** Highwater.  [pend t]: the value of current a half-way start has obtained. *)
Definition pend (t : fthread) : option Z :=
  match ft_pc t with F_hwload c => Some c | F_hwcas c _ => Some c | _ => None end.
Definition pending (ts : list fthread) (c : Z) : Prop := exists i t, ts !! i = Some t /\ pend t = Some c.
Definition cas_ok (t : fthread) : Prop := match ft_pc t with F_hwcas c w => w < c | _ => True end.

Lemma step_hw i s t : ft_call t <> FReset -> cas_ok t ->
  let s' := fst (f_step i s t) in let t' := snd (f_step i s t) in
  cas_ok t' /\
  ((pend t' = pend t /\ fs_highwater s' = fs_highwater s /\ fs_current s' <= fs_current s) \/
   (pend t = None /\ pend t' = Some (fs_current s') /\ fs_highwater s' = fs_highwater s) \/
   (exists c, pend t = Some c /\ pend t' = None /\ fs_current s' = fs_current s /\
      fs_highwater s <= fs_highwater s' /\ c <= fs_highwater s' /\ (fs_highwater s' = c \/ fs_highwater s' = fs_highwater s))).
Proof.
  intros Hr Hc. unfold cas_ok, pend in *. destruct t as [[q err pk d| |ord|] pc]; cbn in Hr; try congruence;
    destruct pc; cbn in *; unfold end_section; fsplit; (split; [try exact I; try lia|]);
    try (left; split; [reflexivity|split; [reflexivity|lia]]).
  - right; left. tauto.
  - right; right. exists c. repeat split; try tauto; lia.
  - right; right. exists c. repeat split; try tauto; lia.
Qed.

Definition attained (h : list (action fcall)) (c : Z) : Prop :=
  exists pre post, h = pre ++ post /\ fs_current (state_after pre) = c.
Lemma attained_more h c a : attained h c -> attained (h ++ [a]) c.
Proof. intros (p & q & -> & E). exists p, (q ++ [a]). rewrite app_assoc. auto. Qed.
Lemma attained_now h : attained h (fs_current (state_after h)).
Proof. exists h, []. rewrite app_nil_r. auto. Qed.
Lemma attained_snoc h c a : attained (h ++ [a]) c -> attained h c \/ c = fs_current (state_after (h ++ [a])).
Proof.
  intros (p & q & E & Ec). destruct q as [|b q _] using rev_ind.
  - rewrite app_nil_r in E. subst p. right. congruence.
  - rewrite app_assoc in E. apply app_inj_tail in E as [E _]. left. exists p, q. auto.
Qed.

Definition hw_inv (h : list (action fcall)) : Prop :=
  let s := state_after h in let ts := threads (f_exec h) in
  attained h (fs_highwater s) /\
  (forall c, pending ts c -> attained h c) /\
  (forall c, attained h c -> c <= fs_highwater s \/ exists c', pending ts c' /\ c <= c') /\
  (forall i t, ts !! i = Some t -> cas_ok t).

Lemma pending_insert ts i t t' c : ts !! i = Some t -> pending (<[i := t']> ts) c ->
  pending ts c \/ pend t' = Some c.
Proof.
  intros Hi (j & u & Hj & Hu). apply list_lookup_insert_Some in Hj as [(<- & <- & _)|[_ Hj]].
  - right. exact Hu.
  - left. exists j, u. auto.
Qed.
Lemma pending_keep ts i t t' c : ts !! i = Some t -> pending ts c ->
  pending (<[i := t']> ts) c \/ pend t = Some c.
Proof.
  intros Hi (j & u & Hj & Hu). destruct (decide (i = j)) as [<-|Hne].
  - right. congruence.
  - left. exists j, u. rewrite list_lookup_insert_ne by congruence. auto.
Qed.
Lemma pending_new ts i t t' c : ts !! i = Some t -> pend t' = Some c -> pending (<[i := t']> ts) c.
Proof.
  intros Hi Ht. exists i, t'. split; [apply list_lookup_insert; eapply lookup_lt_Some; exact Hi|exact Ht].
Qed.

Lemma state_spawn h a : state_after (h ++ [Spawn a]) = state_after h.
Proof. unfold state_after, f_exec. rewrite exec_spawn. reflexivity. Qed.
Lemma threads_spawn h a : threads (f_exec (h ++ [Spawn a])) = threads (f_exec h) ++ [f_start a].
Proof. unfold f_exec. rewrite exec_spawn. reflexivity. Qed.
Lemma state_run h k u : threads (f_exec h) !! k = Some u ->
  state_after (h ++ [Run k]) = fst (f_step k (state_after h) u).
Proof. intros Ek. unfold state_after, f_exec in *. rewrite (exec_run _ _ _ _ _ _ Ek). reflexivity. Qed.
Lemma threads_run h k u : threads (f_exec h) !! k = Some u ->
  threads (f_exec (h ++ [Run k])) = <[k := snd (f_step k (state_after h) u)]> (threads (f_exec h)).
Proof. intros Ek. unfold state_after, f_exec in *. rewrite (exec_run _ _ _ _ _ _ Ek). reflexivity. Qed.
Lemma exec_run_nothing h k : threads (f_exec h) !! k = None -> f_exec (h ++ [Run k]) = f_exec h.
Proof. intros Ek. exact (exec_run_none _ _ _ _ _ Ek). Qed.

Lemma hw_holds h : no_reset h -> hw_inv h.
Proof.
  induction h as [|a h IH] using rev_ind; intros Hn.
  - unfold hw_inv. split; [|split; [|split]].
    + apply attained_now.
    + intros c (i & t & H & _). rewrite f_exec_nil, lookup_nil in H. discriminate H.
    + intros c (p & q & E & <-). symmetry in E. apply app_eq_nil in E as [-> _]. left. change (0 <= 0). lia.
    + intros i t H. rewrite f_exec_nil, lookup_nil in H. discriminate H.
  - pose proof (no_reset_app _ _ Hn) as Hn'. specialize (IH Hn'). pose proof (no_reset_threads _ Hn') as Ht.
    destruct IH as (H1 & H2 & H3 & H4).
    unfold hw_inv in *. destruct a as [a|k].
    + rewrite state_spawn, threads_spawn.
      assert (Hp : forall c, pending (threads (f_exec h) ++ [f_start a]) c <-> pending (threads (f_exec h)) c).
      { intros c. split.
        - intros (i & t & Hi & Hm). apply lookup_app_Some in Hi as [Hi|[_ Hi]]; [exists i, t; auto|].
          destruct (i - length _)%nat as [|n]; [|destruct n; discriminate Hi]. inversion Hi; subst. destruct a; discriminate Hm.
        - intros (i & t & Hi & Hm). exists i, t. split; [apply lookup_app_l_Some, Hi|exact Hm]. }
      split; [|split; [|split]].
      * apply attained_more, H1.
      * intros c Hc. apply attained_more, H2, Hp, Hc.
      * intros c Hc. assert (Hc' : attained h c).
        { apply attained_snoc in Hc as [Hc| ->]; [exact Hc|]. rewrite state_spawn. apply attained_now. }
        destruct (H3 _ Hc') as [?|(c' & Hc1 & ?)]; [tauto|]. right. exists c'. split; [apply Hp, Hc1|assumption].
      * intros i t Hi. apply lookup_app_Some in Hi as [Hi|[_ Hi]]; [eapply H4; eassumption|].
        destruct (i - length _)%nat as [|n]; [|destruct n; discriminate Hi]. inversion Hi; subst. destruct a; exact I.
    + destruct (threads (f_exec h) !! k) as [u|] eqn:Ek.
      2: { assert (Es : state_after (h ++ [Run k]) = state_after h).
           { unfold state_after. rewrite (exec_run_nothing _ _ Ek). reflexivity. }
           rewrite Es, (exec_run_nothing _ _ Ek). split; [|split; [|split]].
           - apply attained_more, H1.
           - intros c Hc. apply attained_more, H2, Hc.
           - intros c Hc. apply H3. apply attained_snoc in Hc as [Hc| ->]; [exact Hc|]. rewrite Es. apply attained_now.
           - exact H4. }
      assert (Hu : ft_call u <> FReset) by (apply Ht; eapply elem_of_list_lookup_2; exact Ek).
      pose proof (attained_now (h ++ [Run k])) as Hnow.
      pose proof (fun c => attained_snoc h c (Run k)) as Hatt.
      rewrite (threads_run _ _ _ Ek). rewrite (state_run _ _ _ Ek) in *.
      destruct (step_hw k (state_after h) u Hu (H4 _ _ Ek)) as (Hcas & Hcase).
      set (s := state_after h) in *. set (s' := fst (f_step k s u)) in *. set (u' := snd (f_step k s u)) in *.
      set (ts := threads (f_exec h)) in *.
      split; [|split; [|split]].
      * destruct Hcase as [(_ & E & _)|[(_ & _ & E)|(c & Hp & _ & _ & _ & _ & [E|E])]]; rewrite E; try (apply attained_more, H1).
        apply attained_more, H2. exists k, u. auto.
      * intros c Hc. destruct (pending_insert _ _ _ _ _ Ek Hc) as [Hp|Hp]; [apply attained_more, H2, Hp|].
        destruct Hcase as [(E & _)|[(_ & E & _)|(c' & _ & E & _)]].
        -- apply attained_more, H2. exists k, u. split; [exact Ek|congruence].
        -- replace c with (fs_current s') by congruence. exact Hnow.
        -- congruence.
      * assert (Hold : forall c, attained h c -> c <= fs_highwater s' \/ exists c', pending (<[k := u']> ts) c' /\ c <= c').
        { intros c Hc. destruct (H3 _ Hc) as [Hle|(c' & Hp & Hle)].
          - left. destruct Hcase as [(_ & E & _)|[(_ & _ & E)|(c' & _ & _ & _ & E & _)]]; lia.
          - destruct (pending_keep _ _ _ u' _ Ek Hp) as [Hp'|Hp']; [right; exists c'; auto|].
            destruct Hcase as [(E & _)|[(E & _)|(c2 & E & _ & _ & _ & Hc2 & _)]].
            + right. exists c'. split; [eapply pending_new; [exact Ek|congruence]|exact Hle].
            + congruence.
            + left. assert (c2 = c') by congruence. lia. }
        intros c Hc. destruct (Hatt _ Hc) as [Hc'|Hc']; [apply Hold, Hc'|].
        destruct Hcase as [(_ & _ & E)|[(_ & E & _)|(c2 & _ & _ & E & _)]].
        -- destruct (Hold _ (attained_now h)) as [Hx|(c' & ? & Hx)]; fold s in Hx; [left; lia|right; exists c'; split; [assumption|lia]].
        -- right. exists (fs_current s'). split; [eapply pending_new; [exact Ek|exact E]|lia].
        -- rewrite Hc', E. apply Hold, attained_now.
      * intros i t Hi. apply list_lookup_insert_Some in Hi as [(<- & <- & _)|[_ Hi]]; [exact Hcas|eapply H4, Hi].
Qed.

Lemma highwater_spec h : no_reset h ->
  (exists pre post, h = pre ++ post /\ fs_current (state_after pre) = fs_highwater (state_after h)) /\
  ((forall i t, threads (f_exec h) !! i = Some t -> ~ half_started t) ->
   forall pre post, h = pre ++ post -> fs_current (state_after pre) <= fs_highwater (state_after h)).
Proof.
  intros Hn. destruct (hw_holds h Hn) as (H1 & H2 & H3 & _). split; [exact H1|].
  intros Hq pre post E. destruct (H3 (fs_current (state_after pre))) as [?|(c & (i & t & Hi & Hp) & _)].
  - exists pre, post. auto.
  - assumption.
  - exfalso. apply (Hq _ _ Hi). unfold half_started. unfold pend in Hp. destruct (ft_pc t); try discriminate Hp; exact I.
Qed.

Lemma current_spec h : no_reset h ->
  fs_current (state_after h) = Z.of_nat (length (List.filter in_flight (threads (f_exec h)))) /\
  0 <= fs_current (state_after h).
Proof. intros Hn. rewrite (current_counts h Hn). unfold flight_count. lia. Qed.

(** ** C55 *)
Lemma observe_panic {P} (v : P) levels :
  snd (observe_nested (UPanic (Some v)) levels) = UPanic (Some v) /\
  length (fst (observe_nested (UPanic (Some v)) levels)) = length levels /\
  forall err pk, In (err, pk) (fst (observe_nested (UPanic (Some v)) levels)) -> classify err pk = CPanic.
Proof.
  induction levels as [|e levels IH]; cbn; [repeat split; contradiction|].
  destruct IH as (E & L & F). split; [exact E|]. split; [congruence|].
  intros err pk [H|H]; [inversion H; reflexivity|exact (F _ _ H)].
Qed.
Lemma observe_return {P} (u : unwinding P) levels :
  (u = UReturn \/ u = UGoexit) ->
  snd (observe_nested u levels) = u /\
  map (fun r => classify (fst r) (snd r)) (fst (observe_nested u levels)) =
  map (fun errptr => match errptr with Some (Some e) => CError e | _ => CSuccess end) levels.
Proof.
  intros Hu. induction levels as [|e levels IH]; [split; reflexivity|].
  assert (E : snd (observe_exit u e) = u) by (destruct Hu as [-> | ->]; reflexivity).
  cbn [observe_nested fst snd map]. rewrite E. destruct IH as [IH1 IH2]. split; [exact IH1|].
  f_equal; [|exact IH2]. destruct Hu as [-> | ->]; destruct e as [[?|]|]; reflexivity.
Qed.
