(** Proofs for C98. *)
From Verif Require Import Base BaseProofs SpecBase ScopeSpec Conc FuncStatsModel FuncStatsSpec FuncStatsProofs FuncStatsProps SpanModel SpanSpec SpanProofs SpanProps TaskModel TaskSpec.
Local Open Scope Z_scope.

(** How far a call is with both. *)
Definition in_step (t : wthread) : Prop :=
  st_call (wt_span t) = wc_span (wt_call t) /\ ft_call (wt_stat t) = w_fcall (wt_call t) /\
  match st_pc (wt_span t) with
  | A_inc => ft_pc (wt_stat t) = F_load
  | A_link => match ft_pc (wt_stat t) with F_load | F_cas | F_lock | F_inc | F_hwload _ | F_hwcas _ _ | F_running => True | _ => False end
  | A_orphan | A_running => ft_pc (wt_stat t) = F_running
  | X_end => match ft_pc (wt_stat t) with F_running | F_endlock | F_done _ => True | _ => False end
  | _ => exists r, ft_pc (wt_stat t) = F_done r
  end.
Lemma in_step_step i w t : in_step t -> in_step (snd (w_step i w t)) /\ wt_call (snd (w_step i w t)) = wt_call t.
Proof.
  destruct t as [c [sc pc] [fc fp]]. unfold in_step. cbn [wt_call wt_span wt_stat st_call st_pc ft_call ft_pc]. intros (-> & -> & H).
  unfold w_step, stat_next. cbn [wt_call wt_span wt_stat st_pc ft_pc].
  destruct pc; try (destruct fp; try contradiction); try (match type of H with ex _ => destruct H as [r ->] end); try discriminate H;
    cbn [wt_call wt_span wt_stat snd fst]; unfold w_fcall, sp_step, f_step; cbn [ft_call ft_pc st_call st_pc];
    repeat match goal with
    | |- context [match sc_parent ?x with _ => _ end] => destruct (sc_parent x)
    | |- context [match fs_first ?x with _ => _ end] => destruct (fs_first x)
    | |- context [match ?l with [] => _ | _ => _ end] => is_var l; destruct l
    | |- context [if ?b then _ else _] => destruct b
    end; cbn [snd fst wt_call wt_span wt_stat st_call st_pc ft_call ft_pc]; split_and!; try reflexivity; try exact I; try assumption; eauto.
Qed.
Lemma threads_in_step sched i t : threads (w_exec sched) !! i = Some t -> in_step t.
Proof.
  revert sched i t.
  refine (exec_inv w_start w_step (fun _ ts => forall i t, ts !! i = Some t -> in_step t) w_new _ _ _).
  - intros i t H. discriminate H.
  - intros s ts a H i t Ht. apply lookup_app_Some in Ht as [Ht|[_ Ht]]; [exact (H i t Ht)|].
    destruct (i - length ts)%nat; [apply Some_inj in Ht as <-|discriminate Ht]. unfold in_step. cbn. auto.
  - intros s ts i l H Hl j t Ht. apply list_lookup_insert_Some in Ht as [(<- & <- & _)|[_ Ht]]; [|exact (H j t Ht)]. apply in_step_step, (H _ _ Hl).
Qed.

(** ** The two sides *)
Lemma map_insert {A X} (f : A -> X) i x l : map f (<[i := x]> l) = <[i := f x]> (map f l).
Proof. apply list_fmap_insert. Qed.
Lemma span_side sched : exists ss, as_spans sched ss.
Proof.
  induction sched as [|a sched [ss IH]] using rev_ind; [exists []; reflexivity|]. unfold as_spans in *.
  unfold w_exec in *. rewrite exec_snoc. destruct (exec w_start w_step w_new sched) as [w ts]. cbn [shared threads] in IH.
  destruct a as [c|i]; cbn [exec1 shared threads].
  - exists (ss ++ [Spawn (wc_span c)]). unfold sp_exec. rewrite exec_snoc. fold (sp_exec ss). rewrite IH. cbn [exec1 shared threads]. rewrite map_app. reflexivity.
  - destruct (ts !! i) as [t|] eqn:Ht; [|exists ss; exact IH]. unfold w_step. destruct (stat_next t) eqn:N.
    + exists ss. rewrite IH. cbn [shared threads fst snd w_spans]. f_equal. rewrite map_insert. cbn [wt_span]. symmetry. apply list_insert_id. rewrite list_lookup_fmap, Ht. reflexivity.
    + exists (ss ++ [Run i]). unfold sp_exec. rewrite exec_snoc. fold (sp_exec ss). rewrite IH. cbn [exec1 shared threads fst snd w_spans].
      rewrite list_lookup_fmap, Ht. cbn [fmap option_fmap option_map]. rewrite map_insert. reflexivity.
Qed.
Lemma stat_side f sched : exists sf, as_stats f sched sf.
Proof.
  induction sched as [|a sched (sf & IH & Hn & Hp & Hw)] using rev_ind.
  - exists []. split; [reflexivity|]. split; [intros []|].
    split; intros pre [more E]; destruct pre; try discriminate E; exists []; split; reflexivity.
  - assert (G : forall b : action fcall, b <> Spawn FReset -> f_exec (sf ++ [b]) = Cfg (stats_after (sched ++ [a]) f) (map (its_part f) (threads (w_exec (sched ++ [a])))) -> as_stats f (sched ++ [a]) (sf ++ [b])).
    { intros b Hb E. split; [exact E|]. split; [intros Hin; apply in_app_iff in Hin as [Hin|[Hin|[]]]; [exact (Hn Hin)|exact (Hb Hin)]|].
      split; intros pre [more Em]; destruct more as [|x more _] using rev_ind.
      - rewrite app_nil_r in Em. subst pre. exists (sched ++ [a]). split; [reflexivity|]. unfold state_after. rewrite E. reflexivity.
      - rewrite app_assoc in Em. apply app_inj_tail in Em as [Em _]. destruct (Hp pre) as (w & Hw0 & Ew); [exists more; exact Em|]. exists w. split; [apply prefix_app_r, Hw0|exact Ew].
      - rewrite app_nil_r in Em. subst pre. exists (sf ++ [b]). split; [reflexivity|]. unfold state_after. rewrite E. reflexivity.
      - rewrite app_assoc in Em. apply app_inj_tail in Em as [Em _]. destruct (Hw pre) as (w & Hw0 & Ew); [exists more; exact Em|]. exists w. split; [apply prefix_app_r, Hw0|exact Ew]. }
    assert (K : f_exec sf = Cfg (stats_after (sched ++ [a]) f) (map (its_part f) (threads (w_exec (sched ++ [a])))) -> as_stats f (sched ++ [a]) sf).
    { intros E. split; [exact E|]. split; [exact Hn|]. split.
      - intros pre P. destruct (Hp pre P) as (w & Hw0 & Ew). exists w. split; [apply prefix_app_r, Hw0|exact Ew].
      - intros pre [more Em]. destruct more as [|x more _] using rev_ind.
        + rewrite app_nil_r in Em. subst pre. exists sf. split; [reflexivity|]. unfold state_after. rewrite E. reflexivity.
        + rewrite app_assoc in Em. apply app_inj_tail in Em as [Em _]. apply (Hw pre). exists more. exact Em. }
    unfold stats_after, w_exec in G, K. rewrite exec_snoc in G, K. unfold stats_after, w_exec in IH. destruct (exec w_start w_step w_new sched) as [w ts]. cbn [shared threads] in IH.
    destruct a as [c|i]; cbn [exec1 shared threads] in G, K.
    + destruct (Nat.eqb (wc_func c) f) eqn:F.
      * exists (sf ++ [Spawn (w_fcall c)]). apply G; [discriminate|]. unfold f_exec. rewrite exec_snoc. fold (f_exec sf). rewrite IH. cbn [exec1 shared threads]. rewrite map_app. cbn [map]. unfold its_part at 3. cbn [w_start wt_call wt_stat]. rewrite F. reflexivity.
      * exists (sf ++ [Spawn FStats]). apply G; [discriminate|]. unfold f_exec. rewrite exec_snoc. fold (f_exec sf). rewrite IH. cbn [exec1 shared threads]. rewrite map_app. cbn [map]. unfold its_part at 3. cbn [w_start wt_call wt_stat]. rewrite F. reflexivity.
    + destruct (ts !! i) as [t|] eqn:Ht; [|exists sf; apply K; exact IH]. unfold w_step in G, K. destruct (stat_next t) eqn:N; cbn [shared threads fst snd] in G, K.
      * destruct (Nat.eqb (wc_func (wt_call t)) f) eqn:F.
        -- exists (sf ++ [Run i]). apply G; [discriminate|]. unfold f_exec. rewrite exec_snoc. fold (f_exec sf). rewrite IH. cbn [exec1 shared threads].
           rewrite list_lookup_fmap, Ht. cbn [fmap option_fmap option_map]. rewrite map_insert. unfold its_part at 1 2 4. cbn [wt_call wt_stat]. rewrite F. apply Nat.eqb_eq in F. subst f.
           f_equal. unfold stats_of at 2. cbn [w_stats]. rewrite lookup_insert. reflexivity.
        -- exists sf. apply K. rewrite IH. f_equal.
           ++ unfold stats_of. cbn [w_stats]. apply Nat.eqb_neq in F. rewrite lookup_insert_ne by congruence. reflexivity.
           ++ rewrite map_insert. symmetry. apply list_insert_id. rewrite list_lookup_fmap, Ht. cbn [fmap option_fmap option_map]. unfold its_part. cbn [wt_call wt_stat]. rewrite F. reflexivity.
      * exists sf. apply K. rewrite IH. f_equal. rewrite map_insert. symmetry. apply list_insert_id. rewrite list_lookup_fmap, Ht. reflexivity.
Qed.

(** ** The ends of calls, without Reset *)
Definition ended (t : fthread) : option (class * Z) :=
  match ft_call t, ft_pc t with FCall _ err pk d, F_done _ => Some (classify err pk, d) | _, _ => None end.
Lemma omap_insert (ts : list fthread) i t t' : ts !! i = Some t ->
  omap ended (<[i := t']> ts) ≡ₚ (match ended t' with Some e => [e] | None => [] end) ++ omap ended (delete i ts) /\
  omap ended ts ≡ₚ (match ended t with Some e => [e] | None => [] end) ++ omap ended (delete i ts).
Proof.
  intros H. pose proof (lookup_lt_Some _ _ _ H) as L. rewrite (insert_take_drop ts i t' L), delete_take_drop.
  assert (E : omap ended ts = omap ended (take i ts ++ t :: drop (S i) ts)) by (rewrite (take_drop_middle ts i t H); reflexivity). rewrite E, !omap_app.
  split; cbn [omap list_omap]; [destruct (ended t')|destruct (ended t)]; cbn [app]; try reflexivity; symmetry; apply Permutation_middle.
Qed.
Lemma ends_end s i err pk d : ends (end_section i err pk d s) = ends s ++ [(classify err pk, d)].
Proof.
  unfold ends, end_section. destruct pk; [|destruct err]; cbn [fs_log]; rewrite ends_app; reflexivity.
Qed.
Lemma ends_step i s t : ft_call t <> FReset ->
  ends (fst (f_step i s t)) = ends s ++ (match ended t, ended (snd (f_step i s t)) with None, Some e => [e] | _, _ => [] end) /\
  (forall e, ended t = Some e -> ended (snd (f_step i s t)) = Some e) /\ ft_call (snd (f_step i s t)) = ft_call t.
Proof.
  destruct t as [c pc]. cbn [ft_call]. intros H. unfold f_step, ended. cbn [ft_call ft_pc].
  destruct c; try contradiction; destruct pc;
    repeat match goal with
    | |- context [match fs_first ?x with _ => _ end] => destruct (fs_first x)
    | |- context [if ?b then _ else _] => destruct b
    end; cbn [fst snd ft_call ft_pc]; rewrite ?ends_end, ?app_nil_r; split_and!; try reflexivity; intros e He; try discriminate He; exact He.
Qed.
Lemma ends_are sf : no_reset sf -> ends (state_after sf) ≡ₚ omap ended (threads (f_exec sf)) /\ forall i t, threads (f_exec sf) !! i = Some t -> ft_call t <> FReset.
Proof.
  induction sf as [|a sf IH] using rev_ind; intros Hn; [split; [reflexivity|intros i t H; discriminate H]|].
  destruct IH as [IH Hc]; [intros Hin; apply Hn, in_app_iff; left; exact Hin|].
  unfold state_after, f_exec in *. rewrite exec_snoc. destruct (exec f_start f_step fs_new sf) as [s ts]. cbn [shared threads] in *.
  destruct a as [c|i]; cbn [exec1 shared threads].
  - split.
    + rewrite omap_app. assert (E : omap ended [f_start c] = []) by (destruct c; reflexivity). rewrite E, app_nil_r. exact IH.
    + intros i t Ht. apply lookup_app_Some in Ht as [Ht|[_ Ht]]; [exact (Hc i t Ht)|]. destruct (i - length ts)%nat; [apply Some_inj in Ht as <-|discriminate Ht].
      cbn. intros ->. apply Hn, in_app_iff. right. left. reflexivity.
  - destruct (ts !! i) as [t|] eqn:Ht; [|split; [exact IH|exact Hc]]. cbn [shared threads].
    destruct (ends_step i s t (Hc i t Ht)) as (E1 & E2 & E3). destruct (omap_insert ts i t (snd (f_step i s t)) Ht) as [O1 O2]. split.
    + rewrite O1, E1, IH, O2. destruct (ended t) as [e|] eqn:Et; [rewrite (E2 e eq_refl), app_nil_r; reflexivity|]. cbn [app].
      destruct (ended (snd (f_step i s t))); [rewrite Permutation_app_comm; reflexivity|rewrite app_nil_r; reflexivity].
    + intros j u Hu. apply list_lookup_insert_Some in Hu as [(<- & <- & _)|[_ Hu]]; [rewrite E3; exact (Hc i t Ht)|exact (Hc j u Hu)].
Qed.

(** ** Calm moments *)
Lemma filter_map_count {A X} (g : A -> X) (P : X -> bool) (l : list A) : length (List.filter P (map g l)) = length (List.filter (fun x => P (g x)) l).
Proof. induction l as [|x l IH]; cbn; [reflexivity|]. destruct (P (g x)); cbn; rewrite IH; reflexivity. Qed.
Lemma filter_both {A} (P Q : A -> bool) (l : list A) : List.filter P (List.filter Q l) = List.filter (fun x => Q x && P x) l.
Proof. induction l as [|x l IH]; cbn; [reflexivity|]. destruct (Q x); cbn; [destruct (P x); cbn; rewrite IH; reflexivity|exact IH]. Qed.
Lemma filter_ext_in' {A} (P Q : A -> bool) (l : list A) : (forall x, x ∈ l -> P x = Q x) -> List.filter P l = List.filter Q l.
Proof. intros H. apply filter_ext_in. intros x Hx. apply H, elem_of_list_In, Hx. Qed.
Lemma calm_thread sched t : calm sched -> t ∈ threads (w_exec sched) ->
  ft_call (wt_stat t) = w_fcall (wt_call t) /\
  (body_runs t = true /\ is_over t = false /\ ft_pc (wt_stat t) = F_running \/ body_runs t = false /\ is_over t = true /\ exists r, ft_pc (wt_stat t) = F_done r).
Proof.
  intros Hc Ht. apply elem_of_list_lookup in Ht as [i Ht]. pose proof (Hc i t Ht) as H. destruct (threads_in_step sched i t Ht) as (_ & F & P). split; [exact F|].
  unfold body_runs, is_over in *. destruct (st_pc (wt_span t)); destruct H as [H|H]; try discriminate H; [left|right]; auto.
Qed.
Lemma current_calm sched f : calm sched -> fs_current (stats_after sched f) = how_many body_runs (calls_of f sched).
Proof.
  intros Hc. destruct (stat_side f sched) as (sf & E & Hn & _ & _). pose proof (proj1 (C18_current sf Hn)) as C. unfold state_after in C. rewrite E in C. cbn [shared threads] in C.
  rewrite C, filter_map_count. unfold how_many, calls_of. rewrite filter_both. do 2 f_equal. apply filter_ext_in'. intros t Ht.
  unfold its_part. destruct (Nat.eqb (wc_func (wt_call t)) f); [|reflexivity]. cbn [andb]. destruct (calm_thread sched t Hc Ht) as (F & [(-> & _ & P)|(-> & _ & r & P)]); unfold in_flight; rewrite F, P; reflexivity.
Qed.
Lemma outcome_end t : classify (fst (w_outcome (wt_call t))) (snd (w_outcome (wt_call t))) = outcome t.
Proof. unfold w_outcome, outcome, observe_exit. destruct (sc_unwind _) as [|[v|]|]; destruct (sc_errptr _) as [[e|]|]; reflexivity. Qed.
Lemma ends_calm sched f : calm sched ->
  ends (stats_after sched f) ≡ₚ map (fun t => (outcome t, wc_dur (wt_call t))) (List.filter is_over (calls_of f sched)).
Proof.
  intros Hc. destruct (stat_side f sched) as (sf & E & Hn & _ & _). destruct (ends_are sf Hn) as [P _]. unfold state_after in P. rewrite E in P. cbn [shared threads] in P. rewrite P. clear P.
  unfold calls_of. rewrite filter_both. assert (G : forall t, t ∈ threads (w_exec sched) -> ended (its_part f t) = if Nat.eqb (wc_func (wt_call t)) f && is_over t then Some (outcome t, wc_dur (wt_call t)) else None).
  { intros t Ht. unfold its_part. destruct (Nat.eqb (wc_func (wt_call t)) f); [|reflexivity]. cbn [andb].
    destruct (calm_thread sched t Hc Ht) as (F & [(_ & -> & P)|(_ & -> & r & P)]); unfold ended; rewrite F, P; [reflexivity|rewrite <- outcome_end; reflexivity]. }
  revert G. generalize (threads (w_exec sched)) as ts. induction ts as [|t ts IH]; intros G; [reflexivity|]. cbn [map omap list_omap List.filter].
  rewrite (G t) by left. destruct (Nat.eqb (wc_func (wt_call t)) f && is_over t); cbn [map]; [apply Permutation_cons; [reflexivity|]|]; apply IH; intros u Hu; apply G; right; exact Hu.
Qed.
Lemma calm_quiet sched ss : as_spans sched ss -> calm sched -> quiet ss /\ forall i, running ss i <-> exists t, threads (w_exec sched) !! i = Some t /\ body_runs t = true.
Proof.
  intros E Hc. assert (R : forall i, running ss i <-> exists t, threads (w_exec sched) !! i = Some t /\ body_runs t = true).
  { intros i. unfold running. rewrite E. cbn [threads]. rewrite list_lookup_fmap. split.
    - intros [c H]. destruct (threads (w_exec sched) !! i) as [t|] eqn:Ht; [|discriminate H]. apply Some_inj in H. exists t. split; [reflexivity|]. unfold body_runs. rewrite H. reflexivity.
    - intros (t & -> & H). exists (st_call (wt_span t)). cbn. f_equal. unfold body_runs in H. destruct (wt_span t) as [c pc]. cbn in *. destruct pc; try discriminate H. reflexivity. }
  split; [|exact R]. intros i Hi. rewrite E in Hi. cbn [threads] in Hi. rewrite map_length in Hi. apply lookup_lt_is_Some in Hi as [t Ht].
  destruct (Hc i t Ht) as [H|H]; [left; apply R; exists t; split; assumption|right]. unfold finished. rewrite E. cbn [threads]. rewrite list_lookup_fmap, Ht. cbn.
  unfold is_over in H. destruct (wt_span t) as [c pc]. cbn in H. destruct pc; try discriminate H. eexists _, _. reflexivity.
Qed.
Lemma lawful_formed sched ss : as_spans sched ss -> lawful sched -> well_formed ss.
Proof.
  intros E Hl i u Hu. rewrite E in Hu. cbn [threads] in Hu. rewrite list_lookup_fmap in Hu. destruct (threads (w_exec sched) !! i) as [t|] eqn:Ht; [|discriminate Hu].
  apply Some_inj in Hu as <-. destruct (threads_in_step sched i t Ht) as (-> & _). destruct (Hl i (wt_call t)) as [O P]; [exists t; split; [exact Ht|reflexivity]|].
  split; [|exact O]. intros p Hp. rewrite Hp in P. apply P.
Qed.
(** Counting in a list and counting the numbers of its elements. *)
Lemma count_numbers_at {A} (P : A -> bool) (l : list A) (k : nat) (ids : list nat) : NoDup ids ->
  (forall i, i ∈ ids <-> exists x, l !! (i - k)%nat = Some x /\ (k <= i)%nat /\ P x = true) -> length (List.filter P l) = length ids.
Proof.
  revert k ids. induction l as [|x l IH]; intros k ids N H.
  - destruct ids as [|i ids]; [reflexivity|]. exfalso. destruct (proj1 (H i)) as (y & Hy & _); [left|discriminate Hy].
  - cbn [List.filter]. assert (T : forall ids', NoDup ids' -> (forall i, i ∈ ids' <-> i ∈ ids /\ i <> k) -> length (List.filter P l) = length ids').
    { intros ids' N' H'. apply (IH (S k) ids' N'). intros i. rewrite H', H. split.
      - intros ((y & Hy & Hk & Py) & Hne). exists y. replace (i - k)%nat with (S (i - S k)) in Hy by lia. split; [exact Hy|]. split; [lia|exact Py].
      - intros (y & Hy & Hk & Py). split; [|lia]. exists y. replace (i - k)%nat with (S (i - S k)) by lia. split; [exact Hy|]. split; [lia|exact Py]. }
    destruct (P x) eqn:Px.
    + assert (K : k ∈ ids) by (apply H; exists x; rewrite Nat.sub_diag; auto). apply elem_of_Permutation in K as [ids' K]. rewrite K. cbn [length]. f_equal.
      rewrite K in N. apply NoDup_cons in N as [N1 N2]. apply (T ids' N2). intros i. rewrite K, elem_of_cons. split.
      * intros Hi. split; [right; exact Hi|]. intros ->. exact (N1 Hi).
      * intros [[->|Hi] Hne]; [contradiction|exact Hi].
    + apply (T ids N). intros i. split; [|intros [Hi _]; exact Hi]. intros Hi. split; [exact Hi|]. intros ->. apply H in Hi as (y & Hy & _ & Py). rewrite Nat.sub_diag in Hy. apply Some_inj in Hy as <-. congruence.
Qed.
Lemma NoDup_filter' {A} (P : A -> bool) (l : list A) : NoDup l -> NoDup (List.filter P l).
Proof.
  intros H. apply NoDup_ListNoDup, List.NoDup_filter, NoDup_ListNoDup, H.
Qed.
Lemma count_numbers {A} (P : A -> bool) (Q : nat -> bool) (l : list A) (ids : list nat) : NoDup ids ->
  (forall i, In i (List.filter Q ids) <-> exists x, l !! i = Some x /\ P x = true) -> length (List.filter P l) = length (List.filter Q ids).
Proof.
  intros N H. apply (count_numbers_at P l 0); [apply NoDup_filter', N|]. intros i. rewrite elem_of_list_In, H, Nat.sub_0_r. split; intros (x & Hx & Px); exists x; [split_and!; [exact Hx|lia|exact Px]|split; [exact Hx|apply Px]].
Qed.
Lemma filter_Permutation' {A} (P : A -> bool) (l l' : list A) : l ≡ₚ l' -> List.filter P l ≡ₚ List.filter P l'.
Proof.
  induction 1 as [|x l l' _ IH|x y l|l1 l2 l3 _ IH1 _ IH2]; cbn; [reflexivity| | |etransitivity; eassumption].
  - destruct (P x); [constructor|]; exact IH.
  - destruct (P x), (P y); try reflexivity. constructor.
Qed.
Lemma run_last s ts t : exec1 f_start f_step (Cfg s (ts ++ [t])) (Run (length ts)) = Cfg (fst (f_step (length ts) s t)) (ts ++ [snd (f_step (length ts) s t)]).
Proof.
  cbn [exec1 threads shared]. rewrite lookup_app_r, Nat.sub_diag by lia. cbn [lookup list_lookup]. f_equal.
  rewrite insert_app_r_alt, Nat.sub_diag by lia. reflexivity.
Qed.
Lemma parents_run f sched sf ord : f_exec sf = Cfg (stats_after sched f) (map (its_part f) (threads (w_exec sched))) ->
  threads (f_exec (sf ++ [Spawn (FParents ord); Run (length (threads (w_exec sched))); Run (length (threads (w_exec sched)))])) =
  map (its_part f) (threads (w_exec sched)) ++ [FThr (FParents ord) (F_done (FRParents (parents_now ord (stats_after sched f))))].
Proof.
  intros E. unfold f_exec. rewrite exec_app. fold (f_exec sf). rewrite E. cbn [fold_left].
  set (ts := map (its_part f) (threads (w_exec sched))). assert (L : length ts = length (threads (w_exec sched))) by apply map_length. rewrite <- L.
  change (exec1 f_start f_step (Cfg (stats_after sched f) ts) (Spawn (FParents ord))) with (Cfg (stats_after sched f) (ts ++ [f_start (FParents ord)])).
  rewrite run_last. rewrite run_last. reflexivity.
Qed.
(** For examples: from the list of calls. *)
Lemma lawful_of sched l : map wt_call (threads (w_exec sched)) = l ->
  (forall i c, l !! i = Some c -> any_order (sc_ord (wc_span c)) /\
     match sc_parent (wc_span c) with
     | Some p => (p < i)%nat /\ exists c', l !! p = Some c' /\ wc_parent c = Some (wc_func c')
     | None => wc_parent c = None
     end) -> lawful sched.
Proof.
  intros <- H. assert (A : forall i c, call_at sched i c <-> map wt_call (threads (w_exec sched)) !! i = Some c).
  { intros i c. rewrite list_lookup_fmap. unfold call_at. split; [intros (t & -> & <-); reflexivity|].
    intros E. destruct (threads (w_exec sched) !! i) as [t|]; [|discriminate E]. apply Some_inj in E. exists t. split; [reflexivity|exact E]. }
  intros i c Hc. apply A in Hc. destruct (H i c Hc) as [O P]. split; [exact O|]. destruct (sc_parent (wc_span c)); [|exact P].
  destruct P as (Hp & c' & Hc' & E). split; [exact Hp|]. exists c'. split; [apply A, Hc'|exact E].
Qed.
Lemma calm_of sched : forallb (fun t => body_runs t || is_over t) (threads (w_exec sched)) = true -> calm sched.
Proof. unfold calm. intros C i t H. rewrite forallb_forall in C. apply orb_true_iff, C. apply elem_of_list_In, (elem_of_list_lookup_2 _ i t H). Qed.
