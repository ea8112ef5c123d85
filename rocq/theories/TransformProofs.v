From Verif Require Import Base BaseProofs SeriesModel SeriesSpec SeriesProofs Conc TransformModel TransformSpec.
Local Arguments B : simpl never.

Lemma run_source_app {V W} (l l' : list (stat V)) (cb : callback V W) w : run_source (l ++ l') cb w = run_source l' cb (run_source l cb w).
Proof. unfold run_source. apply fold_left_app. Qed.
Lemma run_source_cons {V W} s (l : list (stat V)) (cb : callback V W) w : run_source (s :: l) cb w = run_source l cb (cb s w).
Proof. reflexivity. Qed.
Local Arguments run_source : simpl never.
Lemma transform_all_snoc {V W} (ts : list (transformer V W)) t cb : transform_all (ts ++ [t]) cb = t (transform_all ts cb).
Proof. unfold transform_all. rewrite fold_left_app. reflexivity. Qed.

(** ** Order of transformers *)
Section pipeline.
  Context {V S : Type} (f : nat -> stage V S) (init : nat -> S).
  Local Notation T := (stage_transformer f init).
  Local Notation W := (gmap nat S * list (stat V))%type.

  Lemma pipe_snoc ks k x : pipe f init (ks ++ [k]) x = pipe f init ks (run_stage (f k) (init k) x).
  Proof. induction ks as [|j ks IH]; [reflexivity|]. cbn. rewrite IH. reflexivity. Qed.

  Definition ignores (k : nat) (cb : callback V W) : Prop :=
    forall s σ out v, cb s (<[k := v]> σ, out) = (<[k := v]> (fst (cb s (σ, out))), snd (cb s (σ, out))).
  Lemma ignores_run k cb : ignores k cb -> forall l σ out v,
    run_source l cb (<[k := v]> σ, out) = (<[k := v]> (fst (run_source l cb (σ, out))), snd (run_source l cb (σ, out))).
  Proof.
    intros H l. induction l as [|s l IH]; intros σ out v; [reflexivity|]. rewrite !run_source_cons, H, IH. destruct (cb s (σ, out)) as [σ' out']. reflexivity.
  Qed.
  Lemma ignores_stage j k cb : j <> k -> ignores k cb -> ignores k (T j cb).
  Proof.
    intros Hne H s σ out v. unfold stage_transformer. cbn [fst snd]. rewrite lookup_insert_ne by congruence.
    set (r := f j (default (init j) (σ !! j)) s). rewrite insert_commute by congruence. apply (ignores_run k cb H).
  Qed.
  Lemma ignores_all k ks : k ∉ ks -> ignores k (transform_all (map T ks) recorder).
  Proof.
    induction ks as [|j ks IH] using rev_ind; intros Hk.
    - intros s σ out v. reflexivity.
    - rewrite map_app. cbn [map]. rewrite transform_all_snoc. apply ignores_stage; [set_solver|]. apply IH. set_solver.
  Qed.
  Lemma run_one k cb : ignores k cb -> forall l σ out,
    snd (run_source l (T k cb) (σ, out)) = snd (run_source (run_stage (f k) (default (init k) (σ !! k)) l) cb (σ, out)).
  Proof.
    intros H l. induction l as [|s l IH]; intros σ out; [reflexivity|]. cbn [run_stage]. rewrite run_source_app.
    rewrite run_source_cons. set (r := f k (default (init k) (σ !! k)) s).
    assert (E : T k cb s (σ, out) = (<[k := fst r]> (fst (run_source (snd r) cb (σ, out))), snd (run_source (snd r) cb (σ, out)))) by apply (ignores_run k cb H).
    rewrite E, IH, lookup_insert. cbn [default]. rewrite (ignores_run k cb H). cbn [snd]. destruct (run_source (snd r) cb (σ, out)). reflexivity.
  Qed.
  Lemma run_recorder l (w : W) : snd (run_source l recorder w) = snd w ++ l.
  Proof.
    revert w. induction l as [|s l IH]; intros w; [unfold run_source; cbn; rewrite app_nil_r; reflexivity|]. rewrite run_source_cons, IH. cbn. rewrite <- app_assoc. reflexivity.
  Qed.
  Lemma stats_through ks l : NoDup ks -> snd (transform_stat_source l (map T ks) recorder (∅, [])) = pipe f init ks l.
  Proof.
    intros Hnd. unfold transform_stat_source. revert l. induction ks as [|k ks IH] using rev_ind; intros l.
    - cbn [map]. change (transform_all [] recorder) with (recorder (V := V) (S := gmap nat S)). rewrite run_recorder. reflexivity.
    - apply NoDup_app in Hnd as (Hnd & Hk & _). rewrite map_app. cbn [map]. rewrite transform_all_snoc, run_one.
      + rewrite lookup_empty. cbn [default]. rewrite (IH Hnd), pipe_snoc. reflexivity.
      + apply ignores_all. intros Hx. apply (Hk _ Hx). set_solver.
  Qed.
End pipeline.

(** ** DeltaTransformer *)
Lemma last_match_snoc {A B} (f : A -> option B) l x : last_match f (l ++ [x]) = match f x with Some r => Some r | None => last_match f l end.
Proof. induction l as [|a l IH]; cbn; [destruct (f x); reflexivity|]. rewrite IH. destruct (f x); reflexivity. Qed.

Section delta.
  Context {V : Type} (sub : V -> V -> V).
  (** The map holds the latest totals. *)
  Definition knows (last : gmap bytes V) (before : list (stat V)) : Prop :=
    forall s : stat V, is_total s -> last !! with_field (st_key s) (st_field s) = previous_total before s.
  Lemma knows_empty : knows ∅ [].
  Proof. intros s _. apply lookup_empty. Qed.
  Lemma knows_total last before s : knows last before -> is_total s -> knows (<[with_field (st_key s) (st_field s) := st_val s]> last) (before ++ [s]).
  Proof.
    intros H Hs x Hx. unfold previous_total. rewrite last_match_snoc. destruct (decide _) as [[_ E]|E].
    - rewrite E. apply lookup_insert.
    - rewrite lookup_insert_ne by tauto. apply H, Hx.
  Qed.
  Lemma knows_other last before s : knows last before -> ~ is_total s -> knows last (before ++ [s]).
  Proof. intros H Hs x Hx. unfold previous_total. rewrite last_match_snoc. destruct (decide _) as [[E _]|_]; [contradiction|]. apply H, Hx. Qed.

  Definition delta_stage : stage V (gmap bytes V) := fun last s =>
    if beqb (st_field s) (B "total") then (fst (delta_total V last s), delta_calls sub s (snd (delta_total V last s))) else (last, [s]).
  Lemma delta_stage_spec before last l : knows last before -> run_stage delta_stage last l = with_deltas sub previous_total before l.
  Proof.
    revert before last. induction l as [|s l IH]; intros before last H; [reflexivity|]. cbn [run_stage with_deltas].
    assert (Hs : snd (delta_stage last s) = with_delta sub previous_total before s /\ knows (fst (delta_stage last s)) (before ++ [s])).
    { unfold delta_stage, with_delta, beqb, is_total. destruct (decide (st_field s = B "total")) as [E|E].
      - rewrite bool_decide_eq_true_2 by exact E. cbn [fst snd delta_total]. rewrite (H s E). split; [unfold delta_calls; destruct (previous_total before s); reflexivity|]. apply knows_total; assumption.
      - rewrite bool_decide_eq_false_2 by exact E. cbn [fst snd]. split; [reflexivity|apply knows_other; assumption]. }
    destruct Hs as [-> Hk]. f_equal. apply IH, Hk.
  Qed.
  (** The transformer in the code, for any world that holds its map. *)
  Definition delta_world : transformer V (gmap bytes V * list (stat V)) := delta_transform sub fst (fun m w => (m, snd w)).
  Lemma delta_run l last out : run_source l (delta_world recorder) (last, out) =
    (fst (run_source l (delta_world recorder) (last, out)), out ++ run_stage delta_stage last l).
  Proof.
    revert last out. induction l as [|s l IH]; intros last out; [unfold run_source; cbn; rewrite app_nil_r; reflexivity|]. rewrite run_source_cons. cbn [run_stage].
    assert (E : delta_world recorder s (last, out) = (fst (delta_stage last s), out ++ snd (delta_stage last s))).
    { unfold delta_world, delta_transform, delta_stage. destruct (beqb _ _); [|reflexivity]. cbn [fst snd delta_total]. unfold delta_calls. destruct (last !! _); unfold recorder; cbn; rewrite <- ?app_assoc; reflexivity. }
    rewrite E, IH. cbn [fst]. rewrite app_assoc. reflexivity.
  Qed.
  Lemma delta_stream l : snd (run_source l (delta_transform sub fst (fun m w => (m, snd w)) recorder) (∅, [])) = with_deltas sub previous_total [] l.
  Proof. fold delta_world. rewrite delta_run. cbn [snd app]. apply delta_stage_spec, knows_empty. Qed.

  Lemma last_match_ext {A B'} (f g : A -> option B') l : (forall x, x ∈ l -> f x = g x) -> last_match f l = last_match g l.
  Proof.
    induction l as [|a l IH]; intros H; [reflexivity|]. cbn. rewrite IH by (intros; apply H; set_solver). rewrite (H a) by set_solver. reflexivity.
  Qed.
  Lemma previous_by_key before (s : stat V) : Forall plain_key (before ++ [s]) -> is_total s -> previous_total before s = previous_total_of_key before s.
  Proof.
    intros Hp Hs. apply Forall_app in Hp as [Hp Hps]. apply Forall_cons in Hps as [Hps _]. apply last_match_ext. intros x Hx. rewrite Forall_forall in Hp. specialize (Hp _ Hx).
    destruct (decide (_ /\ _)) as [[E1 E2]|E]; destruct (decide (_ /\ _ /\ _)) as [E'|E']; [reflexivity| | |reflexivity]; exfalso.
    - apply E'. split; [exact E1|].
      destruct (with_field_range_inj (sk_measurement (st_key x)) (sk_tags (st_key x)) (map_to_list (sk_tags (st_key x))) (st_field x)
        (sk_measurement (st_key s)) (sk_tags (st_key s)) (map_to_list (sk_tags (st_key s))) (st_field s) Hp Hps) as (? & ? & _); [reflexivity|reflexivity|exact E2|auto].
    - apply E. destruct E' as (E1 & E2 & E3). split; [exact E1|]. unfold is_total in Hs. rewrite E1, Hs. destruct (st_key x), (st_key s). cbn in *. subst. reflexivity.
  Qed.
  Lemma deltas_by_key before (l : list (stat V)) : Forall plain_key (before ++ l) -> with_deltas sub previous_total before l = with_deltas sub previous_total_of_key before l.
  Proof.
    revert before. induction l as [|s l IH]; intros before Hp; [reflexivity|]. cbn. f_equal.
    - unfold with_delta. destruct (decide (is_total s)) as [E|E]; [|reflexivity]. rewrite previous_by_key; [reflexivity| |exact E].
      rewrite Forall_app in Hp |- *. destruct Hp as [Hp Hq]. split; [exact Hp|]. apply Forall_cons in Hq as [Hq _]. auto.
    - apply IH. rewrite <- app_assoc. exact Hp.
  Qed.
End delta.

(** Telescoping. *)
Lemma previous_values name before s : with_field (st_key s) (B "total") = name -> st_field s = B "total" -> previous_total before s = last (total_values name before).
Proof.
  intros Hn Hs. induction before as [|x l IH] using rev_ind; [reflexivity|]. unfold previous_total in *. rewrite last_match_snoc, IH. unfold total_values. rewrite omap_app, last_app.
  cbn [omap list_omap]. rewrite Hs in *. destruct (decide (_ /\ _)) as [[E1 E2]|E]; destruct (decide (_ /\ _)) as [[E3 E4]|E3]; try reflexivity; exfalso.
  - apply E3. split; [exact E1|]. rewrite <- E1. rewrite E2. exact Hn.
  - apply E. split; [exact E3|]. rewrite E3, E4. symmetry. exact Hn.
Qed.
Lemma delta_sum_app name l l' : delta_sum name (l ++ l') = (delta_sum name l + delta_sum name l')%Z.
Proof. unfold delta_sum. rewrite omap_app. induction (omap _ l) as [|x k IH]; [reflexivity|]. cbn in *. lia. Qed.
Lemma span_snoc l x : span_of (l ++ [x]) = match last l with Some b => (span_of l + (x - b))%Z | None => 0%Z end.
Proof.
  unfold span_of. rewrite last_snoc. destruct l as [|a l]; [cbn; lia|]. cbn [head app]. destruct (last (a :: l)) eqn:E; [lia|]. apply last_None in E. discriminate E.
Qed.
Lemma telescope_gen name before l : Forall (fun s : stat Z => st_field s <> B "delta") l ->
  (delta_sum name (with_deltas Z.sub previous_total before l) = span_of (total_values name (before ++ l)) - span_of (total_values name before))%Z.
Proof.
  revert before. induction l as [|s l IH]; intros before Hd; [rewrite app_nil_r; cbn; lia|]. apply Forall_cons in Hd as [Hs Hd]. cbn [with_deltas]. rewrite delta_sum_app, IH by exact Hd.
  rewrite <- app_assoc. cbn [app].
  enough (delta_sum name (with_delta Z.sub previous_total before s) = span_of (total_values name (before ++ [s])) - span_of (total_values name before))%Z by lia.
  unfold total_values at 1. rewrite omap_app. fold (total_values name before). cbn [omap list_omap]. unfold with_delta, is_total.
  destruct (decide (st_field s = B "total")) as [E|E].
  - destruct (decide (st_field s = B "total" /\ with_field (st_key s) (B "total") = name)) as [[_ En]|En].
    + rewrite (previous_values name before s En E), span_snoc. destruct (last (total_values name before)) as [v|] eqn:El; unfold delta_sum; cbn [omap list_omap st_field st_key st_val].
      * rewrite decide_False by (intros [? _]; contradiction). rewrite decide_True by auto. cbn. lia.
      * rewrite decide_False by (intros [? _]; contradiction). cbn. apply last_None in El. rewrite El. cbn. lia.
    + rewrite app_nil_r, Z.sub_diag. destruct (previous_total before s); unfold delta_sum; cbn [omap list_omap st_field st_key st_val].
      * rewrite !decide_False by tauto. reflexivity.
      * rewrite decide_False by tauto. reflexivity.
  - rewrite (decide_False (P := st_field s = B "total" /\ _)) by tauto. rewrite app_nil_r, Z.sub_diag. unfold delta_sum. cbn [omap list_omap]. rewrite decide_False by tauto. reflexivity.
Qed.
Lemma telescope name l : Forall (fun s : stat Z => st_field s <> B "delta") l ->
  delta_sum name (with_deltas Z.sub previous_total [] l) = span_of (total_values name l).
Proof. intros H. rewrite telescope_gen by exact H. cbn [app]. change (span_of (total_values name [])) with 0%Z. lia. Qed.

(** *** Concurrent use *)
Section conc.
  Context {V : Type} (sub : V -> V -> V).
  Definition outs (w : dshared V) (i : nat) : list (stat V) := map snd (List.filter (fun p => Nat.eqb (fst p) i) (ds_out w)).
  Definition thread_stats (ts : list (dthread V)) (l : list nat) : list (stat V) := omap (fun i => dt_stat <$> ts !! i) l.
  (** [i]'s place in the order. *)
  Definition placed (w : dshared V) (ts : list (dthread V)) (i : nat) (s : stat V) (found : option V) : Prop :=
    exists k, ds_order w !! k = Some i /\ found = previous_total (thread_stats ts (take k (ds_order w))) s.
  Definition dtok (w : dshared V) (ts : list (dthread V)) (i : nat) (t : dthread V) : Prop :=
    let s := dt_stat t in
    match dt_pc t with
    | D_start => outs w i = [] /\ i ∉ ds_order w
    | D_cb found => is_total s /\ outs w i = [] /\ placed w ts i s found
    | D_delta v => is_total s /\ outs w i = [s] /\ placed w ts i s (Some v)
    | D_done => (~ is_total s /\ outs w i = [s] /\ i ∉ ds_order w) \/
                (is_total s /\ exists found, placed w ts i s found /\ outs w i = delta_calls sub s found)
    end.
  Record dinv (w : dshared V) (ts : list (dthread V)) : Prop := {
    DI_nodup : NoDup (ds_order w);
    DI_range : Forall (fun i => (i < length ts)%nat) (ds_order w);
    DI_total : Forall is_total (thread_stats ts (ds_order w));
    DI_knows : knows (ds_last w) (thread_stats ts (ds_order w));
    DI_outs : Forall (fun p => (fst p < length ts)%nat) (ds_out w);
    DI_tok : forall i t, ts !! i = Some t -> dtok w ts i t
  }.
  Lemma thread_stats_ext ts ts' l : (forall i, i ∈ l -> dt_stat <$> ts !! i = dt_stat <$> ts' !! i) -> thread_stats ts l = thread_stats ts' l.
  Proof.
    induction l as [|i l IH]; intros H; [reflexivity|]. unfold thread_stats in *. cbn [omap list_omap]. rewrite (H i) by set_solver. rewrite IH by (intros; apply H; set_solver). reflexivity.
  Qed.
  Lemma outs_app w i p out : outs (DShared (ds_last w) (ds_order w) (ds_out w ++ [(p, out)])) i = outs w i ++ (if Nat.eqb p i then [out] else []).
  Proof. unfold outs. cbn. rewrite List.filter_app, map_app. cbn. destruct (Nat.eqb p i); reflexivity. Qed.

  Lemma dinv_exec sched : dinv (shared (d_exec sub sched)) (threads (d_exec sub sched)).
  Proof.
    apply (exec_inv d_start (d_step sub) dinv).
    - constructor; cbn; [apply NoDup_nil_2|apply Forall_nil_2|apply Forall_nil_2|apply knows_empty|apply Forall_nil_2|]. intros i t Hi. discriminate Hi.
    - intros w ts s H. assert (E : thread_stats (ts ++ [d_start s]) (ds_order w) = thread_stats ts (ds_order w)).
      { apply thread_stats_ext. intros i Hi. pose proof (DI_range _ _ H) as Hr. rewrite Forall_forall in Hr. rewrite lookup_app_l by (apply Hr, Hi). reflexivity. }
      assert (El : length (ts ++ [d_start s]) = S (length ts)) by (rewrite app_length; cbn; lia).
      constructor.
      + apply (DI_nodup _ _ H).
      + rewrite El. eapply Forall_impl; [apply (DI_range _ _ H)|cbn; intros; lia].
      + rewrite E. apply (DI_total _ _ H).
      + rewrite E. apply (DI_knows _ _ H).
      + rewrite El. eapply Forall_impl; [apply (DI_outs _ _ H)|cbn; intros; lia].
      + intros i t Hi. apply lookup_app_Some in Hi as [Hi|[Hle Hi]].
        * pose proof (DI_tok _ _ H _ _ Hi) as Ht.
          assert (Hpl : forall s' found, placed w ts i s' found -> placed w (ts ++ [d_start s]) i s' found).
          { intros s' found (k & Hk & ->). exists k. split; [exact Hk|]. f_equal. apply thread_stats_ext. intros j Hj. pose proof (DI_range _ _ H) as Hr. rewrite Forall_forall in Hr.
            rewrite lookup_app_l; [reflexivity|]. apply Hr. rewrite <- (take_drop k (ds_order w)). apply elem_of_app. left. exact Hj. }
          unfold dtok in *. destruct (dt_pc t).
          -- exact Ht.
          -- destruct Ht as (? & ? & ?). auto.
          -- destruct Ht as (? & ? & ?). auto.
          -- destruct Ht as [?|(? & found & ? & ?)]; [auto|right; eauto].
        * destruct (i - length ts)%nat eqn:Ei; cbn in Hi; [|destruct n; discriminate Hi]. injection Hi as <-. assert (i = length ts) by lia. subst i. cbn. split.
          -- unfold outs. pose proof (DI_outs _ _ H) as Ho. induction (ds_out w) as [|p l IH]; [reflexivity|]. apply Forall_cons in Ho as [Hp Ho]. cbn.
             rewrite (proj2 (Nat.eqb_neq _ _)) by lia. apply IH, Ho.
          -- intros Hx. pose proof (DI_range _ _ H) as Hr. rewrite Forall_forall in Hr. specialize (Hr _ Hx). lia.
    - intros w ts i t H Hi. pose proof (DI_tok _ _ H _ _ Hi) as Ht. assert (Hlt : (i < length ts)%nat) by (eapply lookup_lt_Some; exact Hi).
      destruct t as [s pc]. cbn in Ht.
      assert (Hst : forall pc' l, thread_stats (<[i := DThr s pc']> ts) l = thread_stats ts l).
      { intros pc' l. apply thread_stats_ext. intros j _. destruct (decide (j = i)) as [->|Hne]; [rewrite list_lookup_insert by exact Hlt; rewrite Hi; reflexivity|rewrite list_lookup_insert_ne by congruence; reflexivity]. }
      assert (Hemit : forall out pc',
        dtok (DShared (ds_last w) (ds_order w) (ds_out w ++ [(i, out)])) ts i (DThr s pc') ->
        dinv (DShared (ds_last w) (ds_order w) (ds_out w ++ [(i, out)])) (<[i := DThr s pc']> ts)).
      { intros out pc' Hself. constructor; cbn [ds_last ds_order ds_out].
        - apply (DI_nodup _ _ H).
        - rewrite insert_length. apply (DI_range _ _ H).
        - rewrite Hst. apply (DI_total _ _ H).
        - rewrite Hst. apply (DI_knows _ _ H).
        - rewrite insert_length. apply Forall_app. split; [apply (DI_outs _ _ H)|]. constructor; [exact Hlt|constructor].
        - intros j u Hj. apply list_lookup_insert_Some in Hj as [(<- & <- & _)|[Hne Hj]].
          + unfold dtok, placed in *. cbn [dt_pc dt_stat ds_order] in *. destruct pc'; [exact Hself| | |].
            * destruct Hself as (? & ? & k & ? & ?). split; [assumption|]. split; [assumption|]. exists k. rewrite Hst. auto.
            * destruct Hself as (? & ? & k & ? & ?). split; [assumption|]. split; [assumption|]. exists k. rewrite Hst. auto.
            * destruct Hself as [?|(? & found & (k & ? & ?) & ?)]; [auto|]. right. split; [assumption|]. exists found. split; [exists k; rewrite Hst; auto|assumption].
          + pose proof (DI_tok _ _ H _ _ Hj) as Hu. unfold dtok, placed in *. rewrite outs_app, (proj2 (Nat.eqb_neq _ _)), app_nil_r by congruence. cbn [ds_order].
            destruct (dt_pc u); [exact Hu| | |].
            * destruct Hu as (? & ? & k & ? & ?). split; [assumption|]. split; [assumption|]. exists k. rewrite Hst. auto.
            * destruct Hu as (? & ? & k & ? & ?). split; [assumption|]. split; [assumption|]. exists k. rewrite Hst. auto.
            * destruct Hu as [?|(? & found & (k & ? & ?) & ?)]; [auto|]. right. split; [assumption|]. exists found. split; [exists k; rewrite Hst; auto|assumption]. }
      unfold d_step. cbn [dt_stat dt_pc]. destruct pc; cbn [fst snd].
      + unfold beqb. destruct (decide (st_field s = B "total")) as [E|E].
        * rewrite bool_decide_eq_true_2 by exact E. cbn [delta_total fst snd]. set (found := ds_last w !! with_field (st_key s) (st_field s)). destruct Ht as [Ho Hn].
          assert (Hself : thread_stats ts [i] = [s]) by (unfold thread_stats; cbn [omap list_omap]; rewrite Hi; reflexivity).
          assert (Hord : thread_stats ts (ds_order w ++ [i]) = thread_stats ts (ds_order w) ++ [s]) by (unfold thread_stats in *; rewrite omap_app, Hself; reflexivity).
          constructor; cbn [ds_last ds_order ds_out].
          -- apply NoDup_app. split; [apply (DI_nodup _ _ H)|]. split; [set_solver|apply NoDup_singleton].
          -- rewrite insert_length. apply Forall_app. split; [apply (DI_range _ _ H)|]. constructor; [exact Hlt|constructor].
          -- rewrite Hst, Hord. apply Forall_app. split; [apply (DI_total _ _ H)|]. constructor; [exact E|constructor].
          -- rewrite Hst, Hord. apply knows_total; [apply (DI_knows _ _ H)|exact E].
          -- rewrite insert_length. apply (DI_outs _ _ H).
          -- assert (Hpl : forall j s' found', placed w ts j s' found' -> placed (DShared (<[with_field (st_key s) (st_field s) := st_val s]> (ds_last w)) (ds_order w ++ [i]) (ds_out w)) (<[i := DThr s (D_cb found)]> ts) j s' found').
             { intros j s' found' (k & Hk & ->). exists k. cbn [ds_order]. split; [apply lookup_app_l_Some, Hk|]. rewrite Hst, take_app_le; [reflexivity|]. apply lookup_lt_Some in Hk. lia. }
             intros j u Hj. apply list_lookup_insert_Some in Hj as [(<- & <- & _)|[Hne Hj]].
             ++ unfold dtok. cbn [dt_pc dt_stat]. split; [exact E|]. split; [exact Ho|]. exists (length (ds_order w)). cbn [ds_order]. split; [rewrite lookup_app_r, Nat.sub_diag by lia; reflexivity|].
                rewrite Hst, take_app. apply (DI_knows _ _ H), E.
             ++ pose proof (DI_tok _ _ H _ _ Hj) as Hu. unfold dtok in *. change (outs (DShared _ _ (ds_out w)) j) with (outs w j). cbn [ds_order]. destruct (dt_pc u).
                ** destruct Hu as [? ?]. split; [assumption|]. set_solver.
                ** destruct Hu as (? & ? & ?). auto.
                ** destruct Hu as (? & ? & ?). auto.
                ** destruct Hu as [(? & ? & ?)|(? & f' & ? & ?)]; [left; split; [assumption|]; split; [assumption|set_solver]|right; eauto].
        * rewrite bool_decide_eq_false_2 by exact E. cbn [fst snd]. apply Hemit. destruct Ht as [Ho Hn]. left. cbn [dt_stat]. rewrite outs_app, Nat.eqb_refl, Ho. auto.
      + destruct Ht as (Hs & Ho & Hp). apply Hemit. destruct found as [v|]; unfold dtok; cbn [dt_pc dt_stat]; rewrite outs_app, Nat.eqb_refl, Ho.
        * auto.
        * right. split; [exact Hs|]. exists None. auto.
      + destruct Ht as (Hs & Ho & Hp). apply Hemit. unfold dtok; cbn [dt_pc dt_stat]; rewrite outs_app, Nat.eqb_refl, Ho. right. split; [exact Hs|]. exists (Some v). auto.
      + rewrite list_insert_id by exact Hi. exact H.
  Qed.

  Lemma concurrent_delta sched : exists order, NoDup order /\
    (forall i s, call_finished sub sched i s ->
       (~ is_total s /\ passed_on sub sched i = [s]) \/
       (is_total s /\ exists k, order !! k = Some i /\ passed_on sub sched i = with_delta sub previous_total (stats_of sub sched (take k order)) s)) /\
    (forall i j a b pre post, order !! a = Some i -> order !! b = Some j -> sched = pre ++ post -> (exists s, call_finished sub pre i s) -> call_unbegun sub pre j -> (a < b)%nat).
  Proof.
    pose proof (dinv_exec sched) as H. exists (ds_order (shared (d_exec sub sched))). split; [apply (DI_nodup _ _ H)|]. split.
    - intros i s Hi. pose proof (DI_tok _ _ H _ _ Hi) as Ht. unfold dtok in Ht. cbn [dt_stat dt_pc] in Ht. destruct Ht as [(Hs & Ho & _)|(Hs & found & (k & Hk & ->) & Ho)]; [left; auto|]. right. split; [exact Hs|].
      exists k. split; [exact Hk|]. unfold passed_on, outs in *. rewrite Ho. unfold with_delta, delta_calls, stats_of, thread_stats. rewrite decide_True by exact Hs. destruct (previous_total _ s); reflexivity.
    - intros i j a b pre post Ha Hb -> [s Hs] Hun.
      assert (Hpre : exists more, ds_order (shared (d_exec sub (pre ++ post))) = ds_order (shared (d_exec sub pre)) ++ more).
      { clear. induction post as [|x post [more IH]] using rev_ind; [exists []; rewrite !app_nil_r; reflexivity|]. rewrite app_assoc. unfold d_exec in *. destruct x as [x|k].
        - rewrite exec_spawn. cbn. eauto.
        - destruct (threads (exec d_start (d_step sub) (DShared ∅ [] []) (pre ++ post)) !! k) as [t|] eqn:E; [|rewrite (exec_run_none _ _ _ _ _ E); eauto].
          rewrite (exec_run _ _ _ _ _ _ E). cbn [shared]. set (w := shared (exec d_start (d_step sub) (DShared ∅ [] []) (pre ++ post))) in *. clearbody w. unfold d_step.
          destruct (dt_pc t); cbn [fst ds_order]; eauto. destruct (beqb _ _); cbn [fst ds_order delta_total]; eauto. rewrite IH, <- app_assoc. eauto. }
      destruct Hpre as [more Hpre]. rewrite Hpre in Ha, Hb. pose proof (dinv_exec (pre ++ post)) as Hfin. pose proof (DI_nodup _ _ Hfin) as Hnd. rewrite Hpre in Hnd.
      pose proof (dinv_exec pre) as Hp. set (o := ds_order (shared (d_exec sub pre))) in *.
      assert (Hjo : j ∉ o).
      { intros Hj. pose proof (DI_range _ _ Hp) as Hr. rewrite Forall_forall in Hr. specialize (Hr _ Hj). apply lookup_lt_is_Some in Hr as [t Ht]. pose proof (Hun _ Ht) as Hpc.
        pose proof (DI_tok _ _ Hp _ _ Ht) as Htk. unfold dtok in Htk. rewrite Hpc in Htk. destruct Htk as [_ Hx]. exact (Hx Hj). }
      assert (Hb' : (length o <= b)%nat). { destruct (decide (b < length o)%nat) as [Hlt|]; [|lia]. rewrite lookup_app_l in Hb by exact Hlt. destruct Hjo. eapply elem_of_list_lookup_2; exact Hb. }
      pose proof (DI_tok _ _ Hp _ _ Hs) as Hti. unfold dtok in Hti. cbn [dt_pc dt_stat] in Hti. destruct Hti as [(Hnt & _ & Hni)|(_ & found & (k & Hk & _) & _)].
      + (* not a total: never in the order *) exfalso.
        assert (Hfin_i : threads (d_exec sub (pre ++ post)) !! i = Some (DThr s D_done)).
        { clear - Hs. unfold call_finished in Hs. induction post as [|x post IH] using rev_ind; [rewrite app_nil_r; exact Hs|]. rewrite app_assoc. unfold d_exec in *. destruct x as [x|k].
          - rewrite exec_spawn. cbn. apply lookup_app_l_Some, IH.
          - destruct (threads (exec d_start (d_step sub) (DShared ∅ [] []) (pre ++ post)) !! k) as [t|] eqn:E; [|rewrite (exec_run_none _ _ _ _ _ E); exact IH].
            rewrite (exec_run _ _ _ _ _ _ E). cbn. destruct (decide (k = i)) as [->|Hne]; [|rewrite list_lookup_insert_ne by congruence; exact IH].
            rewrite IH in E. injection E as <-. rewrite list_lookup_insert by (eapply lookup_lt_Some; exact IH). reflexivity. }
        pose proof (DI_tok _ _ Hfin _ _ Hfin_i) as Hti. unfold dtok in Hti. cbn [dt_pc dt_stat] in Hti. destruct Hti as [(_ & _ & Hx)|(Hx & _)]; [|contradiction].
        apply Hx. rewrite Hpre. eapply elem_of_list_lookup_2. exact Ha.
      + assert (a = k). { eapply NoDup_lookup; [exact Hnd|exact Ha|]. apply lookup_app_l_Some, Hk. } subst k. apply lookup_lt_Some in Hk. fold o in Hk. lia.
  Qed.
End conc.

(** ** Registry handles *)
Section handles.
  Context (grow : nat -> nat).

  Definition fits (m : mem) (s : slice) : Prop :=
    (sl_len s <= sl_cap s)%nat /\ (0 < sl_cap s -> sl_ptr s < me_next m /\ length (array m (sl_ptr s)) = sl_cap s)%nat.
  (** [s] has its array for itself. *)
  Definition apart (s t : slice) : Prop := (0 < sl_cap s -> 0 < sl_cap t -> sl_ptr s <> sl_ptr t)%nat.
  Record winv (w : world) : Prop := {
    W_handles : forall h i s, wo_handles w !! h = Some (i, s) -> fits (wo_mem w) s;
    W_callers : forall c s, wo_callers w !! c = Some s -> fits (wo_mem w) s;
    W_apart : forall h h' i i' s s', h <> h' -> wo_handles w !! h = Some (i, s) -> wo_handles w !! h' = Some (i', s') -> apart s s';
    W_own : forall h i s c t, wo_handles w !! h = Some (i, s) -> wo_callers w !! c = Some t -> apart s t
  }.

  (** Nothing but the array of [s] is written. *)
  Lemma append_spec m s xs : fits m s ->
    let '(m', s') := append grow m s xs in
    contents m' s' = contents m s ++ xs /\ fits m' s' /\ (me_next m <= me_next m')%nat /\
    (forall p, (0 < sl_cap s -> p <> sl_ptr s)%nat -> (p < me_next m)%nat -> array m' p = array m p) /\
    (forall p, (0 < sl_cap s)%nat -> p = sl_ptr s -> length (array m' p) = length (array m p)) /\
    (sl_ptr s' = sl_ptr s /\ sl_cap s' = sl_cap s \/ me_next m <= sl_ptr s')%nat /\
    (me_next m' = me_next m \/ sl_ptr s' = me_next m)%nat.
  Proof.
    intros [Hlen Hcap]. unfold append. destruct (Nat.leb_spec (sl_len s + length xs) (sl_cap s)) as [Hle|Hgt].
    - unfold contents, array. cbn [me_arrays me_next sl_ptr sl_len sl_cap]. rewrite !lookup_insert. cbn [default id].
      set (a := default [] (me_arrays m !! sl_ptr s)).
      assert (Ha : (0 < sl_cap s)%nat -> length a = sl_cap s) by (intros H; apply Hcap, H).
      assert (Hlena : length (take (sl_len s) a ++ xs ++ drop (sl_len s + length xs) a) = length a).
      { destruct (decide (0 < sl_cap s)%nat) as [Hp|Hp].
        - rewrite !app_length, take_length, drop_length, (Ha Hp). lia.
        - assert (sl_len s = 0 /\ length xs = 0)%nat as [-> E] by lia. apply nil_length_inv in E. subst xs. reflexivity. }
      split_and!.
      + destruct (decide (0 < sl_cap s)%nat) as [Hp|Hp].
        * rewrite app_assoc, take_app_alt; [reflexivity|]. rewrite app_length, take_length, (Ha Hp). lia.
        * assert (sl_len s = 0 /\ length xs = 0)%nat as [-> E] by lia. apply nil_length_inv in E. subst xs. reflexivity.
      + split; cbn; [lia|]. intros Hp. split; [apply Hcap, Hp|]. unfold array. cbn. rewrite lookup_insert. cbn [default id]. rewrite Hlena. apply Ha, Hp.
      + lia.
      + intros p Hp _. destruct (decide (0 < sl_cap s)%nat) as [Hc|Hc].
        * rewrite lookup_insert_ne by (intros E; apply (Hp Hc); congruence). reflexivity.
        * destruct (decide (p = sl_ptr s)) as [->|Hne]; [|rewrite lookup_insert_ne by congruence; reflexivity]. rewrite lookup_insert. cbn [default id].
          assert (sl_len s = 0 /\ length xs = 0)%nat as [-> E] by lia. apply nil_length_inv in E. subst xs. reflexivity.
      + intros p _ ->. rewrite lookup_insert. cbn [default id]. exact Hlena.
      + left. auto.
      + left. reflexivity.
    - unfold contents, array. cbn [me_arrays me_next sl_ptr sl_len sl_cap]. rewrite !lookup_insert. cbn [default id].
      set (a := default [] (me_arrays m !! sl_ptr s)). fold (array m (sl_ptr s)) in a.
      assert (Hl : length (take (sl_len s) a) = sl_len s).
      { rewrite take_length. destruct (decide (0 < sl_cap s)%nat) as [Hp|Hp]; [|lia]. destruct (Hcap Hp) as [_ E]. fold a in E. lia. }
      split_and!.
      + rewrite app_assoc, take_app_alt; [reflexivity|]. rewrite app_length, Hl. reflexivity.
      + split; cbn; [lia|]. intros _. split; [lia|]. unfold array. cbn. rewrite lookup_insert. cbn [default id]. unfold contents. fold (array m (sl_ptr s)). fold a. rewrite !app_length, Hl, repeat_length. lia.
      + lia.
      + intros p _ Hp. rewrite lookup_insert_ne by lia. reflexivity.
      + intros p Hc ->. rewrite lookup_insert_ne; [reflexivity|]. apply Hcap in Hc. lia.
      + right. lia.
      + right. reflexivity.
  Qed.
  Lemma fits_nil m : fits m nil_slice.
  Proof. split; cbn; lia. Qed.
  Lemma fits_keep m m' s : fits m s -> (me_next m <= me_next m')%nat -> (0 < sl_cap s -> length (array m' (sl_ptr s)) = length (array m (sl_ptr s)))%nat -> fits m' s.
  Proof. intros [H1 H2] Hn Ha. split; [exact H1|]. intros Hp. destruct (H2 Hp) as [H3 H4]. split; [lia|]. rewrite Ha by exact Hp. exact H4. Qed.
  Lemma contents_keep m m' s : fits m s -> (0 < sl_cap s -> array m' (sl_ptr s) = array m (sl_ptr s))%nat -> contents m' s = contents m s.
  Proof.
    intros [H1 H2] Ha. unfold contents. destruct (decide (0 < sl_cap s)%nat) as [Hp|Hp]; [rewrite (Ha Hp); reflexivity|].
    assert (sl_len s = 0%nat) as -> by lia. reflexivity.
  Qed.

  (** What a step does: handles keep their transformers; WithTransformers makes a new one. *)
  Lemma winv_step w o : winv w -> winv (r_step grow w o) /\
    (forall h i s, wo_handles w !! h = Some (i, s) -> wo_handles (r_step grow w o) !! h = Some (i, s) /\ contents (wo_mem (r_step grow w o)) s = contents (wo_mem w) s) /\
    (forall h c i s t, o = RWith h c -> wo_handles w !! h = Some (i, s) -> wo_callers w !! c = Some t ->
       exists s', wo_handles (r_step grow w o) = wo_handles w ++ [(i, s')] /\ contents (wo_mem (r_step grow w o)) s' = contents (wo_mem w) s ++ contents (wo_mem w) t).
  Proof.
    intros H. destruct o as [|ts spare|c k t|c ts|h c|h name]; cbn [r_step].
    - (* NewRegistry *) split; [|split; [|discriminate]].
      + constructor; cbn.
        * intros h i s Hh. apply lookup_app_Some in Hh as [Hh|[_ Hh]]; [eapply W_handles; eassumption|]. destruct (h - _)%nat; [|destruct n; discriminate Hh]. injection Hh as <- <-. apply fits_nil.
        * apply (W_callers _ H).
        * intros h h' i i' s s' Hne Hh Hh'. apply lookup_app_Some in Hh as [Hh|[_ Hh]]; [|destruct (h - _)%nat; [|destruct n; discriminate Hh]; injection Hh as <- <-; intros Hx; cbn in Hx; lia].
          apply lookup_app_Some in Hh' as [Hh'|[_ Hh']]; [|destruct (h' - _)%nat; [|destruct n; discriminate Hh']; injection Hh' as <- <-; intros _ Hx; cbn in Hx; lia].
          eapply W_apart; eassumption.
        * intros h i s c t Hh Hc. apply lookup_app_Some in Hh as [Hh|[_ Hh]]; [eapply W_own; eassumption|]. destruct (h - _)%nat; [|destruct n; discriminate Hh]. injection Hh as <- <-. intros Hx; cbn in Hx; lia.
      + intros h i s Hh. split; [apply lookup_app_l_Some, Hh|reflexivity].
    - (* a caller's slice *)
      set (m := wo_mem w). set (m' := Mem (<[me_next m := ts ++ repeat 0%nat spare]> (me_arrays m)) (S (me_next m))).
      assert (Hk : forall s, fits m s -> (0 < sl_cap s -> array m' (sl_ptr s) = array m (sl_ptr s))%nat).
      { intros s [_ Hs] Hp. unfold array, m'. cbn. rewrite lookup_insert_ne; [reflexivity|]. apply Hs in Hp. lia. }
      assert (Hf : forall s, fits m s -> fits m' s) by (intros s Hs; eapply fits_keep; [exact Hs|cbn; lia|]; intros Hp; rewrite Hk by assumption; reflexivity).
      split; [|split; [|discriminate]].
      + constructor; cbn; fold m m'.
        * intros h i s Hh. apply Hf. eapply W_handles; eassumption.
        * intros c s Hc. apply lookup_app_Some in Hc as [Hc|[_ Hc]]; [apply Hf; eapply W_callers; eassumption|]. destruct (c - _)%nat; [|destruct n; discriminate Hc]. injection Hc as <-.
          split; cbn; [lia|]. intros _. split; [lia|]. unfold array. cbn. rewrite lookup_insert. cbn. rewrite app_length, repeat_length. reflexivity.
        * apply (W_apart _ H).
        * intros h i s c t Hh Hc. apply lookup_app_Some in Hc as [Hc|[_ Hc]]; [eapply W_own; eassumption|]. destruct (c - _)%nat; [|destruct n; discriminate Hc]. injection Hc as <-.
          intros Hp _ E. cbn in E. pose proof (W_handles _ H _ _ _ Hh) as [_ Hx]. apply Hx in Hp. fold m in Hp. lia.
      + intros h i s Hh. split; [exact Hh|]. apply contents_keep; [eapply W_handles; eassumption|]. apply Hk. eapply W_handles; eassumption.
    - (* caller writes *)
      destruct (wo_callers w !! c) as [u|] eqn:Hc; [|split; [exact H|split; [auto|discriminate]]].
      destruct (k <? sl_len u)%nat eqn:Ek; [|split; [exact H|split; [auto|discriminate]]]. apply Nat.ltb_lt in Ek.
      set (m := wo_mem w). set (m' := Mem _ _).
      pose proof (W_callers _ H _ _ Hc) as [Hu1 Hu2]. assert (Hpos : (0 < sl_cap u)%nat) by lia.
      assert (Hk : forall s, fits m s -> apart s u -> (0 < sl_cap s -> array m' (sl_ptr s) = array m (sl_ptr s))%nat).
      { intros s _ Hs Hp. unfold array, m'. cbn. rewrite lookup_insert_ne; [reflexivity|]. intros E. apply (Hs Hp Hpos). congruence. }
      assert (Hl : forall p, length (array m' p) = length (array m p)).
      { intros p. unfold array, m'. cbn. destruct (decide (p = sl_ptr u)) as [->|Hne]; [|rewrite lookup_insert_ne by congruence; reflexivity]. rewrite lookup_insert. cbn. apply insert_length. }
      split; [|split; [|discriminate]].
      + constructor; cbn.
        * intros h i s Hh. eapply fits_keep; [eapply W_handles; eassumption|apply Nat.le_refl|intros _; apply Hl].
        * intros c' s Hc'. eapply fits_keep; [eapply W_callers; eassumption|apply Nat.le_refl|intros _; apply Hl].
        * apply (W_apart _ H).
        * apply (W_own _ H).
      + intros h i s Hh. split; [exact Hh|]. apply contents_keep; [eapply W_handles; eassumption|]. apply Hk; [eapply W_handles; eassumption|eapply W_own; eassumption].
    - (* caller appends *)
      destruct (wo_callers w !! c) as [u|] eqn:Hc; [|split; [exact H|split; [auto|discriminate]]].
      pose proof (append_spec (wo_mem w) u ts (W_callers _ H _ _ Hc)) as Ha. destruct (append grow (wo_mem w) u ts) as [m' u'] eqn:Ea. destruct Ha as (_ & Hfu & Hnext & Hother & Hlenu & Hptr & _).
      assert (Hk : forall s, fits (wo_mem w) s -> apart s u -> (0 < sl_cap s -> array m' (sl_ptr s) = array (wo_mem w) (sl_ptr s))%nat).
      { intros s [_ Hs] Hap Hp. apply Hother; [|apply Hs, Hp]. intros Hpu E. apply (Hap Hp Hpu E). }
      assert (Hl : forall s, fits (wo_mem w) s -> (0 < sl_cap s -> length (array m' (sl_ptr s)) = length (array (wo_mem w) (sl_ptr s)))%nat).
      { intros s [_ Hs] Hp. destruct (decide (0 < sl_cap u /\ sl_ptr s = sl_ptr u)%nat) as [[Hpu E]|Hn]; [apply Hlenu; assumption|]. rewrite Hother; [reflexivity| |apply Hs, Hp]. intros Hpu E. tauto. }
      split; [|split; [|discriminate]].
      + constructor; cbn.
        * intros h i s Hh. pose proof (W_handles _ H _ _ _ Hh) as Hs. eapply fits_keep; [exact Hs|exact Hnext|apply Hl, Hs].
        * intros c' s Hc'. apply lookup_app_Some in Hc' as [Hc'|[_ Hc']].
          -- pose proof (W_callers _ H _ _ Hc') as Hs. eapply fits_keep; [exact Hs|exact Hnext|apply Hl, Hs].
          -- destruct (c' - _)%nat; [|destruct n; discriminate Hc']. injection Hc' as <-. exact Hfu.
        * apply (W_apart _ H).
        * intros h i s c' t Hh Hc'. apply lookup_app_Some in Hc' as [Hc'|[_ Hc']]; [eapply W_own; eassumption|]. destruct (c' - _)%nat; [|destruct n; discriminate Hc']. injection Hc' as <-.
          destruct Hptr as [[E1 E2]|Hnew].
          -- unfold apart. rewrite E1, E2. eapply W_own; eassumption.
          -- intros Hp _ E. pose proof (W_handles _ H _ _ _ Hh) as [_ Hs]. apply Hs in Hp. lia.
      + intros h i s Hh. split; [exact Hh|]. apply contents_keep; [eapply W_handles; eassumption|]. apply Hk; [eapply W_handles; eassumption|eapply W_own; eassumption].
    - (* WithTransformers *)
      destruct (wo_handles w !! h) as [[i s]|] eqn:Hh; [|split; [exact H|split; [auto|]]; intros ? ? ? ? ? E; injection E as -> ->; congruence].
      destruct (wo_callers w !! c) as [t|] eqn:Hc; [|split; [exact H|split; [auto|]]; intros ? ? ? ? ? E; injection E as -> ->; congruence].
      set (m := wo_mem w). pose proof (append_spec m nil_slice (contents m s) (fits_nil m)) as Ha. destruct (append grow m nil_slice (contents m s)) as [m1 s1] eqn:Ea.
      destruct Ha as (Hc1 & Hf1 & Hn1 & Ho1 & _ & Hp1 & Hnew1). change (contents m nil_slice ++ contents m s) with (contents m s) in Hc1.
      pose proof (append_spec m1 s1 (contents m t) Hf1) as Ha2. destruct (append grow m1 s1 (contents m t)) as [m2 s2] eqn:Ea2. destruct Ha2 as (Hc2 & Hf2 & Hn2 & Ho2 & Hl2 & Hp2 & Hnew2).
      (* the new slice's array is new *)
      assert (Hnew : (0 < sl_cap s2 -> me_next m <= sl_ptr s2)%nat).
      { intros Hp. destruct Hp2 as [[E1 E2]|Hx]; [|lia]. destruct Hp1 as [[E3 E4]|Hx]; [|lia]. rewrite E2, E4 in Hp. cbn in Hp. lia. }
      assert (Hs1 : (0 < sl_cap s1 -> me_next m <= sl_ptr s1)%nat).
      { intros Hp. destruct Hp1 as [[E3 E4]|Hx]; [|lia]. rewrite E4 in Hp. cbn in Hp. lia. }
      assert (Hk : forall p, (p < me_next m)%nat -> array m2 p = array m p).
      { intros p Hp. rewrite Ho2; [apply Ho1; [cbn; lia|exact Hp]| |lia]. intros Hx E. apply Hs1 in Hx. lia. }
      assert (Hfk : forall u, fits m u -> fits m2 u).
      { intros u Hu. eapply fits_keep; [exact Hu|lia|]. intros Hp. rewrite Hk; [reflexivity|]. destruct Hu as [_ Hu]. apply Hu, Hp. }
      assert (Hck : forall u, fits m u -> contents m2 u = contents m u).
      { intros u Hu. apply contents_keep; [exact Hu|]. intros Hp. apply Hk. destruct Hu as [_ Hu]. apply Hu, Hp. }
      split; [|split].
      + constructor; cbn.
        * intros h' i' u Hu. apply lookup_app_Some in Hu as [Hu|[_ Hu]]; [apply Hfk; eapply W_handles; eassumption|]. destruct (h' - _)%nat; [|destruct n; discriminate Hu]. injection Hu as <- <-. exact Hf2.
        * intros c' u Hu. apply Hfk. eapply W_callers; eassumption.
        * intros h1 h2 i1 i2 u1 u2 Hne H1 H2. apply lookup_app_Some in H1 as [H1|[Hle1 H1]]; apply lookup_app_Some in H2 as [H2|[Hle2 H2]].
          -- eapply W_apart; [exact H|exact Hne|eassumption|eassumption].
          -- destruct (h2 - _)%nat; [|destruct n; discriminate H2]. injection H2 as <- <-. intros Hx Hy E. apply Hnew in Hy. pose proof (W_handles _ H _ _ _ H1) as [_ Hz]. apply Hz in Hx. fold m in Hx. lia.
          -- destruct (h1 - _)%nat; [|destruct n; discriminate H1]. injection H1 as <- <-. intros Hx Hy E. apply Hnew in Hx. pose proof (W_handles _ H _ _ _ H2) as [_ Hz]. apply Hz in Hy. fold m in Hy. lia.
          -- exfalso. destruct (h1 - _)%nat eqn:E1; [|destruct n; discriminate H1]. destruct (h2 - _)%nat eqn:E2; [|destruct n; discriminate H2]. lia.
        * intros h' i' u c' v Hu Hv. apply lookup_app_Some in Hu as [Hu|[_ Hu]]; [eapply W_own; eassumption|]. destruct (h' - _)%nat; [|destruct n; discriminate Hu]. injection Hu as <- <-.
          intros Hx Hy E. apply Hnew in Hx. pose proof (W_callers _ H _ _ Hv) as [_ Hz]. apply Hz in Hy. fold m in Hy. lia.
      + intros h' i' u Hu. cbn. split; [apply lookup_app_l_Some, Hu|]. apply Hck. eapply W_handles; eassumption.
      + intros h' c' i' u v E Hu Hv. injection E as <- <-. rewrite Hh in Hu. injection Hu as <- <-. rewrite Hc in Hv. injection Hv as <-. exists s2. cbn. split; [reflexivity|]. rewrite Hc2, Hc1. reflexivity.
    - (* ScopeNamed *)
      assert (Hx : forall i, wo_mem (fst (scope_named w i name)) = wo_mem w /\ wo_handles (fst (scope_named w i name)) = wo_handles w /\ wo_callers (fst (scope_named w i name)) = wo_callers w).
      { intros i. unfold scope_named. destruct (wo_scopes w !! (i, name)); auto. }
      destruct (wo_handles w !! h) as [[i s]|]; [|split; [exact H|split; [auto|discriminate]]]. destruct (Hx i) as (E1 & E2 & E3). split; [|split; [|discriminate]].
      + constructor; rewrite ?E1, ?E2, ?E3; [apply (W_handles _ H)|apply (W_callers _ H)|apply (W_apart _ H)|apply (W_own _ H)].
      + intros h' i' u Hu. rewrite E1, E2. auto.
  Qed.
  Lemma r_exec_snoc ops o : r_exec grow (ops ++ [o]) = r_step grow (r_exec grow ops) o.
  Proof. unfold r_exec. rewrite fold_left_app. reflexivity. Qed.
  Lemma winv_exec ops : winv (r_exec grow ops).
  Proof.
    induction ops as [|o ops IH] using rev_ind.
    - constructor; cbn; intros; discriminate.
    - rewrite r_exec_snoc. apply winv_step, IH.
  Qed.

  Lemma handles_kept ops more h l : handle_transformers (r_exec grow ops) h = Some l -> handle_transformers (r_exec grow (ops ++ more)) h = Some l.
  Proof.
    intros Hl. induction more as [|o more IH] using rev_ind; [rewrite app_nil_r; exact Hl|]. rewrite app_assoc, r_exec_snoc.
    destruct (winv_step _ o (winv_exec (ops ++ more))) as (_ & Hk & _). unfold handle_transformers in *. destruct (wo_handles (r_exec grow (ops ++ more)) !! h) as [[i s]|] eqn:E; [|discriminate IH].
    destruct (Hk _ _ _ E) as [-> E2]. cbn in *. rewrite E2. exact IH.
  Qed.
  Lemma handle_made ops h c l ts : handle_transformers (r_exec grow ops) h = Some l -> caller_transformers (r_exec grow ops) c = Some ts ->
    handle_transformers (r_exec grow (ops ++ [RWith h c])) (length (wo_handles (r_exec grow ops))) = Some (l ++ ts).
  Proof.
    intros Hl Ht. rewrite r_exec_snoc. destruct (winv_step _ (RWith h c) (winv_exec ops)) as (_ & _ & Hn). unfold handle_transformers, caller_transformers in *.
    destruct (wo_handles (r_exec grow ops) !! h) as [[i s]|] eqn:E; [|discriminate Hl]. destruct (wo_callers (r_exec grow ops) !! c) as [t|] eqn:E'; [|discriminate Ht].
    destruct (Hn _ _ _ _ _ eq_refl E E') as (s' & -> & E2). rewrite lookup_app_r, Nat.sub_diag by lia. cbn in *. rewrite E2. congruence.
  Qed.
  Lemma handle_new ops : handle_transformers (r_exec grow (ops ++ [RNew])) (length (wo_handles (r_exec grow ops))) = Some [].
  Proof.
    rewrite r_exec_snoc. unfold handle_transformers. cbn. rewrite lookup_app_r, Nat.sub_diag by lia. reflexivity.
  Qed.

  (** Scopes. *)
  Definition nslices_step (n : nat) (o : rop) : nat :=
    match o with RSlice _ _ => S n | RAppend c _ => if (c <? n)%nat then S n else n | _ => n end.
  Definition nslices (n : nat) (ops : list rop) : nat := fold_left nslices_step ops n.
  Lemma nslices_snoc n ops o : nslices n (ops ++ [o]) = nslices_step (nslices n ops) o.
  Proof. unfold nslices. rewrite fold_left_app. reflexivity. Qed.
  Local Arguments nslices : simpl never.
  Lemma origins_from_app acc n ops o : exists n', origins_from acc n (ops ++ [o]) = origins_from (origins_from acc n ops) n' [o] /\
    n' = nslices n ops.
  Proof. revert acc n. induction ops as [|x ops IH]; intros acc n; [exists n; split; reflexivity|]. destruct x; cbn [app origins_from]; apply IH. Qed.
  Record sinv (ops : list rop) : Prop := {
    S_len : length (origins ops) = length (wo_handles (r_exec grow ops));
    S_callers : length (wo_callers (r_exec grow ops)) = nslices 0 ops;
    S_same : forall h h' o o' i i' s s', origins ops !! h = Some o -> origins ops !! h' = Some o' -> wo_handles (r_exec grow ops) !! h = Some (i, s) -> wo_handles (r_exec grow ops) !! h' = Some (i', s') -> (o = o' <-> i = i');
    S_lt : forall h i s, wo_handles (r_exec grow ops) !! h = Some (i, s) -> (i < wo_internals (r_exec grow ops))%nat;
    S_orig : Forall (fun o => (o < length (origins ops))%nat) (origins ops)
  }.
  Lemma scope_named_frame w i name : wo_handles (fst (scope_named w i name)) = wo_handles w /\ wo_internals (fst (scope_named w i name)) = wo_internals w /\ wo_callers (fst (scope_named w i name)) = wo_callers w.
  Proof. unfold scope_named. destruct (wo_scopes w !! (i, name)); auto. Qed.
  Lemma sinv_exec ops : sinv ops.
  Proof.
    induction ops as [|o ops IH] using rev_ind.
    { constructor; cbn; try reflexivity; try (intros; discriminate). constructor. }
    unfold origins in *. destruct (origins_from_app [] 0 ops o) as (n' & Eo & Hn'). fold (origins ops) in Eo.
    pose proof (S_len _ IH) as Hlen. pose proof (S_callers _ IH) as Hcal. rewrite <- Hcal in Hn'. subst n'.
    assert (Hkeep : forall w', wo_handles w' = wo_handles (r_exec grow ops) -> wo_internals w' = wo_internals (r_exec grow ops) ->
       length (wo_callers w') = nslices 0 (ops ++ [o]) ->
       r_exec grow (ops ++ [o]) = w' -> origins (ops ++ [o]) = origins ops -> sinv (ops ++ [o])).
    { intros w' E1 E2 E3 E4 E5. constructor; rewrite ?E4, ?E5, ?E1, ?E2.
      - exact Hlen.
      - exact E3.
      - apply (S_same _ IH).
      - apply (S_lt _ IH).
      - apply (S_orig _ IH). }
    assert (Happ : forall i s orig w', wo_handles w' = wo_handles (r_exec grow ops) ++ [(i, s)] -> 
       length (wo_callers w') = nslices 0 (ops ++ [o]) ->
       r_exec grow (ops ++ [o]) = w' -> origins (ops ++ [o]) = origins ops ++ [orig] -> (i < wo_internals w')%nat -> (wo_internals (r_exec grow ops) <= wo_internals w')%nat -> (orig <= length (origins ops))%nat ->
       (forall h o i' s', origins ops !! h = Some o -> wo_handles (r_exec grow ops) !! h = Some (i', s') -> (orig = o <-> i = i')) -> sinv (ops ++ [o])).
    { intros i s orig w' E1 E3 E4 E5 Hi Hint Hor Hx. constructor; rewrite ?E4, ?E5, ?E1.
      - rewrite !app_length, Hlen. reflexivity.
      - exact E3.
      - intros h h' a a' j j' t t' Ha Ha' Hj Hj'.
        assert (Hcase : forall k b l u, (origins ops ++ [orig]) !! k = Some b -> (wo_handles (r_exec grow ops) ++ [(i, s)]) !! k = Some (l, u) ->
          (origins ops !! k = Some b /\ wo_handles (r_exec grow ops) !! k = Some (l, u)) \/ (b = orig /\ l = i)).
        { intros k b l u Hb Hl. apply lookup_app_Some in Hb as [Hb|[Hge Hb]].
          - left. split; [exact Hb|]. rewrite lookup_app_l in Hl; [exact Hl|]. rewrite <- Hlen. eapply lookup_lt_Some. exact Hb.
          - right. rewrite lookup_app_r in Hl by lia. rewrite Hlen in Hb. destruct (k - _)%nat; [|destruct n; discriminate Hb]. cbn in Hb, Hl. split; congruence. }
        destruct (Hcase _ _ _ _ Ha Hj) as [[Ha1 Hj1]|[-> ->]]; destruct (Hcase _ _ _ _ Ha' Hj') as [[Ha2 Hj2]|[-> ->]].
        + eapply (S_same _ IH); eassumption.
        + specialize (Hx _ _ _ _ Ha1 Hj1). split; intros E; symmetry; apply Hx; congruence.
        + apply (Hx _ _ _ _ Ha2 Hj2).
        + tauto.
      - intros h j t Hj. apply lookup_app_Some in Hj as [Hj|[_ Hj]]; [pose proof (S_lt _ IH _ _ _ Hj); lia|]. destruct (h - _)%nat; [|destruct n; discriminate Hj]. injection Hj as <- <-. exact Hi.
      - apply Forall_app. rewrite app_length. cbn. split; [|constructor; [lia|constructor]]. eapply Forall_impl; [apply (S_orig _ IH)|]. cbn. intros. lia. }
    destruct o as [|ts spare|c k t|c ts|h c|h name]; cbn [origins_from] in Eo.
    - apply (Happ (wo_internals (r_exec grow ops)) nil_slice (length (origins ops)) (r_step grow (r_exec grow ops) RNew)); cbn.
      + reflexivity.
      + rewrite nslices_snoc. exact Hcal.
      + apply r_exec_snoc.
      + exact Eo.
      + lia.
      + lia.
      + lia.
      + intros h o i' s' Ho Hh. pose proof (S_lt _ IH _ _ _ Hh). pose proof (S_orig _ IH) as Hf. rewrite Forall_forall in Hf. apply elem_of_list_lookup_2 in Ho. specialize (Hf _ Ho). lia.
    - eapply Hkeep; [| | |apply r_exec_snoc|exact Eo]; cbn; [reflexivity|reflexivity|]. rewrite app_length, nslices_snoc, <- Hcal. cbn. lia.
    - eapply Hkeep; [| | |apply r_exec_snoc|exact Eo]; cbn [r_step]; (destruct (wo_callers (r_exec grow ops) !! c) as [u|]; [destruct (k <? sl_len u)%nat|]); cbn; rewrite ?nslices_snoc; auto.
    - eapply Hkeep; [| | |apply r_exec_snoc|exact Eo]; cbn; destruct (wo_callers (r_exec grow ops) !! c) as [u|] eqn:Ec; try (destruct (append grow _ u ts)); cbn; try reflexivity.
      + rewrite app_length, nslices_snoc, <- Hcal. cbn [nslices_step length]. apply lookup_lt_Some in Ec. rewrite (proj2 (Nat.ltb_lt _ _)) by exact Ec. lia.
      + rewrite nslices_snoc, <- Hcal. cbn [nslices_step length]. apply lookup_ge_None in Ec. rewrite (proj2 (Nat.ltb_ge _ _)) by exact Ec. reflexivity.
    - destruct (wo_handles (r_exec grow ops) !! h) as [[i s]|] eqn:Eh.
      2: { eapply Hkeep; [| | |apply r_exec_snoc|]; cbn; rewrite ?Eh; try reflexivity; [rewrite nslices_snoc; exact Hcal|]. etransitivity; [exact Eo|]. apply lookup_ge_None in Eh. rewrite <- Hlen in Eh. apply lookup_ge_None in Eh. rewrite Eh. reflexivity. }
      assert (exists o, origins ops !! h = Some o) as [o Ho]. { apply lookup_lt_is_Some. rewrite Hlen. eapply lookup_lt_Some. exact Eh. } rewrite Ho in Eo.
      destruct (wo_callers (r_exec grow ops) !! c) as [t|] eqn:Ec.
      + rewrite (proj2 (Nat.ltb_lt _ _)) in Eo by (eapply lookup_lt_Some; exact Ec).
        destruct (append grow (wo_mem (r_exec grow ops)) nil_slice (contents (wo_mem (r_exec grow ops)) s)) as [m1 s1] eqn:E1.
        destruct (append grow m1 s1 (contents (wo_mem (r_exec grow ops)) t)) as [m2 s2] eqn:E2.
        assert (Est : r_step grow (r_exec grow ops) (RWith h c) = add_handle (set_mem (r_exec grow ops) m2) (i, s2) (wo_internals (r_exec grow ops))) by (cbn; rewrite Eh, Ec, E1, E2; reflexivity).
        apply (Happ i s2 o (r_step grow (r_exec grow ops) (RWith h c))); rewrite ?Est; cbn.
        * reflexivity.
        * rewrite nslices_snoc. exact Hcal.
        * rewrite <- Est. apply r_exec_snoc.
        * exact Eo.
        * eapply S_lt; eassumption.
        * lia.
        * pose proof (S_orig _ IH) as Hf. rewrite Forall_forall in Hf. apply elem_of_list_lookup_2 in Ho. specialize (Hf _ Ho). lia.
        * intros h' o' i' s' Ho' Hh'. eapply (S_same _ IH h h'); eassumption.
      + eapply Hkeep; [| | |apply r_exec_snoc|]; cbn; rewrite ?Eh, ?Ec; try reflexivity; [rewrite nslices_snoc; exact Hcal|]. etransitivity; [exact Eo|]. apply lookup_ge_None in Ec. rewrite (proj2 (Nat.ltb_ge _ _)) by exact Ec. reflexivity.
    - eapply Hkeep; [| | |apply r_exec_snoc|exact Eo]; cbn; destruct (wo_handles (r_exec grow ops) !! h) as [[i s]|]; cbn; try (rewrite nslices_snoc; cbn); try reflexivity; try exact Hcal.
      + apply scope_named_frame.
      + apply scope_named_frame.
      + rewrite (proj2 (proj2 (scope_named_frame _ _ _))). exact Hcal.
  Qed.

  Lemma scopes_kept ops more i name s : wo_scopes (r_exec grow ops) !! (i, name) = Some s -> wo_scopes (r_exec grow (ops ++ more)) !! (i, name) = Some s.
  Proof.
    intros Hs. induction more as [|o more IH] using rev_ind; [rewrite app_nil_r; exact Hs|]. rewrite app_assoc, r_exec_snoc. set (w := r_exec grow (ops ++ more)) in *. clearbody w.
    destruct o as [|ts spare|c k t|c ts|h c|h n]; cbn [r_step]; try exact IH.
    - destruct (wo_callers w !! c) as [u|]; [destruct (k <? sl_len u)%nat|]; exact IH.
    - destruct (wo_callers w !! c); [destruct (append _ _ _ _)|]; exact IH.
    - destruct (wo_handles w !! h) as [[? ?]|]; [|exact IH]. destruct (wo_callers w !! c); [|exact IH]. destruct (append _ _ _ _). destruct (append _ _ _ _). exact IH.
    - destruct (wo_handles w !! h) as [[j ?]|]; [|exact IH]. unfold scope_named. destruct (wo_scopes w !! (j, n)) eqn:E; [exact IH|]. cbn. rewrite lookup_insert_ne; [exact IH|]. congruence.
  Qed.
  Lemma internals_kept ops more h i s : wo_handles (r_exec grow ops) !! h = Some (i, s) -> exists s', wo_handles (r_exec grow (ops ++ more)) !! h = Some (i, s').
  Proof.
    intros Hs. induction more as [|o more IH] using rev_ind; [rewrite app_nil_r; eauto|]. rewrite app_assoc, r_exec_snoc. destruct IH as [s' IH].
    destruct (winv_step _ o (winv_exec (ops ++ more))) as (_ & Hk & _). destruct (Hk _ _ _ IH) as [E _]. eauto.
  Qed.
  (** The scope a handle named earlier is the scope its family finds later. *)
  Lemma scopes_shared ops more h h' name s :
    scope_of (r_exec grow ops) h name = Some s -> same_family (ops ++ RScope h name :: more) h h' ->
    scope_of (r_exec grow (ops ++ RScope h name :: more)) h' name = Some s.
  Proof.
    intros Hs (o & Ho & Ho'). unfold scope_of in Hs. destruct (wo_handles (r_exec grow ops) !! h) as [[i sl]|] eqn:Eh; [|discriminate Hs]. cbn in Hs. injection Hs as Hs.
    assert (Ht : wo_scopes (r_exec grow (ops ++ [RScope h name])) !! (i, name) = Some s).
    { rewrite r_exec_snoc. cbn. rewrite Eh. cbn. unfold scope_named in *. destruct (wo_scopes (r_exec grow ops) !! (i, name)) eqn:E; cbn in *; [rewrite E; congruence|]. rewrite lookup_insert. congruence. }
    rewrite cons_middle, app_assoc in Ho, Ho'. rewrite cons_middle, app_assoc. apply (scopes_kept _ more) in Ht. set (ops' := (ops ++ [RScope h name]) ++ more) in *.
    destruct (internals_kept ops ([RScope h name] ++ more) h i sl Eh) as [sl' Eh']. rewrite app_assoc in Eh'. fold ops' in Eh'.
    pose proof (sinv_exec ops') as H. assert (is_Some (wo_handles (r_exec grow ops') !! h')) as [[i' sl''] Eh''].
    { apply lookup_lt_is_Some. rewrite <- (S_len _ H). eapply lookup_lt_Some. exact Ho'. }
    assert (i = i') by (apply (S_same _ H h h' o o i i' sl' sl'' Ho Ho' Eh' Eh''); reflexivity). subst i'.
    unfold scope_of. rewrite Eh''. cbn. unfold scope_named. rewrite Ht. reflexivity.
  Qed.

  Record kinv (w : world) : Prop := {
    K_lt : forall k s, wo_scopes w !! k = Some s -> (s < wo_scope_next w)%nat;
    K_inj : forall k k' s, wo_scopes w !! k = Some s -> wo_scopes w !! k' = Some s -> k = k'
  }.
  Lemma kinv_exec ops : kinv (r_exec grow ops).
  Proof.
    induction ops as [|o ops IH] using rev_ind.
    { constructor; cbn; intros k; rewrite lookup_empty; discriminate. }
    rewrite r_exec_snoc. set (w := r_exec grow ops) in *. clearbody w.
    assert (Hkeep : forall w', wo_scopes w' = wo_scopes w -> wo_scope_next w' = wo_scope_next w -> kinv w').
    { intros w' E1 E2. constructor; rewrite E1, ?E2; [apply (K_lt _ IH)|apply (K_inj _ IH)]. }
    destruct o as [|ts spare|c k t|c ts|h c|h n]; cbn [r_step].
    - apply Hkeep; reflexivity.
    - apply Hkeep; reflexivity.
    - destruct (wo_callers w !! c) as [u|]; [destruct (k <? sl_len u)%nat|]; apply Hkeep; reflexivity.
    - destruct (wo_callers w !! c); [destruct (append _ _ _ _)|]; apply Hkeep; reflexivity.
    - destruct (wo_handles w !! h) as [[? ?]|]; [|exact IH]. destruct (wo_callers w !! c); [|exact IH]. destruct (append _ _ _ _). destruct (append _ _ _ _). apply Hkeep; reflexivity.
    - destruct (wo_handles w !! h) as [[j ?]|]; [|exact IH]. unfold scope_named. destruct (wo_scopes w !! (j, n)) eqn:E; [exact IH|]. constructor; cbn.
      + intros k s0 Hk. apply lookup_insert_Some in Hk as [[<- <-]|[_ Hk]]; [lia|]. apply (K_lt _ IH) in Hk. lia.
      + intros k k' s0 Hk Hk'. apply lookup_insert_Some in Hk as [[<- <-]|[_ Hk]]; apply lookup_insert_Some in Hk' as [[<- ?]|[_ Hk']].
        * reflexivity.
        * apply (K_lt _ IH) in Hk'. lia.
        * apply (K_lt _ IH) in Hk. lia.
        * eapply (K_inj _ IH); eassumption.
  Qed.
  (** Scopes of different families or names are different. *)
  Lemma scopes_separate ops more h h' name name' s s' :
    scope_of (r_exec grow ops) h name = Some s ->
    scope_of (r_exec grow (ops ++ RScope h name :: more)) h' name' = Some s' ->
    ~ (same_family (ops ++ RScope h name :: more) h h' /\ name = name') -> s <> s'.
  Proof.
    intros Hs Hs' Hn E. subst s'. apply Hn. clear Hn.
    assert (Hfam : same_family (ops ++ RScope h name :: more) h h).
    { unfold scope_of in Hs. destruct (wo_handles (r_exec grow ops) !! h) as [[i sl]|] eqn:Eh; [|discriminate Hs].
      destruct (internals_kept ops (RScope h name :: more) h i sl Eh) as [sl' Eh'].
      assert (is_Some (origins (ops ++ RScope h name :: more) !! h)) as [o Ho]; [|exists o; auto].
      apply lookup_lt_is_Some. rewrite (S_len _ (sinv_exec _)). eapply lookup_lt_Some. exact Eh'. }
    pose proof (scopes_shared ops more h h name s Hs Hfam) as Ht. set (ops' := ops ++ RScope h name :: more) in *.
    (* the table entry that [h] made *)
    assert (He : exists i sl, wo_handles (r_exec grow ops') !! h = Some (i, sl) /\ wo_scopes (r_exec grow ops') !! (i, name) = Some s).
    { unfold scope_of in Hs. destruct (wo_handles (r_exec grow ops) !! h) as [[i sl]|] eqn:Eh; [|discriminate Hs]. cbn in Hs. injection Hs as Hs.
      destruct (internals_kept ops (RScope h name :: more) h i sl Eh) as [sl' Eh']. exists i, sl'. split; [exact Eh'|].
      assert (E : wo_scopes (r_exec grow (ops ++ [RScope h name])) !! (i, name) = Some s).
      { rewrite r_exec_snoc. cbn. rewrite Eh. cbn. unfold scope_named in *. destruct (wo_scopes (r_exec grow ops) !! (i, name)) eqn:E; cbn in *; [rewrite E; congruence|]. rewrite lookup_insert. congruence. }
      apply (scopes_kept _ more) in E. rewrite <- app_assoc in E. exact E. }
    destruct He as (i & sl & Eh & Ei).
    unfold scope_of in Hs'. destruct (wo_handles (r_exec grow ops') !! h') as [[i' sl']|] eqn:Eh'; [|discriminate Hs']. cbn in Hs'. injection Hs' as Hs'. unfold scope_named in Hs'.
    destruct (wo_scopes (r_exec grow ops') !! (i', name')) as [s'|] eqn:E'; cbn in Hs'.
    - subst s'. pose proof (K_inj _ (kinv_exec ops') _ _ _ Ei E') as E. injection E as -> ->. split; [|reflexivity].
      destruct Hfam as (o & Ho & _). assert (is_Some (origins ops' !! h')) as [o' Ho'].
      { apply lookup_lt_is_Some. rewrite (S_len _ (sinv_exec ops')). eapply lookup_lt_Some. exact Eh'. }
      assert (o = o') as <- by (apply (S_same _ (sinv_exec ops') h h' o o' i' i' sl sl' Ho Ho' Eh Eh'); reflexivity). exists o. auto.
    - apply (K_lt _ (kinv_exec ops')) in Ei. lia.
  Qed.
End handles.

(** Registry.Stats through distinct transformers. *)
Lemma registry_stats_through {V S} (f : nat -> stage V S) (init : nat -> S) ks range : NoDup ks ->
  snd (registry_stats range (map (stage_transformer f init) ks) recorder (∅, [])) = pipe f init ks (registry_source range).
Proof. exact (stats_through f init ks (registry_source range)). Qed.

(** ** The order of scopes *)
Lemma bytes_ltb_neg_trans x y z : bytes_ltb y x = false -> bytes_ltb z y = false -> bytes_ltb z x = false.
Proof.
  intros H1 H2. destruct (bytes_ltb z x) eqn:E; [|reflexivity]. destruct (bytes_ltb x y) eqn:F.
  - rewrite (bytes_ltb_trans _ _ _ E F) in H2. discriminate.
  - rewrite (bytes_ltb_total _ _ F H1) in E. congruence.
Qed.
Lemma strengthen_sorted {X} (l : list (bytes * X)) : NoDup (map fst l) -> StronglySorted (nolater scope_less) l -> StronglySorted name_before l.
Proof.
  induction l as [|x l IH]; intros Hn Hs; [constructor|]. cbn in Hn. apply NoDup_cons in Hn as [Hx Hn].
  apply StronglySorted_inv in Hs as [Hs Hf]. constructor; [auto|]. rewrite Forall_forall in *. intros y Hy. specialize (Hf y Hy).
  unfold nolater, scope_less in Hf. unfold name_before.
  destruct (bytes_ltb (fst x) (fst y)) eqn:E; [reflexivity|]. exfalso. apply Hx.
  assert (fst x = fst y) as -> by (apply bytes_ltb_total; assumption). apply elem_of_list_In, in_map, elem_of_list_In, Hy.
Qed.
Lemma scopes_in_order {X} (range : list (bytes * X)) : NoDup (map fst range) ->
  exists l, l ≡ₚ range /\ StronglySorted name_before l /\ forall range', range' ≡ₚ range -> scopes range' = l.
Proof.
  intros Hn. assert (S : forall r, r ≡ₚ range -> StronglySorted name_before (scopes r) /\ scopes r ≡ₚ range).
  { intros r Hr. assert (P : scopes r ≡ₚ range) by (unfold scopes; rewrite isort_perm; exact Hr). split; [|exact P].
    apply strengthen_sorted.
    - rewrite (Permutation_map fst P). exact Hn.
    - apply isort_sorted; unfold scope_less.
      + intros x y z. apply bytes_ltb_neg_trans.
      + intros x y. apply bytes_ltb_asym. }
  exists (scopes range). destruct (S range) as [S1 S2]; [reflexivity|]. split_and!; [exact S2|exact S1|].
  intros r Hr. destruct (S r Hr) as [T1 T2]. apply (strictly_sorted_unique name_before).
  - intros x H. unfold name_before in H. rewrite bytes_ltb_irrefl in H. discriminate.
  - intros x y z. apply bytes_ltb_trans.
  - exact T1.
  - exact S1.
  - rewrite T2, S2. reflexivity.
Qed.
