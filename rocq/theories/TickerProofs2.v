(** The invariant of the ticker (for C87). *)
From Verif Require Import Base BaseProofs SeriesModel Fval MeterModel MeterSpec MeterProofs TickerModel TickerSpec TickerProofs.
Local Open Scope Z_scope.
Local Arguments wrap64 : simpl never.
Local Notation T := timePerTick.
Lemma T_pos : 0 < T. Proof. reflexivity. Qed.
Local Opaque timePerTick.

(** The functions of the specification on longer logs. *)
Lemma omap_snoc {A B} (f : A -> option B) l x :
  omap f (l ++ [x]) = omap f l ++ match f x with Some y => [y] | None => [] end.
Proof. rewrite omap_app. reflexivity. Qed.
Lemma registered_snoc log t e : registered (log ++ [(t, e)]) = registered log ++ match e with ERegister m => [m] | _ => [] end.
Proof. unfold registered. rewrite omap_snoc. destruct e; reflexivity. Qed.
Lemma ticked_snoc p log t e : ticked p (log ++ [(t, e)]) = ticked p log ++ match e with ETick p' m _ => if decide (p' = p) then [m] else [] | _ => [] end.
Proof. unfold ticked. rewrite omap_snoc. destruct e; try reflexivity. cbn. destruct (decide _); reflexivity. Qed.
Lemma ops_snoc m log t e : ops m (log ++ [(t, e)]) = ops m log ++ match e with ETick _ m' now => if decide (m' = m) then [MTick now] else [] | EOp m' o => if decide (m' = m) then [o] else [] | _ => [] end.
Proof. unfold ops. rewrite omap_snoc. destruct e; try reflexivity; cbn; destruct (decide _); reflexivity. Qed.
Lemma ops_app m l1 l2 : ops m (l1 ++ l2) = ops m l1 ++ ops m l2.
Proof. apply omap_app. Qed.
Lemma starts_snoc log t e : starts (log ++ [(t, e)]) = (starts log + match e with EStart => 1 | _ => 0 end)%nat.
Proof. unfold starts. rewrite List.filter_app, app_length. destruct e; reflexivity. Qed.

Definition snapped (p : nat) (log : list (Z * tevent)) : Prop := exists t, In (t, ESnap p) log.
Lemma snapped_snoc p log t e : snapped p (log ++ [(t, e)]) <-> snapped p log \/ e = ESnap p.
Proof.
  unfold snapped. split.
  - intros (t' & H). apply in_app_or in H as [H|[H|[]]]; [eauto|]. right. congruence.
  - intros [(t' & H)| ->]; [exists t'; apply in_or_app; auto|]. exists t. apply in_or_app. right. left. reflexivity.
Qed.
Lemma before_snap_snapped p log l : snapped p log -> before_snap p (log ++ l) = before_snap p log.
Proof.
  intros (t & H). induction log as [|[t' e] log IH]; [destruct H|].
  cbn. destruct H as [H|H].
  - apply pair_equal_spec in H as [-> ->]. destruct (decide (p = p)); [reflexivity|congruence].
  - specialize (IH H). rewrite IH. reflexivity.
Qed.
Lemma before_snap_not p log : ~ snapped p log -> before_snap p log = log.
Proof.
  intros H. induction log as [|[t e] log IH]; [reflexivity|]. cbn.
  rewrite IH by (intros (t' & H'); apply H; exists t'; right; exact H').
  destruct e; try reflexivity. destruct (decide _) as [->|_]; [|reflexivity].
  destruct H. exists t. left. reflexivity.
Qed.
Lemma seen_snoc p log t e : snapped p log -> seen p (log ++ [(t, e)]) = seen p log.
Proof. intros H. unfold seen. rewrite before_snap_snapped by exact H. reflexivity. Qed.
Lemma seen_now p log t : ~ snapped p log -> seen p (log ++ [(t, ESnap p)]) = registered log.
Proof.
  intros H. unfold seen. f_equal. induction log as [|[t' e] log IH].
  - cbn. destruct (decide _); [reflexivity|congruence].
  - cbn. rewrite IH by (intros (t1 & H1); apply H; exists t1; right; exact H1).
    destruct e; try reflexivity. destruct (decide _) as [->|_]; [|reflexivity].
    destruct H. exists t'. left. reflexivity.
Qed.

Lemma seen_prefix p log : exists l, registered log = seen p log ++ l.
Proof.
  unfold seen, registered. induction log as [|[t e] log (l & IH)]; [exists []; reflexivity|].
  destruct e; cbn; try (exists l; exact IH).
  - exists l. f_equal. exact IH.
  - destruct (decide _); [eexists; reflexivity|]. exists l. exact IH.
Qed.

(** Times. *)
Definition base (clock : Z) (a : at_line) : Z :=
  match a with LSleep => clock + T | LSleeping u => Z.max u clock | _ => clock end.
(** The tick of pass p will have at least this time. *)
Definition bound (clock : Z) (g : go) (p : nat) : Z :=
  (if decide (p = g_pass g) then match g_at g with LRange n _ _ => n | a => base clock a end else base clock (g_at g))
  + Z.of_nat (p - g_pass g) * T.

Definition timed (clock : Z) (g : go) (log : list (Z * tevent)) : Prop :=
  forall l1 t e l2, log = l1 ++ (t, e) :: l2 ->
    t <= clock /\ (forall t' e', In (t', e') l1 -> t' <= t) /\
    exists q, (q <= g_pass g)%nat /\
      match e with ETick p _ n => p = q /\ n <= t | _ => True end /\
      (forall t' p m n, In (t', ETick p m n) l2 -> (q <= p)%nat /\ ((q < p)%nat -> t + Z.of_nat (p - q) * T <= n)) /\
      (forall p, (g_pass g <= p)%nat -> (q < p)%nat -> t + Z.of_nat (p - q) * T <= bound clock g p).

Lemma timed_mono clock g log clock' g' :
  timed clock g log -> clock <= clock' -> (g_pass g <= g_pass g')%nat ->
  (forall p, (g_pass g' <= p)%nat -> bound clock g p <= bound clock' g' p) -> timed clock' g' log.
Proof.
  intros H Hc Hp Hb l1 t e l2 E. destruct (H l1 t e l2 E) as (Ht & Hs & q & Hq & He & Hl2 & Hbb).
  split; [lia|]. split; [exact Hs|]. exists q. split; [lia|]. split; [exact He|]. split; [exact Hl2|].
  intros p Hp1 Hp2. specialize (Hb p Hp1). specialize (Hbb p ltac:(lia) Hp2). lia.
Qed.
Lemma snoc_inv {A} (l : list A) x l1 y l2 : l ++ [x] = l1 ++ y :: l2 ->
  (l2 = [] /\ l1 = l /\ y = x) \/ (exists l2', l2 = l2' ++ [x] /\ l = l1 ++ y :: l2').
Proof.
  destruct l2 as [|z l2 _] using rev_ind; intros H.
  - apply app_inj_tail in H as [-> ->]. auto.
  - right. rewrite app_comm_cons, app_assoc in H. apply app_inj_tail in H as [-> ->]. eauto.
Qed.
Lemma timed_snoc clock g log e :
  timed clock g log ->
  match e with ETick p _ n => p = g_pass g /\ n <= clock /\ n = bound clock g p | _ => True end ->
  timed clock g (log ++ [(clock, e)]).
Proof.
  intros H He l1 t e1 l2 E. pose proof T_pos as HT. apply snoc_inv in E as [(-> & -> & E)|(l2' & -> & E)].
  - apply pair_equal_spec in E as [-> ->]. split; [lia|]. split.
    { intros t' e' Hin. apply in_split in Hin as (x & y & ->). destruct (H _ _ _ _ eq_refl) as (Ht & _). exact Ht. }
    exists (g_pass g). split; [lia|]. split.
    { destruct e; try exact I. tauto. }
    split; [intros t' p m n []|]. intros p Hp1 Hp2. unfold bound.
    destruct (decide _); [lia|]. destruct (g_at g); cbn [base]; lia.
  - destruct (H _ _ _ _ E) as (Ht & Hs & q & Hq & He1 & Hl2 & Hb). split; [exact Ht|]. split; [exact Hs|].
    exists q. split; [exact Hq|]. split; [exact He1|]. split; [|exact Hb].
    intros t' p m n Hin. apply in_app_or in Hin as [Hin|[Hin|[]]]; [eauto|].
    apply pair_equal_spec in Hin as [-> ->]. destruct He as (-> & Hn & ->). split; [exact Hq|].
    intros Hlt. apply Hb; [lia|exact Hlt].
Qed.
Lemma timed_tick clock g log t p m n : timed clock g log -> In (t, ETick p m n) log -> n <= t /\ t <= clock /\ (p <= g_pass g)%nat.
Proof. intros H Hin. apply in_split in Hin as (x & y & E). destruct (H _ _ _ _ E) as (Ht & _ & q & Hq & [-> Hn] & _). auto. Qed.

(** A slice whose first elements are [l], and which append will not change. *)
Definition holds (arrays : list (list nat)) (cur s : slice) (l : list nat) : Prop :=
  exists arr, arrays !! fst s = Some arr /\ (snd s <= length arr)%nat /\ take (snd s) arr = l /\ (fst s = fst cur -> (snd s <= snd cur)%nat).

Lemma append_holds arrays cur regs m room arrays' cur' :
  holds arrays cur cur regs -> append_slice arrays cur m room = (arrays', cur') ->
  holds arrays' cur' cur' (regs ++ [m]) /\
  (forall s l, holds arrays cur s l -> holds arrays' cur' s l).
Proof.
  destruct cur as [p len]. intros (arr & Ha & Hl & Ht & _) E. cbn [fst snd] in *. unfold append_slice in E. rewrite Ha in E. cbn [default from_option id] in E.
  pose proof (lookup_lt_Some _ _ _ Ha) as Hlt.
  destruct (Nat.ltb_spec len (length arr)) as [Hlen|Hlen]; apply pair_equal_spec in E as [<- <-].
  - split.
    + exists (<[len := m]> arr). cbn [fst snd]. split; [apply list_lookup_insert; exact Hlt|].
      rewrite insert_length. split; [lia|]. split; [|lia].
      rewrite (take_S_r _ _ m) by (apply list_lookup_insert; exact Hlen).
      rewrite take_insert by lia. rewrite Ht. reflexivity.
    + intros [p' l'] l (arr' & Ha' & Hl' & Ht' & Hle). cbn [fst snd] in *.
      destruct (decide (p' = p)) as [->|Hne].
      * specialize (Hle eq_refl). rewrite Ha in Ha'. apply Some_inj in Ha' as <-.
        exists (<[len := m]> arr). cbn [fst snd]. split; [apply list_lookup_insert; exact Hlt|].
        rewrite insert_length. split; [exact Hl'|]. split; [|lia]. rewrite take_insert by exact Hle. exact Ht'.
      * exists arr'. cbn [fst snd]. rewrite list_lookup_insert_ne by congruence. split_and!; auto.
  - assert (len = length arr) as -> by lia. rewrite take_ge in Ht by lia. subst arr.
    split.
    + exists (take (length regs) regs ++ [m] ++ replicate room 0%nat). cbn [fst snd].
      split; [rewrite lookup_app_r, Nat.sub_diag by lia; reflexivity|].
      rewrite take_ge by lia. rewrite !app_length. cbn [length]. split; [lia|]. split; [|lia].
      rewrite app_assoc. rewrite take_app_le by (rewrite app_length; cbn; lia).
      rewrite take_ge by (rewrite app_length; cbn; lia). reflexivity.
    + intros [p' l'] l (arr' & Ha' & Hl' & Ht' & Hle). cbn [fst snd] in *. exists arr'. cbn [fst snd].
      pose proof (lookup_lt_Some _ _ _ Ha') as Hlt'.
      rewrite lookup_app_l by exact Hlt'. split_and!; auto. lia.
Qed.

(** The pass the goroutine is in. *)
Definition in_pass (s : tstate) (g : go) : Prop :=
  let P := g_pass g in let log := t_log s in
  (forall p, (p < P)%nat -> ticked p log = seen p log /\ snapped p log) /\
  (forall p, (P < p)%nat -> ~ snapped p log) /\
  (forall t p, In (t, EDone p) log -> (p < P)%nat) /\
  match g_at g with
  | LNow ms => snapped P log /\ ticked P log = [] /\ holds (t_arrays s) (t_slice s) ms (seen P log)
  | LRange now ms k => snapped P log /\ holds (t_arrays s) (t_slice s) ms (seen P log) /\ ticked P log = take k (seen P log) /\
      (k <= snd ms)%nat /\ now <= t_clock s
  | _ => ~ snapped P log /\ ticked P log = []
  end.

Definition on_meter (e : tevent) : option nat := match e with ETick _ m _ => Some m | EOp m _ => Some m | _ => None end.
Definition meters_ok (s : tstate) : Prop :=
  NoDup (registered (t_log s)) /\
  (forall m, In m (registered (t_log s)) <-> exists t0 mt, t_meters s !! m = Some (t0, mt, true)) /\
  (forall m t0 mt b, t_meters s !! m = Some (t0, mt, b) -> mt = meter_run t0 (ops m (t_log s)) /\ t0 <= t_clock s) /\
  (forall t e m, In (t, e) (t_log s) -> on_meter e = Some m -> In m (registered (t_log s)) /\ (forall t0 mt b, t_meters s !! m = Some (t0, mt, b) -> t0 <= t)) /\
  (forall t m x n, In (t, EOp m (MReset x n)) (t_log s) -> n = t).

Definition TInv (s : tstate) : Prop :=
  meters_ok s /\ holds (t_arrays s) (t_slice s) (t_slice s) (registered (t_log s)) /\
  if t_started s then starts (t_log s) = 1%nat /\ exists g, t_gos s = [g] /\ in_pass s g /\ timed (t_clock s) g (t_log s)
  else t_gos s = [] /\ t_log s = [].

Lemma TInv_init : TInv t_init.
Proof.
  split; [|split; [|split; reflexivity]].
  - split_and!; cbn.
    + constructor.
    + intros m. split; [intros []|]. intros (t0 & mt & H). discriminate.
    + intros m t0 mt b H. discriminate.
    + intros t e m [].
    + intros t m x n [].
  - exists []. cbn. auto.
Qed.

(** A step that adds an event which concerns no meter. *)
Lemma meters_ok_quiet clock st ar sl gs ms log st' ar' sl' gs' e :
  meters_ok (TState clock st ar sl gs ms log) -> on_meter e = None -> (forall m, e <> ERegister m) ->
  meters_ok (TState clock st' ar' sl' gs' ms (log ++ [(clock, e)])).
Proof.
  intros (H1 & H2 & H3 & H4 & H5) He Hr. unfold meters_ok. cbn [t_log t_meters t_clock] in *.
  assert (E : registered (log ++ [(clock, e)]) = registered log).
  { rewrite registered_snoc. destruct e; try apply app_nil_r. destruct (Hr m eq_refl). }
  rewrite E. split; [exact H1|]. split; [exact H2|]. split.
  { intros m t0 mt b H. rewrite ops_snoc. destruct (H3 _ _ _ _ H) as [-> Ht]. split; [|exact Ht].
    destruct e; try (rewrite app_nil_r; reflexivity); discriminate. }
  split.
  { intros t e' m Hin Hm. apply in_app_or in Hin as [Hin|[Hin|[]]]; [eauto|].
    apply pair_equal_spec in Hin as [<- <-]. congruence. }
  intros t m x n Hin. apply in_app_or in Hin as [Hin|[Hin|[]]]; [eauto|].
  apply pair_equal_spec in Hin as [<- ->]. discriminate.
Qed.
(** A step that uses a registered meter. *)
Lemma meters_ok_op clock st ar sl gs ms log st' ar' sl' gs' e m o :
  meters_ok (TState clock st ar sl gs ms log) -> In m (registered log) ->
  (e = EOp m o \/ exists p n, e = ETick p m n /\ o = MTick n) -> (forall x n, o = MReset x n -> n = clock) ->
  meters_ok (TState clock st' ar' sl' gs' (apply_op ms m o) (log ++ [(clock, e)])).
Proof.
  intros (H1 & H2 & H3 & H4 & H5) Hm He Ho. unfold meters_ok. cbn [t_log t_meters t_clock] in *.
  assert (E : registered (log ++ [(clock, e)]) = registered log).
  { rewrite registered_snoc. destruct He as [->|(p & n & -> & _)]; apply app_nil_r. }
  assert (El : forall m' t0 mt b, apply_op ms m o !! m' = Some (t0, mt, b) ->
    exists mt', ms !! m' = Some (t0, mt', b) /\ mt = (if decide (m = m') then meter_step mt' o else mt')).
  { intros m' t0 mt b H. unfold apply_op in H. destruct (decide (m = m')) as [->|Hne].
    - rewrite list_lookup_alter in H. destruct (ms !! m') as [[[t1 mt1] b1]|] eqn:Em; [|discriminate].
      cbn in H. apply Some_inj in H. apply pair_equal_spec in H as [H ->]. apply pair_equal_spec in H as [-> <-]. eauto.
    - rewrite list_lookup_alter_ne in H by exact Hne. eauto. }
  rewrite E. split; [exact H1|]. split.
  { intros m'. rewrite H2. unfold apply_op. destruct (decide (m = m')) as [->|Hne].
    - rewrite list_lookup_alter. split; intros (t0 & mt & H).
      + rewrite H. cbn. eauto.
      + destruct (ms !! m') as [[[t1 mt1] b1]|]; [|discriminate]. cbn in H.
        apply Some_inj in H. apply pair_equal_spec in H as [_ ->]. eauto.
    - rewrite list_lookup_alter_ne by exact Hne. reflexivity. }
  split.
  { intros m' t0 mt b H. apply El in H as (mt' & H & ->). destruct (H3 _ _ _ _ H) as [-> Ht]. split; [|exact Ht].
    rewrite ops_snoc. destruct He as [->|(p & n & -> & ->)]; (destruct (decide _); [|rewrite app_nil_r; reflexivity]);
      unfold meter_run; rewrite fold_left_app; reflexivity. }
  split.
  { intros t e' m' Hin Hm'. apply in_app_or in Hin as [Hin|[Hin|[]]].
    - destruct (H4 _ _ _ Hin Hm') as [Hr Ht]. split; [exact Hr|]. intros t0 mt b H. apply El in H as (mt' & H & _). eauto.
    - apply pair_equal_spec in Hin as [<- <-].
      assert (m' = m) as -> by (destruct He as [->|(p & n & -> & _)]; cbn in Hm'; congruence).
      split; [exact Hm|]. intros t0 mt b H. apply El in H as (mt' & H & _). apply (H3 _ _ _ _ H). }
  intros t m' x n Hin. apply in_app_or in Hin as [Hin|[Hin|[]]]; [eauto|].
  apply pair_equal_spec in Hin as [<- Hin]. destruct He as [->|(p & n' & -> & _)]; [|discriminate].
  injection Hin as _ Hin. eauto.
Qed.
