(** Proofs about span bags and span life cycles. *)
From Verif Require Import BaseProofs Conc ScopeSpec FuncStatsModel FuncStatsSpec SpanModel SpanSpec.
Local Open Scope Z_scope.

(** ** Bags *)
Definition bag_count (b : bag) (s : nat) : Z :=
  (if decide (bag_first b = Some s) then 1 else 0) + default 0 (bag_rest b !! s).
Definition bag_ok (b : bag) : Prop := forall s n, bag_rest b !! s = Some n -> 0 < n.

Lemma bag_ok_empty : bag_ok bag_empty.
Proof. intros s n H. cbn in H. rewrite lookup_empty in H. discriminate H. Qed.
Lemma bag_count_empty s : bag_count bag_empty s = 0.
Proof. unfold bag_count. cbn. rewrite lookup_empty. reflexivity. Qed.
Lemma bag_rest_nonneg b s : bag_ok b -> 0 <= default 0 (bag_rest b !! s).
Proof. intros H. destruct (bag_rest b !! s) as [n|] eqn:E; cbn; [apply H in E; lia|lia]. Qed.
Lemma bag_count_nonneg b s : bag_ok b -> 0 <= bag_count b s.
Proof. intros H. unfold bag_count. pose proof (bag_rest_nonneg b s H). destruct (decide _); lia. Qed.

Lemma bag_add_ok s b : bag_ok b -> bag_ok (bag_add s b).
Proof.
  intros H. unfold bag_add. destruct (bag_first b) as [f|]; [|exact H].
  intros x n. cbn. destruct (decide (x = s)) as [->|Hne].
  - rewrite lookup_insert. intros E. inversion E. pose proof (bag_rest_nonneg b s H). lia.
  - rewrite lookup_insert_ne by congruence. apply H.
Qed.
Lemma bag_add_count s b x : bag_count (bag_add s b) x = bag_count b x + (if decide (x = s) then 1 else 0).
Proof.
  unfold bag_count, bag_add. destruct (bag_first b) as [f|] eqn:E; cbn.
  - destruct (decide (x = s)) as [->|Hne].
    + rewrite lookup_insert. cbn. destruct (decide (Some f = Some s)); lia.
    + rewrite lookup_insert_ne by congruence. destruct (decide (Some f = Some x)); lia.
  - destruct (decide (x = s)) as [->|Hne].
    + rewrite decide_True by reflexivity. rewrite decide_False by discriminate. lia.
    + rewrite decide_False by congruence. rewrite decide_False by discriminate. lia.
Qed.

Lemma bag_remove_ok s b : bag_ok b -> bag_ok (bag_remove s b).
Proof.
  intros H. unfold bag_remove. destruct (bool_decide _); [exact H|].
  destruct (Z.leb_spec (default 0 (bag_rest b !! s)) 1); intros x n; cbn.
  - rewrite lookup_delete_Some. intros [_ E]. eapply H, E.
  - destruct (decide (x = s)) as [->|Hne].
    + rewrite lookup_insert. intros E. inversion E. lia.
    + rewrite lookup_insert_ne by congruence. apply H.
Qed.
Lemma bag_remove_count s b x : bag_ok b ->
  bag_count (bag_remove s b) x = if decide (x = s) then Z.max 0 (bag_count b s - 1) else bag_count b x.
Proof.
  intros H. unfold bag_count, bag_remove. pose proof (bag_rest_nonneg b s H).
  destruct (bool_decide (bag_first b = Some s)) eqn:E.
  - apply bool_decide_eq_true in E. cbn. rewrite decide_False by discriminate. destruct (decide (x = s)) as [->|Hne].
    + rewrite decide_True by assumption. lia.
    + rewrite decide_False by congruence. reflexivity.
  - apply bool_decide_eq_false in E. destruct (Z.leb_spec (default 0 (bag_rest b !! s)) 1); cbn.
    + destruct (decide (x = s)) as [->|Hne].
      * rewrite lookup_delete. rewrite decide_False by assumption. cbn. lia.
      * rewrite lookup_delete_ne by congruence. reflexivity.
    + destruct (decide (x = s)) as [->|Hne].
      * rewrite lookup_insert. rewrite decide_False by assumption. cbn. lia.
      * rewrite lookup_insert_ne by congruence. reflexivity.
Qed.

Lemma bag_iterate_elem ord b s : any_order ord -> bag_ok b -> s ∈ bag_iterate ord b <-> 0 < bag_count b s.
Proof.
  intros Ho Hb. unfold bag_iterate, bag_count. rewrite elem_of_app, (Ho _), elem_of_elements, elem_of_dom.
  pose proof (bag_rest_nonneg b s Hb) as Hn. split.
  - intros [H|[n H]].
    + destruct (bag_first b) as [f|]; [|set_solver]. apply elem_of_list_singleton in H. subst. rewrite decide_True by reflexivity. lia.
    + rewrite H in *. cbn. apply Hb in H. destruct (decide _); lia.
  - intros H. destruct (decide (bag_first b = Some s)) as [E|E].
    + left. rewrite E. set_solver.
    + right. destruct (bag_rest b !! s) as [n|] eqn:E'; [eauto|]. cbn in H. lia.
Qed.

(** Histories *)
Lemma bag_run_snoc ops op :
  bag_run (ops ++ [op]) = match op with BAdd s => bag_add s (bag_run ops) | BRemove s => bag_remove s (bag_run ops) end.
Proof. unfold bag_run. rewrite fold_left_app. reflexivity. Qed.
Lemma balance_snoc s ops op :
  balance s (ops ++ [op]) = match op with
    | BAdd s' => if Nat.eqb s s' then balance s ops + 1 else balance s ops
    | BRemove s' => if Nat.eqb s s' then balance s ops - 1 else balance s ops end.
Proof. unfold balance. rewrite fold_left_app. reflexivity. Qed.
Lemma balanced_app ops1 ops2 : balanced (ops1 ++ ops2) -> balanced ops1.
Proof. intros H pre post s E. apply (H pre (post ++ ops2)). rewrite E, app_assoc. reflexivity. Qed.

Lemma bag_run_spec ops : balanced ops -> bag_ok (bag_run ops) /\ forall s, bag_count (bag_run ops) s = balance s ops.
Proof.
  induction ops as [|op ops IH] using rev_ind; intros Hb.
  - split; [apply bag_ok_empty|]. intros s. apply bag_count_empty.
  - destruct (IH (balanced_app _ _ Hb)) as [Hok Hc]. rewrite bag_run_snoc.
    assert (Hbal : forall s, 0 <= balance s (ops ++ [op])). { intros s. apply (Hb _ []). rewrite app_nil_r. reflexivity. }
    destruct op as [x|x].
    + split; [apply bag_add_ok, Hok|]. intros s. rewrite bag_add_count, Hc, balance_snoc.
      destruct (decide (s = x)) as [->|Hne]; [rewrite Nat.eqb_refl; reflexivity|].
      rewrite (proj2 (Nat.eqb_neq _ _) Hne). lia.
    + split; [apply bag_remove_ok, Hok|]. intros s. rewrite bag_remove_count by exact Hok. rewrite !Hc, balance_snoc.
      specialize (Hbal s). rewrite balance_snoc in Hbal.
      destruct (decide (s = x)) as [->|Hne]; [rewrite Nat.eqb_refl in *; lia|].
      rewrite (proj2 (Nat.eqb_neq _ _) Hne). reflexivity.
Qed.

Lemma bag_reports ops ord s : balanced ops -> any_order ord ->
  s ∈ bag_iterate ord (bag_run ops) <-> 0 < balance s ops.
Proof.
  intros Hb Ho. destruct (bag_run_spec ops Hb) as [Hok Hc]. rewrite (bag_iterate_elem _ _ _ Ho Hok), Hc. reflexivity.
Qed.

Lemma dedup_elem l : forall found s, s ∈ dedup found l <-> s ∈ l /\ s ∉ found.
Proof.
  induction l as [|x l IH]; intros found s; cbn.
  - set_solver.
  - destruct (bool_decide (x ∈ found)) eqn:E.
    + apply bool_decide_eq_true in E. rewrite IH. set_solver.
    + apply bool_decide_eq_false in E. rewrite elem_of_cons, IH. destruct (decide (s = x)) as [->|]; set_solver.
Qed.
Lemma dedup_nodup l : forall found, NoDup (dedup found l).
Proof.
  induction l as [|x l IH]; intros found; cbn; [constructor|].
  destruct (bool_decide (x ∈ found)); [apply IH|]. constructor; [|apply IH].
  rewrite dedup_elem. set_solver.
Qed.

Lemma span_less_asym info i j : span_less info i j = true -> span_less info j i = false.
Proof.
  unfold span_less. intros H. apply orb_true_iff in H as [H|H].
  - rewrite (bytes_ltb_asym _ _ H). cbn. destruct (beqb _ _) eqn:E; [|reflexivity].
    apply beqb_true in E. rewrite E, bytes_ltb_irrefl in H. discriminate H.
  - apply andb_true_iff in H as [H1 H2]. apply beqb_true in H1. rewrite H1, bytes_ltb_irrefl. cbn.
    apply Z.ltb_lt in H2. rewrite (proj2 (Z.ltb_ge _ _)) by lia. apply andb_false_r.
Qed.
Lemma span_less_negtrans info x y z :
  span_less info y x = false -> span_less info z y = false -> span_less info z x = false.
Proof.
  unfold span_less. rewrite !orb_false_iff, !andb_false_iff. intros [A1 A2] [B1 B2].
  destruct (bytes_ltb (fst (info z)) (fst (info x))) eqn:E.
  - exfalso. (* z < x, not y < x, not z < y *)
    destruct (bytes_ltb (fst (info x)) (fst (info y))) eqn:E2.
    + rewrite (bytes_ltb_trans _ _ _ E E2) in B1. discriminate B1.
    + pose proof (bytes_ltb_total _ _ E2 A1) as Exy. rewrite Exy in E. congruence.
  - split; [reflexivity|]. destruct (beqb (fst (info z)) (fst (info x))) eqn:E2; [|tauto]. right.
    apply beqb_true in E2.
    destruct (bytes_ltb (fst (info x)) (fst (info y))) eqn:E3; [congruence|].
    pose proof (bytes_ltb_total _ _ E3 A1) as Exy.
    destruct A2 as [A2|A2]. { rewrite Exy in A2. assert (X : beqb (fst (info y)) (fst (info y)) = true) by (apply beqb_true; reflexivity). congruence. }
    destruct B2 as [B2|B2]. { rewrite E2, Exy in B2. assert (X : beqb (fst (info y)) (fst (info y)) = true) by (apply beqb_true; reflexivity). congruence. }
    apply Z.ltb_ge in A2, B2. apply Z.ltb_ge. lia.
Qed.

Lemma children_spec info ops ord : balanced ops -> any_order ord ->
  let l := bag_children info ord (bag_run ops) in
  NoDup l /\ (forall s, s ∈ l <-> 0 < balance s ops) /\
  StronglySorted (fun i j => span_less info j i = false) l.
Proof.
  intros Hb Ho l. unfold l, bag_children. split; [|split].
  - rewrite isort_perm. apply dedup_nodup.
  - intros s. rewrite isort_perm, dedup_elem, (bag_reports _ _ _ Hb Ho). set_solver.
  - apply isort_sorted; [intros x y z; apply span_less_negtrans|intros x y; apply span_less_asym].
Qed.

(** ** The life-cycle invariant *)
Definition is_begun (pc : spc) : bool := match pc with A_inc | A_link => false | _ => true end.
Definition is_linked (pc : spc) : bool :=
  match pc with A_orphan | A_running | X_end | X_mark | X_children _ _ | X_unlink _ => true | _ => false end.
Definition is_live (pc : spc) : bool := match pc with X_dec | X_done _ => false | _ => true end.

Definition tmap := nat -> option sthread.
Definition upd (T : tmap) (i : nat) (t : sthread) : tmap := fun j => if decide (j = i) then Some t else T j.
Definition par (t : sthread) : option nat := sc_parent (st_call t).

Definition linked_in (T : tmap) (c p : nat) : bool :=
  match T c with Some t => bool_decide (par t = Some p) && is_linked (st_pc t) | None => false end.

Record inv (s : spans) (T : tmap) : Prop := {
  K1 : forall p c, bag_count (children_of s p) c = Z.b2z (linked_in T c p);
  K1' : forall p, bag_ok (children_of s p);
  K2 : forall i, i ∈ sp_roots s <-> exists t, T i = Some t /\ par t = None /\ is_linked (st_pc t) = true;
  K3 : forall i, i ∈ sp_done s <-> exists t, T i = Some t /\ finishing (st_pc t) = true;
  K4 : forall i, i ∈ sp_orphans s <-> i ∈ sp_orphaned s /\ exists t, T i = Some t /\ is_live (st_pc t) = true;
  K5 : forall i t, T i = Some t ->
       match st_pc t with
       | X_children o _ | X_unlink o => o = bool_decide (i ∈ sp_orphaned s)
       | X_orphanend => i ∈ sp_orphaned s
       | X_dec | X_done _ => i ∉ sp_orphans s
       | _ => True
       end;
  K6 : forall i, i ∈ sp_orphaned s ->
       exists t p, T i = Some t /\ par t = Some p /\ p ∈ sp_done s /\ is_begun (st_pc t) = true;
  K7 : forall p tp o l c, T p = Some tp -> st_pc tp = X_children o l -> c ∈ l ->
       exists t, T c = Some t /\ par t = Some p /\ is_begun (st_pc t) = true;
  K8 : forall i t, T i = Some t -> st_pc t = A_orphan -> exists p, par t = Some p /\ p ∈ sp_done s;
  K9 : forall i t p, T i = Some t -> par t = Some p -> is_begun (st_pc t) = true ->
       p ∈ sp_done s -> i ∉ sp_done s -> i ∉ sp_orphaned s ->
       st_pc t = A_orphan \/ exists tp o l, T p = Some tp /\ st_pc tp = X_children o l /\ i ∈ l;
  K10 : forall i t, T i = Some t -> any_order (sc_ord (st_call t))
}.

Lemma upd_eq T i t : upd T i t i = Some t.
Proof. unfold upd. rewrite decide_True by reflexivity. reflexivity. Qed.
Lemma upd_ne T i j t : j <> i -> upd T i t j = T j.
Proof. intros H. unfold upd. rewrite decide_False by exact H. reflexivity. Qed.

Lemma linked_upd T i t c p :
  linked_in (upd T i t) c p = if decide (c = i) then bool_decide (par t = Some p) && is_linked (st_pc t) else linked_in T c p.
Proof. unfold linked_in, upd. destruct (decide (c = i)); reflexivity. Qed.

(** Statements of the form "exists t, T i = Some t /\ P t" under an update. *)
Lemma ex_upd (P : sthread -> Prop) T i t j :
  (exists u, upd T i t j = Some u /\ P u) <-> (j = i /\ P t) \/ (j <> i /\ exists u, T j = Some u /\ P u).
Proof.
  unfold upd. destruct (decide (j = i)) as [->|Hne].
  - split; [intros (u & E & H); inversion E; subst; tauto|intros [[_ H]|[H _]]; [eauto|congruence]].
  - split; [intros H; tauto|intros [[H _]|[_ H]]; [congruence|exact H]].
Qed.

(** A step that leaves the span sets alone and does not change a thread's class. *)
Lemma frame s s' T i t t' :
  inv s T -> T i = Some t ->
  sp_done s' = sp_done s -> sp_orphaned s' = sp_orphaned s -> sp_children s' = sp_children s ->
  sp_roots s' = sp_roots s -> sp_orphans s' = sp_orphans s ->
  st_call t' = st_call t -> is_begun (st_pc t') = is_begun (st_pc t) -> is_linked (st_pc t') = is_linked (st_pc t) ->
  finishing (st_pc t') = finishing (st_pc t) -> is_live (st_pc t') = is_live (st_pc t) ->
  (match st_pc t' with
   | X_children o _ => False
   | X_unlink o => st_pc t = X_children o []
   | X_orphanend | A_orphan => False
   | X_dec | X_done _ => is_live (st_pc t) = false
   | _ => True
   end) ->
  st_pc t <> A_orphan -> (forall o c l, st_pc t <> X_children o (c :: l)) ->
  inv s' (upd T i t').
Proof.
  intros [k1 k1' k2 k3 k4 k5 k6 k7 k8 k9 k10] Hi Ed Eo Ec Er Eos Ecall Eb El Ef Ev Hpc Hno Hnc.
  assert (Ep : par t' = par t) by (unfold par; rewrite Ecall; reflexivity).
  assert (Ech : forall p, children_of s' p = children_of s p) by (intros p; unfold children_of; rewrite Ec; reflexivity).
  constructor; rewrite ?Ed, ?Eo, ?Er, ?Eos.
  - intros p c. rewrite Ech, k1, linked_upd. destruct (decide (c = i)) as [->|]; [|reflexivity].
    unfold linked_in. rewrite Hi, Ep, El. reflexivity.
  - intros p. rewrite Ech. apply k1'.
  - intros j. rewrite k2. rewrite (ex_upd (fun t => par t = None /\ is_linked (st_pc t) = true)).
    destruct (decide (j = i)) as [->|Hne].
    + rewrite Ep, El. split; [intros (u & E & ?); left; assert (u = t) by congruence; subst; tauto|intros [[_ ?]|[? _]]; [eauto|congruence]].
    + split; [tauto|intros [[? _]|[_ ?]]; [congruence|assumption]].
  - intros j. rewrite k3. rewrite (ex_upd (fun t => finishing (st_pc t) = true)).
    destruct (decide (j = i)) as [->|Hne].
    + rewrite Ef. split; [intros (u & E & ?); left; assert (u = t) by congruence; subst; tauto|intros [[_ ?]|[? _]]; [eauto|congruence]].
    + split; [tauto|intros [[? _]|[_ ?]]; [congruence|assumption]].
  - intros j. rewrite k4. rewrite (ex_upd (fun t => is_live (st_pc t) = true)).
    destruct (decide (j = i)) as [->|Hne].
    + rewrite Ev. split; [intros (? & u & E & ?); split; [assumption|left; assert (u = t) by congruence; subst; tauto]|intros (? & [[_ ?]|[? _]]); [eauto|congruence]].
    + split; [tauto|intros (? & [[? _]|[_ ?]]); [congruence|tauto]].
  - intros j u Hu. destruct (decide (j = i)) as [->|Hne].
    + rewrite upd_eq in Hu. inversion Hu; subst u. specialize (k5 _ _ Hi).
      destruct (st_pc t'); try exact I; try contradiction.
      * rewrite Hpc in k5. exact k5.
      * rewrite k4. intros (_ & u & E & Hl). assert (u = t) by congruence. subst. congruence.
      * rewrite k4. intros (_ & u' & E & Hl). assert (u' = t) by congruence. subst. congruence.
    + rewrite upd_ne in Hu by exact Hne. exact (k5 _ _ Hu).
  - intros j Hj. destruct (k6 _ Hj) as (u & p & Hu & Hp & Hd & Hb). destruct (decide (j = i)) as [->|Hne].
    + exists t', p. rewrite upd_eq. assert (u = t) by congruence. subst. rewrite Ep, Eb. auto.
    + exists u, p. rewrite upd_ne by exact Hne. auto.
  - intros p tp o l c Htp Hpc' Hc. assert (Hold : T p = Some tp).
    { destruct (decide (p = i)) as [->|Hne]; [|rewrite upd_ne in Htp by exact Hne; exact Htp].
      rewrite upd_eq in Htp. inversion Htp; subst. rewrite Hpc' in Hpc. contradiction. }
    destruct (k7 _ _ _ _ _ Hold Hpc' Hc) as (u & Hu & Hp & Hb). destruct (decide (c = i)) as [->|Hne].
    + exists t'. rewrite upd_eq. assert (u = t) by congruence. subst. rewrite Ep, Eb. auto.
    + exists u. rewrite upd_ne by exact Hne. auto.
  - intros j u Hu Hp. destruct (decide (j = i)) as [->|Hne].
    + rewrite upd_eq in Hu. inversion Hu; subst. rewrite Hp in Hpc. contradiction.
    + rewrite upd_ne in Hu by exact Hne. exact (k8 _ _ Hu Hp).
  - assert (Hw : forall p j, (exists tp o l, T p = Some tp /\ st_pc tp = X_children o l /\ j ∈ l) ->
                   exists tp o l, upd T i t' p = Some tp /\ st_pc tp = X_children o l /\ j ∈ l).
    { intros p j (tp & o & l & Htp & Hpc' & Hj). destruct (decide (p = i)) as [->|Hne].
      - assert (tp = t) by congruence. subst. destruct l as [|c l]; [set_solver|]. destruct (Hnc _ _ _ Hpc').
      - exists tp, o, l. rewrite upd_ne by exact Hne. auto. }
    intros j u p Hu Hp Hb Hd Hj Ho. destruct (decide (j = i)) as [->|Hne].
    + rewrite upd_eq in Hu. inversion Hu; subst u. rewrite Ep in Hp. rewrite Eb in Hb.
      destruct (k9 _ _ _ Hi Hp Hb Hd Hj Ho) as [?|?]; [contradiction|]. right. apply Hw. assumption.
    + rewrite upd_ne in Hu by exact Hne. destruct (k9 _ _ _ Hu Hp Hb Hd Hj Ho) as [?|?]; [tauto|]. right. apply Hw. assumption.
  - intros j u Hu. destruct (decide (j = i)) as [->|Hne].
    + rewrite upd_eq in Hu. inversion Hu; subst u. rewrite Ecall. exact (k10 _ _ Hi).
    + rewrite upd_ne in Hu by exact Hne. exact (k10 _ _ Hu).
Qed.

Lemma ex_keep (P : sthread -> Prop) T i t t' j :
  T i = Some t -> (P t -> P t') -> (exists u, T j = Some u /\ P u) -> exists u, upd T i t' j = Some u /\ P u.
Proof.
  intros Hi HP (u & Hu & Hp). destruct (decide (j = i)) as [->|Hne].
  - exists t'. rewrite upd_eq. split; [reflexivity|]. apply HP. congruence.
  - exists u. rewrite upd_ne by exact Hne. auto.
Qed.
Lemma ex_same (P : sthread -> Prop) T i t t' j :
  T i = Some t -> (P t <-> P t') -> (exists u, upd T i t' j = Some u /\ P u) <-> exists u, T j = Some u /\ P u.
Proof.
  intros Hi HP. split; [|apply (ex_keep P T i t); tauto].
  intros (u & Hu & Hp). destruct (decide (j = i)) as [->|Hne].
  - rewrite upd_eq in Hu. exists t. split; [exact Hi|]. apply HP. congruence.
  - rewrite upd_ne in Hu by exact Hne. eauto.
Qed.

Ltac upd_in H :=
  match type of H with
  | upd ?T ?i ?t ?j = Some ?u =>
      destruct (decide (j = i)) as [->|?]; [rewrite upd_eq in H; inversion H; subst u; clear H|rewrite upd_ne in H by assumption]
  end.

Lemma children_set s p b q :
  children_of (set_children s p b) q = if decide (q = p) then b else children_of s q.
Proof.
  unfold children_of. cbn. destruct (decide (q = p)) as [->|Hne].
  - rewrite lookup_insert. reflexivity.
  - rewrite lookup_insert_ne by congruence. reflexivity.
Qed.

(** The waiting-to-be-orphaned witness survives a step of another kind of thread. *)
Lemma witness_keep T i t t' p j :
  T i = Some t -> (forall o l, st_pc t = X_children o l -> False) ->
  (exists tp o l, T p = Some tp /\ st_pc tp = X_children o l /\ j ∈ l) ->
  exists tp o l, upd T i t' p = Some tp /\ st_pc tp = X_children o l /\ j ∈ l.
Proof.
  intros Hi Hn (tp & o & l & Htp & Hpc & Hj). exists tp, o, l. rewrite upd_ne; [auto|].
  intros ->. assert (tp = t) by congruence. subst. exact (Hn _ _ Hpc).
Qed.

Lemma step_link_child s T i c p :
  inv s T -> T i = Some (SThr c A_link) -> sc_parent c = Some p ->
  inv (set_children s p (bag_add i (children_of s p)))
      (upd T i (SThr c (if bool_decide (p ∈ sp_done s) then A_orphan else A_running))).
Proof.
  intros [k1 k1' k2 k3 k4 k5 k6 k7 k8 k9 k10] Hi Hp.
  set (t := SThr c A_link) in *. set (t' := SThr c _).
  assert (Hpc' : st_pc t' = A_orphan \/ st_pc t' = A_running) by (cbn; destruct (bool_decide _); tauto).
  assert (Hb : is_begun (st_pc t') = true) by (destruct Hpc' as [-> | ->]; reflexivity).
  assert (Hl : is_linked (st_pc t') = true) by (destruct Hpc' as [-> | ->]; reflexivity).
  assert (Hf : finishing (st_pc t') = false) by (destruct Hpc' as [-> | ->]; reflexivity).
  assert (Hv : is_live (st_pc t') = true) by (destruct Hpc' as [-> | ->]; reflexivity).
  assert (Hpar : par t' = Some p) by exact Hp.
  constructor; cbn [sp_done sp_orphaned sp_roots sp_orphans set_children].
  - intros q x. rewrite children_set, linked_upd. destruct (decide (q = p)) as [->|Hq].
    + rewrite bag_add_count, k1. destruct (decide (x = i)) as [->|Hx].
      * unfold linked_in. rewrite Hi, Hl, Hpar. cbn [is_linked st_pc t]. rewrite andb_false_r, bool_decide_eq_true_2 by reflexivity. reflexivity.
      * lia.
    + rewrite k1. destruct (decide (x = i)) as [->|Hx]; [|reflexivity].
      unfold linked_in. rewrite Hi, Hpar. cbn [is_linked st_pc t]. rewrite andb_false_r, bool_decide_eq_false_2 by congruence. reflexivity.
  - intros q. rewrite children_set. destruct (decide (q = p)); [apply bag_add_ok, k1'|apply k1'].
  - intros j. rewrite k2. symmetry. apply (ex_same (fun t => par t = None /\ is_linked (st_pc t) = true) T i t t' j Hi).
    rewrite Hpar. cbn. split; [intros [_ ?]; discriminate|intros [? _]; discriminate].
  - intros j. rewrite k3. symmetry. apply (ex_same (fun t => finishing (st_pc t) = true) T i t t' j Hi).
    rewrite Hf. cbn. tauto.
  - intros j. rewrite k4. pose proof (ex_same (fun t => is_live (st_pc t) = true) T i t t' j Hi) as X.
    rewrite X; [tauto|]. rewrite Hv. cbn. tauto.
  - intros j u Hu. upd_in Hu; [|exact (k5 _ _ Hu)]. destruct Hpc' as [-> | ->]; exact I.
  - intros j Hj. destruct (k6 _ Hj) as (u & q & Hu & Hq & Hd & Hbu). exists u, q. rewrite upd_ne; [auto|].
    intros ->. assert (u = t) by congruence. subst. discriminate Hbu.
  - intros q tp o l x Htp Hpc Hx. upd_in Htp; [destruct Hpc' as [E|E]; rewrite E in Hpc; discriminate Hpc|].
    pose proof (k7 _ _ _ _ _ Htp Hpc Hx) as X.
    apply (ex_keep (fun t => par t = Some q /\ is_begun (st_pc t) = true) T i t t' x Hi); [|exact X].
    cbn. intros [_ ?]; discriminate.
  - intros j u Hu Hpc. upd_in Hu; [|exact (k8 _ _ Hu Hpc)]. exists p. split; [exact Hpar|].
    cbn in Hpc. destruct (bool_decide (p ∈ sp_done s)) eqn:E; [apply bool_decide_eq_true in E; exact E|discriminate Hpc].
  - intros j u q Hu Hq Hbu Hd Hj Ho. upd_in Hu.
    + left. assert (q = p) by congruence. subst q. cbn. rewrite bool_decide_eq_true_2 by exact Hd. reflexivity.
    + destruct (k9 _ _ _ Hu Hq Hbu Hd Hj Ho) as [?|X]; [tauto|]. right. apply (witness_keep T i t); [exact Hi|discriminate|exact X].
  - intros j u Hu. upd_in Hu; [exact (k10 _ _ Hi)|exact (k10 _ _ Hu)].
Qed.

Lemma step_link_root s T i c :
  inv s T -> T i = Some (SThr c A_link) -> sc_parent c = None ->
  inv (set_roots s ({[i]} ∪ sp_roots s)) (upd T i (SThr c A_running)).
Proof.
  intros [k1 k1' k2 k3 k4 k5 k6 k7 k8 k9 k10] Hi Hp.
  set (t := SThr c A_link) in *. set (t' := SThr c _).
  constructor; cbn [sp_done sp_orphaned sp_roots sp_orphans set_roots].
  - intros q x. change (children_of (set_roots s _) q) with (children_of s q). rewrite k1, linked_upd.
    destruct (decide (x = i)) as [->|Hx]; [|reflexivity].
    unfold linked_in. rewrite Hi. cbn. unfold par. cbn. rewrite Hp. rewrite bool_decide_eq_false_2 by discriminate. reflexivity.
  - exact k1'.
  - intros j. rewrite elem_of_union, elem_of_singleton, k2.
    rewrite (ex_upd (fun t => par t = None /\ is_linked (st_pc t) = true)). destruct (decide (j = i)) as [->|Hne].
    + split; [intros _; left; split; [reflexivity|split; [exact Hp|reflexivity]]|tauto].
    + tauto.
  - intros j. rewrite k3. symmetry. apply (ex_same (fun t => finishing (st_pc t) = true) T i t t' j Hi). cbn. tauto.
  - intros j. rewrite k4. rewrite (ex_same (fun t => is_live (st_pc t) = true) T i t t' j Hi); cbn; tauto.
  - intros j u Hu. upd_in Hu; [exact I|exact (k5 _ _ Hu)].
  - intros j Hj. destruct (k6 _ Hj) as (u & q & Hu & Hq & Hd & Hbu). exists u, q. rewrite upd_ne; [auto|].
    intros ->. assert (u = t) by congruence. subst. discriminate Hbu.
  - intros q tp o l x Htp Hpc Hx. upd_in Htp; [discriminate Hpc|].
    pose proof (k7 _ _ _ _ _ Htp Hpc Hx) as X.
    apply (ex_keep (fun t => par t = Some q /\ is_begun (st_pc t) = true) T i t t' x Hi); [|exact X].
    cbn. intros [_ ?]; discriminate.
  - intros j u Hu Hpc. upd_in Hu; [discriminate Hpc|exact (k8 _ _ Hu Hpc)].
  - intros j u q Hu Hq Hbu Hd Hj Ho. upd_in Hu.
    + unfold par in Hq. cbn in Hq. congruence.
    + destruct (k9 _ _ _ Hu Hq Hbu Hd Hj Ho) as [?|X]; [tauto|]. right. apply (witness_keep T i t); [exact Hi|discriminate|exact X].
  - intros j u Hu. upd_in Hu; [exact (k10 _ _ Hi)|exact (k10 _ _ Hu)].
Qed.

(** Orphaning some begun span whose parent is done. *)
Lemma inv_orphan s T x tx p :
  inv s T -> T x = Some tx -> par tx = Some p -> is_begun (st_pc tx) = true -> p ∈ sp_done s ->
  inv (orphan_span x s) T /\ (x ∈ sp_done (orphan_span x s) \/ x ∈ sp_orphaned (orphan_span x s)) /\
  sp_done (orphan_span x s) = sp_done s.
Proof.
  intros Hinv Hx Hp Hb Hd. unfold orphan_span. destruct (bool_decide (x ∉ sp_done s /\ x ∉ sp_orphaned s)) eqn:E.
  2: { apply bool_decide_eq_false in E. split; [exact Hinv|]. split; [|reflexivity].
       destruct (decide (x ∈ sp_done s)); [tauto|]. destruct (decide (x ∈ sp_orphaned s)); tauto. }
  apply bool_decide_eq_true in E as [E1 E2].
  destruct Hinv as [k1 k1' k2 k3 k4 k5 k6 k7 k8 k9 k10].
  assert (Hnf : finishing (st_pc tx) = false).
  { destruct (finishing (st_pc tx)) eqn:F; [|reflexivity]. exfalso. apply E1. apply k3. eauto. }
  split; [|split; [cbn; set_solver|reflexivity]].
  constructor; cbn.
  - exact k1.
  - exact k1'.
  - exact k2.
  - exact k3.
  - intros j. rewrite !elem_of_union, !elem_of_singleton, k4. split.
    + intros [->|H]; [|tauto]. split; [tauto|]. exists tx. split; [exact Hx|].
      destruct (st_pc tx); try discriminate Hnf; reflexivity.
    + tauto.
  - intros j u Hu. destruct (decide (j = x)) as [->|Hne].
    + assert (u = tx) by congruence. subst. destruct (st_pc tx); try discriminate Hnf; exact I.
    + specialize (k5 _ _ Hu).
      assert (X : j ∈ {[x]} ∪ sp_orphaned s <-> j ∈ sp_orphaned s) by (rewrite elem_of_union, elem_of_singleton; tauto).
      assert (X' : j ∈ {[x]} ∪ sp_orphans s <-> j ∈ sp_orphans s) by (rewrite elem_of_union, elem_of_singleton; tauto).
      destruct (st_pc u); try exact I; try tauto.
      * rewrite k5. apply bool_decide_ext. tauto.
      * rewrite k5. apply bool_decide_ext. tauto.
  - intros j Hj. apply elem_of_union in Hj as [Hj|Hj]; [|exact (k6 _ Hj)].
    apply elem_of_singleton in Hj. subst. exists tx, p. auto.
  - exact k7.
  - exact k8.
  - intros j u q Hu Hq Hbu Hdq Hj Ho. apply (k9 j u q); try assumption. intros X. apply Ho. apply elem_of_union. tauto.
  - exact k10.
Qed.

Lemma step_orphan s T i c :
  inv s T -> T i = Some (SThr c A_orphan) -> inv (orphan_span i s) (upd T i (SThr c A_running)).
Proof.
  intros Hinv Hi. destruct (K8 _ _ Hinv _ _ Hi eq_refl) as (p & Hp & Hd).
  destruct (inv_orphan s T i _ p Hinv Hi Hp eq_refl Hd) as (Hinv' & Hor & Hdone).
  assert (Hnd : i ∉ sp_done (orphan_span i s)).
  { rewrite Hdone. rewrite (K3 _ _ Hinv). intros (u & Hu & Hf). assert (u = SThr c A_orphan) by congruence. subst. discriminate Hf. }
  destruct Hor as [?|Hor]; [contradiction|]. clear Hdone Hinv Hd. revert Hinv' Hor Hnd.
  generalize (orphan_span i s) as s'. intros s' [k1 k1' k2 k3 k4 k5 k6 k7 k8 k9 k10] Hor Hnd.
  set (t := SThr c A_orphan) in *. set (t' := SThr c A_running).
  constructor.
  - intros q x. rewrite k1, linked_upd. destruct (decide (x = i)) as [->|Hx]; [|reflexivity].
    unfold linked_in. rewrite Hi. reflexivity.
  - exact k1'.
  - intros j. rewrite k2. symmetry. apply (ex_same (fun t => par t = None /\ is_linked (st_pc t) = true) T i t t' j Hi). cbn. tauto.
  - intros j. rewrite k3. symmetry. apply (ex_same (fun t => finishing (st_pc t) = true) T i t t' j Hi). cbn. tauto.
  - intros j. rewrite k4. rewrite (ex_same (fun t => is_live (st_pc t) = true) T i t t' j Hi); cbn; tauto.
  - intros j u Hu. upd_in Hu; [exact I|exact (k5 _ _ Hu)].
  - intros j Hj. destruct (k6 _ Hj) as (u & q & Hu & Hq & Hd & Hbu). destruct (decide (j = i)) as [->|Hne].
    + exists t', q. rewrite upd_eq. assert (u = t) by congruence. subst. auto.
    + exists u, q. rewrite upd_ne by exact Hne. auto.
  - intros q tp o l x Htp Hpc Hx. upd_in Htp; [discriminate Hpc|].
    pose proof (k7 _ _ _ _ _ Htp Hpc Hx) as X.
    apply (ex_keep (fun t => par t = Some q /\ is_begun (st_pc t) = true) T i t t' x Hi); [|exact X]. cbn. tauto.
  - intros j u Hu Hpc. upd_in Hu; [discriminate Hpc|exact (k8 _ _ Hu Hpc)].
  - intros j u q Hu Hq Hbu Hd Hj Ho. upd_in Hu; [contradiction|].
    destruct (k9 _ _ _ Hu Hq Hbu Hd Hj Ho) as [?|X]; [tauto|]. right. apply (witness_keep T i t); [exact Hi|discriminate|exact X].
  - intros j u Hu. upd_in Hu; [exact (k10 _ _ Hi)|exact (k10 _ _ Hu)].
Qed.

Lemma step_mark s T i c :
  inv s T -> T i = Some (SThr c X_mark) ->
  inv (Spans ({[i]} ∪ sp_done s) (sp_orphaned s) (sp_children s) (sp_roots s) (sp_orphans s) (sp_count s) (sp_ends s))
      (upd T i (SThr c (X_children (bool_decide (i ∈ sp_orphaned s)) (bag_iterate (sc_ord c) (children_of s i))))).
Proof.
  intros [k1 k1' k2 k3 k4 k5 k6 k7 k8 k9 k10] Hi.
  set (t := SThr c X_mark) in *. set (t' := SThr c _).
  pose proof (k10 _ _ Hi) as Hord. cbn in Hord.
  assert (Hit : forall x, x ∈ bag_iterate (sc_ord c) (children_of s i) <-> linked_in T x i = true).
  { intros x. rewrite (bag_iterate_elem _ _ _ Hord (k1' i)), k1. destruct (linked_in T x i); cbn; split; intros; try congruence; try lia. }
  constructor; cbn.
  - intros q x. change (children_of _ q) with (children_of s q). rewrite k1, linked_upd.
    destruct (decide (x = i)) as [->|Hx]; [|reflexivity]. unfold linked_in. rewrite Hi. reflexivity.
  - exact k1'.
  - intros j. rewrite k2. symmetry. apply (ex_same (fun t => par t = None /\ is_linked (st_pc t) = true) T i t t' j Hi). cbn. tauto.
  - intros j. rewrite elem_of_union, elem_of_singleton, k3, (ex_upd (fun t => finishing (st_pc t) = true)).
    destruct (decide (j = i)) as [->|Hne]; cbn; tauto.
  - intros j. rewrite k4. rewrite (ex_same (fun t => is_live (st_pc t) = true) T i t t' j Hi); cbn; tauto.
  - intros j u Hu. upd_in Hu; [reflexivity|exact (k5 _ _ Hu)].
  - intros j Hj. destruct (k6 _ Hj) as (u & q & Hu & Hq & Hd & Hbu). destruct (decide (j = i)) as [->|Hne].
    + exists t', q. rewrite upd_eq. assert (u = t) by congruence. subst. repeat split; [exact Hq|set_solver].
    + exists u, q. rewrite upd_ne by exact Hne. repeat split; [exact Hu|exact Hq|set_solver|exact Hbu].
  - intros q tp o l x Htp Hpc Hx.
    apply (ex_keep (fun t => par t = Some q /\ is_begun (st_pc t) = true) T i t t' x Hi); [cbn; tauto|].
    upd_in Htp; [|exact (k7 _ _ _ _ _ Htp Hpc Hx)].
    cbn in Hpc. inversion Hpc; subst o l. apply Hit in Hx. unfold linked_in in Hx.
    destruct (T x) as [u|]; [|discriminate Hx]. exists u. apply andb_true_iff in Hx as [H1 H2].
    apply bool_decide_eq_true in H1. repeat split; [exact H1|]. destruct (st_pc u); try discriminate H2; reflexivity.
  - intros j u Hu Hpc. upd_in Hu; [discriminate Hpc|]. destruct (k8 _ _ Hu Hpc) as (q & ? & ?). exists q. set_solver.
  - intros j u q Hu Hq Hbu Hd Hj Ho. upd_in Hu; [set_solver|].
    assert (Hj' : j ∉ sp_done s) by set_solver.
    destruct (decide (q = i)) as [->|Hqi].
    + right. exists t'. eexists _, _. split; [apply upd_eq|]. split; [reflexivity|]. apply Hit.
      unfold linked_in. rewrite Hu, Hq, bool_decide_eq_true_2 by reflexivity. cbn.
      assert (Hnf : finishing (st_pc u) = false).
      { destruct (finishing (st_pc u)) eqn:F; [|reflexivity]. exfalso. apply Hj'. apply k3. eauto. }
      destruct (st_pc u); try discriminate Hnf; try discriminate Hbu; reflexivity.
    + assert (Hd' : q ∈ sp_done s) by set_solver.
      destruct (k9 _ _ _ Hu Hq Hbu Hd' Hj' Ho) as [?|X]; [tauto|]. right. apply (witness_keep T i t); [exact Hi|discriminate|exact X].
  - intros j u Hu. upd_in Hu; [exact Hord|exact (k10 _ _ Hu)].
Qed.

Lemma step_children s T i c o x l :
  inv s T -> T i = Some (SThr c (X_children o (x :: l))) ->
  inv (orphan_span x s) (upd T i (SThr c (X_children o l))).
Proof.
  intros Hinv Hi. destruct (K7 _ _ Hinv _ _ _ _ x Hi eq_refl) as (tx & Hx & Hp & Hb); [set_solver|].
  assert (Hd : i ∈ sp_done s). { apply (K3 _ _ Hinv). exists (SThr c (X_children o (x :: l))). auto. }
  destruct (inv_orphan s T x tx i Hinv Hx Hp Hb Hd) as (Hinv' & Hor & Hdone).
  rewrite <- Hdone in Hd. clear Hinv Hdone. revert Hinv' Hor Hd.
  generalize (orphan_span x s) as s'. intros s' [k1 k1' k2 k3 k4 k5 k6 k7 k8 k9 k10] Hor Hd.
  set (t := SThr c (X_children o (x :: l))) in *. set (t' := SThr c (X_children o l)).
  constructor.
  - intros q y. rewrite k1, linked_upd. destruct (decide (y = i)) as [->|Hy]; [|reflexivity].
    unfold linked_in. rewrite Hi. reflexivity.
  - exact k1'.
  - intros j. rewrite k2. symmetry. apply (ex_same (fun t => par t = None /\ is_linked (st_pc t) = true) T i t t' j Hi). cbn. tauto.
  - intros j. rewrite k3. symmetry. apply (ex_same (fun t => finishing (st_pc t) = true) T i t t' j Hi). cbn. tauto.
  - intros j. rewrite k4. rewrite (ex_same (fun t => is_live (st_pc t) = true) T i t t' j Hi); cbn; tauto.
  - intros j u Hu. upd_in Hu; [exact (k5 _ _ Hi)|exact (k5 _ _ Hu)].
  - intros j Hj. destruct (k6 _ Hj) as (u & q & Hu & Hq & Hdq & Hbu). destruct (decide (j = i)) as [->|Hne].
    + exists t', q. rewrite upd_eq. assert (u = t) by congruence. subst. auto.
    + exists u, q. rewrite upd_ne by exact Hne. auto.
  - intros q tp o' l' y Htp Hpc Hy.
    apply (ex_keep (fun t => par t = Some q /\ is_begun (st_pc t) = true) T i t t' y Hi); [cbn; tauto|].
    upd_in Htp; [|exact (k7 _ _ _ _ _ Htp Hpc Hy)]. cbn in Hpc. inversion Hpc; subst o' l'.
    apply (k7 _ _ _ _ y Hi eq_refl). set_solver.
  - intros j u Hu Hpc. upd_in Hu; [discriminate Hpc|exact (k8 _ _ Hu Hpc)].
  - intros j u q Hu Hq Hbu Hdq Hj Ho. upd_in Hu.
    { exfalso. apply Hj. exact Hd. }
    destruct (k9 _ _ _ Hu Hq Hbu Hdq Hj Ho) as [?|(tp & o' & l' & Htp & Hpc & Hjl)]; [tauto|]. right.
    destruct (decide (q = i)) as [->|Hne].
    + assert (tp = t) by congruence. subst tp. cbn in Hpc. inversion Hpc; subst o' l'.
      exists t', o, l. split; [apply upd_eq|]. split; [reflexivity|].
      apply elem_of_cons in Hjl as [->|Hjl]; [|exact Hjl]. destruct Hor; contradiction.
    + exists tp, o', l'. rewrite upd_ne by exact Hne. auto.
  - intros j u Hu. upd_in Hu; [exact (k10 _ _ Hi)|exact (k10 _ _ Hu)].
Qed.

(** Leaving the parent's bag or the root set. *)
Lemma step_unlink_child s T i c o p :
  inv s T -> T i = Some (SThr c (X_unlink o)) -> sc_parent c = Some p ->
  inv (set_children s p (bag_remove i (children_of s p))) (upd T i (SThr c (if o then X_orphanend else X_dec))).
Proof.
  intros [k1 k1' k2 k3 k4 k5 k6 k7 k8 k9 k10] Hi Hp.
  set (t := SThr c (X_unlink o)) in *. set (t' := SThr c _).
  pose proof (k5 _ _ Hi) as Ho. cbn in Ho.
  assert (Hpc' : (o = true /\ st_pc t' = X_orphanend /\ i ∈ sp_orphaned s) \/ (o = false /\ st_pc t' = X_dec /\ i ∉ sp_orphaned s)).
  { destruct o; [left|right]; (split; [reflexivity|]; split; [reflexivity|]).
    - symmetry in Ho. apply bool_decide_eq_true in Ho. exact Ho.
    - symmetry in Ho. apply bool_decide_eq_false in Ho. exact Ho. }
  assert (Hb : is_begun (st_pc t') = true) by (destruct Hpc' as [(_ & -> & _)|(_ & -> & _)]; reflexivity).
  assert (Hl : is_linked (st_pc t') = false) by (destruct Hpc' as [(_ & -> & _)|(_ & -> & _)]; reflexivity).
  assert (Hf : finishing (st_pc t') = true) by (destruct Hpc' as [(_ & -> & _)|(_ & -> & _)]; reflexivity).
  assert (Hpar : par t' = Some p) by exact Hp.
  constructor; cbn [sp_done sp_orphaned sp_roots sp_orphans set_children].
  - intros q x. rewrite children_set, linked_upd. destruct (decide (q = p)) as [->|Hq].
    + rewrite bag_remove_count by apply k1'. destruct (decide (x = i)) as [->|Hx].
      * rewrite Hl, andb_false_r, k1. destruct (linked_in T i p); reflexivity.
      * apply k1.
    + rewrite k1. destruct (decide (x = i)) as [->|Hx]; [|reflexivity].
      rewrite Hl, andb_false_r. unfold linked_in. rewrite Hi. unfold par; cbn. rewrite Hp.
      rewrite bool_decide_eq_false_2 by congruence. reflexivity.
  - intros q. rewrite children_set. destruct (decide (q = p)); [apply bag_remove_ok, k1'|apply k1'].
  - intros j. rewrite k2. symmetry. apply (ex_same (fun t => par t = None /\ is_linked (st_pc t) = true) T i t t' j Hi).
    rewrite Hpar. unfold par. cbn. rewrite Hp. split; intros [? _]; discriminate.
  - intros j. rewrite k3. symmetry. apply (ex_same (fun t => finishing (st_pc t) = true) T i t t' j Hi).
    rewrite Hf. cbn. tauto.
  - intros j. rewrite k4, (ex_upd (fun t => is_live (st_pc t) = true)). destruct (decide (j = i)) as [->|Hne]; [|tauto].
    destruct Hpc' as [(-> & E & Hin)|(-> & E & Hin)].
    + rewrite E. cbn. split; [tauto|]. intros _. split; [exact Hin|]. exists t. split; [exact Hi|reflexivity].
    + tauto.
  - intros j u Hu. upd_in Hu; [|exact (k5 _ _ Hu)]. destruct Hpc' as [(-> & -> & Hin)|(-> & -> & Hin)]; [exact Hin|].
    rewrite k4. tauto.
  - intros j Hj. destruct (k6 _ Hj) as (u & q & Hu & Hq & Hdq & Hbu). destruct (decide (j = i)) as [->|Hne].
    + exists t', q. rewrite upd_eq. assert (u = t) by congruence. subst. auto.
    + exists u, q. rewrite upd_ne by exact Hne. auto.
  - intros q tp o' l x Htp Hpc Hx. upd_in Htp; [rewrite Hpc in Hl, Hf; destruct Hpc' as [(_ & E & _)|(_ & E & _)]; congruence|].
    pose proof (k7 _ _ _ _ _ Htp Hpc Hx) as X.
    apply (ex_keep (fun t => par t = Some q /\ is_begun (st_pc t) = true) T i t t' x Hi); [|exact X].
    rewrite Hb. cbn. tauto.
  - intros j u Hu Hpc. upd_in Hu; [rewrite Hpc in Hf; discriminate Hf|exact (k8 _ _ Hu Hpc)].
  - intros j u q Hu Hq Hbu Hd Hj Hno. upd_in Hu.
    + exfalso. apply Hj. apply k3. exists t. split; [exact Hi|reflexivity].
    + destruct (k9 _ _ _ Hu Hq Hbu Hd Hj Hno) as [?|X]; [tauto|]. right. apply (witness_keep T i t); [exact Hi|discriminate|exact X].
  - intros j u Hu. upd_in Hu; [exact (k10 _ _ Hi)|exact (k10 _ _ Hu)].
Qed.

Lemma step_unlink_root s T i c o :
  inv s T -> T i = Some (SThr c (X_unlink o)) -> sc_parent c = None ->
  inv (set_roots s (sp_roots s ∖ {[i]})) (upd T i (SThr c X_dec)).
Proof.
  intros [k1 k1' k2 k3 k4 k5 k6 k7 k8 k9 k10] Hi Hp.
  set (t := SThr c (X_unlink o)) in *. set (t' := SThr c X_dec).
  assert (Hno : i ∉ sp_orphaned s).
  { intros Hin. destruct (k6 _ Hin) as (u & p & Hu & Hpu & _). assert (u = t) by congruence. subst. unfold par in Hpu. cbn in Hpu. congruence. }
  constructor; cbn [sp_done sp_orphaned sp_roots sp_orphans set_roots].
  - intros q x. change (children_of (set_roots s _) q) with (children_of s q). rewrite k1, linked_upd.
    destruct (decide (x = i)) as [->|Hx]; [|reflexivity].
    unfold linked_in. rewrite Hi. unfold par. cbn. rewrite Hp. rewrite bool_decide_eq_false_2 by discriminate. reflexivity.
  - exact k1'.
  - intros j. rewrite elem_of_difference, elem_of_singleton, k2, (ex_upd (fun t => par t = None /\ is_linked (st_pc t) = true)).
    cbn. split; [tauto|]. intros [[_ [_ ?]]|?]; [discriminate|tauto].
  - intros j. rewrite k3. symmetry. apply (ex_same (fun t => finishing (st_pc t) = true) T i t t' j Hi). cbn. tauto.
  - intros j. rewrite k4, (ex_upd (fun t => is_live (st_pc t) = true)). destruct (decide (j = i)) as [->|Hne]; tauto.
  - intros j u Hu. upd_in Hu; [|exact (k5 _ _ Hu)]. cbn. rewrite k4. tauto.
  - intros j Hj. destruct (k6 _ Hj) as (u & q & Hu & Hq & Hdq & Hbu). destruct (decide (j = i)) as [->|Hne].
    + exists t', q. rewrite upd_eq. assert (u = t) by congruence. subst. auto.
    + exists u, q. rewrite upd_ne by exact Hne. auto.
  - intros q tp o' l x Htp Hpc Hx. upd_in Htp; [discriminate Hpc|].
    pose proof (k7 _ _ _ _ _ Htp Hpc Hx) as X.
    apply (ex_keep (fun t => par t = Some q /\ is_begun (st_pc t) = true) T i t t' x Hi); [|exact X]. cbn. tauto.
  - intros j u Hu Hpc. upd_in Hu; [discriminate Hpc|exact (k8 _ _ Hu Hpc)].
  - intros j u q Hu Hq Hbu Hd Hj Hn. upd_in Hu.
    + exfalso. apply Hj. apply k3. exists t. split; [exact Hi|reflexivity].
    + destruct (k9 _ _ _ Hu Hq Hbu Hd Hj Hn) as [?|X]; [tauto|]. right. apply (witness_keep T i t); [exact Hi|discriminate|exact X].
  - intros j u Hu. upd_in Hu; [exact (k10 _ _ Hi)|exact (k10 _ _ Hu)].
Qed.

Lemma step_orphanend s T i c :
  inv s T -> T i = Some (SThr c X_orphanend) ->
  inv (Spans (sp_done s) (sp_orphaned s) (sp_children s) (sp_roots s) (sp_orphans s ∖ {[i]}) (sp_count s) (sp_ends s))
      (upd T i (SThr c X_dec)).
Proof.
  intros [k1 k1' k2 k3 k4 k5 k6 k7 k8 k9 k10] Hi.
  set (t := SThr c X_orphanend) in *. set (t' := SThr c X_dec).
  constructor; cbn [sp_done sp_orphaned sp_roots sp_orphans].
  - intros q x. change (children_of _ q) with (children_of s q). rewrite k1, linked_upd.
    destruct (decide (x = i)) as [->|Hx]; [|reflexivity]. unfold linked_in. rewrite Hi. reflexivity.
  - exact k1'.
  - intros j. rewrite k2. symmetry. apply (ex_same (fun t => par t = None /\ is_linked (st_pc t) = true) T i t t' j Hi). cbn. tauto.
  - intros j. rewrite k3. symmetry. apply (ex_same (fun t => finishing (st_pc t) = true) T i t t' j Hi). cbn. tauto.
  - intros j. rewrite elem_of_difference, elem_of_singleton, k4, (ex_upd (fun t => is_live (st_pc t) = true)). cbn.
    split; [tauto|]. intros [? [[_ ?]|?]]; [discriminate|tauto].
  - intros j u Hu. upd_in Hu; [cbn; set_solver|].
    specialize (k5 _ _ Hu). destruct (st_pc u); try exact k5; rewrite elem_of_difference; tauto.
  - intros j Hj. destruct (k6 _ Hj) as (u & q & Hu & Hq & Hdq & Hbu). destruct (decide (j = i)) as [->|Hne].
    + exists t', q. rewrite upd_eq. assert (u = t) by congruence. subst. auto.
    + exists u, q. rewrite upd_ne by exact Hne. auto.
  - intros q tp o' l x Htp Hpc Hx. upd_in Htp; [discriminate Hpc|].
    pose proof (k7 _ _ _ _ _ Htp Hpc Hx) as X.
    apply (ex_keep (fun t => par t = Some q /\ is_begun (st_pc t) = true) T i t t' x Hi); [|exact X]. cbn. tauto.
  - intros j u Hu Hpc. upd_in Hu; [discriminate Hpc|exact (k8 _ _ Hu Hpc)].
  - intros j u q Hu Hq Hbu Hd Hj Hn. upd_in Hu.
    + exfalso. apply Hj. apply k3. exists t. split; [exact Hi|reflexivity].
    + destruct (k9 _ _ _ Hu Hq Hbu Hd Hj Hn) as [?|X]; [tauto|]. right. apply (witness_keep T i t); [exact Hi|discriminate|exact X].
  - intros j u Hu. upd_in Hu; [exact (k10 _ _ Hi)|exact (k10 _ _ Hu)].
Qed.

Lemma inv_step s T i t : inv s T -> T i = Some t -> inv (fst (sp_step i s t)) (upd T i (snd (sp_step i s t))).
Proof.
  intros Hinv Hi. destruct t as [c pc]. destruct pc as [| | | | | |o [|x l]|o| | |u]; cbn.
  - eapply frame; try exact Hinv; try exact Hi; try reflexivity; try exact I; try discriminate.
  - destruct (sc_parent c) as [p|] eqn:Ep; [apply step_link_child|apply step_link_root]; assumption.
  - apply step_orphan; assumption.
  - eapply frame; try exact Hinv; try exact Hi; try reflexivity; try exact I; try discriminate.
  - eapply frame; try exact Hinv; try exact Hi; try reflexivity; try exact I; try discriminate.
  - apply step_mark; assumption.
  - eapply frame; try exact Hinv; try exact Hi; try reflexivity; try exact I; try discriminate.
  - eapply step_children; eassumption.
  - destruct (sc_parent c) as [p|] eqn:Ep; cbn; [apply step_unlink_child|eapply step_unlink_root]; eassumption.
  - apply step_orphanend; assumption.
  - eapply frame; try exact Hinv; try exact Hi; try reflexivity; try exact I; try discriminate.
  - eapply frame; try exact Hinv; try exact Hi; try reflexivity; try exact I; try discriminate.
Qed.

Lemma inv_ext s T T' : (forall j, T j = T' j) -> inv s T -> inv s T'.
Proof.
  intros E [k1 k1' k2 k3 k4 k5 k6 k7 k8 k9 k10].
  assert (El : forall c p, linked_in T' c p = linked_in T c p) by (intros c p; unfold linked_in; rewrite E; reflexivity).
  constructor; try setoid_rewrite El; try setoid_rewrite <- E; assumption.
Qed.

Definition tlook (ts : list sthread) : tmap := fun j => ts !! j.
Lemma tlook_insert ts i t t' : ts !! i = Some t -> forall j, upd (tlook ts) i t' j = tlook (<[i := t']> ts) j.
Proof.
  intros Hi j. unfold upd, tlook. destruct (decide (j = i)) as [->|Hne].
  - rewrite list_lookup_insert by (eapply lookup_lt_Some; exact Hi). reflexivity.
  - rewrite list_lookup_insert_ne by congruence. reflexivity.
Qed.

Lemma sp_step_call i s t : st_call (snd (sp_step i s t)) = st_call t.
Proof.
  destruct t as [c pc]. destruct pc as [| | | | | |o [|x l]|o| | |u]; cbn; try reflexivity; destruct (sc_parent c); reflexivity.
Qed.

Definition orders_ok (ts : list sthread) : Prop := forall i t, ts !! i = Some t -> any_order (sc_ord (st_call t)).

Lemma inv_new : inv sp_new (tlook []).
Proof.
  constructor; unfold tlook; cbn.
  - intros p c. unfold children_of. cbn. rewrite lookup_empty. apply bag_count_empty.
  - intros p. unfold children_of. cbn. rewrite lookup_empty. apply bag_ok_empty.
  - intros i. split; [set_solver|intros (t & H & _); discriminate H].
  - intros i. split; [set_solver|intros (t & H & _); discriminate H].
  - intros i. split; [set_solver|intros (_ & t & H & _); discriminate H].
  - intros i t H; discriminate H.
  - intros i H. set_solver.
  - intros p tp o l c H; discriminate H.
  - intros i t H; discriminate H.
  - intros i t p H; discriminate H.
  - intros i t H; discriminate H.
Qed.

Lemma inv_spawn s ts c : any_order (sc_ord c) -> inv s (tlook ts) -> inv s (tlook (ts ++ [sp_start c])).
Proof.
  intros Hord [k1 k1' k2 k3 k4 k5 k6 k7 k8 k9 k10].
  assert (Hold : forall j t, tlook ts j = Some t -> tlook (ts ++ [sp_start c]) j = Some t).
  { intros j t H. apply lookup_app_l_Some, H. }
  assert (Hnew : forall j t, tlook (ts ++ [sp_start c]) j = Some t -> tlook ts j = Some t \/ t = sp_start c).
  { intros j t H. apply lookup_app_Some in H as [H|[_ H]]; [tauto|]. right.
    destruct (j - length ts)%nat as [|n]; [|destruct n; discriminate H]. inversion H. reflexivity. }
  assert (Hex : forall (P : sthread -> Prop) j, ~ P (sp_start c) ->
            (exists t, tlook (ts ++ [sp_start c]) j = Some t /\ P t) <-> exists t, tlook ts j = Some t /\ P t).
  { intros P j Hn. split.
    - intros (t & Ht & Hp). destruct (Hnew _ _ Ht) as [H| ->]; [eauto|contradiction].
    - intros (t & Ht & Hp). eauto. }
  constructor.
  - intros p x. rewrite k1. f_equal. unfold linked_in. destruct (tlook ts x) as [t|] eqn:E.
    + rewrite (Hold _ _ E). reflexivity.
    + destruct (tlook (ts ++ [sp_start c]) x) as [t|] eqn:E'; [|reflexivity].
      destruct (Hnew _ _ E') as [H| ->]; [congruence|]. cbn. symmetry. apply andb_false_r.
  - exact k1'.
  - intros i. rewrite k2. symmetry. apply (Hex (fun t => par t = None /\ is_linked (st_pc t) = true)). cbn. intros [_ H]; discriminate H.
  - intros i. rewrite k3. symmetry. apply (Hex (fun t => finishing (st_pc t) = true)). cbn. discriminate.
  - intros i. rewrite k4. split.
    + intros (H & t & Ht & Hl). split; [exact H|]. exists t. auto.
    + intros (H & t & Ht & Hl). split; [exact H|]. destruct (k6 _ H) as (t0 & p & Ht0 & _).
      exists t0. split; [exact Ht0|]. pose proof (Hold _ _ Ht0). congruence.
  - intros i t Ht. destruct (Hnew _ _ Ht) as [H| ->]; [exact (k5 _ _ H)|exact I].
  - intros i Hi. destruct (k6 _ Hi) as (t & p & Ht & Hr). exists t, p. split; [apply Hold, Ht|exact Hr].
  - intros p tp o l x Htp Hpc Hx. destruct (Hnew _ _ Htp) as [H| ->]; [|discriminate Hpc].
    destruct (k7 _ _ _ _ _ H Hpc Hx) as (t & Ht & Hr). exists t. split; [apply Hold, Ht|exact Hr].
  - intros i t Ht Hpc. destruct (Hnew _ _ Ht) as [H| ->]; [exact (k8 _ _ H Hpc)|discriminate Hpc].
  - intros i t p Ht Hp Hb Hd Hi Ho. destruct (Hnew _ _ Ht) as [H| ->]; [|discriminate Hb].
    destruct (k9 _ _ _ H Hp Hb Hd Hi Ho) as [?|(tp & o & l & Htp & Hr)]; [tauto|]. right. exists tp, o, l. split; [apply Hold, Htp|exact Hr].
  - intros i t Ht. destruct (Hnew _ _ Ht) as [H| ->]; [exact (k10 _ _ H)|exact Hord].
Qed.

Lemma inv_exec sched : orders_ok (threads (sp_exec sched)) -> inv (spans_after sched) (tlook (threads (sp_exec sched))).
Proof.
  unfold spans_after, sp_exec. apply (exec_inv sp_start sp_step (fun s ts => orders_ok ts -> inv s (tlook ts))); clear sched.
  - intros _. apply inv_new.
  - intros s ts c IH Hok. apply inv_spawn.
    + apply (Hok (length ts) (sp_start c)). rewrite lookup_app_r by lia. rewrite Nat.sub_diag. reflexivity.
    + apply IH. intros i t Hi. apply (Hok i). apply lookup_app_l_Some, Hi.
  - intros s ts i t IH Hi Hok.
    eapply inv_ext; [apply (tlook_insert ts i t _ Hi)|]. apply inv_step; [|exact Hi]. apply IH.
    intros j u Hj. destruct (decide (j = i)) as [->|Hne].
    + assert (u = t) by congruence. subst. rewrite <- (sp_step_call i s t). apply (Hok i).
      apply list_lookup_insert. eapply lookup_lt_Some; exact Hi.
    + apply (Hok j). rewrite list_lookup_insert_ne by congruence. exact Hj.
Qed.

(** ** Quiet states *)
Lemma wf_orders sched : well_formed sched -> orders_ok (threads (sp_exec sched)).
Proof. intros H i t Hi. exact (proj2 (H _ _ Hi)). Qed.

Lemma quiet_pc sched i t : quiet sched -> threads (sp_exec sched) !! i = Some t ->
  st_pc t = A_running \/ exists u, st_pc t = X_done u.
Proof.
  intros Hq Hi. destruct (Hq i) as [(c & H)|(c & u & H)]; [eapply lookup_lt_Some; exact Hi| |].
  - left. assert (t = SThr c A_running) by congruence. subst. reflexivity.
  - right. assert (t = SThr c (X_done u)) by congruence. subst. exists u. reflexivity.
Qed.
Lemma running_iff sched i : running sched i <-> exists t, threads (sp_exec sched) !! i = Some t /\ st_pc t = A_running.
Proof.
  split; [intros (c & H); exists (SThr c A_running); auto|].
  intros ([c pc] & H & E). cbn in E. subst. exists c. exact H.
Qed.
Lemma finished_iff sched i : finished sched i <-> exists t u, threads (sp_exec sched) !! i = Some t /\ st_pc t = X_done u.
Proof.
  split; [intros (c & u & H); exists (SThr c (X_done u)), u; auto|].
  intros ([c pc] & u & H & E). cbn in E. subst. exists c, u. exact H.
Qed.
Lemma quiet_done sched : well_formed sched -> quiet sched -> forall i, i ∈ sp_done (spans_after sched) <-> finished sched i.
Proof.
  intros Hw Hq i. rewrite (K3 _ _ (inv_exec _ (wf_orders _ Hw))), finished_iff. unfold tlook. split.
  - intros (t & Ht & Hf). destruct (quiet_pc _ _ _ Hq Ht) as [E|[u E]]; [rewrite E in Hf; discriminate Hf|eauto].
  - intros (t & u & Ht & E). exists t. split; [exact Ht|]. rewrite E. reflexivity.
Qed.
Lemma running_not_finished sched i : running sched i -> ~ finished sched i.
Proof. intros (c & H) (c' & u & H'). congruence. Qed.

Lemma quiet_orphaned sched : well_formed sched -> quiet sched -> forall i, running sched i ->
  (i ∈ sp_orphaned (spans_after sched) <-> exists p, parent_is sched i p /\ finished sched p).
Proof.
  intros Hw Hq i Hr. pose proof (inv_exec _ (wf_orders _ Hw)) as Hinv. split.
  - intros Hi. destruct (K6 _ _ Hinv _ Hi) as (t & p & Ht & Hp & Hd & _). exists p.
    split; [exists t; split; [exact Ht|exact Hp]|]. apply quiet_done; assumption.
  - intros (p & (t & Ht & Hp) & Hf). destruct (decide (i ∈ sp_orphaned (spans_after sched))) as [?|Hn]; [assumption|exfalso].
    apply running_iff in Hr as (t' & Ht' & Epc). assert (t' = t) by congruence. subst t'.
    destruct (K9 _ _ Hinv i t p Ht Hp) as [E|(tp & o & l & Htp & E & _)].
    + rewrite Epc. reflexivity.
    + apply quiet_done; assumption.
    + rewrite quiet_done by assumption. apply running_not_finished. apply running_iff. eauto.
    + exact Hn.
    + congruence.
    + destruct (quiet_pc _ _ _ Hq Htp) as [E'|[u E']]; congruence.
Qed.

Lemma roots_elem sched : well_formed sched -> quiet sched -> forall i,
  i ∈ sp_roots (spans_after sched) <-> running sched i /\ no_parent sched i.
Proof.
  intros Hw Hq i. rewrite (K2 _ _ (inv_exec _ (wf_orders _ Hw))), running_iff. unfold no_parent, tlook. split.
  - intros (t & Ht & Hp & Hl). split; [|exists t; split; [exact Ht|exact Hp]]. exists t. split; [exact Ht|].
    destruct (quiet_pc _ _ _ Hq Ht) as [E|[u E]]; [exact E|rewrite E in Hl; discriminate Hl].
  - intros ((t & Ht & E) & (t' & Ht' & Hp)). assert (t' = t) by congruence. subst.
    exists t. split; [exact Ht|]. split; [exact Hp|]. rewrite E. reflexivity.
Qed.
Lemma orphans_elem sched : well_formed sched -> quiet sched -> forall i,
  i ∈ sp_orphans (spans_after sched) <-> running sched i /\ exists p, parent_is sched i p /\ finished sched p.
Proof.
  intros Hw Hq i. pose proof (inv_exec _ (wf_orders _ Hw)) as Hinv. rewrite (K4 _ _ Hinv). split.
  - intros (Ho & t & Ht & Hl). assert (Hr : running sched i).
    { apply running_iff. exists t. split; [exact Ht|].
      destruct (quiet_pc _ _ _ Hq Ht) as [E|[u E]]; [exact E|rewrite E in Hl; discriminate Hl]. }
    split; [exact Hr|]. apply quiet_orphaned; assumption.
  - intros (Hr & Hp). split; [apply quiet_orphaned; assumption|]. apply running_iff in Hr as (t & Ht & E).
    exists t. split; [exact Ht|]. rewrite E. reflexivity.
Qed.

Lemma root_spans_spec sched info mord : well_formed sched -> quiet sched -> any_order mord ->
  let l := root_spans info mord (spans_after sched) in
  NoDup l /\
  (forall i, i ∈ l <-> running sched i /\ (no_parent sched i \/ exists p, parent_is sched i p /\ finished sched p)) /\
  StronglySorted (fun i j => span_less info j i = false) l.
Proof.
  intros Hw Hq Ho l. unfold l, root_spans. split; [|split].
  - rewrite isort_perm, (Ho _), (Ho _). apply NoDup_app. split; [apply NoDup_elements|]. split; [|apply NoDup_elements].
    intros i H1 H2. apply elem_of_elements in H1, H2. apply roots_elem in H1 as [_ (t & Ht & E)]; try assumption.
    apply orphans_elem in H2 as (_ & p & (t' & Ht' & E') & _); try assumption. congruence.
  - intros i. rewrite isort_perm, (Ho _), (Ho _), elem_of_app, !elem_of_elements, roots_elem, orphans_elem by assumption. tauto.
  - apply isort_sorted; [intros x y z; apply span_less_negtrans|intros x y; apply span_less_asym].
Qed.

Section forest.
  Context (sched : list (action scall)) (info : nat -> bytes * Z) (mord : list nat -> list nat).
  Context (Hw : well_formed sched) (Hq : quiet sched) (Ho : any_order mord).
  Local Notation s := (spans_after sched).
  Local Notation N := (length (threads (sp_exec sched))).
  Definition child (p c : nat) : Prop := parent_is sched c p /\ running sched c.

  Lemma child_elem p c : c ∈ bag_children info mord (children_of s p) <-> child p c.
  Proof.
    pose proof (inv_exec _ (wf_orders _ Hw)) as Hinv. unfold bag_children.
    rewrite isort_perm, dedup_elem, (bag_iterate_elem _ _ _ Ho (K1' _ _ Hinv p)), (K1 _ _ Hinv).
    unfold linked_in, child. rewrite running_iff. unfold parent_is, tlook. split.
    - intros [H _]. destruct (threads (sp_exec sched) !! c) as [t|] eqn:E; [|cbn in H; lia].
      destruct (bool_decide (par t = Some p)) eqn:Ep; [|cbn in H; lia]. apply bool_decide_eq_true in Ep.
      split; [exists t; auto|]. exists t. split; [reflexivity|].
      destruct (quiet_pc _ _ _ Hq E) as [E'|[u E']]; [exact E'|]. rewrite E' in H. cbn in H. lia.
    - intros [(t & Ht & Hp) (t' & Ht' & E)]. split; [|set_solver]. rewrite Ht.
      assert (t' = t) by congruence. subst. rewrite bool_decide_eq_true_2 by exact Hp. rewrite E. cbn. lia.
  Qed.
  Lemma child_nodup p : NoDup (bag_children info mord (children_of s p)).
  Proof. unfold bag_children. rewrite isort_perm. apply dedup_nodup. Qed.
  Lemma child_lt p c : child p c -> (p < c < N)%nat.
  Proof.
    intros [(t & Ht & Hp) _]. split; [exact (proj1 (Hw _ _ Ht) _ Hp)|]. eapply lookup_lt_Some; exact Ht.
  Qed.
  Lemma child_unique p q c : child p c -> child q c -> p = q.
  Proof. intros [(t & Ht & Hp) _] [(t' & Ht' & Hp') _]. congruence. Qed.

  Inductive anc : nat -> nat -> Prop :=
  | anc_refl i : anc i i
  | anc_step i c j : child i c -> anc c j -> anc i j.
  Lemma anc_le i j : anc i j -> (i <= j)%nat.
  Proof. induction 1 as [|i c j Hc _ IH]; [lia|]. apply child_lt in Hc. lia. Qed.
  Lemma anc_snoc i p c : anc i p -> child p c -> anc i c.
  Proof.
    induction 1 as [i|i d j Hc _ IH]; intros Hk; [eapply anc_step; [exact Hk|constructor]|].
    eapply anc_step; [exact Hc|]. apply IH, Hk.
  Qed.
  Lemma anc_last i j : anc i j -> i = j \/ exists p, child p j /\ anc i p.
  Proof.
    induction 1 as [i|i c j Hc Ha IH]; [tauto|]. right. destruct IH as [<-|(p & Hp & Hcp)].
    - exists i. split; [exact Hc|constructor].
    - exists p. split; [exact Hp|]. eapply anc_step; eassumption.
  Qed.
  Lemma anc_linear a b j : anc a j -> anc b j -> anc a b \/ anc b a.
  Proof.
    revert a b. induction (lt_wf j) as [j _ IH]. intros a b Ha Hb.
    destruct (anc_last _ _ Ha) as [<-|(p & Hp & Hap)]; [right; exact Hb|].
    destruct (anc_last _ _ Hb) as [<-|(q & Hq' & Hbq)]; [left; exact Ha|].
    assert (p = q) by (eapply child_unique; eassumption). subst q.
    apply (IH p); [apply child_lt in Hp; lia|assumption|assumption].
  Qed.

  Lemma walk_elem fuel : forall i j, (i < N)%nat -> (N - i <= fuel)%nat -> j ∈ walk_span info mord s fuel i <-> anc i j.
  Proof.
    induction fuel as [|fuel IH]; intros i j Hi Hf; [lia|]. cbn [walk_span].
    rewrite elem_of_cons. split.
    - intros [->|H]; [constructor|]. apply elem_of_list_In, in_concat in H as (l & Hl & Hj).
      apply in_map_iff in Hl as (c & <- & Hc). apply elem_of_list_In in Hc, Hj. apply child_elem in Hc.
      pose proof (child_lt _ _ Hc). apply IH in Hj; [|lia|lia]. eapply anc_step; eassumption.
    - intros H. destruct H as [i|i c j Hc Ha]; [tauto|]. right. apply elem_of_list_In, in_concat.
      exists (walk_span info mord s fuel c). pose proof (child_lt _ _ Hc). split.
      + apply in_map. apply elem_of_list_In, child_elem, Hc.
      + apply elem_of_list_In, IH; [lia|lia|exact Ha].
  Qed.

  Lemma nodup_concat {A B} (f : A -> list B) (l : list A) :
    NoDup l -> (forall x, x ∈ l -> NoDup (f x)) ->
    (forall x y z, x ∈ l -> y ∈ l -> z ∈ f x -> z ∈ f y -> x = y) -> NoDup (concat (map f l)).
  Proof using.
    clear. induction l as [|x l IH]; intros Hn Hf Hd; cbn; [constructor|].
    apply NoDup_cons in Hn as [Hx Hn]. apply NoDup_app. split; [apply Hf; left|]. split.
    - intros z Hz Hz'. apply elem_of_list_In, in_concat in Hz' as (m & Hm & Hzm).
      apply in_map_iff in Hm as (y & <- & Hy). apply elem_of_list_In in Hy, Hzm.
      assert (x = y) by (eapply Hd; [left|right; exact Hy|exact Hz|exact Hzm]). subst. contradiction.
    - apply IH; [exact Hn|intros y Hy; apply Hf; right; exact Hy|].
      intros y y' z Hy Hy'. apply Hd; right; assumption.
  Qed.

  Lemma walk_nodup fuel : forall i, (i < N)%nat -> (N - i <= fuel)%nat -> NoDup (walk_span info mord s fuel i).
  Proof.
    induction fuel as [|fuel IH]; intros i Hi Hf; cbn [walk_span]; [constructor|].
    assert (Hch : forall c, c ∈ bag_children info mord (children_of s i) -> child i c /\ (i < c < N)%nat).
    { intros c Hc. apply child_elem in Hc. split; [exact Hc|]. apply child_lt, Hc. }
    constructor.
    - intros H. apply elem_of_list_In, in_concat in H as (l & Hl & Hj).
      apply in_map_iff in Hl as (c & <- & Hc). apply elem_of_list_In in Hc, Hj. apply Hch in Hc as [_ Hc].
      apply walk_elem in Hj; [|lia|lia]. apply anc_le in Hj. lia.
    - apply nodup_concat; [apply child_nodup| |].
      + intros c Hc. apply Hch in Hc as [_ Hc]. apply IH; lia.
      + intros c d j Hc Hd Hjc Hjd. apply Hch in Hc as [Hc Hc']. apply Hch in Hd as [Hd Hd'].
        apply walk_elem in Hjc; [|lia|lia]. apply walk_elem in Hjd; [|lia|lia].
        assert (Hsib : forall a b, child i a -> child i b -> anc a b -> a = b).
        { intros a b Ka Kb Hab. destruct (anc_last _ _ Hab) as [E|(p & Hp & Hap)]; [exact E|].
          assert (p = i) by (eapply child_unique; eassumption). subst p.
          apply anc_le in Hap. apply child_lt in Ka. lia. }
        destruct (anc_linear _ _ _ Hjc Hjd) as [H|H]; [apply Hsib; assumption|symmetry; apply Hsib; assumption].
  Qed.

  Lemma all_spans_spec fuel : (N <= fuel)%nat ->
    NoDup (all_spans info mord s fuel) /\ forall i, i ∈ all_spans info mord s fuel <-> running sched i.
  Proof.
    intros Hf. destruct (root_spans_spec sched info mord Hw Hq Ho) as (Hnd & Hel & _).
    assert (Hlt : forall r, r ∈ root_spans info mord s -> (r < N)%nat).
    { intros r Hr. apply Hel in Hr as [Hr _]. apply running_iff in Hr as (t & Ht & _). eapply lookup_lt_Some; exact Ht. }
    split.
    - apply nodup_concat; [exact Hnd| |].
      + intros r Hr. apply walk_nodup; [apply Hlt, Hr|lia].
      + intros a b j Ha Hb Hja Hjb. pose proof (Hlt _ Ha). pose proof (Hlt _ Hb).
        apply walk_elem in Hja; [|lia|lia]. apply walk_elem in Hjb; [|lia|lia].
        assert (Hroot : forall x y, x ∈ root_spans info mord s -> y ∈ root_spans info mord s -> anc x y -> x = y).
        { intros x y Hx Hy Hxy. destruct (anc_last _ _ Hxy) as [E|(p & Hp & Hxp)]; [exact E|exfalso].
          destruct Hp as [(t & Ht & Epar) Hry].
          assert (Hrp : running sched p).
          { destruct (anc_last _ _ Hxp) as [<-|(p' & Hp' & _)]; [apply Hel in Hx; tauto|apply Hp']. }
          apply Hel in Hy as (_ & [(t' & Ht' & E')|(p' & (t' & Ht' & E') & Hfin)]).
          - congruence.
          - assert (p' = p) by congruence. subst. exact (running_not_finished _ _ Hrp Hfin). }
        destruct (anc_linear _ _ _ Hja Hjb) as [K|K]; [apply Hroot; assumption|symmetry; apply Hroot; assumption].
    - intros i. unfold all_spans. rewrite elem_of_list_In, in_concat. split.
      + intros (l & Hl & Hi). apply in_map_iff in Hl as (r & <- & Hr). apply elem_of_list_In in Hi, Hr.
        pose proof (Hlt _ Hr). apply walk_elem in Hi; [|lia|lia].
        destruct (anc_last _ _ Hi) as [<-|(p & Hp & _)]; [apply Hel in Hr; tauto|apply Hp].
      + intros Hr. assert (Hx : exists r, r ∈ root_spans info mord s /\ anc r i).
        { clear -Hr Hq Hw Hel. revert Hr. induction (lt_wf i) as [i _ IH]. intros Hr.
          pose proof Hr as Hr'. apply running_iff in Hr' as (t & Ht & _).
          destruct (sc_parent (st_call t)) as [p|] eqn:Ep.
          - assert (Hpi : (p < i)%nat) by (exact (proj1 (Hw _ _ Ht) _ Ep)).
            assert (Hpn : (p < N)%nat). { apply lookup_lt_Some in Ht. lia. }
            assert (Hc : parent_is sched i p) by (exists t; auto).
            destruct (Hq p Hpn) as [Hrun|Hfin].
            + destruct (IH p Hpi Hrun) as (r & Hrr & Ha). exists r. split; [exact Hrr|].
              eapply anc_snoc; [exact Ha|]. split; [exact Hc|exact Hr].
            + exists i. split; [|constructor]. apply Hel. split; [exact Hr|]. right. exists p. auto.
          - exists i. split; [|constructor]. apply Hel. split; [exact Hr|]. left. exists t. auto. }
        destruct Hx as (r & Hrr & Ha). exists (walk_span info mord s fuel r). pose proof (Hlt _ Hrr). split.
        * apply in_map. apply elem_of_list_In, Hrr.
        * apply elem_of_list_In, walk_elem; [lia|lia|exact Ha].
  Qed.
End forest.

Lemma nothing_retained sched : well_formed sched ->
  (forall i, (i < length (threads (sp_exec sched)))%nat -> finished sched i) ->
  sp_roots (spans_after sched) = ∅ /\ sp_orphans (spans_after sched) = ∅ /\
  forall p, children_of (spans_after sched) p = bag_empty.
Proof.
  intros Hw Hall. pose proof (inv_exec _ (wf_orders _ Hw)) as Hinv.
  assert (Hpc : forall i t, threads (sp_exec sched) !! i = Some t -> exists u, st_pc t = X_done u).
  { intros i t Hi. destruct (Hall i) as (c & u & H); [eapply lookup_lt_Some; exact Hi|].
    exists u. assert (t = SThr c (X_done u)) by congruence. subst. reflexivity. }
  split; [|split].
  - apply set_eq. intros i. rewrite (K2 _ _ Hinv). split; [|set_solver].
    intros (t & Ht & _ & Hl). destruct (Hpc _ _ Ht) as [u E]. rewrite E in Hl. discriminate Hl.
  - apply set_eq. intros i. rewrite (K4 _ _ Hinv). split; [|set_solver].
    intros (_ & t & Ht & Hl). destruct (Hpc _ _ Ht) as [u E]. rewrite E in Hl. discriminate Hl.
  - intros p. assert (Hc : forall c, bag_count (children_of (spans_after sched) p) c = 0).
    { intros c. rewrite (K1 _ _ Hinv). unfold linked_in, tlook. destruct (threads (sp_exec sched) !! c) as [t|] eqn:E; [|reflexivity].
      destruct (Hpc _ _ E) as [u E']. rewrite E'. rewrite andb_false_r. reflexivity. }
    pose proof (K1' _ _ Hinv p) as Hok. destruct (children_of (spans_after sched) p) as [f r].
    unfold bag_count in Hc. cbn in Hc. unfold bag_empty. f_equal.
    + destruct f as [x|]; [|reflexivity]. specialize (Hc x). rewrite decide_True in Hc by reflexivity.
      pose proof (bag_rest_nonneg _ x Hok). cbn in H. lia.
    + apply map_eq. intros c. rewrite lookup_empty. destruct (r !! c) as [n|] eqn:E; [|reflexivity].
      specialize (Hc c). rewrite E in Hc. cbn in Hc. apply Hok in E. destruct (decide _); lia.
Qed.

(** ** Orphaned *)
Lemma orphaned_reachable sched i p :
  well_formed sched -> running sched i -> parent_is sched i p -> finished sched p -> i ∈ sp_orphaned (spans_after sched).
Proof.
  intros Hw Hr (t & Ht & Hp) Hf. pose proof (inv_exec _ (wf_orders _ Hw)) as Hinv.
  apply running_iff in Hr as (t' & Ht' & Epc). assert (t' = t) by congruence. subst t'.
  apply finished_iff in Hf as (tp & u & Htp & Ep).
  destruct (decide (i ∈ sp_orphaned (spans_after sched))) as [?|Hn]; [assumption|exfalso].
  destruct (K9 _ _ Hinv i t p Ht Hp) as [E|(tp' & o & l & Htp' & E & _)].
  - rewrite Epc. reflexivity.
  - apply (K3 _ _ Hinv). exists tp. split; [exact Htp|]. rewrite Ep. reflexivity.
  - rewrite (K3 _ _ Hinv). intros (t' & Ht'' & Hf). unfold tlook in Ht''. assert (t' = t) by congruence. subst. rewrite Epc in Hf. discriminate Hf.
  - exact Hn.
  - congruence.
  - unfold tlook in Htp'. congruence.
Qed.

Lemma orphaned_parent sched i : well_formed sched -> i ∈ sp_orphaned (spans_after sched) ->
  exists p, parent_is sched i p /\ began_finishing sched p.
Proof.
  intros Hw Hi. pose proof (inv_exec _ (wf_orders _ Hw)) as Hinv.
  destruct (K6 _ _ Hinv _ Hi) as (t & p & Ht & Hp & Hd & _). exists p. split; [exists t; auto|].
  apply (K3 _ _ Hinv) in Hd. exact Hd.
Qed.

Lemma orphan_span_mono x s i : i ∈ sp_orphaned s -> i ∈ sp_orphaned (orphan_span x s).
Proof. unfold orphan_span. destruct (bool_decide _); cbn; set_solver. Qed.
Lemma orphaned_step_mono i s t j : j ∈ sp_orphaned s -> j ∈ sp_orphaned (fst (sp_step i s t)).
Proof.
  intros H. destruct t as [c pc]. destruct pc as [| | | | | |o [|x l]|o| | |u]; cbn; try exact H; try (apply orphan_span_mono, H);
    destruct (sc_parent c); exact H.
Qed.
Lemma orphan_span_frozen x s i : i ∈ sp_done s -> i ∈ sp_orphaned (orphan_span x s) <-> i ∈ sp_orphaned s.
Proof.
  intros Hd. unfold orphan_span. destruct (bool_decide _) eqn:E; [|reflexivity]. apply bool_decide_eq_true in E. cbn.
  rewrite elem_of_union, elem_of_singleton. split; [intros [->|H]; tauto|tauto].
Qed.
Lemma orphaned_frozen_step i s t j : j ∈ sp_done s -> j ∈ sp_orphaned (fst (sp_step i s t)) <-> j ∈ sp_orphaned s.
Proof.
  intros H. destruct t as [c pc]. destruct pc as [| | | | | |o [|x l]|o| | |u]; cbn; try reflexivity; try (apply orphan_span_frozen, H);
    destruct (sc_parent c); reflexivity.
Qed.
Lemma orphan_span_done x s : sp_done (orphan_span x s) = sp_done s.
Proof. unfold orphan_span. destruct (bool_decide _); reflexivity. Qed.
Lemma done_step_mono i s t j : j ∈ sp_done s -> j ∈ sp_done (fst (sp_step i s t)).
Proof.
  intros H. destruct t as [c pc]. destruct pc as [| | | | | |o [|x l]|o| | |u]; cbn; rewrite ?orphan_span_done; try exact H;
    try (destruct (sc_parent c); exact H). set_solver.
Qed.

Lemma sp_exec_more (P : spans -> Prop) :
  (forall i s t, P s -> P (fst (sp_step i s t))) -> forall sched more, P (spans_after sched) -> P (spans_after (sched ++ more)).
Proof.
  intros HP sched more H. induction more as [|a more IH] using rev_ind; [rewrite app_nil_r; exact H|].
  rewrite app_assoc. unfold spans_after, sp_exec in *. destruct a as [a|j].
  - rewrite exec_spawn. exact IH.
  - destruct (threads (exec sp_start sp_step sp_new (sched ++ more)) !! j) as [l|] eqn:El.
    + rewrite (exec_run _ _ _ _ _ _ El). cbn. apply HP. exact IH.
    + rewrite (exec_run_none _ _ _ _ _ El). exact IH.
Qed.

Lemma wf_app sched more : well_formed (sched ++ more) -> well_formed sched.
Proof.
  intros H. assert (Hk : forall i t, threads (sp_exec sched) !! i = Some t ->
                    exists t', threads (sp_exec (sched ++ more)) !! i = Some t' /\ st_call t' = st_call t).
  { clear H. intros i t Hi. induction more as [|a more IH] using rev_ind.
    - rewrite app_nil_r. eauto.
    - destruct IH as (t' & Ht' & E). rewrite app_assoc. unfold sp_exec in *. destruct a as [a|j].
      + rewrite exec_spawn. cbn. exists t'. split; [apply lookup_app_l_Some, Ht'|exact E].
      + destruct (threads (exec sp_start sp_step sp_new (sched ++ more)) !! j) as [l|] eqn:El.
        * rewrite (exec_run _ _ _ _ _ _ El). cbn. destruct (decide (i = j)) as [->|Hij].
          -- rewrite list_lookup_insert by (eapply lookup_lt_Some; exact El).
             eexists; split; [reflexivity|]. rewrite sp_step_call. congruence.
          -- rewrite list_lookup_insert_ne by congruence. eauto.
        * rewrite (exec_run_none _ _ _ _ _ El). eauto. }
  intros i t Hi. destruct (Hk _ _ Hi) as (t' & Ht' & E). rewrite <- E. exact (H _ _ Ht').
Qed.

Lemma orphaned_after_parent sched more i p :
  well_formed (sched ++ more) -> running sched i -> parent_is sched i p -> finished sched p ->
  i ∈ sp_orphaned (spans_after (sched ++ more)).
Proof.
  intros Hw Hr Hp Hf. apply (sp_exec_more (fun s => i ∈ sp_orphaned s)).
  - intros j s t. apply orphaned_step_mono.
  - eapply orphaned_reachable; try eassumption. eapply wf_app, Hw.
Qed.
Lemma not_orphaned_before_parent sched more i :
  well_formed (sched ++ more) -> began_finishing sched i -> (forall p, parent_is sched i p -> ~ began_finishing sched p) ->
  i ∉ sp_orphaned (spans_after (sched ++ more)).
Proof.
  intros Hw Hb Hn. pose proof (wf_app _ _ Hw) as Hw'. pose proof (inv_exec _ (wf_orders _ Hw')) as Hinv.
  apply (sp_exec_more (fun s => i ∈ sp_done s /\ i ∉ sp_orphaned s)).
  - intros j s t [H1 H2]. split; [apply done_step_mono, H1|]. rewrite orphaned_frozen_step by exact H1. exact H2.
  - split; [apply (K3 _ _ Hinv); exact Hb|]. intros Ho. destruct (orphaned_parent _ _ Hw' Ho) as (p & Hp & Hf). exact (Hn p Hp Hf).
Qed.

(** ** Trace counts *)
Definition counted_number (tr : nat) (ts : list sthread) : Z := Z.of_nat (length (List.filter (counted tr) ts)).
Lemma counted_app tr ts1 ts2 : counted_number tr (ts1 ++ ts2) = counted_number tr ts1 + counted_number tr ts2.
Proof. unfold counted_number. rewrite List.filter_app, app_length. lia. Qed.
Lemma counted_insert tr ts i t t' : ts !! i = Some t ->
  counted_number tr (<[i := t']> ts) = counted_number tr ts - Z.b2z (counted tr t) + Z.b2z (counted tr t').
Proof.
  intros H. rewrite insert_take_drop by (eapply lookup_lt_Some; exact H).
  rewrite <- (take_drop_middle ts i t H) at 3.
  change (t' :: drop (S i) ts) with ([t'] ++ drop (S i) ts). change (t :: drop (S i) ts) with ([t] ++ drop (S i) ts).
  rewrite !counted_app. unfold counted_number at 2 5. cbn [List.filter].
  destruct (counted tr t), (counted tr t'); cbn; lia.
Qed.
Lemma orphan_span_count x s : sp_count (orphan_span x s) = sp_count s.
Proof. unfold orphan_span. destruct (bool_decide _); reflexivity. Qed.
Lemma step_count i s t tr :
  trace_count (fst (sp_step i s t)) tr = trace_count s tr - Z.b2z (counted tr t) + Z.b2z (counted tr (snd (sp_step i s t))).
Proof.
  destruct t as [c pc]. unfold counted.
  assert (Hadd : forall d, trace_count (add_count s (sc_trace c) d) tr = trace_count s tr + if Nat.eqb (sc_trace c) tr then d else 0).
  { intros d. unfold trace_count at 1. cbn. destruct (Nat.eqb_spec (sc_trace c) tr) as [->|Hne].
    - rewrite lookup_insert. reflexivity.
    - rewrite lookup_insert_ne by exact Hne. fold (trace_count s tr). lia. }
  destruct pc as [| | | | | |o [|x l]|o| | |u]; cbn [sp_step st_call st_pc fst snd].
  - rewrite Hadd. destruct (Nat.eqb (sc_trace c) tr); cbn; lia.
  - destruct (sc_parent c) as [p|]; cbn; [destruct (bool_decide _)|]; unfold trace_count; cbn; lia.
  - unfold trace_count. rewrite orphan_span_count. cbn. lia.
  - lia.
  - unfold trace_count. cbn. lia.
  - unfold trace_count. cbn. lia.
  - lia.
  - unfold trace_count. rewrite orphan_span_count. cbn. lia.
  - destruct (sc_parent c) as [p|]; cbn; [destruct o|]; unfold trace_count; cbn; lia.
  - unfold trace_count. cbn. lia.
  - rewrite Hadd. destruct (Nat.eqb (sc_trace c) tr); cbn; lia.
  - lia.
Qed.
Lemma trace_count_exec sched tr : trace_count (spans_after sched) tr = counted_number tr (threads (sp_exec sched)).
Proof.
  unfold spans_after, sp_exec.
  apply (exec_inv sp_start sp_step (fun s ts => trace_count s tr = counted_number tr ts)); clear sched.
  - unfold trace_count. cbn. rewrite lookup_empty. reflexivity.
  - intros s ts c IH. rewrite counted_app, IH. unfold counted_number at 3. cbn. unfold counted. cbn. rewrite andb_false_r. cbn. lia.
  - intros s ts i t IH Hi. rewrite (counted_insert _ _ _ _ _ Hi), <- IH. apply step_count.
Qed.
Lemma trace_count_spec sched tr :
  trace_count (spans_after sched) tr = Z.of_nat (length (List.filter (counted tr) (threads (sp_exec sched)))) /\
  0 <= trace_count (spans_after sched) tr /\
  ((forall i, (i < length (threads (sp_exec sched)))%nat -> finished sched i) -> trace_count (spans_after sched) tr = 0).
Proof.
  rewrite trace_count_exec. unfold counted_number. split; [reflexivity|]. split; [lia|]. intros H.
  enough (E : List.filter (counted tr) (threads (sp_exec sched)) = []) by (rewrite E; reflexivity).
  destruct (List.filter (counted tr) (threads (sp_exec sched))) as [|t l] eqn:E; [reflexivity|exfalso].
  assert (Hin : In t (List.filter (counted tr) (threads (sp_exec sched)))) by (rewrite E; left; reflexivity).
  apply List.filter_In in Hin as [Hin Hc]. apply elem_of_list_In, elem_of_list_lookup in Hin as [i Hi].
  destruct (H i) as (c & u & H'); [eapply lookup_lt_Some; exact Hi|].
  assert (t = SThr c (X_done u)) by congruence. subst. unfold counted in Hc. cbn in Hc. rewrite andb_false_r in Hc. discriminate Hc.
Qed.

(** ** Exit functions *)
Definition ended (pc : spc) : bool :=
  match pc with A_inc | A_link | A_orphan | A_running | X_end => false | _ => true end.
Definition exit_record (i : nat) (c : scall) : nat * option bytes * bool :=
  (i, fst (fst (observe_exit (sc_unwind c) (sc_errptr c))), snd (fst (observe_exit (sc_unwind c) (sc_errptr c)))).
Lemma orphan_span_ends x s : sp_ends (orphan_span x s) = sp_ends s.
Proof. unfold orphan_span. destruct (bool_decide _); reflexivity. Qed.
Lemma step_ends i s t :
  (sp_ends (fst (sp_step i s t)) = sp_ends s /\ ended (st_pc (snd (sp_step i s t))) = ended (st_pc t)) \/
  (sp_ends (fst (sp_step i s t)) = sp_ends s ++ [exit_record i (st_call t)] /\ ended (st_pc t) = false /\ ended (st_pc (snd (sp_step i s t))) = true).
Proof.
  destruct t as [c pc]. destruct pc as [| | | | | |o [|x l]|o| | |u]; cbn [sp_step st_call st_pc fst snd]; rewrite ?orphan_span_ends.
  all: try (left; split; reflexivity).
  - left. destruct (sc_parent c) as [p|]; cbn; [destruct (bool_decide _)|]; split; reflexivity.
  - right. split; [reflexivity|split; reflexivity].
  - left. destruct (sc_parent c) as [p|]; cbn; [destruct o|]; split; reflexivity.
Qed.
Lemma ends_exec sched :
  (forall i t, threads (sp_exec sched) !! i = Some t ->
     ends_rec i (sp_ends (spans_after sched)) = (if ended (st_pc t) then [exit_record i (st_call t)] else []) /\
     (forall u, st_pc t = X_done u -> u = snd (observe_exit (sc_unwind (st_call t)) (sc_errptr (st_call t))))) /\
  (forall i, threads (sp_exec sched) !! i = None -> ends_rec i (sp_ends (spans_after sched)) = []).
Proof.
  unfold spans_after, sp_exec. apply (exec_inv sp_start sp_step (fun s ts =>
    (forall i t, ts !! i = Some t -> ends_rec i (sp_ends s) = (if ended (st_pc t) then [exit_record i (st_call t)] else []) /\
       (forall u, st_pc t = X_done u -> u = snd (observe_exit (sc_unwind (st_call t)) (sc_errptr (st_call t))))) /\
    (forall i, ts !! i = None -> ends_rec i (sp_ends s) = []))); clear sched.
  - split; [intros i t H; discriminate H|reflexivity].
  - intros s ts c [H1 H2]. split.
    + intros i t H. apply lookup_app_Some in H as [H|[Hl H]]; [exact (H1 _ _ H)|].
      rewrite H2 by (apply lookup_ge_None; lia).
      destruct (i - length ts)%nat as [|n]; [|destruct n; discriminate H]. inversion H; subst. split; [reflexivity|discriminate].
    + intros i H. apply H2. apply lookup_ge_None in H. apply lookup_ge_None. rewrite app_length in H. lia.
  - intros s ts k t [H1 H2] Hk. assert (Hlen : (k < length ts)%nat) by (eapply lookup_lt_Some; exact Hk).
    destruct (H1 _ _ Hk) as [Hr Hu].
    assert (Hu' : forall u, st_pc (snd (sp_step k s t)) = X_done u ->
                   u = snd (observe_exit (sc_unwind (st_call t)) (sc_errptr (st_call t)))).
    { intros u E. destruct t as [c pc]. destruct pc as [| | | | | |o [|x l]|o| | |u']; cbn in E; try discriminate E.
      - destruct (sc_parent c); cbn in E; [destruct (bool_decide _)|]; discriminate E.
      - destruct (sc_parent c); cbn in E; [destruct o|]; discriminate E.
      - inversion E. reflexivity.
      - apply Hu. exact E. }
    assert (Hends : forall i, ends_rec i (sp_ends (fst (sp_step k s t))) =
              if decide (i = k) then (if ended (st_pc (snd (sp_step k s t))) then [exit_record k (st_call t)] else [])
              else ends_rec i (sp_ends s)).
    { intros i. destruct (step_ends k s t) as [[E1 E2]|(E1 & E2 & E3)].
      - rewrite E1, E2. destruct (decide (i = k)) as [->|]; [exact Hr|reflexivity].
      - rewrite E1, E3. unfold ends_rec. rewrite List.filter_app. fold (ends_rec i (sp_ends s)).
        destruct (decide (i = k)) as [->|Hne].
        + rewrite Hr, E2. cbn. rewrite Nat.eqb_refl. reflexivity.
        + cbn. rewrite (proj2 (Nat.eqb_neq i k) Hne). apply app_nil_r. }
    split.
    + intros i u Hi. rewrite Hends. apply list_lookup_insert_Some in Hi as [(<- & <- & _)|[Hne Hi]].
      * rewrite decide_True by reflexivity. rewrite sp_step_call. split; [reflexivity|exact Hu'].
      * rewrite decide_False by congruence. exact (H1 _ _ Hi).
    + intros i Hi. rewrite Hends. destruct (decide (i = k)) as [->|Hne].
      * rewrite list_lookup_insert in Hi by exact Hlen. discriminate Hi.
      * apply H2. rewrite list_lookup_insert_ne in Hi by congruence. exact Hi.
Qed.

Lemma task_exit sched i c u :
  well_formed sched -> threads (sp_exec sched) !! i = Some (SThr c (X_done u)) ->
  let s := spans_after sched in
  (* bookkeeping *)
  i ∉ sp_roots s /\ i ∉ sp_orphans s /\ i ∈ sp_done s /\ (forall p ord, any_order ord -> i ∉ bag_iterate ord (children_of s p)) /\
  (* one record, right class, right continuation *)
  exists err pk, ends_rec i (sp_ends s) = [(i, err, pk)] /\
  match sc_unwind c with
  | UPanic (Some v) => classify err pk = CPanic /\ u = UPanic (Some v)
  | UPanic None => u = UReturn
  | w => classify err pk = (match sc_errptr c with Some (Some e) => CError e | _ => CSuccess end) /\ u = w
  end.
Proof.
  intros Hw Hi s. subst s. pose proof (inv_exec _ (wf_orders _ Hw)) as Hinv. destruct (ends_exec sched) as [He _].
  destruct (He _ _ Hi) as [E Eu]. cbn in E. specialize (Eu _ eq_refl). cbn in Eu.
  split; [|split; [|split; [|split]]].
  - rewrite (K2 _ _ Hinv). intros (t & Ht & _ & Hl). unfold tlook in Ht. assert (t = SThr c (X_done u)) by congruence. subst t. discriminate Hl.
  - rewrite (K4 _ _ Hinv). intros (_ & t & Ht & Hl). unfold tlook in Ht. assert (t = SThr c (X_done u)) by congruence. subst t. discriminate Hl.
  - apply (K3 _ _ Hinv). exists (SThr c (X_done u)). auto.
  - intros p ord Ho. rewrite (bag_iterate_elem _ _ _ Ho (K1' _ _ Hinv p)), (K1 _ _ Hinv). unfold linked_in, tlook. rewrite Hi.
    cbn. rewrite andb_false_r. cbn. lia.
  - eexists _, _. split; [exact E|]. rewrite Eu. unfold observe_exit.
    destruct (sc_unwind c) as [|[v|]|]; cbn; try (split; reflexivity); try reflexivity;
      destruct (sc_errptr c) as [[e|]|]; split; reflexivity.
Qed.
