(** Properties of the trace diagram's layout: C48, C49. *)
From Verif Require Import Base BaseProofs LayoutModel LayoutSpec LayoutProofs LayoutTimeProofs.
Open Scope Z_scope.

(** A layout is found: the recursion of computeRow ends, whatever the map order. *)
Theorem C48_total :
  forall zero_time spans order, well_formed spans -> map_order spans order ->
    exists N, forall fuel, (N <= fuel)%nat -> layout zero_time fuel order spans <> None.
Proof. intros zero_time spans order Hwf. exact (layout_total zero_time spans Hwf order). Qed.
Print Assumptions C48_total.

(** Two spans in the same row do not overlap in time. *)
Theorem C48_rows :
  forall zero_time spans fuel order w rows s t,
    well_formed spans -> map_order spans order -> layout zero_time fuel order spans = Some (w, rows) ->
    s ∈ spans -> t ∈ spans -> s <> t -> row_of w (sp_id s) = row_of w (sp_id t) -> apart s t.
Proof. intros zero_time spans fuel order w rows s t Hwf Ho E. exact (proj1 (proj2 (layout_spec zero_time spans fuel order w rows Hwf Ho E)) s t). Qed.
Print Assumptions C48_rows.

(** A span is drawn below its parent. *)
Theorem C48_below :
  forall zero_time spans fuel order w rows s p,
    well_formed spans -> map_order spans order -> layout zero_time fuel order spans = Some (w, rows) ->
    s ∈ spans -> p ∈ spans -> sp_parent s = Some (sp_id p) ->
    bar_top (row_of w (sp_id p)) + bar_height < bar_top (row_of w (sp_id s)).
Proof.
  intros zero_time spans fuel order w rows s p Hwf Ho E Hs Hp P.
  pose proof (proj2 (proj2 (layout_spec zero_time spans fuel order w rows Hwf Ho E)) s p Hs Hp P) as H.
  unfold bar_top, bar_height, bar_sep. lia.
Qed.
Print Assumptions C48_below.

(** Every bar is inside the picture, below its first row. *)
Theorem C48_inside :
  forall zero_time spans fuel order w rows s,
    well_formed spans -> map_order spans order -> layout zero_time fuel order spans = Some (w, rows) -> s ∈ spans ->
    0 < bar_top (row_of w (sp_id s)) /\ bar_top (row_of w (sp_id s)) + bar_height <= graph_height rows.
Proof.
  intros zero_time spans fuel order w rows s Hwf Ho E Hs.
  pose proof (proj1 (layout_spec zero_time spans fuel order w rows Hwf Ho E) s Hs) as H.
  unfold bar_top, graph_height, bar_height, bar_sep. lia.
Qed.
Print Assumptions C48_inside.

Definition ex_spans : list fspan :=
  [FSpan 1 None 0 100; FSpan 2 (Some 1) 10 40; FSpan 3 (Some 1) 50 90; FSpan 4 (Some 2) 20 30; FSpan 5 (Some 1) 60 70; FSpan 6 (Some 9) 5 8].
Example layout_ex :
  layout (-1) 5 [9; 6; 5; 4; 3; 2; 1] ex_spans = Some ([(9, 1%nat); (6, 2%nat); (1, 3%nat); (2, 4%nat); (4, 5%nat); (3, 4%nat); (5, 6%nat)], 8%nat).
Proof. vm_compute. reflexivity. Qed.
Definition ex_rank (x : Z) : nat := if x =? 9 then 0%nat else if x =? 1 then 0%nat else if x =? 4 then 2%nat else 1%nat.
Example well_formed_ex : well_formed ex_spans.
Proof.
  constructor.
  - apply (bool_decide_unpack _). vm_compute. exact I.
  - assert (H : Forall (fun s => match sp_parent s with Some p => p <> 0 | None => True end) ex_spans) by (repeat constructor; discriminate).
    intros s p Hs E. rewrite Forall_forall in H. specialize (H s Hs). rewrite E in H. exact H.
  - exists ex_rank.
    assert (H : Forall (fun s => match sp_parent s with Some p => (ex_rank p < ex_rank (sp_id s))%nat | None => True end) ex_spans) by (repeat constructor).
    intros s p Hs E. rewrite Forall_forall in H. specialize (H s Hs). rewrite E in H. exact H.
  - apply (Forall_forall (fun s => sp_start s <= sp_finish s)). repeat constructor; cbn; lia.
  - assert (H : Forall (fun s => Forall (fun p => sp_parent s = Some (sp_id p) -> sp_start p <= sp_start s /\ sp_finish s <= sp_finish p) ex_spans) ex_spans).
    { repeat constructor; cbn; intros E; try discriminate; lia. }
    intros s p Hs Hp. rewrite Forall_forall in H. specialize (H s Hs). rewrite Forall_forall in H. exact (H p Hp).
Qed.
Example map_order_ex : map_order ex_spans [9; 6; 5; 4; 3; 2; 1].
Proof.
  split; [apply (bool_decide_unpack _); vm_compute; exact I|]. intros x. split.
  - intros H. repeat (apply elem_of_cons in H as [->|H]); [..|inversion H].
    + exists (FSpan 6 (Some 9) 5 8). split; [apply elem_of_list_In; cbn; tauto|auto].
    + exists (FSpan 6 (Some 9) 5 8). split; [apply elem_of_list_In; cbn; tauto|auto].
    + exists (FSpan 5 (Some 1) 60 70). split; [apply elem_of_list_In; cbn; tauto|auto].
    + exists (FSpan 4 (Some 2) 20 30). split; [apply elem_of_list_In; cbn; tauto|auto].
    + exists (FSpan 3 (Some 1) 50 90). split; [apply elem_of_list_In; cbn; tauto|auto].
    + exists (FSpan 2 (Some 1) 10 40). split; [apply elem_of_list_In; cbn; tauto|auto].
    + exists (FSpan 1 None 0 100). split; [apply elem_of_list_In; cbn; tauto|auto].
  - intros (s & Hs & H). apply elem_of_list_In. apply elem_of_list_In in Hs. cbn in Hs.
    repeat (destruct Hs as [<-|Hs]; [cbn in H |- *; destruct H as [H|H]; [|try discriminate; apply (f_equal (default 0)) in H; cbn in H]; lia|]). destruct Hs.
Qed.
Example C48_ex : forall fuel w rows, layout (-1) fuel [9; 6; 5; 4; 3; 2; 1] ex_spans = Some (w, rows) -> (row_of w 1 < row_of w 2)%nat.
Proof.
  intros fuel w rows E. pose proof (C48_below _ _ _ _ _ _ (FSpan 2 (Some 1) 10 40) (FSpan 1 None 0 100) well_formed_ex map_order_ex E) as H.
  unfold bar_top, bar_height, bar_sep in H. cbn [sp_id] in H.
  enough (Z.of_nat (row_of w 1) * (15 + 1) + 15 < Z.of_nat (row_of w 2) * (15 + 1)) by lia. apply H; [..|reflexivity]; apply elem_of_list_In; cbn; tauto.
Qed.

(** A span that outlives its parent (a goroutine still running) can be drawn
    over another one: spans 4 and 7 share row 4 from 13 to 50. *)
Definition late_spans : list fspan :=
  [FSpan 1 None 0 100; FSpan 2 (Some 1) 0 10; FSpan 3 (Some 2) 1 9; FSpan 4 (Some 3) 2 50; FSpan 5 (Some 1) 11 60; FSpan 6 (Some 5) 12 59; FSpan 7 (Some 6) 13 58].
Theorem C48_rows_refuted :
  exists zero_time spans fuel order w rows s t,
    NoDup (map sp_id spans) /\ (forall u, u ∈ spans -> sp_start u <= sp_finish u /\ sp_id u <> 0) /\
    layout zero_time fuel order spans = Some (w, rows) /\
    s ∈ spans /\ t ∈ spans /\ s <> t /\ row_of w (sp_id s) = row_of w (sp_id t) /\ ~ apart s t.
Proof.
  exists (-1), late_spans, 5%nat, [1; 2; 3; 4; 5; 6; 7], [(1, 1%nat); (2, 2%nat); (3, 3%nat); (4, 4%nat); (5, 2%nat); (6, 3%nat); (7, 4%nat)], 6%nat, (FSpan 4 (Some 3) 2 50), (FSpan 7 (Some 6) 13 58).
  split_and!.
  - apply (bool_decide_unpack _). vm_compute. exact I.
  - apply (Forall_forall (fun u => sp_start u <= sp_finish u /\ sp_id u <> 0)). repeat constructor; cbn; lia.
  - vm_compute. reflexivity.
  - apply elem_of_list_In; cbn; tauto.
  - apply elem_of_list_In; cbn; tauto.
  - discriminate.
  - vm_compute. reflexivity.
  - unfold apart. cbn. lia.
Qed.
Print Assumptions C48_rows_refuted.

(** Why cycles of parents are excluded: with a span of id 0 that is its own
    parent (ids can be given by a remote caller) the recursion never ends. *)
Theorem C48_total_refuted :
  exists zero_time spans, forall fuel order, 0 ∈ order -> layout zero_time fuel order spans = None.
Proof.
  exists (-1), [FSpan 0 (Some 0) 1 2]. intros fuel order H0. unfold layout.
  set (T := layout_tree (-1) [FSpan 0 (Some 0) 1 2]). assert (ET : T !! 0 = Some (Info 0 2 true [[0]])) by (vm_compute; reflexivity).
  clearbody T. assert (Hrow : forall fuel used, compute_row fuel T 0 used = None).
  { clear -ET. induction fuel as [|fuel IH]; intros used; cbn [compute_row]; [reflexivity|]. rewrite ET. cbn [in_rows compute_groups compute_group].
    rewrite IH. reflexivity. }
  enough (forall used, compute_roots fuel T order used = None) as -> by reflexivity.
  induction order as [|x order IH]; intros used; [inversion H0|]. cbn [compute_roots].
  apply elem_of_cons in H0 as [<-|H0].
  - rewrite ET. cbn [in_parent]. rewrite Z.eqb_refl, Hrow. reflexivity.
  - destruct (T !! x) as [i|]; [|reflexivity]. destruct (in_parent i =? 0); [|apply IH, H0].
    destruct (compute_row fuel T x used) as [[h w]|]; [|reflexivity]. rewrite IH by exact H0. reflexivity.
Qed.
Print Assumptions C48_total_refuted.

(** Bars lie between 0 and 1201, are at least 1 wide, reach to where their span
    finished, and begin where the linear scale puts the span's start. *)
Theorem C49_bars :
  forall zero_time spans, spans <> [] ->
    (forall s, s ∈ spans -> sp_start s <> zero_time /\ sp_finish s <> zero_time /\ sp_start s <= sp_finish s) ->
    let mn := min_start zero_time spans in let mx := max_end zero_time spans in
    mn < mx -> (mx - mn) * 1200 < 2 ^ 63 ->
    forall s, s ∈ spans -> exists l w, bar_x mn mx s = Some (l, w) /\ 0 <= l <= 1200 /\ 1 <= w /\ l + w <= 1201 /\
      l = (sp_start s - mn) * 1200 / (mx - mn) /\ (sp_finish s - mn) * 1200 / (mx - mn) <= l + w.
Proof. exact bar_x_spec. Qed.
Print Assumptions C49_bars.

(** Bars are ordered as their spans' start times. *)
Theorem C49_order :
  forall zero_time spans, spans <> [] ->
    (forall s, s ∈ spans -> sp_start s <> zero_time /\ sp_finish s <> zero_time /\ sp_start s <= sp_finish s) ->
    let mn := min_start zero_time spans in let mx := max_end zero_time spans in
    mn < mx -> (mx - mn) * 1200 < 2 ^ 63 ->
    forall s t l w l' w', s ∈ spans -> t ∈ spans -> sp_start s <= sp_start t ->
      bar_x mn mx s = Some (l, w) -> bar_x mn mx t = Some (l', w') -> l <= l'.
Proof.
  intros zero_time spans Hne Hs mn mx Hlt Hd s t l w l' w' Hin Hin' Hle E E'.
  destruct (bar_x_spec zero_time spans Hne Hs Hlt Hd s Hin) as (l0 & w0 & E0 & _ & _ & _ & L0 & _).
  destruct (bar_x_spec zero_time spans Hne Hs Hlt Hd t Hin') as (l1 & w1 & E1 & _ & _ & _ & L1 & _).
  fold mn mx in E0, L0, E1, L1. rewrite E0 in E. rewrite E1 in E'. injection E as -> ->. injection E' as -> ->. subst. apply scaled_mono; assumption.
Qed.
Print Assumptions C49_order.

(** minStart and maxEnd are the earliest start and the latest finish. *)
Theorem C49_extent :
  forall zero_time spans, spans <> [] ->
    (forall s, s ∈ spans -> sp_start s <> zero_time /\ sp_finish s <> zero_time) ->
    ((exists s, s ∈ spans /\ sp_start s = min_start zero_time spans) /\ forall s, s ∈ spans -> min_start zero_time spans <= sp_start s) /\
    ((exists s, s ∈ spans /\ sp_finish s = max_end zero_time spans) /\ forall s, s ∈ spans -> sp_finish s <= max_end zero_time spans).
Proof.
  intros zero_time spans Hne Hs. split; [apply min_start_ok|apply max_end_ok]; auto; intros s Hin; apply (Hs s Hin).
Qed.
Print Assumptions C49_extent.

(** Without an extent in time nothing can be drawn: division by zero. *)
Theorem C49_instant :
  forall mn s, bar_x mn mn s = None.
Proof. intros mn s. unfold bar_x, time_to_x. replace (mn - mn) with 0 by lia. reflexivity. Qed.
Print Assumptions C49_instant.

(** Over about 89 days the multiplication overflows: a bar left of the picture. *)
Theorem C49_bars_refuted :
  exists zero_time spans s l w,
    (forall s, s ∈ spans -> sp_start s <> zero_time /\ sp_finish s <> zero_time /\ sp_start s <= sp_finish s) /\
    s ∈ spans /\ bar_x (min_start zero_time spans) (max_end zero_time spans) s = Some (l, w) /\ l < 0.
Proof.
  exists (-1), [FSpan 1 None 0 7686143364045647; FSpan 2 (Some 1) 7686143364045647 7686143364045647], (FSpan 2 (Some 1) 7686143364045647 7686143364045647), (-1199), 1.
  split_and!.
  - apply (Forall_forall (fun s => sp_start s <> -1 /\ sp_finish s <> -1 /\ sp_start s <= sp_finish s)). repeat constructor; cbn; lia.
  - apply elem_of_list_In; cbn; tauto.
  - vm_compute. reflexivity.
  - lia.
Qed.
Print Assumptions C49_bars_refuted.

Example C49_ex :
  bar_x (min_start (-1) ex_spans) (max_end (-1) ex_spans) (FSpan 2 (Some 1) 10 40) = Some (120, 360).
Proof. vm_compute. reflexivity. Qed.
Example C49_ex_hyp : min_start (-1) ex_spans < max_end (-1) ex_spans /\ (max_end (-1) ex_spans - min_start (-1) ex_spans) * 1200 < 2 ^ 63.
Proof. vm_compute. split; reflexivity. Qed.
Example C49_instant_ex : bar_x 7 7 (FSpan 1 None 7 7) = None.
Proof. exact (C49_instant 7 _). Qed.
