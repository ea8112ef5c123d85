(** C73: the order of the spans in the SVG text. *)
From Verif Require Import Base BaseProofs PresentModel LayoutModel LayoutProofs LayoutProps SvgModel SvgSpec SvgProofs SvgNumProofs SvgDocProofs SvgValProofs SvgOrderModel.
Local Open Scope Z_scope.
Local Arguments B : simpl never.

Lemma sort_starts spans sorted : start_time_sort spans sorted -> Forall (fun s => in64 (sp_start (vs_span s))) spans ->
  forall i j a b, (i <= j)%nat -> sorted !! i = Some a -> sorted !! j = Some b -> sp_start (vs_span a) <= sp_start (vs_span b).
Proof.
  intros [Hp Hs] Hr i j a b Hij Ha Hb. destruct (decide (i = j)) as [->|Hne]; [rewrite Ha in Hb; injection Hb as ->; lia|].
  pose proof (Hs i j a b ltac:(lia) Ha Hb) as Hl. unfold start_less in Hl. apply Z.ltb_ge in Hl.
  rewrite Forall_forall in Hr.
  assert (Ra : in64 (sp_start (vs_span a))) by (apply Hr; rewrite <- Hp; apply elem_of_list_In, elem_of_list_In, elem_of_list_lookup; eauto).
  assert (Rb : in64 (sp_start (vs_span b))) by (apply Hr; rewrite <- Hp; apply elem_of_list_In, elem_of_list_In, elem_of_list_lookup; eauto).
  rewrite !wrap64_id in Hl by assumption. exact Hl.
Qed.

(** C73: the groups of elements are in the order of the spans' starts (spans between 1678 and
    2262), the times in the tooltips are those since the earliest start of all, and so no span
    is said to have started before it. *)
Theorem C73_order :
  exists defs, forall zero_time fuel order spans doc, spans <> [] -> Forall (fun s => in64 (sp_start (vs_span s))) spans ->
    draws zero_time fuel order spans doc ->
    exists height listed es first, pictures defs doc height es /\ listed ≡ₚ spans /\
      (forall i j a b, (i <= j)%nat -> listed !! i = Some a -> listed !! j = Some b -> sp_start (vs_span a) <= sp_start (vs_span b)) /\
      (exists s, s ∈ spans /\ sp_start (vs_span s) = first) /\ Forall (fun s => first <= sp_start (vs_span s)) spans /\
      Forall2 (describes first) listed es.
Proof.
  destruct svg_spec as [defs H]. exists defs. intros zt fuel order spans doc Hne Hr (sorted & Hs & E).
  destruct (H _ _ _ _ _ _ E) as (w & rows & es & _ & Hp & _ & Hes). pose proof (sort_starts _ _ Hs Hr) as Ho. destruct Hs as [P _].
  destruct sorted as [|f sorted]; [apply Permutation_nil in P; congruence|].
  exists (graph_height rows), (f :: sorted), es, (sp_start (vs_span f)). split_and!; [exact Hp|exact P|exact Ho| | |].
  - exists f. split; [rewrite <- P; left|reflexivity].
  - rewrite <- P. apply Forall_forall. intros s Hin. apply elem_of_list_lookup in Hin as [j Hj]. apply (Ho 0%nat j f s); [lia|reflexivity|exact Hj].
  - eapply Forall2_impl; [exact Hes|]. intros s e (Hd & _). exact Hd.
Qed.
Print Assumptions C73_order.

(** C73: so their bars are in the order of their left edges. *)
Theorem C73_left_to_right :
  exists defs, forall zero_time fuel order spans doc, spans <> [] ->
    (forall s, s ∈ spans -> in64 (sp_start (vs_span s)) /\ sp_start (vs_span s) <> zero_time /\ sp_finish (vs_span s) <> zero_time /\ sp_start (vs_span s) <= sp_finish (vs_span s)) ->
    (forall s t, s ∈ spans -> t ∈ spans -> (sp_finish (vs_span t) - sp_start (vs_span s)) * 1200 < 2 ^ 63) ->
    draws zero_time fuel order spans doc ->
    exists height es, pictures defs doc height es /\
      forall i j a b, (i <= j)%nat -> es !! i = Some a -> es !! j = Some b -> sv_left (fst (fst a)) <= sv_left (fst (fst b)).
Proof.
  destruct svg_spec as [defs H]. exists defs. intros zt fuel order spans doc Hne Hr Hd (sorted & Hs & E).
  destruct (H _ _ _ _ _ _ E) as (w & rows & es & _ & Hp & _ & Hes).
  pose proof (sort_starts _ _ Hs ltac:(apply Forall_forall; intros s Hin; apply (Hr s Hin))) as Ho. destruct Hs as [P _].
  exists (graph_height rows), es. split; [exact Hp|]. intros i j a b Hij Ha Hb.
  destruct (Forall2_lookup_r _ _ _ _ _ Hes Ha) as (s & Es & _ & _ & Ps & _). destruct (Forall2_lookup_r _ _ _ _ _ Hes Hb) as (t & Et & _ & _ & Pt & _).
  pose proof (Ho i j s t Hij Es Et) as Hst. destruct Ps as (Bs & _). destruct Pt as (Bt & _).
  assert (Is : s ∈ spans) by (rewrite <- P; eapply elem_of_list_lookup_2; exact Es).
  assert (It : t ∈ spans) by (rewrite <- P; eapply elem_of_list_lookup_2; exact Et).
  set (fs := map vs_span spans) in *. assert (Fne : fs <> []) by (destruct spans; [congruence|discriminate]).
  assert (Fs : forall x, x ∈ fs -> sp_start x <> zt /\ sp_finish x <> zt /\ sp_start x <= sp_finish x).
  { intros x Hx. apply elem_of_list_fmap in Hx as (y & -> & Hy). destruct (Hr y Hy) as (_ & Q). exact Q. }
  destruct (C49_extent zt fs Fne ltac:(intros x Hx; destruct (Fs x Hx) as (? & ? & _); auto)) as [((x & Hx & Ex) & Mn) ((y & Hy & Ey) & Mx)].
  assert (Hlt : min_start zt fs < max_end zt fs).
  { destruct (Z.eq_dec (min_start zt fs) (max_end zt fs)) as [Q|Q].
    - rewrite <- Q, C49_instant in Bs. discriminate.
    - pose proof (Mn x Hx). pose proof (Mx x Hx). destruct (Fs x Hx) as (_ & _ & ?). lia. }
  assert (Hov : (max_end zt fs - min_start zt fs) * 1200 < 2 ^ 63).
  { apply elem_of_list_fmap in Hx as (x' & -> & Hx'). apply elem_of_list_fmap in Hy as (y' & -> & Hy'). rewrite <- Ex, <- Ey. apply (Hd x' y' Hx' Hy'). }
  eapply (C49_order zt fs Fne Fs Hlt Hov (vs_span s) (vs_span t)); [apply elem_of_list_fmap; eauto..|exact Hst|exact Bs|exact Bt].
Qed.
Print Assumptions C73_left_to_right.

(** Not so for times after 2262: UnixNano wraps. *)
Theorem C73_order_refuted :
  exists spans sorted, start_time_sort spans sorted /\
    exists a b, sorted = [a; b] /\ sp_start (vs_span b) < sp_start (vs_span a).
Proof.
  set (a := VSpan (FSpan 1 None (2 ^ 63) (2 ^ 63 + 1)) [] [] None false). set (b := VSpan (FSpan 2 None 5 6) [] [] None false).
  exists [b; a], [a; b]. split; [|exists a, b; split; [reflexivity|cbn; lia]]. split; [constructor|].
  intros i j x y Hij Hx Hy. destruct i as [|[|i]], j as [|[|j]]; cbn in Hx, Hy; try lia; try discriminate. injection Hx as <-. injection Hy as <-. vm_compute. reflexivity.
Qed.
Print Assumptions C73_order_refuted.

Definition ex_spans : list vspan :=
  [VSpan (FSpan 2 (Some 1) 300 800) (B "pkg.g") [] None false; VSpan (FSpan 1 None 100 1600) (B "pkg.f") [B "7"] None false].
Example C73_order_ex :
  (exists doc, draws 0 5 [1; 2] ex_spans doc) /\
  (forall s, s ∈ ex_spans -> in64 (sp_start (vs_span s)) /\ sp_start (vs_span s) <> 0 /\ sp_finish (vs_span s) <> 0 /\ sp_start (vs_span s) <= sp_finish (vs_span s)) /\
  (forall s t, s ∈ ex_spans -> t ∈ ex_spans -> (sp_finish (vs_span t) - sp_start (vs_span s)) * 1200 < 2 ^ 63).
Proof.
  split_and!.
  - destruct (spans_to_svg 0 5 [1; 2] ex_spans (rev ex_spans)) as [doc|] eqn:E; [|vm_compute in E; discriminate].
    exists doc, (rev ex_spans). split; [|exact E]. split; [symmetry; apply Permutation_rev|].
    intros i j x y Hij Hx Hy. destruct i as [|[|i]], j as [|[|j]]; cbn in Hx, Hy; try lia; try discriminate. injection Hx as <-. injection Hy as <-. vm_compute. reflexivity.
  - intros s Hs. unfold ex_spans in Hs. rewrite !elem_of_cons in Hs. destruct Hs as [->|[->|Hs]]; [..|inversion Hs]; cbn; unfold in64; lia.
  - intros s t Hs Ht. unfold ex_spans in Hs, Ht. rewrite !elem_of_cons in Hs, Ht.
    destruct Hs as [->|[->|Hs]]; [..|inversion Hs]; (destruct Ht as [->|[->|Ht]]; [..|inversion Ht]); cbn; lia.
Qed.
