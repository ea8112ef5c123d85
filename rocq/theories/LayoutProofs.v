(** Proofs about the layout of spans. *)
From Verif Require Import Base BaseProofs LayoutModel LayoutSpec.
Open Scope Z_scope.

(** ** computeSpanTree *)
Section tree.
  Context (zero_time : Z).
  Local Notation add := (add_span zero_time).

  Definition tree_ok (P : list fspan) (T : tree) : Prop :=
    forall x, match T !! x with
    | None => ~ entry P x
    | Some i =>
        entry P x /\ in_layout i = false /\ in_rows i = [] /\
        (forall s, s ∈ P -> sp_id s = x -> in_parent i = default 0 (sp_parent s) /\ sp_finish s <= in_largest i) /\
        ((forall s, s ∈ P -> sp_id s <> x) -> in_parent i = 0)
    end.
  Lemma entry_snoc P sp x : entry (P ++ [sp]) x <-> entry P x \/ sp_id sp = x \/ sp_parent sp = Some x.
  Proof.
    unfold entry. split.
    - intros (s & Hs & H). apply elem_of_app in Hs as [Hs|Hs]; [left; eauto|]. apply elem_of_list_singleton in Hs. subst s. auto.
    - intros [(s & Hs & H)|H]; [exists s; rewrite elem_of_app; auto|]. exists sp. rewrite elem_of_app, elem_of_list_singleton. auto.
  Qed.
  Lemma later_largest i t : in_largest i <= in_largest (later i t) /\ t <= in_largest (later i t).
  Proof. unfold later. cbn [in_largest]. destruct (Z.ltb_spec (in_largest i) t); lia. Qed.

  (** One entry being touched: a new or old entry at [x]. *)
  Lemma default_ok P T x : tree_ok P T -> (forall s, s ∈ P -> sp_id s <> x) ->
    let i := default (new_info zero_time) (T !! x) in
    in_layout i = false /\ in_rows i = [] /\ in_parent i = 0.
  Proof.
    intros H Hx. specialize (H x). destruct (T !! x) as [i|]; cbn [default]; [|cbn; auto].
    destruct H as (_ & H1 & H2 & _ & H3). auto.
  Qed.
  Lemma tree_ok_add P T sp : NoDup (map sp_id (P ++ [sp])) -> tree_ok P T -> tree_ok (P ++ [sp]) (add T sp).
  Proof.
    intros Hnd H. assert (Hnew : forall s, s ∈ P -> sp_id s <> sp_id sp).
    { intros s Hs E. rewrite map_app in Hnd. apply NoDup_app in Hnd as (_ & Hd & _). apply (Hd (sp_id s)).
      - apply elem_of_list_fmap. eauto.
      - rewrite E. left. }
    destruct (default_ok P T (sp_id sp) H Hnew) as (D1 & D2 & D3).
    unfold add_span. set (i := later (default (new_info zero_time) (T !! sp_id sp)) (sp_finish sp)).
    assert (sp_finish sp <= in_largest i) as Hi by apply later_largest.
    destruct (sp_parent sp) as [pid|] eqn:Ep.
    - set (T1 := <[sp_id sp := Info pid (in_largest i) (in_layout i) (in_rows i)]> T).
      assert (H1 : forall x, match T1 !! x with
          | None => ~ entry P x /\ sp_id sp <> x
          | Some j => (entry P x \/ sp_id sp = x) /\ in_layout j = false /\ in_rows j = [] /\
              (forall s, s ∈ P ++ [sp] -> sp_id s = x -> in_parent j = default 0 (sp_parent s) /\ sp_finish s <= in_largest j) /\
              ((forall s, s ∈ P ++ [sp] -> sp_id s <> x) -> in_parent j = 0)
          end).
      { intros x. unfold T1. destruct (decide (sp_id sp = x)) as [<-|Hne].
        - rewrite lookup_insert. split_and!; auto.
          + intros s Hs E. apply elem_of_app in Hs as [Hs|Hs]; [destruct (Hnew s Hs E)|]. apply elem_of_list_singleton in Hs. subst s.
            rewrite Ep. auto.
          + intros Hs. exfalso. apply (Hs sp); [apply elem_of_app; right; left|reflexivity].
        - rewrite lookup_insert_ne by exact Hne. specialize (H x). destruct (T !! x) as [j|]; [|auto].
          destruct H as (E1 & E2 & E3 & E4 & E5). split_and!; auto.
          + intros s Hs E. apply elem_of_app in Hs as [Hs|Hs]; [auto|]. apply elem_of_list_singleton in Hs. subst s. contradiction.
          + intros Hs. apply E5. intros s Hs'. apply Hs. apply elem_of_app. auto. }
      intros x. destruct (decide (pid = x)) as [<-|Hne].
      + rewrite lookup_insert. specialize (H1 pid). destruct (T1 !! pid) as [j|]; cbn [default].
        * destruct H1 as (E1 & E2 & E3 & E4 & E5). split_and!; auto.
          -- apply entry_snoc. rewrite Ep. auto.
          -- intros s Hs E. destruct (E4 s Hs E) as [F1 F2]. split; [exact F1|]. etransitivity; [exact F2|apply later_largest].
        * destruct H1 as [N1 N2]. split_and!; try reflexivity.
          -- apply entry_snoc. rewrite Ep. auto.
          -- intros s Hs E. exfalso. apply elem_of_app in Hs as [Hs|Hs]; [apply N1; exists s; auto|].
             apply elem_of_list_singleton in Hs. subst s. contradiction.
      + rewrite lookup_insert_ne by exact Hne. specialize (H1 x). destruct (T1 !! x) as [j|].
        * destruct H1 as (E1 & E2 & E3 & E4 & E5). split_and!; auto. apply entry_snoc. tauto.
        * destruct H1 as [N1 N2]. rewrite entry_snoc, Ep. intros [A|[A|A]]; [auto|auto|congruence].
    - intros x. destruct (decide (sp_id sp = x)) as [<-|Hne].
      + rewrite lookup_insert. split_and!; auto.
        * apply entry_snoc. auto.
        * intros s Hs E. apply elem_of_app in Hs as [Hs|Hs]; [destruct (Hnew s Hs E)|]. apply elem_of_list_singleton in Hs. subst s.
          rewrite Ep. split; [exact D3|exact Hi].
      + rewrite lookup_insert_ne by exact Hne. specialize (H x). destruct (T !! x) as [j|].
        * destruct H as (E1 & E2 & E3 & E4 & E5). split_and!; auto.
          -- apply entry_snoc. auto.
          -- intros s Hs E. apply elem_of_app in Hs as [Hs|Hs]; [auto|]. apply elem_of_list_singleton in Hs. subst s. contradiction.
          -- intros Hs. apply E5. intros s Hs'. apply Hs. apply elem_of_app. auto.
        * rewrite entry_snoc, Ep. intros [A|[A|A]]; [auto|auto|discriminate].
  Qed.
  Lemma span_tree_ok spans : NoDup (map sp_id spans) -> tree_ok spans (span_tree zero_time spans).
  Proof.
    induction spans as [|sp P IH] using rev_ind; intros Hnd.
    - intros x. unfold span_tree. cbn [fold_left]. rewrite lookup_empty. intros (s & Hs & _). inversion Hs.
    - unfold span_tree. rewrite fold_left_app. cbn [fold_left]. apply tree_ok_add; [exact Hnd|]. apply IH.
      rewrite map_app in Hnd. apply NoDup_app in Hnd as (Hnd & _). exact Hnd.
  Qed.
End tree.

(** ** includeSpanInLayoutInformation *)
Section include.
  Context (spans : list fspan) (T0 : tree).
  Context (Hok : tree_ok spans T0) (Hnd : NoDup (map sp_id spans)) (Htimes : forall s, s ∈ spans -> sp_start s <= sp_finish s).

  Definition before (c d : Z) : Prop :=
    forall sc sd, sc ∈ spans -> sd ∈ spans -> sp_id sc = c -> sp_id sd = d -> sp_finish sc < sp_start sd.
  Definition group_ok (g : list Z) : Prop :=
    forall i j c d, (i < j)%nat -> g !! i = Some c -> g !! j = Some d -> before c d.
  Definition is_child (x : Z) (s : fspan) : bool := match sp_parent s with Some p => p =? x | None => false end.
  Definition rows_ok (P : list fspan) (x : Z) (rows : list (list Z)) : Prop :=
    concat rows ≡ₚ map sp_id (List.filter (is_child x) P) /\ Forall group_ok rows /\ Forall (fun g => g <> []) rows.
  Definition included (P : list fspan) (T : tree) : Prop :=
    forall x, match T !! x with
    | None => T0 !! x = None
    | Some i => exists i0, T0 !! x = Some i0 /\ in_parent i = in_parent i0 /\ in_largest i = in_largest i0 /\
        (in_layout i = true -> exists s, s ∈ P /\ sp_id s = x) /\ rows_ok P x (in_rows i)
    end.
  Lemma span_unique s t : s ∈ spans -> t ∈ spans -> sp_id s = sp_id t -> s = t.
  Proof.
    intros Hs Ht E. clear -Hnd Hs Ht E. induction spans as [|a l IH]; [inversion Hs|].
    cbn [map] in Hnd. apply NoDup_cons in Hnd as [Ha Hl].
    apply elem_of_cons in Hs as [->|Hs]; apply elem_of_cons in Ht as [->|Ht]; auto.
    - destruct Ha. rewrite E. apply elem_of_list_fmap. eauto.
    - destruct Ha. rewrite <- E. apply elem_of_list_fmap. eauto.
  Qed.
  Definition same_largest (T : tree) : Prop :=
    forall x i, T !! x = Some i -> exists i0, T0 !! x = Some i0 /\ in_largest i = in_largest i0.
  Lemma group_ok_snoc T g sp : same_largest T -> sp ∈ spans -> group_ok g ->
    (forall c, c ∈ g -> exists s, s ∈ spans /\ sp_id s = c) ->
    (match last g with None => True | Some c => exists i, T !! c = Some i /\ in_largest i < sp_start sp end) ->
    group_ok (g ++ [sp_id sp]).
  Proof.
    intros HT Hsp Hg Hspan Hl i j c d Hij Hi Hj.
    destruct (decide (j < length g)%nat) as [Hj'|Hj'].
    - rewrite lookup_app_l in Hj by lia. rewrite lookup_app_l in Hi by lia. exact (Hg i j c d Hij Hi Hj).
    - assert (j = length g) as ->.
      { apply lookup_lt_Some in Hj. rewrite app_length in Hj. cbn in Hj. lia. }
      rewrite lookup_app_r, Nat.sub_diag in Hj by lia. cbn in Hj. injection Hj as <-. rewrite lookup_app_l in Hi by lia.
      destruct (last g) as [m|] eqn:El.
      2:{ apply last_None in El. subst g. discriminate. }
      destruct Hl as (im & Him & Hlt).
      assert (exists sm, sm ∈ spans /\ sp_id sm = m) as (sm & Hsm & Em) by (apply Hspan, last_Some_elem_of, El).
      assert (sp_finish sm < sp_start sp) as Hm.
      { destruct (HT m im Him) as (i0 & E0 & E2). pose proof (Hok m) as H2. rewrite E0 in H2.
        destruct H2 as (_ & _ & _ & H2 & _). destruct (H2 sm Hsm Em) as [_ H3]. lia. }
      rewrite last_lookup in El. intros sc sd Hsc Hsd Ec Ed.
      assert (sd = sp) as -> by (apply span_unique; auto).
      destruct (decide (i = pred (length g))) as [->|Hne].
      + assert (c = m) as -> by congruence. assert (sc = sm) as -> by (apply span_unique; congruence). exact Hm.
      + assert (i < pred (length g))%nat as Hlt' by lia.
        pose proof (Hg i _ c m Hlt' Hi El sc sm Hsc Hsm Ec Em) as H1. pose proof (Htimes sm Hsm). lia.
  Qed.
  Lemma place_ok T sp rows : same_largest T -> sp ∈ spans ->
    (forall c, c ∈ concat rows -> exists s, s ∈ spans /\ sp_id s = c) ->
    Forall group_ok rows -> Forall (fun g => g <> []) rows ->
    let rows' := place T (sp_start sp) (sp_id sp) rows in
    concat rows' ≡ₚ sp_id sp :: concat rows /\ Forall group_ok rows' /\ Forall (fun g => g <> []) rows'.
  Proof.
    intros HT Hsp Hc Hg Hn. induction rows as [|r rows IH]; cbn [place].
    - split_and!; [reflexivity| |]; repeat constructor; [|discriminate].
      intros i j c d Hij Hi Hj. apply lookup_lt_Some in Hi, Hj. cbn in *. lia.
    - inversion Hg as [|? ? Hr Hrows]; subst. inversion Hn as [|? ? Nr Nrows]; subst.
      assert (Hin : forall c, c ∈ r -> exists s, s ∈ spans /\ sp_id s = c) by (intros c H; apply Hc; cbn; apply elem_of_app; auto).
      match goal with |- context [if ?b then _ else _] => destruct b eqn:Eb end.
      + cbn [concat]. split_and!.
        * rewrite <- app_assoc. symmetry. apply Permutation_middle.
        * constructor; [|exact Hrows]. apply (group_ok_snoc T r sp HT Hsp Hr Hin).
          destruct (last r) as [c|]; [|exact I]. destruct (T !! c) as [i|]; [|discriminate]. apply Z.ltb_lt in Eb. eauto.
        * constructor; [|exact Nrows]. destruct r; discriminate.
      + destruct IH as (I1 & I2 & I3); [intros c H; apply Hc; cbn; apply elem_of_app; auto|exact Hrows|exact Nrows|].
        cbn [concat]. split_and!; [|constructor; assumption|constructor; assumption].
        rewrite I1. symmetry. apply Permutation_middle.
  Qed.
  Lemma rows_ok_other P x sp rows : is_child x sp = false -> rows_ok P x rows -> rows_ok (P ++ [sp]) x rows.
  Proof.
    intros E (H1 & H2 & H3). split_and!; auto. rewrite H1, List.filter_app. cbn [List.filter]. rewrite E, app_nil_r. reflexivity.
  Qed.
  Lemma include_ok P T sp : included P T -> (forall s, s ∈ P -> s ∈ spans) -> sp ∈ spans -> (forall s, s ∈ P -> sp_id s <> sp_id sp) ->
    included (P ++ [sp]) (include T sp).
  Proof.
    intros HT HP Hsp Hnew. unfold include.
    assert (exists si, T !! sp_id sp = Some si) as (si & Es).
    { pose proof (HT (sp_id sp)) as H1. destruct (T !! sp_id sp); [eauto|]. pose proof (Hok (sp_id sp)) as H2. rewrite H1 in H2.
      destruct H2. exists sp. auto. }
    rewrite Es. assert (in_layout si = false) as El.
    { pose proof (HT (sp_id sp)) as H1. rewrite Es in H1. destruct H1 as (i0 & _ & _ & _ & H1 & _). destruct (in_layout si); [|reflexivity].
      destruct (H1 eq_refl) as (s & Hs & E). destruct (Hnew s Hs E). }
    rewrite El. set (T1 := <[sp_id sp := Info (in_parent si) (in_largest si) true (in_rows si)]> T).
    (* T1 is like T but for the flag *)
    assert (H1 : forall x, match T1 !! x with
      | None => T0 !! x = None
      | Some i => exists i0, T0 !! x = Some i0 /\ in_parent i = in_parent i0 /\ in_largest i = in_largest i0 /\
          (in_layout i = true -> exists s, s ∈ P ++ [sp] /\ sp_id s = x) /\ rows_ok P x (in_rows i)
      end).
    { intros x. unfold T1. destruct (decide (sp_id sp = x)) as [<-|Hne].
      - rewrite lookup_insert. pose proof (HT (sp_id sp)) as H1. rewrite Es in H1. destruct H1 as (i0 & A & B & C & _ & D).
        exists i0. split_and!; auto. intros _. exists sp. split; [apply elem_of_app; right; left|reflexivity].
      - rewrite lookup_insert_ne by exact Hne. pose proof (HT x) as H1. destruct (T !! x) as [i|]; [|exact H1].
        destruct H1 as (i0 & A & B & C & D & E). exists i0. split_and!; auto. intros F. destruct (D F) as (s & Hs & Ex).
        exists s. rewrite elem_of_app. auto. }
    assert (HL : same_largest T1).
    { intros x i E. pose proof (H1 x) as H2. rewrite E in H2. destruct H2 as (i0 & A & _ & B & _). eauto. }
    destruct (sp_parent sp) as [pid|] eqn:Ep.
    - assert (exists psi, T1 !! pid = Some psi) as (psi & Eps).
      { pose proof (H1 pid) as H2. destruct (T1 !! pid); [eauto|]. pose proof (Hok pid) as H3. rewrite H2 in H3.
        destruct H3. exists sp. auto. }
      rewrite Eps. intros x. destruct (decide (pid = x)) as [<-|Hne].
      + rewrite lookup_insert. pose proof (H1 pid) as H2. rewrite Eps in H2. destruct H2 as (i0 & A & B & C & D & (R1 & R2 & R3)).
        exists i0. split_and!; auto. cbn [in_rows].
        destruct (place_ok T1 sp (in_rows psi) HL Hsp) as (Q1 & Q2 & Q3); [|exact R2|exact R3|].
        { intros c Hc. rewrite R1 in Hc. apply elem_of_list_fmap in Hc as (s & -> & Hs). apply elem_of_list_In, filter_In in Hs as [Hs _].
          exists s. split; [apply HP, elem_of_list_In, Hs|reflexivity]. }
        split_and!; auto. rewrite Q1, R1, List.filter_app, map_app. cbn [List.filter].
        assert (is_child pid sp = true) as -> by (unfold is_child; rewrite Ep; apply Z.eqb_refl).
        cbn [map]. apply Permutation_cons_append.
      + rewrite lookup_insert_ne by exact Hne. pose proof (H1 x) as H2. destruct (T1 !! x) as [i|]; [|exact H2].
        destruct H2 as (i0 & A & B & C & D & E). exists i0. split_and!; auto. apply rows_ok_other; [|exact E].
        unfold is_child. rewrite Ep. apply Z.eqb_neq. exact Hne.
    - intros x. pose proof (H1 x) as H2. destruct (T1 !! x) as [i|]; [|exact H2].
      destruct H2 as (i0 & A & B & C & D & E). exists i0. split_and!; auto. apply rows_ok_other; [|exact E].
      unfold is_child. rewrite Ep. reflexivity.
  Qed.
  Lemma include_all P Q : spans = P ++ Q -> included P (fold_left include P T0).
  Proof.
    revert Q. induction P as [|sp P IH] using rev_ind; intros Q E.
    - cbn [fold_left]. intros x. destruct (T0 !! x) as [i|] eqn:Ex; [|reflexivity]. exists i. pose proof (Hok x) as H. rewrite Ex in H.
      destruct H as (_ & H1 & H2 & _). split_and!; auto; [congruence|]. rewrite H2. split_and!; [reflexivity|constructor|constructor].
    - rewrite fold_left_app. cbn [fold_left]. rewrite <- app_assoc in E. apply include_ok; [exact (IH _ E)| | |].
      + intros s Hs. rewrite E. apply elem_of_app. auto.
      + rewrite E. apply elem_of_app. right. left.
      + intros s Hs Es. pose proof Hnd as H. rewrite E, map_app in H. apply NoDup_app in H as (_ & H & _). apply (H (sp_id s)).
        * apply elem_of_list_fmap. eauto.
        * rewrite Es. cbn. left.
  Qed.
End include.

(** ** The finished tree *)
Section final.
  Context (zero_time : Z) (spans : list fspan) (Hwf : well_formed spans).
  Definition T := layout_tree zero_time spans.
  Definition kids (x : Z) : list Z := match T !! x with Some i => concat (in_rows i) | None => [] end.

  Lemma final_entry x : entry spans x <-> exists i, T !! x = Some i.
  Proof.
    pose proof (span_tree_ok zero_time spans (wf_ids _ Hwf)) as Hok.
    pose proof (include_all spans (span_tree zero_time spans) Hok (wf_ids _ Hwf) (wf_times _ Hwf) spans [] (eq_sym (app_nil_r spans)) x) as H.
    fold (layout_tree zero_time spans) in H. fold T in H. pose proof (Hok x) as H2. destruct (T !! x) as [i|].
    - destruct H as (i0 & E & _). rewrite E in H2. split; [eauto|]. intros _. apply H2.
    - rewrite H in H2. split; [contradiction|intros (i & E); discriminate].
  Qed.
  Lemma final_rows x i : T !! x = Some i -> rows_ok spans spans x (in_rows i).
  Proof.
    pose proof (span_tree_ok zero_time spans (wf_ids _ Hwf)) as Hok.
    pose proof (include_all spans (span_tree zero_time spans) Hok (wf_ids _ Hwf) (wf_times _ Hwf) spans [] (eq_sym (app_nil_r spans)) x) as H.
    fold (layout_tree zero_time spans) in H. fold T in H. intros E. rewrite E in H. destruct H as (i0 & _ & _ & _ & _ & H). exact H.
  Qed.
  (** An entry has Parent 0 iff no span with that id has a parent. *)
  Lemma final_root x i : T !! x = Some i -> in_parent i = 0 <-> forall s, s ∈ spans -> sp_id s = x -> sp_parent s = None.
  Proof.
    pose proof (span_tree_ok zero_time spans (wf_ids _ Hwf)) as Hok.
    pose proof (include_all spans (span_tree zero_time spans) Hok (wf_ids _ Hwf) (wf_times _ Hwf) spans [] (eq_sym (app_nil_r spans)) x) as H.
    fold (layout_tree zero_time spans) in H. fold T in H. intros E. rewrite E in H. destruct H as (i0 & E0 & Ep & _).
    pose proof (Hok x) as H2. rewrite E0 in H2. destruct H2 as (_ & _ & _ & H3 & H4). rewrite Ep. split.
    - intros Hz s Hs Ex. destruct (sp_parent s) as [p|] eqn:Esp; [|reflexivity]. destruct (H3 s Hs Ex) as [H5 _]. rewrite Esp in H5. cbn in H5.
      destruct (wf_parent _ Hwf s p Hs Esp). congruence.
    - intros Hs. destruct (decide (x ∈ map sp_id spans)) as [Hx|Hno].
      + apply elem_of_list_fmap in Hx as (s & Ex & Hin). symmetry in Ex. destruct (H3 s Hin Ex) as [H5 _]. rewrite (Hs s Hin Ex) in H5. exact H5.
      + apply H4. intros s Hin Ex. apply Hno. apply elem_of_list_fmap. exists s. auto.
  Qed.
  Lemma kids_spec x y : y ∈ kids x <-> exists s, s ∈ spans /\ sp_id s = y /\ sp_parent s = Some x.
  Proof.
    unfold kids. destruct (T !! x) as [i|] eqn:E.
    - destruct (final_rows x i E) as (H & _). rewrite H, elem_of_list_fmap. split.
      + intros (s & -> & Hs). apply elem_of_list_In, filter_In in Hs as [Hs Hc]. exists s. split; [apply elem_of_list_In, Hs|]. split; [reflexivity|].
        unfold is_child in Hc. destruct (sp_parent s) as [p|]; [|discriminate]. apply Z.eqb_eq in Hc. congruence.
      + intros (s & Hs & <- & Hp). exists s. split; [reflexivity|]. apply elem_of_list_In, filter_In. split; [apply elem_of_list_In, Hs|].
        unfold is_child. rewrite Hp. apply Z.eqb_refl.
    - split; [intros H; inversion H|]. intros (s & Hs & _ & Hp). exfalso.
      destruct (proj1 (final_entry x)) as (i & Hi); [exists s; auto|congruence].
  Qed.
  Lemma kids_nodup x : NoDup (kids x).
  Proof.
    unfold kids. destruct (T !! x) as [i|] eqn:E; [|constructor].
    destruct (final_rows x i E) as (H & _). rewrite H. pose proof (wf_ids _ Hwf) as Hnd. clear -Hnd. induction spans as [|s l IH]; cbn; [constructor|].
    cbn in Hnd. apply NoDup_cons in Hnd as [Hn Hl]. destruct (is_child x s); [|auto]. cbn. apply NoDup_cons. split; [|auto].
    intros H. apply Hn. apply elem_of_list_fmap in H as (t & Et & Ht). apply elem_of_list_In, filter_In in Ht as [Ht _].
    apply elem_of_list_fmap. exists t. split; [exact Et|apply elem_of_list_In, Ht].
  Qed.

  (** ** Descendants *)
  Inductive desc (x : Z) : Z -> Prop :=
  | desc_refl : desc x x
  | desc_step y z : desc x y -> z ∈ kids y -> desc x z.
  Lemma kids_parent x x' y : y ∈ kids x -> y ∈ kids x' -> x = x'.
  Proof.
    intros H H'. apply kids_spec in H as (s & Hs & E & P), H' as (s' & Hs' & E' & P').
    assert (s = s') as -> by (apply (span_unique spans (wf_ids _ Hwf)); congruence). congruence.
  Qed.
  Lemma kid_span x y : y ∈ kids x -> exists s, s ∈ spans /\ sp_id s = y.
  Proof. intros H. apply kids_spec in H as (s & Hs & E & _). eauto. Qed.
  Lemma desc_left x y z : y ∈ kids x -> desc y z -> desc x z.
  Proof. intros Hy H. induction H as [|z w _ IH Hw]; [exact (desc_step x x y (desc_refl x) Hy)|exact (desc_step x z w IH Hw)]. Qed.
  Lemma desc_cut x y p : desc x y -> x <> y -> y ∈ kids p -> desc x p.
  Proof. intros H Hne Hy. destruct H as [|y z H Hz]; [contradiction|]. rewrite (kids_parent p y z Hy Hz). exact H. Qed.
  Lemma rank_ex : exists rank : Z -> nat, forall x y, y ∈ kids x -> (rank x < rank y)%nat.
  Proof.
    destruct (wf_acyclic _ Hwf) as (rank & Hr). exists rank. intros x y Hy. apply kids_spec in Hy as (s & Hs & <- & P). exact (Hr s x Hs P).
  Qed.
  Lemma desc_rank rank x y : (forall x y, y ∈ kids x -> (rank x < rank y)%nat) -> desc x y -> (rank x <= rank y)%nat.
  Proof. intros Hr H. induction H as [|y z _ IH Hz]; [lia|]. specialize (Hr y z Hz). lia. Qed.
  Lemma desc_not_up x c : c ∈ kids x -> ~ desc c x.
  Proof.
    intros Hc H. destruct rank_ex as (rank & Hr). pose proof (desc_rank rank c x Hr H). specialize (Hr x c Hc). lia.
  Qed.
  Lemma desc_linear a b y : desc a y -> desc b y -> desc a b \/ desc b a.
  Proof.
    intros Ha. induction Ha as [|y z Ha IH Hz]; intros Hb; [auto|].
    destruct (Z.eq_dec b z) as [->|Hne]; [left; exact (desc_step a y z Ha Hz)|]. apply IH. exact (desc_cut b z y Hb Hne Hz).
  Qed.
  Lemma desc_siblings x c d y : c ∈ kids x -> d ∈ kids x -> desc c y -> desc d y -> c = d.
  Proof.
    intros Hc Hd Hcy Hdy. destruct (Z.eq_dec c d) as [|Hne]; [assumption|]. exfalso.
    destruct (desc_linear c d y Hcy Hdy) as [H|H].
    - exact (desc_not_up x c Hc (desc_cut c d x H Hne Hd)).
    - exact (desc_not_up x d Hd (desc_cut d c x H (not_eq_sym Hne) Hc)).
  Qed.
  Lemma desc_within x y sx sy : desc x y -> sx ∈ spans -> sy ∈ spans -> sp_id sx = x -> sp_id sy = y ->
    sp_start sx <= sp_start sy /\ sp_finish sy <= sp_finish sx.
  Proof.
    intros H Hsx Hsy Ex. revert sy Hsy. induction H as [|y z H IH Hz]; intros sy Hsy Ey.
    - assert (sx = sy) as -> by (apply (span_unique spans (wf_ids _ Hwf)); congruence). lia.
    - apply kids_spec in Hz as (s & Hs & Es & P). assert (s = sy) as -> by (apply (span_unique spans (wf_ids _ Hwf)); congruence).
      assert (exists sm, sm ∈ spans /\ sp_id sm = y) as (sm & Hsm & Em).
      { destruct H as [|w v _ Hv]; [eauto|exact (kid_span w v Hv)]. }
      destruct (IH sm Hsm Em). destruct (wf_nested _ Hwf sy sm Hsy Hsm); [congruence|]. lia.
  Qed.

  (** ** computeRow *)
  Definition disjoint_rows (w : list (Z * nat)) : Prop :=
    forall y z r sy sz, (y, r) ∈ w -> (z, r) ∈ w -> y <> z -> sy ∈ spans -> sz ∈ spans -> sp_id sy = y -> sp_id sz = z -> apart sy sz.
  Definition closed_rows (w : list (Z * nat)) : Prop :=
    forall y r z, (y, r) ∈ w -> z ∈ kids y -> exists r', (z, r') ∈ w /\ (r < r')%nat.
  Record row_ok (id : Z) (start h : nat) (w : list (Z * nat)) : Prop := RowOk {
    ro_height : (1 <= h)%nat;
    ro_range : forall y r, (y, r) ∈ w -> (start <= r < start + h)%nat /\ desc id y;
    ro_self : (id, start) ∈ w;
    ro_nodup : NoDup (map fst w);
    ro_apart : disjoint_rows w;
    ro_closed : closed_rows w
  }.
  Definition rec_ok (rec : Z -> nat -> option (nat * list (Z * nat))) : Prop :=
    forall id start h w, rec id start = Some (h, w) -> row_ok id start h w.
  Record group_res (x : Z) (g : list Z) (used h : nat) (w : list (Z * nat)) : Prop := GroupRes {
    gr_range : forall y r, (y, r) ∈ w -> (used <= r < used + h)%nat /\ exists c, c ∈ g /\ desc c y;
    gr_self : forall c, c ∈ g -> (c, used) ∈ w;
    gr_nodup : NoDup (map fst w);
    gr_apart : disjoint_rows w;
    gr_closed : closed_rows w
  }.
  Lemma closed_app w w' : closed_rows w -> closed_rows w' -> closed_rows (w ++ w').
  Proof.
    intros H H' y r z Hy Hz. apply elem_of_app in Hy as [Hy|Hy].
    - destruct (H y r z Hy Hz) as (r' & A & B). exists r'. rewrite elem_of_app. auto.
    - destruct (H' y r z Hy Hz) as (r' & A & B). exists r'. rewrite elem_of_app. auto.
  Qed.
  Lemma disjoint_app w w' : disjoint_rows w -> disjoint_rows w' ->
    (forall y z r sy sz, (y, r) ∈ w -> (z, r) ∈ w' -> sy ∈ spans -> sz ∈ spans -> sp_id sy = y -> sp_id sz = z -> apart sy sz) ->
    disjoint_rows (w ++ w').
  Proof.
    intros H H' Hx y z r sy sz Hy Hz Hne Hsy Hsz Ey Ez. apply elem_of_app in Hy as [Hy|Hy], Hz as [Hz|Hz].
    - exact (H y z r sy sz Hy Hz Hne Hsy Hsz Ey Ez).
    - exact (Hx y z r sy sz Hy Hz Hsy Hsz Ey Ez).
    - destruct (Hx z y r sz sy Hz Hy Hsz Hsy Ez Ey); [right|left]; assumption.
    - exact (H' y z r sy sz Hy Hz Hne Hsy Hsz Ey Ez).
  Qed.
  Lemma nodup_app_fst (w w' : list (Z * nat)) : NoDup (map fst w) -> NoDup (map fst w') ->
    (forall y r r', (y, r) ∈ w -> (y, r') ∈ w' -> False) -> NoDup (map fst (w ++ w')).
  Proof.
    intros H H' Hx. rewrite map_app. apply NoDup_app. split_and!; auto. intros y Hy Hy'.
    apply elem_of_list_fmap in Hy as ([y1 r1] & -> & Hy1), Hy' as ([y2 r2] & E & Hy2). cbn in E. subst y2. exact (Hx y1 r1 r2 Hy1 Hy2).
  Qed.
  Lemma group_ok_tail c g : group_ok spans (c :: g) -> group_ok spans g /\ forall d, d ∈ g -> before spans c d.
  Proof.
    intros H. split.
    - intros i j a b Hij Hi Hj. apply (H (S i) (S j) a b); [lia|exact Hi|exact Hj].
    - intros d Hd. apply elem_of_list_lookup in Hd as (j & Hj). apply (H 0%nat (S j) c d); [lia|reflexivity|exact Hj].
  Qed.
  Lemma compute_group_ok rec x g used h w : rec_ok rec -> NoDup g -> (forall c, c ∈ g -> c ∈ kids x) -> group_ok spans g ->
    compute_group rec g used = Some (h, w) -> group_res x g used h w.
  Proof.
    intros Hrec. revert h w. induction g as [|c g IH]; intros h w Hnd Hk Hg E; cbn [compute_group] in E.
    - injection E as <- <-. constructor.
      + intros y r H. inversion H.
      + intros c H. inversion H.
      + constructor.
      + intros y z r sy sz H. inversion H.
      + intros y r z H. inversion H.
    - destruct (rec c used) as [[h1 w1]|] eqn:E1; [|discriminate]. destruct (compute_group rec g used) as [[h2 w2]|] eqn:E2; [|discriminate].
      injection E as <- <-. apply NoDup_cons in Hnd as [Hc Hnd]. destruct (group_ok_tail c g Hg) as [Hg' Hb].
      assert (Hk' : forall d, d ∈ g -> d ∈ kids x) by (intros d Hd; apply Hk; right; exact Hd).
      destruct (IH h2 w2 Hnd Hk' Hg' eq_refl) as [G1 G2 G3 G4 G5]. destruct (Hrec c used h1 w1 E1) as [R1 R2 R3 R4 R5 R6].
      assert (Hkc : c ∈ kids x) by (apply Hk; left).
      constructor.
      + intros y r Hy. apply elem_of_app in Hy as [Hy|Hy].
        * destruct (R2 y r Hy). split; [lia|]. exists c. split; [left|assumption].
        * destruct (G1 y r Hy) as (A & d & Hd & D). split; [lia|]. exists d. split; [right; exact Hd|exact D].
      + intros d Hd. rewrite elem_of_app. apply elem_of_cons in Hd as [->|Hd]; [left; exact R3|right; exact (G2 d Hd)].
      + apply nodup_app_fst; auto. intros y r r' Hy Hy'. destruct (R2 y r Hy) as [_ D1]. destruct (G1 y r' Hy') as (_ & d & Hd & D2).
        assert (c = d) as -> by exact (desc_siblings x c d y Hkc (Hk' d Hd) D1 D2). contradiction.
      + apply disjoint_app; auto. intros y z r sy sz Hy Hz Hsy Hsz Ey Ez. left.
        destruct (R2 y r Hy) as [_ D1]. destruct (G1 z r Hz) as (_ & d & Hd & D2).
        destruct (kid_span x c Hkc) as (sc & Hsc & Ec). destruct (kid_span x d (Hk' d Hd)) as (sd & Hsd & Ed).
        pose proof (Hb d Hd sc sd Hsc Hsd Ec Ed). destruct (desc_within c y sc sy D1 Hsc Hsy Ec Ey). destruct (desc_within d z sd sz D2 Hsd Hsz Ed Ez). lia.
      + apply closed_app; auto.
  Qed.
  Record groups_res (x : Z) (gs : list (list Z)) (used used' : nat) (w : list (Z * nat)) : Prop := GroupsRes {
    gsr_used : (used <= used')%nat;
    gsr_range : forall y r, (y, r) ∈ w -> (used <= r < used')%nat /\ exists c, c ∈ concat gs /\ desc c y;
    gsr_self : forall c, c ∈ concat gs -> exists r, (c, r) ∈ w;
    gsr_nodup : NoDup (map fst w);
    gsr_apart : disjoint_rows w;
    gsr_closed : closed_rows w
  }.
  Lemma compute_groups_ok rec x gs : forall used used' w, rec_ok rec -> NoDup (concat gs) -> (forall c, c ∈ concat gs -> c ∈ kids x) ->
    Forall (group_ok spans) gs -> compute_groups rec gs used = Some (used', w) -> groups_res x gs used used' w.
  Proof.
    intros used used' w Hrec. revert used used' w. induction gs as [|g gs IH]; intros used used' w Hnd Hk Hg E; cbn [compute_groups] in E.
    - injection E as <- <-. constructor.
      + lia.
      + intros y r H. inversion H.
      + intros c H. inversion H.
      + constructor.
      + intros y z r sy sz H. inversion H.
      + intros y r z H. inversion H.
    - destruct (compute_group rec g used) as [[h1 w1]|] eqn:E1; [|discriminate].
      destruct (compute_groups rec gs (used + h1)) as [[u2 w2]|] eqn:E2; [|discriminate]. injection E as <- <-.
      cbn [concat] in Hnd, Hk. apply NoDup_app in Hnd as (N1 & N2 & N3). inversion Hg as [|? ? Hg1 Hg2]; subst.
      destruct (compute_group_ok rec x g used h1 w1 Hrec N1 (fun c H => Hk c (proj2 (elem_of_app g (concat gs) c) (or_introl H))) Hg1 E1) as [G1 G2 G3 G4 G5].
      destruct (IH (used + h1)%nat u2 w2 N3 (fun c H => Hk c (proj2 (elem_of_app g (concat gs) c) (or_intror H))) Hg2 E2) as [S0 S1 S2 S3 S4 S5].
      constructor.
      + lia.
      + intros y r Hy. cbn [concat]. apply elem_of_app in Hy as [Hy|Hy].
        * destruct (G1 y r Hy) as (A & c & Hc & D). split; [lia|]. exists c. rewrite elem_of_app. auto.
        * destruct (S1 y r Hy) as (A & c & Hc & D). split; [lia|]. exists c. rewrite elem_of_app. auto.
      + intros c Hc. cbn [concat] in Hc. apply elem_of_app in Hc as [Hc|Hc].
        * exists used. apply elem_of_app. auto.
        * destruct (S2 c Hc) as (r & Hr). exists r. apply elem_of_app. auto.
      + apply nodup_app_fst; auto. intros y r r' Hy Hy'. destruct (G1 y r Hy) as (_ & c & Hc & D1). destruct (S1 y r' Hy') as (_ & d & Hd & D2).
        assert (c = d) as ->. { apply (desc_siblings x c d y); auto; apply Hk, elem_of_app; auto. } exact (N2 d Hc Hd).
      + apply disjoint_app; auto. intros y z r sy sz Hy Hz. destruct (G1 y r Hy). destruct (S1 z r Hz). lia.
      + apply closed_app; auto.
  Qed.
  Lemma compute_row_ok fuel : rec_ok (compute_row fuel T).
  Proof.
    induction fuel as [|fuel IH]; intros id start h w E; [discriminate|]. cbn [compute_row] in E.
    destruct (T !! id) as [i|] eqn:Ei; [|discriminate].
    destruct (compute_groups (compute_row fuel T) (in_rows i) (start + 1)) as [[used w1]|] eqn:Eg; [|discriminate].
    injection E as <- <-. destruct (final_rows id i Ei) as (P1 & P2 & _).
    assert (Ek : kids id = concat (in_rows i)) by (unfold kids; rewrite Ei; reflexivity).
    destruct (compute_groups_ok (compute_row fuel T) id (in_rows i) (start + 1)%nat used w1 IH) as [S0 S1 S2 S3 S4 S5]; auto.
    { rewrite <- Ek. apply kids_nodup. }
    { intros c Hc. rewrite Ek. exact Hc. }
    assert (Hw : forall y r, (y, r) ∈ w1 -> (start + 1 <= r < used)%nat /\ desc id y /\ y <> id).
    { intros y r Hy. destruct (S1 y r Hy) as (A & c & Hc & D). rewrite <- Ek in Hc. split; [exact A|]. split; [exact (desc_left id c y Hc D)|].
      intros ->. exact (desc_not_up id c Hc D). }
    constructor.
    - lia.
    - intros y r Hy. apply elem_of_cons in Hy as [Hy|Hy].
      + injection Hy as -> ->. split; [lia|apply desc_refl].
      + destruct (Hw y r Hy) as (A & B & _). split; [lia|exact B].
    - left.
    - cbn [map fst]. apply NoDup_cons. split; [|exact S3]. intros H. apply elem_of_list_fmap in H as ([y r] & E & Hy). cbn in E. subst y.
      destruct (Hw id r Hy) as (_ & _ & N). congruence.
    - intros y z r sy sz Hy Hz Hne. apply elem_of_cons in Hy as [Hy|Hy], Hz as [Hz|Hz].
      + congruence.
      + injection Hy as -> ->. destruct (Hw z start Hz). lia.
      + injection Hz as -> ->. destruct (Hw y start Hy). lia.
      + exact (S4 y z r sy sz Hy Hz Hne).
    - intros y r z Hy Hz. apply elem_of_cons in Hy as [Hy|Hy].
      + injection Hy as -> ->. rewrite Ek in Hz. destruct (S2 z Hz) as (r' & Hr'). exists r'. split; [right; exact Hr'|].
        destruct (Hw z r' Hr'). lia.
      + destruct (S5 y r z Hy Hz) as (r' & A & B). exists r'. split; [right; exact A|exact B].
  Qed.

  (** ** The roots *)
  Definition is_root (x : Z) : Prop := exists i, T !! x = Some i /\ in_parent i = 0.
  Lemma root_not_kid x y : is_root x -> x ∉ kids y.
  Proof.
    intros (i & Hi & H0) Hk. apply kids_spec in Hk as (s & Hs & Ex & P). rewrite (proj1 (final_root x i Hi) H0 s Hs Ex) in P. discriminate.
  Qed.
  Lemma desc_root a b : desc a b -> is_root b -> a = b.
  Proof. intros H Hb. destruct H as [|y z _ Hz]; [reflexivity|]. destruct (root_not_kid z y Hb Hz). Qed.
  Record roots_res (order : list Z) (used used' : nat) (w : list (Z * nat)) : Prop := RootsRes {
    rr_used : (used <= used')%nat;
    rr_range : forall y r, (y, r) ∈ w -> (used <= r < used')%nat /\ exists c, c ∈ order /\ is_root c /\ desc c y;
    rr_self : forall c, c ∈ order -> is_root c -> exists r, (c, r) ∈ w;
    rr_nodup : NoDup (map fst w);
    rr_apart : disjoint_rows w;
    rr_closed : closed_rows w
  }.
  Lemma compute_roots_ok fuel order : forall used used' w, NoDup order ->
    compute_roots fuel T order used = Some (w, used') -> roots_res order used used' w.
  Proof.
    induction order as [|x order IH]; intros used used' w Hnd E; cbn [compute_roots] in E.
    - injection E as <- <-. constructor.
      + lia.
      + intros y r H. inversion H.
      + intros c H. inversion H.
      + constructor.
      + intros y z r sy sz H. inversion H.
      + intros y r z H. inversion H.
    - apply NoDup_cons in Hnd as [Hx Hnd]. destruct (T !! x) as [i|] eqn:Ei; [|discriminate].
      destruct (Z.eqb_spec (in_parent i) 0) as [E0|E0].
      + destruct (compute_row fuel T x used) as [[h w1]|] eqn:E1; [|discriminate].
        destruct (compute_roots fuel T order (used + h)) as [[w2 u2]|] eqn:E2; [|discriminate]. injection E as <- <-.
        destruct (compute_row_ok fuel x used h w1 E1) as [R1 R2 R3 R4 R5 R6].
        destruct (IH (used + h)%nat u2 w2 Hnd E2) as [S0 S1 S2 S3 S4 S5].
        assert (Hroot : is_root x) by (exists i; auto).
        constructor.
        * lia.
        * intros y r Hy. apply elem_of_app in Hy as [Hy|Hy].
          -- destruct (R2 y r Hy). split; [lia|]. exists x. split; [left|auto].
          -- destruct (S1 y r Hy) as (A & c & Hc & D). split; [lia|]. exists c. split; [right; exact Hc|exact D].
        * intros c Hc Hr. apply elem_of_cons in Hc as [->|Hc]; [exists used; apply elem_of_app; auto|].
          destruct (S2 c Hc Hr) as (r & H). exists r. apply elem_of_app. auto.
        * apply nodup_app_fst; auto. intros y r r' Hy Hy'. destruct (R2 y r Hy) as [_ D1]. destruct (S1 y r' Hy') as (_ & c & Hc & Hcr & D2).
          assert (x = c) as ->; [|contradiction]. destruct (desc_linear x c y D1 D2) as [H|H]; [exact (desc_root x c H Hcr)|symmetry; exact (desc_root c x H Hroot)].
        * apply disjoint_app; auto. intros y z r sy sz Hy Hz. destruct (R2 y r Hy). destruct (S1 z r Hz). lia.
        * apply closed_app; auto.
      + destruct (IH used used' w Hnd E) as [S0 S1 S2 S3 S4 S5]. constructor; auto.
        * intros y r Hy. destruct (S1 y r Hy) as (A & c & Hc & D). split; [exact A|]. exists c. split; [right; exact Hc|exact D].
        * intros c Hc Hr. apply elem_of_cons in Hc as [->|Hc]; [|auto]. destruct Hr as (j & Hj & J0). congruence.
  Qed.

  (** ** Everything together *)
  Lemma all_placed order used used' w : map_order spans order -> roots_res order used used' w ->
    forall x, entry spans x -> exists r, (x, r) ∈ w.
  Proof.
    intros [_ Ho] [_ _ S2 _ _ S5]. destruct rank_ex as (rank & Hr).
    cut (forall n x, (rank x < n)%nat -> entry spans x -> exists r, (x, r) ∈ w). { intros H x. apply (H (S (rank x))). lia. }
    induction n as [|n IH]; [lia|]. intros x Hn Hx. destruct (proj1 (final_entry x) Hx) as (i & Hi).
    destruct (Z.eq_dec (in_parent i) 0) as [E0|E0].
    - apply S2; [apply Ho, Hx|]. exists i. auto.
    - assert (exists p, x ∈ kids p) as (p & Hp).
      { destruct (decide (x ∈ map sp_id (List.filter (fun s => match sp_parent s with Some _ => true | None => false end) spans))) as [Hin|Hno].
        - apply elem_of_list_fmap in Hin as (s & -> & Hs). apply elem_of_list_In, filter_In in Hs as [Hs Hps].
          destruct (sp_parent s) as [p|] eqn:Ep; [|discriminate]. exists p. apply kids_spec. exists s. split; [apply elem_of_list_In, Hs|auto].
        - destruct E0. apply (final_root x i Hi). intros s Hs Ex. destruct (sp_parent s) as [p|] eqn:Ep; [|reflexivity]. destruct Hno.
          apply elem_of_list_fmap. exists s. split; [auto|]. apply elem_of_list_In, filter_In. split; [apply elem_of_list_In, Hs|]. rewrite Ep. reflexivity. }
      specialize (Hr p x Hp). destruct (IH p) as (r & Hw); [lia| |].
      { apply kids_spec in Hp as (s & Hs & _ & P). exists s. auto. }
      destruct (S5 p r x Hw Hp) as (r' & H & _). eauto.
  Qed.
  (** Enough fuel: one more than the length of the longest chain. *)
  Lemma groups_total rec gs : (forall c used, c ∈ concat gs -> rec c used <> None) -> forall used, compute_groups rec gs used <> None.
  Proof.
    induction gs as [|g gs IH]; intros H used; cbn [compute_groups]; [discriminate|].
    assert (Hg : compute_group rec g used <> None).
    { assert (Hc : forall c, c ∈ g -> rec c used <> None) by (intros c Hc; apply H; cbn; apply elem_of_app; auto).
      clear -Hc. induction g as [|c g IH]; cbn [compute_group]; [discriminate|].
      assert (rec c used <> None) by (apply Hc; left). destruct (rec c used) as [[h w]|]; [|contradiction].
      destruct (compute_group rec g used) as [[h' w']|]; [discriminate|]. apply IH. intros d Hd. apply Hc. right. exact Hd. }
    destruct (compute_group rec g used) as [[h w]|]; [|contradiction].
    specialize (IH (fun c u Hc => H c u (proj2 (elem_of_app g (concat gs) c) (or_intror Hc))) (used + h)%nat).
    destruct (compute_groups rec gs (used + h)) as [[? ?]|]; [discriminate|contradiction].
  Qed.
  Lemma row_total rank M : (forall x y, y ∈ kids x -> (rank x < rank y)%nat) -> (forall x, entry spans x -> (rank x <= M)%nat) ->
    forall fuel x start, entry spans x -> (M < fuel + rank x)%nat -> compute_row fuel T x start <> None.
  Proof.
    intros Hr HM. induction fuel as [|fuel IH]; intros x start Hx Hf; [specialize (HM x Hx); lia|]. cbn [compute_row].
    destruct (proj1 (final_entry x) Hx) as (i & Hi). rewrite Hi.
    assert (compute_groups (compute_row fuel T) (in_rows i) (start + 1) <> None) as Hg.
    { apply groups_total. intros c used Hc. assert (c ∈ kids x) as Hk by (unfold kids; rewrite Hi; exact Hc).
      specialize (Hr x c Hk). apply IH; [|lia]. apply kids_spec in Hk as (s & Hs & E & _). exists s. auto. }
    destruct (compute_groups (compute_row fuel T) (in_rows i) (start + 1)) as [[? ?]|]; [discriminate|contradiction].
  Qed.
  Lemma rank_bounded (rank : Z -> nat) : (forall x y, y ∈ kids x -> (rank x < rank y)%nat) -> exists M, forall x, entry spans x -> (rank x <= M)%nat.
  Proof.
    intros Hr. exists (max_list (map (fun s => rank (sp_id s)) spans)).
    assert (H : forall s, s ∈ spans -> (rank (sp_id s) <= max_list (map (fun s => rank (sp_id s)) spans))%nat).
    { intros s Hs. apply max_list_elem_of_le. apply elem_of_list_fmap. eauto. }
    intros x (s & Hs & [<-|P]); [auto|]. assert (sp_id s ∈ kids x) as Hk by (apply kids_spec; eauto).
    specialize (Hr x _ Hk). specialize (H s Hs). lia.
  Qed.
  Lemma layout_total order : map_order spans order -> exists N, forall fuel, (N <= fuel)%nat -> layout zero_time fuel order spans <> None.
  Proof.
    intros [_ Ho]. destruct rank_ex as (rank & Hr). destruct (rank_bounded rank Hr) as (M & HM). exists (S M). intros fuel Hf.
    unfold layout. fold T. assert (forall used, compute_roots fuel T order used <> None) as H.
    { assert (Hall : forall x, x ∈ order -> entry spans x) by (intros x; apply Ho). clear Ho.
      induction order as [|x order IH]; intros used; cbn [compute_roots]; [discriminate|].
      assert (entry spans x) as Hx by (apply Hall; left). destruct (proj1 (final_entry x) Hx) as (i & Hi). rewrite Hi.
      assert (IH' : forall used, compute_roots fuel T order used <> None) by (apply IH; intros y Hy; apply Hall; right; exact Hy).
      destruct (in_parent i =? 0); [|apply IH'].
      assert (compute_row fuel T x used <> None) as Hc by (apply (row_total rank M Hr HM); [exact Hx|lia]).
      destruct (compute_row fuel T x used) as [[h w]|]; [|contradiction]. specialize (IH' (used + h)%nat).
      destruct (compute_roots fuel T order (used + h)) as [[? ?]|]; [discriminate|contradiction]. }
    specialize (H 1%nat). destruct (compute_roots fuel T order 1) as [[? ?]|]; [discriminate|contradiction].
  Qed.
End final.

Lemma row_of_spec w x r : NoDup (map fst w) -> (x, r) ∈ w -> row_of w x = r.
Proof.
  unfold row_of. intros Hnd Hin. apply elem_of_list_split in Hin as (a & b & ->).
  rewrite fold_left_app. cbn [fold_left fst snd]. rewrite Z.eqb_refl.
  rewrite map_app in Hnd. cbn [map fst] in Hnd. apply NoDup_app in Hnd as (_ & _ & Hnd). apply NoDup_cons in Hnd as [Hn _].
  clear -Hn. induction b as [|[y q] b IH]; cbn [fold_left fst snd]; [reflexivity|].
  destruct (Z.eqb_spec y x) as [->|Hne]; [destruct Hn; left|]. apply IH. intros H. apply Hn. right. exact H.
Qed.

Lemma layout_spec zero_time spans fuel order w rows :
  well_formed spans -> map_order spans order -> layout zero_time fuel order spans = Some (w, rows) ->
  (forall s, s ∈ spans -> (1 <= row_of w (sp_id s) < rows)%nat) /\
  (forall s t, s ∈ spans -> t ∈ spans -> s <> t -> row_of w (sp_id s) = row_of w (sp_id t) -> apart s t) /\
  (forall s p, s ∈ spans -> p ∈ spans -> sp_parent s = Some (sp_id p) -> (row_of w (sp_id p) < row_of w (sp_id s))%nat).
Proof.
  intros Hwf Ho E. unfold layout in E. fold (T zero_time spans) in E.
  destruct (compute_roots fuel (T zero_time spans) order 1) as [[w' used]|] eqn:Er; [|discriminate]. injection E as -> <-.
  pose proof (compute_roots_ok zero_time spans Hwf fuel order 1%nat used w (proj1 Ho) Er) as R.
  pose proof (all_placed zero_time spans Hwf order 1%nat used w Ho R) as Hall. destruct R as [S0 S1 S2 S3 S4 S5].
  assert (Hrow : forall s, s ∈ spans -> (sp_id s, row_of w (sp_id s)) ∈ w).
  { intros s Hs. destruct (Hall (sp_id s)) as (r & Hr); [exists s; auto|]. rewrite (row_of_spec w _ r S3 Hr). exact Hr. }
  split_and!.
  - intros s Hs. destruct (S1 _ _ (Hrow s Hs)) as [H _]. lia.
  - intros s t Hs Ht Hne Er'. pose proof (Hrow t Ht) as H. rewrite <- Er' in H.
    apply (S4 (sp_id s) (sp_id t) (row_of w (sp_id s)) s t (Hrow s Hs) H); auto.
    intros E. apply Hne. exact (span_unique spans (wf_ids _ Hwf) s t Hs Ht E).
  - intros s p Hs Hp P. destruct (S5 (sp_id p) _ (sp_id s) (Hrow p Hp)) as (r' & Hr' & Hlt).
    { apply (kids_spec zero_time spans Hwf). eauto. }
    rewrite (row_of_spec w _ r' S3 Hr'). exact Hlt.
Qed.
