(** Lemmas about SpanCollector and spanFinder. *)
From Verif Require Import Base Conc ScopeSpec CollectModel CollectSpec.
Local Open Scope Z_scope.

(** Counting threads. *)
Definition tally {A} (p : A -> bool) (l : list A) : Z := Z.of_nat (length (List.filter p l)).
Definition b2z (b : bool) : Z := if b then 1 else 0.
Lemma tally_cons {A} (p : A -> bool) x l : tally p (x :: l) = b2z (p x) + tally p l.
Proof. unfold tally, b2z. cbn. destruct (p x); cbn [length]; lia. Qed.
Lemma tally_app {A} (p : A -> bool) l l' : tally p (l ++ l') = tally p l + tally p l'.
Proof. induction l as [|x l IH]; [reflexivity|]. cbn [app]. rewrite !tally_cons, IH. lia. Qed.
Lemma tally_insert {A} (p : A -> bool) l i x y : l !! i = Some x -> tally p (<[i := y]> l) = tally p l - b2z (p x) + b2z (p y).
Proof.
  revert i. induction l as [|z l IH]; intros i Hi; [discriminate Hi|]. destruct i as [|i]; cbn in Hi.
  - injection Hi as ->. cbn [insert list_insert]. rewrite !tally_cons. lia.
  - change (<[S i := y]> (z :: l)) with (z :: <[i := y]> l). rewrite !tally_cons, (IH _ Hi). lia.
Qed.
Lemma tally_nonneg {A} (p : A -> bool) l : 0 <= tally p l.
Proof. unfold tally. lia. Qed.

(** ** The walk *)
Section walk.
  Context (info : nat -> sinfo) (m : gmap (option Z) (list fin)) (P : fin -> Prop) (N : nat) (r0 : fin).
  Context (Hids : distinct_ids info).
  Context (Hm : forall k f, f ∈ default [] (m !! k) <-> P f /\ si_parent (info (fs_span f)) = k).
  Context (Hnd : forall k, NoDup (default [] (m !! k))).
  Context (HN : forall f, P f -> (fs_span f < N)%nat).
  Context (Hsame : forall x y, P x -> P y -> fs_span x = fs_span y -> x = y).
  Context (Hr0 : forall f, P f -> fs_span f <> fs_span r0) (HrN : (fs_span r0 < N)%nat).

  Local Notation conn := (connected info P).
  Local Notation kids f := (default [] (m !! Some (si_id (info (fs_span f))))).

  Lemma conn_kid r c x : c ∈ kids r -> conn c x -> conn r x.
  Proof.
    intros Hc. apply Hm in Hc as [HP Hc]. induction 1 as [|p f Hp IH HP' Hf].
    - eapply conn_child; [apply conn_root|exact HP|exact Hc].
    - eapply conn_child; eassumption.
  Qed.
  Lemma conn_split r x : conn r x -> x = r \/ exists c, c ∈ kids r /\ conn c x.
  Proof.
    induction 1 as [|p f Hp IH HP Hf]; [auto|]. right. destruct IH as [->|(c & Hc & Hx)].
    - exists f. split; [apply Hm; auto|apply conn_root].
    - exists c. split; [exact Hc|]. eapply conn_child; eassumption.
  Qed.
  Lemma conn_P c x : P c -> conn c x -> P x.
  Proof. intros Hc Hx. inversion Hx; subst; assumption. Qed.

  (** No cycle can be reached from the root. *)
  Lemma acyclic f : conn r0 f -> forall c x, c ∈ kids f -> conn c x -> fs_span x <> fs_span f.
  Proof.
    induction 1 as [|p f Hp IH HP Hf]; intros c x Hc Hx E.
    - apply Hm in Hc as [Hc _]. apply (Hr0 x); [eapply conn_P; eassumption|exact E].
    - pose proof (proj1 (Hm _ _) Hc) as [HcP Hcf]. assert (x = f) by (apply Hsame; [eapply conn_P; eassumption|exact HP|exact E]). subst x.
      assert (Hfp : f ∈ kids p) by (apply Hm; auto).
      inversion Hx as [E'|q f' Hq HP' Hqf E']; subst.
      + (* f is its own parent *) eapply (IH f f Hfp); [apply conn_root|]. apply Hids. congruence.
      + eapply (IH f q Hfp); [eapply conn_kid; eassumption|]. apply Hids. congruence.
  Qed.

  (** Subtrees of different children are disjoint. *)
  Lemma disjoint_kids r c c' x : conn r0 r -> c ∈ kids r -> c' ∈ kids r -> conn c x -> conn c' x -> c = c'.
  Proof.
    intros Hr Hc Hc' H. revert Hc'. induction H as [|p f Hp IH HP Hf]; intros Hc' H'.
    - (* x = c *) inversion H' as [|p f Hp HP Hf]; subst; [reflexivity|]. exfalso.
      apply Hm in Hc as [_ Hc]. eapply (acyclic r Hr c' p Hc' Hp). apply Hids. congruence.
    - inversion H' as [|p' f' Hp' HP' Hf']; subst.
      + exfalso. apply Hm in Hc' as [_ Hc']. eapply (acyclic r Hr c p Hc Hp). apply Hids. congruence.
      + assert (E : fs_span p = fs_span p') by (apply Hids; congruence).
        pose proof (proj1 (Hm _ _) Hc) as [HcP _]. pose proof (proj1 (Hm _ _) Hc') as [HcP' _].
        assert (p = p') by (apply Hsame; [eapply conn_P; [|exact Hp]; assumption|eapply conn_P; [|exact Hp']; assumption|exact E]). subst p'.
        apply IH; assumption.
  Qed.

  Lemma nodup_concat (cs : list fin) (ls : list (list fin)) :
    Forall2 (fun c l => NoDup l /\ forall x, x ∈ l <-> conn c x) cs ls -> NoDup cs ->
    (forall c c' x, c ∈ cs -> c' ∈ cs -> conn c x -> conn c' x -> c = c') -> NoDup (concat ls).
  Proof.
    intros HF. induction HF as [|c l cs ls [Hl Hx] HF IH]; intros Hn Hd; [constructor|].
    cbn. apply NoDup_cons in Hn as [Hc Hn]. apply NoDup_app. split; [exact Hl|]. split.
    - intros x Hxl Hxc. apply elem_of_list_In, in_concat in Hxc as (l' & Hl' & Hxl'). apply elem_of_list_In in Hl', Hxl'.
      apply elem_of_list_lookup in Hl' as [k Hk]. destruct (Forall2_lookup_r _ _ _ _ _ HF Hk) as (c' & Hc' & _ & Hx').
      apply elem_of_list_lookup_2 in Hc'. apply Hc. rewrite (Hd c c' x); [exact Hc'|set_solver|set_solver|apply Hx, Hxl|apply Hx', Hxl'].
    - apply IH; [exact Hn|]. intros a b x Ha Hb. apply Hd; set_solver.
  Qed.

  (** The path from the root: parent by parent, no span twice. *)
  Fixpoint path (f : fin) (l : list fin) : Prop :=
    match l with
    | [] => f = r0
    | p :: l' => P f /\ si_parent (info (fs_span f)) = Some (si_id (info (fs_span p))) /\ path p l'
    end.
  Lemma path_conn f l : path f l -> conn r0 f.
  Proof.
    revert f. induction l as [|p l IH]; intros f; cbn; [intros ->; apply conn_root|]. intros (HP & Hp & Hl). eapply conn_child; [apply IH, Hl|exact HP|exact Hp].
  Qed.
  Lemma path_lt f l : path f l -> Forall (fun x => (x < N)%nat) (map fs_span (f :: l)).
  Proof.
    revert f. induction l as [|p l IH]; intros f; cbn; [intros ->; auto|]. intros (HP & Hp & Hl). constructor; [apply HN, HP|apply IH, Hl].
  Qed.
  Lemma path_kid_new f l c : path f l -> c ∈ kids f -> fs_span c ∉ map fs_span (f :: l).
  Proof.
    intros Hl Hc. pose proof (proj1 (Hm _ _) Hc) as [HcP _].
    assert (Hany : forall g k, path g k -> conn g f -> fs_span c ∉ map fs_span (g :: k)).
    { intros g k. revert g. induction k as [|q k IH]; intros g Hk Hgf Hx; cbn in Hk, Hx.
      - subst g. apply elem_of_list_singleton in Hx. apply (Hr0 c HcP Hx).
      - destruct Hk as (HgP & Hgq & Hk). apply elem_of_cons in Hx as [Hx|Hx].
        + assert (c = g) by (apply Hsame; assumption). subst g. apply (acyclic f (path_conn _ _ Hl) c f Hc Hgf). reflexivity.
        + revert Hx. apply IH; [exact Hk|]. eapply conn_kid; [|exact Hgf]. apply Hm. auto. }
    apply (Hany f l Hl). apply conn_root.
  Qed.
  Lemma below_length (l : list nat) : NoDup l -> Forall (fun x => (x < N)%nat) l -> (length l <= N)%nat.
  Proof.
    intros Hn Hl. assert (H : (length l <= length (seq 0 N))%nat).
    { apply NoDup_incl_length; [apply NoDup_ListNoDup, Hn|]. intros x Hx. apply in_seq. rewrite Forall_forall in Hl. apply elem_of_list_In, Hl in Hx. lia. }
    rewrite seq_length in H. exact H.
  Qed.

  Lemma walk_path fuel f l : path f l -> NoDup (map fs_span (f :: l)) -> (N <= fuel + length l)%nat ->
    exists k, walk info m fuel f = Some (f :: k) /\ (forall x, x ∈ f :: k <-> conn f x) /\ NoDup (f :: k).
  Proof.
    revert f l. induction fuel as [|fuel IH]; intros f l Hpath Hnew Hfuel.
    { pose proof (below_length _ Hnew (path_lt _ _ Hpath)) as H. cbn in H. rewrite map_length in H. lia. }
    assert (IHk : forall c, c ∈ kids f -> exists k, walk info m fuel c = Some (c :: k) /\ (forall x, x ∈ c :: k <-> conn c x) /\ NoDup (c :: k)).
    { intros c Hc. apply (IH c (f :: l)).
      - apply Hm in Hc as [? ?]. cbn. auto.
      - cbn [map]. apply NoDup_cons. split; [apply path_kid_new; assumption|exact Hnew].
      - cbn. lia. }
    assert (Hall : Forall (fun c => is_Some (walk info m fuel c)) (kids f)).
    { apply Forall_forall. intros c Hc. destruct (IHk c Hc) as (k & Hk & _). eauto. }
    destruct (mapM_is_Some_2 (walk info m fuel) (kids f) Hall) as [ls Els]. exists (concat ls). cbn [walk]. rewrite Els. split; [reflexivity|].
    apply mapM_Some_1 in Els.
    assert (HF : Forall2 (fun c l => NoDup l /\ forall x, x ∈ l <-> conn c x) (kids f) ls).
    { apply Forall2_same_length_lookup_2; [eapply Forall2_length; exact Els|]. intros k c l' Hk Hkl. pose proof (Forall2_lookup_lr _ _ _ _ _ _ Els Hk Hkl) as Hl. cbn in Hl.
      pose proof (elem_of_list_lookup_2 _ _ _ Hk) as Hc. destruct (IHk c Hc) as (l'' & Hl' & Hx & Hn). assert (l' = c :: l'') by congruence. subst. auto. }
    assert (Hcat : forall x, x ∈ concat ls <-> exists c, c ∈ kids f /\ conn c x).
    { intros x. rewrite elem_of_list_In, in_concat. split.
      - intros (l' & Hl & Hx). apply elem_of_list_In, elem_of_list_lookup in Hl as [k Hk]. destruct (Forall2_lookup_r _ _ _ _ _ HF Hk) as (c & Hc & _ & Hi).
        exists c. split; [eapply elem_of_list_lookup_2; exact Hc|]. apply Hi, elem_of_list_In, Hx.
      - intros (c & Hc & Hx). apply elem_of_list_lookup in Hc as [k Hk]. destruct (Forall2_lookup_l _ _ _ _ _ HF Hk) as (l' & Hl & _ & Hi).
        exists l'. split; [eapply elem_of_list_In, elem_of_list_lookup_2; exact Hl|]. apply elem_of_list_In, Hi, Hx. }
    split.
    - intros x. rewrite elem_of_cons, Hcat. split.
      + intros [->|(c & Hc & Hx)]; [apply conn_root|eapply conn_kid; eassumption].
      + apply conn_split.
    - constructor.
      + intros Hx. apply Hcat in Hx as (c & Hc & Hx). apply (acyclic f (path_conn _ _ Hpath) c f Hc Hx). reflexivity.
      + eapply nodup_concat; [exact HF|apply Hnd|]. intros c c' x. apply disjoint_kids, (path_conn _ _ Hpath).
  Qed.
  Lemma walk_spec fuel : (N <= fuel)%nat ->
    exists l, walk info m fuel r0 = Some (r0 :: l) /\ (forall x, x ∈ r0 :: l <-> conn r0 x) /\ NoDup (r0 :: l).
  Proof. intros Hf. apply (walk_path fuel r0 []); [reflexivity|apply NoDup_singleton|cbn; lia]. Qed.
End walk.

Lemma tally_pos {A} (p : A -> bool) l i x : l !! i = Some x -> p x = true -> 1 <= tally p l.
Proof.
  revert i. induction l as [|y l IH]; intros [|i] Hi Hp; cbn in Hi; try discriminate Hi; rewrite tally_cons.
  - injection Hi as ->. rewrite Hp. pose proof (tally_nonneg p l). cbn. lia.
  - pose proof (IH _ Hi Hp). unfold b2z. destruct (p y); lia.
Qed.

(** ** Interleavings *)
Section inv.
  Context (info : nat -> sinfo) (fuel : nat).

  Definition winner (th : kthread) : option nat :=
    match th with KThr (KStart n _) (M_done true) | KThr (KForce n) (M_done true) => Some n | _ => None end.
  Definition win (ts : list kthread) (n : nat) : Prop := exists i th, ts !! i = Some th /\ winner th = Some n.
  Definition closing (th : kthread) : bool := match kt_pc th with F_close | P_close => true | _ => false end.
  Definition holds (th : kthread) : bool := match kt_pc th with F_root _ | F_store _ | F_unlock _ | F_unlock_stop | V_unlock _ => true | _ => false end.
  Definition storing (th : kthread) : bool := match kt_pc th with F_store _ => true | _ => false end.
  (** The thread has filed or is the root's. *)
  Definition keeping (th : kthread) : option fin :=
    match th with KThr (KFinish f) (F_unlock true) | KThr (KFinish f) (F_done true) => Some f | _ => None end.
  Definition keeps (ts : list kthread) (i : nat) (f : fin) : Prop :=
    exists th e, ts !! i = Some th /\ keeping th = Some f /\ win ts e /\ fs_span f <> e.
  Definition rooted (th : kthread) : option fin :=
    match th with
    | KThr (KFinish f) F_unlock_stop | KThr (KFinish f) F_swap | KThr (KFinish f) F_close | KThr (KFinish f) (F_done true) => Some f
    | _ => None
    end.
  Definition same_trace (e : nat) (f : fin) : Prop := si_trace (info e) = si_trace (info (fs_span f)).

  Definition ktok (s : coll) (ts : list kthread) (th : kthread) : Prop :=
    match kt_call th, kt_pc th with
    | KStart _ _, (M_load | M_cas | M_done _) => True
    | KForce _, (M_cas | M_done _) => True
    | KFinish _, (F_load | F_unlock false | F_done false) => True
    | KFinish f, (F_lock e | F_root e) => win ts e /\ same_trace e f
    | KFinish f, F_store e => win ts e /\ same_trace e f /\ cl_root s = None
    | KFinish f, F_unlock true => exists e, win ts e /\ same_trace e f /\ fs_span f <> e
    | KFinish f, (F_unlock_stop | F_swap | F_close) => cl_root s = Some f /\ win ts (fs_span f)
    | KFinish f, F_done true => exists e, win ts e /\ same_trace e f /\ (fs_span f <> e \/ (fs_span f = e /\ cl_root s = Some f))
    | KStop, (P_swap | P_close | P_done) => True
    | KSpans, V_lock => True
    | KSpans, (V_unlock l | V_done l) => l = Some [] \/ exists r, cl_root s = Some r /\ l = walk info (cl_map s) fuel r
    | _, _ => False
    end.
  Definition filed (m : gmap (option Z) (list fin)) (g : list (nat * fin)) : Prop :=
    forall k, default [] (m !! k) = map snd (List.filter (fun p => bool_decide (si_parent (info (fs_span (snd p))) = k)) g).
  Record kinv (s : coll) (ts : list kthread) : Prop := {
    K0 : 0 <= cl_closes s;
    K1 : cl_closes s + tally closing ts = b2z (chk_eqb (cl_check s) CDone);
    K2 : forall n n', win ts n -> win ts n' -> n = n';
    K3 : match cl_check s with CNil => forall n, ~ win ts n | CSpan n => win ts n | CDone => True end;
    K4 : forall i th, ts !! i = Some th -> ktok s ts th;
    K5 : forall i, cl_mtx s = Some i <-> exists th, ts !! i = Some th /\ holds th = true;
    K6 : forall r, cl_root s = Some r -> win ts (fs_span r) /\ exists i th, ts !! i = Some th /\ rooted th = Some r;
    K7 : exists g, NoDup (map fst g) /\ (forall i f, (i, f) ∈ g <-> keeps ts i f) /\ filed (cl_map s) g
  }.

  Lemma win_insert ts i th th' n : ts !! i = Some th -> winner th' = winner th -> win (<[i := th']> ts) n <-> win ts n.
  Proof.
    intros Hi Hw. split; intros (j & u & Hj & Hu).
    - apply list_lookup_insert_Some in Hj as [(<- & <- & _)|[_ Hj]]; [exists i, th; rewrite <- Hw; auto|exists j, u; auto].
    - destruct (decide (j = i)) as [->|Hne].
      + exists i, th'. split; [apply list_lookup_insert; eapply lookup_lt_Some; exact Hi|]. congruence.
      + exists j, u. rewrite list_lookup_insert_ne by congruence. auto.
  Qed.
  Lemma win_insert_mono ts i th th' n : ts !! i = Some th -> winner th = None -> win ts n -> win (<[i := th']> ts) n.
  Proof.
    intros Hi Hw (j & u & Hj & Hu). exists j, u. rewrite list_lookup_insert_ne; [auto|]. intros ->. congruence.
  Qed.
  Lemma keeps_other ts i th th' j f : ts !! i = Some th -> winner th' = winner th -> j <> i -> keeps (<[i := th']> ts) j f <-> keeps ts j f.
  Proof.
    intros Hi Hw Hne. split; intros (u & e & Hj & Hu & He & Hs); exists u, e.
    - rewrite list_lookup_insert_ne in Hj by congruence. rewrite (win_insert _ _ _ _ _ Hi Hw) in He. auto.
    - rewrite list_lookup_insert_ne by congruence. rewrite (win_insert _ _ _ _ _ Hi Hw). auto.
  Qed.
  Lemma keeps_self ts i th th' f : ts !! i = Some th -> winner th' = winner th -> keeping th' = keeping th -> keeps (<[i := th']> ts) i f <-> keeps ts i f.
  Proof.
    intros Hi Hw Hk. split; intros (u & e & Hj & Hu & He & Hs).
    - rewrite list_lookup_insert in Hj by (eapply lookup_lt_Some; exact Hi). injection Hj as <-. exists th, e. rewrite (win_insert _ _ _ _ _ Hi Hw) in He. rewrite <- Hk. auto.
    - assert (u = th) by congruence. subst u. exists th', e. rewrite list_lookup_insert by (eapply lookup_lt_Some; exact Hi).
      rewrite (win_insert _ _ _ _ _ Hi Hw), Hk. auto.
  Qed.

  Lemma ktok_other s ts s' ts' u : ktok s ts u -> (forall n, win ts n -> win ts' n) ->
    (cl_root s' = cl_root s \/ (cl_root s = None /\ storing u = false)) -> (cl_map s' = cl_map s \/ cl_root s = None) -> ktok s' ts' u.
  Proof.
    intros H Hw Hr Hm. destruct u as [[n b|n|f| |] pc]; destruct pc; unfold ktok in *; cbn [kt_call kt_pc storing] in *; auto.
    - destruct H as [? ?]. auto.
    - destruct H as [? ?]. auto.
    - destruct H as (? & ? & ?). destruct Hr as [Hr|[_ Hr]]; [rewrite Hr; auto|discriminate Hr].
    - destruct kept; [|auto]. destruct H as (e & ? & ? & ?). eauto.
    - destruct H as [? ?]. split; [|auto]. destruct Hr as [Hr|[Hr _]]; congruence.
    - destruct H as [? ?]. split; [|auto]. destruct Hr as [Hr|[Hr _]]; congruence.
    - destruct H as [? ?]. split; [|auto]. destruct Hr as [Hr|[Hr _]]; congruence.
    - destruct kept; [|auto]. destruct H as (e & ? & ? & H). exists e. split; [auto|]. split; [auto|]. destruct H as [?|[? ?]]; [auto|].
      right. split; [auto|]. destruct Hr as [Hr|[Hr _]]; congruence.
    - destruct H as [?|(r & ? & ->)]; [auto|]. right. exists r. destruct Hr as [Hr|[Hr _]]; [|congruence]. destruct Hm as [Hm|Hm]; [|congruence]. rewrite Hr, Hm. auto.
    - destruct H as [?|(r & ? & ->)]; [auto|]. right. exists r. destruct Hr as [Hr|[Hr _]]; [|congruence]. destruct Hm as [Hm|Hm]; [|congruence]. rewrite Hr, Hm. auto.
  Qed.

  Definition mtx_move (s s' : coll) (i : nat) (th th' : kthread) : Prop :=
    (cl_mtx s' = cl_mtx s /\ holds th' = holds th) \/
    (cl_mtx s = None /\ cl_mtx s' = Some i /\ holds th' = true) \/
    (cl_mtx s' = None /\ holds th = true /\ holds th' = false).
  Lemma mtx_ok s ts s' i th th' : kinv s ts -> ts !! i = Some th -> mtx_move s s' i th th' ->
    forall j, cl_mtx s' = Some j <-> exists u, <[i := th']> ts !! j = Some u /\ holds u = true.
  Proof.
    intros H Hi Hm j. assert (Hlt : (i < length ts)%nat) by (eapply lookup_lt_Some; exact Hi). pose proof (K5 _ _ H) as H5.
    destruct (decide (j = i)) as [->|Hne].
    - rewrite list_lookup_insert by exact Hlt. destruct Hm as [[E1 E2]|[(E1 & E2 & E3)|(E1 & E2 & E3)]].
      + rewrite E1, H5, Hi. split; intros (u & Hu & Ht); injection Hu as <-; eexists; (split; [reflexivity|congruence]).
      + rewrite E2. split; [eauto|reflexivity].
      + rewrite E1. split; [discriminate|]. intros (u & Hu & Ht). injection Hu as <-. congruence.
    - rewrite list_lookup_insert_ne by congruence. destruct Hm as [[E1 E2]|[(E1 & E2 & E3)|(E1 & E2 & E3)]].
      + rewrite E1. apply H5.
      + rewrite E2, <- H5, E1. split; congruence.
      + rewrite E1, <- H5. assert (cl_mtx s = Some i) by (apply H5; eauto). split; congruence.
  Qed.

  (** Steps that only move the thread and the lock. *)
  Lemma kinv_move s ts s' i th th' : kinv s ts -> ts !! i = Some th ->
    cl_check s' = cl_check s -> cl_root s' = cl_root s -> cl_map s' = cl_map s -> cl_closes s' = cl_closes s ->
    mtx_move s s' i th th' -> winner th' = winner th -> closing th' = closing th -> keeping th' = keeping th ->
    (forall r, rooted th = Some r -> rooted th' = Some r) -> ktok s ts th' ->
    kinv s' (<[i := th']> ts).
  Proof.
    intros H Hi E1 E2 E3 E4 Hm Hw Hc Hk Hr Ht. pose proof (win_insert ts i th th') as Hwi.
    assert (Hwi' : forall n, win (<[i := th']> ts) n <-> win ts n) by (intros n; apply Hwi; assumption). clear Hwi.
    constructor.
    - rewrite E4. apply (K0 _ _ H).
    - rewrite E1, E4, (tally_insert _ _ _ _ _ Hi), Hc. pose proof (K1 _ _ H). lia.
    - intros n n'. rewrite !Hwi'. apply (K2 _ _ H).
    - rewrite E1. pose proof (K3 _ _ H) as H3. destruct (cl_check s); [intros n; rewrite Hwi'; apply H3|exact I|apply Hwi', H3].
    - intros j u Hj. apply list_lookup_insert_Some in Hj as [(<- & <- & _)|[Hne Hj]].
      + eapply ktok_other; [exact Ht|intros n; apply Hwi'|auto|auto].
      + eapply ktok_other; [apply (K4 _ _ H _ _ Hj)|intros n; apply Hwi'|auto|auto].
    - eapply mtx_ok; eassumption.
    - intros r. rewrite E2. intros Hrt. destruct (K6 _ _ H _ Hrt) as (Hwr & j & u & Hj & Hu). rewrite Hwi'. split; [exact Hwr|].
      destruct (decide (j = i)) as [->|Hne].
      + exists i, th'. split; [apply list_lookup_insert; eapply lookup_lt_Some; exact Hi|]. apply Hr. congruence.
      + exists j, u. rewrite list_lookup_insert_ne by congruence. auto.
    - destruct (K7 _ _ H) as (g & Hg & Hgk & Hf). exists g. split; [exact Hg|]. split; [|rewrite E3; exact Hf].
      intros j f. rewrite Hgk. destruct (decide (j = i)) as [->|Hne].
      + symmetry. eapply keeps_self; eassumption.
      + symmetry. eapply keeps_other; eassumption.
  Qed.

  (** A Start or ForceStart wins. *)
  Lemma kinv_win s ts i th th' n : kinv s ts -> ts !! i = Some th -> cl_check s = CNil -> winner th = None -> winner th' = Some n ->
    closing th' = closing th -> keeping th = None -> keeping th' = None -> rooted th = None -> holds th = false -> holds th' = false -> (forall s ts, ktok s ts th') ->
    kinv (cl_set_check s (CSpan n)) (<[i := th']> ts).
  Proof.
    intros H Hi Ec Hw Hw' Hc Hk Hk' Hr Hh Hh' Ht. assert (Hlt : (i < length ts)%nat) by (eapply lookup_lt_Some; exact Hi).
    pose proof (K3 _ _ H) as H3. rewrite Ec in H3.
    assert (Hmono : forall x, win ts x -> win (<[i := th']> ts) x) by (intros x Hx; destruct (H3 _ Hx)).
    assert (Hnow : forall x, win (<[i := th']> ts) x <-> x = n).
    { intros x. split.
      - intros (j & u & Hj & Hu). apply list_lookup_insert_Some in Hj as [(_ & <- & _)|[_ Hj]]; [congruence|]. destruct (H3 x). exists j, u. auto.
      - intros ->. exists i, th'. split; [apply list_lookup_insert, Hlt|exact Hw']. }
    assert (Hroot : cl_root s = None).
    { destruct (cl_root s) as [r|] eqn:E; [|reflexivity]. destruct (K6 _ _ H _ E) as [Hx _]. destruct (H3 _ Hx). }
    constructor; cbn [cl_set_check cl_check cl_root cl_map cl_closes cl_mtx].
    - apply (K0 _ _ H).
    - rewrite (tally_insert _ _ _ _ _ Hi), Hc. pose proof (K1 _ _ H) as H1. rewrite Ec in H1. cbn in *. lia.
    - intros x y. rewrite !Hnow. congruence.
    - apply Hnow. reflexivity.
    - intros j u Hj. apply list_lookup_insert_Some in Hj as [(<- & <- & _)|[Hne Hj]]; [apply Ht|].
      eapply ktok_other; [apply (K4 _ _ H _ _ Hj)|exact Hmono|auto|auto].
    - eapply mtx_ok; [exact H|exact Hi|]. left. split; [reflexivity|congruence].
    - intros r. rewrite Hroot. discriminate.
    - destruct (K7 _ _ H) as (g & Hg & Hgk & Hf). assert (g = []) as ->.
      { destruct g as [|[j f] g]; [reflexivity|]. destruct (proj1 (Hgk j f)) as (u & e & _ & _ & He & _); [set_solver|]. destruct (H3 _ He). }
      exists []. split; [constructor|]. split; [|exact Hf]. intros j f. split; [intros Hx; inversion Hx|]. intros Hkp. exfalso.
      destruct Hkp as (u & e & Hj & Hu & _). apply list_lookup_insert_Some in Hj as [(_ & <- & _)|[_ Hj]]; [congruence|].
      (* a keeping thread needs a winner *)
      pose proof (K4 _ _ H _ _ Hj) as Hx. destruct u as [[n' b|n'|f'| |] pc]; destruct pc; cbn in Hu; try discriminate Hu; destruct kept; try discriminate Hu;
        destruct Hx as (e' & He' & _); destruct (H3 _ He').
  Qed.

  (** Stop: the swap and the close. *)
  Lemma kinv_stop s ts s' i th th' : kinv s ts -> ts !! i = Some th ->
    cl_root s' = cl_root s -> cl_map s' = cl_map s -> cl_mtx s' = cl_mtx s -> cl_check s' = CDone -> 0 <= cl_closes s' ->
    cl_closes s' + b2z (closing th') = cl_closes s + b2z (closing th) + (1 - b2z (chk_eqb (cl_check s) CDone)) ->
    winner th' = None -> winner th = None -> holds th' = false -> holds th = false -> keeping th = None -> (forall f, keeping th' = Some f -> win ts (fs_span f)) ->
    (forall r, rooted th = Some r -> rooted th' = Some r) -> ktok s ts th' ->
    kinv s' (<[i := th']> ts).
  Proof.
    intros H Hi E2 E3 Em E1 E0 E4 Hw' Hw Hh' Hh Hk Hk' Hr Ht.
    assert (Hwi' : forall n, win (<[i := th']> ts) n <-> win ts n) by (intros n; eapply win_insert; [exact Hi|congruence]).
    constructor.
    - exact E0.
    - rewrite E1, (tally_insert _ _ _ _ _ Hi). pose proof (K1 _ _ H). cbn [chk_eqb b2z] in *. lia.
    - intros n n'. rewrite !Hwi'. apply (K2 _ _ H).
    - rewrite E1. exact I.
    - intros j u Hj. apply list_lookup_insert_Some in Hj as [(<- & <- & _)|[Hne Hj]].
      + eapply ktok_other; [exact Ht|intros n; apply Hwi'|auto|auto].
      + eapply ktok_other; [apply (K4 _ _ H _ _ Hj)|intros n; apply Hwi'|auto|auto].
    - eapply mtx_ok; [exact H|exact Hi|]. left. split; congruence.
    - intros r. rewrite E2. intros Hrt. destruct (K6 _ _ H _ Hrt) as (Hwr & j & u & Hj & Hu). rewrite Hwi'. split; [exact Hwr|].
      destruct (decide (j = i)) as [->|Hne].
      + exists i, th'. split; [apply list_lookup_insert; eapply lookup_lt_Some; exact Hi|]. apply Hr. congruence.
      + exists j, u. rewrite list_lookup_insert_ne by congruence. auto.
    - destruct (K7 _ _ H) as (g & Hg & Hgk & Hf). exists g. split; [exact Hg|]. split; [|rewrite E3; exact Hf].
      intros j f. rewrite Hgk. destruct (decide (j = i)) as [->|Hne].
      + split; intros (u & e & Hu & Hku & He & Hs).
        * assert (u = th) by congruence. subst u. congruence.
        * rewrite list_lookup_insert in Hu by (eapply lookup_lt_Some; exact Hi). injection Hu as <-. destruct Hs. apply Hwi' in He. apply (K2 _ _ H); auto.
      + symmetry. eapply keeps_other; [exact Hi|congruence|exact Hne].
  Qed.

  Lemma closing_done s ts i th : kinv s ts -> ts !! i = Some th -> closing th = true -> cl_check s = CDone.
  Proof.
    intros H Hi Hc. pose proof (K1 _ _ H) as H1. pose proof (K0 _ _ H) as H0. pose proof (tally_insert closing ts i th th Hi) as _.
    pose proof (tally_pos closing ts i th Hi Hc). destruct (cl_check s); cbn in H1; [lia|reflexivity|lia].
  Qed.

  Lemma kinv_step s ts i th : kinv s ts -> ts !! i = Some th -> kinv (fst (cl_step info fuel i s th)) (<[i := snd (cl_step info fuel i s th)]> ts).
  Proof.
    intros H Hi. assert (Hlt : (i < length ts)%nat) by (eapply lookup_lt_Some; exact Hi).
    assert (Hself : <[i := th]> ts = ts) by (apply list_insert_id, Hi). pose proof (K4 _ _ H _ _ Hi) as Ht.
    destruct th as [c pc]. destruct c as [n b|n|f| |]; destruct pc; unfold ktok in Ht; cbn [kt_call kt_pc] in Ht; try contradiction;
      unfold cl_step; cbn [kt_call kt_pc fst snd]; try (rewrite Hself; exact H).
    - (* Start *) destruct (negb (chk_eqb (cl_check s) CNil) || negb b); cbn [fst snd];
        (eapply kinv_move; [exact H|exact Hi|reflexivity|reflexivity|reflexivity|reflexivity|left; split; reflexivity|reflexivity|reflexivity|reflexivity|auto|exact I]).
    - destruct (chk_eqb (cl_check s) CNil) eqn:Ec; cbn [fst snd].
      + eapply kinv_win; [exact H|exact Hi|destruct (cl_check s); [reflexivity|discriminate Ec|discriminate Ec]|reflexivity|reflexivity|reflexivity|reflexivity|reflexivity|reflexivity|reflexivity|reflexivity|intros; exact I].
      + eapply kinv_move; [exact H|exact Hi|reflexivity|reflexivity|reflexivity|reflexivity|left; split; reflexivity|reflexivity|reflexivity|reflexivity|auto|exact I].
    - destruct (chk_eqb (cl_check s) CNil) eqn:Ec; cbn [fst snd].
      + eapply kinv_win; [exact H|exact Hi|destruct (cl_check s); [reflexivity|discriminate Ec|discriminate Ec]|reflexivity|reflexivity|reflexivity|reflexivity|reflexivity|reflexivity|reflexivity|reflexivity|intros; exact I].
      + eapply kinv_move; [exact H|exact Hi|reflexivity|reflexivity|reflexivity|reflexivity|left; split; reflexivity|reflexivity|reflexivity|reflexivity|auto|exact I].
    - (* F_load *)
      pose proof (K3 _ _ H) as H3. destruct (cl_check s) as [| |e] eqn:Ec; cbn [fst snd].
      1,2: (eapply kinv_move; [exact H|exact Hi|reflexivity|reflexivity|reflexivity|reflexivity|left; split; reflexivity|reflexivity|reflexivity|reflexivity|discriminate|exact I]).
      destruct (Nat.eqb_spec (si_trace (info e)) (si_trace (info (fs_span f)))) as [Et|_]; cbn [fst snd];
        (eapply kinv_move; [exact H|exact Hi|reflexivity|reflexivity|reflexivity|reflexivity|left; split; reflexivity|reflexivity|reflexivity|reflexivity|discriminate|]); [split; assumption|exact I].
    - (* F_lock *)
      destruct (cl_mtx s) eqn:Em; cbn [fst snd]; [rewrite Hself; exact H|].
      eapply kinv_move; [exact H|exact Hi|reflexivity|reflexivity|reflexivity|reflexivity|right; left; auto|reflexivity|reflexivity|reflexivity|discriminate|exact Ht].
    - (* F_root *)
      destruct (cl_root s) as [r|] eqn:Er; cbn [fst snd];
        (eapply kinv_move; [exact H|exact Hi|reflexivity|reflexivity|reflexivity|reflexivity|left; split; reflexivity|reflexivity|reflexivity|reflexivity|discriminate|]); [exact I|].
      destruct Ht as [? ?]. split; [assumption|]. split; assumption.
    - (* F_store *)
      destruct Ht as (Hwin & Htr & Hroot).
      assert (Hw : forall th' n, winner th' = None -> win (<[i := th']> ts) n <-> win ts n) by (intros th' n' E; eapply win_insert; [exact Hi|exact E]).
      assert (Hme : cl_mtx s = Some i) by (apply (K5 _ _ H); eexists; split; [exact Hi|reflexivity]).
      assert (Hst : forall j u, j <> i -> ts !! j = Some u -> storing u = false).
      { intros j u Hne Hj. destruct (storing u) eqn:Es; [|reflexivity]. exfalso.
        assert (cl_mtx s = Some j). { apply (K5 _ _ H). exists u. split; [exact Hj|]. unfold storing, holds in *. destruct (kt_pc u); try discriminate Es; reflexivity. }
        congruence. }
      destruct (Nat.eqb_spec existing (fs_span f)) as [->|Hne]; cbn [fst snd].
      + set (th' := KThr (KFinish f) F_unlock_stop). constructor; cbn [cl_check cl_root cl_map cl_closes cl_mtx].
        * apply (K0 _ _ H).
        * rewrite (tally_insert _ _ _ _ _ Hi). pose proof (K1 _ _ H). cbn. lia.
        * intros x y. rewrite !Hw by reflexivity. apply (K2 _ _ H).
        * pose proof (K3 _ _ H) as H3. destruct (cl_check s); [intros x; rewrite Hw by reflexivity; apply H3|exact I|apply Hw; [reflexivity|exact H3]].
        * intros j u Hj. apply list_lookup_insert_Some in Hj as [(<- & <- & _)|[Hn Hj]].
          -- split; [reflexivity|]. apply Hw; [reflexivity|exact Hwin].
          -- eapply ktok_other; [apply (K4 _ _ H _ _ Hj)|intros x; apply Hw; reflexivity| |auto]. right. split; [exact Hroot|]. apply (Hst j); [congruence|exact Hj].
        * eapply mtx_ok; [exact H|exact Hi|]. left. split; reflexivity.
        * intros r E. injection E as <-. split; [apply Hw; [reflexivity|exact Hwin]|]. exists i, th'. split; [apply list_lookup_insert, Hlt|reflexivity].
        * destruct (K7 _ _ H) as (g & Hg & Hgk & Hf). exists g. split; [exact Hg|]. split; [|exact Hf]. intros j x. rewrite Hgk. destruct (decide (j = i)) as [->|Hn].
          -- symmetry. eapply keeps_self; [exact Hi|reflexivity|reflexivity].
          -- symmetry. eapply keeps_other; [exact Hi|reflexivity|exact Hn].
      + set (th' := KThr (KFinish f) (F_unlock true)). set (key := si_parent (info (fs_span f))). constructor; cbn [cl_check cl_root cl_map cl_closes cl_mtx].
        * apply (K0 _ _ H).
        * rewrite (tally_insert _ _ _ _ _ Hi). pose proof (K1 _ _ H). cbn. lia.
        * intros x y. rewrite !Hw by reflexivity. apply (K2 _ _ H).
        * pose proof (K3 _ _ H) as H3. destruct (cl_check s); [intros x; rewrite Hw by reflexivity; apply H3|exact I|apply Hw; [reflexivity|exact H3]].
        * intros j u Hj. apply list_lookup_insert_Some in Hj as [(<- & <- & _)|[Hn Hj]].
          -- exists existing. split; [apply Hw; [reflexivity|exact Hwin]|]. split; [exact Htr|congruence].
          -- eapply ktok_other; [apply (K4 _ _ H _ _ Hj)|intros x; apply Hw; reflexivity|auto|auto].
        * eapply mtx_ok; [exact H|exact Hi|]. left. split; reflexivity.
        * intros r E. congruence.
        * destruct (K7 _ _ H) as (g & Hg & Hgk & Hf).
          assert (Hni : forall x, (i, x) ∉ g).
          { intros x Hx. apply Hgk in Hx as (u & e & Hu & Hku & _). assert (u = KThr (KFinish f) (F_store existing)) by congruence. subst u. discriminate Hku. }
          exists (g ++ [(i, f)]). split; [|split].
          -- rewrite map_app. apply NoDup_app. split; [exact Hg|]. split; [|apply NoDup_singleton].
             intros x Hx Hx'. apply elem_of_list_singleton in Hx'. cbn in Hx'. subst x. apply elem_of_list_fmap in Hx as ([j x] & E & Hx). cbn in E. subst j. exact (Hni _ Hx).
          -- intros j x. rewrite elem_of_app, elem_of_list_singleton, Hgk. destruct (decide (j = i)) as [->|Hn].
             ++ split.
                ** intros [(u & e & Hu & Hku & _)|E]; [assert (u = KThr (KFinish f) (F_store existing)) by congruence; subst u; discriminate Hku|].
                   apply (f_equal snd) in E. cbn in E. subst x. exists th', existing. split; [apply list_lookup_insert, Hlt|]. split; [reflexivity|]. split; [apply Hw; [reflexivity|exact Hwin]|congruence].
                ** intros (u & e & Hu & Hku & _). right. rewrite list_lookup_insert in Hu by exact Hlt. injection Hu as <-. cbn in Hku. congruence.
             ++ rewrite (keeps_other ts i _ th' j x Hi eq_refl Hn). split; [intros [?|E]; [assumption|]; apply (f_equal fst) in E; cbn in E; contradiction|auto].
          -- intros k. rewrite List.filter_app, map_app. cbn [List.filter snd]. fold key. destruct (decide (key = k)) as [<-|Hk].
             ++ rewrite lookup_insert. cbn [default]. rewrite bool_decide_eq_true_2 by reflexivity. cbn. rewrite <- (Hf key). reflexivity.
             ++ rewrite lookup_insert_ne by exact Hk. rewrite bool_decide_eq_false_2 by exact Hk. cbn. rewrite app_nil_r. apply Hf.
    - (* F_unlock *)
      destruct kept; (eapply kinv_move; [exact H|exact Hi|reflexivity|reflexivity|reflexivity|reflexivity|right; right; auto|reflexivity|reflexivity|reflexivity|discriminate|]); [|exact I].
      destruct Ht as (e & ? & ? & ?). exists e. auto.
    - (* F_unlock_stop *)
      eapply kinv_move; [exact H|exact Hi|reflexivity|reflexivity|reflexivity|reflexivity|right; right; auto|reflexivity|reflexivity|reflexivity|auto|exact Ht].
    - (* F_swap *)
      destruct Ht as [Hroot Hwin]. destruct (chk_eqb (cl_check s) CDone) eqn:Ec;
        (eapply kinv_stop; [exact H|exact Hi|reflexivity|reflexivity|reflexivity|reflexivity|apply (K0 _ _ H)|rewrite Ec; cbn; lia|reflexivity|reflexivity|reflexivity|reflexivity|reflexivity| |auto|]).
      + intros x E. cbn in E. congruence.
      + pose proof (K6 _ _ H _ Hroot) as [Hx _]. exists (fs_span f). split; [exact Hx|]. split; [reflexivity|auto].
      + discriminate.
      + split; assumption.
    - (* F_close *)
      destruct Ht as [Hroot Hwin]. assert (Ec : cl_check s = CDone) by (eapply closing_done; [exact H|exact Hi|reflexivity]).
      eapply kinv_stop; [exact H|exact Hi|reflexivity|reflexivity|reflexivity|exact Ec|cbn; pose proof (K0 _ _ H); lia| |reflexivity|reflexivity|reflexivity|reflexivity|reflexivity| |auto|].
      + rewrite Ec. cbn. lia.
      + intros x E. cbn in E. congruence.
      + exists (fs_span f). split; [exact Hwin|]. split; [reflexivity|auto].
    - (* P_swap *)
      destruct (chk_eqb (cl_check s) CDone) eqn:Ec;
        (eapply kinv_stop; [exact H|exact Hi|reflexivity|reflexivity|reflexivity|reflexivity|apply (K0 _ _ H)|rewrite Ec; cbn; lia|reflexivity|reflexivity|reflexivity|reflexivity|reflexivity|discriminate|discriminate|exact I]).
    - (* P_close *)
      assert (Ec : cl_check s = CDone) by (eapply closing_done; [exact H|exact Hi|reflexivity]).
      eapply kinv_stop; [exact H|exact Hi|reflexivity|reflexivity|reflexivity|exact Ec|cbn; pose proof (K0 _ _ H); lia| |reflexivity|reflexivity|reflexivity|reflexivity|reflexivity|discriminate|discriminate|exact I].
      rewrite Ec. cbn. lia.
    - (* V_lock *)
      destruct (cl_mtx s) eqn:Em; cbn [fst snd]; [rewrite Hself; exact H|].
      eapply kinv_move; [exact H|exact Hi|reflexivity|reflexivity|reflexivity|reflexivity|right; left; auto|reflexivity|reflexivity|reflexivity|discriminate|].
      unfold ktok. cbn [kt_call kt_pc]. destruct (cl_root s) as [r|]; [right; eauto|auto].
    - (* V_unlock *)
      eapply kinv_move; [exact H|exact Hi|reflexivity|reflexivity|reflexivity|reflexivity|right; right; auto|reflexivity|reflexivity|reflexivity|discriminate|exact Ht].
  Qed.

  Lemma kt_lookup_snoc (ts : list kthread) x i t : (ts ++ [x]) !! i = Some t -> ts !! i = Some t \/ (i = length ts /\ t = x).
  Proof.
    intros Hi. apply lookup_app_Some in Hi as [Hi|[Hle Hi]]; [left; exact Hi|]. right.
    destruct (i - length ts)%nat eqn:E; cbn in Hi; [|destruct n; discriminate Hi]. injection Hi as <-. split; [lia|reflexivity].
  Qed.
  Lemma win_snoc ts c n : win (ts ++ [cl_start c]) n <-> win ts n.
  Proof.
    split.
    - intros (i & th & Hi & Hw). apply kt_lookup_snoc in Hi as [Hi|[_ ->]]; [exists i, th; auto|]. destruct c; discriminate Hw.
    - intros (i & th & Hi & Hw). exists i, th. split; [apply lookup_app_l_Some, Hi|exact Hw].
  Qed.
  Lemma kinv_spawn s ts c : kinv s ts -> kinv s (ts ++ [cl_start c]).
  Proof.
    intros H. constructor.
    - apply (K0 _ _ H).
    - rewrite tally_app, tally_cons. pose proof (K1 _ _ H). assert (closing (cl_start c) = false) as -> by (destruct c; reflexivity). cbn. change (tally closing []) with 0. lia.
    - intros n n'. rewrite !win_snoc. apply (K2 _ _ H).
    - pose proof (K3 _ _ H) as H3. destruct (cl_check s); [intros n; rewrite win_snoc; apply H3|exact I|apply win_snoc, H3].
    - intros i th Hi. apply kt_lookup_snoc in Hi as [Hi|[_ ->]].
      + eapply ktok_other; [apply (K4 _ _ H _ _ Hi)|intros n; apply win_snoc|auto|auto].
      + destruct c; exact I.
    - intros i. rewrite (K5 _ _ H i). split; intros (th & Hi & Hh).
      + exists th. split; [apply lookup_app_l_Some, Hi|exact Hh].
      + apply kt_lookup_snoc in Hi as [Hi|[_ ->]]; [eauto|]. destruct c; discriminate Hh.
    - intros r Hr. destruct (K6 _ _ H _ Hr) as (Hw & i & th & Hi & Ht). rewrite win_snoc. split; [exact Hw|]. exists i, th. split; [apply lookup_app_l_Some, Hi|exact Ht].
    - destruct (K7 _ _ H) as (g & Hg & Hgk & Hf). exists g. split; [exact Hg|]. split; [|exact Hf]. intros i f. rewrite Hgk. split; intros (th & e & Hi & Hk & He & Hs).
      + exists th, e. rewrite win_snoc. split; [apply lookup_app_l_Some, Hi|auto].
      + rewrite win_snoc in He. apply kt_lookup_snoc in Hi as [Hi|[_ ->]]; [exists th, e; auto|]. destruct c; discriminate Hk.
  Qed.
  Lemma kinv_exec sched : kinv (shared (cl_exec info fuel sched)) (threads (cl_exec info fuel sched)).
  Proof.
    unfold cl_exec. apply exec_inv.
    - constructor; cbn.
      + lia.
      + reflexivity.
      + intros n n' (i & th & Hi & _). discriminate Hi.
      + intros n (i & th & Hi & _). discriminate Hi.
      + intros i th Hi. discriminate Hi.
      + intros i. split; [discriminate|]. intros (th & Hi & _). discriminate Hi.
      + discriminate.
      + exists []. split; [constructor|]. split; [|intros k; reflexivity]. intros i f. split; [intros Hx; inversion Hx|]. intros (th & e & Hi & _). discriminate Hi.
    - intros. apply kinv_spawn. assumption.
    - intros. apply kinv_step; assumption.
  Qed.

  Lemma closed_once sched : 0 <= cl_closes (shared (cl_exec info fuel sched)) <= 1.
  Proof.
    pose proof (kinv_exec sched) as H. pose proof (K0 _ _ H). pose proof (K1 _ _ H). pose proof (tally_nonneg closing (threads (cl_exec info fuel sched))).
    unfold b2z in *. destruct (chk_eqb _ _); lia.
  Qed.

  (** *** The vocabulary of the specification *)
  Lemma win_trigger sched n : win (threads (cl_exec info fuel sched)) n <-> trigger info fuel sched n.
  Proof.
    split.
    - intros (i & [c pc] & Hi & Hw). destruct c; destruct pc; try discriminate Hw; destruct won; try discriminate Hw; injection Hw as ->; exists i; [left; eexists; exact Hi|right; exact Hi].
    - intros (i & [[m Hi]|Hi]); (eexists i, _; split; [exact Hi|reflexivity]).
  Qed.
  Lemma trigger_one sched n n' : trigger info fuel sched n -> trigger info fuel sched n' -> n = n'.
  Proof. rewrite <- !win_trigger. apply (K2 _ _ (kinv_exec sched)). Qed.
  Lemma keeps_collected sched f : (exists i, keeps (threads (cl_exec info fuel sched)) i f) <-> collected info fuel sched f.
  Proof.
    split.
    - intros (i & [c pc] & e & Hi & Hk & He & Hs). exists i, e. rewrite <- win_trigger. split; [|auto].
      destruct c; destruct pc; try discriminate Hk; destruct kept; try discriminate Hk; injection Hk as ->; auto.
    - intros (i & e & Hi & He & Hs). rewrite <- win_trigger in He. exists i. destruct Hi as [Hi|Hi]; (eexists _, e; split; [exact Hi|auto]).
  Qed.
  Lemma root_ended sched r : cl_root (shared (cl_exec info fuel sched)) = Some r <-> ended info fuel sched r.
  Proof.
    pose proof (kinv_exec sched) as H. split.
    - intros Hr. destruct (K6 _ _ H _ Hr) as (Hw & i & [c pc] & Hi & Ht). split; [apply win_trigger, Hw|].
      destruct c; destruct pc; try discriminate Ht; try (destruct kept; try discriminate Ht); injection Ht as ->; (eexists i, _; split; [exact Hi|auto]).
    - intros (Hw & i & pc & Hi & Hpc). rewrite <- win_trigger in Hw. pose proof (K4 _ _ H _ _ Hi) as Ht. destruct Hpc as [->|[->|[->| ->]]]; unfold ktok in Ht; cbn [kt_call kt_pc] in Ht.
      1,2,3: exact (proj1 Ht).
      destruct Ht as (e & He & _ & Ht). destruct Ht as [Ht|[_ Ht]]; [|exact Ht]. destruct Ht. apply (K2 _ _ H); assumption.
  Qed.
  Lemma collected_trace sched f n : collected info fuel sched f -> trigger info fuel sched n -> si_trace (info (fs_span f)) = si_trace (info n).
  Proof.
    intros (i & e & Hi & He & Hs) Hn. pose proof (kinv_exec sched) as H.
    rewrite <- win_trigger in Hn, He. pose proof (K2 _ _ H _ _ Hn He) as ->.
    destruct Hi as [Hi|Hi]; pose proof (K4 _ _ H _ _ Hi) as (e' & He' & Htr & _); unfold same_trace in Htr; rewrite (K2 _ _ H _ _ He He'); congruence.
  Qed.

  Lemma filed_spec m g f k : filed m g -> f ∈ default [] (m !! k) <-> (exists i, (i, f) ∈ g) /\ si_parent (info (fs_span f)) = k.
  Proof.
    intros Hf. rewrite (Hf k). rewrite elem_of_list_fmap. split.
    - intros ([i x] & -> & Hx). cbn. apply elem_of_list_In, List.filter_In in Hx as [Hx Hb]. apply bool_decide_eq_true_1 in Hb. split; [exists i; apply elem_of_list_In, Hx|exact Hb].
    - intros [[i Hi] Hk]. exists (i, f). split; [reflexivity|]. apply elem_of_list_In, List.filter_In. split; [apply elem_of_list_In, Hi|]. apply bool_decide_eq_true_2, Hk.
  Qed.

  Lemma spans_tree sched i a : distinct_ids info -> finish_once info fuel sched -> deep_enough info fuel sched ->
    spans_answer info fuel sched i a ->
    a = Some [] \/ exists r l, a = Some (r :: l) /\ ended info fuel sched r /\
      (forall x, x ∈ r :: l <-> connected info (collected info fuel sched) r x) /\ NoDup (map fs_span (r :: l)) /\
      (forall x, x ∈ r :: l -> si_trace (info (fs_span x)) = si_trace (info (fs_span r))).
  Proof.
    intros Hids Hone Hdeep Ha. pose proof (kinv_exec sched) as H. pose proof (K4 _ _ H _ _ Ha) as Ht. unfold ktok in Ht. cbn [kt_call kt_pc] in Ht.
    destruct Ht as [Ht|(r & Hr & ->)]; [auto|]. right.
    destruct (K7 _ _ H) as (g & Hg & Hgk & Hf).
    assert (Hcol : forall f, (exists j, (j, f) ∈ g) <-> collected info fuel sched f).
    { intros f. rewrite <- keeps_collected. split; intros [j Hj]; exists j; apply Hgk, Hj. }
    pose proof (proj1 (root_ended sched r) Hr) as Hend.
    assert (Hcth : forall f, collected info fuel sched f -> exists j pc, cl_thread info fuel sched j (KThr (KFinish f) pc)) by (intros f (j & e & [Hj|Hj] & _); eauto).
    assert (Hrth : exists j pc, cl_thread info fuel sched j (KThr (KFinish r) pc)) by (destruct Hend as (_ & j & pc & Hj & _); eauto).
    assert (Hsame : forall x y, (collected info fuel sched x \/ x = r) -> (collected info fuel sched y \/ y = r) -> fs_span x = fs_span y -> x = y).
    { intros x y Hx Hy E. assert (exists j pc, cl_thread info fuel sched j (KThr (KFinish x) pc)) as (j & pc & Hj) by (destruct Hx as [?| ->]; auto).
      assert (exists j pc, cl_thread info fuel sched j (KThr (KFinish y) pc)) as (j' & pc' & Hj') by (destruct Hy as [?| ->]; auto).
      pose proof (Hone _ _ _ _ _ _ Hj Hj' E). subst j'. unfold cl_thread in *. rewrite Hj in Hj'. apply (f_equal (option_map kt_call)) in Hj'. cbn in Hj'. congruence. }
    assert (Hm : forall k f, f ∈ default [] (cl_map (shared (cl_exec info fuel sched)) !! k) <-> collected info fuel sched f /\ si_parent (info (fs_span f)) = k).
    { intros k f. rewrite (filed_spec _ g _ _ Hf), Hcol. reflexivity. }
    assert (Hnd : forall k, NoDup (default [] (cl_map (shared (cl_exec info fuel sched)) !! k))).
    { intros k. rewrite (Hf k).
      assert (Hndg : NoDup g) by (eapply NoDup_fmap_1; exact Hg).
      assert (Hinj : forall p q, p ∈ g -> q ∈ g -> snd p = snd q -> p = q).
      { intros [j x] [j' y] Hp Hq E. cbn in E. subst y. f_equal.
        apply Hgk in Hp as (u & e & Hu & Hku & _). apply Hgk in Hq as (u' & e' & Hu' & Hku' & _).
        assert (exists pc, u = KThr (KFinish x) pc) as [pc ->]. { destruct u as [[] []]; try discriminate Hku; destruct kept; try discriminate Hku; injection Hku as ->; eauto. }
        assert (exists pc, u' = KThr (KFinish x) pc) as [pc' ->]. { destruct u' as [[] []]; try discriminate Hku'; destruct kept; try discriminate Hku'; injection Hku' as ->; eauto. }
        eapply Hone; [exact Hu|exact Hu'|reflexivity]. }
      clear - Hndg Hinj. induction g as [|p g IH]; [constructor|]. apply NoDup_cons in Hndg as [Hp Hndg]. cbn [List.filter].
      assert (IH' : NoDup (map snd (List.filter (fun p => bool_decide (si_parent (info (fs_span (snd p))) = k)) g))) by (apply IH; [exact Hndg|intros; apply Hinj; [right|right|]; assumption]).
      destruct (bool_decide _); [|exact IH']. cbn [map]. apply NoDup_cons. split; [|exact IH'].
      intros Hx. apply elem_of_list_fmap in Hx as (q & Eq & Hq). apply elem_of_list_In, List.filter_In in Hq as [Hq _]. apply elem_of_list_In in Hq.
      apply Hp. rewrite (Hinj p q); [exact Hq|left|right; exact Hq|exact Eq]. }
    assert (HN : forall f, collected info fuel sched f -> (fs_span f < fuel)%nat) by (intros f Hx; apply Hcth in Hx as (j & pc & Hj); eapply Hdeep; exact Hj).
    assert (HrN : (fs_span r < fuel)%nat) by (destruct Hrth as (j & pc & Hj); eapply Hdeep; exact Hj).
    assert (Hr0 : forall f, collected info fuel sched f -> fs_span f <> fs_span r).
    { intros f (j & e & _ & He & Hne) E. apply Hne. rewrite E. apply (trigger_one sched); [exact (proj1 Hend)|exact He]. }
    destruct (walk_spec info _ _ fuel r Hids Hm Hnd HN (fun x y Hx Hy => Hsame x y (or_introl Hx) (or_introl Hy)) Hr0 HrN fuel ltac:(lia)) as (l & Hl & Hx & Hndl).
    assert (Hcr : forall x, x ∈ r :: l -> collected info fuel sched x \/ x = r).
    { intros x Hin. apply Hx in Hin. inversion Hin; subst; auto. }
    exists r, l. split; [exact Hl|]. split; [exact Hend|]. split; [exact Hx|]. split.
    - assert (Hi : forall x y, x ∈ r :: l -> y ∈ r :: l -> fs_span x = fs_span y -> x = y) by (intros x y Hin Hin'; apply Hsame; auto).
      revert Hndl Hi. generalize (r :: l). clear. intros l. induction l as [|x l IH]; intros Hnd Hi; [constructor|]. apply NoDup_cons in Hnd as [Hn Hnd]. cbn [map]. apply NoDup_cons. split.
      + intros Hin. apply elem_of_list_fmap in Hin as (y & E & Hy). apply Hn. rewrite (Hi x y); [exact Hy|left|right; exact Hy|exact E].
      + apply IH; [exact Hnd|]. intros; apply Hi; [right|right|]; assumption.
    - intros x Hin. destruct (Hcr _ Hin) as [Hc| ->]; [|reflexivity]. eapply collected_trace; [exact Hc|]. exact (proj1 Hend).
  Qed.

  (** *** Time *)
  Lemma cl_step_call i s th : kt_call (snd (cl_step info fuel i s th)) = kt_call th.
  Proof.
    unfold cl_step. destruct th as [c pc]. cbn [kt_call kt_pc]. destruct c; destruct pc; cbn; try reflexivity;
      try (destruct (_ || _); reflexivity); try (destruct (cl_check s); reflexivity).
    all: try (destruct (chk_eqb _ _); reflexivity); try (destruct (cl_mtx s); reflexivity); try (destruct (cl_root s); reflexivity); try (destruct (Nat.eqb _ _); reflexivity).
    destruct (cl_check s); try reflexivity. destruct (Nat.eqb _ _); reflexivity.
  Qed.
  Lemma cl_ind (Q : list (action kcall) -> Prop) pre :
    Q pre ->
    (forall post c, Q (pre ++ post) -> Q ((pre ++ post) ++ [Spawn c])) ->
    (forall post i th, Q (pre ++ post) -> threads (cl_exec info fuel (pre ++ post)) !! i = Some th -> Q ((pre ++ post) ++ [Run i])) ->
    (forall post i, Q (pre ++ post) -> threads (cl_exec info fuel (pre ++ post)) !! i = None -> Q ((pre ++ post) ++ [Run i])) ->
    forall post, Q (pre ++ post).
  Proof.
    intros H0 Hs Hr Hn post. induction post as [|a post IH] using rev_ind; [rewrite app_nil_r; exact H0|]. rewrite app_assoc. destruct a as [c|i]; [auto|].
    destruct (threads (cl_exec info fuel (pre ++ post)) !! i) eqn:E; [eapply Hr; eassumption|auto].
  Qed.

  (** What happened stays. *)
  Definition settled (th : kthread) : bool := match kt_pc th with M_done _ | F_done _ | P_done | V_done _ => true | _ => false end.
  Lemma settled_stay pre post i th : cl_thread info fuel pre i th -> settled th = true -> cl_thread info fuel (pre ++ post) i th.
  Proof.
    intros H Hs. revert post. apply (cl_ind (fun s => cl_thread info fuel s i th)); [exact H| | |]; unfold cl_thread, cl_exec in *.
    - intros post c IH. rewrite exec_spawn. cbn. apply lookup_app_l_Some, IH.
    - intros post j u IH Hj. rewrite (exec_run _ _ _ _ _ _ Hj). cbn. destruct (decide (j = i)) as [->|Hne].
      + assert (u = th) by congruence. subst u. rewrite list_lookup_insert by (eapply lookup_lt_Some; exact Hj). f_equal.
        destruct th as [c pc]; destruct pc; try discriminate Hs; destruct c; reflexivity.
      + rewrite list_lookup_insert_ne by congruence. exact IH.
    - intros post j IH Hj. rewrite (exec_run_none _ _ _ _ _ Hj). exact IH.
  Qed.
  Lemma trigger_stay pre post n : trigger info fuel pre n -> trigger info fuel (pre ++ post) n.
  Proof. intros (i & [[m H]|H]); exists i; [left; exists m|right]; (eapply settled_stay; [exact H|reflexivity]). Qed.
  Lemma collected_stay pre post f : collected info fuel pre f -> collected info fuel (pre ++ post) f.
  Proof.
    intros (i & e & Hi & He & Hs). assert (Hx : cl_thread info fuel (pre ++ post) i (KThr (KFinish f) (F_unlock true)) \/ cl_thread info fuel (pre ++ post) i (KThr (KFinish f) (F_done true))).
    { revert post. apply (cl_ind (fun s => cl_thread info fuel s i (KThr (KFinish f) (F_unlock true)) \/ cl_thread info fuel s i (KThr (KFinish f) (F_done true)))); [exact Hi| | |]; unfold cl_thread, cl_exec in *.
      - intros post c IH. rewrite exec_spawn. cbn. destruct IH as [IH|IH]; [left|right]; apply lookup_app_l_Some, IH.
      - intros post j u IH Hj. rewrite (exec_run _ _ _ _ _ _ Hj). cbn. destruct (decide (j = i)) as [->|Hne].
        + rewrite !list_lookup_insert by (eapply lookup_lt_Some; exact Hj). right. destruct IH as [IH|IH]; rewrite IH in Hj; injection Hj as <-; reflexivity.
        + rewrite !list_lookup_insert_ne by congruence. exact IH.
      - intros post j IH Hj. rewrite (exec_run_none _ _ _ _ _ Hj). exact IH. }
    exists i, e. split; [exact Hx|]. split; [apply trigger_stay, He|exact Hs].
  Qed.
  Lemma ended_stay pre post r : ended info fuel pre r -> ended info fuel (pre ++ post) r.
  Proof.
    intros (Hw & i & pc & Hi & Hpc). split; [apply trigger_stay, Hw|].
    revert post. apply (cl_ind (fun s => exists i pc, cl_thread info fuel s i (KThr (KFinish r) pc) /\ (pc = F_unlock_stop \/ pc = F_swap \/ pc = F_close \/ pc = F_done true))); [eauto| | |]; clear i pc Hi Hpc; unfold cl_thread, cl_exec in *.
    - intros post c (i & pc & Hi & Hpc). rewrite exec_spawn. cbn. exists i, pc. split; [apply lookup_app_l_Some, Hi|exact Hpc].
    - intros post j u (i & pc & Hi & Hpc) Hj. rewrite (exec_run _ _ _ _ _ _ Hj). cbn. destruct (decide (j = i)) as [->|Hne].
      + rewrite Hi in Hj. injection Hj as <-. destruct Hpc as [->|[->|[->| ->]]]; cbn [cl_step kt_call kt_pc fst snd]; (eexists i, _; split; [apply list_lookup_insert; eapply lookup_lt_Some; exact Hi|]); auto.
        destruct (chk_eqb _ _); auto.
      + exists i, pc. rewrite list_lookup_insert_ne by congruence. auto.
    - intros post j (i & pc & Hi & Hpc) Hj. rewrite (exec_run_none _ _ _ _ _ Hj). eauto.
  Qed.

  (** Spans called after the end was recorded returns spans. *)
  Lemma spans_after pre post i r a : ended info fuel pre r -> spans_unbegun info fuel pre i -> spans_answer info fuel (pre ++ post) i a -> a <> Some [].
  Proof.
    intros Hend Hun.
    assert (Hx : forall a, cl_thread info fuel (pre ++ post) i (KThr KSpans (V_unlock a)) \/ cl_thread info fuel (pre ++ post) i (KThr KSpans (V_done a)) -> a <> Some []).
    { revert post. apply (cl_ind (fun s => forall a, cl_thread info fuel s i (KThr KSpans (V_unlock a)) \/ cl_thread info fuel s i (KThr KSpans (V_done a)) -> a <> Some [])).
      - intros x [Hx|Hx]; apply Hun in Hx; discriminate Hx.
      - intros post c IH x Hx. apply IH. unfold cl_thread, cl_exec in *. rewrite exec_spawn in Hx. cbn in Hx. destruct Hx as [Hx|Hx]; apply kt_lookup_snoc in Hx as [Hx|[_ E]]; auto; destruct c; discriminate E.
      - intros post j u IH Hj x Hx. pose proof (ended_stay pre post r Hend) as Hr. apply root_ended in Hr. unfold cl_thread, cl_exec in *. rewrite (exec_run _ _ _ _ _ _ Hj) in Hx. cbn in Hx.
        destruct (decide (j = i)) as [->|Hne].
        + rewrite !list_lookup_insert in Hx by (eapply lookup_lt_Some; exact Hj). set (s := shared (exec cl_start (cl_step info fuel) cl_new (pre ++ post))) in *.
          destruct u as [c pc]. pose proof (cl_step_call i s (KThr c pc)) as Ec.
          assert (c = KSpans) as -> by (destruct Hx as [Hx|Hx]; injection Hx as Hx; rewrite Hx in Ec; cbn in Ec; congruence).
          unfold cl_step in Hx. cbn [kt_call kt_pc] in Hx. destruct pc; cbn [snd] in Hx; try (destruct Hx as [Hx|Hx]; discriminate Hx).
          * destruct (cl_mtx s); cbn [snd] in Hx; [destruct Hx as [Hx|Hx]; discriminate Hx|]. destruct Hx as [Hx|Hx]; [|discriminate Hx]. injection Hx as <-. rewrite Hr.
            destruct fuel; cbn; [discriminate|]. destruct (mapM _ _); discriminate.
          * destruct Hx as [Hx|Hx]; [discriminate Hx|]. injection Hx as <-. apply IH. auto.
          * destruct Hx as [Hx|Hx]; [discriminate Hx|]. injection Hx as <-. apply IH. auto.
        + rewrite !list_lookup_insert_ne in Hx by congruence. auto.
      - intros post j IH Hj x. unfold cl_thread, cl_exec in *. rewrite (exec_run_none _ _ _ _ _ Hj). apply IH. }
    intros Ha. apply Hx. right. exact Ha.
  Qed.

  (** Who ended the collection. *)
  Definition stopper (th : kthread) : bool :=
    match kt_call th, kt_pc th with
    | KStop, (P_close | P_done) => true
    | KFinish _, (F_close | F_done true) => true
    | _, _ => false
    end.
  Definition ender (th : kthread) : bool :=
    match kt_call th, kt_pc th with
    | KStop, (P_close | P_done) => true
    | _, _ => false
    end.
  Definition k8 (s : coll) (ts : list kthread) : Prop :=
    cl_check s = CDone -> exists i th, ts !! i = Some th /\ (ender th = true \/ is_Some (cl_root s)).
  Lemma k8_exec sched : k8 (shared (cl_exec info fuel sched)) (threads (cl_exec info fuel sched)).
  Proof.
    apply (exec_inv cl_start (cl_step info fuel) (fun s ts => kinv s ts /\ k8 s ts)).
    - split; [apply (kinv_exec [])|]. discriminate.
    - intros s ts c [H H8]. split; [apply kinv_spawn, H|]. intros E. destruct (H8 E) as (i & th & Hi & Ht). exists i, th. split; [apply lookup_app_l_Some, Hi|exact Ht].
    - intros s ts i th [H H8] Hi. split; [apply kinv_step; assumption|]. assert (Hlt : (i < length ts)%nat) by (eapply lookup_lt_Some; exact Hi).
      pose proof (K4 _ _ H _ _ Hi) as Htok.
      assert (Hend : ender th = true -> ender (snd (cl_step info fuel i s th)) = true).
      { destruct th as [c pc]. destruct c; destruct pc; try discriminate; intros _; reflexivity. }
      assert (Hroot : is_Some (cl_root s) -> is_Some (cl_root (fst (cl_step info fuel i s th)))).
      { intros [r Hr]. destruct th as [c pc]; unfold cl_step; cbn [kt_call kt_pc]; destruct c; destruct pc; cbn; eauto.
        - destruct (_ || _); eauto.
        - destruct (chk_eqb _ _); eauto.
        - destruct (chk_eqb _ _); eauto.
        - destruct (cl_check s); eauto. destruct (Nat.eqb _ _); eauto.
        - destruct (cl_mtx s); eauto.
        - rewrite Hr. cbn. eauto.
        - destruct (Nat.eqb _ _); cbn; eauto.
        - destruct (cl_mtx s); eauto. }
      assert (Hkeep : cl_check s = CDone -> exists j u, <[i := snd (cl_step info fuel i s th)]> ts !! j = Some u /\ (ender u = true \/ is_Some (cl_root (fst (cl_step info fuel i s th))))).
      { intros E. destruct (H8 E) as (j & u & Hj & Hu). destruct (decide (j = i)) as [->|Hne].
        - assert (u = th) by congruence. subst u. eexists i, _. split; [apply list_lookup_insert, Hlt|]. destruct Hu; auto.
        - exists j, u. rewrite list_lookup_insert_ne by congruence. split; [exact Hj|]. destruct Hu; auto. }
      destruct (cl_check s) eqn:Ec; [|intros _; apply Hkeep; reflexivity|].
      all: intros E; destruct th as [c pc]; unfold cl_step in E |- *; cbn [kt_call kt_pc] in E |- *; destruct c; destruct pc; cbn [fst snd cl_check cl_set_check cl_set_mtx cl_close chk_eqb] in E |- *; try congruence; rewrite ?Ec in *; cbn [chk_eqb negb orb fst snd cl_check cl_set_check cl_set_mtx cl_close] in *; try congruence.
      all: try (destruct matched; cbn [negb fst snd cl_check] in E; congruence).
      all: try (destruct (cl_mtx s); cbn [fst snd cl_check cl_set_mtx] in E; congruence).
      all: try (destruct (cl_root s); cbn [fst snd cl_check cl_set_mtx] in E; congruence).
      all: try (destruct (Nat.eqb _ _); cbn [fst snd cl_check cl_set_mtx] in E; congruence).
      all: eexists i, _; (split; [apply list_lookup_insert, Hlt|]).
      all: try (left; reflexivity).
      all: unfold ktok in Htok; cbn [kt_call kt_pc] in Htok; try contradiction; destruct Htok as [Hr _]; right; cbn; rewrite Hr; eauto.
  Qed.

  Lemma undisturbed_check sched n : trigger info fuel sched n -> undisturbed info fuel sched n ->
    cl_check (shared (cl_exec info fuel sched)) = CSpan n /\ cl_root (shared (cl_exec info fuel sched)) = None.
  Proof.
    intros Hn [Hst Hfin]. pose proof (kinv_exec sched) as H.
    assert (Hroot : cl_root (shared (cl_exec info fuel sched)) = None).
    { destruct (cl_root (shared (cl_exec info fuel sched))) as [r|] eqn:E; [|reflexivity]. exfalso. apply root_ended in E as (Hw & i & pc & Hi & Hpc).
      pose proof (Hfin _ _ _ Hi (trigger_one _ _ _ Hw Hn)). subst pc. destruct Hpc as [?|[?|[?|?]]]; discriminate. }
    split; [|exact Hroot]. pose proof (K3 _ _ H) as H3. pose proof (k8_exec sched) as H8. unfold k8 in H8. rewrite <- win_trigger in Hn.
    destruct (cl_check (shared (cl_exec info fuel sched))) as [| |n'].
    - destruct (H3 _ Hn).
    - exfalso. destruct (H8 eq_refl) as (i & [c pc] & Hi & [He|He]); [|rewrite Hroot in He; destruct He; discriminate].
      destruct c; try discriminate He. pose proof (Hst _ _ Hi). subst pc. discriminate He.
    - f_equal. eapply (K2 _ _ H); eassumption.
  Qed.
  Lemma undisturbed_prefix pre post n : undisturbed info fuel (pre ++ post) n -> undisturbed info fuel pre n.
  Proof.
    assert (Hmono : forall i c pc0, cl_thread info fuel pre i (KThr c pc0) -> pc0 <> kt_pc (cl_start c) ->
              exists pc, cl_thread info fuel (pre ++ post) i (KThr c pc) /\ pc <> kt_pc (cl_start c)).
    { intros i c pc0 Hi Hp. revert post. apply (cl_ind (fun s => exists pc, cl_thread info fuel s i (KThr c pc) /\ pc <> kt_pc (cl_start c))); [eauto| | |]; clear pc0 Hi Hp.
      - intros post x (pc & Hi & Hp). exists pc. split; [|exact Hp]. unfold cl_thread, cl_exec in *. rewrite exec_spawn. cbn. apply lookup_app_l_Some, Hi.
      - intros post j u (pc & Hi & Hp) Hj. unfold cl_thread, cl_exec in *. rewrite (exec_run _ _ _ _ _ _ Hj). cbn. destruct (decide (j = i)) as [->|Hne].
        2: { exists pc. rewrite list_lookup_insert_ne by congruence. auto. }
        assert (u = KThr c pc) by congruence. subst u. rewrite list_lookup_insert by (eapply lookup_lt_Some; exact Hj).
        set (s := shared (exec cl_start (cl_step info fuel) cl_new (pre ++ post))).
        pose proof (cl_step_call i s (KThr c pc)) as Ec. exists (kt_pc (snd (cl_step info fuel i s (KThr c pc)))). split.
        + f_equal. destruct (cl_step info fuel i s (KThr c pc)) as [s' [c' pc']]. cbn in *. congruence.
        + clear - Hp. destruct c; destruct pc; unfold cl_step; cbn in Hp |- *; try congruence; cbn.
          all: try (destruct (chk_eqb _ _); discriminate); try (destruct (cl_mtx s); discriminate); try (destruct (cl_root s); discriminate); try (destruct (Nat.eqb _ _); discriminate).
      - intros post j IH Hj. unfold cl_thread, cl_exec in *. rewrite (exec_run_none _ _ _ _ _ Hj). exact IH. }
    intros [Hs Hf]. split.
    - intros i pc Hi. destruct (decide (is_Some (match pc with P_swap => Some tt | _ => None end))) as [E|E]; [destruct pc; destruct E; try discriminate; reflexivity|].
      exfalso. destruct (Hmono _ _ _ Hi) as (pc' & Hi' & Hp'); [cbn; intros ->; apply E; eauto|]. apply Hp', (Hs _ _ Hi').
    - intros i f pc Hi En. destruct (decide (is_Some (match pc with F_load => Some tt | _ => None end))) as [E|E]; [destruct pc; destruct E; try discriminate; reflexivity|].
      exfalso. destruct (Hmono _ _ _ Hi) as (pc' & Hi' & Hp'); [cbn; intros ->; apply E; eauto|]. apply Hp', (Hf _ _ _ Hi' En).
  Qed.

  Lemma period_collected sched n f : in_period info fuel sched n f -> collected info fuel sched f.
  Proof.
    intros (pre & mid & post & i & b & -> & Hn & Hu & Htr & Hun & Hdone). rewrite app_assoc. apply collected_stay.
    assert (Hb : forall g pc, undisturbed info fuel (pre ++ mid) n -> cl_thread info fuel (pre ++ mid) i (KThr (KFinish g) pc) -> si_trace (info (fs_span g)) = si_trace (info n) -> fs_span g <> n ->
       pc = F_load \/ pc = F_lock n \/ pc = F_root n \/ pc = F_store n \/ pc = F_unlock true \/ pc = F_done true).
    { clear Hdone b Hu f Htr. revert mid.
      apply (cl_ind (fun s => forall g pc, undisturbed info fuel s n -> cl_thread info fuel s i (KThr (KFinish g) pc) -> si_trace (info (fs_span g)) = si_trace (info n) -> fs_span g <> n ->
        pc = F_load \/ pc = F_lock n \/ pc = F_root n \/ pc = F_store n \/ pc = F_unlock true \/ pc = F_done true)).
      - intros g pc _ Hi _ _. left. apply (Hun _ Hi).
      - intros mid c IH g pc Hu Hi. pose proof (undisturbed_prefix _ _ _ Hu) as Hu'. unfold cl_thread, cl_exec in Hi. rewrite exec_spawn in Hi. cbn in Hi. apply kt_lookup_snoc in Hi as [Hi|[_ E]]; [eapply IH; eassumption|].
        intros _ _. left. destruct c; try discriminate E. apply (f_equal kt_pc) in E. exact E.
      - intros mid j u IH Hj g pc Hu Hi Htr Hne. pose proof (undisturbed_prefix _ _ _ Hu) as Hu'. pose proof (undisturbed_check _ _ (trigger_stay pre mid n Hn) Hu') as [Hck Hrt].
        unfold cl_thread, cl_exec in Hi. rewrite (exec_run _ _ _ _ _ _ Hj) in Hi. cbn in Hi. destruct (decide (j = i)) as [->|Hji].
        2: { rewrite list_lookup_insert_ne in Hi by congruence. eapply IH; eassumption. }
        rewrite list_lookup_insert in Hi by (eapply lookup_lt_Some; exact Hj). unfold cl_exec in Hck, Hrt. set (s := shared (exec cl_start (cl_step info fuel) cl_new (pre ++ mid))) in *.
        destruct u as [c pc0]. pose proof (cl_step_call i s (KThr c pc0)) as Ec. injection Hi as Hi. rewrite Hi in Ec. cbn in Ec. subst c.
        specialize (IH g pc0 Hu' Hj Htr Hne). apply (f_equal kt_pc) in Hi. unfold cl_step in Hi. cbn [kt_call kt_pc] in Hi.
        destruct IH as [->|[->|[->|[->|[->| ->]]]]]; cbn [kt_pc] in Hi.
        + rewrite Hck in Hi. rewrite (proj2 (Nat.eqb_eq _ _)) in Hi by congruence. cbn in Hi. auto.
        + destruct (cl_mtx s); cbn in Hi; auto.
        + rewrite Hrt in Hi. cbn in Hi. auto 6.
        + rewrite (proj2 (Nat.eqb_neq _ _)) in Hi by congruence. cbn in Hi. auto 8.
        + cbn in Hi. auto 8.
        + cbn in Hi. auto 8.
      - intros mid j IH Hj. unfold undisturbed, cl_thread, cl_exec in *. rewrite (exec_run_none _ _ _ _ _ Hj). exact IH. }
    assert (Hne : fs_span f <> n).
    { intros E. pose proof (proj2 Hu _ _ _ Hdone E). discriminate. }
    destruct (Hb f _ Hu Hdone Htr Hne) as [E|[E|[E|[E|[E|E]]]]]; try discriminate E.
    exists i, n. split; [right; rewrite <- E; exact Hdone|]. split; [apply trigger_stay, Hn|exact Hne].
  Qed.
  Lemma connected_mono (P Q : fin -> Prop) r x : (forall f, P f -> Q f) -> connected info P r x -> connected info Q r x.
  Proof. intros H. induction 1; [apply conn_root|eapply conn_child; eauto]. Qed.

  Lemma period_returned sched pre post i n r a x : sched = pre ++ post -> distinct_ids info -> finish_once info fuel sched -> deep_enough info fuel sched ->
    ended info fuel pre r -> fs_span r = n -> spans_unbegun info fuel pre i -> spans_answer info fuel sched i a ->
    connected info (in_period info fuel sched n) r x -> exists l, a = Some (r :: l) /\ x ∈ r :: l.
  Proof.
    intros -> Hids Hone Hdeep Hend Hn Hun Ha Hx.
    destruct (spans_tree _ _ _ Hids Hone Hdeep Ha) as [->|(r' & l & -> & Hend' & Hl & _)]; [destruct (spans_after _ _ _ _ _ Hend Hun Ha); reflexivity|].
    assert (r' = r). { apply (ended_stay _ post) in Hend. apply root_ended in Hend, Hend'. congruence. } subst r'.
    exists l. split; [reflexivity|]. apply Hl. eapply connected_mono; [|exact Hx]. intros f. apply period_collected.
  Qed.

  (** Nothing else is kept. *)
  Lemma kept_during sched f : collected info fuel sched f ->
    exists pre post i e, sched = pre ++ post /\ cl_thread info fuel pre i (KThr (KFinish f) (F_store e)) /\ trigger info fuel pre e /\ forall r, ~ ended info fuel pre r.
  Proof.
    induction sched as [|a sched IH] using rev_ind; intros Hc.
    { destruct Hc as (i & e & [Hi|Hi] & _); discriminate Hi. }
    assert (Hext : collected info fuel sched f -> exists pre post i e, sched ++ [a] = pre ++ post /\ cl_thread info fuel pre i (KThr (KFinish f) (F_store e)) /\ trigger info fuel pre e /\ forall r, ~ ended info fuel pre r).
    { intros Hc'. destruct (IH Hc') as (pre & post & i & e & -> & Hx). exists pre, (post ++ [a]), i, e. split; [symmetry; apply app_assoc|exact Hx]. }
    destruct Hc as (i & e & Hi & He & Hne). pose proof (kinv_exec sched) as H.
    assert (Hself : forall pc, cl_thread info fuel sched i (KThr (KFinish f) pc) -> pc = F_unlock true \/ pc = F_done true -> collected info fuel sched f).
    { intros pc Hp [-> | ->].
      - pose proof (K4 _ _ H _ _ Hp) as (e' & He' & _ & Hn'). exists i, e'. rewrite <- win_trigger. auto.
      - pose proof (K4 _ _ H _ _ Hp) as (e' & He' & _ & Hn'). exists i, e'. rewrite <- win_trigger. split; [auto|]. split; [exact He'|].
        destruct Hn' as [Hn'|[Hn' _]]; [exact Hn'|]. apply win_trigger in He'. apply (trigger_stay _ [a]) in He'. pose proof (trigger_one _ _ _ He He'). congruence. }
    destruct a as [c|k].
    - apply Hext. unfold cl_thread, cl_exec in Hi. rewrite exec_spawn in Hi. cbn in Hi.
      destruct Hi as [Hi|Hi]; apply kt_lookup_snoc in Hi as [Hi|[_ E]]; try (destruct c; discriminate E); (eapply Hself; [exact Hi|auto]).
    - destruct (threads (cl_exec info fuel sched) !! k) as [u|] eqn:Hk.
      2: { apply Hext. unfold cl_thread, cl_exec in Hi. rewrite (exec_run_none _ _ _ _ _ Hk) in Hi. destruct Hi as [Hi|Hi]; (eapply Hself; [exact Hi|auto]). }
      unfold cl_thread, cl_exec in Hi. rewrite (exec_run _ _ _ _ _ _ Hk) in Hi. cbn in Hi. destruct (decide (k = i)) as [->|Hki].
      2: { apply Hext. rewrite !list_lookup_insert_ne in Hi by congruence. destruct Hi as [Hi|Hi]; (eapply Hself; [exact Hi|auto]). }
      rewrite !list_lookup_insert in Hi by (eapply lookup_lt_Some; exact Hk). pose proof (K4 _ _ H _ _ Hk) as Ht. unfold cl_exec in Hk, Ht. set (s := shared (exec cl_start (cl_step info fuel) cl_new sched)) in *.
      destruct u as [c pc]. pose proof (cl_step_call i s (KThr c pc)) as Ec.
      assert (c = KFinish f) as -> by (destruct Hi as [Hi|Hi]; injection Hi as Hi; rewrite Hi in Ec; cbn in Ec; congruence).
      assert (Hi' : kt_pc (snd (cl_step info fuel i s (KThr (KFinish f) pc))) = F_unlock true \/ kt_pc (snd (cl_step info fuel i s (KThr (KFinish f) pc))) = F_done true).
      { destruct Hi as [Hi|Hi]; injection Hi as ->; auto. }
      clear Hi Ec. unfold cl_step in Hi'. unfold ktok in Ht. cbn [kt_call kt_pc] in Hi', Ht. destruct pc; try contradiction; cbn [snd kt_pc] in Hi'.
      + destruct (cl_check s); [| |destruct (Nat.eqb _ _)]; destruct Hi' as [Hi'|Hi']; discriminate Hi'.
      + destruct (cl_mtx s); destruct Hi' as [Hi'|Hi']; discriminate Hi'.
      + destruct (cl_root s); destruct Hi' as [Hi'|Hi']; discriminate Hi'.
      + exists sched, [Run i], i, existing. split; [reflexivity|]. split; [exact Hk|]. destruct Ht as (Hw & _ & Hr). split; [apply win_trigger, Hw|].
        intros r Hx. apply root_ended in Hx. unfold cl_exec in Hx. fold s in Hx. congruence.
      + apply Hext. destruct kept; [eapply Hself; [exact Hk|auto]|destruct Hi' as [Hi'|Hi']; discriminate Hi'].
      + destruct Hi' as [Hi'|Hi']; discriminate Hi'.
      + destruct Ht as [_ Hw]. apply win_trigger, (trigger_stay _ [Run i]) in Hw. destruct Hne. eapply trigger_one; eassumption.
      + destruct Ht as [_ Hw]. apply win_trigger, (trigger_stay _ [Run i]) in Hw. destruct Hne. eapply trigger_one; eassumption.
      + apply Hext. destruct kept; [eapply Hself; [exact Hk|auto]|destruct Hi' as [Hi'|Hi']; discriminate Hi'].
  Qed.
End inv.

(** ** spanFinder *)
Definition fclosing (t : fthread) : bool := match ft_pc t with Q_close => true | _ => false end.
Lemma finder_once sched : 0 <= fi_closes (shared (fi_exec sched)) <= 1.
Proof.
  assert (H : 0 <= fi_closes (shared (fi_exec sched)) /\ fi_closes (shared (fi_exec sched)) + tally fclosing (threads (fi_exec sched)) = b2z (fi_flag (shared (fi_exec sched)))).
  { apply (exec_inv fi_start fi_step (fun s ts => 0 <= fi_closes s /\ fi_closes s + tally fclosing ts = b2z (fi_flag s))).
    - split; [cbn; lia|reflexivity].
    - intros s ts c [H0 H]. split; [exact H0|]. rewrite tally_app, tally_cons. change (tally fclosing []) with 0. assert (fclosing (fi_start c) = false) as -> by (destruct c; reflexivity). cbn. lia.
    - intros s ts i t [H0 H] Hi. rewrite (tally_insert _ _ _ _ _ Hi). destruct t as [c pc]. unfold fi_step. cbn [ft_call ft_pc].
      destruct pc.
      + destruct c as [m|]; [|cbn; split; [exact H0|lia]]. destruct (fi_flag s || negb m); cbn; split; try exact H0; lia.
      + destruct (fi_flag s); cbn in *; split; try exact H0; lia.
      + pose proof (tally_pos fclosing ts i _ Hi eq_refl). destruct (fi_flag s); cbn in *; split; lia.
      + cbn. split; [exact H0|lia]. }
  destruct H as [H0 H]. pose proof (tally_nonneg fclosing (threads (fi_exec sched))). unfold b2z in *. destruct (fi_flag _); lia.
Qed.
