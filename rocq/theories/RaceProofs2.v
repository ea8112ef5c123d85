(** * Libraries that pass the check have no data races: the memory *)
From Verif Require Import RaceModel RaceSpec RaceCheck RaceProofs.
From stdpp Require Import relations.
From Coq Require Import Lia.

Section heap.
  Variable disc : string -> string -> option kind.
  Local Notation hinv := (hinv disc).
  Local Notation accinv := (accinv disc).
  Local Notation allowed := (allowed disc).

  (** Memories that differ only in that more is stored, done or allocated. *)
  Definition grows (h h' : heap) : Prop :=
    (exists x, objs h' = objs h ++ x) /\
    (forall o f o' c, objs h !! o = Some c -> disc c f = Some KImm -> (o, f, o') ∈ cont h -> (o, f, o') ∈ cont h') /\
    done h ⊆ done h'.

  Lemma grows_more h h' :
    (exists x, objs h' = objs h ++ x) -> cont h ⊆ cont h' -> done h ⊆ done h' -> grows h h'.
  Proof. intros H1 H2 H3. split; [done|]. split; [|done]. intros o f o' c _ _ H. by apply H2. Qed.

  Definition latest (tr : list (nat * ev)) (j : nat) (ej : ev) (o : nat) (f : string) : Prop :=
    forall a, ej = EAt a o f -> writes a /\ forall k t b, j < k -> tr !! k = Some (t, EAt b o f) -> ~ writes b.

  Lemma latest_ext tr j ej o f x :
    (forall t b, x = (t, EAt b o f) -> ~ writes b) -> latest tr j ej o f -> latest (tr ++ [x]) j ej o f.
  Proof.
    intros Hx H a Ha. destruct (H a Ha) as [H1 H2]. split; [done|]. intros k t b Hk Hl.
    apply lookup_snoc in Hl as [Hl|[_ Hl]]; [by eapply H2|]. by eapply Hx.
  Qed.

  (** What is stored after an access. *)
  Definition after (e : ev) (o : nat) (f : string) (cs co : list (nat * string * nat)) :=
    match e with ERd _ _ => co | EAt a _ _ => put a o f cs co | _ => cs ++ co end.

  Lemma after_in e o f cs co p :
    p ∈ after e o f cs co ->
    (p ∈ cs /\ ~ is_plain_read e /\ forall a o' f', e = EAt a o' f' -> writes a) \/
    (p ∈ co /\ forall a o' f', e = EAt a o' f' -> writes a -> p.1 <> (o, f)).
  Proof.
    intros H. destruct e as [| | |a o1 f1| | | | | |]; cbn in H;
      try (apply elem_of_app in H as [H|H]; [left|right]; (split; [done|]); [split|]; [intros (? & ? & ?)|..]; done).
    - by right.
    - destruct a; cbn in H.
      + right. split; [done|]. intros a o' f' [= <- _ _] Hw. by destruct Hw.
      + apply elem_of_app in H as [H|H]; [left|right].
        { split; [done|]. split; [by intros (? & ? & ?)|]. by intros a o' f' [= <- _ _]. }
        apply elem_of_list_In, filter_In in H as [H1 H2]. split; [by apply elem_of_list_In|].
        intros _ _ _ _ _ E. destruct p as [[a1 a2] a3]. cbn in *. injection E as -> ->.
        by rewrite Nat.eqb_refl, String.eqb_refl in H2.
      + apply elem_of_app in H as [H|H]; [left|right].
        { split; [done|]. split; [by intros (? & ? & ?)|]. by intros a o' f' [= <- _ _]. }
        apply elem_of_list_In, filter_In in H as [H1 H2]. split; [by apply elem_of_list_In|].
        intros _ _ _ _ _ E. destruct p as [[a1 a2] a3]. cbn in *. injection E as -> ->.
        by rewrite Nat.eqb_refl, String.eqb_refl in H2.
  Qed.

  Lemma after_keep e o f cs co p :
    p ∈ co -> p.1 <> (o, f) \/ ~ is_atomic e -> p ∈ after e o f cs co.
  Proof.
    intros H Hd. destruct e as [| | |a o1 f1| | | | | |]; cbn; try (apply elem_of_app; by right); [done|].
    destruct Hd as [Hd|Hd]; [|exfalso; apply Hd; by eexists _, _, _].
    destruct p as [[a1 a2] a3]. cbn in Hd.
    assert ((a1, a2, a3) ∈ List.filter (fun p => negb (Nat.eqb p.1.1 o && String.eqb p.1.2 f)) co) as H1.
    { apply elem_of_list_In, filter_In. split; [by apply elem_of_list_In|]. cbn.
      destruct (Nat.eqb_spec a1 o) as [->|]; [|done]. destruct (String.eqb_spec a2 f) as [->|]; done. }
    destruct a; cbn; [done|apply elem_of_app; by right..].
  Qed.

  Lemma grows_obj h h' o c : grows h h' -> objs h !! o = Some c -> objs h' !! o = Some c.
  Proof. intros [[x ->] _] H. by apply lookup_app_l_Some. Qed.

  Lemma lookup_ext (tr x : list (nat * ev)) i y : tr !! i = Some y -> (tr ++ x) !! i = Some y.
  Proof. apply lookup_app_l_Some. Qed.

  Lemma lockinv_ext h h' tr x o l j t e :
    held h' = held h -> lockinv h tr o l j t e -> lockinv h' (tr ++ x) o l j t e.
  Proof.
    intros Hh [LW LR]. unfold lockinv. rewrite !Hh. split.
    - destruct LW as [?|[?|(k & Hjk & Hk & Ha)]]; [auto..|]. right. right. exists k.
      split_and!; [done|by apply lookup_ext|]. intros t' m' H Hm.
      destruct (Ha _ _ H Hm) as (a & ? & ?). exists a. split; [done|by apply lookup_ext].
    - destruct LR as [?|(k & m & Hm & Hjk & Hk & Ha)]; [auto|]. right. exists k, m.
      split_and!; [done..|by apply lookup_ext|]. intros t' H.
      destruct (Ha _ H) as (a & ? & ?). exists a. split; [done|by apply lookup_ext].
  Qed.

  Lemma accinv_ext h h' tr x kd j t e o f :
    grows h h' -> held h' = held h -> accinv h tr kd j t e o f -> accinv h' (tr ++ x) kd j t e o f.
  Proof.
    intros ((ob & Go) & Gc & Gd) Hh. destruct kd as [| |l|g l|n|]; cbn; auto.
    - by apply lockinv_ext.
    - intros ((c & Hc & Hg) & o1 & H1 & H2). split.
      { exists c. split; [rewrite Go; by apply lookup_app_l_Some|done]. }
      exists o1. split; [by eapply Gc|by eapply lockinv_ext].
    - unfold onceinv. rewrite Hh. intros [?|[? H]]; [by left|right]. split; [by apply Gd|].
      destruct H as [?|(k & ? & ?)]; [by left|right]. exists k. split; [done|by apply lookup_ext].
    - intros (n & c & ?). exists n, c. by apply lookup_ext.
  Qed.

  (** An event that is neither an access, an allocation, nor of a lock. *)
  Definition is_other (e : ev) : Prop :=
    match e with EPass _ _ | ESpawn _ | ESend _ | ERecv _ => True | _ => False end.

  Lemma hinv_other h tr t e : is_other e -> hinv h tr -> hinv h (tr ++ [(t, e)]).
  Proof.
    intros He I. assert (forall o f, ~ touches e o f) as Ht by (intros o f; destruct e; cbn in *; tauto).
    assert (grows h h) as G by (apply grows_more; [exists []; by rewrite app_nil_r|set_solver..]).
    split.
    - intros o f o' H. destruct (i_cont _ _ _ I _ _ _ H) as (j & n & tj & ej & tn & c & H1 & H2 & H3 & H4 & H5 & H6).
      exists j, n, tj, ej, tn, c. split_and!; [by apply lookup_ext|done|done|apply latest_ext; [intros t1 b [= _ ->]; done|done]|by apply lookup_ext|by apply hb_ext].
    - intros n u o c H. apply lookup_snoc in H as [H|[_ H]]; [exact (i_new _ _ _ I _ _ _ _ H)|].
      inversion H; subst; done.
    - intros n1 n2 t1 t2 o c1 c2 H1 H2.
      apply lookup_snoc in H1 as [H1|[_ H1]]; [|by inversion H1; subst].
      apply lookup_snoc in H2 as [H2|[_ H2]]; [|by inversion H2; subst].
      by eapply i_new1.
    - eapply i_imm, I.
    - eapply i_obj, I.
    - eapply i_excl, I.
    - eapply i_once, I.
    - intros k u o l H. apply lookup_snoc in H as [H|[_ H]]; [exact (i_rel _ _ _ I _ _ _ _ H)|].
      inversion H; subst; done.
    - intros j u e1 o f H Ht1 Hn. apply lookup_snoc in H as [H|[_ H]].
      + destruct (i_acc _ _ _ I _ _ _ _ _ H Ht1 Hn) as (c & kd & ? & ? & ?).
        exists c, kd. split_and!; try done. by eapply accinv_ext.
      + inversion H; subst. by apply Ht in Ht1.
    - intros i j t1 e1 t2 e2 H1 H2 Hij Hc.
      apply lookup_snoc in H2 as [H2|[-> H2]].
      + apply lookup_snoc in H1 as [H1|[-> H1]]; [apply hb_ext; by eapply i_rf|].
        apply lookup_lt_Some in H2. lia.
      + inversion H2; subst. destruct Hc as [(o & f & _ & Hc) _]. by apply Ht in Hc.
  Qed.

  Lemma access_grows h tr t e o f cs :
    allowed h tr t e o f ->
    grows h {| objs := objs h; cont := after e o f cs (cont h); held := held h; done := done h |}.
  Proof.
    intros [Hk (c & kd & Hc & Hd & A')]. split; [exists []; by rewrite app_nil_r|]. split; [|done].
    intros o1 f1 o' c1 H1 H2 H. cbn. apply after_keep; [done|]. cbn.
    destruct (decide ((o1, f1) = (o, f))) as [[= -> ->]|Hne]; [right|by left].
    rewrite Hc in H1. injection H1 as <-. rewrite Hd in H2. injection H2 as ->. subst e.
    by intros (? & ? & ? & ?).
  Qed.

  (** An access, storing pointers to objects that the goroutine knows. *)
  Lemma hinv_access h tr t e o f cs :
    touches e o f -> ~ is_new e -> hinv h tr -> allowed h tr t e o f ->
    (forall p, p ∈ cs -> exists o', p = (o, f, o') /\ knows tr t o') ->
    hinv {| objs := objs h; cont := after e o f cs (cont h); held := held h; done := done h |} (tr ++ [(t, e)]).
  Proof.
    intros Ht Hn I A Hcs.
    set (h' := {| objs := objs h; cont := after e o f cs (cont h); held := held h; done := done h |}).
    pose proof A as [Hk (c & kd & Hc & Hd & A')].
    assert (grows h h') as G by by eapply access_grows.
    assert (o < length (objs h)) as Ho by by eapply lookup_lt_Some.
    assert (forall o1 f1, touches e o1 f1 -> o1 = o /\ f1 = f) as Htu.
    { intros o1 f1. destruct e; cbn in *; try done; try (destruct Ht as [-> ->]; intros [-> ->]; done).
      exfalso. apply Hn. by eexists _, _. }
    split.
    - intros o1 f1 o' H. cbn in H. apply after_in in H as [(H & H' & H'')|[H H']].
      + destruct (Hcs _ H) as (o'' & E & n & u & c' & H1 & H2). inversion E; subst o1 f1 o''.
        exists (length tr), n, t, e, u, c'. split_and!; [apply last_event|done|done| |by apply lookup_ext|by apply seen_next].
        intros a Ha. split; [by eapply H''|]. intros k t' b Hk' Hl. apply lookup_lt_Some in Hl.
        rewrite app_length in Hl. cbn in Hl. lia.
      + destruct (i_cont _ _ _ I _ _ _ H) as (j & n & tj & ej & tn & c1 & H1 & H2 & H3 & H4 & H5 & H6).
        exists j, n, tj, ej, tn, c1. split_and!; [by apply lookup_ext|done|done|apply latest_ext; [intros t1 b [= -> ->] Hw; destruct (Htu o1 f1) as [-> ->]; [done|]; by apply (H' _ _ _ eq_refl Hw)|done]|by apply lookup_ext|by apply hb_ext].
    - intros n u o1 c1 H. apply lookup_snoc in H as [H|[_ H]]; [exact (i_new _ _ _ I _ _ _ _ H)|].
      inversion H; subst. exfalso. apply Hn. by eexists _, _.
    - intros n1 n2 t1 t2 o1 c1 c2 H1 H2.
      apply lookup_snoc in H1 as [H1|[_ H1]]; [|inversion H1; subst; exfalso; apply Hn; by eexists _, _].
      apply lookup_snoc in H2 as [H2|[_ H2]]; [|inversion H2; subst; exfalso; apply Hn; by eexists _, _].
      by eapply i_new1.
    - cbn. intros o1 c1 f1 o2 o3 H1 H2 H3 H4.
      assert (forall x, ~ is_plain_read e -> (o1, f1, x) ∈ cs -> False) as Hx.
      { intros x Hrd Hx. destruct (Hcs _ Hx) as (o'' & E & _). inversion E; subst o1 f1 o''.
        rewrite Hc in H1. injection H1 as <-. rewrite Hd in H2. injection H2 as ->.
        subst e. apply Hrd. by eexists _, _. }
      apply after_in in H3 as [(H3 & H' & _)|[H3 _]]; [by apply (Hx _ H')in H3|].
      apply after_in in H4 as [(H4 & H' & _)|[H4 _]]; [by apply (Hx _ H') in H4|].
      by eapply i_imm.
    - cbn. intros o1 f1 o' H. apply after_in in H as [(H & _ & _)|[H _]].
      + destruct (Hcs _ H) as (o'' & E & _). by inversion E; subst.
      + by eapply i_obj.
    - exact (i_excl _ _ _ I).
    - exact (i_once _ _ _ I).
    - intros k u o1 l1 H. apply lookup_snoc in H as [H|[_ H]]; [exact (i_rel _ _ _ I _ _ _ _ H)|].
      inversion H; subst; done.
    - intros j u e1 o1 f1 H Ht1 Hn1. apply lookup_snoc in H as [H|[-> H]].
      + destruct (i_acc _ _ _ I _ _ _ _ _ H Ht1 Hn1) as (c1 & kd1 & ? & ? & ?).
        exists c1, kd1. split_and!; try done. by eapply accinv_ext.
      + inversion H; subst u e1. destruct (Htu _ _ Ht1) as [-> ->].
        exists c, kd. split_and!; try done. destruct kd as [| |l|g l|n|]; cbn; try done.
        * unfold lockinv. cbn. destruct A' as [A'|[A1 A']].
          { split; [by right; left|]. left. by exists MW. }
          { split; [by left|]. left. by exists MR. }
        * destruct A' as (Hg & o2 & H1 & H2). split; [by exists c|]. exists o2.
          split; [by eapply (proj1 (proj2 G))|]. unfold lockinv. cbn.
          split; [by right; left|]. left. by exists MW.
        * unfold onceinv. cbn. destruct A' as [A'|[A1 [A2 A3]]]; [by left|right]. split; [done|by left].
        * destruct A' as (n & c1 & ?). exists n, c1. by apply lookup_ext.
    - intros i j t1 e1 t2 e2 H1 H2 Hij Hcf.
      apply lookup_snoc in H2 as [H2|[-> H2]].
      + apply lookup_snoc in H1 as [H1|[-> H1]]; [apply hb_ext; by eapply i_rf|].
        apply lookup_lt_Some in H2. lia.
      + inversion H2; subst t2 e2. destruct Hcf as [(o1 & f1 & Hc1 & Hc2) [Hc3 Hc4]].
        destruct (Htu _ _ Hc2) as [-> ->].
        apply lookup_snoc in H1 as [H1|[-> H1]]; [|lia].
        by eapply access_hb.
  Qed.

  (** An allocation. *)
  Lemma hinv_new h tr t c cs :
    hinv h tr -> NoDup (map (fun p => p.1.2) cs) ->
    (forall p, p ∈ cs -> exists f o', p = (length (objs h), f, o') /\ knows tr t o') ->
    hinv {| objs := objs h ++ [c]; cont := cs ++ cont h; held := held h; done := done h |}
      (tr ++ [(t, ENew (length (objs h)) c)]).
  Proof.
    intros I Hnd Hcs. set (o := length (objs h)).
    set (h' := {| objs := objs h ++ [c]; cont := cs ++ cont h; held := held h; done := done h |}).
    assert (grows h h') as G.
    { apply grows_more; [by exists [c]|cbn; set_solver..]. }
    assert (objs h' !! o = Some c) as Ho by by apply list_lookup_middle.
    assert (forall n u e f, tr !! n = Some (u, e) -> touches e o f -> False) as Hfresh.
    { intros n u e f H Ht.
      assert (exists c, objs h !! o = Some c) as [c1 H1].
      { destruct e; cbn in Ht; try done; [subst; eexists; by eapply i_new|..];
          destruct Ht as [-> ->];
          (destruct (i_acc _ _ _ I _ _ _ o f H) as (c1 & _ & ? & _); [done| |by exists c1]);
          intros (? & ? & ?); done. }
      apply lookup_lt_Some in H1. unfold o in H1. lia. }
    split.
    - intros o1 f1 o' H. cbn in H. apply elem_of_app in H as [H|H].
      + destruct (Hcs _ H) as (f & o'' & E & n & u & c' & H1 & H2). inversion E; subst o1 f1 o''.
        exists (length tr), n, t, (ENew o c), u, c'. split_and!; [apply last_event|done|by intros (? & ? & ?)|done|by apply lookup_ext|by apply seen_next].
      + destruct (i_cont _ _ _ I _ _ _ H) as (j & n & tj & ej & tn & c1 & H1 & H2 & H3 & H4 & H5 & H6).
        exists j, n, tj, ej, tn, c1. split_and!; [by apply lookup_ext|done|done|apply latest_ext; [done|done]|by apply lookup_ext|by apply hb_ext].
    - intros n u o1 c1 H. apply lookup_snoc in H as [H|[_ H]].
      + eapply grows_obj; [exact G|]. by eapply i_new.
      + inversion H; subst; done.
    - intros n1 n2 t1 t2 o1 c1 c2 H1 H2.
      apply lookup_snoc in H1 as [H1|[-> H1]]; apply lookup_snoc in H2 as [H2|[-> H2]]; [by eapply i_new1| | |done].
      + inversion H2; subst. exfalso. by eapply (Hfresh _ _ _ "" H1).
      + inversion H1; subst. exfalso. by eapply (Hfresh _ _ _ "" H2).
    - cbn. intros o1 c1 f1 o2 o3 H1 H2 H3 H4.
      destruct (decide (o1 = o)) as [->|Hne].
      + assert (forall x, (o, f1, x) ∈ cont h -> False) as Hx.
        { intros x Hx. apply (i_obj _ _ _ I) in Hx. unfold o in Hx. lia. }
        apply elem_of_app in H3 as [H3|H3]; [|by apply Hx in H3].
        apply elem_of_app in H4 as [H4|H4]; [|by apply Hx in H4].
        clear -Hnd H3 H4. induction cs as [|[[o' f] x] cs IH]; [by apply elem_of_nil in H3|].
        cbn in Hnd. apply NoDup_cons in Hnd as [N1 N2].
        assert (forall y, (o, f, y) ∈ cs -> False) as Hy.
        { intros y Hy. apply N1. apply elem_of_list_fmap. by exists (o, f, y). }
        apply elem_of_cons in H3 as [E3|H3]; apply elem_of_cons in H4 as [E4|H4].
        * congruence.
        * inversion E3; subst. by apply Hy in H4.
        * inversion E4; subst. by apply Hy in H3.
        * by apply IH.
      + assert (forall x, (o1, f1, x) ∈ cs -> False) as Hx.
        { intros x Hx. destruct (Hcs _ Hx) as (? & ? & E & _). inversion E; subst. done. }
        apply elem_of_app in H3 as [H3|H3]; [by apply Hx in H3|].
        apply elem_of_app in H4 as [H4|H4]; [by apply Hx in H4|].
        apply lookup_app_Some in H1 as [H1|[? H1]]; [by eapply i_imm|].
        apply list_lookup_singleton_Some in H1 as [H1 _]. unfold o in Hne. lia.
    - cbn. intros o1 f1 o' H. rewrite app_length. apply elem_of_app in H as [H|H].
      + destruct (Hcs _ H) as (f & o'' & E & _). inversion E; subst. cbn. lia.
      + apply (i_obj _ _ _ I) in H. cbn. lia.
    - exact (i_excl _ _ _ I).
    - exact (i_once _ _ _ I).
    - intros k u o1 l1 H. apply lookup_snoc in H as [H|[_ H]]; [exact (i_rel _ _ _ I _ _ _ _ H)|].
      inversion H; subst; done.
    - intros j u e1 o1 f1 H Ht1 Hn1. apply lookup_snoc in H as [H|[-> H]].
      + destruct (i_acc _ _ _ I _ _ _ _ _ H Ht1 Hn1) as (c1 & kd1 & ? & ? & ?).
        exists c1, kd1. split_and!; [by eapply grows_obj|done|by eapply accinv_ext].
      + inversion H; subst. exfalso. apply Hn1. by eexists _, _.
    - intros i j t1 e1 t2 e2 H1 H2 Hij Hcf.
      apply lookup_snoc in H2 as [H2|[-> H2]].
      + apply lookup_snoc in H1 as [H1|[-> H1]]; [apply hb_ext; by eapply i_rf|].
        apply lookup_lt_Some in H2. lia.
      + inversion H2; subst t2 e2. destruct Hcf as [(o1 & f1 & Hc1 & Hc2) _].
        cbn in Hc2. subst o1. apply lookup_snoc in H1 as [H1|[-> H1]]; [|lia].
        by apply (Hfresh _ _ _ _ H1) in Hc1.
  Qed.

  (** Taking a lock. *)
  Lemma hinv_acq h tr t m o l :
    hinv h tr -> free h m o l ->
    hinv {| objs := objs h; cont := cont h; held := (t, m, o, l) :: held h; done := done h |}
      (tr ++ [(t, EAcq m o l)]).
  Proof.
    intros I Hf.
    set (h' := {| objs := objs h; cont := cont h; held := (t, m, o, l) :: held h; done := done h |}).
    assert (forall o1 l1 j u e1, lockinv h tr o1 l1 j u e1 -> lockinv h' (tr ++ [(t, EAcq m o l)]) o1 l1 j u e1) as HL.
    { intros o1 l1 j u e1 [LW LR]. split; cbn.
      - destruct LW as [?|[?|(k & Hjk & Hk & Ha)]]; [by left|right; left; by apply elem_of_list_further|].
        right. right. exists k. split_and!; [done|by apply lookup_ext|]. intros t' m' H Hm.
        apply elem_of_cons in H as [E|H].
        + inversion E; subst. exists (length tr). split; [by eapply lookup_lt_Some|apply last_event].
        + destruct (Ha _ _ H Hm) as (a & ? & ?). exists a. split; [done|by apply lookup_ext].
      - destruct LR as [(m1 & ? & ?)|(k & m1 & Hm1 & Hjk & Hk & Ha)].
        { left. exists m1. split; [done|by apply elem_of_list_further]. }
        right. exists k, m1. split_and!; [done..|by apply lookup_ext|]. intros t' H.
        apply elem_of_cons in H as [E|H].
        + inversion E; subst. exists (length tr). split; [by eapply lookup_lt_Some|apply last_event].
        + destruct (Ha _ H) as (a & ? & ?). exists a. split; [done|by apply lookup_ext]. }
    split.
    - intros o1 f1 o' H. destruct (i_cont _ _ _ I _ _ _ H) as (j & n & tj & ej & tn & c1 & H1 & H2 & H3 & H4 & H5 & H6).
      exists j, n, tj, ej, tn, c1. split_and!; [by apply lookup_ext|done|done|apply latest_ext; [done|done]|by apply lookup_ext|by apply hb_ext].
    - intros n u o1 c1 H. apply lookup_snoc in H as [H|[_ H]]; [exact (i_new _ _ _ I _ _ _ _ H)|]. by inversion H.
    - intros n1 n2 t1 t2 o1 c1 c2 H1 H2.
      apply lookup_snoc in H1 as [H1|[_ H1]]; [|by inversion H1].
      apply lookup_snoc in H2 as [H2|[_ H2]]; [|by inversion H2].
      by eapply i_new1.
    - exact (i_imm _ _ _ I).
    - exact (i_obj _ _ _ I).
    - cbn. intros t1 m1 o1 l1 H Hm1. apply elem_of_cons in H as [E|H].
      + inversion E; subst. exists (held h). split; [done|].
        destruct m; cbn in Hf; [done|done|apply Hf].
      + destruct (i_excl _ _ _ I _ _ _ _ H Hm1) as (held' & Hp & Hx).
        exists ((t, m, o, l) :: held'). split; [rewrite Hp; apply Permutation_swap|].
        intros t' m' Hin. apply elem_of_cons in Hin as [E|Hin]; [|by apply Hx in Hin].
        inversion E; subst. destruct m; cbn in Hf.
        * by apply Hf in H.
        * by apply (Hf _ _ Hm1) in H.
        * by apply (proj1 Hf) in H.
    - cbn. intros o1 l1 t1 H Hin. apply elem_of_cons in Hin as [E|Hin]; [|by eapply i_once].
      inversion E; subst. cbn in Hf. by apply (proj2 Hf).
    - intros k u o1 l1 H. apply lookup_snoc in H as [H|[_ H]]; [exact (i_rel _ _ _ I _ _ _ _ H)|].
      by inversion H.
    - intros j u e1 o1 f1 H Ht1 Hn1. apply lookup_snoc in H as [H|[-> H]]; [|by inversion H; subst].
      destruct (i_acc _ _ _ I _ _ _ _ _ H Ht1 Hn1) as (c1 & kd1 & ? & ? & A).
      exists c1, kd1. split_and!; try done. destruct kd1 as [| |l1|g l1|n|]; cbn in A |- *; try done.
      + by apply HL.
      + destruct A as (? & o2 & ? & ?). split; [done|]. exists o2. split; [done|by apply HL].
      + unfold onceinv in *. cbn. destruct A as [?|[? A]]; [left; by apply elem_of_list_further|right].
        split; [done|]. destruct A as [?|(k & ? & ?)]; [by left|right]. exists k. split; [done|by apply lookup_ext].
      + destruct A as (n & c2 & ?). exists n, c2. by apply lookup_ext.
    - intros i j t1 e1 t2 e2 H1 H2 Hij Hcf.
      apply lookup_snoc in H2 as [H2|[-> H2]].
      + apply lookup_snoc in H1 as [H1|[-> H1]]; [apply hb_ext; by eapply i_rf|].
        apply lookup_lt_Some in H2. lia.
      + inversion H2; subst. destruct Hcf as [(? & ? & _ & Hc) _]. done.
  Qed.

  (** Releasing one. *)
  Lemma hinv_rel h tr t m o l held' :
    hinv h tr -> held h ≡ₚ (t, m, o, l) :: held' ->
    hinv (release h held' m o l) (tr ++ [(t, ERel m o l)]).
  Proof.
    intros I Hp.
    assert (forall x, x ∈ held' -> x ∈ held h) as Hsub.
    { intros x Hx. rewrite Hp. by apply elem_of_list_further. }
    assert ((t, m, o, l) ∈ held h) as Hme by (rewrite Hp; apply elem_of_list_here).
    assert (forall x, x ∈ held h -> x = (t, m, o, l) \/ x ∈ held') as Hcase.
    { intros x Hx. rewrite Hp in Hx. by apply elem_of_cons in Hx. }
    assert (m <> MR -> forall t' m', (t', m', o, l) ∉ held') as Hout.
    { intros Hm t' m' Hin. destruct (i_excl _ _ _ I _ _ _ _ Hme Hm) as (h2 & Hp2 & Hx).
      rewrite Hp in Hp2. apply Permutation_cons_inv in Hp2. rewrite Hp2 in Hin. by apply Hx in Hin. }
    assert (held (release h held' m o l) = held') as Eh by done.
    assert (cont (release h held' m o l) = cont h) as Ec by done.
    assert (objs (release h held' m o l) = objs h) as Eo by done.
    assert (done h ⊆ done (release h held' m o l)) as Gd.
    { unfold release. cbn. destruct m; set_solver. }
    assert (forall o1 l1 j u e1, tr !! j = Some (u, e1) -> lockinv h tr o1 l1 j u e1 ->
      lockinv (release h held' m o l) (tr ++ [(t, ERel m o l)]) o1 l1 j u e1) as HL.
    { intros o1 l1 j u e1 Hj [LW LR]. unfold lockinv. rewrite Eh. split.
      - destruct LW as [?|[H|(k & Hjk & Hk & Ha)]]; [by left| |].
        + destruct (Hcase _ H) as [E|?]; [|by right; left]. inversion E; subst.
          right. right. exists (length tr). split_and!; [by eapply lookup_lt_Some|apply last_event|].
          intros t' m' Hin _. exfalso. by apply (Hout ltac:(done)) in Hin.
        + right. right. exists k. split_and!; [done|by apply lookup_ext|]. intros t' m' H Hm.
          destruct (Ha _ _ (Hsub _ H) Hm) as (a & ? & ?). exists a. split; [done|by apply lookup_ext].
      - destruct LR as [(m1 & Hm1 & H)|(k & m1 & Hm1 & Hjk & Hk & Ha)].
        + destruct (Hcase _ H) as [E|?]; [|by left; exists m1]. inversion E; subst.
          right. exists (length tr), m. split_and!; [done|by eapply lookup_lt_Some|apply last_event|].
          intros t' Hin. exfalso.
          destruct (excl_eq _ _ _ _ _ _ _ _ _ I (Hsub _ Hin) ltac:(done) Hme) as [-> ->].
          by apply (Hout ltac:(done)) in Hin.
        + right. exists k, m1. split_and!; [done..|by apply lookup_ext|]. intros t' H.
          destruct (Ha _ (Hsub _ H)) as (a & ? & ?). exists a. split; [done|by apply lookup_ext]. }
    split.
    - intros o1 f1 o' H. rewrite Ec in H. destruct (i_cont _ _ _ I _ _ _ H) as (j & n & tj & ej & tn & c1 & H1 & H2 & H3 & H4 & H5 & H6).
      exists j, n, tj, ej, tn, c1. split_and!; [by apply lookup_ext|done|done|apply latest_ext; [done|done]|by apply lookup_ext|by apply hb_ext].
    - intros n u o1 c1 H. apply lookup_snoc in H as [H|[_ H]]; [exact (i_new _ _ _ I _ _ _ _ H)|]. by inversion H.
    - intros n1 n2 t1 t2 o1 c1 c2 H1 H2.
      apply lookup_snoc in H1 as [H1|[_ H1]]; [|by inversion H1].
      apply lookup_snoc in H2 as [H2|[_ H2]]; [|by inversion H2].
      by eapply i_new1.
    - exact (i_imm _ _ _ I).
    - exact (i_obj _ _ _ I).
    - rewrite Eh. intros t1 m1 o1 l1 H Hm1.
      destruct (i_excl _ _ _ I _ _ _ _ (Hsub _ H) Hm1) as (h2 & Hp2 & Hx).
      destruct (elem_of_Permutation held' (t1, m1, o1, l1)) as [He _]. destruct (He H) as [h3 Hp3].
      exists h3. split; [done|]. intros t' m' Hin.
      assert ((t, m, o, l) :: h3 ≡ₚ h2) as Hp4.
      { apply Permutation_cons_inv with (a := (t1, m1, o1, l1)). rewrite <- Hp2, Hp, Hp3. apply Permutation_swap. }
      apply (Hx t' m'). rewrite <- Hp4. by apply elem_of_list_further.
    - rewrite Eh. unfold release. cbn. intros o1 l1 t1 H Hin. destruct m.
      + by eapply i_once; [..|apply Hsub].
      + by eapply i_once; [..|apply Hsub].
      + apply elem_of_cons in H as [E|H]; [|by eapply i_once; [..|apply Hsub]].
        inversion E; subst. by apply (Hout ltac:(done)) in Hin.
    - intros k u o1 l1 H. apply lookup_snoc in H as [H|[_ H]].
      + apply Gd. exact (i_rel _ _ _ I _ _ _ _ H).
      + inversion H; subst. unfold release. cbn. apply elem_of_list_here.
    - intros j u e1 o1 f1 H Ht1 Hn1. apply lookup_snoc in H as [H|[-> H]]; [|by inversion H; subst].
      destruct (i_acc _ _ _ I _ _ _ _ _ H Ht1 Hn1) as (c1 & kd1 & ? & ? & A).
      exists c1, kd1. split_and!; try done. destruct kd1 as [| |l1|g l1|n|]; cbn in A |- *; try done.
      + by apply HL.
      + destruct A as (? & o2 & ? & ?). split; [done|]. exists o2. split; [done|by apply HL].
      + unfold onceinv in *. rewrite Eh. destruct A as [A|[? A]].
        * destruct (Hcase _ A) as [E|?]; [|by left]. inversion E; subst. right.
          split; [unfold release; cbn; apply elem_of_list_here|]. right. exists (length tr).
          split; [by eapply lookup_lt_Some|apply last_event].
        * right. split; [by apply Gd|]. destruct A as [?|(k & ? & ?)]; [by left|right].
          exists k. split; [done|by apply lookup_ext].
      + destruct A as (n & c2 & ?). exists n, c2. by apply lookup_ext.
    - intros i j t1 e1 t2 e2 H1 H2 Hij Hcf.
      apply lookup_snoc in H2 as [H2|[-> H2]].
      + apply lookup_snoc in H1 as [H1|[-> H1]]; [apply hb_ext; by eapply i_rf|].
        apply lookup_lt_Some in H2. lia.
      + inversion H2; subst. destruct Hcf as [(? & ? & _ & Hc) _]. done.
  Qed.
End heap.
