(** * Libraries that pass the check have no data races: executions *)
From Verif Require Import RaceModel RaceSpec RaceCheck RaceProofs RaceProofs2 RaceProofs3.
From stdpp Require Import relations.
From Coq Require Import Lia Permutation.

Definition extend (tr : list (nat * ev)) (t : nat) (oe : option ev) : list (nat * ev) :=
  match oe with Some e => tr ++ [(t, e)] | None => tr end.

Definition extra (t : nat) (oe : option ev) : list (nat * ev) :=
  match oe with Some e => [(t, e)] | None => [] end.

Lemma extend_app tr t oe : extend tr t oe = tr ++ extra t oe.
Proof. destruct oe; cbn; [done|by rewrite app_nil_r]. Qed.

Lemma grows_refl disc h : grows disc h h.
Proof. apply grows_more; [exists []; by rewrite app_nil_r|set_solver..]. Qed.

Section executions.
  Variable disc : string -> string -> option kind.
  Hypothesis via : forall c f, via_ok disc c f.
  Local Notation hinv := (hinv disc).
  Local Notation grows := (grows disc).
  Local Notation facts := (facts disc).
  Local Notation wtk := (wtk disc).

  Lemma claims_remove e k m v l k1 cs o :
    drop_held k m v l = Some k1 -> Forall2 (claim e) (hld k) cs -> lookup_var e v = Some o ->
    exists cs', cs ≡ₚ (m, o, l) :: cs' /\ Forall2 (claim e) (hld k1) cs'.
  Proof.
    unfold drop_held. destruct (remove1 (m, v, l) (hld k)) as [hl|] eqn:E; [|done]. cbn.
    intros [= <-] Hc Hv. cbn. apply remove1_perm in E.
    destruct (Permutation_Forall2 E Hc) as (cs2 & Hp & H2).
    inversion H2 as [|x y lx ly (A1 & A2 & A3) A4]; subst. destruct y as [[m' o'] l']. cbn in *. subst.
    rewrite A2 in Hv. injection Hv as ->. by exists ly.
  Qed.

  Lemma drop_held_facts h tr t e k m v l k1 :
    drop_held k m v l = Some k1 -> facts h tr t e k -> facts h tr t e k1.
  Proof.
    unfold drop_held. destruct (remove1 (m, v, l) (hld k)) as [hl|]; [|done]. cbn. by intros [= <-].
  Qed.

  Lemma Forall_knows_ext tr x t (e : list (string * nat)) :
    Forall (fun xo => knows tr t xo.2) e -> Forall (fun xo => knows (tr ++ x) t xo.2) e.
  Proof. intros H. eapply Forall_impl; [exact H|]. intros xo. apply knows_ext. Qed.

  Lemma no_rerun_none h x : (forall u e, (u, e) ∈ x -> forall m o l, e <> ERel m o l) -> no_rerun h x.
  Proof. intros H u o n Hin. exfalso. by eapply H. Qed.

  Lemma no_rerun_one h t e : (forall m o l, e <> ERel m o l) -> no_rerun h [(t, e)].
  Proof.
    intros H u o n Hin. apply elem_of_list_singleton in Hin. inversion Hin; subst. exfalso. by eapply H.
  Qed.

  Lemma rd_not_new o f : ~ is_new (ERd o f).
  Proof. by intros (? & ? & ?). Qed.
  Lemma wr_not_new o f : ~ is_new (EWr o f).
  Proof. by intros (? & ? & ?). Qed.
  Lemma at_not_new a o f : ~ is_new (EAt a o f).
  Proof. by intros (? & ? & ?). Qed.

  Lemma cmd_step h tr t e K cs c K1 rest oe h' e' b :
    hinv h tr -> facts h tr t e K -> Forall (fun xo => knows tr t xo.2) e ->
    Forall2 (claim e) (hld K) cs -> map (entry t) cs ⊆+ of_thread t (held h) ->
    check1 disc K c = Some K1 -> wtk K1 rest -> cstep h t e c oe h' e' b ->
    hinv h' (extend tr t oe) /\ grows h h' /\ no_rerun h (extra t oe) /\
    exists cs', frame_inv disc h' (extend tr t oe) t (e', b ++ rest) cs' /\ moves h h' t cs cs'.
  Proof.
    intros I F FE Hc Hs Hck Hw Hst.
    destruct Hst as [x c fs cs2 Hst|v f o Hv|v f ys o cs2 Hv Hst|v f x c o o' Hv Hin Ho|a v f ys o cs2 Hv Hst
      |v f x c o o' Hv Hin Ho|m v l o Hv Hf|m v l o held' Hv Hp|v n b|v n b o Hv Hd|b1 b2|b1 b2|b|b|];
      cbn [extend extra RaceCheck.check1] in *.
    - (* New *)
      destruct (forallb _ fs && bool_decide (NoDup fs.*1)) eqn:E; [|done].
      apply andb_true_iff in E as [E1 E2]. apply bool_decide_eq_true in E2.
      destruct (rebind K x c) as [k1|] eqn:Er; [|done]. cbn in Hck. injection Hck as <-.
      destruct (stores_inv _ _ _ _ Hst) as [S1 S2].
      set (h1 := {| objs := objs h ++ [c]; cont := cs2 ++ cont h; held := held h; done := done h |}).
      set (ne := ENew (length (objs h)) c).
      assert (grows h h1) as G.
      { apply grows_more; [by exists [c]|cbn; set_solver..]. }
      assert (no_rerun h [(t, ne)]) as N by by apply no_rerun_one.
      assert (knows (tr ++ [(t, ne)]) t (length (objs h))) as Hk.
      { exists (length tr), t, c. split; [apply last_event|]. eapply seen_self, last_event. }
      split_and!; [|done|done|].
      + apply hinv_new; [done|by rewrite S1|]. intros p Hp.
        destruct (S2 _ Hp) as (f & y & o' & -> & Hfy & Hy). exists f, o'. split; [done|].
        pose proof (forallb_elem _ _ _ E1 Hfy) as Hkv. cbn in Hkv.
        destruct (known_var_inv _ _ _ _ _ _ _ F Hkv) as (o2 & Hy2 & Hk2). congruence.
      + exists cs. split; [|by left]. split.
        { apply Forall_cons_2; [done|]. by apply Forall_knows_ext. }
        exists (add_own k1 x). cbn [fst snd app]. split_and!.
        * assert (facts h1 (tr ++ [(t, ne)]) t ((x, length (objs h)) :: e) k1) as (B1 & B2 & B3 & B4).
          { eapply rebind_facts; [by eapply facts_ext|exact Er| |done]. by apply list_lookup_middle. }
          split_and!; try done. intros v Hin. cbn in Hin. apply elem_of_cons in Hin as [->|Hin]; [|by apply B4].
          exists (length (objs h)), (length tr), c. split; [cbn; by rewrite String.eqb_refl|apply last_event].
        * by eapply rebind_claims in Er.
        * done.
    - (* Rd *)
      unfold test in Hck. destruct (may_read disc K v f) eqn:E; [|done]. injection Hck as <-.
      pose proof (read_allowed _ via _ _ _ _ _ _ _ _ _ F Hc Hs Hv E) as A.
      assert (no_rerun h [(t, ERd o f)]) as N by by apply no_rerun_one.
      pose proof (hinv_access disc h tr t (ERd o f) o f [] (conj eq_refl eq_refl) (rd_not_new _ _) I A) as HI.
      cbn [after] in HI. destruct h as [ob co he dn].
      split_and!; [apply HI; intros p Hp; by apply elem_of_nil in Hp|apply grows_refl|done|].
      exists cs. split; [|by left]. split; [by apply Forall_knows_ext|]. exists K.
      split_and!; [eapply facts_ext; [apply grows_refl|done..]|done|done].
    - (* Wr *)
      unfold test in Hck. destruct (may_write disc K v f && forallb (known_var K) ys) eqn:E; [|done].
      injection Hck as <-. apply andb_true_iff in E as [E1 E2].
      pose proof (write_allowed _ via _ _ _ _ _ _ _ _ _ F Hc Hs Hv E1) as A.
      assert (no_rerun h [(t, EWr o f)]) as N by by apply no_rerun_one.
      destruct (stores_inv _ _ _ _ Hst) as [_ S2].
      assert (grows h {| objs := objs h; cont := cs2 ++ cont h; held := held h; done := done h |}) as G.
      { apply grows_more; [exists []; by rewrite app_nil_r|cbn; set_solver..]. }
      split_and!; [|done|done|].
      + eapply (hinv_access disc h tr t (EWr o f) o f); try done; [apply wr_not_new|].
        intros p Hp. destruct (S2 _ Hp) as (f1 & y & o' & -> & Hfy & Hy).
        apply elem_of_list_fmap in Hfy as (y1 & E & Hy1). inversion E; subst f1 y1. exists o'. split; [done|].
        pose proof (forallb_elem _ _ _ E2 Hy1) as Hkv.
        destruct (known_var_inv _ _ _ _ _ _ _ F Hkv) as (o2 & Hy2 & Hk2). congruence.
      + exists cs. split; [|by left]. split; [by apply Forall_knows_ext|]. exists K.
        split_and!; [by eapply facts_ext|done|done].
    - (* Get *)
      destruct (may_read disc K v f) eqn:E; [|done].
      pose proof (read_allowed _ via _ _ _ _ _ _ _ _ _ F Hc Hs Hv E) as A.
      assert (no_rerun h [(t, ERd o f)]) as N by by apply no_rerun_one.
      pose proof (content_known _ _ _ _ _ _ _ _ _ I (conj eq_refl eq_refl : touches (ERd o f) o f) (rd_not_new _ _) A ltac:(done) Hin Ho) as Hk.
      pose proof (hinv_access disc h tr t (ERd o f) o f [] (conj eq_refl eq_refl) (rd_not_new _ _) I A) as HI.
      assert (facts h (tr ++ [(t, ERd o f)]) t e K) as F2 by (eapply facts_ext; [apply grows_refl|done..]).
      split_and!; [|apply grows_refl|done|].
      { destruct h as [ob co he dn]. apply HI. intros p Hp; by apply elem_of_nil in Hp. }
      exists cs. split; [|by left]. split; [apply Forall_cons_2; [done|by apply Forall_knows_ext]|].
      exists K1. cbn [fst snd app]. split_and!; [by eapply bind_field_facts| |done].
      destruct (bind_field_hld _ _ _ _ _ _ _ Hck) as (k2 & Hr & ->). by eapply rebind_claims.
    - (* At *)
      unfold test in Hck. destruct (may_atomic disc K v f && forallb (known_var K) ys) eqn:E; [|done].
      injection Hck as <-. apply andb_true_iff in E as [E1 E2].
      pose proof (atomic_allowed _ _ _ _ _ _ _ _ _ F Hv E1 a) as A.
      assert (no_rerun h [(t, EAt a o f)]) as N by by apply no_rerun_one.
      destruct (stores_inv _ _ _ _ Hst) as [_ S2].
      pose proof (access_grows _ _ _ _ _ _ _ cs2 A) as G. cbn [after] in G.
      split_and!; [|done|done|].
      + eapply (hinv_access disc h tr t (EAt a o f) o f); try done; [apply at_not_new|].
        intros p Hp. destruct (S2 _ Hp) as (f1 & y & o' & -> & Hfy & Hy).
        apply elem_of_list_fmap in Hfy as (y1 & E & Hy1). inversion E; subst f1 y1. exists o'. split; [done|].
        pose proof (forallb_elem _ _ _ E2 Hy1) as Hkv.
        destruct (known_var_inv _ _ _ _ _ _ _ F Hkv) as (o2 & Hy2 & Hk2). congruence.
      + exists cs. split; [|by left]. split; [by apply Forall_knows_ext|]. exists K.
        split_and!; [by eapply facts_ext|done|done].
    - (* AtGet *)
      destruct (may_atomic disc K v f) eqn:E; [|done].
      pose proof (atomic_allowed _ _ _ _ _ _ _ _ _ F Hv E ALoad) as A.
      assert (no_rerun h [(t, EAt ALoad o f)]) as N by by apply no_rerun_one.
      pose proof (content_known _ _ _ _ _ _ _ _ _ I (conj eq_refl eq_refl : touches (EAt ALoad o f) o f) (at_not_new _ _ _) A ltac:(by intros b [= <-]) Hin Ho) as Hk.
      pose proof (hinv_access disc h tr t (EAt ALoad o f) o f [] (conj eq_refl eq_refl) (at_not_new _ _ _) I A) as HI.
      assert (facts h (tr ++ [(t, EAt ALoad o f)]) t e K) as F2 by (eapply facts_ext; [apply grows_refl|done..]).
      split_and!; [|apply grows_refl|done|].
      { destruct h as [ob co he dn]. apply HI. intros p Hp; by apply elem_of_nil in Hp. }
      exists cs. split; [|by left]. split; [apply Forall_cons_2; [done|by apply Forall_knows_ext]|].
      exists K1. cbn [fst snd app]. split_and!; [by eapply rebind_facts|by eapply rebind_claims|done].
    - (* Lk *)
      unfold test in Hck. destruct (known_var K v) eqn:E; [|done]. injection Hck as <-.
      assert (no_rerun h [(t, EAcq m o l)]) as N by by apply no_rerun_one.
      assert (grows h {| objs := objs h; cont := cont h; held := (t, m, o, l) :: held h; done := done h |}) as G.
      { apply grows_more; [exists []; by rewrite app_nil_r|cbn; set_solver..]. }
      split_and!; [by apply hinv_acq|done|done|].
      exists ((m, o, l) :: cs). split; [|right; left; by exists (m, o, l)].
      split; [by apply Forall_knows_ext|]. exists (add_held K m v l). cbn [fst snd app].
      split_and!; [by eapply facts_ext|by constructor|done].
    - (* Un *)
      destruct (drop_held K m v l) as [k2|] eqn:E; [|done]. cbn in Hck. injection Hck as <-.
      destruct (claims_remove _ _ _ _ _ _ _ _ E Hc Hv) as (cs' & Hcs & Hc').
      assert ((t, m, o, l) ∈ held h) as Hin by (rewrite Hp; apply elem_of_list_here).
      assert (no_rerun h [(t, ERel m o l)]) as N.
      { intros u o1 n1 H. apply elem_of_list_singleton in H. inversion H; subst. intros Hd.
        by apply (i_once _ _ _ I _ _ t Hd) in Hin. }
      assert (grows h (release h held' m o l)) as G.
      { apply grows_more; [exists []; by rewrite app_nil_r|cbn; set_solver|]. unfold release. cbn. destruct m; set_solver. }
      split_and!; [by apply hinv_rel|done|done|].
      exists cs'. split; [|right; right; by exists (m, o, l)].
      split; [by apply Forall_knows_ext|].
      assert (facts (release h held' m o l) (tr ++ [(t, ERel m o l)]) t e k2) as F2.
      { eapply facts_ext; [done..|]. by eapply drop_held_facts. }
      exists (match m with MO => add_passed k2 v l | _ => k2 end). cbn [fst snd app].
      split_and!; [|by destruct m|done].
      destruct m; [done|done|]. destruct F2 as (B1 & B2 & B3 & B4). split_and!; try done.
      intros v1 n1 H. cbn in H. apply elem_of_cons in H as [H|H]; [|by apply B3].
      inversion H; subst. exists o. split; [done|]. split; [apply elem_of_list_here|].
      intros k u Hk. apply lookup_snoc in Hk as [Hk|[_ Hk]]; [|inversion Hk; by left].
      exfalso. apply (i_rel _ _ _ I) in Hk. by apply (i_once _ _ _ I _ _ t Hk) in Hin.
    - (* Once, run *)
      destruct (known_var K v) eqn:Ev; [|done].
      destruct (check_block (check1 disc) (add_held K MO v n) b) as [k1|] eqn:Eb; [|done].
      destruct (drop_held k1 MO v n) as [k2|] eqn:Ed; [|done].
      destruct (lessb K k2) eqn:El; [|done]. injection Hck as <-. apply lessb_less in El.
      split_and!; [done|apply grows_refl|by intros ? ? ? Hin%elem_of_nil|].
      exists cs. split; [|by left]. split; [done|]. exists K. cbn [fst snd app]. split_and!; [done..|].
      eapply wt_cons; [apply less_refl|cbn; unfold test; by rewrite Ev|].
      rewrite <- app_assoc. eapply wtk_app; [exact Eb|]. cbn [app].
      eapply wt_cons; [apply less_refl|cbn; rewrite Ed; cbn; reflexivity|].
      eapply wtk_less; [|exact Hw]. destruct El as (A1 & A2 & A3 & A4 & A5).
      split_and!; try done. cbn. set_solver.
    - (* Once, pass *)
      destruct (known_var K v) eqn:Ev; [|done].
      destruct (check_block (check1 disc) (add_held K MO v n) b) as [k1|] eqn:Eb; [|done].
      destruct (drop_held k1 MO v n) as [k2|] eqn:Ed; [|done].
      destruct (lessb K k2) eqn:El; [|done]. injection Hck as <-.
      assert (no_rerun h [(t, EPass o n)]) as N by by apply no_rerun_one.
      split_and!; [by apply hinv_other|apply grows_refl|done|].
      exists cs. split; [|by left]. split; [by apply Forall_knows_ext|].
      exists (add_passed K v n). cbn [fst snd app]. split_and!; [|done|done].
      assert (facts h (tr ++ [(t, EPass o n)]) t e K) as (B1 & B2 & B3 & B4) by (eapply facts_ext; [apply grows_refl|done..]).
      split_and!; try done. intros v1 n1 H. cbn in H. apply elem_of_cons in H as [H|H]; [|by apply B3].
      inversion H; subst. exists o. split; [done|]. split; [done|].
      intros k u Hk. right. exists (length tr). split; [|apply last_event].
      apply lookup_snoc in Hk as [Hk|[_ Hk]]; [by eapply lookup_lt_Some|done].
    - (* If, left *)
      destruct (check_block (check1 disc) K b1) as [k1|] eqn:E1; [|done].
      destruct (check_block (check1 disc) K b2) as [k2|] eqn:E2; [|done].
      destruct (common_less _ _ _ Hck) as [H1 H2].
      split_and!; [done|apply grows_refl|by intros ? ? ? Hin%elem_of_nil|].
      exists cs. split; [|by left]. split; [done|]. exists K. cbn [fst snd]. split_and!; [done..|].
      eapply wtk_app; [exact E1|]. by eapply wtk_less.
    - destruct (check_block (check1 disc) K b1) as [k1|] eqn:E1; [|done].
      destruct (check_block (check1 disc) K b2) as [k2|] eqn:E2; [|done].
      destruct (common_less _ _ _ Hck) as [H1 H2].
      split_and!; [done|apply grows_refl|by intros ? ? ? Hin%elem_of_nil|].
      exists cs. split; [|by left]. split; [done|]. exists K. cbn [fst snd]. split_and!; [done..|].
      eapply wtk_app; [exact E2|]. by eapply wtk_less.
    - (* Loop *)
      destruct (check_block (check1 disc) K b) as [k1|] eqn:E1; [|done].
      assert (less K1 K) as Hl.
      { destruct (lessb K k1); [injection Hck as <-; apply less_refl|].
        destruct (common K k1) as [k0|] eqn:E0; [|done].
        destruct (check_block (check1 disc) k0 b) as [k2|]; [|done].
        unfold test in Hck. destruct (lessb k0 k2); [|done]. injection Hck as <-.
        by destruct (common_less _ _ _ E0). }
      split_and!; [done|apply grows_refl|by intros ? ? ? Hin%elem_of_nil|].
      exists cs. split; [|by left]. split; [done|]. exists K. cbn [fst snd app]. split_and!; [done..|].
      by eapply wtk_less.
    - assert (exists k0 k2, less k0 K /\ check_block (check1 disc) k0 b = Some k2 /\ lessb k0 k2 = true /\ K1 = k0) as (k0 & k2 & H1 & H2 & H3 & ->).
      { destruct (check_block (check1 disc) K b) as [k1|] eqn:E1; [|done].
        destruct (lessb K k1) eqn:El.
        { injection Hck as <-. exists K, k1. split_and!; [apply less_refl|done..]. }
        destruct (common K k1) as [k0|] eqn:E0; [|done].
        destruct (check_block (check1 disc) k0 b) as [k2|] eqn:E2; [|done].
        unfold test in Hck. destruct (lessb k0 k2) eqn:El2; [|done]. injection Hck as <-.
        exists k0, k2. destruct (common_less _ _ _ E0). done. }
      pose proof (lessb_less _ _ H3) as Hl.
      split_and!; [done|apply grows_refl|by intros ? ? ? Hin%elem_of_nil|].
      exists cs. split; [|by left]. split; [done|]. exists K. cbn [fst snd]. split_and!; [done..|].
      eapply wtk_less; [exact H1|].
      rewrite <- app_assoc. eapply wtk_app; [exact H2|]. eapply wtk_less; [exact Hl|].
      cbn [app]. eapply wt_cons; [apply less_refl| |exact Hw]. cbn [check1]. rewrite H2. by rewrite H3.
    - (* User *)
      injection Hck as <-.
      split_and!; [done|apply grows_refl|by intros ? ? ? Hin%elem_of_nil|].
      exists cs. split; [|by left]. split; [done|]. by exists K.
  Qed.
End executions.
