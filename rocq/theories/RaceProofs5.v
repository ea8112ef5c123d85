(** * Libraries that pass the check have no data races: all executions *)
From Verif Require Import RaceModel RaceSpec RaceCheck RaceProofs RaceProofs2 RaceProofs3 RaceProofs4.
From stdpp Require Import relations.
From Coq Require Import Lia Permutation.

Lemma seen_spawn tr t u i : seen tr t i -> seen (tr ++ [(t, ESpawn u)]) u i.
Proof.
  intros H. exists (length tr), t, (ESpawn u). split; [apply last_event|]. split; [by right|].
  right. by apply seen_next.
Qed.

Lemma knows_spawn tr t u o : knows tr t o -> knows (tr ++ [(t, ESpawn u)]) u o.
Proof.
  intros (n & w & c & H1 & H2). exists n, w, c. split; [by apply lookup_app_l_Some|by apply seen_spawn].
Qed.

Lemma lookup_cls_app g1 g2 x :
  lookup_cls (g1 ++ g2) x = match lookup_cls g1 x with Some c => Some c | None => lookup_cls g2 x end.
Proof. induction g1 as [|[y c] g1 IH]; cbn; [done|]. by destruct (String.eqb x y). Qed.

Lemma lookup_var_app e1 e2 x :
  lookup_var (e1 ++ e2) x = match lookup_var e1 x with Some c => Some c | None => lookup_var e2 x end.
Proof. induction e1 as [|[y c] g1 IH]; cbn; [done|]. by destruct (String.eqb x y). Qed.

Section executions.
  Variable disc : string -> string -> option kind.
  Variable L : library.
  Hypothesis via : forall c f, via_ok disc c f.
  Hypothesis ok : check_library disc L = true.
  Local Notation hinv := (hinv disc).
  Local Notation grows := (grows disc).
  Local Notation facts := (facts disc).
  Local Notation wtk := (wtk disc).
  Local Notation thread_inv := (thread_inv disc).
  Local Notation frame_inv := (frame_inv disc).
  Local Notation inv := (inv disc L).

  Lemma frame_ext h h' tr x t fr cs :
    grows h h' -> no_rerun h x -> frame_inv h tr t fr cs -> frame_inv h' (tr ++ x) t fr cs.
  Proof.
    intros G N (H1 & k & H2 & H3 & H4). split; [by apply Forall_knows_ext|]. exists k.
    split_and!; [by eapply facts_ext|done|done].
  Qed.

  Lemma thread_ext h h' tr x t fs :
    grows h h' -> no_rerun h x -> of_thread t (held h) ⊆+ of_thread t (held h') ->
    thread_inv h tr t fs -> thread_inv h' (tr ++ x) t fs.
  Proof.
    intros G N Hs (css & H1 & H2). exists css. split; [|by etransitivity].
    eapply Forall2_impl; [exact H1|]. intros fr cs. by apply frame_ext.
  Qed.

  Lemma thread_nil h tr t : thread_inv h tr t [].
  Proof. exists []. split; [constructor|apply submseteq_nil_l]. Qed.

  (** One goroutine does something, the others stay as they are. *)
  Lemma inv_thread s tr t fs fs' h' x kn :
    inv s tr -> thr s !! t = Some fs -> hinv h' (tr ++ x) -> grows (mem s) h' -> no_rerun (mem s) x ->
    (forall u, u <> t -> of_thread u (held (mem s)) ≡ₚ of_thread u (held h')) ->
    thread_inv h' (tr ++ x) t fs' ->
    (forall u o, (u, o) ∈ kn -> knows (tr ++ x) u o) ->
    inv {| mem := h'; thr := <[t := fs']> (thr s); known := kn ++ known s; mail := mail s |} (tr ++ x).
  Proof.
    intros I Ht Hh G N Ho Hf Hk. split; cbn [mem thr known mail].
    - done.
    - intros u fs1 Hu. apply list_lookup_insert_Some in Hu as [(-> & <- & _)|[Hne Hu]]; [done|].
      eapply thread_ext; [done..| |by apply (i_thr _ _ _ _ I)]. by rewrite (Ho u) by done.
    - intros u o H. apply elem_of_app in H as [H|H]; [by apply Hk|].
      apply knows_ext. by apply (i_known _ _ _ _ I).
    - intros ch o H. destruct (i_mail _ _ _ _ I _ _ H) as (n & u & c & k & u' & H1 & H2 & H3).
      exists n, u, c, k, u'. split_and!; [by apply lookup_ext..|by apply hb_ext].
    - intros i g Hi. destruct (i_glob _ _ _ _ I _ _ Hi) as [H1 H2]. split; [by eapply grows_obj|].
      intros u Hu. rewrite insert_length in Hu. by apply knows_ext, H2.
  Qed.

  (** A goroutine starts another one. *)
  Lemma inv_spawn s tr t fs fs' new kn :
    inv s tr -> thr s !! t = Some fs ->
    let x := [(t, ESpawn (length (thr s)))] in
    thread_inv (mem s) (tr ++ x) t fs' -> thread_inv (mem s) (tr ++ x) (length (thr s)) new ->
    (forall u o, (u, o) ∈ kn -> knows (tr ++ x) u o) ->
    inv {| mem := mem s; thr := <[t := fs']> (thr s) ++ [new]; known := kn ++ known s; mail := mail s |} (tr ++ x).
  Proof.
    intros I Ht x Hf Hn Hk.
    assert (no_rerun (mem s) x) as N by by apply no_rerun_one.
    split; cbn [mem thr known mail].
    - apply hinv_other; [done|]. apply (i_heap _ _ _ _ I).
    - intros u fs1 Hu. apply lookup_app_Some in Hu as [Hu|[Hl Hu]].
      + apply list_lookup_insert_Some in Hu as [(-> & <- & _)|[Hne Hu]]; [done|].
        eapply thread_ext; [apply grows_refl|done|done|by apply (i_thr _ _ _ _ I)].
      + rewrite insert_length in *. apply list_lookup_singleton_Some in Hu as [Hu <-].
        assert (u = length (thr s)) as -> by lia. done.
    - intros u o H. apply elem_of_app in H as [H|H]; [by apply Hk|].
      apply knows_ext. by apply (i_known _ _ _ _ I).
    - intros ch o H. destruct (i_mail _ _ _ _ I _ _ H) as (n & u & c & k & u' & H1 & H2 & H3).
      exists n, u, c, k, u'. split_and!; [by apply lookup_ext..|by apply hb_ext].
    - intros i g Hi. destruct (i_glob _ _ _ _ I _ _ Hi) as [H1 H2]. split; [done|].
      intros u Hu. rewrite app_length, insert_length in Hu. cbn in Hu.
      destruct (decide (u = length (thr s))) as [->|Hne].
      + apply knows_spawn, H2. by eapply lookup_lt_Some.
      + apply knows_ext, H2. lia.
  Qed.

  Lemma globals_in i x : (x, i) ∈ globals_env L <-> exists c, globals L !! i = Some (x, c).
  Proof.
    unfold globals_env. split.
    - intros H. apply elem_of_list_lookup in H as [j H]. rewrite list_lookup_imap in H.
      destruct (globals L !! j) as [[y c]|] eqn:E; [|done]. cbn in H. injection H as -> ->. by exists c.
    - intros [c H]. apply elem_of_list_lookup. exists i. rewrite list_lookup_imap, H. done.
  Qed.

  Lemma lookup_globals_aux (gs : list (string * string)) k x c :
    lookup_cls gs x = Some c ->
    exists i, lookup_var (imap (fun i g => (g.1, k + i)) gs) x = Some (k + i) /\ gs !! i = Some (x, c).
  Proof.
    revert k. induction gs as [|[y d] gs IH]; intros k; cbn; [done|].
    destruct (String.eqb x y) eqn:E.
    - intros [= ->]. apply String.eqb_eq in E as ->. exists 0. split; [f_equal; lia|done].
    - intros H. destruct (IH (S k) H) as (i & H1 & H2). exists (S i). split; [|done].
      replace (k + S i) with (S k + i) by lia. rewrite <- H1. f_equal. apply imap_ext. intros j g _.
      cbn. f_equal. lia.
  Qed.

  Lemma lookup_globals x c :
    lookup_cls (globals L) x = Some c ->
    exists i, lookup_var (globals_env L) x = Some i /\ globals L !! i = Some (x, c).
  Proof. intros H. apply (lookup_globals_aux _ 0 _ _ H). Qed.

  Lemma lookup_params s t ps os x :
    args_ok s t ps os ->
    match lookup_cls ps x with
    | Some c => exists o, lookup_var (zip ps.*1 os) x = Some o /\ objs (mem s) !! o = Some c /\ (t, o) ∈ known s
    | None => lookup_var (zip ps.*1 os) x = None
    end.
  Proof.
    induction 1 as [|[y c] o ps os [H1 H2] H IH]; cbn; [done|].
    destruct (String.eqb x y); [by exists o|done].
  Qed.

  Lemma zip_knows s t ps os : args_ok s t ps os -> Forall (fun xo => (t, xo.2) ∈ known s) (zip ps.*1 os).
  Proof. induction 1 as [|[y c] o ps os [H1 H2] H IH]; cbn; constructor; done. Qed.

  Lemma call_frame s tr t fs m os :
    inv s tr -> thr s !! t = Some fs -> m ∈ methods L -> args_ok s t (params m) os ->
    frame_inv (mem s) tr t (zip (params m).*1 os ++ globals_env L, body m) [].
  Proof.
    intros I Ht Hm Ha. pose proof (lookup_lt_Some _ _ _ Ht) as Hlt.
    split; cbn [fst snd].
    - apply Forall_app. split.
      + eapply Forall_impl; [by eapply zip_knows|]. intros xo. apply (i_known _ _ _ _ I).
      + apply Forall_forall. intros [x i] Hi. apply globals_in in Hi as [c Hi].
        by apply (i_glob _ _ _ _ I _ _ Hi).
    - pose proof (forallb_elem _ _ _ ok Hm) as Hc. unfold check_method in Hc.
      set (k := {| cls := params m ++ globals L; ali := []; hld := []; psd := []; own := [] |}) in *.
      destruct (check disc k (body m)) as [k1|] eqn:E; [|done]. apply bool_decide_eq_true in Hc.
      exists k. split_and!; [|constructor|by eapply wtk_start].
      split_and!; cbn; [|by intros ? ? ? ?%elem_of_nil|by intros ? ? ?%elem_of_nil|by intros ? ?%elem_of_nil].
      intros x c Hx. rewrite lookup_cls_app in Hx. rewrite lookup_var_app.
      pose proof (lookup_params _ _ _ _ x Ha) as Hp.
      destruct (lookup_cls (params m) x) as [c1|].
      + injection Hx as ->. destruct Hp as (o & -> & H1 & H2). exists o. split_and!; [done..|].
        by apply (i_known _ _ _ _ I).
      + rewrite Hp. apply lookup_globals in Hx as (i & -> & Hi). exists i.
        destruct (i_glob _ _ _ _ I _ _ Hi) as [H1 H2]. split_and!; [done..|]. by apply H2.
  Qed.

  Lemma inv_step s tr t oe s' : inv s tr -> step L s t oe s' -> inv s' (tr ++ extra t oe).
  Proof.
    intros I Hst.
    destruct Hst as [e c k fs oe h' e' b Ht Hc|e b k fs Ht|e fs Ht|fs m os Ht Hu Hm Ha|fs Ht Hu|fs ch o Ht Hu Hk
      |fs ch o Ht Hu Hm|fs Ht|m o l held' Ht Hp].
    - destruct (i_thr _ _ _ _ I _ _ Ht) as (css & H1 & H2).
      inversion H1 as [|fr cs fs0 css' (FE & K & F & HC & W) H3]; subst. cbn [fst snd] in *.
      inversion W as [|K' K0 c' k' K1 HL Hck Hw]; subst.
      cbn [concat] in H2.
      assert (map (entry t) cs ⊆+ of_thread t (held (mem s))) as Hs.
      { etransitivity; [|exact H2]. rewrite map_app. apply submseteq_inserts_r. done. }
      assert (hld K0 = hld K) as Hh by apply HL. rewrite <- Hh in HC.
      destruct (cmd_step disc via _ _ _ _ _ _ _ _ _ _ _ _ _ (i_heap _ _ _ _ I) (facts_less _ _ _ _ _ _ _ HL F) FE HC Hs Hck Hw Hc)
        as (A1 & A2 & A3 & cs' & A4 & A5).
      rewrite extend_app in *.
      eapply (inv_thread s tr t _ _ h' _ (tells t e')); try done.
      + intros u Hu. by eapply moves_other.
      + exists (cs' :: css'). split; [|by eapply moves_self in A5].
        constructor; [done|]. eapply Forall2_impl; [exact H3|]. intros fr cs1. by apply frame_ext.
      + intros u o Hin. unfold tells in Hin. apply elem_of_list_fmap in Hin as (xo & E & Hin).
        injection E as -> ->. destruct A4 as [A4 _]. rewrite Forall_forall in A4. by apply A4.
    - destruct (i_thr _ _ _ _ I _ _ Ht) as (css & H1 & H2).
      inversion H1 as [|fr cs fs0 css' (FE & K & F & HC & W) H3]; subst. cbn [fst snd] in *.
      inversion W as [|K' K0 c' k' K1 HL Hck Hw]; subst. cbn [check1] in Hck.
      set (K2 := {| cls := cls K0; ali := ali K0; hld := []; psd := []; own := [] |}) in *.
      destruct (check_block (check1 disc) K2 b) as [k1|] eqn:E; [|done].
      unfold test in Hck. destruct (bool_decide (hld k1 = [])) eqn:E1; [|done]. injection Hck as <-.
      apply bool_decide_eq_true in E1.
      assert (no_rerun (mem s) [(t, ESpawn (length (thr s)))]) as N by by apply no_rerun_one.
      eapply (inv_spawn s tr t _ _ _ (tells (length (thr s)) e)); try done.
      + exists (cs :: css'). split; [|done].
        assert (Forall2 (frame_inv (mem s) tr t) ((e, k) :: fs) (cs :: css')) as H4.
        { constructor; [|done]. split; [done|]. exists K. split_and!; [done|done|]. cbn. by eapply wtk_less. }
        eapply Forall2_impl; [exact H4|]. intros fr cs1. apply frame_ext; [apply grows_refl|done].
      + exists [[]]. split; [|apply submseteq_nil_l]. constructor; [|constructor]. split.
        * cbn. eapply Forall_impl; [exact FE|]. intros xo. apply knows_spawn.
        * exists K2. cbn [fst snd]. split_and!; [|constructor|by eapply wtk_start].
          pose proof (facts_less _ _ _ _ _ _ _ HL F) as (B1 & B2 & B3 & B4).
          split_and!; cbn; [|done|by intros ? ? ?%elem_of_nil|by intros ? ?%elem_of_nil].
          intros x c Hx. destruct (B1 _ _ Hx) as (o & C1 & C2 & C3). exists o.
          split_and!; [done..|by apply knows_spawn].
      + intros u o Hin. unfold tells in Hin. apply elem_of_list_fmap in Hin as (xo & E2 & Hin).
        injection E2 as -> ->. apply knows_spawn. rewrite Forall_forall in FE. by apply FE.
    - destruct (i_thr _ _ _ _ I _ _ Ht) as (css & H1 & H2).
      inversion H1 as [|fr cs fs0 css' _ H3]; subst. cbn [extra].
      eapply (inv_thread s tr t _ fs (mem s) [] []); try done.
      + rewrite app_nil_r. apply (i_heap _ _ _ _ I).
      + apply grows_refl.
      + by intros ? ? ? ?%elem_of_nil.
      + rewrite app_nil_r. exists css'. split; [done|]. etransitivity; [|exact H2].
        cbn [concat]. rewrite map_app. by apply submseteq_inserts_l.
      + by intros ? ? ?%elem_of_nil.
    - eapply (inv_thread s tr t fs _ (mem s) [] []); try done.
      + rewrite app_nil_r. apply (i_heap _ _ _ _ I).
      + apply grows_refl.
      + by intros ? ? ? ?%elem_of_nil.
      + rewrite app_nil_r. destruct (i_thr _ _ _ _ I _ _ Ht) as (css & H1 & H2).
        exists ([] :: css). split; [|done]. constructor; [by eapply call_frame|done].
      + by intros ? ? ?%elem_of_nil.
    - assert (thr s ++ [[]] = <[t := fs]> (thr s) ++ [[]]) as -> by by rewrite (list_insert_id _ _ _ Ht).
      cbn [extra].
      assert (no_rerun (mem s) [(t, ESpawn (length (thr s)))]) as N by by apply no_rerun_one.
      eapply (inv_spawn s tr t fs fs []); try done.
      + eapply thread_ext; [apply grows_refl|done|done|by apply (i_thr _ _ _ _ I)].
      + apply thread_nil.
      + intros u o Hin. apply elem_of_list_fmap in Hin as ([v o1] & E & Hin). cbn in E. injection E as -> ->.
        apply filter_sub in Hin as [Hin Hv]. cbn in Hv. apply Nat.eqb_eq in Hv as ->.
        apply knows_spawn. by apply (i_known _ _ _ _ I).
    - cbn [extra].
      assert (no_rerun (mem s) [(t, ESend ch)]) as N by by apply no_rerun_one.
      pose proof (inv_thread s tr t fs fs (mem s) [(t, ESend ch)] [] I Ht
        (hinv_other _ _ _ _ (ESend ch) Logic.I (i_heap _ _ _ _ I)) (grows_refl _ _) N ltac:(done)) as H.
      rewrite (list_insert_id _ _ _ Ht) in H. cbn [app] in H.
      destruct H as [C1 C2 C3 C4 C5].
      + eapply thread_ext; [apply grows_refl|done|done|by apply (i_thr _ _ _ _ I)].
      + by intros ? ? ?%elem_of_nil.
      + split; try done. cbn [mail]. intros ch1 o1 Hin. apply elem_of_cons in Hin as [E|Hin]; [|by apply C4].
        injection E as -> ->. destruct (i_known _ _ _ _ I _ _ Hk) as (n & u & c & D1 & D2).
        exists n, u, c, (length tr), t. split_and!; [by apply lookup_ext|apply last_event|by apply seen_next].
    - cbn [extra].
      assert (no_rerun (mem s) [(t, ERecv ch)]) as N by by apply no_rerun_one.
      rewrite <- (list_insert_id _ _ _ Ht).
      eapply (inv_thread s tr t fs fs (mem s) [(t, ERecv ch)] [(t, o)]); try done.
      + apply hinv_other; [done|apply (i_heap _ _ _ _ I)].
      + apply grows_refl.
      + eapply thread_ext; [apply grows_refl|done|done|by apply (i_thr _ _ _ _ I)].
      + intros u o1 Hin. apply elem_of_list_singleton in Hin. injection Hin as -> ->.
        destruct (i_mail _ _ _ _ I _ _ Hm) as (n & u & c & k & u' & D1 & D2 & D3).
        exists n, u, c. split; [by apply lookup_ext|]. eapply seen_hb; [apply last_event|].
        eapply hb_trans; [apply hb_ext, D3|].
        eapply hb_sync; [by apply lookup_ext|apply last_event|by eapply lookup_lt_Some|done].
    - eapply (inv_thread s tr t fs [] (mem s) [] []); try done.
      + rewrite app_nil_r. apply (i_heap _ _ _ _ I).
      + apply grows_refl.
      + by intros ? ? ? ?%elem_of_nil.
      + apply thread_nil.
      + by intros ? ? ?%elem_of_nil.
    - cbn [extra].
      pose proof (i_heap _ _ _ _ I) as IH.
      assert ((t, m, o, l) ∈ held (mem s)) as Hin by (rewrite Hp; apply elem_of_list_here).
      assert (no_rerun (mem s) [(t, ERel m o l)]) as N.
      { intros u o1 n1 H. apply elem_of_list_singleton in H. inversion H; subst. intros Hd.
        by apply (i_once _ _ _ IH _ _ t Hd) in Hin. }
      rewrite <- (list_insert_id _ _ _ Ht).
      eapply (inv_thread s tr t [] [] _ [(t, ERel m o l)] []); try done.
      + by apply hinv_rel.
      + apply grows_more; [exists []; by rewrite app_nil_r|cbn; set_solver|]. unfold release. cbn. destruct m; set_solver.
      + intros u Hu. rewrite (of_thread_perm u _ _ Hp). cbn.
        destruct (Nat.eqb_spec t u) as [->|]; done.
      + apply thread_nil.
      + by intros ? ? ?%elem_of_nil.
  Qed.

  Lemma inv_init : inv (init_state L) (init_trace L).
  Proof.
    assert (forall i t e, init_trace L !! i = Some (t, e) ->
      exists g, globals L !! i = Some g /\ t = 0 /\ e = ENew i g.2) as T.
    { intros i t e H. unfold init_trace in H. rewrite list_lookup_imap in H.
      destruct (globals L !! i) as [g|] eqn:E; [|done]. cbn in H. injection H as <- <-. by exists g. }
    assert (forall i g, globals L !! i = Some g -> init_trace L !! i = Some (0, ENew i g.2)) as T'.
    { intros i g H. unfold init_trace. rewrite list_lookup_imap, H. done. }
    split.
    - split; cbn.
      + by intros ? ? ? ?%elem_of_nil.
      + intros n t o c H. apply T in H as (g & H1 & _ & H2). injection H2 as -> ->.
        by rewrite list_lookup_fmap, H1.
      + intros n1 n2 t1 t2 o c1 c2 (g1 & _ & _ & H1)%T (g2 & _ & _ & H2)%T.
        injection H1 as -> _. by injection H2.
      + by intros ? ? ? ? ? _ _ ?%elem_of_nil.
      + by intros ? ? ? ?%elem_of_nil.
      + by intros ? ? ? ? ?%elem_of_nil.
      + by intros ? ? ? ?%elem_of_nil.
      + intros k u o l (g & _ & _ & H)%T. done.
      + intros j t e o f (g & _ & _ & ->)%T _ H. exfalso. apply H. by eexists _, _.
      + intros i j t1 e1 t2 e2 (g1 & H1 & _ & ->)%T (g2 & H2 & _ & ->)%T Hlt [(o & f & A & B) _].
        cbn in A, B. lia.
    - intros t fs H. cbn in H. destruct t; [|done]. cbn in H. injection H as <-. apply thread_nil.
    - intros t o H. cbn in H. unfold tells in H. apply elem_of_list_fmap in H as ([x i] & E & H).
      injection E as -> ->. apply globals_in in H as [c H]. apply T' in H.
      exists i, 0, c. split; [done|]. by eapply seen_self.
    - by intros ? ? ?%elem_of_nil.
    - intros i g H. cbn. split; [by rewrite list_lookup_fmap, H|]. intros t Ht.
      assert (t = 0) as -> by lia. apply T' in H. exists i, 0, g.2. split; [done|]. by eapply seen_self.
  Qed.

  Lemma inv_execution tr s : execution L tr s -> inv s tr.
  Proof.
    induction 1 as [|tr s t s' _ IH H|tr s t e s' _ IH H].
    - apply inv_init.
    - pose proof (inv_step _ _ _ _ _ IH H) as H1. cbn in H1. by rewrite app_nil_r in H1.
    - exact (inv_step _ _ _ _ _ IH H).
  Qed.

  Lemma checked_race_free : race_free L.
  Proof.
    intros tr s H (i & j & Hlt & (t1 & e1 & t2 & e2 & H1 & H2 & Hc) & Hn). apply Hn.
    eapply (i_rf _ _ _ (i_heap _ _ _ _ (inv_execution _ _ H))); done.
  Qed.
End executions.
