From Verif Require Import Base Strings Fval StructModel StructSpec.
From Coq Require Import Sorted.
Local Arguments B : simpl never.

(** Induction over values. *)
Section ind.
  Context (P : gval -> Prop) (Hnum : forall v, P (VNum v)) (Hbool : forall b, P (VBool b)) (Hnil : P (VPtr None)) (Hptr : forall v, P v -> P (VPtr (Some v)))
    (Hstruct : forall fs, Forall (fun f => P (fd_val f)) fs -> P (VStruct fs)) (Hother : P VOther).
  Fixpoint gval_ind' (v : gval) : P v :=
    match v with
    | VNum v => Hnum v
    | VBool b => Hbool b
    | VPtr None => Hnil
    | VPtr (Some v) => Hptr v (gval_ind' v)
    | VStruct fs => Hstruct fs ((fix go (fs : list gfield) : Forall (fun f => P (fd_val f)) fs :=
        match fs with [] => Forall_nil_2 _ | f :: rest => Forall_cons_2 _ f rest (gval_ind' (fd_val f)) (go rest) end) fs)
    | VOther => Hother
    end.
End ind.

Lemma deref_some v d : deref v = Some d <-> points_to v d.
Proof.
  split.
  - induction v as [x|b| |v IH|fs _|] using gval_ind'; cbn; intros H; try (injection H as <-; apply pt_here; discriminate); [discriminate|]. apply pt_next, IH, H.
  - induction 1 as [v Hv|v d H IH]; [|exact IH]. destruct v as [| |t| |]; try reflexivity. destruct (Hv t eq_refl).
Qed.
Lemma deref_none v : deref v = None <-> nil_inside v.
Proof.
  split.
  - induction v as [x|b| |v IH|fs _|] using gval_ind'; cbn; intros H; try discriminate; [apply ni_here|apply ni_next, IH, H].
  - induction 1; [reflexivity|assumption].
Qed.
Lemma points_fun v d d' : points_to v d -> points_to v d' -> d = d'.
Proof. rewrite <- !deref_some. congruence. Qed.
Lemma nil_not_points v d : nil_inside v -> points_to v d -> False.
Proof. rewrite <- deref_some, <- deref_none. congruence. Qed.
Lemma ignored_spec f : ignored f = true <-> is_ignored f.
Proof.
  unfold ignored, is_ignored. rewrite existsb_exists. split.
  - intros (p & Hp & E). unfold beqb in E. apply bool_decide_eq_true in E. subst p. exists (split ","%char (fd_tag f)). split; [apply split_free|]. split; [symmetry; apply split_join|]. apply elem_of_list_In, Hp.
  - intros (parts & Hf & E & Hi). exists (B "ignore"). split; [|unfold beqb; apply bool_decide_eq_true; reflexivity].
    rewrite E. change (B ",") with [","%char]. rewrite split_of_join; [apply elem_of_list_In, Hi| |exact Hf]. intros ->. apply elem_of_nil in Hi. exact Hi.
Qed.
Lemma ignored_false f : ignored f = false <-> ~ is_ignored f.
Proof. rewrite <- ignored_spec. destruct (ignored f); intuition congruence. Qed.
Lemma stats_deref v d : deref v = Some d -> struct_stats v = struct_stats d.
Proof.
  induction v as [x|b| |v IH|fs _|] using gval_ind'; cbn; intros H; try (injection H as <-; reflexivity); [discriminate|apply IH, H].
Qed.

(** Order of paths. *)
Lemma before_irrefl p : ~ before p p.
Proof. induction p as [|i p IH]; intros H; inversion H; subst; [lia|auto]. Qed.
Lemma before_asym p q : before p q -> before q p -> False.
Proof. induction 1; intros H'; inversion H'; subst; try lia; auto. Qed.
Lemma sorted_app (l l' : list (list nat)) : StronglySorted before l -> StronglySorted before l' -> (forall p q, p ∈ l -> q ∈ l' -> before p q) -> StronglySorted before (l ++ l').
Proof.
  intros H H' Hc. induction H as [|p l H IH Hp]; [exact H'|]. cbn. constructor.
  - apply IH. intros a b Ha. apply Hc. right. exact Ha.
  - apply Forall_app. split; [exact Hp|]. rewrite Forall_forall. intros q Hq. apply Hc; [left|exact Hq].
Qed.

(** What a report describes. *)
Definition lrel : Type := list nat -> bytes -> fval -> Prop.
Record describes (L : lrel) (N : list nat -> Prop) (r : report) (ps : list (list nat)) : Prop := {
  D_sorted : StronglySorted before ps;
  D_mem : forall p, p ∈ ps <-> (exists n x, L p n x) /\ (forall q, N q -> ~ before q p);
  D_stats : Forall2 (fun p s => L p (fst s) (snd s)) ps (fst r);
  D_panic : snd r = true <-> exists q, N q
}.
Lemma describes_ext L L' N N' r ps : (forall p n x, L p n x <-> L' p n x) -> (forall q, N q <-> N' q) -> describes L N r ps -> describes L' N' r ps.
Proof.
  intros HL HN H. constructor.
  - apply (D_sorted _ _ _ _ H).
  - intros p. rewrite (D_mem _ _ _ _ H). split; intros [(n & x & Hl) Hn]; (split; [exists n, x; apply HL, Hl|]); intros q Hq; apply Hn, HN, Hq.
  - eapply Forall2_impl; [apply (D_stats _ _ _ _ H)|]. intros p s. apply HL.
  - rewrite (D_panic _ _ _ _ H). split; intros [q Hq]; exists q; apply HN, Hq.
Qed.
Lemma describes_nothing (L : lrel) (N : list nat -> Prop) : (forall p n x, ~ L p n x) -> (forall q, ~ N q) -> describes L N ([], false) [].
Proof.
  intros HL HN. constructor; cbn.
  - constructor.
  - intros p. split; [intros H; apply elem_of_nil in H; destruct H|]. intros [(n & x & H) _]. destruct (HL _ _ _ H).
  - constructor.
  - split; [discriminate|]. intros [q Hq]. destruct (HN q Hq).
Qed.
Lemma describes_one (L : lrel) (N : list nat -> Prop) i n x : (forall p m y, L p m y <-> p = [i] /\ m = n /\ y = x) -> (forall q, ~ N q) -> describes L N ([(n, x)], false) [[i]].
Proof.
  intros HL HN. constructor; cbn.
  - repeat constructor.
  - intros p. rewrite elem_of_list_singleton. split.
    + intros ->. split; [exists n, x; apply HL; auto|]. intros q Hq. destruct (HN q Hq).
    + intros [(m & y & H) _]. apply HL in H. tauto.
  - constructor; [apply HL; auto|constructor].
  - split; [discriminate|]. intros [q Hq]. destruct (HN q Hq).
Qed.
Lemma describes_then L1 N1 r1 ps1 L2 N2 r2 ps2 :
  describes L1 N1 r1 ps1 -> describes L2 N2 r2 ps2 ->
  (forall p q, (exists n x, L1 p n x) \/ N1 p -> (exists n x, L2 q n x) \/ N2 q -> before p q) ->
  exists ps, describes (fun p n x => L1 p n x \/ L2 p n x) (fun q => N1 q \/ N2 q) (then_report r1 r2) ps.
Proof.
  intros H1 H2 Hb. unfold then_report. destruct (snd r1) eqn:Er.
  - pose proof (proj1 (D_panic _ _ _ _ H1) Er) as [q0 Hq0]. exists ps1. constructor.
    + apply (D_sorted _ _ _ _ H1).
    + intros p. rewrite (D_mem _ _ _ _ H1). split.
      * intros [(n & x & Hl) Hn]. split; [eauto|]. intros q [Hq|Hq]; [apply Hn, Hq|]. intros Hx. eapply before_asym; [exact Hx|]. apply Hb; [left; eauto|right; exact Hq].
      * intros [(n & x & [Hl|Hl]) Hn]; [split; [eauto|intros q Hq; apply Hn; auto]|]. exfalso. apply (Hn q0); [auto|]. apply Hb; [right; exact Hq0|left; eauto].
    + eapply Forall2_impl; [apply (D_stats _ _ _ _ H1)|]. cbn. auto.
    + split; [|rewrite Er; reflexivity]. intros _. eauto.
  - assert (Hno : forall q, ~ N1 q). { intros q Hq. assert (snd r1 = true) by (apply (D_panic _ _ _ _ H1); eauto). congruence. }
    exists (ps1 ++ ps2). constructor; cbn.
    + apply sorted_app; [apply (D_sorted _ _ _ _ H1)|apply (D_sorted _ _ _ _ H2)|]. intros p q Hp Hq. apply (D_mem _ _ _ _ H1) in Hp as [Hp _]. apply (D_mem _ _ _ _ H2) in Hq as [Hq _]. auto.
    + intros p. rewrite elem_of_app, (D_mem _ _ _ _ H1), (D_mem _ _ _ _ H2). split.
      * intros [[(n & x & Hl) Hn]|[(n & x & Hl) Hn]]; (split; [eauto|]); intros q [Hq|Hq]; try (destruct (Hno _ Hq)); [|apply Hn, Hq].
        intros Hx. eapply before_asym; [exact Hx|]. apply Hb; [left; eauto|right; exact Hq].
      * intros [(n & x & [Hl|Hl]) Hn]; [left|right]; (split; [eauto|]); intros q Hq; apply Hn; auto.
    + apply Forall2_app; (eapply Forall2_impl; [first [apply (D_stats _ _ _ _ H1)|apply (D_stats _ _ _ _ H2)]|]); cbn; auto.
    + rewrite (D_panic _ _ _ _ H2). split; [intros [q Hq]; eauto|]. intros [q [Hq|Hq]]; [destruct (Hno _ Hq)|eauto].
Qed.
Lemma describes_under (L : lrel) N r ps i name : describes L N r ps ->
  describes (fun p n x => exists p' n', p = i :: p' /\ n = name ++ B "." ++ n' /\ L p' n' x) (fun q => exists q', q = i :: q' /\ N q') (under name r) (map (cons i) ps).
Proof.
  intros H. constructor; cbn.
  - pose proof (D_sorted _ _ _ _ H) as Hs. induction Hs as [|p l Hs IH Hp]; cbn; constructor.
    + clear -Hs. induction Hs as [|p l Hs IH Hp]; cbn; constructor; [exact IH|]. rewrite Forall_map. eapply Forall_impl; [exact Hp|]. intros q Hq. apply b_eq, Hq.
    + rewrite Forall_map. eapply Forall_impl; [exact Hp|]. intros q Hq. apply b_eq, Hq.
  - intros p. rewrite elem_of_list_fmap. split.
    + intros (p' & -> & Hp). apply (D_mem _ _ _ _ H) in Hp as [(n & x & Hl) Hn]. split; [exists (name ++ B "." ++ n), x, p', n; auto|].
      intros q (q' & -> & Hq) Hx. inversion Hx; subst; [lia|]. eapply Hn; eassumption.
    + intros [(n & x & p' & n' & -> & -> & Hl) Hn]. exists p'. split; [reflexivity|]. apply (D_mem _ _ _ _ H). split; [eauto|]. intros q Hq Hx. apply (Hn (i :: q)); [eauto|]. apply b_eq, Hx.
  - apply Forall2_fmap. eapply Forall2_impl; [apply (D_stats _ _ _ _ H)|]. intros p s Hl. cbn. eauto.
  - rewrite (D_panic _ _ _ _ H). split; [intros [q Hq]; eauto|]. intros (q & q' & -> & Hq). eauto.
Qed.

(** The loop over the fields. *)
Fixpoint fields_stats (fields : list gfield) : report :=
  match fields with
  | [] => ([], false)
  | f :: rest =>
      match deref (fd_val f) with
      | None => ([], true)
      | Some d =>
          then_report
            (if ignored f then ([], false)
             else match d with
                  | VStruct _ => if fd_exported f then under (fd_name f) (struct_stats (fd_val f)) else ([], false)
                  | VNum y => ([(fd_name f, y)], false)
                  | VBool b => ([(fd_name f, FBool b)], false)
                  | _ => ([], false)
                  end)
            (fields_stats rest)
      end
  end.
Lemma struct_stats_fields fs : struct_stats (VStruct fs) = fields_stats fs.
Proof. cbn [struct_stats]. induction fs as [|[[[n e] t] x] fs IH]; [reflexivity|]. cbn [fields_stats]. change (fd_val (n, e, t, x)) with x. change (fd_exported (n, e, t, x)) with e. change (fd_name (n, e, t, x)) with n. destruct (deref x); [|reflexivity]. rewrite <- IH. reflexivity. Qed.

Definition leaf_from (v : gval) (k : nat) : lrel := fun p n x => leaf v p n x /\ exists i p', p = i :: p' /\ (k <= i)%nat.
Definition nil_from (v : gval) (k : nat) : list nat -> Prop := fun q => nil_at v q /\ exists i p', q = i :: p' /\ (k <= i)%nat.
Definition leaf_at (v : gval) (k : nat) : lrel := fun p n x => leaf v p n x /\ exists p', p = k :: p'.
Definition nil_under (v : gval) (k : nat) : list nat -> Prop := fun q => nil_at v q /\ exists p', q = k :: p'.

Lemma has_field_fun v (fs : list gfield) i f : points_to v (VStruct fs) -> has_field v i f <-> fs !! i = Some f.
Proof. intros Hv. split; [intros (fs' & H1 & H2)|intros H; exists fs; auto]. pose proof (points_fun _ _ _ H1 Hv) as E. injection E as ->. exact H2. Qed.
Lemma leaf_points v p n x : leaf v p n x -> exists fs, points_to v (VStruct fs).
Proof. intros H. destruct H as [v i f d x (fs & H & _) _ _ _|v i f p n x (fs & H & _) _ _ _]; eauto. Qed.

Lemma fields_describe v (fs pre rest : list gfield) : points_to v (VStruct fs) -> fs = pre ++ rest ->
  Forall (fun f => exists ps, describes (leaf (fd_val f)) (nil_at (fd_val f)) (struct_stats (fd_val f)) ps) fs ->
  exists ps, describes (leaf_from v (length pre)) (nil_from v (length pre)) (fields_stats rest) ps.
Proof.
  intros Hv E Hall. revert pre E. induction rest as [|f rest IH]; intros pre E.
  - exists []. apply describes_nothing.
    + intros p n x [Hl (i & p' & -> & Hi)]. rewrite app_nil_r in E. subst pre. assert (exists f, fs !! i = Some f) as [f Hf]; [|apply lookup_lt_Some in Hf; lia].
      inversion Hl; subst; (match goal with H : has_field _ _ _ |- _ => apply (has_field_fun _ _ _ _ Hv) in H end); eauto.
    + intros q [Hl (i & p' & -> & Hi)]. rewrite app_nil_r in E. subst pre. assert (exists f, fs !! i = Some f) as [f Hf]; [|apply lookup_lt_Some in Hf; lia].
      inversion Hl; subst; (match goal with H : has_field _ _ _ |- _ => apply (has_field_fun _ _ _ _ Hv) in H end); eauto.
  - set (k := length pre). assert (Hf : fs !! k = Some f) by (subst fs k; apply list_lookup_middle; reflexivity).
    assert (Hff : forall g, has_field v k g <-> g = f). { intros g. rewrite (has_field_fun _ _ _ _ Hv), Hf. split; congruence. }
    destruct (IH (pre ++ [f])) as [ps2 H2]; [rewrite <- app_assoc; exact E|]. rewrite app_length in H2. cbn [length] in H2. fold k in H2. replace (k + 1)%nat with (S k) in H2 by lia.
    cbn [fields_stats]. destruct (deref (fd_val f)) as [d|] eqn:Ed.
    2: { (* panics at this field *)
      exists []. apply deref_none in Ed. assert (Hn : nil_at v [k]) by (apply nil_field with f; [apply Hff; reflexivity|exact Ed]). constructor; cbn.
      - constructor.
      - intros p. split; [intros H; apply elem_of_nil in H; destruct H|]. intros [(n & x & Hl & i & p' & -> & Hi) Hno]. exfalso.
        destruct (decide (i = k)) as [->|Hne].
        + inversion Hl as [? ? g d ? Hg _ Hd _|? ? g ? ? ? Hg _ _ Hp]; subst; apply Hff in Hg; subst g.
          * eapply nil_not_points; eassumption.
          * apply leaf_points in Hp as [gs Hgs]. eapply nil_not_points; eassumption.
        + apply (Hno [k]); [split; [exact Hn|exists k, []; auto]|]. apply b_lt. lia.
      - constructor.
      - split; [|reflexivity]. intros _. exists [k]. split; [exact Hn|exists k, []; auto]. }
    assert (H1 : exists ps1, describes (leaf_at v k) (nil_under v k)
       (if ignored f then ([], false) else match d with VStruct _ => if fd_exported f then under (fd_name f) (struct_stats (fd_val f)) else ([], false) | VNum y => ([(fd_name f, y)], false) | VBool b => ([(fd_name f, FBool b)], false) | _ => ([], false) end) ps1).
    { apply deref_some in Ed.
      (* what can be at k *)
      assert (Hleaf : forall p n x, leaf_at v k p n x <-> ~ is_ignored f /\ ((p = [k] /\ n = fd_name f /\ number d x) \/ (fd_exported f = true /\ exists p' n', p = k :: p' /\ n = fd_name f ++ B "." ++ n' /\ leaf (fd_val f) p' n' x))).
      { intros p n x. split.
        - intros [Hl [p' ->]]. inversion Hl as [? ? g d' ? Hg Hi Hd Hx|? ? g ? ? ? Hg Hi He Hp]; subst; apply Hff in Hg; subst g; (split; [exact Hi|]).
          + left. rewrite (points_fun _ _ _ Ed Hd). auto.
          + right. split; [exact He|]. eauto.
        - intros [Hi [(-> & -> & Hx)|(He & p' & n' & -> & -> & Hp)]].
          + split; [|eauto]. eapply leaf_here; [apply Hff; reflexivity|exact Hi|exact Ed|exact Hx].
          + split; [|eauto]. apply leaf_in; [apply Hff; reflexivity|exact Hi|exact He|exact Hp]. }
      assert (Hnil : forall q, nil_under v k q <-> ~ is_ignored f /\ fd_exported f = true /\ exists q', q = k :: q' /\ nil_at (fd_val f) q').
      { intros q. split.
        - intros [Hl [p' ->]]. inversion Hl as [? Hx|? ? g Hg Hx|? ? g ? Hg Hi He Hp]; subst; apply Hff in Hg; subst g.
          + exfalso. eapply nil_not_points; eassumption.
          + eauto 6.
        - intros (Hi & He & q' & -> & Hq). split; [|eauto]. eapply nil_in; [apply Hff; reflexivity|assumption..]. }
      destruct (ignored f) eqn:Ei.
      - apply ignored_spec in Ei. exists []. apply describes_nothing.
        + intros p n x Hl. apply Hleaf in Hl. tauto.
        + intros q Hq. apply Hnil in Hq. tauto.
      - apply ignored_false in Ei. rewrite Forall_forall in Hall. destruct (Hall f) as [ps0 H0]; [eapply elem_of_list_lookup_2; exact Hf|].
        assert (Hns : forall gs, d <> VStruct gs -> True) by auto. clear Hns.
        assert (Hno : (forall gs, d <> VStruct gs) -> (forall p n x, ~ leaf (fd_val f) p n x) /\ (forall q, ~ nil_at (fd_val f) q)).
        { intros Hd. split.
          - intros p n x Hl. apply leaf_points in Hl as [gs Hgs]. apply (Hd gs). eapply points_fun; eassumption.
          - intros q Hq. destruct Hq as [u Hx|u i g Hg Hx|u i g p Hg _ _ _]; [eapply nil_not_points; eassumption| |]; destruct Hg as (gs & Hgs & _); apply (Hd gs); eapply points_fun; eassumption. }
        destruct d as [y|b|t|gs|].
        + destruct Hno as [Hno1 Hno2]; [discriminate|]. exists [[k]]. apply describes_one.
          * intros p m z. rewrite Hleaf. split.
            -- intros [_ [(-> & -> & Hx)|(_ & p' & n' & _ & _ & Hl)]]; [inversion Hx; subst; auto|destruct (Hno1 _ _ _ Hl)].
            -- intros (-> & -> & ->). split; [exact Ei|left; split_and!; auto; constructor].
          * intros q Hq. apply Hnil in Hq as (_ & _ & q' & _ & Hq). destruct (Hno2 _ Hq).
        + destruct Hno as [Hno1 Hno2]; [discriminate|]. exists [[k]]. apply describes_one.
          * intros p m z. rewrite Hleaf. split.
            -- intros [_ [(-> & -> & Hx)|(_ & p' & n' & _ & _ & Hl)]]; [inversion Hx; subst; auto|destruct (Hno1 _ _ _ Hl)].
            -- intros (-> & -> & ->). split; [exact Ei|left; split_and!; auto; constructor].
          * intros q Hq. apply Hnil in Hq as (_ & _ & q' & _ & Hq). destruct (Hno2 _ Hq).
        + exfalso. clear - Ed. remember (VPtr t) as u eqn:Eu. induction Ed as [w Hw|w u' _ IH]; [apply (Hw t), Eu|apply IH, Eu].
        + destruct (fd_exported f) eqn:Ee.
          * exists (map (cons k) ps0). eapply describes_ext; [| |apply (describes_under _ _ _ _ k (fd_name f) H0)].
            -- intros p n x. cbn. rewrite Hleaf. split; [intros (p' & n' & -> & -> & Hl); split; [exact Ei|right; split; [first [exact Ee|reflexivity]|exists p', n'; auto]]|].
               intros [_ [(_ & _ & Hx)|(_ & p' & n' & -> & -> & Hl)]]; [inversion Hx|eauto].
            -- intros q. cbn. rewrite Hnil. split; [intros (q' & -> & Hq); eauto 6|]. intros (_ & _ & q' & -> & Hq). eauto.
          * exists []. apply describes_nothing.
            -- intros p n x Hl. apply Hleaf in Hl as [_ [(_ & _ & Hx)|(He & _)]]; [inversion Hx|congruence].
            -- intros q Hq. apply Hnil in Hq as (_ & He & _). congruence.
        + destruct Hno as [Hno1 Hno2]; [discriminate|]. exists []. apply describes_nothing.
          * intros p n x Hl. apply Hleaf in Hl as [_ [(_ & _ & Hx)|(_ & p' & n' & _ & _ & Hl)]]; [inversion Hx|destruct (Hno1 _ _ _ Hl)].
          * intros q Hq. apply Hnil in Hq as (_ & _ & q' & _ & Hq). destruct (Hno2 _ Hq). }
    destruct H1 as [ps1 H1].
    destruct (describes_then _ _ _ _ _ _ _ _ H1 H2) as [ps H].
    { intros p q Hp Hq. assert (exists p', p = k :: p') as [p' ->] by (destruct Hp as [(n & x & _ & H)|[_ H]]; exact H).
      assert (exists i q', q = i :: q' /\ (S k <= i)%nat) as (i & q' & -> & Hi) by (destruct Hq as [(n & x & _ & H)|[_ H]]; exact H). apply b_lt. lia. }
    exists ps. eapply describes_ext; [| |exact H].
    + intros p n x. unfold leaf_at, leaf_from. split.
      * intros [[Hl [p' ->]]|[Hl (i & p' & -> & Hi)]]; (split; [exact Hl|]); [exists k, p'|exists i, p']; (split; [reflexivity|lia]).
      * intros [Hl (i & p' & -> & Hi)]. destruct (decide (i = k)) as [->|Hne]; [left; eauto|right]. split; [exact Hl|]. exists i, p'. split; [reflexivity|lia].
    + intros q. unfold nil_under, nil_from. split.
      * intros [[Hl [p' ->]]|[Hl (i & p' & -> & Hi)]]; (split; [exact Hl|]); [exists k, p'|exists i, p']; (split; [reflexivity|lia]).
      * intros [Hl (i & p' & -> & Hi)]. destruct (decide (i = k)) as [->|Hne]; [left; eauto|right]. split; [exact Hl|]. exists i, p'. split; [reflexivity|lia].
Qed.

Lemma leaf_ptr v p n x : leaf (VPtr (Some v)) p n x <-> leaf v p n x.
Proof.
  assert (Hh : forall i f, has_field (VPtr (Some v)) i f <-> has_field v i f).
  { intros i f. split; intros (fs & H1 & H2); exists fs; split; try exact H2; [inversion H1; subst; assumption|apply pt_next, H1]. }
  split; intros H; inversion H; subst; [eapply leaf_here|eapply leaf_in|eapply leaf_here|eapply leaf_in]; try eassumption; apply Hh; assumption.
Qed.
Lemma nil_ptr v q : nil_at (VPtr (Some v)) q <-> nil_at v q.
Proof.
  assert (Hh : forall i f, has_field (VPtr (Some v)) i f <-> has_field v i f).
  { intros i f. split; intros (fs & H1 & H2); exists fs; split; try exact H2; [inversion H1; subst; assumption|apply pt_next, H1]. }
  split; intros H; inversion H as [? Hx|? ? g Hg Hx|? ? g ? Hg Hi He Hp]; subst.
  - inversion Hx; subst. apply nil_top. assumption.
  - eapply nil_field; [apply Hh; eassumption|assumption].
  - eapply nil_in; [apply Hh; eassumption|assumption..].
  - apply nil_top, ni_next, Hx.
  - eapply nil_field; [apply Hh; eassumption|assumption].
  - eapply nil_in; [apply Hh; eassumption|assumption..].
Qed.
Lemma no_struct v : (forall t, v <> VPtr t) -> (forall fs, v <> VStruct fs) -> (forall p n x, ~ leaf v p n x) /\ (forall q, ~ nil_at v q).
Proof.
  intros Hp Hs. assert (Hv : points_to v v) by (apply pt_here, Hp). split.
  - intros p n x Hl. apply leaf_points in Hl as [fs H]. apply (Hs fs). eapply points_fun; eassumption.
  - intros q Hq. destruct Hq as [u Hx|u i g Hg Hx|u i g p Hg _ _ _]; [eapply nil_not_points; eassumption| |]; destruct Hg as (gs & Hgs & _); apply (Hs gs); eapply points_fun; eassumption.
Qed.
Lemma struct_describes v : exists ps, describes (leaf v) (nil_at v) (struct_stats v) ps.
Proof.
  induction v as [x|b| |v IH|fs IH|] using gval_ind'.
  - exists []. apply describes_nothing; apply no_struct; discriminate.
  - exists []. apply describes_nothing; apply no_struct; discriminate.
  - exists []. assert (Hn : nil_at (VPtr None) []) by apply nil_top, ni_here. constructor; cbn.
    + constructor.
    + intros p. split; [intros H; apply elem_of_nil in H; destruct H|]. intros [(n & x & Hl) _]. apply leaf_points in Hl as [fs Hfs]. exfalso. eapply nil_not_points; [apply ni_here|exact Hfs].
    + constructor.
    + split; [|reflexivity]. eauto.
  - destruct IH as [ps H]. exists ps. eapply describes_ext; [| |exact H].
    + intros p n x. symmetry. apply leaf_ptr.
    + intros q. symmetry. apply nil_ptr.
  - assert (Hv : points_to (VStruct fs) (VStruct fs)) by (apply pt_here; discriminate).
    destruct (fields_describe (VStruct fs) fs [] fs Hv eq_refl IH) as [ps H]. exists ps. rewrite struct_stats_fields. eapply describes_ext; [| |exact H].
    + intros p n x. split; [intros [Hl _]; exact Hl|]. intros Hl. split; [exact Hl|]. destruct Hl; cbn; eauto with lia.
    + intros q. split; [intros [Hl _]; exact Hl|]. intros Hl. split; [exact Hl|]. destruct Hl as [u Hx|u i g Hg Hx|u i g p Hg Hi He Hp]; cbn; eauto with lia. exfalso. eapply nil_not_points; eassumption.
  - exists []. apply describes_nothing; apply no_struct; discriminate.
Qed.

Lemma struct_report v : exists ps,
  StronglySorted before ps /\
  (forall p, p ∈ ps <-> (exists n x, leaf v p n x) /\ (forall q, nil_at v q -> ~ before q p)) /\
  Forall2 (fun p s => leaf v p (fst s) (snd s)) ps (fst (struct_stats v)).
Proof. destruct (struct_describes v) as [ps H]. exists ps. split_and!; [apply (D_sorted _ _ _ _ H)|apply (D_mem _ _ _ _ H)|apply (D_stats _ _ _ _ H)]. Qed.
Lemma struct_panics v : snd (struct_stats v) = true <-> exists q, nil_at v q.
Proof. destruct (struct_describes v) as [ps H]. apply (D_panic _ _ _ _ H). Qed.

(** Names. *)
Lemma dotless_inj (a b : bytes) s t : "."%char ∉ a -> "."%char ∉ b -> a ++ B "." ++ s = b ++ B "." ++ t -> a = b /\ s = t.
Proof.
  intros Ha Hb E. pose proof (split2_app "."%char a s Ha) as H1. pose proof (split2_app "."%char b t Hb) as H2.
  change (B ".") with ["."%char] in E. cbn [app] in E. rewrite E, H2 in H1. split; congruence.
Qed.
Lemma dotless_not (a b : bytes) s : "."%char ∉ a -> a <> b ++ B "." ++ s.
Proof. intros Ha ->. apply Ha. apply elem_of_app. right. left. Qed.
Lemma names_inj v p p' n x x' : well_named v -> leaf v p n x -> leaf v p' n x' -> p = p'.
Proof.
  intros Hw Hl. revert Hw p' x'. induction Hl as [v i f d x Hf Hi Hd Hx|v i f p n x Hf Hi He Hl IH]; intros Hw p' x' Hl'; inversion Hw as [? Hno|? fs Hv Hnd Hdot Hin]; subst.
  - destruct Hf as (fs & H & _). destruct (Hno fs H).
  - apply (has_field_fun _ _ _ _ Hv) in Hf. rewrite Forall_forall in Hdot. pose proof (Hdot f (elem_of_list_lookup_2 _ _ _ Hf)) as Hfd.
    inversion Hl' as [? j g d' ? Hg Hi' Hd' Hx' E1 E2 E3|? j g q m ? Hg Hi' He' Hq E1 E2 E3]; subst; apply (has_field_fun _ _ _ _ Hv) in Hg.
    + f_equal. eapply (NoDup_lookup (map fd_name fs)); [exact Hnd| |]; rewrite list_lookup_fmap; [rewrite Hf|rewrite Hg; cbn; rewrite E3]; reflexivity.
    + exfalso. eapply dotless_not; [exact Hfd|symmetry; exact E3].
  - destruct Hf as (fs & H & _). destruct (Hno fs H).
  - apply (has_field_fun _ _ _ _ Hv) in Hf. rewrite Forall_forall in Hdot. pose proof (Hdot f (elem_of_list_lookup_2 _ _ _ Hf)) as Hfd.
    inversion Hl' as [? j g d' ? Hg Hi' Hd' Hx' E1 E2 E3|? j g q m ? Hg Hi' He' Hq E1 E2 E3]; subst; apply (has_field_fun _ _ _ _ Hv) in Hg; pose proof (Hdot g (elem_of_list_lookup_2 _ _ _ Hg)) as Hgd.
    + exfalso. eapply dotless_not; [exact Hgd|exact E3].
    + apply dotless_inj in E3 as [E3 E4]; [|exact Hgd|exact Hfd]. subst m.
      assert (i = j) as <-. { eapply (NoDup_lookup (map fd_name fs)); [exact Hnd| |]; rewrite list_lookup_fmap; [rewrite Hf|rewrite Hg; cbn; rewrite E3]; reflexivity. }
      rewrite Hf in Hg. injection Hg as <-. f_equal. eapply IH; [|exact Hq]. rewrite Forall_forall in Hin. apply Hin. eapply elem_of_list_lookup_2. exact Hf.
Qed.
Lemma names_distinct v : well_named v -> NoDup (map fst (fst (struct_stats v))).
Proof.
  intros Hw. destruct (struct_report v) as (ps & Hs & _ & Hf). apply NoDup_alt. intros i j n Hi Hj.
  rewrite list_lookup_fmap in Hi, Hj. destruct (fst (struct_stats v) !! i) as [s|] eqn:Ei; [|discriminate Hi]. destruct (fst (struct_stats v) !! j) as [t|] eqn:Ej; [|discriminate Hj]. cbn in Hi, Hj. injection Hi as Hi. injection Hj as Hj.
  destruct (Forall2_lookup_r _ _ _ _ _ Hf Ei) as (p & Hp & Hlp). destruct (Forall2_lookup_r _ _ _ _ _ Hf Ej) as (q & Hq & Hlq). cbn in Hlp, Hlq. rewrite Hi in Hlp. rewrite Hj in Hlq.
  pose proof (names_inj _ _ _ _ _ _ Hw Hlp Hlq) as <-.
  assert (Hlt : forall a b r, (a < b)%nat -> ps !! a = Some r -> ps !! b = Some r -> False).
  { clear - Hs. induction Hs as [|p l Hs IH Hp]; intros a b r Hab Ha Hb; [discriminate Ha|]. destruct b as [|b]; [lia|]. destruct a as [|a].
    - injection Ha as <-. rewrite Forall_forall in Hp. cbn in Hb. apply elem_of_list_lookup_2 in Hb. apply Hp in Hb. apply before_irrefl in Hb. exact Hb.
    - eapply (IH a b); [lia|exact Ha|exact Hb]. }
  destruct (Nat.lt_trichotomy i j) as [Hlt'|[E|Hlt']]; [exfalso; eapply Hlt; eassumption|exact E|exfalso; eapply (Hlt j i); eassumption].
Qed.

Lemma struct_val_latest observed v : sv_stats (sv_run (observed ++ [Some v])) = struct_stats v.
Proof. unfold sv_run. rewrite fold_left_app. reflexivity. Qed.
Lemma non_struct_nothing v d : points_to v d -> (forall fs, d <> VStruct fs) -> struct_stats v = ([], false).
Proof.
  intros Hv Hs. rewrite (stats_deref v d) by (apply deref_some, Hv). apply deref_some in Hv. destruct d as [x|b|t|fs|]; try reflexivity; [|destruct (Hs fs eq_refl)].
  exfalso. induction v as [x|b| |v IH|fs _|] using gval_ind'; cbn in Hv; try discriminate Hv. apply IH, Hv.
Qed.
