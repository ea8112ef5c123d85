(** The lines of StatsText for functions, counters and meters (for C93). *)
From Coq Require Import Reals Lra Lia.
From Flocq Require Import Core BinarySingleNaN.
From Verif Require Import Base BaseProofs SeriesModel Fval DistModel QueryModel NumModel NumSpec NumProofs
  PresentModel PresentSpec FloatTextModel FloatTextSpec
  Conc TransformModel ScopeModel FuncStatsModel FuncStatsSpec FuncStatsProofs SpecBase CounterModel CounterSpec CounterProofs MeterModel MeterSpec MeterProofs
  LineModel LineSpec LineProofs.
From Verif Require Import FuncStatsSpec.
Local Open Scope Z_scope.

Lemma int_line other lines key field z : Z.abs z <= 2 ^ 53 ->
  has_line lines key field (fixed_text 6 (text_float (float_of other (FInt z)))) -> has_integer lines key field z.
Proof. intros Hz H. exists (fixed_text 6 (text_float (float_of other (FInt z)))). split; [exact H|apply show_int, Hz]. Qed.

Lemma latest_small vs : Forall (fun v => Z.abs v <= 2 ^ 53) vs -> Z.abs (latest vs) <= 2 ^ 53.
Proof.
  intros H. unfold latest. destruct (last vs) as [v|] eqn:E; cbn; [|lia]. rewrite Forall_forall in H. apply H. apply last_Some_elem_of, E.
Qed.

Section report.
  Variables (other : fval -> f64) (faults : nat -> option nat) (s : sink) (range : list (bytes * list (stat fval))).
  Variables (name : bytes) (calls : list (list (stat fval))).
  Hypothesis Hlines : one_line_stats (registry_source range).
  Hypothesis Hscope : (name, scope_forward name calls) ∈ range.

  Definition scoped (key : series_key) : series_key := with_tag key (B "scope") name.

  Lemma func_lines sched i sn key ds errs :
    fs_stats key ds sn errs ∈ calls ->
    threads (f_exec sched) !! i = Some (FThr FStats (F_done (FRStats sn))) ->
    Permutation errs (map_to_list (sn_errors sn)) ->
    exists p1 p2 p3 q chunks lines, sched = p1 ++ p2 ++ p3 ++ q /\
      delivered faults s chunks (registry_text other faults s range) /\ read_stats (concat chunks) = Some lines /\
      let l := ends (state_after (p1 ++ p2 ++ p3)) in
      (Z.abs (fs_current (state_after p1)) <= 2 ^ 53 -> has_integer lines (scoped key) (B "current") (fs_current (state_after p1))) /\
      (Z.abs (fs_highwater (state_after (p1 ++ p2))) <= 2 ^ 53 -> has_integer lines (scoped key) (B "highwater") (fs_highwater (state_after (p1 ++ p2)))) /\
      (Z.of_nat (length l) <= 2 ^ 53 ->
       has_integer lines (scoped key) (B "successes") (number_of CSuccess l) /\
       has_integer lines (scoped key) (B "errors") (number_of_errors l) /\
       has_integer lines (scoped key) (B "panics") (number_of CPanic l) /\
       has_integer lines (scoped key) (B "failures") (number_of_errors l + number_of CPanic l) /\
       has_integer lines (scoped key) (B "total") (Z.of_nat (length l)) /\
       forall e, 0 < number_of (CError e) l -> has_integer lines (scoped (error_key key e)) (B "count") (number_of (CError e) l)).
  Proof.
    intros Hc Ht Hp. destruct (stats_emission sched i sn key ds errs Ht Hp) as (p1 & p2 & p3 & q & E & He & _ & Es).
    destruct (text_lines other faults s range Hlines) as (chunks & lines & D & R & _ & H).
    exists p1, p2, p3, q, chunks, lines. split; [exact E|]. split; [exact D|]. split; [exact R|]. cbv zeta in *.
    set (l := ends (state_after (p1 ++ p2 ++ p3))) in *.
    assert (Hf : forall f z, Stat key f (FInt z) ∈ fs_stats key ds sn errs -> Z.abs z <= 2 ^ 53 -> has_integer lines (scoped key) f z).
    { intros f z Hin Hz. apply (int_line other); [exact Hz|]. exact (H name calls _ _ Hscope Hc Hin). }
    assert (Hlen : forall P, 0 <= Z.of_nat (length (List.filter P l)) <= Z.of_nat (length l)).
    { intros P. clearbody l. clear. induction l as [|x l IH]; cbn [List.filter length] in *; [lia|]. destruct (P x); cbn [length]; lia. }
    rewrite Es in Hf. split_and!.
    - apply Hf. rewrite !elem_of_app. left. apply elem_of_list_here.
    - apply Hf. rewrite !elem_of_app. left. right. left.
    - intros Hl. split_and!.
      + apply Hf; [|unfold number_of; pose proof (Hlen (fun x => bool_decide (fst x = CSuccess))); lia]. rewrite !elem_of_app. left. right. right. left.
      + apply Hf; [|unfold number_of_errors; pose proof (Hlen (fun x => is_error (fst x))); lia]. rewrite !elem_of_app. right. right. left. left.
      + apply Hf; [|unfold number_of; pose proof (Hlen (fun x => bool_decide (fst x = CPanic))); lia]. rewrite !elem_of_app. right. right. left. right. left.
      + apply Hf; [rewrite !elem_of_app; right; right; left; right; right; left|].
        assert (number_of_errors l + number_of CPanic l <= Z.of_nat (length l)).
        { clearbody l. clear. unfold number_of_errors, number_of. induction l as [|[[| |] d] l IH]; cbn [List.filter length fst is_error] in *; try lia.
          all: rewrite ?bool_decide_eq_true_2, ?bool_decide_eq_false_2 by congruence; cbn [length]; lia. }
        unfold number_of_errors, number_of in *. lia.
      + apply Hf; [|lia]. rewrite !elem_of_app. right. right. left. right. right. right. left.
      + intros e Hpos. assert (In (e, number_of (CError e) l) errs) as Hin by (apply He; split; [reflexivity|exact Hpos]).
        apply (int_line other); [unfold number_of in *; pose proof (Hlen (fun x => bool_decide (fst x = CError e))); lia|].
        apply (H name calls _ (Stat (error_key key e) (B "count") (FInt (number_of (CError e) l))) Hscope Hc). rewrite Es, !elem_of_app. right. left.
        apply elem_of_list_In, in_map_iff. exists (e, number_of (CError e) l). split; [reflexivity|exact Hin].
  Qed.

  Lemma counter_lines h key :
    map (fun '(f, v) => Stat key f v) (counter_Stats (counter_run h)) ∈ calls ->
    Forall (fun v => Z.abs v <= 2 ^ 53) (values_taken h) ->
    exists chunks lines, delivered faults s chunks (registry_text other faults s range) /\ read_stats (concat chunks) = Some lines /\
      has_integer lines (scoped key) (B "value") (latest (values_taken h)) /\
      match values_taken h with
      | [] => has_line lines (scoped key) (B "high") (B "NaN") /\ has_line lines (scoped key) (B "low") (B "NaN")
      | _ => exists hi lo, largest (values_taken h) hi /\ smallest (values_taken h) lo /\
               has_integer lines (scoped key) (B "high") hi /\ has_integer lines (scoped key) (B "low") lo
      end.
  Proof.
    intros Hc Hv. destruct (text_lines other faults s range Hlines) as (chunks & lines & D & R & _ & H).
    exists chunks, lines. split; [exact D|]. split; [exact R|]. pose proof (counter_stats_spec h) as Hs. cbv zeta in Hs.
    assert (Hf : forall f v, (f, v) ∈ counter_Stats (counter_run h) -> has_line lines (scoped key) f (fixed_text 6 (text_float (float_of other v)))).
    { intros f v Hin. refine (H name calls _ (Stat key f v) Hscope Hc _). apply elem_of_list_fmap. exists (f, v). split; [reflexivity|exact Hin]. }
    destruct (values_taken h) as [|v0 vs] eqn:Ev.
    - rewrite Hs in Hf. split.
      + apply (int_line other); [cbn; lia|]. apply Hf. right. right. left.
      + split; [exact (Hf (B "high") FNaN ltac:(left))|exact (Hf (B "low") FNaN ltac:(right; left))].
    - destruct Hs as (hi & lo & Hhi & Hlo & Es). rewrite Es in Hf.
      assert (Hb : forall x, x ∈ v0 :: vs -> Z.abs x <= 2 ^ 53) by (intros x Hx; rewrite Forall_forall in Hv; apply Hv, Hx).
      split.
      + apply (int_line other); [|apply Hf; right; right; left]. apply latest_small. exact Hv.
      + exists hi, lo. split; [exact Hhi|]. split; [exact Hlo|]. split.
        * apply (int_line other); [|apply Hf; left]. apply Hb. apply Hhi.
        * apply (int_line other); [|apply Hf; right; left]. apply Hb. apply Hlo.
  Qed.

  Lemma meter_lines t0 h now key :
    map (fun '(f, v) => Stat key f v) (meter_Stats (meter_run t0 h) now) ∈ calls ->
    exists chunks lines, delivered faults s chunks (registry_text other faults s range) /\ read_stats (concat chunks) = Some lines /\
      (marks_and_ticks h -> Z.abs (sum_marks h) <= 2 ^ 53 -> has_integer lines (scoped key) (B "total") (sum_marks h)) /\
      exists start, head (window (ledger_run t0 h)) = Some start /\
        let age := now - snd start in
        let marks := wrap64 (zsum (map fst (window (ledger_run t0 h)))) in
        let r := (IZR marks / in_seconds age)%R in
        in64 age ->
        (0 < age -> has_about lines (scoped key) (B "rate") r (/ 2000000 + bpow radix2 (-50) * Rabs r)%R) /\
        (age <= 0 -> has_integer lines (scoped key) (B "rate") 0).
  Proof.
    intros Hc. destruct (text_lines other faults s range Hlines) as (chunks & lines & D & R & _ & H).
    exists chunks, lines. split; [exact D|]. split; [exact R|].
    assert (Hf : forall f v, (f, v) ∈ meter_Stats (meter_run t0 h) now -> has_line lines (scoped key) f (fixed_text 6 (text_float (float_of other v)))).
    { intros f v Hin. refine (H name calls _ (Stat key f v) Hscope Hc _). apply elem_of_list_fmap. exists (f, v). split; [reflexivity|exact Hin]. }
    split.
    - intros Hh Hs. pose proof (Hf (B "total") (meter_Total (meter_run t0 h) now) ltac:(right; left)) as HT.
      rewrite (meter_total_marks t0 h now Hh), wrap64_id in HT by (unfold in64; lia). exact (int_line other _ _ _ _ Hs HT).
    - destruct (meter_spec other t0 h now) as (start & H1 & H2). exists start. split; [exact H1|]. cbv zeta in *. intros Hd.
      destruct (H2 Hd) as (E & A & Z0). pose proof (Hf (B "rate") (meter_Rate (meter_run t0 h) now) ltac:(left)) as HR. split.
      + intros Hpos. exists (fixed_text 6 (text_float (float_of other (meter_Rate (meter_run t0 h) now)))). split; [exact HR|]. apply show_about, A, Hpos.
      + intros Hneg. exists (fixed_text 6 (text_float (float_of other (meter_Rate (meter_run t0 h) now)))). split; [exact HR|].
        rewrite E, rate_zero by assumption. apply (show_int 0). lia.
  Qed.
End report.
