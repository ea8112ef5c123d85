(** * Executions of RaceModel.v, computed

    For the examples and the refutations: a scheduler, and a way to see that one event does
    not happen before another. *)
From Verif Require Import RaceModel RaceSpec.
From stdpp Require Import relations.

(** What the scheduler has a goroutine do: call function number m with the arguments os;
    do the next statement ([Do p]: p is the object that a [Get] gets, or the branch of an
    [If], a [Loop] or a [Once]); return; start a goroutine. *)
Inductive act := Call (m : nat) (os : list obj) | Do (p : nat) | Ret | Fork.

Definition held_eqb (a b : tid * mode * obj * string) : bool := bool_decide (a = b).

Definition free_b (h : heap) (m : mode) (o : obj) (l : string) : bool :=
  forallb (fun a => match a with (_, m', o', l') =>
      negb (Nat.eqb o' o && String.eqb l' l) || match m, m' with MR, MR => true | _, _ => false end end) (held h) &&
  match m with MO => negb (bool_decide ((o, l) ∈ done h)) | _ => true end.

Fixpoint take_out (a : tid * mode * obj * string) (hs : list (tid * mode * obj * string))
  : option (list (tid * mode * obj * string)) :=
  match hs with
  | [] => None
  | b :: hs' => if bool_decide (a = b) then Some hs' else cons b <$> take_out a hs'
  end.

Definition cnext (h : heap) (t : tid) (e : env) (p : nat) (c : cmd)
  : option (option ev * heap * env * list cmd) :=
  match c with
  | New x c fs =>
      cs ← stores e (length (objs h)) fs;
      Some (Some (ENew (length (objs h)) c),
            {| objs := objs h ++ [c]; cont := cs ++ cont h; held := held h; done := done h |},
            (x, length (objs h)) :: e, [])
  | Rd v f => o ← lookup_var e v; Some (Some (ERd o f), h, e, [])
  | Wr v f ys =>
      o ← lookup_var e v; cs ← stores e o (map (fun y => (f, y)) ys);
      Some (Some (EWr o f), {| objs := objs h; cont := cs ++ cont h; held := held h; done := done h |}, e, [])
  | Get v f x c =>
      o ← lookup_var e v;
      if bool_decide ((o, f, p) ∈ cont h) && bool_decide (objs h !! p = Some c)
      then Some (Some (ERd o f), h, (x, p) :: e, []) else None
  | At a v f ys =>
      o ← lookup_var e v; cs ← stores e o (map (fun y => (f, y)) ys);
      Some (Some (EAt a o f), {| objs := objs h; cont := put a o f cs (cont h); held := held h; done := done h |}, e, [])
  | AtGet v f x c =>
      o ← lookup_var e v;
      if bool_decide ((o, f, p) ∈ cont h) && bool_decide (objs h !! p = Some c)
      then Some (Some (EAt ALoad o f), h, (x, p) :: e, []) else None
  | Lk m v l =>
      o ← lookup_var e v;
      if free_b h m o l
      then Some (Some (EAcq m o l), {| objs := objs h; cont := cont h; held := (t, m, o, l) :: held h; done := done h |}, e, [])
      else None
  | Un m v l =>
      o ← lookup_var e v; held' ← take_out (t, m, o, l) (held h);
      Some (Some (ERel m o l), release h held' m o l, e, [])
  | Once v n b =>
      match p with
      | 0 => Some (None, h, e, Lk MO v n :: b ++ [Un MO v n])
      | _ => o ← lookup_var e v; if bool_decide ((o, n) ∈ done h) then Some (Some (EPass o n), h, e, []) else None
      end
  | If b1 b2 => Some (None, h, e, match p with 0 => b1 | _ => b2 end)
  | Loop b => Some (None, h, e, match p with 0 => [] | _ => b ++ [Loop b] end)
  | Go b => None
  | User => Some (None, h, e, [])
  end.

Definition at_user_b (fs : list (env * list cmd)) : bool :=
  match fs with [] => true | (_, User :: _) :: _ => true | _ => false end.

Definition args_b (s : state) (t : tid) (ps : list (string * string)) (os : list obj) : bool :=
  Nat.eqb (length ps) (length os) &&
  forallb (fun po => bool_decide (objs (mem s) !! po.2 = Some po.1.2) && bool_decide ((t, po.2) ∈ known s)) (zip ps os).

Definition next (L : library) (s : state) (t : tid) (a : act) : option (option ev * state) :=
  fs ← thr s !! t;
  match a with
  | Call i os =>
      m ← methods L !! i;
      if at_user_b fs && args_b s t (params m) os
      then Some (None, {| mem := mem s;
             thr := <[t := (zip (params m).*1 os ++ globals_env L, body m) :: fs]> (thr s);
             known := known s; mail := mail s |})
      else None
  | Do p =>
      match fs with
      | (e, Go b :: k) :: fs' =>
          Some (Some (ESpawn (length (thr s))),
            {| mem := mem s; thr := <[t := (e, k) :: fs']> (thr s) ++ [[(e, b)]];
               known := tells (length (thr s)) e ++ known s; mail := mail s |})
      | (e, c :: k) :: fs' =>
          r ← cnext (mem s) t e p c;
          match r with (oe, h', e', b) =>
            Some (oe, {| mem := h'; thr := <[t := (e', b ++ k) :: fs']> (thr s);
                         known := tells t e' ++ known s; mail := mail s |})
          end
      | _ => None
      end
  | Ret =>
      match fs with
      | (e, []) :: fs' => Some (None, {| mem := mem s; thr := <[t := fs']> (thr s); known := known s; mail := mail s |})
      | _ => None
      end
  | Fork =>
      if at_user_b fs
      then Some (Some (ESpawn (length (thr s))),
        {| mem := mem s; thr := thr s ++ [[]];
           known := map (fun o => (length (thr s), o.2)) (List.filter (fun p => Nat.eqb p.1 t) (known s)) ++ known s;
           mail := mail s |})
      else None
  end.

Fixpoint run (L : library) (tr : list (tid * ev)) (s : state) (sched : list (tid * act))
  : option (list (tid * ev) * state) :=
  match sched with
  | [] => Some (tr, s)
  | (t, a) :: sched' =>
      r ← next L s t a;
      match r with
      | (Some e, s') => run L (tr ++ [(t, e)]) s' sched'
      | (None, s') => run L tr s' sched'
      end
  end.

Definition run0 (L : library) (sched : list (tid * act)) : option (list (tid * ev) * state) :=
  run L (init_trace L) (init_state L) sched.

Lemma take_out_perm a hs hs' : take_out a hs = Some hs' -> hs ≡ₚ a :: hs'.
Proof.
  revert hs'. induction hs as [|b hs IH]; intros hs'; cbn; [done|].
  case_bool_decide as E.
  - intros [= ->]. by rewrite E.
  - destruct (take_out a hs) as [l|]; cbn; [|done]. intros [= <-].
    rewrite (IH l eq_refl). apply perm_swap.
Qed.

Lemma free_b_sound h m o l : free_b h m o l = true -> free h m o l.
Proof.
  unfold free_b. intros [H H2]%andb_prop. rewrite forallb_forall in H.
  assert (forall t m', (t, m', o, l) ∈ held h -> m = MR /\ m' = MR) as H1.
  { intros t m' Hin. specialize (H _ (proj1 (elem_of_list_In _ _) Hin)). cbn in H.
    rewrite Nat.eqb_refl, String.eqb_refl in H. destruct m, m'; done. }
  destruct m; cbn.
  - intros t m' Hin. destruct (H1 t m' Hin); done.
  - intros t m' Hm Hin. by destruct (H1 t m' Hin).
  - split; [intros t m' Hin; destruct (H1 t m' Hin); done|].
    apply negb_true_iff, bool_decide_eq_false in H2. done.
Qed.

Lemma cnext_sound h t e p c oe h' e' b :
  cnext h t e p c = Some (oe, h', e', b) -> cstep h t e c oe h' e' b.
Proof.
  destruct c; cbn; intros H;
    repeat (case_match || simplify_option_eq || simplify_eq/=);
    repeat match goal with
    | H : _ && _ = true |- _ => apply andb_prop in H as [? ?]
    | H : bool_decide _ = true |- _ => apply bool_decide_eq_true in H
    end; try by econstructor.
  - econstructor; [done|]. by apply free_b_sound.
  - econstructor; [done|]. by apply take_out_perm.
Qed.

Lemma args_b_sound s t ps os : args_b s t ps os = true -> args_ok s t ps os.
Proof.
  unfold args_b, args_ok. intros [H1 H2]%andb_prop. apply Nat.eqb_eq in H1.
  revert os H1 H2. induction ps as [|p ps IH]; intros [|o os] H1 H2; cbn in *; try done.
  apply andb_prop in H2 as [H2 H3]. apply andb_prop in H2 as [H2 H4].
  apply bool_decide_eq_true in H2, H4. constructor; [done|]. apply IH; [congruence|done].
Qed.

Lemma at_user_b_sound fs : at_user_b fs = true -> at_user fs.
Proof.
  destruct fs as [|[e [|[] k]] fs]; cbn; try done; [by left|].
  right. by repeat eexists.
Qed.

Lemma next_sound L s t a oe s' : next L s t a = Some (oe, s') -> step L s t oe s'.
Proof.
  unfold next. destruct (thr s !! t) as [fs|] eqn:Ht; cbn; [|done].
  destruct a as [i os|p| |].
  - destruct (methods L !! i) as [m|] eqn:Hm; cbn; [|done].
    destruct (at_user_b fs) eqn:Hu; cbn; [|done].
    destruct (args_b s t (params m) os) eqn:Ha; [|done]. intros [= <- <-].
    apply s_call; [done|by apply at_user_b_sound|by eapply elem_of_list_lookup_2|by apply args_b_sound].
  - destruct fs as [|[e [|c k]] fs]; try done. intros H.
    assert ((exists b, c = Go b) \/ (r ← cnext (mem s) t e p c;
      match r with (oe, h', e', b) => Some (oe, {| mem := h'; thr := <[t := (e', b ++ k) :: fs]> (thr s);
          known := tells t e' ++ known s; mail := mail s |}) end) = Some (oe, s')) as [[b ->]|Hc].
    { destruct c; eauto. }
    + injection H as <- <-. by apply s_go.
    + destruct (cnext (mem s) t e p c) as [[[[oe1 h1] e1] b1]|] eqn:E; cbn in Hc; [|done].
      injection Hc as <- <-. eapply s_cmd; [done|]. by eapply cnext_sound.
  - destruct fs as [|[e [|c k]] fs]; try done. intros [= <- <-]. by eapply s_return.
  - destruct (at_user_b fs) eqn:Hu; [|done]. intros [= <- <-].
    eapply s_spawn; [done|by apply at_user_b_sound].
Qed.

Lemma run_sound L sched : forall tr s tr' s',
  execution L tr s -> run L tr s sched = Some (tr', s') -> execution L tr' s'.
Proof.
  induction sched as [|[t a] sched IH]; intros tr s tr' s' He; cbn; [by intros [= <- <-]|].
  destruct (next L s t a) as [[[e|] s1]|] eqn:E; cbn; [| |done]; intros Hr;
    apply next_sound in E; (eapply IH; [|exact Hr]); [by eapply ex_event|by eapply ex_quiet].
Qed.

Lemma run0_sound L sched tr s : run0 L sched = Some (tr, s) -> execution L tr s.
Proof. apply run_sound. constructor. Qed.

(** ** What does not happen before *)

(** At least the pairs of [before1]. *)
Definition sync_b (e1 e2 : ev) : bool :=
  match e1, e2 with
  | ERel MW o l, EAcq MW o' l' | ERel MW o l, EAcq MR o' l' | ERel MR o l, EAcq MW o' l'
  | ERel MO o l, EPass o' l' => Nat.eqb o o' && String.eqb l l'
  | ESend c, ERecv c' => Nat.eqb c c'
  | EAt _ o f, EAt _ o' f' => Nat.eqb o o' && String.eqb f f'
  | _, _ => false
  end.
Definition edge (p q : tid * ev) : bool :=
  Nat.eqb p.1 q.1 || sync_b p.2 q.2 || match p.2 with ESpawn t => Nat.eqb t q.1 | _ => false end.

(** A set of events that contains i and is closed under them. *)
Fixpoint reach (tr : list (tid * ev)) (k : nat) (R : list (tid * ev)) (I : list nat) : list nat :=
  match tr with
  | [] => I
  | q :: tr' => if existsb (fun p => edge p q) R then reach tr' (S k) (q :: R) (k :: I) else reach tr' (S k) R I
  end.
Definition after (tr : list (tid * ev)) (i : nat) : list nat :=
  match drop i tr with [] => [] | p :: tr' => reach tr' (S i) [p] [i] end.

Definition closed_b (tr : list (tid * ev)) (R : list nat) : bool :=
  forallb (fun i => forallb (fun j => negb (Nat.ltb i j) || bool_decide (j ∈ R) ||
    match tr !! i, tr !! j with Some p, Some q => negb (edge p q) | _, _ => true end)
    (seq 0 (length tr))) R.

Lemma edge_before tr i j p q : before1 tr i j -> tr !! i = Some p -> tr !! j = Some q -> edge p q = true.
Proof.
  intros (_ & t1 & e1 & t2 & e2 & H1 & H2 & H) Hp Hq. simplify_eq.
  unfold edge. cbn [fst snd]. destruct H as [->|[H|[->|H]]].
  - by rewrite Nat.eqb_refl.
  - assert (sync_b e1 e2 = true) as ->; [|by rewrite orb_true_r].
    destruct e1 as [| | | |m o l|m o l| | | |], e2 as [| | | |m' o' l'|m' o' l'| | | |]; try done;
      try (destruct m; try done; try (destruct m'; try done);
           destruct H as [-> ->]; cbn; by rewrite Nat.eqb_refl, String.eqb_refl).
    cbn in H. subst. cbn. by apply Nat.eqb_refl.
  - rewrite Nat.eqb_refl. by rewrite orb_true_r.
  - destruct H as (t1' & a1 & t2' & a2 & o & f & E1 & E2 & _). simplify_eq.
    cbn. rewrite Nat.eqb_refl, String.eqb_refl. cbn. by rewrite orb_true_r.
Qed.

Lemma not_before tr R i j : i ∈ R -> closed_b tr R = true -> j ∉ R -> ~ happens_before tr i j.
Proof.
  intros Hi Hc Hj Hb. apply Hj. clear Hj. unfold closed_b in Hc. rewrite forallb_forall in Hc.
  assert (forall a b, a ∈ R -> before1 tr a b -> b ∈ R) as Hs.
  { intros a b Ha Hab. specialize (Hc _ (proj1 (elem_of_list_In _ _) Ha)). rewrite forallb_forall in Hc.
    pose proof Hab as (Hlt & t1 & e1 & t2 & e2 & H1 & H2 & _).
    specialize (Hc b). rewrite H1, H2 in Hc. rewrite (edge_before _ _ _ _ _ Hab H1 H2) in Hc. cbn in Hc.
    rewrite orb_false_r in Hc. specialize (Hc ltac:(apply in_seq; apply lookup_lt_Some in H2; lia)).
    apply orb_prop in Hc as [Hc|Hc]; [|by apply bool_decide_eq_true in Hc].
    apply negb_true_iff, Nat.ltb_ge in Hc. lia. }
  induction Hb as [a b Hab|a b c Hab _ IH]; eauto.
Qed.

(** All of a refutation: the schedule, and the two events. *)
Definition racy (L : library) (sched : list (tid * act)) (i j : nat) (e1 e2 : tid * ev) : bool :=
  match run0 L sched with
  | Some (tr, _) =>
      Nat.ltb i j && (closed_b tr (after tr i) && bool_decide (i ∈ after tr i) && negb (bool_decide (j ∈ after tr i)))
      && match tr !! i, tr !! j with
         | Some p, Some q => Nat.eqb p.1 e1.1 && Nat.eqb q.1 e2.1 &&
             match p.2, e1.2 with EWr o f, EWr o' f' => Nat.eqb o o' && String.eqb f f' | _, _ => false end &&
             match q.2, e2.2 with
             | EWr o f, EWr o' f' | ERd o f, ERd o' f' => Nat.eqb o o' && String.eqb f f'
             | _, _ => false
             end
         | _, _ => false
         end
  | None => false
  end.

Lemma racy_sound L sched i j t1 t2 o f e2 :
  racy L sched i j (t1, EWr o f) (t2, e2) = true -> e2 = EWr o f \/ e2 = ERd o f ->
  exists tr s, execution L tr s /\ races tr i j /\
    tr !! i = Some (t1, EWr o f) /\ tr !! j = Some (t2, e2).
Proof.
  unfold racy. intros H He.
  destruct (run0 L sched) as [[tr s]|] eqn:E; [|done].
  apply andb_prop in H as [H H4]. apply andb_prop in H as [H1 H2].
  apply andb_prop in H2 as [H2 H3]. apply andb_prop in H2 as [H2 H5].
  apply Nat.ltb_lt in H1. apply bool_decide_eq_true in H5. apply negb_true_iff, bool_decide_eq_false in H3.
  destruct (tr !! i) as [[t1' e1']|] eqn:Ei; [|done]. destruct (tr !! j) as [[t2' e2']|] eqn:Ej; [|done].
  cbn [fst snd] in H4. apply andb_prop in H4 as [H4 H7]. apply andb_prop in H4 as [H4 H6].
  apply andb_prop in H4 as [H4 H8]. apply Nat.eqb_eq in H4 as ->. apply Nat.eqb_eq in H8 as ->.
  destruct e1'; try done. apply andb_prop in H6 as [H6 H8].
  apply Nat.eqb_eq in H6 as ->. apply String.eqb_eq in H8 as ->.
  assert (e2' = e2) as ->.
  { destruct e2', e2; try done; apply andb_prop in H7 as [H7 H8];
      apply Nat.eqb_eq in H7 as ->; apply String.eqb_eq in H8 as ->; done. }
  exists tr, s. split; [by eapply run0_sound|]. split; [|done].
  split; [done|]. split.
  - exists t1, (EWr o f), t2, e2. split; [done|]. split; [done|]. split.
    + exists o, f. destruct He as [->| ->]; by cbn.
    + split; [intros [(? & ? & ?) _]; done|intros [(? & ? & ? & ?) _]; done].
  - by apply (not_before tr (after tr i)).
Qed.
