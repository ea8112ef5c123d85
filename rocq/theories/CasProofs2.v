(** The programs of CasUse (for C89). *)
From Verif Require Import Base BaseProofs Conc CasModel CasSpec CasProofs CasUse FuncStatsModel ObserverModel CollectModel.

Section ext.
  Context {S L C : Type} (start : C -> L) (step step' : nat -> S -> L -> S * L).
  Lemma exec_ext s0 sched : (forall i s l, step i s l = step' i s l) -> exec start step s0 sched = exec start step' s0 sched.
  Proof.
    intros H. unfold exec. generalize (Cfg s0 ([] : list L)). induction sched as [|a sched IH]; intros c; [reflexivity|]. cbn.
    rewrite IH. f_equal. destruct a as [x|i]; [reflexivity|]. cbn. destruct (threads c !! i); [|reflexivity]. rewrite H. reflexivity.
  Qed.
End ext.

Lemma f_prog_ok i s t : u_step fp_get fp_set f_prog i s t = f_step i s t.
Proof.
  unfold u_step, f_prog, f_step. destruct t as [[p err pk d| |ord|] pc], pc; cbn [FuncStatsModel.ft_call FuncStatsModel.ft_pc]; try reflexivity.
  - cbn. unfold no_hist, fp_get. destruct (bool_decide _); reflexivity.
  - cbn. unfold no_hist, fp_get, fp_set. destruct (fs_first s); reflexivity.
Qed.
Lemma f_prog_only : only_through fp_get f_prog.
Proof.
  intros i t f a s E. destruct t as [[p err pk d| |ord|] pc]; destruct pc; cbn in E; try discriminate; injection E as <-; cbn; try reflexivity;
    unfold fp_get, end_section, reset_section; repeat case_match; reflexivity.
Qed.

Lemma ob_prog_ok i s t : u_step ob_get ob_set ob_prog i s t = ob_step i s t.
Proof.
  unfold u_step, ob_prog, ob_step. destruct t as [[|r|] pc], pc; cbn [ot_call ot_pc]; try reflexivity.
  - cbn. unfold ob_get, load_ptr. destruct (bool_decide _); reflexivity.
  - cbn. unfold no_hist, ob_get. destruct (load_ptr s parent); [|reflexivity]. destruct (Nat.eqb _ _); reflexivity.
  - cbn. unfold ob_get. destruct (bool_decide _); [|reflexivity]. destruct parent; reflexivity.
  - cbn. unfold no_hist, ob_get, load_ptr. destruct (ob_head s); reflexivity.
  - cbn. unfold no_hist, ob_get, load_ptr. destruct (cdr_of s n); reflexivity.
  - cbn. unfold no_hist, ob_get, load_ptr. destruct (cdr_of s n); reflexivity.
Qed.
Lemma ob_prog_only : only_through ob_get ob_prog.
Proof.
  intros i t f a s E. destruct t as [[|r|] pc]; destruct pc; cbn in E; try discriminate; injection E as <-; cbn; try reflexivity;
    unfold ob_get; repeat case_match; try reflexivity; destruct a; reflexivity.
Qed.

Lemma chk_eqb_nil c : bool_decide (c = CNil) = chk_eqb c CNil.
Proof. destruct c; reflexivity. Qed.
Lemma cl_prog_ok info fuel i s t : u_step ck_get ck_set (cl_prog info fuel) i s t = cl_step info fuel i s t.
Proof.
  unfold u_step, cl_prog, cl_step. destruct t as [[n m|n|f| |] pc], pc; cbn [kt_call kt_pc]; try reflexivity.
  - cbn. unfold no_hist, ck_get. destruct (_ || _); reflexivity.
  - cbn. unfold no_hist, ck_get, ck_set. rewrite chk_eqb_nil. destruct (chk_eqb _ _); reflexivity.
  - cbn. unfold no_hist, ck_get, ck_set. rewrite chk_eqb_nil. destruct (chk_eqb _ _); reflexivity.
  - cbn. unfold no_hist, ck_get. destruct (cl_check s); try reflexivity. destruct (Nat.eqb _ _); reflexivity.
Qed.
Lemma cl_prog_only info fuel : only_through ck_get (cl_prog info fuel).
Proof.
  intros i t f a s E. destruct t as [[n m|n|fi| |] pc]; destruct pc; cbn in E; try discriminate; injection E as <-; cbn; try reflexivity;
    unfold ck_get; repeat case_match; reflexivity.
Qed.

Lemma f_unsafe sched : u_exec fp_get fp_set f_start f_prog fs_new sched = f_exec sched.
Proof. apply exec_ext, f_prog_ok. Qed.
Lemma ob_unsafe sched : u_exec ob_get ob_set ob_start ob_prog ob_new sched = ob_exec sched.
Proof. apply exec_ext, ob_prog_ok. Qed.
Lemma cl_unsafe info fuel sched : u_exec ck_get ck_set cl_start (cl_prog info fuel) cl_new sched = cl_exec info fuel sched.
Proof. apply exec_ext, cl_prog_ok. Qed.

(** Every thread's call was made. *)
Lemma ob_step_call i s t : ot_call (snd (ob_step i s t)) = ot_call t.
Proof. unfold ob_step. destruct t as [[|r|] pc], pc; cbn; repeat case_match; reflexivity. Qed.
Lemma spawned_thread sched c t : threads (ob_exec sched) !! c = Some t -> In (ot_call t) (spawned sched).
Proof.
  revert c t. induction sched as [|a sched IH] using rev_ind; intros c t Ht; [change (([] : list othread) !! c = Some t) in Ht; rewrite lookup_nil in Ht; discriminate|].
  unfold ob_exec in *. rewrite exec_snoc in Ht. unfold spawned. rewrite map_app, concat_app. apply in_or_app.
  destruct a as [x|i]; cbn [exec1] in Ht.
  - cbn in Ht. apply lookup_app_Some in Ht as [Ht|[_ Ht]]; [left; apply (IH c), Ht|]. apply list_lookup_singleton_Some in Ht as [_ <-].
    right. left. destruct x; reflexivity.
  - left. destruct (threads (exec ob_start ob_step ob_new sched) !! i) as [u|] eqn:Eu; [|apply (IH c), Ht]. cbn in Ht.
    apply list_lookup_insert_Some in Ht as [(<- & <- & _)|[_ Ht]]; [|apply (IH c), Ht]. rewrite ob_step_call. apply (IH i), Eu.
Qed.
