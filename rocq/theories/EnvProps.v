(** Properties of package environment: C52, C64, C65, C66. *)
From Verif Require Import Base BaseProofs Strings Fval StructModel CallersModel EnvModel EnvSpec EnvProofs.
Open Scope Z_scope.
Local Arguments B : simpl never.

(** Every Stats call after the first collection inserts the most recent pause,
    earlier ones insert nothing, and nothing else is inserted. *)
Theorem C52_inserts :
  forall h, rt_inserted (fst (rt_run h)) = omap (seen_at h) (seq 0 (length h)).
Proof. exact rt_inserted_spec. Qed.
Print Assumptions C52_inserts.

(** So each pause is recorded once exactly if there is one collection per call. *)
Theorem C52_once :
  forall ps, rt_inserted (fst (rt_run (concat (map (fun p => [EvGC p; EvStats]) ps)))) = ps.
Proof.
  intros ps. induction ps as [|p ps IH] using rev_ind; [reflexivity|].
  rewrite map_app, concat_app. cbn [map concat app]. set (h := concat (map (fun p => [EvGC p; EvStats]) ps)) in *.
  destruct (gc_inv h) as (_ & G & _ & L). unfold rt_run in *. rewrite fold_left_app. destruct (fold_left rt_step h (rt_new, gc_none)) as [s g].
  cbn [fst snd] in *. cbn [fold_left rt_step fst snd]. unfold rt_stats, collect. cbn [gc_num gc_pause rt_last]. rewrite L. cbn [take firstn length].
  destruct (Z.eqb_spec 0 (gc_num g + 1)) as [|_]; [lia|]. cbn [negb andb]. destruct (Z.ltb_spec 0 (Z.of_nat (S (length (firstn 255 (gc_pause g)))))) as [_|H]; [|lia].
  cbn [rt_inserted]. rewrite IH. reflexivity.
Qed.
Print Assumptions C52_once.

(** In general a pause is counted again by each call, and others are missed. *)
Theorem C52_refuted :
  (exists h p, pauses h = [p] /\ rt_inserted (fst (rt_run h)) = [p; p]) /\
  (exists h p q, pauses h = [p; q] /\ p <> q /\ EvStats ∈ h /\ latest h = Some q /\ p ∉ rt_inserted (fst (rt_run h))).
Proof.
  split.
  - exists [EvGC 5; EvStats; EvStats], 5. split; reflexivity.
  - exists [EvGC 5; EvGC 7; EvStats], 5, 7. split_and!; try reflexivity; [lia|right; right; left|].
    change (5 ∉ [7]). rewrite elem_of_list_singleton. lia.
Qed.
Print Assumptions C52_refuted.
Example C52_ex : rt_inserted (fst (rt_run [EvStats; EvGC 3; EvStats; EvGC 4; EvGC 5; EvStats; EvStats])) = [3; 5; 5].
Proof. reflexivity. Qed.

(** /proc files: when the line has the documented fields, each numeric field is
    reported once, in order, under its name and with its value. *)
Theorem C64_reported :
  forall doc fields xs ts rest, (doc, fields) ∈ [(documented_stat, stat_fields); (documented_statm, statm_fields)] ->
    fields_text (kinds doc) xs ts -> line_end rest ->
    proc_file_stats fields (Some (join (B " ") ts ++ rest)) =
      omap (fun p => match field_number (snd p) with Some z => Some (fst p, FInt z) | None => None end) (zip (reported_names doc) xs).
Proof.
  intros doc fields xs ts rest Hf Ht Hr.
  assert (kinds doc = map snd fields /\ reported_names doc = map fst fields) as [Hk Hn].
  { repeat (apply elem_of_cons in Hf as [Hf|Hf]; [apply pair_equal_spec in Hf as [-> ->]; vm_compute; split; reflexivity|]). apply elem_of_nil in Hf as []. }
  rewrite Hk in Ht. rewrite Hn. unfold proc_file_stats. rewrite (scan_text _ xs ts rest Ht Hr). rewrite fill_stats; [reflexivity|].
  rewrite (proj1 Ht). apply map_length.
Qed.
Print Assumptions C64_reported.

(** No such file, no values. *)
Theorem C64_unreadable : forall fields, proc_file_stats fields None = [].
Proof. reflexivity. Qed.
Print Assumptions C64_unreadable.

(** A process whose name contains white space reports no proc_stat values at all. *)
Theorem C64_name_refuted :
  forall pid n comm state rest,
    dec_num pid n -> (exists c, c ∈ comm /\ blank c) -> (length comm <= 64)%nat -> state ∈ B "RSDZTtXxKWPI" ->
    proc_file_stats stat_fields (Some (pid ++ B " (" ++ comm ++ B ") " ++ state :: rest)) = [].
Proof.
  intros pid n comm state rest Hp Hb Hl Hst. unfold proc_file_stats. rewrite (scan_comm_blank pid n comm state rest Hp Hb Hl); [reflexivity|].
  assert (H : Forall (fun c => numeric c = false) (B "RSDZTtXxKWPI")) by (apply (bool_decide_unpack _); vm_compute; exact I).
  rewrite Forall_forall in H. exact (H state Hst).
Qed.
Print Assumptions C64_name_refuted.

Example C64_ex :
  proc_file_stats statm_fields (Some (B "120 7 3 9 0 55 0" ++ [newline])) =
    [(B "Size", FInt 120); (B "Resident", FInt 7); (B "Share", FInt 3); (B "Text", FInt 9); (B "Lib", FInt 0); (B "Data", FInt 55); (B "Dt", FInt 0)].
Proof. vm_compute. reflexivity. Qed.
Definition stat_tail : bytes :=
  B "1 10 10 0 -1 4194560 1 2 3 4 5 6 -7 8 20 0 9 0 100 200 -5 18446744073709551615 1 1 0 0 0 0 0 0 0 0 0 0 17 3 0 0 0 0 0".
Example C64_stat_ex :
  length (proc_file_stats stat_fields (Some (B "10 (monkit) S " ++ stat_tail ++ [newline]))) = 43%nat /\
  take 3 (proc_file_stats stat_fields (Some (B "10 (monkit) S " ++ stat_tail ++ [newline]))) = [(B "Pid", FInt 10); (B "State", FInt 83); (B "Ppid", FInt 1)].
Proof. vm_compute. split; reflexivity. Qed.
Example C64_name_ex : proc_file_stats stat_fields (Some (B "10 (tmux: server) S " ++ stat_tail ++ [newline])) = [].
Proof.
  apply (C64_name_refuted (B "10") 10 (B "tmux: server") "S"%char (" "%char :: stat_tail ++ [newline])).
  - change (B "10") with (["1"%char] ++ ["0"%char]). apply (dec_more _ 1 _ 0); [constructor|]; split; try lia; reflexivity.
  - exists " "%char. split; apply (bool_decide_unpack _); vm_compute; exact I.
  - vm_compute. lia.
  - apply (bool_decide_unpack _). vm_compute. exact I.
Qed.
Example fields_text_ex : fields_text (kinds documented_statm) (replicate 7 (VZ 4)) (replicate 7 (B "4")).
Proof.
  split_and!; [reflexivity..|]. intros i v x t Hv Hx Ht. apply lookup_replicate in Hx as [-> _]. apply lookup_replicate in Ht as [-> _].
  assert (v = Vint) as ->.
  { assert (H : Forall (fun v => v = Vint) (kinds documented_statm)) by (repeat constructor). rewrite Forall_forall in H. apply H, elem_of_list_lookup. eauto. }
  constructor; [|lia]. constructor. split; [lia|reflexivity].
Qed.

(** Register: the scope is named after this package's import path ... *)
Theorem C65_scope : register_scope = B "github.com/spacemonkeygo/monkit/v3/environment".
Proof. vm_compute. reflexivity. Qed.
Print Assumptions C65_scope.
(** ... and not 'env', as its comment says. *)
Theorem C65_env_refuted : register_scope <> B "env".
Proof. rewrite C65_scope. apply (bool_decide_unpack _). vm_compute. exact I. Qed.
Print Assumptions C65_env_refuted.
(** All sources are attached, in order, behind what was there; once more by every call. *)
Theorem C65_attached :
  forall {S} (regs chained : list S) n, Nat.iter n (register regs) chained = chained ++ concat (replicate n regs).
Proof.
  intros S regs chained n. induction n as [|n IH]; [symmetry; apply app_nil_r|]. change (Nat.iter (Datatypes.S n) (register regs) chained) with (register regs (Nat.iter n (register regs) chained)). rewrite IH, register_app, <- app_assoc. f_equal.
  clear. induction n as [|n IH]; [symmetry; apply app_nil_r|]. cbn [replicate concat]. rewrite <- app_assoc, IH. reflexivity.
Qed.
Print Assumptions C65_attached.
Example C65_ex : Nat.iter 2 (register [1; 2]) [0] = [0; 1; 2; 1; 2].
Proof. reflexivity. Qed.

(** Process: every call reports control 1 and the uptime; the CRC is that of the
    first call, and is never reported if the first call could not read it. *)
Theorem C66_process :
  forall read up h,
    process_run None ((read, up) :: h) =
    map (fun x => (B "control", FInt 1) :: match read with Some v => [(B "crc", FInt v)] | None => [] end ++ [(B "uptime", FSeconds (snd x))])
        ((read, up) :: h).
Proof. intros read up h. cbn [process_run process_stats process_crc]. cbn [map snd]. f_equal. apply process_run_cached. Qed.
Print Assumptions C66_process.
(** Descriptors: the number of names listed up to the end of the directory; no
    value if the listing fails before. *)
Theorem C66_descriptors :
  forall batches names more,
    os_stats (Some (map (fun b => (b, DNone)) batches ++ (names, DEof) :: more)) =
      [(B "count", FInt (Z.of_nat (length (concat batches ++ names))))] /\
    os_stats (Some (map (fun b => (b, DNone)) batches ++ (names, DFail) :: more)) = [] /\
    os_stats None = [].
Proof.
  intros batches names more. unfold os_stats.
  assert (H : forall n e, e <> DNone -> fd_count n (map (fun b => (b, DNone)) batches ++ (names, e) :: more) =
    Some (n + Z.of_nat (length (concat batches ++ names)), match e with DEof => true | _ => false end)).
  { induction batches as [|b batches IH]; intros n e He; cbn [map app fd_count concat].
    - destruct e; [contradiction|reflexivity|reflexivity].
    - rewrite (IH _ e He). rewrite <- app_assoc, (app_length b). do 2 f_equal. lia. }
  rewrite !H by discriminate. cbn. auto.
Qed.
Print Assumptions C66_descriptors.
Example C66_ex : process_run None [(None, 1); (Some 7, 2)] = [[(B "control", FInt 1); (B "uptime", FSeconds 1)]; [(B "control", FInt 1); (B "uptime", FSeconds 2)]].
Proof. exact (C66_process None 1 [(Some 7, 2)]). Qed.
Example C66_fd_ex : os_stats (Some [([B "0"; B "1"], DNone); ([B "3"], DEof)]) = [(B "count", FInt 3)] /\ os_stats (Some [([B "0"], DFail)]) = [].
Proof. split; reflexivity. Qed.
