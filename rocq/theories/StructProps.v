(** Property C34 (StatSourceFromStruct, StructVal). *)
From Verif Require Import Base Fval StructModel StructSpec StructProofs.
From Coq Require Import Sorted.
Local Arguments B : simpl never.

(** C34: the report lists, in declaration order and each once, exactly the numeric and bool
    fields that are not preceded by a nil pointer, each with its dotted name and value. *)
Theorem C34_report : forall v, exists ps,
  StronglySorted before ps /\
  (forall p, p ∈ ps <-> (exists n x, leaf v p n x) /\ (forall q, nil_at v q -> ~ before q p)) /\
  Forall2 (fun p s => leaf v p (fst s) (snd s)) ps (fst (struct_stats v)).
Proof. exact struct_report. Qed.
Print Assumptions C34_report.

(** C34: it panics exactly if there is a nil pointer, be it in an ignored field. *)
Theorem C34_panics : forall v, snd (struct_stats v) = true <-> exists q, nil_at v q.
Proof. exact struct_panics. Qed.
Print Assumptions C34_panics.

(** C34: with names as in Go no two stats of a report have one name. *)
Theorem C34_names : forall v, well_named v -> NoDup (map fst (fst (struct_stats v))).
Proof. exact names_distinct. Qed.
Print Assumptions C34_names.

(** C34: values that are not structs report nothing. *)
Theorem C34_non_struct : forall v d, points_to v d -> (forall fs, d <> VStruct fs) -> struct_stats v = ([], false).
Proof. exact non_struct_nothing. Qed.
Print Assumptions C34_non_struct.

(** C34: a StructVal reports the value last observed; nothing before the first. *)
Theorem C34_struct_val : forall observed v, sv_stats (sv_run (observed ++ [Some v])) = struct_stats v.
Proof. exact struct_val_latest. Qed.
Print Assumptions C34_struct_val.

Definition fld (n : string) (e : bool) (t : string) (v : gval) : gfield := (B n, e, B t, v).
Definition inner : gval := VStruct [fld "X" true "" (VNum (FInt 3)); fld "y" false "" (VNum (FInt 4)); fld "S" true "" VOther].
Definition outer : gval :=
  VPtr (Some (VStruct [fld "A" true "" (VNum (FInt 1)); fld "In" true "" (VPtr (Some inner)); fld "Skip" true "a,ignore" inner;
                       fld "hidden" false "" inner; fld "B" true "ignored" (VPtr (Some (VBool true)))])).
Example C34_example :
  struct_stats outer = ([(B "A", FInt 1); (B "In.X", FInt 3); (B "In.y", FInt 4); (B "B", FBool true)], false) /\
  leaf outer [1; 0]%nat (B "In.X") (FInt 3) /\
  struct_stats (VStruct [fld "A" true "" (VNum (FInt 1)); fld "P" true "ignore" (VPtr None); fld "Z" true "" (VNum (FInt 2))]) = ([(B "A", FInt 1)], true).
Proof.
  split; [vm_compute; reflexivity|]. split; [|vm_compute; reflexivity].
  change (B "In.X") with (fd_name (fld "In" true "" (VPtr (Some inner))) ++ B "." ++ B "X").
  assert (Hni : forall n v, ~ is_ignored (fld n true "" v)).
  { intros n v (ps & Hf & E & Hi). unfold fld, fd_tag in E. cbn in E. change (B "") with (@nil ascii) in E. destruct ps as [|p [|q ps]].
    - apply elem_of_nil in Hi. exact Hi.
    - cbn in E. subst p. apply elem_of_list_singleton in Hi. discriminate Hi.
    - cbn in E. destruct p; discriminate E. }
  apply leaf_in.
  - eexists. split; [apply pt_next, pt_here; discriminate|reflexivity].
  - apply Hni.
  - reflexivity.
  - apply (leaf_here _ 0 (fld "X" true "" (VNum (FInt 3))) (VNum (FInt 3))).
    + eexists. split; [apply pt_next, pt_here; discriminate|reflexivity].
    + apply Hni.
    + apply pt_here. discriminate.
    + constructor.
Qed.
Example C34_names_example : well_named inner.
Proof.
  eapply wn_struct; [apply pt_here; discriminate| | |].
  - apply (bool_decide_unpack _). vm_compute. exact I.
  - repeat (apply Forall_cons_2; [cbn; apply (bool_decide_unpack _); vm_compute; exact I|]). constructor.
  - repeat (apply Forall_cons_2; [apply wn_other; intros fs H; inversion H|]). constructor.
Qed.
