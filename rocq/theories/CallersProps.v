(** Properties C38 (function names) and C39 (package names). *)
From Verif Require Import Base Strings CallersModel CallersSpec CallersProofs.
Local Arguments B : simpl never.

(** C38: the function part is returned exactly for the names that have one. *)
Theorem C38_extract : forall n fn, extract_func_name n = Ok (fn, true) <-> exists dir last, qualified n dir last fn.
Proof. exact extract_iff. Qed.
Print Assumptions C38_extract.

(** C38: all other names are rejected; no index is out of range. *)
Theorem C38_rejects : forall n, (forall dir last fn, ~ qualified n dir last fn) -> extract_func_name n = Ok ([], false).
Proof. exact extract_else. Qed.
Print Assumptions C38_rejects.

(** C38: the name given to an unnamed Task is the function part, or "unknown". *)
Theorem C38_caller : forall n, caller_func n = Ok (B "unknown") \/
  exists m dir last fn, n = Some m /\ qualified m dir last fn /\ caller_func n = Ok fn.
Proof. exact caller_func_name. Qed.
Print Assumptions C38_caller.

Definition ex_name : bytes := B "github.com/spacemonkeygo/monkit/v3.BenchmarkTask.func1".
Example C38_example :
  qualified ex_name (B "github.com/spacemonkeygo/monkit/") (B "v3") (B "BenchmarkTask.func1") /\
  extract_func_name ex_name = Ok (B "BenchmarkTask.func1", true) /\ extract_func_name (B "a/main.") = Ok ([], false) /\ extract_func_name (B "a.b/") = Ok ([], false).
Proof.
  split; [|vm_compute; auto]. split; [reflexivity|]. split; [right; exists (B "github.com/spacemonkeygo/monkit"); reflexivity|].
  split; [intros c Hc; apply elem_of_list_In in Hc; vm_compute in Hc; intuition (subst; discriminate)|].
  split; [|discriminate]. intros c Hc -> . revert Hc. apply (bool_decide_unpack _). vm_compute. exact I.
Qed.

(** C39: with a slash in the package path, Package() gives the path. *)
Theorem C39_path : forall n d last fn, qualified n (d ++ B "/") last fn -> caller_package (Some n) = d ++ B "/" ++ last.
Proof. exact package_path. Qed.
Print Assumptions C39_path.

(** C39: without one, the path with a slash in front. *)
Theorem C39_pathless : forall n last fn, qualified n [] last fn -> caller_package (Some n) = B "/" ++ last.
Proof. exact package_pathless. Qed.
Print Assumptions C39_pathless.

(** C39: hence it is not always the path. *)
Theorem C39_refuted : exists n last fn, qualified n [] last fn /\ caller_package (Some n) <> last.
Proof. exact path_refuted. Qed.
Print Assumptions C39_refuted.

Example C39_example : caller_package (Some ex_name) = B "github.com/spacemonkeygo/monkit/v3" /\ caller_package (Some (B "main.main")) = B "/main".
Proof. vm_compute. auto. Qed.
