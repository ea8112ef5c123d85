(** Vocabulary for the layout of spans. *)
From Verif Require Import Base LayoutModel.
Open Scope Z_scope.

(** Well-formed finished spans: distinct ids, no parent id 0, no cycle of
    parents, no span ends before it starts, and a span lies within its parent
    if that one is present too. *)
Record well_formed (spans : list fspan) : Prop := WF {
  wf_ids : NoDup (map sp_id spans);
  wf_parent : forall s p, s ∈ spans -> sp_parent s = Some p -> p <> 0;
  wf_acyclic : exists rank : Z -> nat, forall s p, s ∈ spans -> sp_parent s = Some p -> (rank p < rank (sp_id s))%nat;
  wf_times : forall s, s ∈ spans -> sp_start s <= sp_finish s;
  wf_nested : forall s p, s ∈ spans -> p ∈ spans -> sp_parent s = Some (sp_id p) ->
    sp_start p <= sp_start s /\ sp_finish s <= sp_finish p
}.
(** The entries of the map: every span and every parent. *)
Definition entry (spans : list fspan) (x : Z) : Prop :=
  exists s, s ∈ spans /\ (sp_id s = x \/ sp_parent s = Some x).
(** A possible iteration order of the map. *)
Definition map_order (spans : list fspan) (order : list Z) : Prop :=
  NoDup order /\ forall x, x ∈ order <-> entry spans x.
(** Two spans do not overlap in time. *)
Definition apart (s t : fspan) : Prop := sp_finish s < sp_start t \/ sp_finish t < sp_start s.
