(** Vocabulary for StatSourceFromStruct (C34). *)
From Verif Require Import Base Fval StructModel.

(** Following pointers. *)
Inductive points_to : gval -> gval -> Prop :=
| pt_here v : (forall t, v <> VPtr t) -> points_to v v
| pt_next v d : points_to v d -> points_to (VPtr (Some v)) d.
Inductive nil_inside : gval -> Prop :=
| ni_here : nil_inside (VPtr None)
| ni_next v : nil_inside v -> nil_inside (VPtr (Some v)).

(** [v] is a struct, or points to one, whose field number [i] is [f]. *)
Definition has_field (v : gval) (i : nat) (f : gfield) : Prop := exists fs, points_to v (VStruct fs) /\ fs !! i = Some f.
(** The monkit tag is a comma-separated list with "ignore" in it. *)
Definition is_ignored (f : gfield) : Prop :=
  exists parts, Forall (fun p => ","%char ∉ p) parts /\ fd_tag f = join (B ",") parts /\ B "ignore" ∈ parts.
Inductive number : gval -> fval -> Prop :=
| num_num x : number (VNum x) x
| num_bool b : number (VBool b) (FBool b).

(** A numeric or bool field inside [v], at a path of field numbers, with its dotted name. *)
Inductive leaf : gval -> list nat -> bytes -> fval -> Prop :=
| leaf_here v i f d x : has_field v i f -> ~ is_ignored f -> points_to (fd_val f) d -> number d x -> leaf v [i] (fd_name f) x
| leaf_in v i f p n x : has_field v i f -> ~ is_ignored f -> fd_exported f = true -> leaf (fd_val f) p n x ->
    leaf v (i :: p) (fd_name f ++ B "." ++ n) x.
(** A nil pointer that is met: the value itself, any field, or inside an exported field that
    is not ignored. *)
Inductive nil_at : gval -> list nat -> Prop :=
| nil_top v : nil_inside v -> nil_at v []
| nil_field v i f : has_field v i f -> nil_inside (fd_val f) -> nil_at v [i]
| nil_in v i f p : has_field v i f -> ~ is_ignored f -> fd_exported f = true -> nil_at (fd_val f) p -> nil_at v (i :: p).

(** Declaration order. *)
Inductive before : list nat -> list nat -> Prop :=
| b_nil i p : before [] (i :: p)
| b_lt i j p q : (i < j)%nat -> before (i :: p) (j :: q)
| b_eq i p q : before p q -> before (i :: p) (i :: q).

(** Names as Go has them: no dots, and no two fields of a struct with one name (except
    blank fields, which are excluded here). *)
Inductive well_named : gval -> Prop :=
| wn_other v : (forall fs, ~ points_to v (VStruct fs)) -> well_named v
| wn_struct v fs : points_to v (VStruct fs) -> NoDup (map fd_name fs) -> Forall (fun f => "."%char ∉ fd_name f) fs ->
    Forall (fun f => well_named (fd_val f)) fs -> well_named v.
