(** Vocabulary for C97: what the pages of functions have to show. *)
From Coq Require Import Sorted.
From Verif Require Import Base SpecBase SeriesModel Conc ScopeModel ScopeSpec TransformSpec DistModel DistSpec PresentModel SvgModel ReportModel ReportSpec JsonModel JsonSpec FuncStatsModel FuncStatsSpec FuncPageModel.
Local Open Scope Z_scope.

(** The registry's scopes have different names; each is ranged over completely, in any order. *)
Definition ranged (range : list (bytes * rscope)) : Prop :=
  NoDup (map fst range) /\ Forall (fun e => Permutation (rs_range (snd e)) (map_to_list (table (rs_sched (snd e)))) /\ any_order (rs_ord (snd e))) range.
(** Func number [snd f] is registered in the scope named [fst f], with this series key. *)
Definition registered_as (range : list (bytes * rscope)) (f : bytes * nat) (key : series_key) : Prop :=
  exists r n, (fst f, r) ∈ range /\ table (rs_sched r) !! n = Some (Src (snd f) KFunc key).
Definition registered (range : list (bytes * rscope)) (f : bytes * nat) : Prop := exists key, registered_as range f key.
(** Exactly the registered functions, each once, by scope name. *)
Definition not_later (x y : bytes * nat) : Prop := bytes_lt (fst x) (fst y) \/ fst x = fst y.
Definition all_functions (range : list (bytes * rscope)) (l : list (bytes * nat)) : Prop :=
  NoDup l /\ (forall f, f ∈ l <-> registered range f) /\ StronglySorted not_later l.

Section shown.
  Context {F R : Type} (fzero : F) (to32 : Z -> F) (fless : F -> F -> bool) (rng_next : R -> Z * R).
  (** [d] is a copy of a DurationDist into which these durations went since its last Reset, with
      whatever other operations in between. *)
  Definition dist_of (ds : list Z) (d : dist Z F R) : Prop :=
    exists r h, inserts h + 1 < 2 ^ 63 /\ idist_run to32 fless rng_next (idist_new fzero r) h = Ok d /\ recorded h = ds.
  Definition succeeded (c : class) : bool := bool_decide (c = CSuccess).
  (** [r] was read while [sched] happened to a function: each accessor ran after some part of it. *)
  Record read_during (sched : list (action fcall)) (errors_at stimes_at ftimes_at : list (action fcall)) (r : freads F R) : Prop := ReadDuring {
    rd_prefixes : Forall (fun p => p `prefix_of` sched) [fr_current r; fr_highwater r; fr_success r; fr_panics r; errors_at; stimes_at; ftimes_at];
    rd_parents : exists i ord, any_order ord /\ threads (f_exec sched) !! i = Some (FThr (FParents ord) (F_done (FRParents (fr_parents r))));
    rd_errors : Permutation (fr_errors r) (map_to_list (fs_errors (state_after errors_at)));
    rd_sdist : dist_of (fs_success (state_after stimes_at)) (fr_sdist r);
    rd_fdist : dist_of (fs_failure (state_after ftimes_at)) (fr_fdist r) }.
  (** The parents shown: different ones, all of them callers, none missing that called before the
      report asked. *)
  Definition parents_shown (fid : nat -> Z) (sched : list (action fcall)) (ps : list (option Z)) : Prop :=
    exists l, ps = map (option_map fid) l /\ NoDup l /\
      (forall p, p ∈ l -> exists j t err pk d, threads (f_exec sched) !! j = Some t /\ ft_call t = FCall p err pk d) /\
      exists i, forall pre more j t p err pk d, sched = pre ++ more -> (forall u, threads (f_exec pre) !! i = Some u -> ft_pc u = F_iter1) ->
        threads (f_exec pre) !! j = Some t -> ft_call t = FCall p err pk d -> started t -> p ∈ l.
  (** Times as shown: of the durations [ds]. *)
  Definition times_shown (ds : list Z) (l : list (bytes * Z)) : Prop :=
    (B "recent", latest ds) ∈ l /\ (B "sum", wrap64 (zsum ds)) ∈ l /\
    (in64 (zsum ds) -> ds <> [] -> (B "avg", Z.quot (zsum ds) (Z.of_nat (length ds))) ∈ l).
  (** The entry of a function with this id, scope and short name. *)
  Definition entry_of (fid : nat -> Z) (id : Z) (scope short : bytes) (sched e_at s_at f_at : list (action fcall)) (r : freads F R) (l : tfunc) : Prop :=
    let at_ p := ends (state_after p) in
    tf_id l = id /\ tf_name l = scope ++ B "." ++ short /\ parents_shown fid sched (tf_parents l) /\
    (exists c h, tf_counts l = [(B "current", c); (B "highwater", h); (B "success", number_of CSuccess (at_ (fr_success r)));
        (B "errors", number_of_errors (at_ e_at)); (B "panics", number_of CPanic (at_ (fr_panics r)))] /\
       (no_reset sched -> c = Z.of_nat (length (List.filter in_flight (threads (f_exec (fr_current r))))) /\
          (exists pre, pre `prefix_of` fr_highwater r /\ h = fs_current (state_after pre)) /\
          ((forall i t, threads (f_exec (fr_highwater r)) !! i = Some t -> ~ half_started t) ->
             forall pre, pre `prefix_of` fr_highwater r -> fs_current (state_after pre) <= h))) /\
    NoDup (map fst (tf_errors l)) /\ (forall e n, (e, n) ∈ tf_errors l <-> n = number_of (CError e) (at_ e_at) /\ 0 < n) /\
    times_shown (durations succeeded (at_ s_at)) (tf_success l) /\
    times_shown (durations (fun c => negb (succeeded c)) (at_ f_at)) (tf_failure l).
  (** The same for the members of an object of /funcs/json; it has no sum of the durations, but their
      extremes. *)
  Definition jtimes_shown (ds : list Z) (d : jdist) : Prop :=
    jd_recent d = latest ds /\ smallest ds (jd_low d) /\ largest ds (jd_high d) /\
    (in64 (zsum ds) -> ds <> [] -> jd_average d = Z.quot (zsum ds) (Z.of_nat (length ds))).
  Definition members_of (fid : nat -> Z) (id : Z) (scope short : bytes) (sched e_at s_at f_at : list (action fcall)) (r : freads F R) (o : jfunc) : Prop :=
    let at_ p := ends (state_after p) in
    jf_id o = id /\ jf_package o = scope /\ jf_name o = short /\ parents_shown fid sched (jf_parents o) /\
    jf_success o = number_of CSuccess (at_ (fr_success r)) /\ jf_panics o = number_of CPanic (at_ (fr_panics r)) /\
    (no_reset sched -> jf_current o = Z.of_nat (length (List.filter in_flight (threads (f_exec (fr_current r))))) /\
       (exists pre, pre `prefix_of` fr_highwater r /\ jf_highwater o = fs_current (state_after pre)) /\
       ((forall i t, threads (f_exec (fr_highwater r)) !! i = Some t -> ~ half_started t) ->
          forall pre, pre `prefix_of` fr_highwater r -> fs_current (state_after pre) <= jf_highwater o)) /\
    NoDup (map fst (jf_errors o)) /\ (forall e n, (e, n) ∈ jf_errors o <-> n = number_of (CError e) (at_ e_at) /\ 0 < n) /\
    jtimes_shown (durations succeeded (at_ s_at)) (jf_stimes o) /\
    jtimes_shown (durations (fun c => negb (succeeded c)) (at_ f_at)) (jf_ftimes o).
  (** [j] is an object with these members, besides quantiles. *)
  Definition object_of (fid : nat -> Z) (id : Z) (scope short : bytes) (sched e_at s_at f_at : list (action fcall)) (r : freads F R) (j : json) : Prop :=
    exists o qs qf, members_of fid id scope short sched e_at s_at f_at r o /\ func_object o qs qf j.
End shown.
